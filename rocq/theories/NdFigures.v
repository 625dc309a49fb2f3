(** Model of the heat maps KD_Discover draws for data with two or more spatial axes:
    kd/viz/_adapters/discover.py 254-302 _residual, 326-377 _residual_plot_nd, 378-421 _field_comparison,
    454-460 _slice_3d_to_2d and 462-536 _field_comparison_nd, on the data contracts of VizData.v.  Of a picture the
    model keeps the cells with their coordinates and values, the colour range and the time in the title; histogram,
    fonts and files are not modelled.  Arrays hold exact rationals. *)
From Coq Require Import String QArith Qabs ZArith List Bool Arith.
From Verif Require Import VizData.
Import ListNotations.
Local Open Scope nat_scope.

Definition vbind {A B} (a : vres A) (f : A -> vres B) : vres B :=
  match a with VOk x => f x | VValueError => VValueError | VTypeError => VTypeError | VIndexError => VIndexError end.

Record heatmap := mkHeat { hm_x : arr; hm_y : arr; hm_c : arr; hm_lo : Q; hm_hi : Q; hm_time : Q }.
(** pcolormesh(x, y, c, shading='auto'): one cell per pair (y[i], x[j]); other sizes are a TypeError (matplotlib also
    takes coordinates with one more entry, the edges of the cells; the coordinates of a grid never have that size) *)
Definition mesh (x y c : arr) (lo hi time : Q) : vres heatmap :=
  if shape_eqb (shape c) [size y; size x] then VOk (mkHeat x y c lo hi time) else VTypeError.
(** np.max(np.abs(a)), a.min(), a.max(): ValueError for an empty array *)
Definition absmax (a : arr) : vres Q := match map Qabs (ravel a) with [] => VValueError | x :: l => VOk (qmax x l) end.
Definition amin (a : arr) : vres Q := match ravel a with [] => VValueError | x :: l => VOk (qmin x l) end.
Definition amax (a : arr) : vres Q := match ravel a with [] => VValueError | x :: l => VOk (qmax x l) end.
(** a[i] of a vector *)
Definition item (a : arr) (i : nat) : vres Q := if Nat.ltb i (size a) then VOk (at_ a [i]) else VIndexError.

(** the loop at 347-351: the last axis at its middle, [k] times *)
Fixpoint mid_cut (k : nat) (a : arr) : vres arr :=
  match k with
  | 0 => VOk a
  | S k' => let ax := length (shape a) - 1 in vbind (take a (nth ax (shape a) 0 / 2) ax) (mid_cut k')
  end.
(** _residual_plot_nd (326-377), the left panel; [coords] are the coordinates of the spatial axes, of which there are
    n_spatial_dims; the fields have the time axis first *)
Definition residual_map (coords : list arr) (t ut yhat : arr) : vres heatmap :=
  match coords with
  | y :: x :: _ =>
      match sub ut yhat with
      | None => VValueError
      | Some r =>
          let k := hd 0 (shape r) / 2 in
          vbind (take r k 0) (fun s => vbind (mid_cut (length coords - 2) s) (fun c =>
            vbind (absmax c) (fun v => vbind (item t k) (fun tk => mesh x y c (- v) v tk))))
      end
  | _ => VValueError
  end.

(** np.transpose(a, [1, ..., n-1, 0]) (395-397) *)
Definition time_last (a : arr) : arr := {| shape := tl (shape a) ++ [hd 0 (shape a)]; at_ := fun idx => at_ a (last idx 0 :: removelast idx) |}.
(** the steps shown (482-487) *)
Definition panel_times (nt : nat) : list nat := if Nat.leb nt 3 then seq 0 nt else [0; nt / 2; nt - 1].
(** one column of the figure: the true and the predicted field at a step *)
Record column := mkCol { c_true : heatmap; c_pred : heatmap }.
Fixpoint vmap {A B} (f : A -> vres B) (l : list A) : vres (list B) :=
  match l with [] => VOk [] | a :: l' => vbind (f a) (fun b => vbind (vmap f l') (fun r => VOk (b :: r))) end.
(** _field_comparison_nd, the panels (481-518) *)
Definition draw_panels (p : field_data) : vres (list column) :=
  let steps := panel_times (size (t_coords p)) in
  match steps, spatial p with
  | [], _ => VValueError                                     (* plt.subplots(2, 0) *)
  | _, y :: x :: _ =>
      vbind (amin (true_f p)) (fun a => vbind (amin (pred_f p)) (fun b => vbind (amax (true_f p)) (fun c => vbind (amax (pred_f p)) (fun e =>
      let lo := qmin a [b] in let hi := qmax c [e] in
      vmap (fun k =>
        vbind (take (true_f p) k (length (shape (true_f p)) - 1)) (fun tr => vbind (take (pred_f p) k (length (shape (pred_f p)) - 1)) (fun pr =>
        vbind (item (t_coords p) k) (fun tk => vbind (mesh x y tr lo hi tk) (fun h1 => vbind (mesh x y pr lo hi tk) (fun h2 => VOk (mkCol h1 h2))))))) steps))))
  | _, _ => VIndexError
  end.
(** _field_comparison_nd (462-536): data with more than two spatial axes are cut first *)
Definition comparison_maps (d : field_data) (slice_axis : Z) (slice_index : option Z) : vres (list column) :=
  vbind (if Nat.ltb 2 (length (spatial d)) then slice_3d_to_2d d slice_axis slice_index else VOk d) draw_panels.
(** What plot_field_comparison does for N-D data (378-421): a warning when the data are refused, else the figure and
    the uncut data in the metadata; None: a warning *)
Record comparison := mkCmp { cmp_columns : list column; cmp_data : field_data }.
Definition field_comparison (coords : list arr) (t ut yhat : arr) (slice_axis : Z) (slice_index : option Z) : vres (option comparison) :=
  match field_new (Some (CList (map CSeq coords))) None t (time_last ut) (time_last yhat) None None with
  | VOk d => vbind (comparison_maps d slice_axis slice_index) (fun cs => VOk (Some (mkCmp cs d)))
  | _ => VOk None
  end.
(** the warnings shown with both figures (272-281, 466-475) *)
Definition notes (n_spatial : nat) : list string :=
  (if Nat.eqb n_spatial 3 then ["3D spatial visualization is experimental; showing 2D slice."]
   else if Nat.ltb 3 n_spatial then ["ND spatial visualization uses degraded slice mode."] (* N: the number *)
   else [])%string.
