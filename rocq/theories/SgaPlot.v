(** Model of the SGA plots: kd/viz/_adapters/sga.py:100-728, and of the part of the SGA context
    they read (kd/model/sga/sgapde/context.py:60-166, 398-441, 1058-1092).

    Arrays are those of VizData.v; the grid has one named axis per array dimension.  What a picture shows is
    the data handed to matplotlib. *)
From Coq Require Import QArith Qabs.
From Verif Require Import Base VizData TimePick.
Local Open Scope string_scope.

(** list.index; only used for members *)
Fixpoint index_of (a : string) (l : list string) : nat :=
  match l with [] => 0 | b :: r => if String.eqb a b then 0 else S (index_of a r) end.

(** The context after fit, as far as plots read it.  Coordinates are 1-D, one list per axis. *)
Record context := mkC {
  c_axes : list string; c_coords : string -> list Q; c_lhs : string;
  c_u : arr; c_u_origin : arr; c_ut : arr; c_ut_origin : arr;
  c_rhs : option (arr * arr) }.

(** ** The context's fields *)
(** A data set on a structured grid (context.py:176-213). *)
Record grid := mkG { g_axes : list string; g_coords : string -> list Q; g_u : arr }.
(** What prepares the field used for the search: nothing, metadata generation on a refined grid by a
    surrogate network (context.py:112-164), edge deletion (166-167). *)
Record prep := mkPrep { metadata_on : option (list Q * list Q * arr); delete_edges : bool }.

(** field[slicer] with slice(lo, hi) on one axis, context.py:414-418; 0 <= lo <= hi *)
Definition crop (a : arr) (axis lo hi : nat) : arr :=
  {| shape := firstn axis (shape a) ++ (Nat.min hi (nth axis (shape a) 0) - lo)%nat :: skipn (S axis) (shape a);
     at_ := fun i => at_ a (firstn axis i ++ (lo + nth axis i 0)%nat :: skipn (S axis) i) |}.
(** coords[lo:hi], context.py:420 *)
Definition slice (lo hi : nat) (l : list Q) : list Q := firstn (hi - lo) (skipn lo l).
(** int(n * 0.1), int(n * 0.9), context.py:411-412: the doubles 0.1 and 0.9 lie just above the decimals,
    so that the products truncate to the exact quotients. *)
Definition edge_lo (n : nat) : nat := (n / 10)%nat.
Definition edge_hi (n : nat) : nat := (9 * n / 10)%nat.

(** context.py:92-93, 112-144: the grid searched on, before edge deletion *)
Definition after_metadata (g : grid) (p : prep) : grid :=
  match metadata_on p with
  | None => g
  | Some (x, t, u) => mkG (g_axes g) (fun a => if String.eqb a "x" then x else t) u
  end.
(** _apply_edge_deletion, context.py:398-437 *)
Definition after_edges (g : grid) (p : prep) : grid :=
  if delete_edges p then
    let ax := index_of "x" (g_axes g) in
    let n := nth ax (shape (g_u g)) 0%nat in
    let lo := edge_lo n in let hi := edge_hi n in
    mkG (g_axes g) (fun a => if String.eqb a "x" then slice lo hi (g_coords g a) else g_coords g a) (crop (g_u g) ax lo hi)
  else g.
(** The context: u_origin is the user's field, u the prepared one; the derivatives [ut], [ut_origin] and
    the two sides of the template are functions of the fields (context.py:522-533, 1074-1092); there is a
    template only for the built-in problem names. *)
Definition make_context (g : grid) (p : prep) (lhs : string) (dt : arr -> arr) (template : option (arr -> arr * arr)) : context :=
  let h := after_edges (after_metadata g p) p in
  mkC (g_axes h) (g_coords h) lhs (g_u h) (g_u g) (dt (g_u h)) (dt (g_u g))
      (match template with Some f => Some (fst (f (g_u h)), snd (f (g_u g))) | None => None end).

(** ** Layout *)
(** np.transpose(a, perm): result axis k is axis perm[k] of [a] *)
Definition transpose (a : arr) (perm : list nat) : arr :=
  {| shape := map (fun k => nth k (shape a) 0%nat) perm;
     at_ := fun i => at_ a (map (fun ax => nth (fold_right (fun p k => if Nat.eqb p ax then 0%nat else S k) 0%nat perm) i 0%nat)
                                (seq 0 (List.length perm))) |}.
(** The spatial axes in order, and perm, sga.py:427-432 *)
Definition spatial_axes (c : context) : list string := filter (fun a => negb (String.eqb a (c_lhs c))) (c_axes c).
Definition perm_of (c : context) : list nat :=
  map (fun a => index_of a (c_axes c)) (spatial_axes c) ++ [index_of (c_lhs c) (c_axes c)].

(** _build_field_comparison_nd, sga.py:421-441 (every context of this repository has an axis order);
    [VizData.field_init] is the container's check. *)
Definition field_comparison_data (c : context) : vres field_data :=
  field_init (map (fun a => vector (c_coords c a)) (spatial_axes c)) (vector (c_coords c (c_lhs c)))
             (transpose (c_u_origin c) (perm_of c)) (transpose (c_u c) (perm_of c)) None None.

(** ** Field comparison, sga.py:174-220: columns of the 2-D plot *)
Definition shown_times (nt : nat) : list nat :=
  if Nat.leb nt 3 then seq 0 nt else [0; nt / 2; nt - 1]%nat.

(** A panel: the time in its title and the index of the time drawn (of both fields). *)
Record panel := mkPanel { title : Q; drawn : nat }.
Definition field_panels (d : field_data) : list panel :=
  map (fun i => mkPanel (at_ (t_coords d) [i]) i) (shown_times (size (t_coords d))).

(** ** Time slices, sga.py:265-396 *)
(** One panel per resolved index, and the container of the metadata. *)
Definition time_slices (d : field_data) (slices : option (list Q)) (count : Z)
  : vres (list panel * (list arr * arr * arr * arr * arr)) :=
  match resolve_time_indices (ravel (t_coords d)) slices count with
  | None => VValueError
  | Some (idx, times, _) =>
      match time_slice_init (spatial d) (t_coords d) (true_f d) (pred_f d) (vector times) with
      | VOk s => VOk (map (fun p => mkPanel (snd p) (fst p)) (combine idx times), s)
      | VValueError => VValueError | VTypeError => VTypeError | VIndexError => VIndexError
      end
  end.

(** ** Parity, sga.py:458-555 *)
(** a.reshape(s): the same values in C order; ValueError (None) unless the sizes agree *)
Definition reshape (a : arr) (s : list nat) : option arr :=
  if Nat.eqb (size a) (fold_right Nat.mul 1%nat s)
  then Some {| shape := s; at_ := fun i => nth (fold_left (fun acc p => acc * snd p + fst p)%nat (combine i s) 0%nat) (ravel a) 0%Q |}
  else None.
(** np.dot of a row and the weights *)
Definition qdot (row w : list Q) : Q := fold_right Qplus 0%Q (map (fun p => (fst p * snd p)%Q) (combine row w)).

(** A term of the reported equation: coefficient, label, and whether it has a tree (generated) or is a
    default term. *)
Record eterm := mkT { t_coef : Q; t_label : string; t_generated : bool }.
(** What prediction can use: the stored right-hand side, the outcome of re-evaluating the terms
    (rows of the term matrix and weights), the default columns with their names. *)
Record details := mkD {
  d_cached : option arr; d_eval : option (list (list Q) * list Q);
  d_terms : list eterm; d_defaults : list (string * list Q) }.

(** The third source, sga.py:547-566: the default terms only *)
Definition default_prediction (d : details) : list Q :=
  let n := match d_defaults d with (_, c) :: _ => List.length c | [] => 0%nat end in
  fold_left (fun acc t =>
      if t_generated t then acc
      else let k := if existsb (String.eqb (t_label t)) (map fst (d_defaults d)) then index_of (t_label t) (map fst (d_defaults d)) else 0%nat in
           match nth_error (d_defaults d) k with
           | Some (_, col) => map (fun p => (fst p + t_coef t * snd p)%Q) (combine acc col)
           | None => acc
           end) (d_terms d) (repeat 0%Q n).

(** _evaluate_equation_prediction, sga.py:525-568 *)
Definition prediction (d : details) (ut : arr) : option arr :=
  let stored := match d_cached d with
                | Some a => if shape_eqb (shape a) (shape ut) then Some a else reshape a (shape ut)
                | None => None
                end in
  match stored with
  | Some a => Some a
  | None =>
      match d_eval d with
      | Some (m, w) => reshape (vector (map (fun row => qdot row w) m)) (shape ut)
      | None => reshape (vector (default_prediction d)) (shape ut)
      end
  end.

(** What _parity reports, sga.py:458-523: a warning only, or the picture's points (predicted, actual)
    and the mode named in the summary. *)
Inductive parity_out := ParityWarning | ParityPlot (original : bool) (points : list (Q * Q)).
Definition parity (c : context) (d : option details) (compare_original : bool) : vres parity_out :=
  match d with
  | None => VOk ParityWarning
  | Some d =>
      match prediction d (c_ut c) with
      | None => VOk ParityWarning
      | Some p =>
          let target := if compare_original then c_ut_origin c else c_ut c in
          let '(target, label) :=
            if shape_eqb (shape target) (shape p) then (target, compare_original) else (c_ut c, false) in
          if negb (shape_eqb (shape target) (shape p)) then VOk ParityWarning
          else if Nat.eqb (size target) 0 then VValueError
          else VOk (ParityPlot label (combine (ravel p) (ravel target)))
      end
  end.

(** ** Residual, sga.py:570-658 *)
(** Slicing loop 620-625: the middle of the last spatial axis, until three axes are left *)
Fixpoint middle_slices (fuel : nat) (a : arr) : vres arr :=
  if Nat.leb (List.length (shape a)) 3 then VOk a else
  match fuel with
  | O => VOk a
  | S fuel => let ax := (List.length (shape a) - 2)%nat in
              match take a (nth ax (shape a) 0%nat / 2) ax with VOk b => middle_slices fuel b | e => e end
  end.
(** _safe_bins, sga.py:660-664 *)
Definition safe_bins (values : list Q) (bins : Z) : Z := Z.max 1 (Z.min bins (Z.of_nat (List.length (unique values)))).

(** What _residual computes: the two residual fields in (spatial..., t) layout, and the residual data
    of the metadata; None is a warning instead of a plot. *)
Record residual_plot := mkRes { rp_meta : arr; rp_origin : arr; rp_data : residual_data }.
Definition residual (c : context) : vres (option residual_plot) :=
  match c_rhs c with
  | None => VOk None
  | Some (rhs, rhs_o) =>
      if negb (shape_eqb (shape (c_ut_origin c)) (shape rhs_o) && shape_eqb (shape (c_ut c)) (shape rhs))%bool then VOk None
      else match sub (c_ut_origin c) rhs_o, sub (c_ut c) rhs with
           | Some ro, Some rm =>
               match residual_from (vector (ravel (c_ut_origin c))) (vector (ravel rhs)) None with
               | VOk data => VOk (Some (mkRes (transpose rm (perm_of c)) (transpose ro (perm_of c)) data))
               | VValueError => VValueError | VTypeError => VTypeError | VIndexError => VIndexError
               end
           | _, _ => VOk None
           end
  end.
(** The heat map of the N-D plot, sga.py:702-724: the middle time of the sliced residual *)
Definition residual_heatmap (r : arr) : vres arr :=
  match middle_slices (List.length (shape r)) r with
  | VOk a => take a (last (shape a) 0%nat / 2) (List.length (shape a) - 1)
  | e => e
  end.
