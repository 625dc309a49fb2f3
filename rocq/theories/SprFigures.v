(** Model of the figures for KD_Discover_SPR: kd/viz/discover_viz.py [_calculate_pinn_fields] (555-612),
    [plot_spr_residual_analysis] (614-661), [plot_spr_actual_vs_predicted] (664-701), [plot_spr_field_comparison]
    (703-754), and the adapter's [_spr_residual] (579-625) and one-dimensional [_spr_field_comparison] (627-694) of
    kd/viz/_adapters/discover.py.  Numbers are rationals.  A figure is the list of marks drawn on it: where the
    mark is, by the labels of the axes, and its value.  Writing the file is not modelled. *)
From Coq Require Import QArith List Bool Arith ZArith.
From Verif Require Import Base VizData.
Import ListNotations.
Local Open Scope nat_scope.
Local Open Scope list_scope.

(** What is read of Program.task: .ut (None: never set), .ut_cache (a missing attribute and an empty list are
    treated alike), .x (one flattened column for each spatial axis) and .t, flattened. *)
Record task := { tk_ut : option (list Q); tk_cache : list (list Q); tk_x : list (list Q); tk_t : list Q }.
(** The best program after the access to .r_ridge (561) has filled what it can: .y_hat_rhs flattened, and whether
    .Theta is not None. *)
Record prog := { p_yhat : option (list Q); p_theta : bool }.
(** The dictionary of 602-611. *)
Record fields := { f_residual : list Q; f_coords : list (list Q); f_x : list Q; f_t : list Q; f_true : list Q;
                   f_pred : list Q; f_n : nat; f_list : list (list Q) }.

(** numpy [a - b] of two vectors, with broadcasting of a vector of length one. *)
Definition vsub (a b : list Q) : res (list Q) :=
  match a, b with
  | [x], _ => Ok (map (fun y => x - y)%Q b)
  | _, [y] => Ok (map (fun x => x - y)%Q a)
  | _, _ => if List.length a =? List.length b then Ok (map (fun p => fst p - snd p)%Q (combine a b)) else Err ValueError
  end.

(** np.hstack of columns: one row for each place, ValueError when the columns have different lengths (597-598). *)
Definition hstack (cols : list (list Q)) : res (list (list Q)) :=
  match cols with
  | [] => Err ValueError
  | c :: r => if forallb (fun d => List.length d =? List.length c) r
              then Ok (map (fun i => map (fun d => nth i d 0%Q) cols) (seq 0 (List.length c))) else Err ValueError
  end.

(** 574-581: task.ut, recovered from the cache by task.reset_ut(0) (pde_pinn.py:305-306) when never set. *)
Definition the_ut (tk : task) : res (list Q) :=
  match tk_ut tk with
  | Some u => Ok u
  | None => match tk_cache tk with u :: _ => Ok u | [] => Err AttributeError end
  end.
(** The task afterwards. *)
Definition task_after (tk : task) : task :=
  match tk_ut tk, tk_cache tk with
  | None, u :: _ => {| tk_ut := Some u; tk_cache := tk_cache tk; tk_x := tk_x tk; tk_t := tk_t tk |}
  | _, _ => tk
  end.

(** _calculate_pinn_fields (555-612) *)
Definition pinn_fields (tk : task) (p : prog) : res fields :=
  match p_yhat p, p_theta p with
  | Some yh, true =>
      do ut <- the_ut tk ;
      do r <- vsub ut yh ;
      do co <- hstack (tk_x tk ++ [tk_t tk]) ;
      match tk_x tk with
      | [] => Err IndexError
      | x0 :: _ => Ok {| f_residual := r; f_coords := co; f_x := x0; f_t := tk_t tk; f_true := ut; f_pred := yh;
                         f_n := List.length (tk_x tk); f_list := tk_x tk |}
      end
  | _, _ => Err AttributeError
  end.

(** A mark: its place on the Time axis, its place on the Space axis, its value (None: NaN, nothing is drawn). *)
Record mark := { at_time : Q; at_space : Q; shown : option Q }.

(** plot_spr_residual_analysis (614-661), the left figure: the scatter of 640. *)
Definition residual_scatter (tk : task) (p : prog) : res (list mark) :=
  do f <- pinn_fields tk p ;
  if List.length (f_coords f) =? List.length (f_residual f)
  then Ok (map (fun q => {| at_time := nth 1 (fst q) 0%Q; at_space := nth 0 (fst q) 0%Q; shown := Some (snd q) |})
               (combine (f_coords f) (f_residual f)))
  else Err ValueError.

(** The limits of the diagonal, plot_spr_actual_vs_predicted (681-684), the same code as in
    plot_actual_vs_predicted (480-483); min of an empty array raises. *)
Definition parity_limits (yt yp : list Q) : res (Q * Q) :=
  match yt, yp with
  | a :: yt', b :: yp' =>
      let lo := (let m := qmin a yt' in let n := qmin b yp' in if Qle_bool m n then m else n) in
      let hi := (let m := qmax a yt' in let n := qmax b yp' in if Qle_bool n m then m else n) in
      let margin := if Qle_bool (hi - lo) 0 then (1 # 10)%Q else ((1 # 10) * (hi - lo))%Q in
      Ok ((lo - margin)%Q, (hi + margin)%Q)
  | _, _ => Err ValueError
  end.
(** plot_spr_actual_vs_predicted (664-701): the points (true, predicted), which plt.scatter refuses when there are
    not equally many of both, and the limits of the two axes. *)
Definition parity_figure (tk : task) (p : prog) : res (list (Q * Q) * (Q * Q)) :=
  do f <- pinn_fields tk p ;
  if List.length (f_true f) =? List.length (f_pred f)
  then do l <- parity_limits (f_true f) (f_pred f) ; Ok (combine (f_true f) (f_pred f), l)
  else Err ValueError.

(** ** The field comparison *)
(** The i-th of 100 values of np.mgrid[lo:hi:100j] and np.linspace(lo, hi, 100). *)
Definition tick (lo hi : Q) (i : nat) : Q := (lo + inject_Z (Z.of_nat i) * ((hi - lo) / 99))%Q.
Definition spread (lo hi : Q) : list Q := map (tick lo hi) (seq 0 100).

Section Compare.
(** scipy.interpolate.griddata(points, values, query, method='cubic'): None when it raises, otherwise the value
    for each query point, None outside the convex hull (NaN). *)
Variable griddata : list (Q * Q) -> list Q -> option (Q * Q -> option Q).
Definition gd (x t v : list Q) : res (Q * Q -> option Q) :=
  match griddata (combine x t) v with Some g => Ok g | None => Err OtherError end.

(** The gridded array: entry [i][j] belongs to (grid_x[i][j], grid_t[i][j]) = (tick of x i, tick of t j). *)
Definition gridded (g : Q * Q -> option Q) (xlo xhi tlo thi : Q) : list (list (option Q)) :=
  map (fun a => map (fun b => g (a, b)) (spread tlo thi)) (spread xlo xhi).
Definition entry (M : list (list (option Q))) (i j : nat) : option Q := nth j (nth i M []) None.
(** [M.T] of a 100 x 100 array *)
Definition transpose (M : list (list (option Q))) : list (list (option Q)) :=
  map (fun i => map (fun j => entry M j i) (seq 0 100)) (seq 0 100).

(** ax.imshow(M, extent=(l, r, b, top), origin='lower'): the entry [i][j] fills the pixel whose centre is here. *)
Definition imshow (M : list (list (option Q))) (l r b top : Q) : list mark :=
  flat_map (fun i => map (fun j =>
    {| at_time := (l + (inject_Z (Z.of_nat j) + (1 # 2)) * ((r - l) / 100))%Q;
       at_space := (b + (inject_Z (Z.of_nat i) + (1 # 2)) * ((top - b) / 100))%Q;
       shown := entry M i j |}) (seq 0 100)) (seq 0 100).
(** ax.pcolormesh(ts, xs, M, shading='auto') with as many coordinates as entries: the entry [i][j] is drawn at
    (ts[j], xs[i]). *)
Definition pcolormesh (ts xs : list Q) (M : list (list (option Q))) : list mark :=
  flat_map (fun i => map (fun j => {| at_time := nth j ts 0%Q; at_space := nth i xs 0%Q; shown := entry M i j |})
                         (seq 0 (List.length ts))) (seq 0 (List.length xs)).

(** np.nanmin / np.nanmax of two arrays together; None (NaN) when nothing is a number. *)
Definition numbers (l : list (option Q)) : list Q := flat_map (fun o => match o with Some q => [q] | None => [] end) l.
Definition colour_range (a b : list (list (option Q))) : option (Q * Q) :=
  match numbers (List.concat a ++ List.concat b) with [] => None | q :: r => Some (qmin q r, qmax q r) end.

Record comparison := { c_true : list mark; c_pred : list mark; c_range : option (Q * Q) }.

(** plot_spr_field_comparison (703-754); min of an empty column raises. *)
Definition legacy_comparison (tk : task) (p : prog) : res comparison :=
  do f <- pinn_fields tk p ;
  match f_x f, f_t f with
  | x :: xs, t :: ts =>
      let xlo := qmin x xs in let xhi := qmax x xs in let tlo := qmin t ts in let thi := qmax t ts in
      do g <- gd (f_x f) (f_t f) (f_true f) ;
      do h <- gd (f_x f) (f_t f) (f_pred f) ;
      let T := gridded g xlo xhi tlo thi in let P := gridded h xlo xhi tlo thi in
      Ok {| c_true := imshow (transpose T) tlo thi xlo xhi; c_pred := imshow (transpose P) tlo thi xlo xhi;
            c_range := colour_range T P |}
  | _, _ => Err ValueError
  end.

(** np.nan_to_num *)
Definition nan_to_num (M : list (list (option Q))) : list (list (option Q)) :=
  map (map (fun o => match o with Some q => Some q | None => Some 0%Q end)) M.

(** What an adapter method does: a result with a warning and no file, a figure with its data, or an exception that
    leaves the method. *)
Inductive outcome (A : Type) := Warned | Drawn (a : A) | Raised (e : exn) | Other.
Arguments Warned {A}. Arguments Drawn {A} a. Arguments Raised {A} e. Arguments Other {A}.

(** _spr_field_comparison (627-694) with one spatial axis; [Other] is the path for more of them (647-648,
    modelled in DiscoverViz). *)
Definition adapter_comparison (tk : task) (p : prog) : outcome comparison :=
  match pinn_fields tk p with
  | Err _ => Warned
  | Ok f =>
      if 2 <=? f_n f then Other
      else match f_x f, f_t f with
           | x :: xs, t :: ts =>
               let xlo := qmin x xs in let xhi := qmax x xs in let tlo := qmin t ts in let thi := qmax t ts in
               match gd (f_x f) (f_t f) (f_true f) with
               | Err e => Raised e
               | Ok g => match gd (f_x f) (f_t f) (f_pred f) with
                         | Err e => Raised e
                         | Ok h => let T := nan_to_num (gridded g xlo xhi tlo thi) in
                                   let P := nan_to_num (gridded h xlo xhi tlo thi) in
                                   Drawn {| c_true := pcolormesh (spread tlo thi) (spread xlo xhi) T;
                                            c_pred := pcolormesh (spread tlo thi) (spread xlo xhi) P;
                                            c_range := colour_range T P |}
                         end
               end
           | _, _ => Raised ValueError
           end
  end.
End Compare.
Arguments Warned {A}. Arguments Drawn {A} a. Arguments Raised {A} e. Arguments Other {A}.

(** The coordinates as an array, for the container. *)
Definition matrix (rows : list (list Q)) (w : nat) : arr :=
  {| shape := [List.length rows; w]; at_ := fun i => nth (nth 1 i 0) (nth (nth 0 i 0) rows []) 0%Q |}.
(** _spr_residual (579-625): a warning when the fields or the container fail; np.min of nothing raises (602). *)
Definition adapter_residual (tk : task) (p : prog) : outcome (residual_data * nat) :=
  match pinn_fields tk p with
  | Err _ => Warned
  | Ok f => match residual_from (vector (f_true f)) (vector (f_pred f)) (Some (matrix (f_coords f) (S (f_n f)))) with
            | VOk d => match f_true f ++ f_pred f with [] => Raised ValueError | _ => Drawn (d, f_n f) end
            | _ => Warned
            end
  end.
