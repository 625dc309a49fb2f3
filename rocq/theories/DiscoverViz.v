(** Model of the DISCOVER plots: kd/viz/_adapters/discover.py (history plots, best program, time bins) and the fields computed in
    kd/viz/discover_viz.py (109-373), next to the values the search itself uses (kd/model/discover/functions.py, execute.py).
    Drawing is not modelled.  Numbers of the fields are rationals. *)
From Coq Require Import QArith Qabs Qround Ascii.
From Verif Require Import Base Num FiniteDiff.
Local Open Scope string_scope.
Local Open Scope nat_scope.
Local Open Scope list_scope.

(** ** _build_reward_evolution (adapter 808-838) *)
Record evolution := { ev_steps : list nat; ev_best : list num; ev_max : list num; ev_mean : list num }.
(** the loop over the batches (822-830); [mean] is np.mean; an empty batch makes np.max raise ValueError *)
Fixpoint evolve (mean : list num -> num) (best : num) (rs : list (list num)) : res (list num * list num * list num) :=
  match rs with
  | [] => Ok ([], [], [])
  | b :: r =>
      do m <- npmax b ;
      let best' := pymax best m in
      do z <- evolve mean best' r ;
      let '(bs, ms, us) := z in Ok (best' :: bs, m :: ms, mean b :: us)
  end.
(** None: no history *)
Definition reward_evolution (mean : list num -> num) (rs : list (list num)) : res (option evolution) :=
  match rs with
  | [] => Ok None
  | _ => do z <- evolve mean NInf rs ;
         let '(bs, ms, us) := z in Ok (Some {| ev_steps := seq 1 (List.length rs); ev_best := bs; ev_max := ms; ev_mean := us |})
  end.

(** ** _density (adapter 116-173) *)
(** history[i] of Python *)
Definition py_get {A} (l : list A) (i : Z) : res A :=
  let n := Z.of_nat (List.length l) in
  let j := if (i <? 0)%Z then (i + n)%Z else i in
  if (j <? 0)%Z then Err IndexError else match nth_error l (Z.to_nat j) with Some x => Ok x | None => Err IndexError end.
(** list(range(0, n, step)) *)
Definition range_step (n step : nat) : list Z := map (fun k => Z.of_nat (k * step)) (seq 0 ((n + step - 1) / step)).
(** the epochs drawn when none are given (135-140) *)
Definition sampled_epochs (n max_curves : nat) : list Z :=
  let es := range_step n (Nat.max 1 (n / max_curves)) in
  if existsb (Z.eqb (Z.of_nat n - 1)) es then es else es ++ [(Z.of_nat n - 1)%Z].
Record density_plot (A : Type) := { curves : list (Z * A); reported : list Z }.
Arguments curves {A}. Arguments reported {A}.
(** Ok None: a warning instead of a plot *)
Definition density {A} (history : list A) (epoches : option (list Z)) (max_curves : Z) : res (option (density_plot A)) :=
  let n := List.length history in
  if n =? 0 then Ok None
  else
    let mc := Z.to_nat (Z.max 1 max_curves) in
    let eps := match epoches with Some e => Some e | None => if mc <? n then Some (sampled_epochs n mc) else None end in
    do data <- match eps with
               | None => Ok history
               | Some e => mapM (py_get history) (filter (fun i => (i <? Z.of_nat n)%Z) e)
               end ;
    match data with
    | [] => Ok None
    | _ =>
        (* label: epoches[idx] if epoches else idx (147) *)
        let label (k : nat) := match eps with Some (e0 :: er) => nth k (e0 :: er) 0%Z | _ => Z.of_nat k end in
        Ok (Some {| curves := combine (map label (seq 0 (List.length data))) data;
                    reported := match eps with Some e => e | None => map Z.of_nat (seq 0 (List.length data)) end |})
    end.

(** ** _get_best_program (adapter 840-850): an attribute holds nothing, one program or a list of programs or Nones *)
Inductive holder (P : Type) := Nothing | One (p : P) | Many (l : list (option P)).
Arguments Nothing {P}. Arguments One {P}. Arguments Many {P}.
Definition unwrap {P} (h : holder P) : option P :=
  match h with Nothing => None | One p => Some p | Many [] => None | Many (x :: _) => x end.
Definition best_program {P} (model searcher : holder P) : option P :=
  match unwrap model with Some p => Some p | None => unwrap searcher end.

(** ** Terms as trees (kd/model/discover/stridge.py Node) *)
(** [f(c) for c in l] *)
Definition emap {A B} (f : A -> res B) : list A -> res (list B) :=
  fix go (l : list A) := match l with [] => Ok [] | x :: r => do y <- f x ; do ys <- go r ; Ok (y :: ys) end.
Inductive node := Nd (val : string) (children : list node).
(** str.removesuffix('_t') *)
Definition base_name (s : string) : string :=
  let n := String.length s in
  if (2 <=? n) && String.eqb (substring (n - 2) 2 s) "_t" then substring 0 (n - 2) s else s.
(** a numpy value: a number or an array over the spatial grid *)
Inductive value := Sc (q : Q) | Ar (f : list nat -> Q).
Definition entry (v : value) (idx : list nat) : Q := match v with Sc q => q | Ar f => f idx end.
Definition lift1 (g : Q -> Q) (v : value) : value := match v with Sc q => Sc (g q) | Ar f => Ar (fun i => g (f i)) end.
Definition lift2 (g : Q -> Q -> Q) (v w : value) : value :=
  match v, w with Sc a, Sc b => Sc (g a b) | _, _ => Ar (fun i => g (entry v i) (entry w i)) end.
Definition arg {A} (l : list A) (k : nat) : res A := match nth_error l k with Some x => Ok x | None => Err IndexError end.
(** _COORD_TO_AXIS and _infer_axis (discover_viz.py:145, 225-230) *)
Definition axis_of (n : node) : res nat :=
  match n with Nd v _ => if String.eqb v "x1" then Ok 0 else if String.eqb v "x2" then Ok 1 else if String.eqb v "x3" then Ok 2 else Err ValueError end.
Definition eps8 : Q := 1 # 100000000.

Section Eval.
(** the spatial grid, the snapshot, sin/cos/tan, and float(text) *)
Context (shape : list nat) (u : list nat -> Q) (fn : string -> Q -> Q) (num_of : string -> option Q).

(** *** The plot: _finite_difference_nd, _finite_difference (109-124) *)
(** np.gradient(f, dx, axis, edge_order=2): central inside, one-sided ends; an axis that does not exist or has fewer than 3 points
    raises ValueError *)
Definition gradient (f : list nat -> Q) (dx : Q) (ax : nat) : res (list nat -> Q) :=
  let n := nth ax shape 0 in
  if negb (ax <? List.length shape) then Err ValueError
  else if n <? 3 then Err ValueError
  else Ok (fun idx =>
    let l := line shape f ax idx in
    let i := nth ax idx 0 in
    let at_ k := nth k l 0%Q in
    if i =? 0 then ((- (3 # 2) / dx) * at_ 0%nat + (2 / dx) * at_ 1%nat + (- (1 # 2) / dx) * at_ 2%nat)%Q
    else if i =? n - 1 then (((1 # 2) / dx) * at_ (n - 3)%nat + (- (2) / dx) * at_ (n - 2)%nat + ((3 # 2) / dx) * at_ (n - 1)%nat)%Q
    else ((at_ (i + 1)%nat - at_ (i - 1)%nat) / (2 * dx))%Q).
Fixpoint gradients (k : nat) (f : list nat -> Q) (dx : Q) (ax : nat) : res (list nat -> Q) :=
  match k with 0 => Ok f | S k' => do g <- gradient f dx ax ; gradients k' g dx ax end.
(** [xs] is x_coords; [spat] the spatial coordinates and spacings of N-D data (126-223) *)
Context (xs : list Q) (spat : option (list (list Q) * list Q)).
(** coords.reshape(...) broadcast over the snapshot (155-171) *)
Definition broadcast (cs : list (list Q)) (ax : nat) : res value :=
  match nth_error cs ax with
  | None => Err ValueError
  | Some c => if List.length c =? nth ax shape 0 then Ok (Ar (fun idx => nth (nth ax idx 0) c 0%Q)) else Err ValueError
  end.
Definition plot_leaf (v : string) : res value :=
  if String.eqb v "u1" then Ok (Ar u)
  else if String.eqb v "x1" then match spat with Some (cs, _) => broadcast cs 0 | None => Ok (Ar (fun idx => nth (nth 0 idx 0) xs 0%Q)) end
  else match spat, (if String.eqb v "x2" then Some 1 else if String.eqb v "x3" then Some 2 else None) with
       | Some (cs, _), Some ax => broadcast cs ax
       | _, _ => match num_of v with Some q => Ok (Sc q) | None => Err ValueError end
       end.
(** diff, diff2, diff3, diff4: on N-D data the flattened result fits nowhere (simplified to the ValueError this ends in) *)
Definition plot_diff (k : nat) (v : value) : res value :=
  match v, spat with
  | Sc _, _ => Err AttributeError
  | _, Some _ => Err ValueError
  | Ar f, None => do g <- gradients k f (nth 1%nat xs 0 - nth 0%nat xs 0)%Q 0 ; Ok (Ar g)
  end.
(** Diff, Diff2 and their 3-D names (206-213) *)
Definition plot_partial (k : nat) (v : value) (coord : node) : res value :=
  do ax <- axis_of coord ;
  do dx <- match spat with Some (_, dxs) => arg dxs ax | None => Ok (nth 1%nat xs 0 - nth 0%nat xs 0)%Q end ;
  match v with Sc _ => Err ValueError | Ar f => do g <- gradients k f dx ax ; Ok (Ar g) end.
(** the Laplacian (214-220) *)
Definition plot_lap (v : value) : res value :=
  match spat with
  | None => plot_diff 2 v
  | Some (_, dxs) =>
      match v with
      | Sc _ => Err ValueError
      | Ar f => do gs <- mapM (fun ax => gradients 2 f (nth ax dxs 0%Q) ax) (seq 0 (List.length dxs)) ;
                Ok (Ar (fun idx => fold_left (fun s g => (s + g idx)%Q) gs 0%Q))
      end
  end.
Definition qpow (k : positive) (a : Q) : Q := Qpower_positive a k.
(** The operations (175-223) on the values of the children *)
Definition plot_op (op : string) (cs : list node) (vs : list value) : res value :=
  let one g := do a <- arg vs 0 ; Ok (lift1 g a) in
  let two g := do a <- arg vs 0 ; do b <- arg vs 1 ; Ok (lift2 g a b) in
  if String.eqb op "add" then two Qplus
  else if String.eqb op "sub" then two Qminus
  else if String.eqb op "mul" then two Qmult
  else if String.eqb op "div" then two (fun a b => (a / (b + eps8))%Q)
  else if String.eqb op "n2" then one (qpow 2)
  else if String.eqb op "n3" then one (qpow 3)
  else if String.eqb op "n4" then one (qpow 4)
  else if String.eqb op "n5" then one (qpow 5)
  else if String.eqb op "inv" then one (fun a => (1 / (a + eps8))%Q)
  else if String.eqb op "neg" then one Qopp
  else if existsb (String.eqb op) ["sin"; "cos"; "tan"] then one (fn op)
  else if String.eqb op "diff" then do a <- arg vs 0 ; plot_diff 1 a
  else if String.eqb op "diff2" then do a <- arg vs 0 ; plot_diff 2 a
  else if String.eqb op "diff3" then do a <- arg vs 0 ; plot_diff 3 a
  else if String.eqb op "diff4" then do a <- arg vs 0 ; plot_diff 4 a
  else if existsb (String.eqb op) ["Diff"; "Diff_3"] then do a <- arg vs 0 ; do c <- arg cs 1 ; plot_partial 1 a c
  else if existsb (String.eqb op) ["Diff2"; "Diff2_3"] then do a <- arg vs 0 ; do c <- arg cs 1 ; plot_partial 2 a c
  else if existsb (String.eqb op) ["lap"; "lap_3"] then do a <- arg vs 0 ; plot_lap a
  else Err ValueError.
(** _evaluate_term_recursively (126-223) *)
Fixpoint plot_eval (n : node) : res value :=
  match n with
  | Nd v cs => match cs with [] => plot_leaf v | _ => do vs <- emap plot_eval cs ; plot_op (base_name v) cs vs end
  end.

(** *** The search: functions.py and utils_fd.py on the same snapshot.  [X] lists the coordinates of the axes.
    The time axis is left out: every routine works time by time.  Not modelled: the Laplacians, and derivatives of expressions
    of coordinates alone. *)
Context (X : list (list Q)).
(** X[k] is a column; numpy aligns it with the last two axes of the field (one spatial dimension: with the first) *)
Definition search_leaf (v : string) : res value :=
  let d := List.length shape in
  if String.eqb v "u1" then Ok (Ar u)
  else match axis_of (Nd v []) with
       | Ok k => match nth_error X k with
                 | Some c => let ax := d - 2 in if List.length c =? nth ax shape 0 then Ok (Ar (fun idx => nth (nth ax idx 0) c 0%Q)) else Err ValueError
                 | None => Err IndexError
                 end
       | Err _ => Err IndexError
       end.
(** a routine for lines applied along an axis; [lim] points are needed *)
Definition search_along (g : list Q -> Q -> res (list Q)) (lim dims : nat) (v : value) (coord : node) : res value :=
  match axis_of coord, v with
  | Ok ax, Ar f =>
      match nth_error X ax with
      | Some c =>
          if negb (List.length shape =? dims) || negb (ax <? dims) then Err ValueError
          else if (List.length c <? 3) || (nth ax shape 0 <? lim) then Err IndexError
          else Ok (Ar (fun idx => match along g shape f (nth 2%nat c 0 - nth 1%nat c 0)%Q ax idx with Ok q => q | Err _ => 0%Q end))
      | None => Err IndexError
      end
  | Err e, _ => Err e
  | _, Sc _ => Err AttributeError
  end.
(** the derivative routines (functions.py:54-63, utils_fd.py:34-300), None for other names *)
Definition search_diff (op : string) : option (value -> node -> res value) :=
  let tab := [("diff", search_along disc_diff 3 1); ("diff2", search_along disc_diff2 4 1); ("diff3", search_along disc_diff3 4 1);
              ("diff4", search_along disc_diff4 4 1); ("Diff", search_along (fun l d => Ok (wrap_diff l d)) 2 2);
              ("Diff2", search_along (fun l d => Ok (wrap_diff2 l d)) 2 2); ("Diff_3", search_along disc_diff 3 3);
              ("Diff2_3", search_along disc_diff2 4 3)] in
  option_map snd (find (fun p => String.eqb (fst p) op) tab).
(** the other operations (functions.py:26-32, 104-129), without protection *)
Definition search_op (op : string) (vs : list value) : res value :=
  let one g := do a <- arg vs 0 ; Ok (lift1 g a) in
  let two g := do a <- arg vs 0 ; do b <- arg vs 1 ; Ok (lift2 g a b) in
  if String.eqb op "add" then two Qplus
  else if String.eqb op "sub" then two Qminus
  else if String.eqb op "mul" then two Qmult
  else if String.eqb op "div" then two Qdiv
  else if String.eqb op "n2" then one (qpow 2)
  else if String.eqb op "n3" then one (qpow 3)
  else if String.eqb op "n4" then one (qpow 4)
  else if String.eqb op "n5" then one (qpow 5)
  else if String.eqb op "inv" then one Qinv
  else if String.eqb op "neg" then one Qopp
  else if existsb (String.eqb op) ["sin"; "cos"; "tan"] then one (fn op)
  else Err ValueError.
(** python_execute (execute.py:7-49), as the recursive evaluation it is (C03, C04); the variable of a derivative is used as it is *)
Fixpoint search_eval (n : node) : res value :=
  match n with
  | Nd v cs =>
      match cs with
      | [] => search_leaf v
      | c1 :: _ => match search_diff v with
                   | Some d => do a <- search_eval c1 ; do c <- arg cs 1 ; d a c
                   | None => do vs <- emap search_eval cs ; search_op v vs
                   end
      end
  end.
End Eval.

(** ** The fields (232-373) *)
(** Theta @ w, or with a constant if there is one coefficient more (267-270, 346-349) *)
Fixpoint dot (a b : list Q) : Q := match a, b with x :: a', y :: b' => (x * y + dot a' b')%Q | _, _ => 0%Q end.
Definition rhs_ok (nterms nw : nat) : bool := (nw =? nterms) || (nw =? S nterms).
Definition rhs (row w : list Q) : Q :=
  if List.length w =? S (List.length row) then (dot row (removelast w) + last w 0)%Q else dot row w.
Record fields := { f_residual : list Q; f_coords : list (Q * Q); f_yhat : nat -> list nat -> Q; f_times : list nat }.
(** _calculate_pde_fields, one spatial dimension (251-294): [u i t] is u[i, t]; time is the column number.
    Terms are evaluated column by column; the flattened arrays run over space first, then time. *)
Definition fields_1d fn num_of (n m : nat) (x : list Q) (u ut : nat -> nat -> Q) (terms : list node) (w : list Q) : res fields :=
  do Th <- mapM (fun term => mapM (fun t => plot_eval [n] (fun idx => u (nth 0 idx 0) t) fn num_of x None term) (seq 0 m)) terms ;
  if negb (rhs_ok (List.length terms) (List.length w)) then Err ValueError
  else
    let yhat t idx := rhs (map (fun col => entry (nth t col (Sc 0)) idx) Th) w in
    let cells := list_prod (seq 0 n) (seq 0 m) in
    Ok {| f_residual := map (fun c => (ut (fst c) (snd c) - yhat (snd c) [fst c])%Q) cells;
          f_coords := map (fun c => (nth (fst c) x 0%Q, inject_Z (Z.of_nat (snd c)))) cells;
          f_yhat := yhat; f_times := seq 0 m |}.
(** np.unique: sorted without repetitions *)
Fixpoint uinsert (a : Q) (l : list Q) : list Q :=
  match l with [] => [a] | b :: r => match Qcompare a b with Lt => a :: l | Eq => l | Gt => b :: uinsert a r end end.
Definition unique (l : list Q) : list Q := fold_right uinsert [] l.
(** coordinates and spacings of N-D data (313-330) *)
Definition spatial (X : list (list Q)) : res (list (list Q) * list Q) :=
  do l <- mapM (fun c => let q := unique c in
                         if List.length q <? 2 then Err ValueError
                         else let dx := (nth 1%nat q 0 - nth 0%nat q 0)%Q in if Qeq_bool dx 0 then Err ValueError else Ok (q, dx)) X ;
  Ok (map fst l, map snd l).
(** all indices of a grid, last axis fastest *)
Fixpoint indices (shape : list nat) : list (list nat) :=
  match shape with [] => [[]] | n :: s => flat_map (fun i => map (cons i) (indices s)) (seq 0 n) end.
(** _calculate_pde_fields_nd (297-373): time first *)
Definition fields_nd fn num_of (m : nat) (shape : list nat) (X : list (list Q)) (u ut : nat -> list nat -> Q) (terms : list node) (w : list Q) : res fields :=
  do sp <- spatial X ;
  do Th <- mapM (fun term => mapM (fun t => plot_eval shape (u t) fn num_of (hd [] (fst sp)) (Some sp) term) (seq 0 m)) terms ;
  if negb (rhs_ok (List.length terms) (List.length w)) then Err ValueError
  else
    let yhat t idx := rhs (map (fun col => entry (nth t col (Sc 0)) idx) Th) w in
    Ok {| f_residual := map (fun c => (ut (fst c) (snd c) - yhat (fst c) (snd c))%Q) (list_prod (seq 0 m) (indices shape));
          f_coords := []; f_yhat := yhat; f_times := seq 0 m |}.

(** ** _spr_field_comparison_nd: time bins (adapter 706-741) *)
(** np.linspace(lo, hi, 6)[i] *)
Definition edge (lo hi : Q) (i : nat) : Q := (lo + inject_Z (Z.of_nat i) * ((hi - lo) / 5))%Q.
Definition center (lo hi : Q) (i : nat) : Q := ((1 # 2) * (edge lo hi i + edge lo hi (S i)))%Q.
Definition near (a b : Q) : bool := Qle_bool (Qabs (a - b)) ((1 # 100000000) + (1 # 100000) * Qabs b)%Q.
Definition in_bin (lo hi : Q) (i : nat) (t : Q) : bool :=
  (Qle_bool (edge lo hi i) t && negb (Qle_bool (edge lo hi (S i)) t)) || ((i =? 4) && near t (edge lo hi 5)).
(** what is interpolated for bin i: None below 4 points; [pts] are rows (t, anything) *)
Definition bin_rows {A} (lo hi : Q) (rows : list (Q * A)) (i : nat) : option (list (Q * A)) :=
  let r := filter (fun p => in_bin lo hi i (fst p)) rows in if List.length r <? 4 then None else Some r.
