(** Model of PDEDataset (kd/dataset/_base.py:280-642), of the train/validation split of
    SparseData (kd/data.py:187-262) and of the DISCOVER adapters
    (kd/model/discover/adapter.py).  Values are [num] (no dtype conversions: inputs are
    numeric and real); random draws are arguments. *)
From Coq Require Import QArith Qround.
From Verif Require Import Base Num Arrays.
Local Open Scope nat_scope.
Local Open Scope string_scope.

(** a dict as the association list of its items *)
Fixpoint sget {B} (d : list (string * B)) (k : string) : option B :=
  match d with [] => None | (x, v) :: d' => if String.eqb x k then Some v else sget d' k end.
Definition skeys {B} (d : list (string * B)) : list string := map fst d.
Definition smem (s : string) (l : list string) : bool := existsb (String.eqb s) l.
Fixpoint snodup (l : list string) : bool := match l with [] => true | s :: l' => negb (smem s l') && snodup l' end.
Fixpoint sindex (s : string) (l : list string) : nat := match l with [] => 0 | x :: l' => if String.eqb x s then 0 else S (sindex s l') end.
Fixpoint natlist_eqb (a b : list nat) : bool :=
  match a, b with [], [] => true | x :: a', y :: b' => Nat.eqb x y && natlist_eqb a' b' | _, _ => false end.

Notation array := (arr num).
(** The constructor's arguments (_base.py:282-300).  [None] is None; an empty or missing
    param_fields is []. *)
Record pde_dict := mkPdeDict { k_x : option (list num); k_t : option (list num); k_usol : option array }.
Record args := mkArgs {
  a_pde : option pde_dict; a_x : option (list num); a_t : option (list num); a_usol : option array;
  a_fields : option (list (string * array)); a_coords : option (list (string * list num)); a_axis : option (list string);
  a_target : string; a_lhs : string; a_params : list (string * array) }.
Record nd := mkNd { n_fields : list (string * array); n_coords : list (string * list num); n_axis : list string; n_target : string; n_lhs : string }.
Record dataset := mkDs { d_x : option (list num); d_t : option (list num); d_usol : array; d_nd : option nd; d_params : list (string * array) }.

(** np.asarray(None, dtype=float).flatten() is [nan]; np.asarray(None) has shape () *)
Definition coord_or_nan (c : option (list num)) : list num := match c with Some l => l | None => [NaN] end.
Definition array_or_scalar (a : option array) : array := match a with Some x => x | None => mkArr [] [NaN] end.
(** _base.py:374-395 _init_legacy_mode *)
Definition init_legacy (x t : list num) (u : array) : res (list num * list num * array) :=
  if natlist_eqb (shape u) [List.length x; List.length t] then Ok (x, t, u) else Err ValueError.
(** _base.py:397-487 _init_nd_mode *)
Definition init_nd (a : args) : res (nd * array) :=
  match a_fields a, a_coords a with
  | Some fields, Some coords =>
      match a_axis a with
      | None => Err ValueError
      | Some axes =>
          if Nat.eqb (List.length fields) 0 then Err ValueError else
          if Nat.eqb (List.length axes) 0 then Err ValueError else
          if negb (snodup axes) then Err ValueError else
          if negb (forallb (fun x => smem x (skeys coords)) axes && forallb (fun x => smem x axes) (skeys coords)) then Err ValueError else
          match sget fields (a_target a) with
          | None => Err ValueError
          | Some usol =>
              if negb (smem (a_lhs a) axes) then Err ValueError else
              let expected := map (fun x => match sget coords x with Some c => List.length c | None => 0 end) axes in
              let shapes := map (fun f => shape (snd f)) fields in
              if existsb (fun s => negb (natlist_eqb s (hd [] shapes))) shapes then Err ValueError else
              if negb (natlist_eqb (hd [] shapes) expected) then Err ValueError else
              Ok (mkNd fields coords axes (a_target a) (a_lhs a), usol)
          end
      end
  | _, _ => Err ValueError
  end.
(** _base.py:350-372 *)
Fixpoint check_params (target : list nat) (ps : list (string * array)) : res unit :=
  match ps with
  | [] => Ok tt
  | (_, p) :: ps' => if negb (natlist_eqb (shape p) target) then Err ValueError
                     else if negb (forallb is_fin (flat p)) then Err ValueError else check_params target ps'
  end.
(** _base.py:314-372 *)
Definition construct (a : args) : res dataset :=
  let has_nd := match a_fields a, a_coords a with None, None => false | _, _ => true end in
  do r <- (if has_nd then
             do n <- init_nd a ; Ok (sget (n_coords (fst n)) "x", sget (n_coords (fst n)) "t", snd n, Some (fst n))
           else match a_pde a, a_x a, a_t a, a_usol a with
                | Some p, _, _, _ => do l <- init_legacy (coord_or_nan (k_x p)) (coord_or_nan (k_t p)) (array_or_scalar (k_usol p)) ;
                                     Ok (Some (fst (fst l)), Some (snd (fst l)), snd l, None)
                | None, Some x, Some t, Some u => do l <- init_legacy x t u ; Ok (Some (fst (fst l)), Some (snd (fst l)), snd l, None)
                | _, _, _, _ => Err ValueError
                end) ;
  let '(x, t, u, n) := r in
  do _ <- check_params (shape u) (a_params a) ;
  Ok (mkDs x t u n (a_params a)).

(** ** Reading points *)
(** usol[i, j] on an array of any rank: IndexError with fewer than two axes or out of range;
    more axes give a sub-array *)
Definition index2 (a : array) (i j : nat) : res array :=
  match shape a with
  | n :: m :: rest => if Nat.ltb i n && Nat.ltb j m then Ok (mkArr rest (firstn (prod rest) (skipn (ravel (n :: m :: rest) (i :: j :: map (fun _ => 0) rest)) (flat a))))
                      else Err IndexError
  | _ => Err IndexError
  end.
(** a[i] on a coordinate array *)
Definition at1 (l : list num) (i : nat) : res num := match nth_error l i with Some v => Ok v | None => Err IndexError end.
(** get_datapoint (_base.py:489-499); len(None) is a TypeError *)
Definition get_datapoint (d : dataset) (x_id t_id : Z) : res (num * num * array) :=
  match d_x d, d_t d with
  | Some x, Some t =>
      if (x_id <? 0)%Z || (Z.of_nat (List.length x) <=? x_id)%Z || (t_id <? 0)%Z || (Z.of_nat (List.length t) <=? t_id)%Z then Err IndexError else
      do xv <- at1 x (Z.to_nat x_id) ; do tv <- at1 t (Z.to_nat t_id) ; do u <- index2 (d_usol d) (Z.to_nat x_id) (Z.to_nat t_id) ; Ok (xv, tv, u)
  | _, _ => Err TypeError
  end.
(** n_samples (_base.py:517-524): a ratio, or a count.  A float count is rejected by
    np.random.choice (TypeError); a negative one too (ValueError). *)
Inductive amount := Count (z : Z) | Ratio (q : Q).
Definition n_samples (total : nat) (n : amount) : res nat :=
  match n with
  | Count z => if (Z.of_nat total <? z)%Z then Err ValueError else if (z <? 0)%Z then Err ValueError else Ok (Z.to_nat z)
  | Ratio q => if Qle_bool q 0 || Qle_bool 1 q then (if Qle_bool q (inject_Z (Z.of_nat total)) then Err TypeError else Err ValueError)
               else Ok (Z.to_nat (Qfloor (inject_Z (Z.of_nat total) * q)))
  end.
(** The values usol[xs, ts] at index arrays, when usol has two axes. *)
Definition pick2 (d : dataset) (x t : list num) (ij : nat * nat) : res (num * num * num) :=
  do xv <- at1 x (fst ij) ; do tv <- at1 t (snd ij) ; do u <- index2 (d_usol d) (fst ij) (snd ij) ;
  match flat u with v :: _ => Ok (xv, tv, v) | [] => Err IndexError end.
(** sample(method='random') (_base.py:526-530): [choice n] is np.random.choice(total, n, replace=False) *)
Definition sample_random (d : dataset) (n : amount) (choice : nat -> list nat) : res (list (num * num * num)) :=
  match d_x d, d_t d with
  | Some x, Some t =>
      do k <- n_samples (List.length x * List.length t) n ;
      match shape (d_usol d) with
      | [n1; n2] => mapM (fun i => if Nat.ltb i (n1 * n2) then pick2 d x t (i / n2, i mod n2) else Err ValueError) (choice k)
      | _ => Err ValueError                             (* too many or not enough values to unpack *)
      end
  | _, _ => Err TypeError
  end.
(** sample(method='uniform') (_base.py:532-541) on a count: [lin len g] is
    np.linspace(0, len - 1, g, dtype=int); meshgrid with its default 'xy' order *)
Definition sample_uniform (d : dataset) (n : nat) (lin : nat -> nat -> list nat) : res (list (num * num * num)) :=
  match d_x d, d_t d with
  | Some x, Some t =>
      if Nat.ltb (List.length x * List.length t) n then Err ValueError else
      let g := Nat.sqrt n in
      mapM (pick2 d x t) (flat_map (fun j => map (fun i => (i, j)) (lin (List.length x) g)) (lin (List.length t) g))
  | _, _ => Err TypeError
  end.
(** sample(method='spline') (_base.py:543-551): [xs] and [ts] are the new grids, [f x t] the
    value of the interpolant; interp2d returns rows for its second argument (x). *)
Definition sample_spline (xs ts : list num) (f : num -> num -> num) : list ((num * num) * num) :=
  combine (flat_map (fun t => map (fun x => (x, t)) xs) ts) (flat_map (fun x => map (fun t => f x t) ts) xs).
(** mesh (_base.py:558-566), indexing 'ij' or 'xy' *)
Definition mesh (ij : bool) (x t : list num) : list (num * num) :=
  if ij then flat_map (fun a => map (fun b => (a, b)) t) x else flat_map (fun b => map (fun a => (a, b)) x) t.
(** get_range (_base.py:606-619): [ss c v] is np.searchsorted(c, v) *)
Definition slice {A} (l : list A) (i j : nat) : list A := firstn (j - i) (skipn i l).
Definition slice2 (a : array) (i1 i2 j1 j2 : nat) : res (list (list num)) :=
  match shape a with
  | [n; m] => Ok (map (fun i => slice (slice (flat a) (i * m) (i * m + m)) j1 j2) (slice (seq 0 n) i1 i2))
  | _ => Err OtherError                                 (* other ranks: a sub-array or IndexError; not modelled *)
  end.
Definition get_range (ss : list num -> num -> nat) (d : dataset) (x0 x1 t0 t1 : num) : res (list num * list num * list (list num)) :=
  match d_x d, d_t d with
  | Some x, Some t =>
      do u <- slice2 (d_usol d) (ss x x0) (ss x x1) (ss t t0) (ss t t1) ;
      Ok (slice x (ss x x0) (ss x x1), slice t (ss t t0) (ss t t1), u)
  | _, _ => Err TypeError
  end.

(** ** Specification *)
(** one coordinate per axis, with matching lengths in order *)
Definition fits (coords : list (string * list num)) (axes : list string) (u : array) : Prop :=
  Forall2 (fun ax n => exists c, sget coords ax = Some c /\ List.length c = n) axes (shape u).
Definition consistent (d : dataset) : Prop :=
  (forall n p, In (n, p) (d_params d) -> shape p = shape (d_usol d) /\ Forall (fun v => is_fin v = true) (flat p)) /\
  match d_nd d with
  | None => exists x t, d_x d = Some x /\ d_t d = Some t /\ shape (d_usol d) = [List.length x; List.length t]
  | Some n => NoDup (n_axis n) /\ (forall a, In a (n_axis n) <-> In a (skeys (n_coords n))) /\ In (n_lhs n) (n_axis n) /\
              In (n_target n, d_usol d) (n_fields n) /\ (forall f u, In (f, u) (n_fields n) -> fits (n_coords n) (n_axis n) u) /\
              d_x d = sget (n_coords n) "x" /\ d_t d = sget (n_coords n) "t"
  end.
(** the value of the field at x-index i and t-index j *)
Definition field_at (d : dataset) (i j : nat) : option num :=
  match d_nd d with
  | None => get (d_usol d) [i; j]
  | Some n => get (d_usol d) (map (fun a => if String.eqb a "x" then i else j) (n_axis n))
  end.
Definition grid_point (d : dataset) (p : num * num * num) : Prop :=
  exists x t i j, d_x d = Some x /\ d_t d = Some t /\ nth_error x i = Some (fst (fst p)) /\ nth_error t j = Some (snd (fst p)) /\ field_at d i j = Some (snd p).
(** [c] increases strictly (no NaN) *)
Definition increasing (c : list num) : Prop := forall i j a b, i < j -> nth_error c i = Some a -> nth_error c j = Some b -> nlt a b = true.
(** np.searchsorted(c, v) on an increasing array *)
Definition searches (ss : list num -> num -> nat) : Prop :=
  forall c v, increasing c -> is_nan v = false -> ss c v <= List.length c /\ forall i a, nth_error c i = Some a -> (i < ss c v <-> nlt a v = true).

(** ** get_derivative (_base.py:592-604) *)
(** np.gradient along one axis of n entries with its default unit spacing, at entry i of the
    profile f (axes of fewer than two entries raise ValueError) *)
Definition gradient1 (n : nat) (f : nat -> Q) (i : nat) : Q :=
  if Nat.eqb i 0 then f 1 - f 0 else if Nat.eqb (S i) n then f i - f (i - 1) else (f (S i) - f (i - 1)) / 2.
(** the field u(i, j) with n rows (x) and m columns (t) *)
Definition get_derivative (axis : string) (n m : nat) (u : nat -> nat -> Q) : res (nat -> nat -> Q) :=
  if String.eqb axis "x" then (if Nat.ltb n 2 then Err ValueError else Ok (fun i j => gradient1 n (fun k => u k j) i))
  else if String.eqb axis "t" then (if Nat.ltb m 2 then Err ValueError else Ok (fun i j => gradient1 m (fun k => u i k) j))
  else Err ValueError.
