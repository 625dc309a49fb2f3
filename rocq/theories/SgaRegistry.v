(** Model of the variable registry of kd/model/sga/sgapde/context.py (finite difference mode, no
    metadata, no edge deletion) and of the way KD_SGA.fit_dataset (kd/model/kd_sga.py) assembles
    the solver configuration from the adapter (kd/model/sga/adapter.py). *)
From Coq Require Import QArith Qabs.
From Verif Require Import Base SgaNaming.
Local Open Scope nat_scope.

(** dict lookup on the association list of a dict *)
Fixpoint dget {B} (d : list (pystr * B)) (k : pystr) : option B :=
  match d with [] => None | (x, v) :: d' => if streq x k then Some v else dget d' k end.
Definition keys {B} (d : list (pystr * B)) : list pystr := map fst d.
Fixpoint index_of (a : pystr) (l : list pystr) : nat := match l with [] => 0 | x :: l' => if streq x a then 0 else S (index_of a l') end.
Definition subset (a b : list pystr) : bool := forallb (fun x => inl x b) a.
Definition ux_name := lit "ux"%string.
Definition x_name := lit "x"%string.
Definition zero_name := lit "0"%string.

Section Registry.
Context {A : Type}.
Variables (shp : A -> list nat)                            (* ndarray.shape *)
          (fd : A -> Q -> nat -> res A)                    (* np.apply_along_axis(FiniteDiff, axis, data, delta) *)
          (grid : list Q -> nat -> list nat -> A)          (* np.broadcast_to of a coordinate along an axis *)
          (zeros : list nat -> A).                         (* np.zeros(shape) *)
Record config := mkConfig {
  c_fields : list (pystr * A);               (* fields_data *)
  c_coords : list (pystr * list Q);          (* coords_1d; 1-D arrays (other ranks raise and are not modelled) *)
  c_axis_order : list pystr;                 (* axis_order, [] for None *)
  c_target : pystr; c_lhs : pystr; c_primary : option pystr;
  c_params : list (pystr * A);               (* param_fields *)
  c_uniform : bool }.                        (* enforce_uniform_grid *)

(** context.py:251-298 _validate_registry_names *)
Definition validate_names (cf : config) (axis_order : list pystr) : res unit :=
  let fnames := keys (c_fields cf) in
  do _ <- mapM (validate_axis_name []) axis_order ;
  do _ <- mapM (validate_axis_name []) (keys (c_coords cf)) ;
  do _ <- mapM (validate_name []) fnames ;
  if existsb (fun f => inl f (keys (c_coords cf))) fnames then Err ValueError else
  do dk <- mapM (fun p => build_key (fst p) (snd p) 1) (list_prod fnames axis_order) ;
  if existsb (fun f => inl f dk) fnames then Err ValueError else
  if Nat.eqb (List.length (c_lhs cf)) 1 && inl (c_target cf) fnames && inl (c_target cf ++ c_lhs cf) fnames then Err ValueError else
  if inl ux_name fnames then Err ValueError else Ok tt.
(** np.diff *)
Fixpoint diffs (l : list Q) : list Q := match l with x :: (y :: _) as l' => (y - x)%Q :: diffs l' | _ => [] end.
(** np.allclose(diffs, diffs[0]) with the default tolerances *)
Definition close (a b : Q) : bool := Qle_bool (Qabs (a - b)) ((1 # 100000000) + (1 # 100000) * Qabs b).
Definition uniform (l : list Q) : bool :=
  match diffs l with [] => true | d0 :: _ => forallb (fun d => close d d0) (diffs l) end.
Fixpoint list_eqb (a b : list nat) : bool := match a, b with [], [] => true | x :: a', y :: b' => Nat.eqb x y && list_eqb a' b' | _, _ => false end.
(** context.py:320-359 _validate_structured_grid; the shape test reads coords_1d[axis], which
    exists because the two key sets were compared first *)
Definition grid_shape (cf : config) (axis_order : list pystr) : list nat :=
  map (fun a => match dget (c_coords cf) a with Some c => List.length c | None => 0 end) axis_order.
Definition validate_grid (cf : config) (axis_order : list pystr) : res unit :=
  if negb (distinctb axis_order) then Err ValueError else
  if negb (subset axis_order (keys (c_coords cf)) && subset (keys (c_coords cf)) axis_order) then Err ValueError else
  if existsb (fun f => negb (list_eqb (shp (snd f)) (grid_shape cf axis_order))) (c_fields cf) then Err ValueError else
  if c_uniform cf && existsb (fun a => match dget (c_coords cf) a with Some c => negb (uniform c) | None => false end) axis_order then Err ValueError else Ok tt.
(** context.py:361-377 _compute_delta *)
Definition Qzero (q : Q) : bool := Qeq_bool q 0.
Definition pos (q : Q) : bool := negb (Qle_bool q 0).
Definition neg (q : Q) : bool := negb (Qle_bool 0 q).
Definition compute_delta (coord : list Q) : res Q :=
  match diffs coord with
  | [] => Ok 0%Q
  | d0 :: _ => if existsb Qzero (diffs coord) then Err ValueError
               else if forallb pos (diffs coord) || forallb neg (diffs coord) then Ok d0 else Err ValueError
  end.
(** context.py:300-318 _resolve_primary_spatial_axis *)
Definition resolve_primary (cf : config) (axis_order : list pystr) : res pystr :=
  let spatial := filter (fun a => negb (streq a (c_lhs cf))) axis_order in
  match spatial with
  | [] => Err ValueError
  | s0 :: _ =>
      match c_primary cf with
      | Some p => if inl p axis_order then if streq p (c_lhs cf) then Err ValueError else Ok p else Err ValueError
      | None => Ok (if inl x_name spatial then x_name else s0)
      end
  end.
(** the tables the search works with *)
Record tables := mkTables { t_axes : list pystr; t_delta : list (pystr * Q); t_shape : list nat; t_primary : pystr;
  t_ut : A; t_vars : list (pystr * A); t_den : list (pystr * A) }.
(** context.py:548-573 _compute_grad_fields; [ux] is the derivative of the target along the
    primary axis computed before *)
Definition grad_one (cf : config) (axes : list pystr) (delta : list (pystr * Q)) (primary : pystr) (ux : A) (f : pystr * A) (a : pystr) (g : list (pystr * A)) : res (list (pystr * A)) :=
  if streq a (c_lhs cf) then Ok g else
  do key <- build_key (fst f) a 1 ;
  if inl key (keys g) then Ok g else
  do v <- (if streq (fst f) (c_target cf) && streq a primary then Ok ux
           else fd (snd f) (match dget delta a with Some d => d | None => 0%Q end) (index_of a axes)) ;
  Ok (g ++ [(key, v)]).
Fixpoint grad_loop (cf : config) (axes : list pystr) (delta : list (pystr * Q)) (primary : pystr) (ux : A) (ps : list ((pystr * A) * pystr)) (g : list (pystr * A)) : res (list (pystr * A)) :=
  match ps with [] => Ok g | (f, a) :: ps' => do g' <- grad_one cf axes delta primary ux f a g ; grad_loop cf axes delta primary ux ps' g' end.
(** context.py:972-998 _build_vars with the derivatives *)
Definition coord_entries (cf : config) (axes : list pystr) (shape : list nat) : list (pystr * A) :=
  map (fun a => (a, grid (match dget (c_coords cf) a with Some c => c | None => [] end) (index_of a axes) shape)) (filter (fun a => negb (streq a (c_lhs cf))) axes).
Definition build_vars (cf : config) (axes : list pystr) (shape : list nat) (grad : list (pystr * A)) : list (pystr * A) :=
  c_fields cf ++ coord_entries cf axes shape ++ c_params cf ++ [(zero_name, zeros shape)] ++ grad.
(** context.py:22-158, 233-249, 440-546, 960-970, 1000-1033: the constructor, in the order of its checks.
    uxx, uxxx and the *_origin copies (which can only repeat the failure of ux) are left out, as
    are the ground-truth error prints. *)
Definition make_context (cf : config) : res tables :=
  let axes := match c_axis_order cf with [] => keys (c_coords cf) | l => l end in
  match axes with [] => Err ValueError | _ =>
  do _ <- validate_names cf axes ; do _ <- validate_grid cf axes ;
  do deltas <- mapM (fun a => do d <- compute_delta (match dget (c_coords cf) a with Some c => c | None => [] end) ; Ok (a, d)) axes ;
  match dget (c_fields cf) (c_target cf) with None => Err ValueError | Some u =>
  do primary <- resolve_primary cf axes ;
  let shape := grid_shape cf axes in
  match coord_entries cf axes shape with [] => Err ValueError | _ =>
  if negb (inl (c_lhs cf) axes) then Err ValueError else
  let dl a := match dget deltas a with Some d => d | None => 0%Q end in
  do ut <- fd u (dl (c_lhs cf)) (index_of (c_lhs cf) axes) ;
  do ux <- fd u (dl primary) (index_of primary axes) ;
  do grad <- grad_loop cf axes deltas primary ux (list_prod (c_fields cf) axes) [] ;
  do forbidden <- mapM (fun f => build_key (fst f) (c_lhs cf) 1) (c_fields cf) ;
  if existsb (fun k => inl k (keys grad)) forbidden then Err ValueError else
  let vars := build_vars cf axes shape grad in
  if inl (c_lhs cf) (keys vars) then Err ValueError else
  Ok (mkTables axes deltas shape primary ut vars (coord_entries cf axes shape))
  end end end.
End Registry.

(** KD_SGA.fit_dataset up to the SolverConfig call (kd_sga.py:104-181).  The adapter's dictionary
    (adapter.py:20-66) has, in the N-D branch, "target_field" and "lhs_axis" among its keys, in the
    legacy branch neither.  Empty strings are false like None. *)
Record kwargs := mkKw { kw_target : option pystr; kw_lhs : option pystr }.
(** `self.x or kwargs.pop(k, None) or default` : the value, and whether the key is popped *)
Definition pick (own : option pystr) (kw : option pystr) (default : pystr) : pystr * option pystr :=
  match own with
  | Some (c :: s) => (c :: s, kw)
  | _ => (match kw with Some (c :: s) => c :: s | _ => default end, None)
  end.
(** the call SolverConfig(target_field=..., lhs_axis=..., **solver_kwargs): a key still in the
    dictionary is a duplicate keyword argument *)
Definition fit_config (own_target own_lhs : option pystr) (kw : kwargs) : res (pystr * pystr) :=
  let t := pick own_target (kw_target kw) (lit "u"%string) in let l := pick own_lhs (kw_lhs kw) (lit "t"%string) in
  match snd t, snd l with None, None => Ok (fst t, fst l) | _, _ => Err TypeError end.
