(** Model of the neural network side of SGA: MetaNN training data (kd/model/sga/sgapde/metann.py) and the
    use_autograd, use_metadata and delete_edges branches of ProblemContext
    (kd/model/sga/sgapde/context.py).  Numbers are rationals; float32/float64 rounding is not modelled. *)
From Coq Require Import QArith Qabs Qround Permutation.
From Verif Require Import Base Arrays SgaNaming SgaRegistry.
Local Open Scope nat_scope.

(** arr.mean() *)
Definition sumQ (l : list Q) : Q := fold_right Qplus 0%Q l.
Definition meanQ (l : list Q) : Q := (sumQ l / inject_Z (Z.of_nat (List.length l)))%Q.
(** arr.var(): the number whose square root is arr.std() *)
Definition varQ (l : list Q) : Q := meanQ (map (fun x => ((x - meanQ l) * (x - meanQ l))%Q) l).
(** arr.min(), arr.max() of a non-empty array (an empty one is a ValueError, see [metadata]) *)
Definition minQ (l : list Q) : Q := match l with [] => 0%Q | x :: l' => fold_left (fun a b => if Qle_bool a b then a else b) l' x end.
Definition maxQ (l : list Q) : Q := match l with [] => 0%Q | x :: l' => fold_left (fun a b => if Qle_bool a b then b else a) l' x end.
(** np.linspace(lo, hi, n) *)
Definition linspace (lo hi : Q) (n : nat) : list Q :=
  map (fun i => (lo + inject_Z (Z.of_nat i) * ((hi - lo) / inject_Z (Z.of_nat (n - 1))))%Q) (seq 0 n).
(** np.broadcast_to of a coordinate along an axis: metann.py:24-36, context.py:379-395 *)
Definition coord_grid (c : list Q) (axis : nat) (s : list nat) : arr Q := tabulate s (fun idx => nth (nth axis idx 0) c 0%Q).
(** np.stack(columns, axis=1) *)
Definition stack (n : nat) (cols : list (list Q)) : list (list Q) := map (fun k => map (fun c => nth k c 0%Q) cols) (seq 0 n).
(** d[k] = v on a dict *)
Fixpoint dset {B} (d : list (pystr * B)) (k : pystr) (v : B) : list (pystr * B) :=
  match d with [] => [(k, v)] | (x, w) :: d' => if streq x k then (x, v) :: d' else (x, w) :: dset d' k v end.
Definition coord_of (coords : list (pystr * list Q)) (a : pystr) : list Q := match dget coords a with Some c => c | None => [] end.
(** the (N, d) array of the coordinates of all cells: metann.py:58-66, context.py:717-723 and 849-857
    ([coord_grids] are [coord_grid] of the coordinates in axis order) *)
Definition grid_shape_of (coords : list (pystr * list Q)) (axes : list pystr) : list nat := map (fun a => List.length (coord_of coords a)) axes.
Definition grid_rows (coords : list (pystr * list Q)) (axes : list pystr) : list (list Q) :=
  let s := grid_shape_of coords axes in
  stack (prod s) (map (fun j => flat (coord_grid (coord_of coords (nth j axes [])) j s)) (seq 0 (List.length axes))).

Section Auto.
Variable sd : list Q -> Q.                                  (* arr.std() *)
(** metann.py:69-75: means and standard deviations, with 1 in place of 0 *)
Record stats := mkStats { x_mean : list Q; x_std : list Q; y_mean : Q; y_std : Q }.
Definition safe (s : Q) : Q := if Qeq_bool s 0 then 1%Q else s.
Definition columns (d : nat) (X : list (list Q)) : list (list Q) := map (fun j => map (fun r => nth j r 0%Q) X) (seq 0 d).
Definition stats_of (d : nat) (X : list (list Q)) (y : list Q) : stats :=
  mkStats (map meanQ (columns d X)) (map (fun c => safe (sd c)) (columns d X)) (meanQ y) (safe (sd y)).
(** (X - x_mean) / x_std, one row *)
Definition norm_row (st : stats) (r : list Q) : list Q :=
  map (fun p => ((fst p - fst (snd p)) / snd (snd p))%Q) (combine r (combine (x_mean st) (x_std st))).
(** metann.py:39-88 prepare_training_data, for one-dimensional coordinates *)
Definition prepare (coords : list (pystr * list Q)) (field : arr Q) (axis_order : list pystr) (normalize : bool) : res (list (list Q) * list Q * stats) :=
  let axes := match axis_order with [] => keys coords | l => l end in
  if negb (distinctb axes) then Err ValueError else
  if negb (subset axes (keys coords) && subset (keys coords) axes) then Err ValueError else
  if negb (list_eqb (shape field) (grid_shape_of coords axes)) then Err ValueError else
  let X := grid_rows coords axes in let y := flat field in
  let st := stats_of (List.length axes) X y in
  Ok (if normalize then map (norm_row st) X else X,
      if normalize then map (fun v => ((v - y_mean st) / y_std st)%Q) y else y, st).
(** metann.py:131-146, 167-181: the rows the network is trained on.  [order] is np.arange(total) after
    the shuffle of the run's own RandomState. *)
Definition training_set (ratio : Q) (order : list nat) (X : list (list Q)) (y : list Q) : res (list (list Q * Q)) :=
  if Qle_bool ratio 0 || negb (Qle_bool ratio 1) then Err ValueError else
  let split := Z.to_nat (Qfloor (inject_Z (Z.of_nat (List.length X)) * ratio)) in
  Ok (map (fun i => (nth i X [], nth i y 0%Q)) (firstn split order)).

(** Networks in evaluation mode.  [D m js r] is the entry for row [r] of the partial derivative of the
    output along the inputs [js] (the first of [js] outermost), [D m [] r] the output itself: what
    torch.autograd.grad of the summed outputs gives when every output row depends on its own input row
    (true of [Net], config.py:13-26). *)
Variable M : Type.
Variables (D : M -> list nat -> list Q -> Q)
          (in_dim : M -> option nat)               (* context.py:632-650 _infer_model_input_dim *)
          (runs : M -> nat -> bool)                (* model(dummy) does not raise *)
          (one_output : M -> bool)                 (* predictions are (N,) or (N, 1) *)
          (file : pystr -> option M)               (* the checkpoint stored under a path, if any *)
          (fitnet : list (list Q * Q) -> M)        (* the optimisation loop on the training rows *)
          (shuffle : nat -> list nat)              (* np_rng.shuffle(np.arange(total)) *)
          (fd : arr Q -> Q -> nat -> res (arr Q)). (* np.apply_along_axis(FiniteDiff, axis, data, delta) *)

Record options := mkOptions {
  o_metadata : bool; o_edges : bool; o_autograd : bool;   (* use_metadata, delete_edges, use_autograd *)
  o_normal : bool; o_fine : nat; o_ratio : Q;              (* normal, fine_ratio, train_ratio *)
  o_path : pystr;                                          (* model_path *)
  o_fields : option (list pystr);                          (* autograd_fields *)
  o_models : list (pystr * M); o_model : option M;         (* autograd_models, autograd_model *)
  o_paths : list (pystr * pystr) }.                        (* autograd_model_paths *)

(** metann.py:91-185 train_metanet *)
Definition train_metanet (o : options) (coords : list (pystr * list Q)) (field : arr Q) (axes : list pystr) : res M :=
  do p <- prepare coords field axes (o_normal o) ;
  do rows <- training_set (o_ratio o) (shuffle (List.length (fst (fst p)))) (fst (fst p)) (snd (fst p)) ;
  Ok (fitnet rows).
(** context.py:684-711 _resolve_model: a given model, else the checkpoint if its file exists, else a newly trained one; remembered *)
Definition resolve (o : options) (paths : list (pystr * pystr)) (coords : list (pystr * list Q)) (axes : list pystr)
    (models : list (pystr * M)) (f : pystr) (v : arr Q) : res (M * list (pystr * M)) :=
  match dget models f with
  | Some m => Ok (m, models)
  | None =>
      do m <- (match match dget paths f with Some (c :: p) => file (c :: p) | _ => None end with
               | Some m => Ok m | None => train_metanet o coords v axes end) ;
      Ok (m, dset models f m)
  end.
(** context.py:652-671 _validate_model_input_dim, and the test of the prediction's shape (740-749, 884-895) *)
Definition check_model (m : M) (d : nat) : res unit :=
  match in_dim m with
  | Some k => if Nat.eqb k d then (if one_output m then Ok tt else Err ValueError) else Err ValueError
  | None => if runs m d then (if one_output m then Ok tt else Err ValueError) else Err ValueError
  end.
(** context.py:717-801 and 859-920: the derivative along [js] at every cell, scaled back to the
    units of the data.  Means and deviations are taken of the rows and values at hand. *)
Definition product (st : stats) (js : list nat) : Q := fold_right (fun j a => (nth j (x_std st) 0 * a)%Q) 1%Q js.
Definition derivative (o : options) (m : M) (d : nat) (X : list (list Q)) (y : list Q) (js : list nat) : list Q :=
  let st := stats_of d X y in
  map (fun r => if o_normal o then (D m js (norm_row st r) * (y_std st / product st js))%Q else D m js r) X.

(** ** _load_data *)
(** context.py:1102-1161 _generate_metadata.  sys.exit(1) when the checkpoint is missing is [OtherError].
    There is no guard against a deviation of zero here (numpy gives nan, the model 0). *)
Definition metadata (o : options) (u : arr Q) (x t : list Q) : res (arr Q * list Q * list Q) :=
  match file (o_path o) with
  | None => Err OtherError
  | Some m =>
      match x, t with [], _ | _, [] => Err ValueError | _, _ =>
      let n := o_fine o * List.length x in let k := o_fine o * List.length t in
      let xn := linspace (minQ x) (maxQ x) n in let tn := linspace (minQ t) (maxQ t) k in
      let X := stack (n * k) [flat (coord_grid xn 0 [n; k]); flat (coord_grid tn 1 [n; k])] in
      let st := mkStats (map meanQ (columns 2 X)) (map sd (columns 2 X)) (meanQ (flat u)) (sd (flat u)) in
      Ok (mkArr [n; k] (map (fun r => if o_normal o then (D m [] (norm_row st r) * y_std st + y_mean st)%Q else D m [] r) X), xn, tn)
      end
  end.
(** context.py:404-451 _apply_edge_deletion: entries int(0.1 n) .. int(0.9 n) - 1 of the axis "x"
    (exact products; the float products agree for every n up to 10^15) *)
Definition lo_edge (n : nat) : nat := n / 10.
Definition hi_edge (n : nat) : nat := 9 * n / 10.
Definition crop_list {B} (l : list B) : list B := firstn (hi_edge (List.length l) - lo_edge (List.length l)) (skipn (lo_edge (List.length l)) l).
Definition crop_axis (ax : nat) (a : arr Q) : arr Q :=
  let n := nth ax (shape a) 0 in
  tabulate (firstn ax (shape a) ++ [hi_edge n - lo_edge n] ++ skipn (S ax) (shape a))
    (fun idx => match get a (firstn ax idx ++ [nth ax idx 0 + lo_edge n] ++ skipn (S ax) idx) with Some v => v | None => 0%Q end).
Definition t_name := lit "t"%string.
Definition with_data (cf : config (A := arr Q)) (fs : list (pystr * arr Q)) (cs : list (pystr * list Q)) : config :=
  mkConfig fs cs (c_axis_order cf) (c_target cf) (c_lhs cf) (c_primary cf) (c_params cf) (c_uniform cf).
(** context.py:233-249 _init_variable_registry *)
Definition registry (cf : config (A := arr Q)) (axes : list pystr) : res (list (pystr * Q)) :=
  do _ <- validate_names cf axes ; do _ <- validate_grid shape cf axes ;
  mapM (fun a => do d <- compute_delta (coord_of (c_coords cf) a) ; Ok (a, d)) axes.
(** what _load_data leaves: the current data, axes, spacings, primary axis, and the original target and coordinates *)
Record loaded := mkLoaded { l_cf : config (A := arr Q); l_axes : list pystr; l_delta : list (pystr * Q); l_primary : pystr;
  l_u0 : arr Q; l_coords0 : list (pystr * list Q); l_delta0 : list (pystr * Q) }.
(** context.py:48-166 *)
Definition load_data (o : options) (cf : config (A := arr Q)) : res loaded :=
  let axes := match c_axis_order cf with [] => keys (c_coords cf) | l => l end in
  match axes with [] => Err ValueError | _ =>
  do dl <- registry cf axes ;
  match dget (c_fields cf) (c_target cf) with None => Err ValueError | Some u =>
  do primary <- resolve_primary cf axes ;
  do L <- (if o_metadata o then
             match axes with
             | [a; b] => if streq a x_name && streq b t_name then
                 if Nat.eqb (List.length (c_fields cf)) 1 then
                   do md <- metadata o u (coord_of (c_coords cf) x_name) (coord_of (c_coords cf) t_name) ;
                   let cf' := with_data cf [(c_target cf, fst (fst md))] [(x_name, snd (fst md)); (t_name, snd md)] in
                   do dl' <- registry cf' axes ;
                   Ok (mkLoaded cf' axes dl' primary u (c_coords cf) dl)
                 else Err NotImplementedError
               else Err NotImplementedError
             | _ => Err NotImplementedError
             end
           else Ok (mkLoaded cf axes dl primary u (c_coords cf) dl)) ;
  if o_edges o then
    if negb (Nat.eqb (List.length (grid_shape_of (c_coords (l_cf L)) axes)) 2) then Err NotImplementedError else
    if negb (inl x_name axes) then Err ValueError else
    let cur := l_cf L in
    let cf' := with_data cur (map (fun f => (fst f, crop_axis (index_of x_name axes) (snd f))) (c_fields cur))
                 (map (fun c => (fst c, if streq (fst c) x_name then crop_list (snd c) else snd c)) (c_coords cur)) in
    do dl' <- registry cf' axes ;
    do primary' <- resolve_primary cf' axes ;
    Ok (mkLoaded cf' axes dl' primary' (l_u0 L) (l_coords0 L) (l_delta0 L))
  else Ok L
  end end.

(** ** _calculate_derivatives *)
(** the derivatives of the target; the *_origin ones belong to the data as given *)
Record derivs := mkDerivs { d_ut : arr Q; d_ux : arr Q; d_uxx : arr Q; d_uxxx : arr Q;
  d_ut0 : arr Q; d_ux0 : arr Q; d_uxx0 : arr Q; d_uxxx0 : arr Q }.
Definition dl (d : list (pystr * Q)) (a : pystr) : Q := match dget d a with Some x => x | None => 0%Q end.
(** context.py:507-546 _calculate_derivatives_difference *)
Definition by_difference (L : loaded) (u : arr Q) : res derivs :=
  let cf := l_cf L in let axes := l_axes L in
  if negb (inl (c_lhs cf) axes) then Err ValueError else
  if negb (inl (l_primary L) axes) then Err ValueError else
  let it := index_of (c_lhs cf) axes in let ix := index_of (l_primary L) axes in
  let dt := dl (l_delta L) (c_lhs cf) in let dx := dl (l_delta L) (l_primary L) in
  let dt0 := dl (l_delta0 L) (c_lhs cf) in let dx0 := dl (l_delta0 L) (l_primary L) in
  do ut <- fd u dt it ; do ux <- fd u dx ix ; do uxx <- fd ux dx ix ; do uxxx <- fd uxx dx ix ;
  do ut0 <- fd (l_u0 L) dt0 it ; do ux0 <- fd (l_u0 L) dx0 ix ; do uxx0 <- fd ux0 dx0 ix ; do uxxx0 <- fd uxx0 dx0 ix ;
  Ok (mkDerivs ut ux uxx uxxx ut0 ux0 uxx0 uxxx0).
(** context.py:873-938: one network per field *)
Definition axis_grads (o : options) (m : M) (coords : list (pystr * list Q)) (axes : list pystr) (v : arr Q) : list (pystr * arr Q) :=
  map (fun j => (nth j axes [], mkArr (grid_shape_of coords axes) (derivative o m (List.length axes) (grid_rows coords axes) (flat v) [j]))) (seq 0 (List.length axes)).
Fixpoint add_grads (lhs f : pystr) (gs : list (pystr * arr Q)) (acc : list (pystr * arr Q)) : res (list (pystr * arr Q)) :=
  match gs with
  | [] => Ok acc
  | (a, v) :: gs' => if streq a lhs then add_grads lhs f gs' acc else do k <- build_key f a 1 ; add_grads lhs f gs' (dset acc k v)
  end.
Fixpoint nd_loop (o : options) (paths : list (pystr * pystr)) (cf : config (A := arr Q)) (axes : list pystr) (fs : list pystr)
    (models : list (pystr * M)) (grads : list (pystr * arr Q)) (target : option (list (pystr * arr Q)))
    : res (list (pystr * M) * list (pystr * arr Q) * option (list (pystr * arr Q))) :=
  match fs with
  | [] => Ok (models, grads, target)
  | f :: fs' =>
      match dget (c_fields cf) f with None => Err KeyError | Some v =>
      do r <- resolve o paths (c_coords cf) axes models f v ;
      do _ <- check_model (fst r) (List.length axes) ;
      let gs := axis_grads o (fst r) (c_coords cf) axes v in
      do grads' <- add_grads (c_lhs cf) f gs grads ;
      nd_loop o paths cf axes fs' (snd r) grads' (if streq f (c_target cf) then Some gs else target)
      end
  end.
(** context.py:591-958 _calculate_derivatives_autograd: the derivatives of the target, grad_fields, and
    the networks (config.autograd_models) afterwards *)
Definition by_autograd (o : options) (L : loaded) (u : arr Q) : res (derivs * list (pystr * arr Q) * list (pystr * M)) :=
  let cf := l_cf L in let axes := l_axes L in let coords := c_coords cf in
  let fs := match o_fields o with None => keys (c_fields cf) | Some l => l end in
  if existsb (fun f => negb (inl f (keys (c_fields cf)))) fs then Err ValueError else
  if negb (inl (c_target cf) fs) then Err ValueError else
  let models := match o_model o with Some m => if inl (c_target cf) (keys (o_models o)) then o_models o else dset (o_models o) (c_target cf) m | None => o_models o end in
  let paths := match o_path o with [] => o_paths o | p => if inl (c_target cf) (keys (o_paths o)) then o_paths o else dset (o_paths o) (c_target cf) p end in
  let d := List.length axes in
  if Nat.eqb d 2 && inl x_name axes && inl t_name axes && streq (c_lhs cf) t_name && Nat.eqb (List.length fs) 1 then
    do r <- resolve o paths coords axes models (c_target cf) u ;
    do _ <- check_model (fst r) d ;
    let ix := index_of x_name axes in let it := index_of t_name axes in
    let cur js := mkArr (grid_shape_of coords axes) (derivative o (fst r) d (grid_rows coords axes) (flat u) js) in
    let org js := mkArr (grid_shape_of (l_coords0 L) axes) (derivative o (fst r) d (grid_rows (l_coords0 L) axes) (flat (l_u0 L)) js) in
    Ok (mkDerivs (cur [it]) (cur [ix]) (cur [ix; ix]) (cur [ix; ix; ix]) (org [it]) (org [ix]) (org [ix; ix]) (org [ix; ix; ix]), [], snd r)
  else
    do r <- nd_loop o paths cf axes fs models [] None ;
    match snd r with
    | None => Err ValueError
    | Some gs =>
        match dget gs (c_lhs cf), dget gs (l_primary L) with
        | None, _ => Err ValueError
        | Some _, None => Err OtherError (* unreachable: the primary axis is an axis *)
        | Some ut, Some ux =>
            let ix := index_of (l_primary L) axes in
            do uxx <- fd ux (dl (l_delta L) (l_primary L)) ix ; do uxxx <- fd uxx (dl (l_delta L) (l_primary L)) ix ;
            Ok (mkDerivs ut ux uxx uxxx ut ux uxx uxxx, snd (fst r), fst (fst r))
        end
    end.
(** the constructor (context.py:22-45): the tables of the search, the derivatives, the networks and the
    data left in the configuration (config.fields_data, config.coords_1d) *)
Record context := mkContext { k_tables : tables (A := arr Q); k_derivs : derivs; k_models : list (pystr * M); k_loaded : loaded;
  k_fields : list (pystr * arr Q); k_coords : list (pystr * list Q) }.
Definition zeros (s : list nat) : arr Q := tabulate s (fun _ => 0%Q).
Definition build_context (o : options) (cf : config (A := arr Q)) : res context :=
  do L <- load_data o cf ;
  let cur := l_cf L in let axes := l_axes L in let s := grid_shape_of (c_coords cur) axes in
  match dget (c_fields cur) (c_target cur) with None => Err KeyError | Some u =>
  match coord_entries coord_grid cur axes s with [] => Err ValueError | _ =>
  do dg <- (if o_autograd o then by_autograd o L u else do d <- by_difference L u ; Ok (d, [], o_models o)) ;
  do grad <- grad_loop fd cur axes (l_delta L) (l_primary L) (d_ux (fst (fst dg))) (list_prod (c_fields cur) axes) (snd (fst dg)) ;
  do forbidden <- mapM (fun f => build_key (fst f) (c_lhs cur) 1) (c_fields cur) ;
  if existsb (fun k => inl k (keys grad)) forbidden then Err ValueError else
  let vars := build_vars coord_grid zeros cur axes s grad in
  if inl (c_lhs cur) (keys vars) then Err ValueError else
  Ok (mkContext (mkTables axes (l_delta L) s (l_primary L) (d_ut (fst (fst dg))) vars (coord_entries coord_grid cur axes s))
        (fst (fst dg)) (snd dg) L
        (if o_edges o then c_fields cur else c_fields cf) (if o_edges o then c_coords cur else c_coords cf))
  end end.
End Auto.
