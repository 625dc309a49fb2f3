(** Model of kd/model/discover/adapter.py (DiscoverRegularAdapter, DiscoverSparseAdapter) and of
    SparseData (kd/data.py:186-259).  Coordinates are finite (rationals, no rounding); field
    values are [num] and are only moved around by the sparse adapter.  Random draws are
    arguments; noise is an argument (the identity when noise_level is 0).  sym_true and the
    names of the parameters are not modelled. *)
From Coq Require Import QArith Qround Qabs.
From Verif Require Import Base Num Arrays Dataset FiniteDiff.
Local Open Scope nat_scope.
Local Open Scope string_scope.

Notation point := (list Q).
(** fancy indexing a[idx] *)
Definition gather {A} (idx : list nat) (l : list A) : res (list A) :=
  mapM (fun i => match nth_error l i with Some v => Ok v | None => Err IndexError end) idx.
(** int(total * ratio) for 0 <= ratio *)
Definition portion (total : nat) (r : Q) : nat := Z.to_nat (Qfloor (inject_Z (Z.of_nat total) * r)).
(** max(1, int(total * ratio)) (adapter.py:390, 397, 494, 571, 591) *)
Definition portion1 (total : nat) (r : Q) : nat := Nat.max 1 (portion total r).
(** 0 < ratio <= 1 *)
Definition ratio_ok (r : Q) : bool := negb (Qle_bool r 0) && Qle_bool r 1.
(** c.min(), c.max(): ValueError on an empty array *)
Fixpoint qmin (x : Q) (l : list Q) : Q := match l with [] => x | y :: l' => qmin (if Qle_bool x y then x else y) l' end.
Fixpoint qmax (x : Q) (l : list Q) : Q := match l with [] => x | y :: l' => qmax (if Qle_bool y x then x else y) l' end.
Definition cmin (l : list Q) : res Q := match l with [] => Err ValueError | x :: l' => Ok (qmin x l') end.
Definition cmax (l : list Q) : res Q := match l with [] => Err ValueError | x :: l' => Ok (qmax x l') end.

(** ** SparseData.process_data (kd/data.py:219-257) *)
Record sparse := mkSparse { X_u_train : list point; u_train : list num; X_f_train : list point; X_u_val : list point; u_val : list num; s_lb : list Q; s_ub : list Q }.
(** np.setdiff1d(np.arange(n), idx, assume_unique=True) *)
Definition setdiff (n : nat) (idx : list nat) : list nat := filter (fun i => negb (existsb (Nat.eqb i) idx)) (seq 0 n).
(** lb + (ub - lb) * row *)
Fixpoint colloc_row (lb ub row : list Q) : list Q :=
  match lb, ub, row with l :: lb', u :: ub', r :: row' => (l + (u - l) * r)%Q :: colloc_row lb' ub' row' | _, _, _ => [] end.
(** [choice n k] is np.random.choice(n, k, replace=False); [lhs] the Latin hypercube rows.
    int(Num_d * 0.8) is floor(4 n / 5) (data.py:232-234). *)
Definition process_data (xt : list point) (u : list num) (choice : nat -> nat -> list nat) (lhs : list (list Q)) (lb ub : list Q) : res sparse :=
  let n := List.length u in
  let idx := choice n (4 * n / 5) in
  do xtr <- gather idx xt ; do utr <- gather idx u ;
  let val := setdiff n idx in
  do xva <- gather val xt ; do uva <- gather val u ;
  Ok (mkSparse xtr utr (map (colloc_row lb ub) lhs ++ xtr)%list xva uva lb ub).

(** ** DiscoverSparseAdapter *)
Record options := mkOptions { o_sample : option Z; o_ratio : Q; o_data_ratio : option Q; o_spline : bool; o_cut : option Q }.
Record draws := mkDraws { r_choice : nat -> nat -> list nat; r_split : nat -> nat -> list nat; r_train : nat -> nat -> list nat; r_val : nat -> nat -> list nat; r_lhs : list (list Q) }.
Record result := mkResult { r_sparse : sparse; r_measured : list point; r_Xstar : list point; r_ustar : list num; r_shape : list nat; r_params : list array }.
(** the number of samples (adapter.py:488-499, 565-574) *)
Definition n_sampled (o : options) (total : nat) : res nat :=
  do n <- match o_sample o with
          | Some z => Ok z
          | None => if ratio_ok (o_ratio o) then Ok (Z.of_nat (portion1 total (o_ratio o))) else Err ValueError
          end ;
  if (Z.of_nat total <? n)%Z then Err ValueError else if (n <? 0)%Z then Err ValueError else Ok (Z.to_nat n).
(** np.meshgrid(x, t, indexing='ij') as rows (x, t) *)
Definition mesh_rows (x t : list Q) : list point := flat_map (fun a => map (fun b => [a; b]) t) x.
(** _sample_points (adapter.py:559-578) *)
Definition sample_points (o : options) (r : draws) (x t : list Q) (u : array) : res (list point * list num) :=
  let total := List.length (flat u) in
  do n <- n_sampled o total ;
  let idx := r_choice r total n in
  do p <- gather idx (mesh_rows x t) ; do v <- gather idx (flat u) ; Ok (p, v).
(** row i of a matrix with m columns *)
Definition row_of (u : array) (m i : nat) : list num := slice (flat u) (i * m) (i * m + m).
Fixpoint insert_nat (a : nat) (l : list nat) : list nat := match l with [] => [a] | b :: l' => if Nat.leb a b then a :: b :: l' else b :: insert_nat a l' end.
Fixpoint isort_nat (l : list nat) : list nat := match l with [] => [] | a :: l' => insert_nat a (isort_nat l') end.
(** _spline_sample_points (adapter.py:580-601); int(sample / total_time) truncates *)
Definition spline_points (o : options) (r : draws) (x t : list Q) (u : array) : res (list point * list num) :=
  let ratio := match o_data_ratio o with Some q => q | None => o_ratio o end in
  if negb (ratio_ok ratio) then Err ValueError else
  let m := List.length t in
  do num_x <- match o_sample o with
              | Some z => if Nat.eqb m 0 then Err ZeroDivisionError else Ok (Nat.max 1 (Z.to_nat (Z.quot z (Z.of_nat m))))
              | None => Ok (portion1 (List.length x) ratio)
              end ;
  let num_x := Nat.min num_x (List.length x) in
  let idx := isort_nat (r_choice r (List.length x) num_x) in
  do xs <- gather idx x ;
  let pts := combine (repeat_each xs m) (tile t num_x) in
  do rows <- mapM (fun i => if Nat.ltb i (List.length x) then Ok (row_of u m i) else Err IndexError) idx ;
  Ok (map (fun p => [fst p; snd p]) pts, List.concat rows).
(** trim and _apply_cut_quantile (adapter.py:603-628) *)
Definition trim (len : nat) (q : Q) : nat * nat :=
  let k := portion len q in if Nat.ltb ((len - k) - k) 2 then (0, len) else (k, len - k).
Definition cut (o : options) (x t : list Q) (u : array) : res (list Q * list Q * array) :=
  match o_cut o with
  | None => Ok (x, t, u)
  | Some q =>
      if negb (Qle_bool 0 q && negb (Qle_bool (1 # 2) q)) then Err ValueError else
      let '(xl, xh) := trim (List.length x) q in let '(tl, th) := trim (List.length t) q in
      let m := List.length t in
      Ok (slice x xl xh, slice t tl th,
          mkArr [xh - xl; th - tl] (flat_map (fun i => slice (row_of u m i) tl th) (seq xl (xh - xl))))
  end.
(** the data_ratio step (adapter.py:378-404): [X_f_train] keeps the collocation rows *)
Definition shrink (o : options) (r : draws) (s : sparse) : res sparse :=
  match o_data_ratio o with
  | None => Ok s
  | Some q =>
      if negb (ratio_ok q) then Err ValueError else
      let base := firstn (List.length (X_f_train s) - List.length (X_u_train s)) (X_f_train s) in
      let n := List.length (X_u_train s) in let k := portion1 n q in
      do tr <- (if Nat.ltb k n then do a <- gather (r_train r n k) (X_u_train s) ; do b <- gather (r_train r n k) (u_train s) ; Ok (a, b)
                else Ok (X_u_train s, u_train s)) ;
      let nv := List.length (X_u_val s) in let kv := portion1 nv q in
      do va <- (if Nat.ltb kv nv then do a <- gather (r_val r nv kv) (X_u_val s) ; do b <- gather (r_val r nv kv) (u_val s) ; Ok (a, b)
                else Ok (X_u_val s, u_val s)) ;
      Ok (mkSparse (fst tr) (snd tr) (if Nat.eqb (List.length (fst tr)) 0 then X_f_train s else (base ++ fst tr)%list) (fst va) (snd va) (s_lb s) (s_ub s))
  end.
(** _prepare_legacy (adapter.py:329-423).  mesh_bounds is the minimum and maximum of each
    coordinate of the grid. *)
Definition sparse_legacy (o : options) (r : draws) (noise : list num -> list num) (x0 t0 : list Q) (u0 : array) (params : list array) : res result :=
  if negb (natlist_eqb (shape u0) [List.length x0; List.length t0]) then Err ValueError else
  do c <- cut o x0 t0 u0 ; let '(x, t, u) := c in
  do pv <- (if o_spline o then spline_points o r x t u else sample_points o r x t u) ;
  let '(xt, vals) := pv in
  do xl <- cmin x ; do tl <- cmin t ; do xh <- cmax x ; do th <- cmax t ;
  do s <- process_data xt (noise vals) (r_split r) (r_lhs r) [xl; tl] [xh; th] ;
  do s' <- shrink o r s ;
  Ok (mkResult s' xt (mesh_rows x t) (flat u) (shape u) params).

(** ** N-D data *)
Record grid := mkGrid { g_coords : list (string * list Q); g_axis : list string; g_lhs : string; g_u : array; g_params : list array }.
Definition coord_of (g : grid) (a : string) : list Q := match sget (g_coords g) a with Some c => c | None => [] end.
Definition spatial_axes (g : grid) : list string := filter (fun a => negb (String.eqb a (g_lhs g))) (g_axis g).
(** [axis_order.index(a) for a in order] *)
Definition perm_of (g : grid) (order : list string) : list nat := map (fun a => sindex a (g_axis g)) order.
(** the coordinates of an index tuple: all_coords[i][multi_idx[i]] *)
Definition point_at (cs : list (list Q)) (idx : list nat) : res point :=
  mapM (fun ci => match nth_error (fst ci) (snd ci) with Some v => Ok v | None => Err IndexError end) (combine cs idx).
(** the stride expansion of X_star (adapter.py:530-539): its columns, and the stride *)
Fixpoint star_columns (total : nat) (cs : list (list Q)) : list (list Q) * nat :=
  match cs with
  | [] => ([], 1)
  | c :: cs' => let '(cols, stride) := star_columns total cs' in
                (tile (repeat_each c stride) (total / (List.length c * stride)) :: cols, stride * List.length c)
  end.
(** row k of the table with the given columns *)
Definition table_row (cols : list (list Q)) (k : nat) : res point := mapM (fun c => match nth_error c k with Some v => Ok v | None => Err IndexError end) cols.
(** _prepare_nd (adapter.py:429-557) *)
Definition sparse_nd (o : options) (r : draws) (noise : list num -> list num) (g : grid) : res result :=
  if o_spline o then Err NotImplementedError else
  match o_cut o, o_data_ratio o with
  | None, None =>
      if negb (forallb is_fin (flat (g_u g))) then Err ValueError else
      if negb (smem (g_lhs g) (g_axis g)) then Err ValueError else
      let order := (spatial_axes g ++ [g_lhs g])%list in
      let cs := map (coord_of g) order in
      let sizes := map (@List.length Q) cs in
      let total := Arrays.prod sizes in
      let u := transpose NaN (g_u g) (perm_of g order) in
      do n <- n_sampled o total ;
      let idx := r_choice r total n in
      do xt <- mapM (fun k => if Nat.ltb k total then point_at cs (unravel sizes k) else Err ValueError) idx ;
      do vals <- mapM (fun k => match get u (unravel sizes k) with Some v => Ok v | None => Err IndexError end) idx ;
      do lb <- mapM cmin cs ; do ub <- mapM cmax cs ;
      do s <- process_data xt (noise vals) (r_split r) (r_lhs r) lb ub ;
      do star <- mapM (table_row (fst (star_columns total cs))) (seq 0 total) ;
      Ok (mkResult s xt star (flat u) (shape u) (map (fun p => transpose NaN p (perm_of g order)) (g_params g)))
  | _, _ => Err NotImplementedError
  end.

(** ** DiscoverRegularAdapter *)
Record regular := mkRegular { g_field : arr Q; g_ut : arr Q; g_X : list (list Q); g_dim : nat; g_par : list array }.
Definition toQ (v : num) : Q := match v with Fin q => q | _ => 0%Q end.
(** np.allclose(dt, dt[0]) and np.isclose(v, 0) with numpy's tolerances *)
Definition isclose (a b : Q) : bool := Qle_bool (Qabs (a - b)) ((1 # 100000000) + (1 # 100000) * Qabs b).
Fixpoint diffs (l : list Q) : list Q := match l with a :: ((b :: _) as l') => (b - a)%Q :: diffs l' | _ => [] end.
(** the time step, or the error (adapter.py:81-93, 198-217) *)
Definition time_step (uniform : bool) (t : list Q) : res Q :=
  if Nat.ltb (List.length t) 3 then Err ValueError else
  match diffs t with
  | [] => Err IndexError
  | d :: ds => if uniform && negb (forallb (fun e => isclose e d) (d :: ds)) then Err ValueError
               else if Qeq_bool d 0 then Err ValueError else Ok d
  end.
(** the time derivative of a matrix with [nt] rows and [ns] columns, column by column
    (adapter.py:219-228) *)
Definition ut_columns (f : list Q) (nt ns : nat) (dt : Q) : res (list Q) :=
  do cols <- mapM (fun c => disc_diff (map (fun k => nth (k * ns + c) f 0%Q) (seq 0 nt)) dt) (seq 0 ns) ;
  Ok (flat_map (fun k => map (fun c => nth k c 0%Q) cols) (seq 0 nt)).
(** ... and row by row (adapter.py:95-97) *)
Definition ut_rows (f : list Q) (nx nt : nat) (dt : Q) : res (list Q) :=
  do rows <- mapM (fun i => disc_diff (slice f (i * nt) (i * nt + nt)) dt) (seq 0 nx) ; Ok (List.concat rows).
(** _prepare_legacy (adapter.py:64-130); [dim] is n_input_dim *)
Definition regular_legacy (uniform : bool) (dim : option nat) (x t : list Q) (u : array) (params : list array) : res regular :=
  if negb (natlist_eqb (shape u) [List.length x; List.length t]) then Err ValueError else
  if negb (forallb is_fin (flat u)) then Err ValueError else
  do dt <- time_step uniform t ;
  do ut <- ut_rows (map toQ (flat u)) (List.length x) (List.length t) dt ;
  if match dim with Some d => negb (Nat.eqb d 1) | None => false end then Err ValueError else
  Ok (mkRegular (mkArr (shape u) (map toQ (flat u))) (mkArr (shape u) ut) [x] 1 params).
(** _prepare_nd (adapter.py:136-267) *)
Definition regular_nd (uniform : bool) (dim : option nat) (g : grid) : res regular :=
  if negb (forallb is_fin (flat (g_u g))) then Err ValueError else
  if negb (smem (g_lhs g) (g_axis g)) then Err ValueError else
  let sp := spatial_axes g in
  let ns := List.length sp in
  if Nat.ltb ns 2 || Nat.ltb 3 ns then Err ValueError else
  let perm := perm_of g (g_lhs g :: sp) in
  let u := transpose NaN (g_u g) perm in
  if existsb (fun a => let c := coord_of g a in Nat.ltb (nth (sindex a (g_axis g)) (shape (g_u g)) 0) 4 || existsb (fun e => isclose e 0) (diffs c)) sp then Err ValueError else
  do dt <- time_step uniform (coord_of g (g_lhs g)) ;
  let f := map toQ (flat u) in
  do ut <- ut_columns f (hd 0 (shape u)) (Arrays.prod (tl (shape u))) dt ;
  if match dim with Some d => negb (Nat.eqb d ns) | None => false end then Err ValueError else
  Ok (mkRegular (mkArr (shape u) f) (mkArr (shape u) ut) (map (coord_of g) sp) ns (map (fun p => transpose NaN p perm) (g_params g))).

(** ** Specification *)
(** the dataset's own consistency (C27): one coordinate per axis with the length of that axis *)
Definition grid_ok (g : grid) : Prop :=
  wfa (g_u g) /\ NoDup (g_axis g) /\ In (g_lhs g) (g_axis g) /\ shape (g_u g) = map (fun a => List.length (coord_of g a)) (g_axis g) /\
  Forall (fun p => wfa p /\ shape p = shape (g_u g)) (g_params g).
(** the point of index tuple i (in the dataset's own axis order), with the coordinates listed
    in the order [order] *)
Definition at_point (g : grid) (order : list string) (i : list nat) (p : point) : Prop :=
  inb (shape (g_u g)) i /\ Forall2 (fun a q => nth_error (coord_of g a) (nth (sindex a (g_axis g)) i 0) = Some q) order p.
