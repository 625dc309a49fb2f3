(** *** C29, C30: the DISCOVER adapters *)
From Coq Require Import QArith Qround Qabs Permutation Lqa.
From Verif Require Import Base Num Arrays Dataset PropsDataset FiniteDiff PropsFD Adapter.
Local Open Scope nat_scope.
Local Open Scope list_scope.

(** ** Specification *)
(** np.random.choice(n, k, replace=False) and rng.choice *)
Definition without_replacement (c : nat -> nat -> list nat) : Prop :=
  forall n k, k <= n -> NoDup (c n k) /\ List.length (c n k) = k /\ Forall (fun i => i < n) (c n k).
(** [row] is the point and the value of grid cell (i, j) *)
Definition cell (x t : list Q) (u : array) (ij : nat * nat) (row : point * num) : Prop :=
  exists a b v, nth_error x (fst ij) = Some a /\ nth_error t (snd ij) = Some b /\ get u [fst ij; snd ij] = Some v /\ row = ([a; b], v).
(** ... of the N-D grid at the index tuple i, with the coordinates listed in the order [order] *)
Definition nd_cell (g : grid) (order : list string) (i : list nat) (row : point * num) : Prop :=
  at_point g order i (fst row) /\ get (g_u g) i = Some (snd row).

(** ** Gathering *)
Lemma gather_map {A} (d : A) l : forall idx, Forall (fun i => i < List.length l) idx -> gather idx l = Ok (map (fun i => nth i l d) idx).
Proof.
  unfold gather. induction 1 as [|i idx Hi H IH]; [reflexivity|]. cbn [mapM map]. rewrite (nth_error_nth' l d Hi). cbn [bind]. rewrite IH. reflexivity.
Qed.
Lemma NoDup_map_on {A B} (f : A -> B) l : NoDup l -> (forall x y, In x l -> In y l -> f x = f y -> x = y) -> NoDup (map f l).
Proof.
  induction 1 as [|a l Ha N IH]; intros H; cbn; constructor.
  - intros I. apply in_map_iff in I. destruct I as (b & E & Ib). apply Ha. rewrite (H a b); auto; [now left|now right].
  - apply IH. intros x y Hx Hy. apply H; now right.
Qed.
Lemma nodup_range n idx : NoDup idx -> Forall (fun i => i < n) idx -> List.length idx <= n.
Proof. intros N F. rewrite <- (seq_length n 0). apply NoDup_incl_length; [exact N|]. intros i Hi. rewrite Forall_forall in F. apply in_seq. specialize (F i Hi). lia. Qed.
Lemma NoDup_app_intro {A} (l m : list A) : NoDup l -> NoDup m -> (forall x, In x l -> ~ In x m) -> NoDup (l ++ m).
Proof.
  induction 1 as [|a l Ha N IH]; intros M D; [exact M|]. cbn. constructor.
  - rewrite in_app_iff. intros [H|H]; [contradiction|]. apply (D a); [now left|exact H].
  - apply IH; [exact M|]. intros x Hx. apply D. now right.
Qed.
Lemma setdiff_perm n idx : NoDup idx -> Forall (fun i => i < n) idx -> Permutation (idx ++ setdiff n idx) (seq 0 n).
Proof.
  intros N F. apply NoDup_Permutation; [|apply seq_NoDup|].
  - apply NoDup_app_intro; [exact N|apply NoDup_filter, seq_NoDup|]. intros i Hi H. apply filter_In in H. destruct H as [_ H]. apply negb_true_iff in H.
    assert (X : existsb (Nat.eqb i) idx = true) by (apply existsb_exists; exists i; split; [exact Hi|apply Nat.eqb_refl]). congruence.
  - intros i. rewrite in_app_iff. unfold setdiff. rewrite filter_In, in_seq. split.
    + intros [H|[H _]]; [|lia]. rewrite Forall_forall in F. specialize (F i H). lia.
    + intros H. destruct (existsb (Nat.eqb i) idx) eqn:E; [left|right; split; [lia|reflexivity]]. apply existsb_exists in E. destruct E as (j & Ij & Ej). apply Nat.eqb_eq in Ej. congruence.
Qed.
Lemma map_nth_seq {A} (d : A) l : map (fun i => nth i l d) (seq 0 (List.length l)) = l.
Proof.
  apply (nth_ext _ _ d d); [now rewrite map_length, seq_length|]. intros i Hi. rewrite map_length, seq_length in Hi. rewrite nth_map_seq by exact Hi. reflexivity.
Qed.
(** The split of rows drawn at the indices [idx]. *)
Lemma process_split (P : nat -> point) (V : nat -> num) idx split lhs lb ub : without_replacement split ->
  exists tr va, process_data (map P idx) (map V idx) split lhs lb ub = Ok (mkSparse (map P tr) (map V tr) (map (colloc_row lb ub) lhs ++ map P tr) (map P va) (map V va) lb ub) /\
    Permutation (tr ++ va) idx /\ List.length tr = 4 * List.length idx / 5 /\ List.length va = List.length idx - 4 * List.length idx / 5.
Proof.
  intros W. unfold process_data. rewrite map_length. set (n := List.length idx). assert (L : 4 * n / 5 <= n) by (apply Nat.div_le_upper_bound; lia).
  destruct (W n (4 * n / 5) L) as (ND & LE & F). set (ix := split n (4 * n / 5)) in *. pose proof (setdiff_perm n ix ND F) as SP. set (va := setdiff n ix) in *.
  assert (FV : Forall (fun i => i < n) va) by (apply Forall_forall; intros i Hi; apply filter_In in Hi; destruct Hi as [Hi _]; apply in_seq in Hi; lia).
  assert (G : forall {A} (f : nat -> A) l, Forall (fun i => i < n) l -> gather l (map f idx) = Ok (map f (map (fun i => nth i idx 0) l))).
  { intros A f l Hl. rewrite (gather_map (f 0)) by (now rewrite map_length). rewrite map_map. f_equal. apply map_ext. intros i. apply map_nth. }
  cbv zeta. rewrite !G by assumption. cbn [bind]. exists (map (fun i => nth i idx 0) ix), (map (fun i => nth i idx 0) va). split; [reflexivity|].
  split; [rewrite <- map_app; eapply Permutation_trans; [apply Permutation_map, SP|unfold n; rewrite map_nth_seq; reflexivity]|]. rewrite !map_length. split; [exact LE|].
  apply Permutation_length in SP. rewrite app_length, seq_length in SP. lia.
Qed.
Lemma combine_map2 {A B C} (f : A -> B) (g : A -> C) l : combine (map f l) (map g l) = map (fun a => (f a, g a)) l.
Proof. induction l; cbn; congruence. Qed.
(** Train and validation rows together are exactly the given rows, each with its own value,
    four fifths of them (rounded down) for training. *)
Theorem C29_split xt u split lhs lb ub : List.length xt = List.length u -> without_replacement split ->
  exists s, process_data xt u split lhs lb ub = Ok s /\
    Permutation (combine (X_u_train s) (u_train s) ++ combine (X_u_val s) (u_val s)) (combine xt u) /\
    List.length (X_u_train s) = List.length (u_train s) /\ List.length (X_u_val s) = List.length (u_val s) /\
    List.length (u_train s) = 4 * List.length u / 5 /\ List.length (u_val s) = List.length u - 4 * List.length u / 5 /\
    X_f_train s = map (colloc_row lb ub) lhs ++ X_u_train s.
Proof.
  intros L W. destruct (process_split (fun i => nth i xt []) (fun i => nth i u NaN) (seq 0 (List.length u)) split lhs lb ub W) as (tr & va & E & P & L1 & L2).
  rewrite (map_nth_seq NaN u) in E. rewrite <- L in E at 1. rewrite (map_nth_seq [] xt) in E. eexists. split; [exact E|]. cbn [X_u_train u_train X_u_val u_val X_f_train]. rewrite !map_length. rewrite seq_length in L1, L2.
  repeat split; auto. rewrite !combine_map2, <- map_app. rewrite (Permutation_map _ P). rewrite <- combine_map2, (map_nth_seq NaN u). rewrite <- L. rewrite (map_nth_seq [] xt). reflexivity.
Qed.
(** Collocation rows stay within the bounds. *)
Theorem C29_colloc lb ub row : Forall2 (fun l u => (l <= u)%Q) lb ub -> Forall (fun r => (0 <= r <= 1)%Q) row -> List.length row = List.length lb ->
  Forall2 (fun q l => (l <= q)%Q) (colloc_row lb ub row) lb /\ Forall2 (fun q u => (q <= u)%Q) (colloc_row lb ub row) ub.
Proof.
  intros H. revert row. induction H as [|l u lb ub Hlu H IH]; intros [|r row] F L; cbn in *; try discriminate; [split; constructor|]. injection L as L.
  pose proof (Forall_inv F) as R. cbv beta in R. destruct R as [R1 R2]. destruct (IH row (Forall_inv_tail F) L) as [A B]. assert (Z1 : (0 <= (u - l) * r)%Q) by (apply Qmult_le_0_compat; lra). assert (Z2 : (0 <= (u - l) * (1 - r))%Q) by (apply Qmult_le_0_compat; lra). split; constructor; auto; lra.
Qed.
(** ** Shrinking by data_ratio *)
(** how many of n rows the data_ratio leaves *)
Definition kept (o : options) (n : nat) : nat := match o_data_ratio o with None => n | Some q => Nat.min (portion1 n q) n end.
Lemma sub_gather (tr : list nat) c k : without_replacement c -> k <= List.length tr ->
  exists tr' rest, (forall (A : Type) (f : nat -> A), gather (c (List.length tr) k) (map f tr) = Ok (map f tr')) /\ Permutation (tr' ++ rest) tr /\ List.length tr' = k.
Proof.
  intros W K. destruct (W _ _ K) as (ND & LE & F). set (n := List.length tr) in *. set (ix := c n k) in *. exists (map (fun i => nth i tr 0) ix), (map (fun i => nth i tr 0) (setdiff n ix)). split; [|split].
  - intros A f. rewrite (gather_map (f 0)) by (now rewrite map_length). rewrite map_map. f_equal. apply map_ext. intros i. apply map_nth.
  - rewrite <- map_app. eapply Permutation_trans; [apply Permutation_map, setdiff_perm; assumption|]. unfold n. rewrite map_nth_seq. reflexivity.
  - now rewrite map_length.
Qed.
Lemma shrink_rows (P : nat -> point) (V : nat -> num) o r tr va col lb ub s' : without_replacement (r_train r) -> without_replacement (r_val r) ->
  shrink o r (mkSparse (map P tr) (map V tr) (col ++ map P tr) (map P va) (map V va) lb ub) = Ok s' ->
  exists tr' va' r1 r2, s' = mkSparse (map P tr') (map V tr') (col ++ map P tr') (map P va') (map V va') lb ub /\ Permutation (tr' ++ r1) tr /\ Permutation (va' ++ r2) va /\
    List.length tr' = kept o (List.length tr) /\ List.length va' = kept o (List.length va).
Proof.
  intros W1 W2. unfold shrink, kept. destruct (o_data_ratio o) as [q|].
  2:{ intros [= <-]. exists tr, va, [], []. rewrite !app_nil_r. auto. }
  destruct (negb (ratio_ok q)); [discriminate|]. cbv zeta. cbn [X_u_train u_train X_f_train X_u_val u_val s_lb s_ub]. rewrite !map_length, app_length, map_length.
  assert (T : exists tr' r1, (if Nat.ltb (portion1 (List.length tr) q) (List.length tr) then do a <- gather (r_train r (List.length tr) (portion1 (List.length tr) q)) (map P tr) ;
       do b <- gather (r_train r (List.length tr) (portion1 (List.length tr) q)) (map V tr) ; Ok (a, b) else Ok (map P tr, map V tr)) = Ok (map P tr', map V tr') /\
       Permutation (tr' ++ r1) tr /\ List.length tr' = Nat.min (portion1 (List.length tr) q) (List.length tr)).
  { destruct (Nat.ltb_spec (portion1 (List.length tr) q) (List.length tr)).
    - destruct (sub_gather tr (r_train r) (portion1 (List.length tr) q) W1) as (tr' & rest & G & PM & L); [lia|]. exists tr', rest. rewrite !G. cbn [bind]. repeat split; auto. lia.
    - exists tr, []. rewrite app_nil_r. repeat split; auto. lia. }
  destruct T as (tr' & r1 & -> & PT & LT). cbn [bind].
  assert (T : exists va' r1, (if Nat.ltb (portion1 (List.length va) q) (List.length va) then do a <- gather (r_val r (List.length va) (portion1 (List.length va) q)) (map P va) ;
       do b <- gather (r_val r (List.length va) (portion1 (List.length va) q)) (map V va) ; Ok (a, b) else Ok (map P va, map V va)) = Ok (map P va', map V va') /\
       Permutation (va' ++ r1) va /\ List.length va' = Nat.min (portion1 (List.length va) q) (List.length va)).
  { destruct (Nat.ltb_spec (portion1 (List.length va) q) (List.length va)).
    - destruct (sub_gather va (r_val r) (portion1 (List.length va) q) W2) as (va' & rest & G & PM & L); [lia|]. exists va', rest. rewrite !G. cbn [bind]. repeat split; auto. lia.
    - exists va, []. rewrite app_nil_r. repeat split; auto. lia. }
  destruct T as (va' & r2 & -> & PV & LV). cbn [bind fst snd]. intros [= <-]. exists tr', va', r1, r2. split; [|auto]. f_equal. rewrite map_length.
  rewrite Nat.add_sub. rewrite firstn_app, firstn_all, Nat.sub_diag. cbn [firstn]. rewrite app_nil_r. destruct (Nat.eqb_spec (List.length tr') 0) as [Z|Z]; [|reflexivity].
  rewrite Z in LT. assert (Z2 : List.length tr = 0) by (unfold portion1 in LT; lia). destruct tr; [|discriminate]. destruct tr'; [reflexivity|discriminate].
Qed.
(** ** Sampling *)
Lemma mesh_rows_length x t : List.length (mesh_rows x t) = List.length x * List.length t.
Proof. unfold mesh_rows. induction x as [|a x IH]; [reflexivity|]. cbn [flat_map List.length]. rewrite app_length, map_length, IH. lia. Qed.
Lemma mesh_rows_nth x t k : k < List.length x * List.length t -> nth_error (mesh_rows x t) k = Some [nth (k / List.length t) x 0%Q; nth (k mod List.length t) t 0%Q].
Proof.
  intros K. assert (T0 : List.length t <> 0) by (intros E; rewrite E in K; lia).
  destruct (flat_map_nth (fun a => map (fun b => [a; b]) t) (List.length t) x k) as (a & E1 & E2); [intros; apply map_length|exact T0|exact K|].
  unfold mesh_rows. rewrite E2, nth_error_map. rewrite (nth_error_nth _ _ 0%Q E1). rewrite (nth_error_nth' t 0%Q) by (now apply Nat.mod_upper_bound). reflexivity.
Qed.
Lemma row_cell x t u k : wfa u -> shape u = [List.length x; List.length t] -> k < List.length x * List.length t ->
  cell x t u (k / List.length t, k mod List.length t) (nth k (mesh_rows x t) [], nth k (flat u) NaN).
Proof.
  intros W S K. assert (T0 : List.length t <> 0) by (intros E; rewrite E in K; lia). rewrite (nth_error_nth _ _ _ (mesh_rows_nth x t k K)).
  assert (LK : k < List.length (flat u)) by (unfold wfa in W; rewrite W, S; cbn; lia).
  exists (nth (k / List.length t) x 0%Q), (nth (k mod List.length t) t 0%Q), (nth k (flat u) NaN). cbn [fst snd].
  split; [apply nth_error_nth', Nat.div_lt_upper_bound; lia|]. split; [apply nth_error_nth', Nat.mod_upper_bound; exact T0|]. split; [|reflexivity].
  unfold get. rewrite S. cbn [ravel prod fold_right]. rewrite (nth_error_nth' (flat u) NaN).
  - do 2 f_equal. pose proof (Nat.div_mod k (List.length t) T0). lia.
  - pose proof (Nat.div_mod k (List.length t) T0). lia.
Qed.
Lemma cell_inj m k k' : m <> 0 -> (k / m, k mod m) = (k' / m, k' mod m) -> k = k'.
Proof. intros M [= E1 E2]. rewrite (Nat.div_mod k m M), (Nat.div_mod k' m M). congruence. Qed.
(** what sampling returns: rows of the flattened grid at distinct indices *)
Definition drawn (x t : list Q) (u : array) (pv : list point * list num) (idx : list nat) : Prop :=
  NoDup idx /\ Forall (fun k => k < List.length x * List.length t) idx /\ pv = (map (fun k => nth k (mesh_rows x t) []) idx, map (fun k => nth k (flat u) NaN) idx).
Lemma n_sampled_le o total n : n_sampled o total = Ok n -> n <= total.
Proof.
  unfold n_sampled. intros H. destruct (match o_sample o with Some z => Ok z | None => _ end) as [z|]; [|discriminate]. cbn [bind] in H. destruct (Z.ltb_spec (Z.of_nat total) z); [discriminate|]. destruct (z <? 0)%Z; [discriminate|]. injection H as <-. lia.
Qed.
Lemma sample_points_drawn o r x t u pv : wfa u -> shape u = [List.length x; List.length t] -> without_replacement (r_choice r) -> sample_points o r x t u = Ok pv ->
  exists idx, drawn x t u pv idx /\ n_sampled o (List.length x * List.length t) = Ok (List.length idx).
Proof.
  intros W S C. unfold sample_points. assert (LF : List.length (flat u) = List.length x * List.length t) by (unfold wfa in W; rewrite W, S; cbn; lia). rewrite LF. cbv zeta.
  destruct (n_sampled o _) as [n|] eqn:N; [|discriminate]. cbn [bind]. destruct (C _ _ (n_sampled_le _ _ _ N)) as (ND & LE & F). set (idx := r_choice r _ n) in *.
  rewrite (gather_map []) by (now rewrite mesh_rows_length). cbn [bind]. rewrite (gather_map NaN) by (now rewrite LF). cbn [bind]. intros [= <-]. exists idx. split; [|now rewrite LE]. split; [exact ND|]. split; [exact F|reflexivity].
Qed.
Lemma insert_perm a l : Permutation (insert_nat a l) (a :: l).
Proof. induction l as [|b l IH]; [reflexivity|]. cbn. destruct (Nat.leb a b); [reflexivity|]. rewrite IH. apply perm_swap. Qed.
Lemma isort_perm l : Permutation (isort_nat l) l.
Proof. induction l as [|a l IH]; [reflexivity|]. cbn. rewrite insert_perm. now constructor. Qed.
Lemma nodup_blocks m idx : NoDup idx -> NoDup (flat_map (fun i => seq (i * m) m) idx).
Proof.
  destruct (Nat.eq_dec m 0) as [->|M]; [intros _; induction idx; cbn; [constructor|assumption]|].
  induction 1 as [|i idx Hi N IH]; [constructor|]. cbn [flat_map]. apply NoDup_app_intro; [apply seq_NoDup|exact IH|]. intros k H1 H2. apply in_flat_map in H2. destruct H2 as (j & Hj & H2). apply in_seq in H1, H2.
  apply Hi. replace i with j; [exact Hj|]. assert (E1 : k / m = i) by (symmetry; apply (Nat.div_unique k m i (k - i * m)); lia). assert (E2 : k / m = j) by (symmetry; apply (Nat.div_unique k m j (k - j * m)); lia). congruence.
Qed.
Lemma spline_combine (t : list Q) : forall xs : list Q, combine (repeat_each xs (List.length t)) (tile t (List.length xs)) = flat_map (fun a => map (fun b => (a, b)) t) xs.
Proof.
  assert (CA : forall {A B} (l1 l2 : list A) (m1 m2 : list B), List.length l1 = List.length m1 -> combine (l1 ++ l2) (m1 ++ m2) = combine l1 m1 ++ combine l2 m2).
  { intros A B l1. induction l1 as [|a l1 IH]; intros l2 [|b m1] m2 E; cbn in *; try discriminate; [reflexivity|]. f_equal. apply IH. congruence. }
  unfold repeat_each, tile. induction xs as [|a xs IH]; [reflexivity|]. cbn [flat_map List.length repeat List.concat]. rewrite CA by (now rewrite repeat_length). rewrite IH. f_equal.
  clear. induction t as [|b t IH]; [reflexivity|]. cbn. now rewrite IH.
Qed.
Lemma spline_drawn o r x t u pv : wfa u -> shape u = [List.length x; List.length t] -> without_replacement (r_choice r) -> spline_points o r x t u = Ok pv ->
  exists idx c, drawn x t u pv idx /\ 1 <= c /\ List.length idx = Nat.min c (List.length x) * List.length t /\
    (o_sample o = None -> c = portion1 (List.length x) (match o_data_ratio o with Some q => q | None => o_ratio o end)).
Proof.
  intros W S C. unfold spline_points. destruct (ratio_ok _); [|discriminate]. cbn [negb]. cbv zeta. set (m := List.length t).
  destruct (match o_sample o with Some z => _ | None => _ end) as [c|] eqn:NX; [|discriminate]. cbn [bind].
  assert (C1 : 1 <= c) by (destruct (o_sample o) as [z|]; [destruct (Nat.eqb m 0); [discriminate|]; assert (XX : c = Nat.max 1 (Z.to_nat (Z.quot z (Z.of_nat m)))) by congruence; rewrite XX; apply Nat.le_max_l|assert (XX : c = portion1 (List.length x) (match o_data_ratio o with Some q => q | None => o_ratio o end)) by congruence; rewrite XX; apply Nat.le_max_l]).
  set (nx := Nat.min c (List.length x)). destruct (C (List.length x) nx ltac:(lia)) as (ND & LE & F). set (idx0 := r_choice r (List.length x) nx) in *. pose proof (isort_perm idx0) as PM. set (idx := isort_nat idx0) in *.
  assert (NDi : NoDup idx) by (eapply Permutation_NoDup; [symmetry; exact PM|exact ND]). assert (LEi : List.length idx = nx) by (rewrite (Permutation_length PM); exact LE).
  assert (Fi : Forall (fun i => i < List.length x) idx) by (eapply Permutation_Forall; [symmetry; exact PM|exact F]). rewrite (gather_map 0%Q) by exact Fi. cbn [bind].
  assert (RW : mapM (fun i => if Nat.ltb i (List.length x) then Ok (row_of u m i) else Err IndexError) idx = Ok (map (row_of u m) idx)).
  { clear -Fi. induction Fi as [|i l Hi Fi IH]; [reflexivity|]. cbn [mapM map]. destruct (Nat.ltb_spec i (List.length x)); [|lia]. cbn [bind]. rewrite IH. reflexivity. }
  rewrite RW. cbn [bind]. intros [= <-]. exists (flat_map (fun i => seq (i * m) m) idx), c. split; [|split; [exact C1|split]].
  - assert (LF : List.length (flat u) = List.length x * m) by (unfold wfa in W; rewrite W, S; cbn; unfold m; lia).
    split; [now apply nodup_blocks|]. split.
    + apply Forall_forall. intros k Hk. apply in_flat_map in Hk. destruct Hk as (i & Hi & Hk). apply in_seq in Hk. rewrite Forall_forall in Fi. specialize (Fi i Hi). fold m. nia.
    + f_equal.
      * rewrite <- LEi. rewrite <- (map_length (fun i => nth i x 0%Q) idx). unfold m. rewrite spline_combine. fold m. clear RW LEi NDi PM. clearbody idx. induction Fi as [|i l Hi Fi IH]; [reflexivity|]. cbn [map flat_map]. rewrite !map_app, IH. f_equal.
        rewrite map_map. cbn [fst snd]. apply (nth_ext _ _ [] []); [rewrite !map_length, seq_length; reflexivity|]. intros j Hj. rewrite map_length in Hj.
        assert (K : i * m + j < List.length x * m) by (unfold m; nia). pose proof (mesh_rows_nth x t (i * m + j) K) as E.
        rewrite nth_indep with (d' := (fun b => [nth i x 0%Q; b]) 0%Q) by (now rewrite map_length). rewrite (map_nth (fun b => [nth i x 0%Q; b])).
        rewrite nth_indep with (l := map _ (seq _ _)) (d' := (fun k => nth k (mesh_rows x t) []) 0) by (rewrite map_length, seq_length; exact Hj). rewrite (map_nth (fun k => nth k (mesh_rows x t) [])). rewrite seq_nth by exact Hj.
        rewrite (nth_error_nth _ _ _ E). fold m. assert (M0 : m <> 0) by (unfold m; lia). rewrite Nat.div_add_l by exact M0. rewrite Nat.div_small by exact Hj. rewrite Nat.add_0_r. rewrite Nat.add_comm, Nat.mod_add by exact M0. rewrite Nat.mod_small by exact Hj. reflexivity.
      * clear RW LEi NDi PM. clearbody idx. induction Fi as [|i l Hi Fi IH]; [reflexivity|]. cbn [map flat_map List.concat]. rewrite map_app, IH. f_equal. unfold row_of.
        assert (K : i * m + m <= List.length x * m) by nia. apply (nth_ext _ _ NaN NaN); [rewrite slice_length, map_length, seq_length, LF; lia|]. intros j Hj. rewrite slice_length in Hj.
        rewrite nth_indep with (l := map _ (seq _ _)) (d' := (fun k => nth k (flat u) NaN) 0) by (rewrite map_length, seq_length; lia). rewrite (map_nth (fun k => nth k (flat u) NaN)). rewrite seq_nth by lia.
        apply nth_error_nth. rewrite slice_nth. destruct (Nat.ltb_spec (i * m + j) (i * m + m)); [|lia]. apply nth_error_nth'. lia.
  - fold m nx. rewrite <- LEi. clear. induction idx as [|i l IH]; [reflexivity|]. cbn [flat_map List.length]. rewrite app_length, seq_length, IH. lia.
  - intros E. rewrite E in NX. injection NX as <-. reflexivity.
Qed.
(** ** Cutting *)
Lemma trim_bounds len q lo hi : trim len q = (lo, hi) -> lo <= hi /\ hi <= len.
Proof. unfold trim. destruct (Nat.ltb_spec (len - portion len q - portion len q) 2); intros [= <- <-]; lia. Qed.
Lemma cut_ok o x t u x' t' u' : wfa u -> shape u = [List.length x; List.length t] -> cut o x t u = Ok (x', t', u') ->
  wfa u' /\ shape u' = [List.length x'; List.length t'] /\ exists xl tl, (forall i a, nth_error x' i = Some a -> nth_error x (xl + i) = Some a) /\ (forall j b, nth_error t' j = Some b -> nth_error t (tl + j) = Some b) /\
    forall i j v, i < List.length x' -> j < List.length t' -> get u' [i; j] = Some v -> get u [xl + i; tl + j] = Some v.
Proof.
  intros W S. unfold cut. destruct (o_cut o) as [q|]; [|intros [= <- <- <-]; split; [exact W|]; split; [exact S|]; exists 0, 0; repeat split; auto].
  destruct (negb _); [discriminate|]. destruct (trim (List.length x) q) as [xl xh] eqn:TX. destruct (trim (List.length t) q) as [tl th] eqn:TT. cbv zeta. intros [= <- <- <-].
  apply trim_bounds in TX, TT. set (m := List.length t) in *.
  assert (LF : List.length (flat u) = List.length x * m) by (unfold wfa in W; rewrite W, S; cbn; lia).
  assert (RL : forall i, i < List.length x -> List.length (slice (row_of u m i) tl th) = th - tl).
  { intros i Hi. unfold row_of. rewrite !slice_length, LF. assert (i * m + m <= List.length x * m) by nia. lia. }
  assert (LU : forall l, Forall (fun i => i < List.length x) l -> List.length (flat_map (fun i => slice (row_of u m i) tl th) l) = List.length l * (th - tl)).
  { intros l. induction 1 as [|i l Hi F IH]; [reflexivity|]. cbn [flat_map List.length]. rewrite app_length, IH, RL by exact Hi. lia. }
  assert (FS : Forall (fun i => i < List.length x) (seq xl (xh - xl))) by (apply Forall_forall; intros i Hi; apply in_seq in Hi; lia).
  split; [unfold wfa; cbn [flat shape]; rewrite LU by exact FS; rewrite seq_length; cbn; lia|]. split; [cbn [shape]; rewrite !slice_length; f_equal; [|f_equal]; lia|].
  exists xl, tl. split; [intros i a E; rewrite slice_nth in E; destruct (_ <? _)%nat; [exact E|discriminate]|]. split; [intros j b E; rewrite slice_nth in E; destruct (_ <? _)%nat; [exact E|discriminate]|].
  intros i j v Hi Hj E. rewrite slice_length in Hi, Hj. unfold get in *. cbn [shape flat] in E. rewrite S. cbn [ravel prod fold_right] in *.
  set (w := th - tl) in *. assert (W0 : w <> 0) by lia.
  destruct (flat_map_nth (fun i => slice (row_of u m i) tl th) w (seq xl (xh - xl)) (i * w + j)) as (a & E1 & E2).
  { intros a Ha. apply RL. rewrite Forall_forall in FS. auto. } { exact W0. } { rewrite seq_length. nia. }
  replace (i * (w * 1) + (j * 1 + 0)) with (i * w + j) in E by lia. rewrite E2 in E. rewrite Nat.div_add_l, Nat.div_small, Nat.add_0_r in E1 by lia. rewrite nth_error_seq in E1 by lia. injection E1 as <-.
  rewrite (Nat.add_comm (i * w)), Nat.mod_add, Nat.mod_small in E by lia. rewrite slice_nth in E. destruct (Nat.ltb_spec (tl + j) th); [|discriminate]. unfold row_of in E. rewrite slice_nth in E. destruct (_ <? _)%nat; [|discriminate].
  rewrite <- E. f_equal. fold m. lia.
Qed.
(** ** The legacy sparse adapter *)
Lemma NoDup_app_l {A} (l l' : list A) : NoDup (l ++ l') -> NoDup l.
Proof. induction l as [|a l IH]; intros H; [constructor|]. inversion H as [|? ? H1 H2]; subst. constructor; [rewrite in_app_iff in H1; tauto|auto]. Qed.
Definition fair (r : draws) : Prop := without_replacement (r_choice r) /\ without_replacement (r_split r) /\ without_replacement (r_train r) /\ without_replacement (r_val r).
Lemma Forall2_map_both {A B C} (R : B -> C -> Prop) (f : A -> B) (g : A -> C) l : (forall a, In a l -> R (f a) (g a)) -> Forall2 R (map f l) (map g l).
Proof. induction l as [|a l IH]; intros H; cbn; constructor; [apply H; now left|apply IH; intros; apply H; now right]. Qed.
(** Training and validation rows are the points and values of distinct grid cells of the
    dataset, taken from the sampled points; their numbers are 4/5 and the rest of the number
    of samples, each reduced by the data ratio. *)
Theorem C29_legacy o r x t u params res : wfa u -> shape u = [List.length x; List.length t] -> fair r -> sparse_legacy o r (fun v => v) x t u params = Ok res ->
  exists trI vaI n, let s := r_sparse res in
    NoDup (trI ++ vaI) /\ Forall2 (cell x t u) trI (combine (X_u_train s) (u_train s)) /\ Forall2 (cell x t u) vaI (combine (X_u_val s) (u_val s)) /\
    List.length (X_u_train s) = List.length (u_train s) /\ List.length (X_u_val s) = List.length (u_val s) /\
    (exists rest, Permutation (X_u_train s ++ X_u_val s ++ rest) (r_measured res)) /\ List.length (r_measured res) = n /\
    List.length (u_train s) = kept o (4 * n / 5) /\ List.length (u_val s) = kept o (n - 4 * n / 5) /\
    (o_spline o = false -> n_sampled o (Arrays.prod (r_shape res)) = Ok n) /\
    X_f_train s = map (colloc_row (s_lb s) (s_ub s)) (r_lhs r) ++ X_u_train s.
Proof.
  intros W S (F1 & F2 & F3 & F4). unfold sparse_legacy. destruct (negb _); [discriminate|]. destruct (cut o x t u) as [[[x' t'] u']|] eqn:CU; [|discriminate]. cbn [bind].
  destruct (cut_ok _ _ _ _ _ _ _ W S CU) as (W' & S' & xl & tl & CX & CT & CG).
  destruct (if o_spline o then _ else _) as [[xt vals]|] eqn:SP; [|discriminate]. cbn [bind].
  assert (D : exists idx, drawn x' t' u' (xt, vals) idx /\ (o_spline o = false -> n_sampled o (List.length x' * List.length t') = Ok (List.length idx))).
  { destruct (o_spline o).
    - destruct (spline_drawn _ _ _ _ _ _ W' S' F1 SP) as (idx & c & D & _). exists idx. split; [exact D|discriminate].
    - destruct (sample_points_drawn _ _ _ _ _ _ W' S' F1 SP) as (idx & D & N). exists idx. auto. }
  destruct D as (idx & (ND & FR & [= -> ->]) & NS). clear SP.
  destruct (cmin x') as [ax|]; [|discriminate]. cbn [bind]. destruct (cmin t') as [at_|]; [|discriminate]. cbn [bind]. destruct (cmax x') as [bx|]; [|discriminate]. cbn [bind]. destruct (cmax t') as [bt|]; [|discriminate]. cbn [bind].
  destruct (process_split (fun k => nth k (mesh_rows x' t') []) (fun k => nth k (flat u') NaN) idx (r_split r) (r_lhs r) [ax; at_] [bx; bt] F2) as (tr & va & E & P & L1 & L2). rewrite E. cbn [bind].
  destruct (shrink o r _) as [s'|] eqn:SH; [|discriminate]. cbn [bind]. intros [= <-].
  destruct (shrink_rows _ _ _ _ _ _ _ _ _ _ F3 F4 SH) as (tr' & va' & r1 & r2 & -> & P1 & P2 & K1 & K2). cbn [r_sparse X_u_train u_train X_u_val u_val X_f_train s_lb s_ub r_measured r_shape].
  set (m := List.length t') in *. set (f := fun k => (xl + k / m, tl + k mod m)).
  assert (PA : Permutation ((tr' ++ va') ++ (r1 ++ r2)) idx).
  { rewrite <- P, <- P1, <- P2. rewrite <- !app_assoc. apply Permutation_app_head. rewrite !app_assoc. apply Permutation_app_tail. apply Permutation_app_comm. }
  assert (NDA : NoDup (tr' ++ va')) by (apply NoDup_app_l with (l' := r1 ++ r2); eapply Permutation_NoDup; [symmetry; exact PA|exact ND]).
  assert (IA : forall k, In k (tr' ++ va') -> k < List.length x' * m).
  { intros k Hk. rewrite Forall_forall in FR. apply FR. eapply Permutation_in; [exact PA|]. apply in_or_app. now left. }
  assert (CE : forall k, In k (tr' ++ va') -> cell x t u (f k) (nth k (mesh_rows x' t') [], nth k (flat u') NaN)).
  { intros k Hk. specialize (IA k Hk). destruct (row_cell x' t' u' k W' S' IA) as (a & b & v & E1 & E2 & E3 & E4). cbn [fst snd] in *. fold m in E1, E2, E3. exists a, b, v. unfold f. cbn [fst snd].
    split; [auto|]. split; [auto|]. split; [|exact E4]. apply CG; [apply nth_error_Some; congruence|apply nth_error_Some; fold m; congruence|exact E3]. }
  exists (map f tr'), (map f va'), (List.length idx). split; [|split; [|split]].
  - rewrite <- map_app. apply NoDup_map_on; [exact NDA|]. intros k k' Hk Hk' E0. assert (M0 : m <> 0) by (specialize (IA k Hk); intros Z; rewrite Z in IA; lia).
    apply (cell_inj m); [exact M0|]. unfold f in E0. injection E0 as E1 E2. f_equal; lia.
  - rewrite combine_map2. apply Forall2_map_both. intros k Hk. apply CE. apply in_or_app. now left.
  - rewrite combine_map2. apply Forall2_map_both. intros k Hk. apply CE. apply in_or_app. now right.
  - rewrite !map_length. repeat split; auto.
    + exists (map (fun k => nth k (mesh_rows x' t') []) (r1 ++ r2)). rewrite <- !map_app. apply Permutation_map. rewrite app_assoc. exact PA.
    + now rewrite K1, L1.
    + now rewrite K2, L2.
    + intros E0. rewrite S'. cbn [Arrays.prod fold_right]. rewrite Nat.mul_1_r. auto.
Qed.
(** Noise changes values only: the points of the split do not depend on it. *)
Theorem C29_noise xt u u' split lhs lb ub s : List.length u = List.length u' -> List.length xt = List.length u -> without_replacement split -> process_data xt u split lhs lb ub = Ok s ->
  exists s', process_data xt u' split lhs lb ub = Ok s' /\ X_u_train s' = X_u_train s /\ X_u_val s' = X_u_val s /\ X_f_train s' = X_f_train s.
Proof.
  intros L LX W H. unfold process_data in *. rewrite <- L. cbv zeta in *. set (n := List.length u) in *. assert (K : 4 * n / 5 <= n) by (apply Nat.div_le_upper_bound; lia). destruct (W n (4 * n / 5) K) as (ND & LE & F).
  assert (FV : Forall (fun i => i < n) (setdiff n (split n (4 * n / 5)))) by (apply Forall_forall; intros i Hi; apply filter_In in Hi; destruct Hi as [Hi _]; apply in_seq in Hi; lia).
  rewrite (gather_map []) in * by (now rewrite LX). cbn [bind] in *. rewrite (gather_map NaN) in H by exact F. rewrite (gather_map NaN u') by (rewrite <- L; exact F). cbn [bind] in *.
  rewrite (gather_map []) in * by (now rewrite LX). cbn [bind] in *. rewrite (gather_map NaN) in H by exact FV. rewrite (gather_map NaN u') by (rewrite <- L; exact FV). cbn [bind] in *. injection H as <-. eexists. split; [reflexivity|]. auto.
Qed.
(** ** The table of all points, legacy *)
(** Row k of X_star is the point, and entry k of u_star the value, of cell (k / nt, k mod nt) -
    of the cut grid if a cut was asked for, which starts at cell (xl, tl) of the dataset. *)
Theorem C30_legacy o r noise x t u params res : wfa u -> shape u = [List.length x; List.length t] -> sparse_legacy o r noise x t u params = Ok res ->
  exists nx nt xl tl, r_shape res = [nx; nt] /\ List.length (r_Xstar res) = nx * nt /\ List.length (r_ustar res) = nx * nt /\
    (o_cut o = None -> xl = 0 /\ tl = 0 /\ nx = List.length x /\ nt = List.length t) /\
    forall k p v, nth_error (r_Xstar res) k = Some p -> nth_error (r_ustar res) k = Some v -> cell x t u (xl + k / nt, tl + k mod nt) (p, v).
Proof.
  intros W S. unfold sparse_legacy. destruct (negb _); [discriminate|]. destruct (cut o x t u) as [[[x' t'] u']|] eqn:CU; [|discriminate]. cbn [bind].
  destruct (cut_ok _ _ _ _ _ _ _ W S CU) as (W' & S' & xl & tl & CX & CT & CG).
  destruct (if o_spline o then _ else _) as [[xt vals]|]; [|discriminate]. cbn [bind].
  destruct (cmin x') as [ax|]; [|discriminate]. cbn [bind]. destruct (cmin t') as [at_|]; [|discriminate]. cbn [bind]. destruct (cmax x') as [bx|]; [|discriminate]. cbn [bind]. destruct (cmax t') as [bt|]; [|discriminate]. cbn [bind].
  destruct (process_data _ _ _ _ _ _) as [sd|]; [|discriminate]. cbn [bind]. destruct (shrink o r _) as [s'|]; [|discriminate]. cbn [bind]. intros [= <-]. cbn [r_shape r_Xstar r_ustar].
  assert (G : forall xl tl, (forall i a, nth_error x' i = Some a -> nth_error x (xl + i) = Some a) -> (forall j b, nth_error t' j = Some b -> nth_error t (tl + j) = Some b) ->
    (forall i j v, i < List.length x' -> j < List.length t' -> get u' [i; j] = Some v -> get u [xl + i; tl + j] = Some v) ->
    forall k p v, nth_error (mesh_rows x' t') k = Some p -> nth_error (flat u') k = Some v -> cell x t u (xl + k / List.length t', tl + k mod List.length t') (p, v)).
  { clear xl tl CX CT CG. intros xl tl CX CT CG k p v E1 E2. assert (K : k < List.length x' * List.length t') by (rewrite <- mesh_rows_length; apply nth_error_Some; congruence).
    destruct (row_cell x' t' u' k W' S' K) as (a & b & w & H1 & H2 & H3 & H4). cbn [fst snd] in *. rewrite (nth_error_nth _ _ _ E1), (nth_error_nth _ _ _ E2) in H4. exists a, b, w. cbn [fst snd]. split; [auto|]. split; [auto|]. split; [|exact H4].
    apply CG; [apply nth_error_Some; congruence|apply nth_error_Some; congruence|exact H3]. }
  assert (LU : List.length (flat u') = List.length x' * List.length t') by (unfold wfa in W'; rewrite W', S'; cbn; lia).
  destruct (o_cut o) as [q|] eqn:C.
  - exists (List.length x'), (List.length t'), xl, tl. split; [exact S'|]. split; [apply mesh_rows_length|]. split; [exact LU|]. split; [discriminate|]. now apply G.
  - exists (List.length x'), (List.length t'), 0, 0. split; [exact S'|]. split; [apply mesh_rows_length|]. split; [exact LU|]. unfold cut in CU. rewrite C in CU. injection CU as <- <- <-. split; [auto|]. apply (G 0 0); auto.
Qed.
(** ** N-D *)
Lemma sindex_nth s : forall l, In s l -> nth (sindex s l) l EmptyString = s /\ sindex s l < List.length l.
Proof.
  induction l as [|x l IH]; intros H; [destruct H|]. cbn [sindex]. destruct (String.eqb_spec x s) as [->|N]; cbn; [split; [reflexivity|lia]|]. destruct H as [H|H]; [contradiction|]. destruct (IH H). split; [assumption|lia].
Qed.
Lemma order_ok g order : grid_ok g -> Permutation order (g_axis g) -> is_perm (perm_of g order) /\ List.length (perm_of g order) = List.length (shape (g_u g)) /\
  twist (perm_of g order) (shape (g_u g)) = map (fun a => List.length (coord_of g a)) order.
Proof.
  intros (W & ND & IL & S & _) P. assert (L : List.length order = List.length (g_axis g)) by (now apply Permutation_length).
  assert (I : forall a, In a order -> In a (g_axis g)) by (intros a H; eapply Permutation_in; eauto). split; [split|split].
  - apply NoDup_map_on; [eapply Permutation_NoDup; [symmetry; exact P|exact ND]|]. intros a b Ha Hb E. rewrite <- (proj1 (sindex_nth a _ (I a Ha))), <- (proj1 (sindex_nth b _ (I b Hb))). now rewrite E.
  - intros i H. unfold perm_of in *. rewrite map_length, L. apply in_map_iff in H. destruct H as (a & <- & Ha). apply sindex_nth. auto.
  - unfold perm_of. rewrite map_length, S, map_length. exact L.
  - unfold twist, perm_of. rewrite map_map. apply map_ext_in. intros a Ha. rewrite S. destruct (sindex_nth a _ (I a Ha)) as [E Lt].
    rewrite nth_indep with (d' := (fun a => List.length (coord_of g a)) EmptyString) by (now rewrite map_length). rewrite (map_nth (fun a => List.length (coord_of g a))). now rewrite E.
Qed.
(** flattened index k of the transposed array, in the dataset's own axis order *)
Definition tuple (g : grid) (order : list string) (k : nat) : list nat := untwist (perm_of g order) (unravel (map (fun a => List.length (coord_of g a)) order) k).
Lemma tuple_ok g order k : grid_ok g -> Permutation order (g_axis g) -> let sizes := map (fun a => List.length (coord_of g a)) order in k < Arrays.prod sizes ->
  inb (shape (g_u g)) (tuple g order k) /\ twist (perm_of g order) (tuple g order k) = unravel sizes k /\
  (forall (p : array), wfa p -> shape p = shape (g_u g) -> get (transpose NaN p (perm_of g order)) (unravel sizes k) = get p (tuple g order k)) /\
  exists q, point_at (map (coord_of g) order) (unravel sizes k) = Ok q /\ at_point g order (tuple g order k) q.
Proof.
  intros G P sizes K. destruct (order_ok g order G P) as (PM & LP & TW). fold sizes in TW.
  assert (LO : List.length (perm_of g order) = List.length order) by apply map_length.
  assert (B : inb sizes (unravel sizes k)) by (now apply unravel_inb). assert (LS : List.length sizes = List.length order) by apply map_length.
  assert (I : inb (shape (g_u g)) (tuple g order k)) by (apply untwist_inb; [exact PM|now rewrite LP|now rewrite TW]).
  assert (T : twist (perm_of g order) (tuple g order k) = unravel sizes k) by (apply twist_untwist; [exact PM|rewrite unravel_length, LS; now rewrite LO]).
  split; [exact I|]. split; [exact T|]. split.
  - intros p W S. rewrite <- T. apply transpose_get; [exact PM|now rewrite S|exact W|now rewrite S].
  - assert (X : exists q, point_at (map (coord_of g) order) (unravel sizes k) = Ok q /\ Forall2 (fun a c => nth_error (coord_of g a) (nth (sindex a (g_axis g)) (tuple g order k) 0) = Some c) order q).
    { rewrite <- T. assert (B' : inb sizes (twist (perm_of g order) (tuple g order k))) by (now rewrite T). clear -B'. unfold sizes, twist, perm_of in *. rewrite map_map in *. unfold point_at. revert B'. generalize (tuple g order k) as i0. intros i0. induction order as [|a order IH]; intros B; [exists []; split; [reflexivity|constructor]|].
      cbn [map combine mapM fst snd]. inversion B as [|? ? ? ? B1 B2]; subst. destruct (nth_error (coord_of g a) _) as [c|] eqn:E; [|apply nth_error_None in E; lia]. cbn [bind]. destruct (IH B2) as (q & Eq & F). rewrite Eq. cbn [bind]. exists (c :: q). split; [reflexivity|]. constructor; assumption. }
    destruct X as (q & E & F). exists q. split; [exact E|]. split; [exact I|exact F].
Qed.
Lemma tuple_inj g order k k' : grid_ok g -> Permutation order (g_axis g) -> let sizes := map (fun a => List.length (coord_of g a)) order in k < Arrays.prod sizes -> k' < Arrays.prod sizes -> tuple g order k = tuple g order k' -> k = k'.
Proof.
  intros G P sizes K K' E. destruct (tuple_ok g order k G P K) as (_ & T & _). destruct (tuple_ok g order k' G P K') as (_ & T' & _). fold sizes in T, T'. rewrite <- (ravel_unravel sizes k K), <- (ravel_unravel sizes k' K'). congruence.
Qed.
Lemma filter_perm {A} (f : A -> bool) l : Permutation (filter f l ++ filter (fun a => negb (f a)) l) l.
Proof.
  induction l as [|a l IH]; [constructor|]. cbn. destruct (f a); cbn [negb]; [constructor; exact IH|]. rewrite <- Permutation_middle. now constructor.
Qed.
Lemma filter_single a l : NoDup l -> In a l -> filter (fun x => negb (negb (String.eqb x a))) l = [a].
Proof.
  induction 1 as [|b l Hb N IH]; intros H; [destruct H|]. cbn. destruct (String.eqb_spec b a) as [->|E]; cbn [negb].
  - f_equal. clear -Hb. induction l as [|c l IH]; [reflexivity|]. cbn. destruct (String.eqb_spec c a) as [->|E]; [exfalso; apply Hb; now left|]. cbn. apply IH. intros H. apply Hb. now right.
  - destruct H as [H|H]; [contradiction|auto].
Qed.
Lemma spatial_perm g : grid_ok g -> Permutation (spatial_axes g ++ [g_lhs g]) (g_axis g).
Proof.
  intros (_ & ND & IL & _). unfold spatial_axes. rewrite <- (filter_perm (fun a => negb (String.eqb a (g_lhs g))) (g_axis g)) at 2. apply Permutation_app_head. now rewrite (filter_single _ _ ND IL).
Qed.
Lemma star_ok cs : forall total, let sizes := map (@List.length Q) cs in Forall (lt 0) sizes -> (exists n, total = n * Arrays.prod sizes) ->
  snd (star_columns total cs) = Arrays.prod sizes /\ forall k, k < total -> table_row (fst (star_columns total cs)) k = point_at cs (unravel sizes (k mod Arrays.prod sizes)).
Proof.
  induction cs as [|c cs IH]; intros total sizes F (n & T); [split; [reflexivity|intros; reflexivity]|]. cbn [map] in sizes. set (s := Arrays.prod (map (@List.length Q) cs)) in *.
  assert (PS : Arrays.prod sizes = List.length c * s) by reflexivity. pose proof (Forall_inv F) as F1. pose proof (Forall_inv_tail F) as F2. assert (S0 : 0 < s) by (now apply prod_pos).
  destruct (IH total F2) as (IS & IR); [exists (n * List.length c); rewrite T, PS; fold s; lia|]. cbn [star_columns]. destruct (star_columns total cs) as [cols stride]. cbn [fst snd] in *. fold s in IS. subst stride.
  split; [rewrite PS; lia|]. intros k K. unfold table_row in *. cbn [mapM]. specialize (IR k K). rewrite IR. rewrite PS.
  assert (LS : List.length c * s <> 0) by nia. set (L := List.length c) in *.
  assert (N : total / (L * s) = n) by (rewrite T, PS; apply Nat.div_mul; exact LS). rewrite N.
  rewrite tile_nth by (rewrite repeat_each_length; fold L; rewrite T, PS in K; exact K). rewrite repeat_each_length. fold L.
  rewrite repeat_each_nth by (apply Nat.mod_upper_bound; exact LS).
  assert (E : k mod (L * s) = s * ((k / s) mod L) + k mod s) by (rewrite (Nat.mul_comm L s), Nat.mod_mul_r by lia; lia).
  unfold sizes. cbn [unravel]. change (Arrays.prod (map (@List.length Q) cs)) with s. unfold point_at. cbn [combine mapM fst snd].
  replace ((k mod (L * s)) mod s) with (k mod s); [reflexivity|]. rewrite E. rewrite Nat.mul_comm, Nat.add_comm, Nat.mod_add by lia. now rewrite Nat.mod_mod by lia.
Qed.
Lemma mapM_ext_in {A B} (f h : A -> res B) l : (forall a, In a l -> f a = h a) -> mapM f l = mapM h l.
Proof. induction l as [|a l IH]; intros H; [reflexivity|]. cbn. rewrite (H a) by (now left). rewrite IH by (intros; apply H; now right). reflexivity. Qed.
Lemma mapM_total {A B} (f : A -> res B) (h : A -> B) l : (forall a, In a l -> f a = Ok (h a)) -> mapM f l = Ok (map h l).
Proof. induction l as [|a l IH]; intros H; [reflexivity|]. cbn. rewrite (H a) by (now left). cbn [bind]. rewrite IH by (intros; apply H; now right). reflexivity. Qed.
Lemma cmin_nonempty cs lb : mapM cmin cs = Ok lb -> Forall (lt 0) (map (@List.length Q) cs).
Proof.
  revert lb. induction cs as [|c cs IH]; intros lb H; [constructor|]. cbn in H. destruct c as [|q c]; [discriminate|]. cbn [cmin bind] in H. destruct (mapM cmin cs) as [l|] eqn:E; [|discriminate]. cbn. constructor; [lia|]. eapply IH. reflexivity.
Qed.
Lemma sizes_eq g order : map (@List.length Q) (map (coord_of g) order) = map (fun a => List.length (coord_of g a)) order.
Proof. apply map_map. Qed.
Lemma transpose_shape {A} (d : A) a perm : shape (transpose d a perm) = twist perm (shape a).
Proof. reflexivity. Qed.
Section ND.
Variables (g : grid) (order : list string).
Hypotheses (G : grid_ok g) (PO : Permutation order (g_axis g)).
Let sizes := map (fun a => List.length (coord_of g a)) order.
Let total := Arrays.prod sizes.
Let cs := map (coord_of g) order.
Definition pt k := match point_at cs (unravel sizes k) with Ok q => q | Err _ => [] end.
Definition vl k := match get (transpose NaN (g_u g) (perm_of g order)) (unravel sizes k) with Some v => v | None => NaN end.
Lemma pt_ok k : k < total -> point_at cs (unravel sizes k) = Ok (pt k) /\ get (transpose NaN (g_u g) (perm_of g order)) (unravel sizes k) = Some (vl k) /\ nd_cell g order (tuple g order k) (pt k, vl k).
Proof.
  intros K. destruct (tuple_ok g order k G PO K) as (I & T & GT & q & E & AP). fold sizes in T, GT, E. unfold pt, vl. unfold cs. rewrite E. split; [reflexivity|].
  destruct G as (W & _). specialize (GT (g_u g) W eq_refl). destruct (get_some (g_u g) _ W I) as (v & Ev). rewrite Ev in GT. rewrite GT. split; [reflexivity|]. split; [exact AP|exact Ev].
Qed.
Lemma tuple_of_index i : inb (shape (g_u g)) i -> let k := ravel sizes (map (fun a => nth (sindex a (g_axis g)) i 0) order) in k < total /\ tuple g order k = i.
Proof.
  intros I k. destruct (order_ok g order G PO) as (PM & LP & TW). fold sizes in TW.
  assert (TI : map (fun a => nth (sindex a (g_axis g)) i 0) order = twist (perm_of g order) i) by (unfold twist, perm_of; now rewrite map_map).
  assert (B : inb sizes (twist (perm_of g order) i)) by (rewrite <- TW; apply twist_inb; auto).
  unfold k. rewrite TI. split; [now apply ravel_lt|]. unfold tuple. fold sizes. rewrite unravel_ravel by exact B. apply untwist_twist; [exact PM|]. rewrite (inb_length _ _ I). congruence.
Qed.
Lemma tuple_index k : k < total -> k = ravel sizes (map (fun a => nth (sindex a (g_axis g)) (tuple g order k) 0) order).
Proof.
  intros K. destruct (tuple_ok g order k G PO K) as (I & T & _). fold sizes in T. replace (map _ order) with (twist (perm_of g order) (tuple g order k)) by (unfold twist, perm_of; now rewrite map_map). rewrite T. now rewrite ravel_unravel.
Qed.
End ND.
(** The N-D sparse adapter: X_star, u_star and the parameter fields list every grid point once,
    in row-major order of the axes (spatial axes in the dataset's order, then the left-hand
    axis), each with the field value and parameter values at that point. *)
Theorem C30_nd o r noise g res : grid_ok g -> sparse_nd o r noise g = Ok res ->
  let order := spatial_axes g ++ [g_lhs g] in
  let position i := ravel (r_shape res) (map (fun a => nth (sindex a (g_axis g)) i 0) order) in
  r_shape res = map (fun a => List.length (coord_of g a)) order /\ List.length (r_Xstar res) = Arrays.prod (r_shape res) /\ List.length (r_ustar res) = Arrays.prod (r_shape res) /\
  (forall k p v, nth_error (r_Xstar res) k = Some p -> nth_error (r_ustar res) k = Some v -> exists i, nd_cell g order i (p, v) /\ k = position i) /\
  (forall i, inb (shape (g_u g)) i -> exists p v, nth_error (r_Xstar res) (position i) = Some p /\ nth_error (r_ustar res) (position i) = Some v /\ nd_cell g order i (p, v)) /\
  (forall n par, nth_error (g_params g) n = Some par -> exists par', nth_error (r_params res) n = Some par' /\ shape par' = r_shape res /\
     forall i, inb (shape (g_u g)) i -> nth_error (flat par') (position i) = get par i).
Proof.
  intros Gk H order position. pose proof (spatial_perm g Gk) as PO. fold order in PO. set (sizes := map (fun a => List.length (coord_of g a)) order) in *.
  unfold sparse_nd in H. destruct (o_spline o); [discriminate|]. destruct (o_cut o); [discriminate|]. destruct (o_data_ratio o); [discriminate|]. destruct (negb (forallb _ _)); [discriminate|]. destruct (negb (smem _ _)); [discriminate|]. cbv zeta in H. fold order in H.
  rewrite sizes_eq in H. fold sizes in H. destruct (n_sampled o _) as [n|]; [|discriminate]. cbn [bind] in H. destruct (mapM (fun k => if Nat.ltb k _ then _ else _) _) as [xt|]; [|discriminate]. cbn [bind] in H.
  destruct (mapM (fun k => match get _ _ with Some v => Ok v | None => _ end) _) as [vals|]; [|discriminate]. cbn [bind] in H. destruct (mapM cmin _) as [lb|] eqn:LB; [|discriminate]. cbn [bind] in H. destruct (mapM cmax _) as [ub|]; [|discriminate]. cbn [bind] in H.
  destruct (process_data _ _ _ _ _ _) as [s|]; [|discriminate]. cbn [bind] in H. destruct (mapM _ (seq 0 _)) as [star|] eqn:ST; [|discriminate]. cbn [bind] in H. match type of H with Ok ?X = Ok res => assert (RE : res = X) by congruence end. clear H. unfold position. clear position. rewrite RE. clear RE.
  cbn [r_shape r_Xstar r_ustar r_params]. destruct (order_ok g order Gk PO) as (PM & LP & TW). fold sizes in TW. change (shape (transpose NaN (g_u g) (perm_of g order))) with (twist (perm_of g order) (shape (g_u g))). rewrite TW.
  apply cmin_nonempty in LB. rewrite sizes_eq in LB. fold sizes in LB.
  destruct (star_ok (map (coord_of g) order) (Arrays.prod sizes)) as (_ & SR); [now rewrite sizes_eq|exists 1; rewrite sizes_eq; fold sizes; lia|]. rewrite sizes_eq in SR. fold sizes in SR.
  rewrite (mapM_total _ (pt g order)) in ST.
  2:{ intros k Hk. apply in_seq in Hk. rewrite SR by lia. rewrite Nat.mod_small by lia. apply (pt_ok g order Gk PO). fold sizes. lia. }
  injection ST as <-. assert (LU : List.length (flat (transpose NaN (g_u g) (perm_of g order))) = Arrays.prod sizes) by (pose proof (tabulate_wf (twist (perm_of g order) (shape (g_u g))) (fun idx => match get (g_u g) (untwist (perm_of g order) idx) with Some x => x | None => NaN end)) as WT; unfold wfa in WT; unfold transpose; rewrite WT; cbn [shape tabulate]; now rewrite TW).
  assert (XK : forall k, k < Arrays.prod sizes -> nth_error (map (pt g order) (seq 0 (Arrays.prod sizes))) k = Some (pt g order k)) by (intros k K; rewrite nth_error_map, nth_error_seq by exact K; reflexivity).
  assert (UK : forall (p : array), wfa p -> shape p = shape (g_u g) -> forall k, k < Arrays.prod sizes -> nth_error (flat (transpose NaN p (perm_of g order))) k = get (transpose NaN p (perm_of g order)) (unravel sizes k)).
  { intros p Wp Sp k K. unfold get. rewrite transpose_shape, Sp, TW. now rewrite ravel_unravel. }
  split; [reflexivity|]. split; [now rewrite map_length, seq_length|]. split; [exact LU|]. split; [|split].
  - intros k p v E1 E2. assert (K : k < Arrays.prod sizes) by (rewrite <- LU; apply nth_error_Some; congruence). rewrite XK in E1 by exact K. destruct (pt_ok g order Gk PO k K) as (_ & EV & C).
    rewrite (UK _ (proj1 Gk) eq_refl k K) in E2. fold sizes in EV. rewrite EV in E2. injection E1 as <-. injection E2 as <-. exists (tuple g order k). split; [exact C|]. now apply tuple_index.
  - intros i I. destruct (tuple_of_index g order Gk PO i I) as (K & T). fold sizes in K, T. set (k := ravel sizes _) in *. destruct (pt_ok g order Gk PO k K) as (_ & EV & C). rewrite T in C. exists (pt g order k), (vl g order k).
    split; [now apply XK|]. split; [|exact C]. rewrite (UK _ (proj1 Gk) eq_refl k K). exact EV.
  - intros n0 par EP. rewrite nth_error_map, EP. cbn [option_map]. eexists. split; [reflexivity|].
    assert (WP : wfa par /\ shape par = shape (g_u g)) by (destruct Gk as (_ & _ & _ & _ & FP); rewrite Forall_forall in FP; apply FP; eapply nth_error_In; exact EP). destruct WP as [WP SP].
    split; [rewrite transpose_shape, SP; exact TW|]. intros i I. destruct (tuple_of_index g order Gk PO i I) as (K & T). fold sizes in K, T. rewrite (UK par WP SP _ K).
    destruct (tuple_ok g order _ Gk PO K) as (_ & _ & GT & _). fold sizes in GT. rewrite (GT par WP SP). now rewrite T.
Qed.
(** The N-D split, as for the legacy adapter. *)
Theorem C29_nd o r g res : grid_ok g -> fair r -> sparse_nd o r (fun v => v) g = Ok res ->
  let order := spatial_axes g ++ [g_lhs g] in let s := r_sparse res in
  exists trI vaI n, NoDup (trI ++ vaI) /\ Forall2 (nd_cell g order) trI (combine (X_u_train s) (u_train s)) /\ Forall2 (nd_cell g order) vaI (combine (X_u_val s) (u_val s)) /\
    List.length (X_u_train s) = List.length (u_train s) /\ List.length (X_u_val s) = List.length (u_val s) /\
    Permutation (X_u_train s ++ X_u_val s) (r_measured res) /\ n_sampled o (Arrays.prod (r_shape res)) = Ok n /\
    List.length (u_train s) = 4 * n / 5 /\ List.length (u_val s) = n - 4 * n / 5 /\
    X_f_train s = map (colloc_row (s_lb s) (s_ub s)) (r_lhs r) ++ X_u_train s.
Proof.
  intros Gk (F1 & F2 & _ & _) H order. pose proof (C30_nd o r _ g res Gk H) as (SH & _). fold order in SH. pose proof (spatial_perm g Gk) as PO. fold order in PO. rewrite SH. set (sizes := map (fun a => List.length (coord_of g a)) order) in *. cbv zeta. clear SH.
  unfold sparse_nd in H. destruct (o_spline o); [discriminate|]. destruct (o_cut o); [discriminate|]. destruct (o_data_ratio o); [discriminate|]. destruct (negb (forallb _ _)); [discriminate|]. destruct (negb (smem _ _)); [discriminate|]. cbv zeta in H. fold order in H.
  rewrite sizes_eq in H. fold sizes in H. destruct (n_sampled o _) as [n|] eqn:N; [|discriminate]. cbn [bind] in H. destruct (F1 _ _ (n_sampled_le _ _ _ N)) as (ND & LE & FR). set (idx := r_choice r _ n) in *.
  rewrite (mapM_total _ (pt g order)) in H.
  2:{ intros k Hk. rewrite Forall_forall in FR. specialize (FR k Hk). destruct (Nat.ltb_spec k (Arrays.prod sizes)); [|lia]. apply (pt_ok g order Gk PO). exact FR. }
  cbn [bind] in H. rewrite (mapM_total _ (vl g order)) in H.
  2:{ intros k Hk. rewrite Forall_forall in FR. specialize (FR k Hk). destruct (pt_ok g order Gk PO k FR) as (_ & EV & _). fold sizes in EV. rewrite EV. reflexivity. }
  cbn [bind] in H. destruct (mapM cmin _) as [lb|]; [|discriminate]. cbn [bind] in H. destruct (mapM cmax _) as [ub|]; [|discriminate]. cbn [bind] in H.
  destruct (process_split (pt g order) (vl g order) idx (r_split r) (r_lhs r) lb ub F2) as (tr & va & E & P & L1 & L2). rewrite E in H. cbn [bind] in H.
  destruct (mapM _ (seq 0 _)) as [star|]; [|discriminate]. cbn [bind] in H. match type of H with Ok ?X = Ok res => assert (RE : res = X) by congruence end. clear H. rewrite RE. clear RE.
  cbn [r_sparse r_measured X_u_train u_train X_u_val u_val X_f_train s_lb s_ub].
  assert (IA : forall k, In k (tr ++ va) -> k < Arrays.prod sizes) by (intros k Hk; rewrite Forall_forall in FR; apply FR; eapply Permutation_in; eauto).
  assert (NDA : NoDup (tr ++ va)) by (eapply Permutation_NoDup; [symmetry; exact P|exact ND]).
  exists (map (tuple g order) tr), (map (tuple g order) va), n. rewrite LE in L1, L2. rewrite !map_length. split; [|split; [|split]].
  - rewrite <- map_app. apply NoDup_map_on; [exact NDA|]. intros k k' Hk Hk'. apply (tuple_inj g order); auto.
  - rewrite combine_map2. apply Forall2_map_both. intros k Hk. apply (pt_ok g order Gk PO). apply IA. apply in_or_app. now left.
  - rewrite combine_map2. apply Forall2_map_both. intros k Hk. apply (pt_ok g order Gk PO). apply IA. apply in_or_app. now right.
  - repeat split; auto. rewrite <- map_app. now apply Permutation_map.
Qed.
(** ** The regular adapter *)
Lemma mapM_nth {A B} (f : A -> res B) l r k a : mapM f l = Ok r -> nth_error l k = Some a -> exists b, nth_error r k = Some b /\ f a = Ok b.
Proof.
  revert r k. induction l as [|x l IH]; intros r k H E; [destruct k; discriminate|]. cbn in H. destruct (f x) as [y|] eqn:Ef; [|discriminate]. cbn [bind] in H. destruct (mapM f l) as [ys|]; [|discriminate]. injection H as <-. destruct k as [|k]; [injection E as <-; cbn; eauto|]. cbn. apply IH; auto.
Qed.
Lemma mapM_length {A B} (f : A -> res B) l r : mapM f l = Ok r -> List.length r = List.length l.
Proof. intros H. apply mapM_Forall in H. induction H; cbn; auto. Qed.
Lemma ut_columns_ok f nt ns dt ut : ut_columns f nt ns dt = Ok ut -> List.length ut = nt * ns /\
  forall k c, k < nt -> c < ns -> exists d, disc_diff (map (fun j => nth (j * ns + c) f 0%Q) (seq 0 nt)) dt = Ok d /\ nth_error ut (k * ns + c) = Some (nth k d 0%Q).
Proof.
  unfold ut_columns. destruct (mapM _ _) as [cols|] eqn:M; [|discriminate]. cbn [bind]. intros H. assert (E : ut = flat_map (fun k => map (fun c => nth k c 0%Q) cols) (seq 0 nt)) by congruence. clear H. subst ut.
  pose proof (mapM_length _ _ _ M) as LC. rewrite seq_length in LC. split.
  - rewrite <- LC. clear. assert (G : forall a, List.length (flat_map (fun k => map (fun c => nth k c 0%Q) cols) (seq a nt)) = nt * List.length cols).
    { induction nt as [|n IH]; intros a; [reflexivity|]. cbn [seq flat_map]. rewrite app_length, map_length, IH. lia. }
    apply G.
  - intros k c K C. destruct (mapM_nth _ _ _ c c M) as (d & E1 & E2); [rewrite nth_error_seq by exact C; reflexivity|]. exists d. split; [exact E2|].
    destruct (flat_map_nth (fun k => map (fun c => nth k c 0%Q) cols) ns (seq 0 nt) (k * ns + c)) as (a & A1 & A2); [intros; now rewrite map_length|lia|rewrite seq_length; nia|].
    rewrite A2. rewrite Nat.div_add_l, Nat.div_small, Nat.add_0_r in A1 by lia. rewrite nth_error_seq in A1 by exact K. injection A1 as <-. rewrite (Nat.add_comm (k * ns)), Nat.mod_add, Nat.mod_small by lia. rewrite nth_error_map, E1. reflexivity.
Qed.
Lemma put_at_length l : forall i x, List.length (put_at l i x) = List.length l.
Proof. induction l as [|y l IH]; intros [|i] x; cbn; auto. Qed.
Lemma put_at_same l : forall i x, i < List.length l -> nth i (put_at l i x) 0 = x.
Proof. induction l as [|y l IH]; intros [|i] x H; cbn in *; try lia; auto. apply IH. lia. Qed.
Lemma put_at_other l : forall i j x, i <> j -> nth j (put_at l i x) 0 = nth j l 0.
Proof. induction l as [|y l IH]; intros [|i] [|j] x H; cbn; auto; try congruence. Qed.
Lemma sindex_inj g a b : In a (g_axis g) -> In b (g_axis g) -> sindex a (g_axis g) = sindex b (g_axis g) -> a = b.
Proof. intros A B E. rewrite <- (proj1 (sindex_nth a _ A)), <- (proj1 (sindex_nth b _ B)). now rewrite E. Qed.
(** the field as a function of the index *)
Definition valueQ (g : grid) (i : list nat) : Q := match get (g_u g) i with Some v => toQ v | None => 0%Q end.
(** The arrays handed to DISCOVER have the left-hand axis first and the spatial axes in the
    dataset's order; every entry is the field (its time derivative by finite differences along
    the left-hand axis) at the corresponding grid point, and X lists the spatial coordinates in
    the same order. *)
Theorem C30_regular uniform dim g res : grid_ok g -> regular_nd uniform dim g = Ok res ->
  let sp := spatial_axes g in let ax := sindex (g_lhs g) (g_axis g) in
  let index i := nth ax i 0 :: map (fun a => nth (sindex a (g_axis g)) i 0) sp in
  exists dt, time_step uniform (coord_of g (g_lhs g)) = Ok dt /\
  shape (g_field res) = map (fun a => List.length (coord_of g a)) (g_lhs g :: sp) /\ shape (g_ut res) = shape (g_field res) /\ wfa (g_field res) /\ wfa (g_ut res) /\
  g_X res = map (coord_of g) sp /\ g_dim res = List.length sp /\ 2 <= List.length sp <= 3 /\
  (forall i, inb (shape (g_u g)) i -> inb (shape (g_field res)) (index i) /\ get (g_field res) (index i) = Some (valueQ g i) /\ (exists q, get (g_u g) i = Some (Fin q)) /\
     exists q, along disc_diff (shape (g_u g)) (valueQ g) dt ax i = Ok q /\ get (g_ut res) (index i) = Some q) /\
  (forall n par, nth_error (g_params g) n = Some par -> exists par', nth_error (g_par res) n = Some par' /\ shape par' = shape (g_field res) /\ forall i, inb (shape (g_u g)) i -> get par' (index i) = get par i).
Proof.
  intros Gk H sp ax index. set (order := g_lhs g :: sp). assert (PO : Permutation order (g_axis g)) by (rewrite <- (spatial_perm g Gk); unfold order; fold sp; apply Permutation_cons_append).
  destruct (order_ok g order Gk PO) as (PM & LP & TW). set (sizes := map (fun a => List.length (coord_of g a)) order) in *.
  unfold regular_nd in H. destruct (forallb is_fin _) eqn:FIN; [|discriminate]. cbn [negb] in H. destruct (negb (smem _ _)); [discriminate|]. cbv zeta in H. fold sp in H. destruct (Nat.ltb_spec (List.length sp) 2) as [|N1]; [discriminate|]. destruct (Nat.ltb_spec 3 (List.length sp)) as [|N2]; [discriminate|]. cbn [orb] in H.
  destruct (existsb _ sp); [discriminate|]. destruct (time_step _ _) as [dt|] eqn:TS; [|discriminate]. cbn [bind] in H. fold order in H. change (shape (transpose NaN (g_u g) (perm_of g order))) with (twist (perm_of g order) (shape (g_u g))) in H. rewrite TW in H.
  destruct (ut_columns _ _ _ _) as [ut|] eqn:UT; [|discriminate]. cbn [bind] in H. destruct (match dim with Some d => _ | None => false end); [discriminate|]. match type of H with Ok ?X = Ok res => assert (RE : res = X) by congruence end. clear H. subst res.
  exists dt. split; [reflexivity|]. cbn [g_field g_ut g_X g_dim g_par shape]. set (T := transpose NaN (g_u g) (perm_of g order)) in *.
  assert (WT : List.length (flat T) = Arrays.prod sizes) by (unfold T, transpose; pose proof (tabulate_wf (twist (perm_of g order) (shape (g_u g))) (fun idx => match get (g_u g) (untwist (perm_of g order) idx) with Some x => x | None => NaN end)) as X; unfold wfa in X; rewrite X; cbn [shape tabulate]; now rewrite TW).
  set (nt := hd 0 sizes) in *. set (ns := Arrays.prod (tl sizes)) in *. assert (PR : Arrays.prod sizes = nt * ns) by reflexivity.
  destruct (ut_columns_ok _ _ _ _ _ UT) as (LUT & UTK).
  split; [reflexivity|]. split; [reflexivity|]. split; [unfold wfa; cbn [flat shape]; now rewrite map_length|]. split; [unfold wfa; cbn [flat shape]; now rewrite LUT|]. split; [reflexivity|]. split; [reflexivity|]. split; [lia|].
  assert (IX : forall i, index i = twist (perm_of g order) i) by (intros i; unfold index, twist, perm_of, order; cbn [map]; now rewrite map_map).
  assert (IB : forall i, inb (shape (g_u g)) i -> inb sizes (index i)) by (intros i I; rewrite IX, <- TW; apply twist_inb; auto).
  assert (TG : forall (p : array), wfa p -> shape p = shape (g_u g) -> forall i, inb (shape (g_u g)) i -> get (transpose NaN p (perm_of g order)) (index i) = get p i).
  { intros p Wp Sp i I. rewrite IX. apply transpose_get; [exact PM|now rewrite Sp|exact Wp|now rewrite Sp]. }
  destruct Gk as (W & ND & IL & SHA & FP).
  assert (FG : forall i, inb (shape (g_u g)) i -> nth_error (map toQ (flat T)) (ravel sizes (index i)) = Some (valueQ g i) /\ exists q, get (g_u g) i = Some (Fin q)).
  { intros i I. rewrite nth_error_map. specialize (TG (g_u g) W eq_refl i I). unfold get in TG at 1. change (shape (transpose NaN (g_u g) (perm_of g order))) with (twist (perm_of g order) (shape (g_u g))) in TG. rewrite TW in TG. fold T in TG. rewrite TG. destruct (get_some (g_u g) i W I) as (v & Ev).
    unfold valueQ. rewrite Ev. cbn [option_map]. split; [reflexivity|]. rewrite forallb_forall in FIN. specialize (FIN v (nth_error_In _ _ Ev)). destruct v; try discriminate. eauto. }
  split.
  - intros i I. split; [now apply IB|]. destruct (FG i I) as (FG1 & FG2). split; [exact FG1|]. split; [exact FG2|]. pose proof (IB i I) as B. pose proof I as I0. apply inb_nth in I0. destruct I0 as [LI BI].
    assert (AX : ax < List.length (g_axis g)) by (apply sindex_nth; exact IL). assert (LA : List.length (shape (g_u g)) = List.length (g_axis g)) by (now rewrite SHA, map_length).
    assert (NTX : nth ax (shape (g_u g)) 0 = nt) by (unfold nt; rewrite <- TW; unfold twist, perm_of, order; reflexivity).
    unfold along. destruct (Nat.ltb_spec ax (List.length (shape (g_u g)))); [|lia]. set (c := ravel (tl sizes) (map (fun a => nth (sindex a (g_axis g)) i 0) sp)).
    assert (C : c < ns) by (unfold c, ns; apply ravel_lt; unfold index in B; unfold sizes, order in *; cbn [map tl] in *; inversion B; assumption).
    assert (KT : nth ax i 0 < nt) by (rewrite <- NTX; apply BI; lia).
    assert (RI : forall k, ravel sizes (k :: map (fun a => nth (sindex a (g_axis g)) i 0) sp) = k * ns + c) by reflexivity.
    destruct (UTK (nth ax i 0) c KT C) as (d & DD & EU). exists (nth (nth ax i 0) d 0%Q). unfold line. rewrite NTX.
    assert (LN : map (fun j => valueQ g (put_at i ax j)) (seq 0 nt) = map (fun j => nth (j * ns + c) (map toQ (flat T)) 0%Q) (seq 0 nt)).
    { apply map_ext_in. intros j Hj. apply in_seq in Hj. assert (IJ : inb (shape (g_u g)) (put_at i ax j)).
      { apply inb_nth. split; [now rewrite put_at_length|]. intros b Hb. destruct (Nat.eq_dec ax b) as [<-|NE]; [rewrite put_at_same by lia; lia|]. rewrite put_at_other by exact NE. auto. }
      destruct (FG _ IJ) as (FJ & _). assert (IXJ : index (put_at i ax j) = j :: map (fun a => nth (sindex a (g_axis g)) i 0) sp).
      { unfold index. rewrite put_at_same by lia. f_equal. apply map_ext_in. intros a Ha. apply put_at_other. intros E. unfold sp, spatial_axes in Ha. apply filter_In in Ha. destruct Ha as [Ia Na]. apply (sindex_inj g) in E; auto. subst a. rewrite String.eqb_refl in Na. discriminate. }
      rewrite IXJ, RI in FJ. symmetry. now apply nth_error_nth. }
    rewrite LN, DD. cbn [bind]. split; [reflexivity|]. unfold get. cbn [flat shape]. unfold index. rewrite RI. exact EU.
  - intros n par EP. rewrite nth_error_map, EP. cbn [option_map]. eexists. split; [reflexivity|]. rewrite Forall_forall in FP. destruct (FP par (nth_error_In _ _ EP)) as [WP SP]. split; [rewrite transpose_shape, SP; exact TW|]. now apply TG.
Qed.
Lemma time_step_nonzero uniform t dt : time_step uniform t = Ok dt -> ~ (dt == 0)%Q /\ 3 <= List.length t.
Proof.
  unfold time_step. destruct (Nat.ltb_spec (List.length t) 3); [discriminate|]. destruct (diffs t) as [|d ds]; [discriminate|]. destruct (uniform && _); [discriminate|]. destruct (Qeq_bool d 0) eqn:E; [discriminate|]. intros [= <-]. split; [|assumption].
  intros Z. apply Qeq_bool_iff in Z. congruence.
Qed.
Lemma diffs_nth t : forall k a b, nth_error t k = Some a -> nth_error t (S k) = Some b -> nth_error (diffs t) k = Some (b - a)%Q.
Proof.
  induction t as [|c t IH]; intros k a b A B; [destruct k; discriminate|]. destruct t as [|c' t]; [destruct k; discriminate|]. destruct k as [|k].
  - injection A as <-. injection B as <-. reflexivity.
  - cbn [diffs nth_error]. apply IH; assumption.
Qed.
(** When a uniform grid is required, every step of an accepted grid is the first one up to
    numpy's tolerance (1e-8 absolute plus 1e-5 relative), and the step used is the first. *)
Theorem C30_uniform_steps t dt : time_step true t = Ok dt -> (forall a b, nth_error t 0 = Some a -> nth_error t 1 = Some b -> dt = (b - a)%Q) /\
  forall k a b, nth_error t k = Some a -> nth_error t (S k) = Some b -> (Qabs (b - a - dt) <= (1 # 100000000) + (1 # 100000) * Qabs dt)%Q.
Proof.
  unfold time_step. destruct (Nat.ltb_spec (List.length t) 3); [discriminate|]. destruct (diffs t) as [|d ds] eqn:D; [discriminate|]. cbn [andb]. destruct (forallb _ _) eqn:F; [|discriminate]. cbn [negb]. destruct (Qeq_bool d 0); [discriminate|]. intros E. assert (DE : dt = d) by congruence. clear E. subst dt. split.
  - intros a b A B. pose proof (diffs_nth t 0 a b A B) as N. rewrite D in N. cbn in N. congruence.
  - intros k a b A B. pose proof (diffs_nth t k a b A B) as N. rewrite D in N. rewrite forallb_forall in F. specialize (F _ (nth_error_In _ _ N)). unfold isclose in F. now apply Qle_bool_iff.
Qed.
(** A step off by more than the tolerance is refused. *)
Theorem C30_uneven_refused t k d0 a b : nth_error (diffs t) 0 = Some d0 -> nth_error t k = Some a -> nth_error t (S k) = Some b ->
  ((1 # 100000000) + (1 # 100000) * Qabs d0 < Qabs (b - a - d0))%Q -> time_step true t = Err ValueError.
Proof.
  intros D A B L. destruct (time_step true t) as [dt|e] eqn:E.
  - exfalso. pose proof (proj2 (C30_uniform_steps t dt E) k a b A B) as G. assert (DD : dt = d0). { unfold time_step in E. destruct (_ <? 3); [discriminate|]. destruct (diffs t) as [|d ds]; [discriminate|]. destruct (true && _); [discriminate|]. destruct (Qeq_bool d 0); [discriminate|]. cbn in D. congruence. } subst dt. apply (Qlt_not_le _ _ L). exact G.
  - unfold time_step in E. destruct (_ <? 3); [congruence|]. destruct (diffs t) as [|d ds]; [discriminate D|]. destruct (true && _); [congruence|]. destruct (Qeq_bool d 0); congruence.
Qed.
(** On fields that are quadratic in time at a point, the derivative there is exact. *)
Theorem C30_ut_exact uniform dim g res dt c t0 i : grid_ok g -> regular_nd uniform dim g = Ok res -> time_step uniform (coord_of g (g_lhs g)) = Ok dt -> inb (shape (g_u g)) i ->
  let ax := sindex (g_lhs g) (g_axis g) in 4 <= List.length (coord_of g (g_lhs g)) -> List.length c <= 3 ->
  (forall k, k < List.length (coord_of g (g_lhs g)) -> valueQ g (put_at i ax k) = peval c (node t0 dt k)) ->
  exists q, get (g_ut res) (nth ax i 0 :: map (fun a => nth (sindex a (g_axis g)) i 0) (spatial_axes g)) = Some q /\ (q == peval (pderiv c) (node t0 dt (nth ax i 0%nat)))%Q.
Proof.
  intros Gk R TS I ax N4 LC V. destruct (C30_regular uniform dim g res Gk R) as (dt' & TS' & _ & _ & _ & _ & _ & _ & _ & A & _). rewrite TS in TS'. injection TS' as <-.
  destruct (A i I) as (_ & _ & _ & q & AL & GU). exists q. split; [exact GU|]. destruct (time_step_nonzero _ _ _ TS) as [NZ _].
  pose proof Gk as (W & ND & IL & SHA & FP). fold ax in AL. unfold along in AL. destruct (Nat.ltb ax _); [|discriminate].
  assert (NT : nth ax (shape (g_u g)) 0 = List.length (coord_of g (g_lhs g))).
  { rewrite SHA. rewrite nth_indep with (d' := (fun a => List.length (coord_of g a)) EmptyString) by (rewrite map_length; apply sindex_nth; exact IL). rewrite (map_nth (fun a => List.length (coord_of g a))). unfold ax. now rewrite (proj1 (sindex_nth _ _ IL)). }
  unfold line in AL. rewrite NT in AL. set (n := List.length (coord_of g (g_lhs g))) in *. replace (map _ (seq 0 n)) with (sampled c t0 dt n) in AL.
  2:{ unfold sampled. apply map_ext_in. intros k Hk. apply in_seq in Hk. symmetry. apply V. lia. }
  destruct (C25_discover c t0 dt n N4 NZ) as (D1 & _). destruct (D1 LC) as (rr & E & AG). rewrite E in AL. cbn [bind] in AL. assert (EQ : q = nth (nth ax i 0) rr 0%Q) by congruence. rewrite EQ. apply AG. apply inb_nth in I. destruct I as [LI BI]. split; [lia|]. rewrite <- NT. apply BI. rewrite SHA, map_length. apply sindex_nth. exact IL.
Qed.
(** The legacy regular adapter keeps (x, t) order. *)
Theorem C30_regular_legacy uniform dim x t u params res : wfa u -> regular_legacy uniform dim x t u params = Ok res ->
  exists dt, time_step uniform t = Ok dt /\ shape u = [List.length x; List.length t] /\ shape (g_field res) = shape u /\ shape (g_ut res) = shape u /\ g_X res = [x] /\ g_dim res = 1 /\ g_par res = params /\
  forall i j, i < List.length x -> j < List.length t ->
    (exists q, get u [i; j] = Some (Fin q) /\ get (g_field res) [i; j] = Some q) /\
    exists d, disc_diff (map (fun k => match get u [i; k] with Some v => toQ v | None => 0%Q end) (seq 0 (List.length t))) dt = Ok d /\ get (g_ut res) [i; j] = Some (nth j d 0%Q).
Proof.
  intros W. unfold regular_legacy. destruct (natlist_eqb _ _) eqn:S; [|discriminate]. cbn [negb]. apply natlist_eqb_eq in S. destruct (forallb _ _) eqn:FIN; [|discriminate]. cbn [negb]. destruct (time_step _ _) as [dt|] eqn:TS; [|discriminate]. cbn [bind].
  destruct (ut_rows _ _ _ _) as [ut|] eqn:UT; [|discriminate]. cbn [bind]. destruct (match dim with Some d => _ | None => false end); [discriminate|]. intros H. match type of H with Ok ?X = Ok res => assert (RE : res = X) by congruence end. clear H. subst res. cbn [g_field g_ut g_X g_dim g_par shape].
  exists dt. repeat split; auto.
  - destruct (get_some u [i; j] W) as (v & Ev); [rewrite S; repeat constructor; assumption|]. rewrite Ev. rewrite forallb_forall in FIN. pose proof (FIN v (nth_error_In _ _ Ev)) as FV. destruct v as [| q | |]; try discriminate. exists q. split; [reflexivity|]. unfold get in *. cbn [flat shape]. rewrite nth_error_map, Ev. reflexivity.
  - unfold ut_rows in UT. destruct (mapM _ _) as [rows|] eqn:M; [|discriminate]. cbn [bind] in UT. assert (EU : ut = List.concat rows) by congruence. clear UT. subst ut. set (m := List.length t) in *.
    destruct (mapM_nth _ _ _ i i M) as (d & E1 & E2); [rewrite nth_error_seq by assumption; reflexivity|]. exists d. assert (LF : List.length (flat u) = List.length x * m) by (unfold wfa in W; rewrite W, S; cbn; lia).
    assert (SL : forall a, a < List.length x -> slice (map toQ (flat u)) (a * m) (a * m + m) = map (fun k => match get u [a; k] with Some v => toQ v | None => 0%Q end) (seq 0 m)).
    { intros a Ha. assert (a * m + m <= List.length x * m) by nia. apply (nth_ext _ _ 0%Q 0%Q); [rewrite slice_length, !map_length, seq_length, LF; lia|]. intros k Hk. rewrite slice_length, map_length, LF in Hk. rewrite nth_map_seq by lia. apply nth_error_nth. rewrite slice_nth. destruct (Nat.ltb_spec (a * m + k) (a * m + m)); [|lia].
      rewrite nth_error_map. unfold get. rewrite S. cbn [ravel prod fold_right]. fold m. replace (a * (m * 1) + (k * 1 + 0)) with (a * m + k) by lia. destruct (nth_error (flat u) (a * m + k)) as [v|] eqn:E; [reflexivity|]. apply nth_error_None in E. lia. }
    rewrite <- SL by assumption. split; [exact E2|]. unfold get. cbn [flat shape]. rewrite S. cbn [ravel prod fold_right]. replace (i * (m * 1) + (j * 1 + 0)) with (i * m + j) by lia.
    assert (RL : Forall (fun w => List.length w = m) rows).
    { apply mapM_Forall in M. clear -M LF. assert (Z : forall a w, disc_diff (slice (map toQ (flat u)) (a * m) (a * m + m)) dt = Ok w -> a < List.length x -> List.length w = m).
      { intros a w E Ha. unfold disc_diff in E. destruct (_ <? 3); [discriminate|]. assert (EW : w = ends (List.length (slice (map toQ (flat u)) (a * m) (a * m + m))) (d1_left' (slice (map toQ (flat u)) (a * m) (a * m + m)) dt) (d1_right' (slice (map toQ (flat u)) (a * m) (a * m + m)) dt) (d1_mid (slice (map toQ (flat u)) (a * m) (a * m + m)) dt)) by congruence. rewrite EW, ends_length, slice_length, map_length, LF. assert (a * m + m <= List.length x * m) by nia. lia. }
      assert (FS : Forall (fun a => a < List.length x) (seq 0 (List.length x))) by (apply Forall_forall; intros a Ha; apply in_seq in Ha; lia). revert FS. induction M as [|a w l r E M IH]; intros FS; constructor; [apply (Z a); [exact E|exact (Forall_inv FS)]|apply IH; exact (Forall_inv_tail FS)]. }
    clear -RL E1 H0. revert i E1. induction RL as [|w rows Hw RL IH]; intros i E1; [destruct i; discriminate|]. cbn [List.concat]. destruct i as [|i].
    + injection E1 as <-. rewrite nth_error_app1 by lia. apply nth_error_nth'. lia.
    + rewrite nth_error_app2 by lia. rewrite Hw. replace (Datatypes.S i * m + j - m) with (i * m + j) by lia. apply IH. exact E1.
Qed.

(** ** The adapters do return a result *)
Lemma cmin_ok c : c <> [] -> exists q, cmin c = Ok q.
Proof. destruct c; [congruence|]. cbn. eauto. Qed.
Lemma cmax_ok c : c <> [] -> exists q, cmax c = Ok q.
Proof. destruct c; [congruence|]. cbn. eauto. Qed.
(** For a well-formed grid, without cut or spline sampling and with a legal data_ratio, the legacy
    adapter returns a result with the requested number of samples whenever that number is accepted. *)
Theorem C29_legacy_total o r x t u params n : wfa u -> shape u = [List.length x; List.length t] -> x <> [] -> t <> [] -> fair r ->
  o_cut o = None -> o_spline o = false -> (forall q, o_data_ratio o = Some q -> ratio_ok q = true) ->
  n_sampled o (List.length x * List.length t) = Ok n ->
  exists res, sparse_legacy o r (fun v => v) x t u params = Ok res /\ List.length (r_measured res) = n.
Proof.
  intros W S X T (F1 & F2 & F3 & F4) C SP DR N. unfold sparse_legacy. rewrite (proj2 (natlist_eqb_eq _ _) S). cbn [negb]. unfold cut. rewrite C. cbn [bind]. rewrite SP.
  assert (LF : List.length (flat u) = List.length x * List.length t) by (unfold wfa in W; rewrite W, S; cbn; lia).
  unfold sample_points. rewrite LF. cbv zeta. rewrite N. cbn [bind]. destruct (F1 _ _ (n_sampled_le _ _ _ N)) as (ND & LE & FR). set (idx := r_choice r _ n) in *.
  rewrite (gather_map []) by (now rewrite mesh_rows_length). cbn [bind]. rewrite (gather_map NaN) by (now rewrite LF). cbn [bind].
  destruct (cmin_ok x X) as (? & ->). destruct (cmin_ok t T) as (? & ->). destruct (cmax_ok x X) as (? & ->). destruct (cmax_ok t T) as (? & ->). cbn [bind].
  match goal with |- context [process_data _ _ _ ?l ?a ?b] => destruct (process_split (fun k => nth k (mesh_rows x t) []) (fun k => nth k (flat u) NaN) idx (r_split r) l a b F2) as (tr & va & E & _ & _ & _) end. rewrite E. cbn [bind].
  unfold shrink. destruct (o_data_ratio o) as [q|] eqn:D; [|eexists; split; [reflexivity|]; cbn [r_measured]; now rewrite map_length].
  rewrite (DR q eq_refl). cbn [negb]. cbv zeta. cbn [X_u_train u_train X_f_train X_u_val u_val s_lb s_ub]. rewrite !map_length.
  assert (G : forall c, without_replacement c -> forall (l : list nat), exists w : list point * list num, (if Nat.ltb (portion1 (List.length l) q) (List.length l) then
     do a <- gather (c (List.length l) (portion1 (List.length l) q)) (map (fun k => nth k (mesh_rows x t) []) l) ; do b <- gather (c (List.length l) (portion1 (List.length l) q)) (map (fun k => nth k (flat u) NaN) l) ; Ok (a, b)
     else Ok (map (fun k => nth k (mesh_rows x t) []) l, map (fun k => nth k (flat u) NaN) l)) = Ok w).
  { intros c Wc l. destruct (Nat.ltb_spec (portion1 (List.length l) q) (List.length l)); [|eauto]. destruct (sub_gather l c (portion1 (List.length l) q) Wc) as (l' & rest & G & _); [lia|]. rewrite !G. cbn [bind]. eauto. }
  destruct (G _ F3 tr) as (w1 & ->). cbn [bind]. destruct (G _ F4 va) as (w2 & ->). cbn [bind]. eexists. split; [reflexivity|]. cbn [r_measured]. now rewrite map_length.
Qed.
Lemma mapM_exists {A B} (f : A -> res B) l : (forall a, In a l -> exists b, f a = Ok b) -> exists r, mapM f l = Ok r.
Proof.
  induction l as [|a l IH]; intros H; [now exists []|]. cbn [mapM]. destruct (H a (or_introl eq_refl)) as (b & ->). cbn [bind]. destruct IH as (r & ->); [intros; apply H; now right|]. cbn [bind]. eauto.
Qed.
(** The N-D sparse adapter likewise, on a finite field without empty axes. *)
Theorem C29_nd_total o r g n : grid_ok g -> fair r -> o_spline o = false -> o_cut o = None -> o_data_ratio o = None ->
  (forall v, In v (flat (g_u g)) -> exists q, v = Fin q) -> (forall a, In a (g_axis g) -> coord_of g a <> []) ->
  n_sampled o (Arrays.prod (shape (g_u g))) = Ok n -> exists res, sparse_nd o r (fun v => v) g = Ok res /\ List.length (r_measured res) = n.
Proof.
  intros Gk (F1 & F2 & _ & _) SP CU DR FIN NE N. pose proof (spatial_perm g Gk) as PO. unfold sparse_nd. rewrite SP, CU, DR.
  replace (forallb is_fin (flat (g_u g))) with true by (symmetry; apply forallb_forall; intros v Hv; destruct (FIN v Hv) as (q & ->); reflexivity). cbn [negb].
  assert (SM : smem (g_lhs g) (g_axis g) = true) by (apply smem_In; apply Gk). rewrite SM. cbn [negb]. cbv zeta. set (order := spatial_axes g ++ [g_lhs g]) in *.
  rewrite sizes_eq. set (sizes := map (fun a => List.length (coord_of g a)) order) in *.
  assert (PR : Arrays.prod sizes = Arrays.prod (shape (g_u g))).
  { unfold sizes. destruct Gk as (_ & _ & _ & -> & _). clear -PO. induction PO; cbn [map]; auto; try (rewrite !IHPO1, IHPO2; reflexivity).
    - unfold Arrays.prod in *. cbn [fold_right]. now rewrite IHPO.
    - unfold Arrays.prod. cbn [fold_right]. lia. }
  rewrite PR, N, <- PR. cbn [bind]. rewrite <- PR in N. destruct (F1 _ _ (n_sampled_le _ _ _ N)) as (ND & LE & FR). set (idx := r_choice r _ n) in *.
  rewrite (mapM_total _ (pt g order)).
  2:{ intros k Hk. rewrite Forall_forall in FR. specialize (FR k Hk). destruct (Nat.ltb_spec k (Arrays.prod sizes)); [|lia]. apply (pt_ok g order Gk PO). exact FR. }
  cbn [bind]. rewrite (mapM_total _ (vl g order)).
  2:{ intros k Hk. rewrite Forall_forall in FR. specialize (FR k Hk). destruct (pt_ok g order Gk PO k FR) as (_ & EV & _). fold sizes in EV. rewrite EV. reflexivity. }
  cbn [bind]. assert (NC : forall c, In c (map (coord_of g) order) -> c <> []) by (intros c Hc; apply in_map_iff in Hc; destruct Hc as (a & <- & Ia); apply NE; eapply Permutation_in; eauto).
  destruct (mapM_exists cmin (map (coord_of g) order)) as (lb & LB); [intros; apply cmin_ok; auto|]. rewrite LB. cbn [bind].
  destruct (mapM_exists cmax (map (coord_of g) order)) as (ub & ->); [intros; apply cmax_ok; auto|]. cbn [bind].
  destruct (process_split (pt g order) (vl g order) idx (r_split r) (r_lhs r) lb ub F2) as (tr & va & E & P & L1 & L2). rewrite E. cbn [bind].
  apply cmin_nonempty in LB. rewrite sizes_eq in LB. fold sizes in LB.
  destruct (star_ok (map (coord_of g) order) (Arrays.prod sizes)) as (_ & SR); [now rewrite sizes_eq|exists 1; rewrite sizes_eq; fold sizes; lia|]. rewrite sizes_eq in SR. fold sizes in SR.
  rewrite (mapM_total _ (pt g order)).
  2:{ intros k Hk. apply in_seq in Hk. rewrite SR by lia. rewrite Nat.mod_small by lia. apply (pt_ok g order Gk PO). fold sizes. lia. }
  cbn [bind]. eexists. split; [reflexivity|]. cbn [r_measured]. now rewrite map_length.
Qed.
(** ... and the regular adapter, on 2 or 3 spatial axes with at least four distinct neighbours
    each and an acceptable time step. *)
Theorem C30_regular_total uniform g dt : grid_ok g -> (forall v, In v (flat (g_u g)) -> exists q, v = Fin q) -> 2 <= List.length (spatial_axes g) <= 3 ->
  (forall a, In a (g_axis g) -> a <> g_lhs g -> 4 <= List.length (coord_of g a) /\ forall e, In e (diffs (coord_of g a)) -> isclose e 0 = false) ->
  time_step uniform (coord_of g (g_lhs g)) = Ok dt -> exists res, regular_nd uniform None g = Ok res.
Proof.
  intros Gk FIN NS AX TS. unfold regular_nd. replace (forallb is_fin (flat (g_u g))) with true by (symmetry; apply forallb_forall; intros v Hv; destruct (FIN v Hv) as (q & ->); reflexivity). cbn [negb].
  assert (SM : smem (g_lhs g) (g_axis g) = true) by (apply smem_In; apply Gk). rewrite SM. cbn [negb]. cbv zeta. set (sp := spatial_axes g) in *. destruct (Nat.ltb_spec (List.length sp) 2); [lia|]. destruct (Nat.ltb_spec 3 (List.length sp)); [lia|]. cbn [orb].
  assert (PO : Permutation (g_lhs g :: sp) (g_axis g)) by (rewrite <- (spatial_perm g Gk); apply Permutation_cons_append).
  match goal with |- context [existsb ?f sp] => assert (EX : existsb f sp = false) end.
  { apply not_true_is_false. intros E. apply existsb_exists in E. destruct E as (a & Ia & E). unfold sp, spatial_axes in Ia. apply filter_In in Ia. destruct Ia as [Ia Na]. apply negb_true_iff, String.eqb_neq in Na. destruct (AX a Ia Na) as [L D].
    assert (NT : nth (sindex a (g_axis g)) (shape (g_u g)) 0 = List.length (coord_of g a)).
    { destruct Gk as (_ & _ & _ & -> & _). rewrite nth_indep with (d' := (fun a => List.length (coord_of g a)) EmptyString) by (rewrite map_length; apply sindex_nth; exact Ia). rewrite (map_nth (fun a => List.length (coord_of g a))). now rewrite (proj1 (sindex_nth _ _ Ia)). }
    rewrite NT in E. destruct (Nat.ltb_spec (List.length (coord_of g a)) 4); [lia|]. cbn [orb] in E. apply existsb_exists in E. destruct E as (e & Ie & E). rewrite (D e Ie) in E. discriminate. }
  rewrite EX. rewrite TS. cbn [bind]. destruct (order_ok g _ Gk PO) as (PM & LP & TW). change (shape (transpose NaN (g_u g) (perm_of g (g_lhs g :: sp)))) with (twist (perm_of g (g_lhs g :: sp)) (shape (g_u g))). rewrite TW. cbn [map hd].
  unfold ut_columns. match goal with |- context [mapM ?f ?l] => destruct (mapM_exists f l) as (cols & ->) end; [|cbn [bind]; eauto].
  intros c _. unfold disc_diff. rewrite map_length, seq_length. destruct (time_step_nonzero _ _ _ TS) as [_ L3]. destruct (Nat.ltb_spec (List.length (coord_of g (g_lhs g))) 3); [lia|]. eauto.
Qed.

(** ** What the adapters do not guarantee *)
(** The first k numbers, and the last k: two legal draws without replacement. *)
Definition first_k (n k : nat) : list nat := seq 0 k.
Definition last_k (n k : nat) : list nat := seq (n - k) k.
Lemma first_k_ok : without_replacement first_k.
Proof. intros n k H. split; [apply seq_NoDup|]. split; [apply seq_length|]. apply Forall_forall. intros i Hi. apply in_seq in Hi. lia. Qed.
Lemma last_k_ok : without_replacement last_k.
Proof. intros n k H. split; [apply seq_NoDup|]. split; [apply seq_length|]. apply Forall_forall. intros i Hi. apply in_seq in Hi. lia. Qed.
Definition draw1 : draws := mkDraws first_k first_k first_k first_k [].
Definition draw2 : draws := mkDraws first_k last_k first_k first_k [].
Lemma draw1_fair : fair draw1.
Proof. repeat split; apply first_k_ok; assumption. Qed.
Lemma draw2_fair : fair draw2.
Proof. repeat split; first [apply first_k_ok; assumption|apply last_k_ok; assumption]. Qed.
Definition nums (l : list Z) : list Q := map inject_Z l.
Definition field (s : list nat) : array := mkArr s (map (fun k => Fin (inject_Z (Z.of_nat k))) (seq 0 (Arrays.prod s))).
Definition x4 : list Q := nums [0; 1; 2; 3]%Z.
Definition t5 : list Q := nums [0; 10; 20; 30; 40]%Z.
(** Non-vacuity: 10 of 20 cells, 8 for training and 2 for validation. *)
Example C29_case : wfa (field [4; 5]) /\ exists res, sparse_legacy (mkOptions None (1#2) None false None) draw1 (fun v => v) x4 t5 (field [4; 5]) [] = Ok res /\
  List.length (u_train (r_sparse res)) = 8 /\ u_val (r_sparse res) = [Fin 8; Fin 9] /\ X_u_val (r_sparse res) = [[1; 30]; [1; 40]]%Q /\ s_ub (r_sparse res) = [3; 40]%Q.
Proof. split; [reflexivity|]. eexists. split; [vm_compute; reflexivity|]. vm_compute. auto. Qed.
(** With spline sampling the data_ratio is applied twice: a ratio of 1/2 leaves 5 of 20 cells. *)
Theorem C29_ratio_twice_refuted : exists r x t u res, fair r /\ wfa u /\ shape u = [List.length x; List.length t] /\
  sparse_legacy (mkOptions None 1 (Some (1#2)) true None) r (fun v => v) x t u [] = Ok res /\
  List.length (flat u) = 20 /\ List.length (r_measured res) = 10 /\ List.length (u_train (r_sparse res)) + List.length (u_val (r_sparse res)) = 5.
Proof. exists draw1, x4, t5, (field [4; 5]). eexists. split; [apply draw1_fair|]. split; [reflexivity|]. split; [reflexivity|]. split; [vm_compute; reflexivity|]. vm_compute. auto. Qed.
(** With spline sampling the number of samples asked for is not the number returned: asking for 1
    gives a whole time series. *)
Theorem C29_spline_count_refuted : exists r x t u res, fair r /\ wfa u /\ shape u = [List.length x; List.length t] /\
  sparse_legacy (mkOptions (Some 1%Z) 1 None true None) r (fun v => v) x t u [] = Ok res /\ List.length (r_measured res) = 5.
Proof. exists draw1, x4, t5, (field [4; 5]). eexists. split; [apply draw1_fair|]. split; [reflexivity|]. split; [reflexivity|]. split; [vm_compute; reflexivity|]. vm_compute. auto. Qed.
(** random_state fixes the draws of the adapter (r_choice, r_train, r_val) but not the split,
    which uses numpy's global generator: two calls that agree on the former may train on
    different points. *)
Theorem C29_seed_refuted : exists o r r' x t u res res', fair r /\ fair r' /\ r_choice r = r_choice r' /\ r_train r = r_train r' /\ r_val r = r_val r' /\
  sparse_legacy o r (fun v => v) x t u [] = Ok res /\ sparse_legacy o r' (fun v => v) x t u [] = Ok res' /\ X_u_train (r_sparse res) <> X_u_train (r_sparse res').
Proof.
  exists (mkOptions None (1#2) None false None), draw1, draw2, x4, t5, (field [4; 5]). eexists. eexists. split; [apply draw1_fair|]. split; [apply draw2_fair|]. do 3 (split; [reflexivity|]). split; [vm_compute; reflexivity|]. split; [vm_compute; reflexivity|].
  vm_compute. discriminate.
Qed.
(** cut_quantile trims the field but not the parameter fields. *)
Theorem C30_params_cut_refuted : exists o r x t u par res, fair r /\ wfa u /\ wfa par /\ shape par = shape u /\ shape u = [List.length x; List.length t] /\
  sparse_legacy o r (fun v => v) x t u [par] = Ok res /\ r_shape res = [2; 3] /\ map shape (r_params res) = [[4; 5]].
Proof. exists (mkOptions None 1 None false (Some (1#4))), draw1, x4, t5, (field [4; 5]), (field [4; 5]). eexists. split; [apply draw1_fair|]. do 4 (split; [reflexivity|]). split; [vm_compute; reflexivity|]. vm_compute. auto. Qed.
(** The uniformity test accepts any grid whose steps are below 1e-8: the second step is twice the
    first here. *)
Theorem C30_tiny_dt_refuted : exists t dt, time_step true t = Ok dt /\ (nth 1 t 0 - nth 0 t 0 == dt)%Q /\ (nth 2 t 0 - nth 1 t 0 == 2 * dt)%Q.
Proof. exists [0; 1#1000000000; 3#1000000000]%Q, ((1#1000000000) - 0)%Q. split; [vm_compute; reflexivity|split; vm_compute; reflexivity]. Qed.
(** A sampled grid with uniform steps in the middle of the axis order is refused only for the
    reasons listed; two spatial axes and time in the middle. *)
Definition g_case : grid := mkGrid [("x", nums [0;1;2;3]%Z); ("t", nums [0;2;4]%Z); ("y", nums [5;6;7;8]%Z)]%string ["x"; "t"; "y"]%string "t"%string (field [4; 3; 4]) [].
Lemma g_case_ok : grid_ok g_case.
Proof. split; [reflexivity|]. split; [repeat (constructor; [cbn; intuition discriminate|]); constructor|]. split; [cbn; auto|]. split; [reflexivity|constructor]. Qed.
Example C30_case : exists res, regular_nd true None g_case = Ok res /\ shape (g_field res) = [3; 4; 4] /\ get (g_field res) [2; 1; 3] = Some (inject_Z 23) /\ option_map Qred (get (g_ut res) [2; 1; 3]) = Some 2%Q /\
  exists res', sparse_nd (mkOptions None 1 None false None) draw1 (fun v => v) g_case = Ok res' /\ nth_error (r_Xstar res') 23 = Some [1; 8; 4]%Q /\ nth_error (r_ustar res') 23 = Some (Fin 23).
Proof. eexists. split; [vm_compute; reflexivity|]. split; [reflexivity|]. split; [reflexivity|]. split; [vm_compute; reflexivity|]. eexists. split; [vm_compute; reflexivity|]. vm_compute. auto. Qed.

Print Assumptions C29_split.
Print Assumptions C29_colloc.
Print Assumptions C29_legacy.
Print Assumptions C29_noise.
Print Assumptions C30_legacy.
Print Assumptions C30_nd.
Print Assumptions C29_nd.
Print Assumptions C30_regular.
Print Assumptions C30_ut_exact.
Print Assumptions C30_regular_legacy.
Print Assumptions C29_legacy_total.
Print Assumptions C29_nd_total.
Print Assumptions C30_regular_total.
Print Assumptions C29_ratio_twice_refuted.
Print Assumptions C29_spline_count_refuted.
Print Assumptions C29_seed_refuted.
Print Assumptions C30_params_cut_refuted.
Print Assumptions C30_tiny_dt_refuted.
Print Assumptions C30_uniform_steps.
Print Assumptions C30_uneven_refused.
