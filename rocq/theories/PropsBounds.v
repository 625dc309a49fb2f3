(** C29, continued: the box of the sparse DISCOVER data. *)
From Coq Require Import QArith Lqa.
From Verif Require Import Base Num Arrays Dataset Adapter PropsAdapter.
Local Open Scope nat_scope.
Local Open Scope list_scope.

(** ** Specification *)
(** lo and hi are the smallest and the largest value of a coordinate *)
Definition extent (c : list Q) (lo hi : Q) : Prop := In lo c /\ In hi c /\ forall q, In q c -> (lo <= q /\ q <= hi)%Q.
(** rows of the unit cube *)
Definition unit_rows (d : nat) (rows : list (list Q)) : Prop := Forall (fun row => List.length row = d /\ Forall (fun r => (0 <= r <= 1)%Q) row) rows.

(** ** Lemmas *)
Lemma qmin_ok l : forall x, In (Adapter.qmin x l) (x :: l) /\ (Adapter.qmin x l <= x)%Q /\ forall y, In y l -> (Adapter.qmin x l <= y)%Q.
Proof.
  induction l as [|y l IH]; intros x; cbn [Adapter.qmin]; [split; [now left|]; split; [apply Qle_refl|intros y []]|].
  destruct (Qle_bool x y) eqn:E.
  - apply Qle_bool_iff in E. destruct (IH x) as (I & L & M). split; [destruct I as [<-|I]; [now left|right; now right]|]. split; [exact L|]. intros z [<-|Hz]; [lra|auto].
  - assert (~ (x <= y)%Q) by (intros H; apply Qle_bool_iff in H; congruence). destruct (IH y) as (I & L & M). split; [right; exact I|]. split; [lra|]. intros z [<-|Hz]; auto.
Qed.
Lemma qmax_ok l : forall x, In (Adapter.qmax x l) (x :: l) /\ (x <= Adapter.qmax x l)%Q /\ forall y, In y l -> (y <= Adapter.qmax x l)%Q.
Proof.
  induction l as [|y l IH]; intros x; cbn [Adapter.qmax]; [split; [now left|]; split; [apply Qle_refl|intros y []]|].
  destruct (Qle_bool y x) eqn:E.
  - apply Qle_bool_iff in E. destruct (IH x) as (I & L & M). split; [destruct I as [<-|I]; [now left|right; now right]|]. split; [exact L|]. intros z [<-|Hz]; [lra|auto].
  - assert (~ (y <= x)%Q) by (intros H; apply Qle_bool_iff in H; congruence). destruct (IH y) as (I & L & M). split; [right; exact I|]. split; [lra|]. intros z [<-|Hz]; auto.
Qed.
Lemma c_extent c lo hi : cmin c = Ok lo -> cmax c = Ok hi -> extent c lo hi.
Proof.
  destruct c as [|x l]; [discriminate|]. cbn [cmin cmax]. intros [= <-] [= <-]. destruct (qmin_ok l x) as (I1 & L1 & M1), (qmax_ok l x) as (I2 & L2 & M2).
  split; [exact I1|]. split; [exact I2|]. intros q [<-|H]; auto.
Qed.
Lemma cs_extent cs : forall lb ub, mapM cmin cs = Ok lb -> mapM cmax cs = Ok ub ->
  List.length lb = List.length cs /\ List.length ub = List.length cs /\ Forall2 (fun c b => extent c (fst b) (snd b)) cs (combine lb ub).
Proof.
  induction cs as [|c cs IH]; cbn [mapM]; intros lb ub; [intros [= <-] [= <-]; repeat split; constructor|].
  destruct (cmin c) as [lo|] eqn:E1; cbn [bind]; [|discriminate]. destruct (mapM cmin cs) as [lb'|]; cbn [bind]; [|discriminate]. intros [= <-].
  destruct (cmax c) as [hi|] eqn:E2; cbn [bind]; [|discriminate]. destruct (mapM cmax cs) as [ub'|]; cbn [bind]; [|discriminate]. intros [= <-].
  destruct (IH lb' ub' eq_refl eq_refl) as (L1 & L2 & F). cbn [List.length combine]. split; [congruence|]. split; [congruence|]. constructor; [exact (c_extent c lo hi E1 E2)|exact F].
Qed.
Lemma colloc_in cs lb ub row : List.length lb = List.length cs -> List.length ub = List.length cs -> Forall2 (fun c b => extent c (fst b) (snd b)) cs (combine lb ub) ->
  List.length row = List.length cs -> Forall (fun r => (0 <= r <= 1)%Q) row ->
  Forall2 (fun c q => exists lo hi, In lo c /\ In hi c /\ (lo <= q /\ q <= hi)%Q) cs (colloc_row lb ub row).
Proof.
  revert lb ub row. induction cs as [|c cs IH]; intros [|l lb] [|u ub] [|r row] L1 L2 F L3 R; cbn in *; try discriminate; [constructor|].
  inversion F as [|? ? ? ? (I1 & I2 & M) F']; subst. inversion R as [|? ? R1 R2]; subst. cbn [fst snd] in *. constructor; [|apply IH; auto].
  exists l, u. split; [exact I1|]. split; [exact I2|]. destruct (M l I1) as [_ A]. assert (0 <= (u - l) * r)%Q by (apply Qmult_le_0_compat; lra). assert (0 <= (u - l) * (1 - r))%Q by (apply Qmult_le_0_compat; lra). lra.
Qed.
Lemma process_shape xt u split lhs lb ub s : process_data xt u split lhs lb ub = Ok s ->
  s_lb s = lb /\ s_ub s = ub /\ X_f_train s = map (colloc_row lb ub) lhs ++ X_u_train s.
Proof.
  unfold process_data. cbv zeta. destruct (gather _ xt) as [a|]; cbn [bind]; [|discriminate]. destruct (gather _ u) as [b|]; cbn [bind]; [|discriminate].
  destruct (gather (setdiff _ _) xt) as [c|]; cbn [bind]; [|discriminate]. destruct (gather (setdiff _ _) u) as [d|]; cbn [bind]; [|discriminate]. intros [= <-]. auto.
Qed.
Lemma shrink_shape o r s s' base : shrink o r s = Ok s' -> X_f_train s = base ++ X_u_train s ->
  s_lb s' = s_lb s /\ s_ub s' = s_ub s /\ firstn (List.length base) (X_f_train s') = base.
Proof.
  unfold shrink. intros H E. assert (F : forall A (l l' : list A), firstn (List.length l) (l ++ l') = l) by (intros A l l'; rewrite firstn_app, firstn_all, Nat.sub_diag; cbn; apply app_nil_r).
  destruct (o_data_ratio o) as [q|]; [|injection H as <-; rewrite E; auto].
  destruct (negb (ratio_ok q)); [discriminate|]. cbv zeta in H. destruct (if Nat.ltb _ _ then _ else _) as [[a b]|]; cbn [bind] in H; [|discriminate].
  destruct (if Nat.ltb (portion1 _ q) (List.length (X_u_val s)) then _ else _) as [[c d]|]; cbn [bind] in H; [|discriminate]. injection H as <-. cbn [s_lb s_ub X_f_train fst snd]. split; [reflexivity|]. split; [reflexivity|].
  destruct (Nat.eqb _ 0); rewrite E; [apply F|]. rewrite app_length. replace (List.length base + List.length (X_u_train s) - List.length (X_u_train s)) with (List.length base) by lia. rewrite F. apply F.
Qed.
(** ** Theorems *)
(** N-D data: the bounds are the smallest and the largest coordinate of every axis, and collocation points lie between them. *)
Theorem C29_bounds_nd o r noise g res : sparse_nd o r noise g = Ok res ->
  let order := spatial_axes g ++ [g_lhs g] in let s := r_sparse res in
  List.length (s_lb s) = List.length order /\ List.length (s_ub s) = List.length order /\
  Forall2 (fun a b => extent (coord_of g a) (fst b) (snd b)) order (combine (s_lb s) (s_ub s)) /\
  (unit_rows (List.length order) (r_lhs r) -> forall p, In p (firstn (List.length (r_lhs r)) (X_f_train s)) ->
     Forall2 (fun a q => exists lo hi, In lo (coord_of g a) /\ In hi (coord_of g a) /\ (lo <= q /\ q <= hi)%Q) order p).
Proof.
  intros H order. unfold sparse_nd in H. destruct (o_spline o); [discriminate|]. destruct (o_cut o); [discriminate|]. destruct (o_data_ratio o); [discriminate|]. destruct (negb (forallb _ _)); [discriminate|]. destruct (negb (smem _ _)); [discriminate|]. cbv zeta in H. fold order in H.
  destruct (n_sampled o _) as [n|]; [|discriminate]. cbn [bind] in H. destruct (mapM (fun k => if Nat.ltb k _ then _ else _) _) as [xt|]; [|discriminate]. cbn [bind] in H.
  destruct (mapM (fun k => match get _ _ with Some v => Ok v | None => _ end) _) as [vals|]; [|discriminate]. cbn [bind] in H. destruct (mapM cmin _) as [lb|] eqn:LB; [|discriminate]. cbn [bind] in H. destruct (mapM cmax _) as [ub|] eqn:UB; [|discriminate]. cbn [bind] in H.
  destruct (process_data _ _ _ _ _ _) as [s|] eqn:PD; [|discriminate]. cbn [bind] in H. destruct (mapM _ (seq 0 _)) as [star|]; [|discriminate]. cbn [bind] in H. match type of H with Ok ?X = Ok res => assert (RE : res = X) by congruence end. clear H. rewrite RE. clear RE. cbn [r_sparse]. cbv zeta.
  destruct (process_shape _ _ _ _ _ _ _ PD) as (-> & -> & ->). destruct (cs_extent _ _ _ LB UB) as (L1 & L2 & F). rewrite map_length in L1, L2. split; [exact L1|]. split; [exact L2|].
  assert (FO : forall (R : list Q -> Q * Q -> Prop) l m, Forall2 R (map (coord_of g) l) m -> Forall2 (fun a b => R (coord_of g a) b) l m).
  { intros R l. induction l as [|a l IH]; intros m X; cbn in X; inversion X; subst; constructor; auto. }
  split; [exact (FO _ _ _ F)|]. intros UR p Hp. rewrite <- (map_length (colloc_row lb ub)) in Hp. rewrite firstn_app, firstn_all, Nat.sub_diag, app_nil_r in Hp. apply in_map_iff in Hp as (row & <- & Hr).
  unfold unit_rows in UR. rewrite Forall_forall in UR. destruct (UR row Hr) as [Lr Fr].
  pose proof (colloc_in (map (coord_of g) order) lb ub row ltac:(rewrite map_length; exact L1) ltac:(rewrite map_length; exact L2) F ltac:(rewrite map_length; exact Lr) Fr) as C.
  clear - C. revert C. generalize (colloc_row lb ub row). induction order as [|a l IH]; intros m X; cbn in X; inversion X; subst; constructor; auto.
Qed.
(** x-t data: the same, for the coordinates that are left after the cut; without a cut those are the given ones. *)
Theorem C29_bounds_legacy o r noise x t u params res : sparse_legacy o r noise x t u params = Ok res ->
  exists x' t' xl tl xh th, let s := r_sparse res in (o_cut o = None -> x' = x /\ t' = t) /\
    (forall p, In p (r_Xstar res) <-> exists a b, In a x' /\ In b t' /\ p = [a; b]) /\
    s_lb s = [xl; tl] /\ s_ub s = [xh; th] /\ extent x' xl xh /\ extent t' tl th /\
    (unit_rows 2 (r_lhs r) -> forall p, In p (firstn (List.length (r_lhs r)) (X_f_train s)) -> exists a b, p = [a; b] /\ (xl <= a /\ a <= xh /\ tl <= b /\ b <= th)%Q).
Proof.
  unfold sparse_legacy. destruct (negb _); [discriminate|]. destruct (cut o x t u) as [[[x' t'] u']|] eqn:CU; [|discriminate]. cbn [bind].
  destruct (if o_spline o then _ else _) as [[xt vals]|]; [|discriminate]. cbn [bind].
  destruct (cmin x') as [xl|] eqn:E1; [|discriminate]. cbn [bind]. destruct (cmin t') as [tl|] eqn:E2; [|discriminate]. cbn [bind]. destruct (cmax x') as [xh|] eqn:E3; [|discriminate]. cbn [bind]. destruct (cmax t') as [th|] eqn:E4; [|discriminate]. cbn [bind].
  destruct (process_data _ _ _ _ _ _) as [sd|] eqn:PD; [|discriminate]. cbn [bind]. destruct (shrink o r _) as [s'|] eqn:SH; [|discriminate]. cbn [bind]. intros [= <-]. cbn [r_sparse r_Xstar].
  exists x', t', xl, tl, xh, th. cbv zeta. destruct (process_shape _ _ _ _ _ _ _ PD) as (P1 & P2 & P3). destruct (shrink_shape o r sd s' _ SH P3) as (S1 & S2 & S3). rewrite S1, S2, P1, P2.
  split; [intros C; unfold cut in CU; rewrite C in CU; injection CU as -> -> _; auto|]. split.
  { intros p. unfold mesh_rows. rewrite in_flat_map. split.
    - intros (a & Ha & Hp). apply in_map_iff in Hp as (b & <- & Hb). eauto.
    - intros (a & b & Ha & Hb & ->). exists a. split; [exact Ha|]. apply in_map_iff. eauto. }
  split; [reflexivity|]. split; [reflexivity|]. pose proof (c_extent x' xl xh E1 E3) as X1. pose proof (c_extent t' tl th E2 E4) as X2. split; [exact X1|]. split; [exact X2|].
  intros UR p Hp. rewrite map_length in S3. rewrite S3 in Hp. apply in_map_iff in Hp as (row & <- & Hr). unfold unit_rows in UR. rewrite Forall_forall in UR. destruct (UR row Hr) as [Lr Fr].
  destruct row as [|r1 [|r2 [|]]]; try discriminate. cbn [colloc_row]. do 2 eexists. split; [reflexivity|].
  inversion Fr as [|? ? R1 Fr']; subst. inversion Fr' as [|? ? R2 _]; subst. destruct X1 as (I1 & _ & M1), X2 as (I2 & _ & M2). destruct (M1 xl I1) as [_ A1], (M2 tl I2) as [_ A2].
  assert (0 <= (xh - xl) * r1)%Q by (apply Qmult_le_0_compat; lra). assert (0 <= (xh - xl) * (1 - r1))%Q by (apply Qmult_le_0_compat; lra).
  assert (0 <= (th - tl) * r2)%Q by (apply Qmult_le_0_compat; lra). assert (0 <= (th - tl) * (1 - r2))%Q by (apply Qmult_le_0_compat; lra). lra.
Qed.
(** a descending axis and one with repeats *)
Example C29_bounds_case : extent [3; 1; 2]%Q 1 3 /\ cmin [3; 1; 2]%Q = Ok 1%Q /\ cmax [3; 1; 2]%Q = Ok 3%Q /\ unit_rows 2 [[0; 1]; [1 # 2; 1 # 4]]%Q /\ colloc_row [1; 0]%Q [3; 8]%Q [1 # 2; 1 # 4]%Q = [1 + (3 - 1) * (1 # 2); 0 + (8 - 0) * (1 # 4)]%Q.
Proof.
  split; [split; [cbn; auto|]; split; [cbn; auto|]; cbn [In]; intros q Hq; repeat destruct Hq as [<-|Hq]; try contradiction; lra|]. split; [reflexivity|]. split; [reflexivity|]. split; [|reflexivity].
  repeat constructor; lra.
Qed.
Print Assumptions C29_bounds_nd.
Print Assumptions C29_bounds_legacy.
