(** C120, C121: the data of the searches of KD_Discover_SPR and the settings of a run. *)
From Coq Require Import QArith Qabs Qround Lqa Permutation Sorted.
From Coq Require Import String.
From Verif Require Import Base Num Aggregator Spr.
Local Open Scope nat_scope.

(** *** C120 *)
(** The q-quantile of a column, independently: sort the values; at position (n - 1) q of the
    sorted list, interpolate linearly between the neighbouring values. *)
Definition sorted (s : list Q) : Prop := forall i j, i <= j < List.length s -> (nth i s 0 <= nth j s 0)%Q.
Definition quantile_of (l : list Q) (q v : Q) : Prop :=
  exists s k fr, Permutation l s /\ sorted s /\ k < List.length l /\ (0 <= fr)%Q /\ (fr < 1)%Q /\
    (inject_Z (Z.of_nat k) + fr == inject_Z (Z.of_nat (List.length l - 1)) * q)%Q /\
    (v == nth k s 0 + fr * (nth (S k) s (nth k s 0) - nth k s 0))%Q.

Lemma qins_perm x l : Permutation (x :: l) (qins x l).
Proof. induction l as [|y l IH]; cbn; [apply Permutation_refl|]. destruct (Qle_bool x y); [apply Permutation_refl|]. eapply perm_trans; [apply perm_swap|]. constructor. exact IH. Qed.
Lemma qsort_perm l : Permutation l (qsort l).
Proof. induction l as [|x l IH]; cbn; [constructor|]. eapply perm_trans; [|apply qins_perm]. constructor. exact IH. Qed.
Lemma qins_sorted x l : StronglySorted Qle l -> StronglySorted Qle (qins x l).
Proof.
  induction l as [|y l IH]; intros H; cbn; [repeat constructor|]. destruct (Qle_bool x y) eqn:E.
  - apply Qle_bool_iff in E. constructor; [exact H|]. inversion H; subst. constructor; [exact E|]. eapply Forall_impl; [|eassumption]. intros z Hz. eapply Qle_trans; eauto.
  - inversion H as [|? ? H1 H2]; subst. constructor; [apply IH; exact H1|]. apply Forall_forall. intros z Hz.
    apply (Permutation_in _ (Permutation_sym (qins_perm x l))) in Hz. destruct Hz as [<-|Hz]; [|rewrite Forall_forall in H2; auto].
    destruct (Qlt_le_dec y x) as [C|C]; [apply Qlt_le_weak; exact C|]. apply Qle_bool_iff in C. congruence.
Qed.
Lemma qsort_sorted l : StronglySorted Qle (qsort l).
Proof. induction l as [|x l IH]; cbn; [constructor|]. apply qins_sorted, IH. Qed.
Lemma strong_nth l : StronglySorted Qle l -> sorted l.
Proof.
  induction l as [|x l IH]; intros H i j [A B]; cbn in B; [lia|]. inversion H as [|? ? H1 H2]; subst.
  destruct i as [|i], j as [|j]; cbn; [apply Qle_refl| |lia|apply IH; [exact H1|lia]].
  rewrite Forall_forall in H2. apply H2. apply nth_In. lia.
Qed.

Theorem C120_quantile l q : l <> [] -> (0 <= q)%Q -> (q <= 1)%Q -> exists v, quantile l q = Ok v /\ quantile_of l q v.
Proof.
  intros N H0 H1. unfold quantile. apply Qle_bool_iff in H0 as H0', H1 as H1'. rewrite H0', H1'. cbn [andb]. destruct l as [|a l0]; [congruence|]. set (l := a :: l0) in *.
  set (n1 := List.length l - 1). set (v := (inject_Z (Z.of_nat n1) * q)%Q).
  assert (0 <= inject_Z (Z.of_nat n1))%Q as Hn. { change 0%Q with (inject_Z 0). rewrite <- Zle_Qle. lia. }
  assert (0 <= v)%Q as V0 by (unfold v; nra).
  assert (v <= inject_Z (Z.of_nat n1))%Q as V1 by (unfold v; nra).
  assert (0 <= Qfloor v)%Z as F0. { change 0%Z with (Qfloor 0). apply Qfloor_resp_le. exact V0. }
  assert (Qfloor v <= Z.of_nat n1)%Z as F1. { rewrite <- (Qfloor_Z (Z.of_nat n1)). apply Qfloor_resp_le. exact V1. }
  pose proof (Qfloor_le v) as FL. pose proof (Qlt_floor v) as FU. rewrite inject_Z_plus in FU. change (inject_Z 1) with 1%Q in FU.
  set (k := Z.to_nat (Qfloor v)). assert (inject_Z (Z.of_nat k) == inject_Z (Qfloor v))%Q as EK by (unfold k; rewrite Z2Nat.id by exact F0; reflexivity).
  assert (k < List.length l) as HK. { unfold k. unfold l in n1 |- *. cbn [List.length] in *. lia. }
  assert (List.length (qsort l) = List.length l) as LS by (symmetry; apply Permutation_length, qsort_perm).
  eexists. split; [reflexivity|]. exists (qsort l), k, (v - inject_Z (Qfloor v))%Q.
  split; [apply qsort_perm|]. split; [apply strong_nth, qsort_sorted|]. split; [exact HK|]. split; [lra|]. split; [lra|]. split; [rewrite EK; fold n1; fold v; ring|].
  fold l. fold n1. fold v. fold k. destruct (Nat.eq_dec k n1) as [E|E].
  - rewrite Nat.min_r by lia. rewrite E. rewrite (nth_overflow (qsort l) (nth n1 (qsort l) 0%Q)) by lia. ring.
  - rewrite Nat.min_l by lia. rewrite (nth_indep (qsort l) (nth k (qsort l) 0%Q) 0%Q) by lia. ring.
Qed.
Theorem C120_quantile_fails l q : l = [] \/ ~ (0 <= q <= 1)%Q -> exists e, quantile l q = Err e.
Proof.
  intros H. unfold quantile. destruct (Qle_bool 0 q) eqn:A; [|eexists; reflexivity]. destruct (Qle_bool q 1) eqn:B; [|eexists; reflexivity]. cbn [andb].
  apply Qle_bool_iff in A, B. destruct H as [->|H]; [eexists; reflexivity|]. exfalso. apply H. split; assumption.
Qed.
(** Between the smallest and the largest value; the 0-quantile is the smallest, the
    1-quantile the largest. *)
Lemma perm_nth_in l s k : Permutation l s -> k < List.length l -> In (nth k s 0%Q) l.
Proof. intros P H. apply (Permutation_in _ (Permutation_sym P)). apply nth_In. rewrite <- (Permutation_length P). exact H. Qed.
Theorem C120_extremes l v : (quantile_of l 0 v -> forall x, In x l -> (v <= x)%Q) /\ (quantile_of l 1 v -> forall x, In x l -> (x <= v)%Q).
Proof.
  split; intros (s & k & fr & P & SO & HK & F0 & F1 & E & V) x I.
  - assert (k = 0) as ->. { assert (inject_Z (Z.of_nat k) <= inject_Z 0)%Q as H by (change (inject_Z 0) with 0%Q; lra). rewrite <- Zle_Qle in H. lia. }
    assert (fr == 0)%Q as F by (change (inject_Z (Z.of_nat 0)) with 0%Q in E; lra). rewrite V, F.
    apply (Permutation_in _ P) in I. apply (In_nth _ _ 0%Q) in I as (j & Hj & <-). specialize (SO 0 j ltac:(lia)). lra.
  - assert (k = List.length l - 1) as EK. { assert (inject_Z (Z.of_nat (List.length l - 1)) < inject_Z (Z.of_nat k + 1))%Q as H by (rewrite inject_Z_plus; change (inject_Z 1) with 1%Q; lra). rewrite <- Zlt_Qlt in H. lia. }
    assert (fr == 0)%Q as F. { rewrite EK in E. lra. }
    rewrite V, F. apply (Permutation_in _ P) in I. apply (In_nth _ _ 0%Q) in I as (j & Hj & <-). pose proof (Permutation_length P). specialize (SO j k ltac:(lia)). lra.
Qed.

(** A row is kept exactly when each x coordinate lies strictly between the two quantiles of
    its column and t lies between them, ends included. *)
Definition kept (xs : list col) (t : col) (q : Q) (p : nat) : Prop :=
  (forall c, In c xs -> exists lo up, quantile c q = Ok lo /\ quantile c (1 - q) = Ok up /\ (lo < nth p c 0)%Q /\ (nth p c 0 < up)%Q) /\
  exists lo up, quantile t q = Ok lo /\ quantile t (1 - q) = Ok up /\ (lo <= nth p t 0)%Q /\ (nth p t 0 <= up)%Q.

Lemma nth_seq_map (c : col) : c = map (fun p => nth p c 0%Q) (seq 0 (List.length c)).
Proof. induction c as [|a c IH]; [reflexivity|]. cbn [List.length seq map]. f_equal. rewrite <- seq_shift, map_map. exact IH. Qed.
Lemma band_map {A} (f g : A -> bool) l : band (map f l) (map g l) = map (fun x => f x && g x) l.
Proof. unfold band. induction l as [|a l IH]; [reflexivity|]. cbn. f_equal. exact IH. Qed.
Lemma mask_fold n : forall (xs : list col) lows ups (f : nat -> bool), (forall c, In c xs -> List.length c = n) ->
  fold_left (fun m c => band (map (x_inside (fst (snd c)) (snd (snd c))) (fst c)) m) (combine xs (combine lows ups)) (map f (seq 0 n)) =
  map (fun p => forallb (fun c => x_inside (fst (snd c)) (snd (snd c)) (nth p (fst c) 0%Q)) (combine xs (combine lows ups)) && f p) (seq 0 n).
Proof.
  induction xs as [|c xs IH]; intros lows ups f L; [reflexivity|]. destruct lows as [|l lows]; [reflexivity|]. destruct ups as [|u ups]; [reflexivity|].
  cbn [combine fold_left forallb fst snd].
  assert (map (x_inside l u) c = map (fun p => x_inside l u (nth p c 0%Q)) (seq 0 n)) as ->. { rewrite <- (L c) by (left; reflexivity). transitivity (map (x_inside l u) (map (fun p => nth p c 0%Q) (seq 0 (List.length c)))); [f_equal; apply nth_seq_map|apply map_map]. }
  rewrite band_map, IH by (intros d Hd; apply L; right; exact Hd).
  apply map_ext. intros p. destruct (x_inside l u (nth p c 0%Q)); cbn; [reflexivity|]. rewrite andb_false_r. reflexivity.
Qed.
Lemma mapM_in {A B} (f : A -> res B) l : (forall a, In a l -> exists b, f a = Ok b) -> exists r, mapM f l = Ok r /\ List.length r = List.length l /\ forall i a, nth_error l i = Some a -> exists b, f a = Ok b /\ nth_error r i = Some b.
Proof.
  induction l as [|a l IH]; intros H; cbn [mapM].
  - exists []. split; [reflexivity|]. split; [reflexivity|]. intros [|i] x E; discriminate.
  - destruct (H a ltac:(left; reflexivity)) as (b & E). rewrite E. cbn [bind]. destruct IH as (r & ER & LR & N); [intros x Hx; apply H; right; exact Hx|]. rewrite ER. cbn [bind].
    exists (b :: r). split; [reflexivity|]. split; [cbn; lia|]. intros [|i] x EX; cbn in EX.
    + injection EX as <-. exists b. split; [exact E|reflexivity].
    + apply N. exact EX.
Qed.
Lemma qlt_iff a b : qlt a b = true <-> (a < b)%Q.
Proof.
  unfold qlt. destruct (Qle_bool b a) eqn:E; cbn; split; intros H; try discriminate; try reflexivity.
  - apply Qle_bool_iff in E. exfalso. apply (Qlt_irrefl a). eapply Qlt_le_trans; eauto.
  - destruct (Qlt_le_dec a b) as [L|L]; [exact L|]. apply Qle_bool_iff in L. congruence.
Qed.
(** The cut keeps exactly these rows, in order, all coordinates of a row together. *)
Theorem C120_cut xs t q : xs <> [] -> t <> [] -> (forall c, In c xs -> List.length c = List.length t) -> (0 <= q <= 1)%Q ->
  exists rows, cut_bound_quantile xs t q = Ok (map (fun c => map (fun p => nth p c 0%Q) rows) xs, map (fun p => nth p t 0%Q) rows) /\
    StronglySorted lt rows /\ forall p, In p rows <-> p < List.length t /\ kept xs t q p.
Proof.
  intros NX NT L [H0 H1]. set (n := List.length t) in *.
  assert (forall c q', In c (t :: xs) -> (q' == q \/ q' == 1 - q)%Q -> exists v, quantile c q' = Ok v) as QV.
  { intros c q' I E. destruct (C120_quantile c q') as (v & E' & _); [|destruct E; lra|destruct E; lra|exists v; exact E'].
    intros ->. destruct I as [I|I]; [congruence|]. specialize (L _ I). cbn in L. destruct t; [congruence|discriminate]. }
  unfold cut_bound_quantile.
  destruct (mapM_in (fun c => quantile c q) xs) as (lows & -> & LL & NL). { intros c I. apply QV; [right; exact I|left; reflexivity]. } cbn [bind].
  destruct (QV t q ltac:(left; reflexivity) ltac:(left; reflexivity)) as (lt & ELT). rewrite ELT. cbn [bind].
  destruct (mapM_in (fun c => quantile c (1 - q)) xs) as (ups & -> & LU & NU). { intros c I. apply QV; [right; exact I|right; reflexivity]. } cbn [bind].
  destruct (QV t (1 - q)%Q ltac:(left; reflexivity) ltac:(right; reflexivity)) as (ut & EUT). rewrite EUT. cbn [bind].
  destruct xs as [|x0 xs']; [congruence|]. set (xs := x0 :: xs') in *.
  assert (map (fun _ : Q => true) x0 = map (fun _ => true) (seq 0 n)) as ->. { rewrite (nth_seq_map x0). rewrite (L x0) by (left; reflexivity). rewrite map_map. reflexivity. }
  rewrite mask_fold by exact L.
  assert (map (t_inside lt ut) t = map (fun p => t_inside lt ut (nth p t 0%Q)) (seq 0 n)) as ->. { transitivity (map (t_inside lt ut) (map (fun p => nth p t 0%Q) (seq 0 n))); [f_equal; apply nth_seq_map|apply map_map]. }
  rewrite band_map.
  match goal with |- context [bindex (map ?f (seq 0 n))] => set (F := f) end.
  exists (filter F (seq 0 n)). split; [|split].
  - assert (forall l, (forall c, In c l -> List.length c = n) -> mapM (bindex (map F (seq 0 n))) l = Ok (map (fun c => map (fun p => nth p c 0%Q) (filter F (seq 0 n))) l)) as MB.
    { induction l as [|c l IH]; intros Hl; [reflexivity|]. cbn [mapM map].
      assert (bindex (map F (seq 0 n)) c = Ok (map (fun p => nth p c 0%Q) (filter F (seq 0 n)))) as ->. { rewrite <- (bindex_map F (fun p => nth p c 0%Q)). f_equal. rewrite <- (Hl c) by (left; reflexivity). apply nth_seq_map. }
      cbn [bind].
      rewrite IH by (intros d Hd; apply Hl; right; exact Hd). reflexivity. }
    rewrite MB by exact L. cbn [bind]. specialize (MB [t] ltac:(intros c [<-|[]]; reflexivity)). cbn [mapM map] in MB. destruct (bindex (map F (seq 0 n)) t) as [t'|]; [|discriminate]. cbn [bind] in MB |- *. injection MB as ->. reflexivity.
  - generalize 0. generalize n at 1. clear. induction n as [|n IH]; intros s; cbn [seq filter]; [constructor|]. destruct (F s); [|apply IH].
    constructor; [apply IH|]. apply Forall_forall. intros x Hx. apply filter_In in Hx as [Hx _]. apply in_seq in Hx. lia.
  - intros p. rewrite filter_In, in_seq. unfold F. rewrite andb_true_iff, andb_true_r, forallb_forall. split.
    + intros [[_ Hp] [A B]]. split; [exact Hp|]. split.
      * intros c I. apply In_nth_error in I as (i & I). destruct (NL i c I) as (lo & E1 & N1). destruct (NU i c I) as (up & E2 & N2).
        exists lo, up. split; [exact E1|]. split; [exact E2|]. assert (In (c, (lo, up)) (combine xs (combine lows ups))) as IC.
        { eapply nth_error_In with (n := i). clear -I N1 N2. revert i lows ups I N1 N2. generalize xs. induction xs0 as [|a l IH]; intros [|i] [|b lows] [|d ups] I N1 N2; cbn in *; try discriminate; [congruence|]. apply IH; assumption. }
        specialize (A _ IC). cbn in A. unfold x_inside in A. apply andb_true_iff in A as [A1 A2]. apply qlt_iff in A1, A2. split; assumption.
      * exists lt, ut. unfold t_inside in B. apply andb_true_iff in B as [B1 B2]. apply Qle_bool_iff in B1, B2. repeat split; assumption.
    + intros [Hp [A (lo & up & E1 & E2 & B1 & B2)]]. rewrite ELT in E1. rewrite EUT in E2. injection E1 as <-. injection E2 as <-. split; [lia|]. split.
      * intros [c [lo up]] IC. assert (exists i, nth_error xs i = Some c /\ nth_error lows i = Some lo /\ nth_error ups i = Some up) as (i & I & N1 & N2).
        { clear -IC. revert lows ups IC. generalize xs. induction xs0 as [|a l IH]; intros [|b lows] [|d ups] IC; cbn in *; try tauto. destruct IC as [IC|IC].
          - injection IC as -> -> ->. exists 0. auto.
          - destruct (IH _ _ IC) as (i & Hi). exists (S i). exact Hi. }
        destruct (NL i c I) as (lo' & E1 & N1'). destruct (NU i c I) as (up' & E2 & N2'). assert (lo' = lo) by congruence. assert (up' = up) by congruence. subst lo' up'.
        destruct (A c ltac:(eapply nth_error_In; eauto)) as (lo' & up' & E1' & E2' & C1 & C2). assert (lo' = lo) by congruence. assert (up' = up) by congruence. subst.
        cbn. unfold x_inside. apply andb_true_iff. split; apply qlt_iff; assumption.
      * unfold t_inside. apply andb_true_iff. split; apply Qle_bool_iff; assumption.
Qed.
(** A cut of 0 still removes the points with the smallest and the largest x. *)
Theorem C120_boundary_removed xs t c : t <> [] -> (forall c, In c xs -> List.length c = List.length t) -> In c xs ->
  forall p, (forall x, In x c -> (nth p c 0 <= x)%Q) \/ (forall x, In x c -> (x <= nth p c 0)%Q) -> ~ kept xs t 0 p.
Proof.
  intros NT L I p EX [K _]. destruct (K c I) as (lo & up & E1 & E2 & A & B).
  assert (c <> []) as NC. { intros ->. specialize (L _ I). destruct t; [congruence|discriminate]. }
  destruct (C120_quantile c 0 NC ltac:(lra) ltac:(lra)) as (lo' & E1' & Q1). assert (lo' = lo) by congruence. subst lo'.
  destruct (C120_quantile c (1 - 0) NC ltac:(lra) ltac:(lra)) as (up' & E2' & Q2). assert (up' = up) by congruence. subst up'.
  destruct Q1 as (s & k & fr & P & SO & HK & F0 & F1 & E & V). destruct Q2 as (s2 & k2 & fr2 & P2 & SO2 & HK2 & F02 & F12 & E3 & V2).
  assert (k = 0) as ->. { assert (inject_Z (Z.of_nat k) <= inject_Z 0)%Q as H by (change (inject_Z 0) with 0%Q; lra). rewrite <- Zle_Qle in H. lia. }
  assert (fr == 0)%Q as F by (change (inject_Z (Z.of_nat 0)) with 0%Q in E; lra). rewrite F in V.
  assert (k2 = List.length c - 1) as EK. { assert (inject_Z (Z.of_nat (List.length c - 1)) < inject_Z (Z.of_nat k2 + 1))%Q as H by (rewrite inject_Z_plus; change (inject_Z 1) with 1%Q; lra). rewrite <- Zlt_Qlt in H. lia. }
  assert (fr2 == 0)%Q as F2. { rewrite EK in E3. lra. } rewrite F2 in V2.
  pose proof (perm_nth_in _ _ _ P HK). pose proof (perm_nth_in _ _ _ P2 HK2). destruct EX as [EX|EX].
  - specialize (EX _ H). lra.
  - specialize (EX _ H0). lra.
Qed.
(** A coordinate that is the same for all points leaves nothing, whatever the cut. *)
Theorem C120_constant_coordinate_refuted xs t q c v : In c xs -> (forall x, In x c -> (x == v)%Q) -> (0 <= q <= 1)%Q -> forall p, p < List.length c -> ~ kept xs t q p.
Proof.
  intros I CV [H0 H1] p Hp [K _]. destruct (K c I) as (lo & up & E1 & E2 & A & B). assert (c <> []) as NC by (intros ->; cbn in Hp; lia).
  destruct (C120_quantile c q NC H0 H1) as (lo' & E1' & Q1). assert (lo' = lo) by congruence. subst lo'. destruct Q1 as (s & k & fr & P & SO & HK & F0 & F1 & E & V).
  assert (nth k s 0 == v)%Q as Vk by (apply CV; apply (perm_nth_in _ _ _ P HK)).
  assert (nth (S k) s (nth k s 0) == v)%Q as Vk'.
  { destruct (Nat.lt_ge_cases (S k) (List.length s)) as [LK|LK]; [|rewrite nth_overflow by lia; exact Vk].
    rewrite (nth_indep _ _ 0%Q) by exact LK. apply CV. apply (perm_nth_in _ _ _ P). rewrite (Permutation_length P). exact LK. }
  assert (nth p c 0 == v)%Q as Vp by (apply CV, nth_In, Hp). rewrite Vk' in V. rewrite Vk in V. assert (lo == v)%Q by (rewrite V; ring). lra.
Qed.
Definition c120_x : list col := [[0; 1; 2; 3; 4; 2]]%Q.
Definition c120_t : col := [0; 1; 2; 3; 4; 5]%Q.
Example C120_example : cut_bound_quantile c120_x c120_t (1 # 10) = Ok ([[1; 2; 3]], [1; 2; 3])%Q /\ cut_bound_quantile c120_x c120_t 0 = Ok ([[1; 2; 3; 2]], [1; 2; 3; 5])%Q.
Proof. split; vm_compute; reflexivity. Qed.

(** Parameters: if all values of a field agree with its first one within numpy's tolerance,
    every collocation point gets that value; otherwise the run is refused. *)
Definition agrees (c v : Q) : Prop := (Qabs (v - c) <= (1 # 100000000) + (1 # 100000) * Qabs c)%Q.
Theorem C120_parameters raw n c : hd_error raw = Some c ->
  ((forall v, In v raw -> agrees c v) -> exists r, refresh_param raw n = Ok r /\ List.length r = n /\ forall v, In v r -> v = c) /\
  (~ (forall v, In v raw -> agrees c v) -> refresh_param raw n = Err NotImplementedError).
Proof.
  destruct raw as [|c' raw]; [discriminate|]. cbn [hd_error]. intros H. injection H as ->. unfold refresh_param.
  assert (allclose_to c (c :: raw) = true <-> forall v, In v (c :: raw) -> agrees c v) as A.
  { unfold allclose_to. rewrite forallb_forall. split; intros H v I; [apply Qle_bool_iff; apply H; exact I|apply Qle_bool_iff; apply H; exact I]. }
  destruct (allclose_to c (c :: raw)) eqn:E; split; intros H.
  - exists (repeat c n). split; [reflexivity|]. split; [apply repeat_length|]. intros v I. apply repeat_spec in I. exact I.
  - exfalso. apply H. apply A. reflexivity.
  - apply A in H. discriminate.
  - reflexivity.
Qed.
(** A field that varies less than the tolerance is silently replaced by its first value. *)
Theorem C120_varying_parameter_refuted : exists raw v, In v raw /\ ~ (v == 1000)%Q /\ refresh_param raw 2 = Ok [1000; 1000]%Q.
Proof. exists [1000; 1000 + (1 # 200)]%Q, (1000 + (1 # 200))%Q. split; [right; left; reflexivity|]. split; [vm_compute; discriminate|]. vm_compute. reflexivity. Qed.
Example C120_parameters_example : refresh_param [3; 3; 3]%Q 2 = Ok [3; 3]%Q /\ refresh_param [3; 4]%Q 2 = Err NotImplementedError.
Proof. split; vm_compute; reflexivity. Qed.

(** *** C121 *)
(** After any history of imports the settings are those of importing the last data set alone. *)
Definition imports (b : baseline) (s : settings) (ds : list ddata) : settings := fold_left (inject b) ds s.
Theorem C121_history b s s' ds ds' d : imports b s (ds ++ [d]) = imports b s' (ds' ++ [d]).
Proof. unfold imports. rewrite !fold_left_app. cbn [fold_left]. reflexivity. Qed.
(** And these are: dimension and generation from the data when they have more than one space
    dimension, otherwise the configured ones; parameters only if the data have any. *)
Theorem C121_settings b s ds d : let r := imports b s (ds ++ [d]) in
  (forall n, dd_dim d = Some n -> (1 < n)%Z -> st_input_dim r = (n + 1)%Z /\ st_n_input_var r = n /\ st_generation r = "multi_AD"%string) /\
  (dd_dim d = None \/ (exists n, dd_dim d = Some n /\ (n <= 1)%Z) -> st_input_dim r = bl_input_dim b /\ st_n_input_var r = bl_n_input_var b /\ st_generation r = bl_generation b) /\
  st_n_param_var r = List.length (dd_params d) /\ (dd_params d = [] -> st_param_names r = None) /\ (dd_params d <> [] -> st_param_names r = Some (dd_params d)).
Proof.
  cbn zeta. unfold imports. rewrite fold_left_app. cbn [fold_left]. unfold inject.
  assert (D : forall n, dd_dim d = Some n -> (if Z.ltb 1 n then True else (n <= 1)%Z)) by (intros n _; destruct (Z.ltb 1 n) eqn:E; [exact I|apply Z.ltb_ge in E; exact E]).
  split; [|split].
  - intros n E L. rewrite E. apply Z.ltb_lt in L. rewrite L. destruct (dd_params d); cbn; auto.
  - intros H. assert (Z.ltb 1 (match dd_dim d with Some n => n | None => 1%Z end) = false) as ->. { destruct H as [->|(n & -> & L)]; [reflexivity|apply Z.ltb_ge; exact L]. }
    destruct (dd_params d); cbn; auto.
  - destruct (Z.ltb 1 _); destruct (dd_params d) as [|p ps]; cbn; repeat split; congruence.
Qed.
Example C121_example : let b := mkBase 2 "AD"%string 1 in
  imports b (mkSet 0 ""%string 0 0 None) [mkData (Some 2%Z) ["mu"%string]; mkData (Some 3%Z) []; mkData None ["a"%string; "b"%string]] = mkSet 2 "AD"%string 1 2 (Some ["a"%string; "b"%string]) /\
  imports b (mkSet 0 ""%string 0 0 None) [mkData None ["a"%string]; mkData (Some 3%Z) []] = mkSet 4 "multi_AD"%string 3 0 None.
Proof. split; reflexivity. Qed.
(** The arrays used in training come from the imported data alone, each coordinate of each
    observation in its own column, time last. *)
Theorem C121_arrays d old o : let p := import_data d old o in
  List.length (pd_x p) = d - 1 /\ List.length (pd_xf p) = d - 1 /\ List.length (pd_xv p) = d - 1 /\ pd_u p = ob_u o /\ pd_uv p = ob_uv o /\ pd_lb p = ob_lb o /\ pd_ub p = ob_ub o /\
  (forall r row, nth_error (ob_train o) r = Some row -> List.length row = d -> 0 < d -> map (fun c => nth r c 0%Q) (pd_x p ++ [pd_t p]) = row) /\
  (forall r row, nth_error (ob_colloc o) r = Some row -> List.length row = d -> 0 < d -> map (fun c => nth r c 0%Q) (pd_xf p ++ [pd_tf p]) = row) /\
  (forall r row, nth_error (ob_val o) r = Some row -> List.length row = d -> 0 < d -> map (fun c => nth r c 0%Q) (pd_xv p ++ [pd_tv p]) = row).
Proof.
  cbn. assert (L : forall X, List.length (x_columns d X) = d - 1) by (intros X; unfold x_columns; rewrite map_length, seq_length; reflexivity).
  assert (R : forall X r row, nth_error X r = Some row -> List.length row = d -> 0 < d -> map (fun c => nth r c 0%Q) (x_columns d X ++ [t_column d X]) = row).
  { intros X r row E LR D. assert (forall k, nth r (map (fun w : list Q => nth k w 0%Q) X) 0%Q = nth k row 0%Q) as N.
    { intros k. apply (map_nth_error (fun w : list Q => nth k w 0%Q)) in E. apply nth_error_nth with (d := 0%Q) in E. exact E. }
    unfold x_columns, t_column. rewrite map_app, map_map. cbn [map]. rewrite N. rewrite (map_ext _ (fun k => nth k row 0%Q)) by exact N.
    transitivity (map (fun k => nth k row 0%Q) (seq 0 d)); [|rewrite <- LR; symmetry; apply nth_seq_map].
    pose proof (seq_app (d - 1) 1 0) as SA. replace (d - 1 + 1) with d in SA by lia. rewrite SA, map_app. reflexivity. }
  repeat split; auto.
Qed.
Theorem C121_built_in_data_ignored d old old' o : import_data d old o = import_data d old' o.
Proof. reflexivity. Qed.
(** The scaled inputs of a row inside the bounds lie in [-1, 1]; the bounds themselves go to
    -1 and 1, and different rows to different inputs. *)
Lemma scaled_length lb ub row : List.length lb = List.length ub -> List.length ub = List.length row -> List.length (scaled lb ub row) = List.length row.
Proof. revert ub row. induction lb as [|l lb IH]; intros [|u ub] [|r row] H1 H2; try discriminate; [reflexivity|]. cbn in *. f_equal. apply IH; lia. Qed.
Lemma scaled_nth lb : forall ub row i, List.length lb = List.length ub -> List.length ub = List.length row -> i < List.length row ->
  nth i (scaled lb ub row) 0%Q = (2 * (nth i row 0 - nth i lb 0) / (nth i ub 0 - nth i lb 0) - 1)%Q.
Proof. induction lb as [|l lb IH]; intros [|u ub] [|r row] i H1 H2 H; try discriminate; cbn in H; [lia|]. destruct i as [|i]; [reflexivity|]. cbn [scaled nth]. apply IH; cbn in *; lia. Qed.
Theorem C121_scaled lb ub row i : List.length lb = List.length ub -> List.length ub = List.length row -> i < List.length row -> (nth i lb 0 < nth i ub 0)%Q ->
  let s := nth i (scaled lb ub row) 0%Q in let r := nth i row 0%Q in
  ((nth i lb 0 <= r <= nth i ub 0)%Q <-> (-1 <= s <= 1)%Q) /\ ((s == -1)%Q <-> (r == nth i lb 0)%Q) /\ ((s == 1)%Q <-> (r == nth i ub 0)%Q).
Proof.
  intros H1 H2 H B. cbn zeta. rewrite scaled_nth by assumption. set (l := nth i lb 0%Q) in *. set (u := nth i ub 0%Q) in *. set (r := nth i row 0%Q).
  set (z := (2 * (r - l) / (u - l) - 1)%Q). assert ((z + 1) * (u - l) == 2 * (r - l))%Q as E by (unfold z; field; lra).
  split; [|split].
  - split; intros [A C]; split; nra.
  - split; intros A; [rewrite A in E; lra|]. assert ((z + 1) * (u - l) == 0)%Q as Z0 by (rewrite E, A; ring). apply Qmult_integral in Z0 as [Z0|Z0]; lra.
  - split; intros A; [rewrite A in E; lra|]. assert ((z - 1) * (u - l) == 0)%Q as Z0 by (rewrite A in E; lra). apply Qmult_integral in Z0 as [Z0|Z0]; lra.
Qed.
Theorem C121_scaled_injective lb ub row row' : List.length lb = List.length ub -> List.length ub = List.length row -> List.length ub = List.length row' ->
  (forall i, i < List.length row -> (nth i lb 0 < nth i ub 0)%Q) -> (forall i, (nth i (scaled lb ub row) 0 == nth i (scaled lb ub row') 0)%Q) ->
  forall i, i < List.length row -> (nth i row 0 == nth i row' 0)%Q.
Proof.
  intros H1 H2 H3 B E i Hi. specialize (E i). rewrite !scaled_nth in E by (assumption || lia). specialize (B i Hi). set (l := nth i lb 0%Q) in *. set (u := nth i ub 0%Q) in *.
  assert (2 * (nth i row 0 - l) == (2 * (nth i row 0 - l) / (u - l) - 1 + 1) * (u - l))%Q as X by (field; lra). rewrite E in X.
  assert ((2 * (nth i row' 0 - l) / (u - l) - 1 + 1) * (u - l) == 2 * (nth i row' 0 - l))%Q as Y by (field; lra). rewrite Y in X. lra.
Qed.
Example C121_scaled_example : Forall2 Qeq (scaled [0; 10] [4; 20] [1; 20])%Q [-(1 # 2); 1]%Q.
Proof. repeat constructor. Qed.
Print Assumptions C120_quantile.
Print Assumptions C120_quantile_fails.
Print Assumptions C120_extremes.
Print Assumptions C120_cut.
Print Assumptions C120_boundary_removed.
Print Assumptions C120_constant_coordinate_refuted.
Print Assumptions C120_parameters.
Print Assumptions C120_varying_parameter_refuted.
Print Assumptions C121_history.
Print Assumptions C121_settings.
Print Assumptions C121_arrays.
Print Assumptions C121_built_in_data_ignored.
Print Assumptions C121_scaled.
Print Assumptions C121_scaled_injective.
