(** Lemmas about the choice of grid times. *)
From Coq Require Import QArith Qabs List Bool Arith Lia ZArith Lqa Sorted.
From Verif Require Import VizData VizDataFacts TimePick.
Import ListNotations.
Local Open Scope nat_scope.

Lemma qltb_iff x y : qltb x y = true <-> (x < y)%Q.
Proof.
  unfold qltb. rewrite negb_true_iff. split; intros H.
  - apply Qnot_le_lt. intros X. apply Qle_bool_iff in X. congruence.
  - apply not_true_iff_false. rewrite Qle_bool_iff. apply Qlt_not_le. exact H.
Qed.
Lemma qltb_false x y : qltb x y = false <-> (y <= x)%Q.
Proof. unfold qltb. rewrite negb_false_iff. apply Qle_bool_iff. Qed.

(** [i] is the first position of the least value of [l] *)
Definition first_min (l : list Q) (i : nat) : Prop :=
  exists x, nth_error l i = Some x /\
    (forall j y, nth_error l j = Some y -> (x <= y)%Q) /\ (forall j y, j < i -> nth_error l j = Some y -> (x < y)%Q).

Lemma argmin_from_spec l : forall pre best bi,
  nth_error pre bi = Some best ->
  (forall j y, nth_error pre j = Some y -> (best <= y)%Q) -> (forall j y, j < bi -> nth_error pre j = Some y -> (best < y)%Q) ->
  first_min (pre ++ l) (argmin_from best bi (length pre) l).
Proof.
  induction l as [|x l IH]; intros pre best bi Hb Hle Hlt.
  - rewrite app_nil_r. exists best. auto.
  - cbn [argmin_from]. replace (pre ++ x :: l) with ((pre ++ [x]) ++ l) by (rewrite <- app_assoc; reflexivity).
    replace (S (length pre)) with (length (pre ++ [x])) by (rewrite app_length; cbn; lia).
    assert (Hbi : bi < length pre) by (apply nth_error_Some; congruence).
    destruct (qltb x best) eqn:E.
    + apply qltb_iff in E. apply IH.
      * rewrite nth_error_app2, Nat.sub_diag by lia. reflexivity.
      * intros j y Hj. destruct (Nat.lt_ge_cases j (length pre)) as [Hl|Hl].
        -- rewrite nth_error_app1 in Hj by exact Hl. apply Hle in Hj. lra.
        -- rewrite nth_error_app2 in Hj by exact Hl. destruct (j - length pre) as [|k]; cbn in Hj; [injection Hj as <-; lra|destruct k; discriminate].
      * intros j y Hj Ey. rewrite nth_error_app1 in Ey by exact Hj. apply Hle in Ey. lra.
    + apply qltb_false in E. apply IH.
      * rewrite nth_error_app1 by exact Hbi. exact Hb.
      * intros j y Hj. destruct (Nat.lt_ge_cases j (length pre)) as [Hl|Hl].
        -- rewrite nth_error_app1 in Hj by exact Hl. eauto.
        -- rewrite nth_error_app2 in Hj by exact Hl. destruct (j - length pre) as [|k]; cbn in Hj; [injection Hj as <-; lra|destruct k; discriminate].
      * intros j y Hj Ey. rewrite nth_error_app1 in Ey by lia. eauto.
Qed.
Lemma argmin_spec l i : argmin l = Some i <-> first_min l i.
Proof.
  assert (D : forall k, argmin l = Some k -> first_min l k).
  { intros k H. destruct l as [|x l]; [discriminate|]. injection H as <-. apply (argmin_from_spec l [x] x 0); [reflexivity| |intros j y Hj; lia].
    intros j y Hj. destruct j as [|j]; cbn in Hj; [injection Hj as <-; lra|destruct j; discriminate]. }
  split; [apply D|]. intros (x & Hx & Hle & Hlt). destruct (argmin l) as [k|] eqn:E.
  - destruct (D k eq_refl) as (y & Hy & Hle' & Hlt'). f_equal. destruct (Nat.lt_trichotomy k i) as [H|[H|H]]; [|exact H|].
    + specialize (Hlt k y H Hy). specialize (Hle' i x Hx). lra.
    + specialize (Hlt' i x H Hx). specialize (Hle k y Hy). lra.
  - destruct l; [destruct i; discriminate|discriminate].
Qed.

(** [i] is the first grid index whose time is nearest to [v] *)
Definition nearest_index (t : list Q) (v : Q) (i : nat) : Prop :=
  exists x, nth_error t i = Some x /\
    (forall j y, nth_error t j = Some y -> (Qabs (x - v) <= Qabs (y - v))%Q) /\
    (forall j y, j < i -> nth_error t j = Some y -> (Qabs (x - v) < Qabs (y - v))%Q).
Lemma nth_error_map_iff {A B} (f : A -> B) l i b : nth_error (map f l) i = Some b <-> exists a, nth_error l i = Some a /\ f a = b.
Proof.
  rewrite nth_error_map. destruct (nth_error l i) as [a|]; cbn; split.
  - intros [= <-]. eauto.
  - intros (a' & [= <-] & <-). reflexivity.
  - discriminate.
  - intros (a' & E & _). discriminate.
Qed.
Lemma nearest_spec t v i : nearest t v = Some i <-> nearest_index t v i.
Proof.
  unfold nearest. rewrite argmin_spec. unfold first_min, nearest_index. split.
  - intros (x & Hx & Hle & Hlt). apply nth_error_map_iff in Hx as (a & Ha & <-). exists a. split; [exact Ha|]. split.
    + intros j y Hy. apply (Hle j). apply nth_error_map_iff. eauto.
    + intros j y Hj Hy. apply (Hlt j); [exact Hj|]. apply nth_error_map_iff. eauto.
  - intros (a & Ha & Hle & Hlt). exists (Qabs (a - v)). split; [apply nth_error_map_iff; eauto|]. split.
    + intros j y Hy. apply nth_error_map_iff in Hy as (b & Hb & <-). eauto.
    + intros j y Hj Hy. apply nth_error_map_iff in Hy as (b & Hb & <-). eauto.
Qed.
Lemma nearest_some t v : t <> [] -> exists i, nearest t v = Some i.
Proof. unfold nearest. destruct t; [congruence|]. cbn. eauto. Qed.
Lemma nearest_index_eq t v w i : (v == w)%Q -> nearest_index t v i -> nearest_index t w i.
Proof.
  intros E (x & Hx & Hle & Hlt). exists x. split; [exact Hx|]. split.
  - intros j y Hy. specialize (Hle j y Hy). rewrite E in Hle. exact Hle.
  - intros j y Hj Hy. specialize (Hlt j y Hj Hy). rewrite E in Hlt. exact Hlt.
Qed.
Lemma nearest_index_fun t v i j : nearest_index t v i -> nearest_index t v j -> i = j.
Proof. intros A B. apply nearest_spec in A, B. congruence. Qed.
(** The nearest time grows with the request. *)
Lemma nearest_mono t v w i j x y : (v <= w)%Q -> nearest_index t v i -> nearest_index t w j ->
  nth_error t i = Some x -> nth_error t j = Some y -> (x <= y)%Q.
Proof.
  intros Hvw Hi Hj Hx Hy. destruct (Qlt_le_dec y x) as [H|H]; [|exact H]. exfalso.
  destruct Hi as (x' & Hx' & A & A'), Hj as (y' & Hy' & B & B'). assert (x' = x) by congruence. assert (y' = y) by congruence. subst x' y'.
  pose proof (A j y Hy) as H1. pose proof (B i x Hx) as H2.
  assert (Hxy : (x - y > 0)%Q) by lra.
  assert (v == w /\ Qabs (x - v) == Qabs (y - v))%Q as [Evw Et].
  { clear A A' B B' Hx Hy Hx' Hy'. revert H1 H2. apply (Qabs_case (x - v)); apply (Qabs_case (y - v)); apply (Qabs_case (y - w)); apply (Qabs_case (x - w)); intros; split; lra. }
  destruct (Nat.lt_trichotomy i j) as [L|[L|L]].
  - pose proof (B' i x L Hx) as X. rewrite <- Evw in X. lra.
  - subst j. rewrite Hx in Hy. injection Hy as ->. lra.
  - pose proof (A' j y L Hy) as X. lra.
Qed.

(** np.unique *)
Lemma uinsert_in x l y : In y (uinsert x l) -> y = x \/ In y l.
Proof.
  induction l as [|z l IH]; cbn; [intros [->|[]]; auto|]. destruct (Qeq_bool x z); [auto|]. destruct (Qle_bool x z); cbn; [intros [->|[->|H]]; auto|].
  intros [->|H]; auto. destruct (IH H); auto.
Qed.
Lemma uinsert_has x l : exists y, In y (uinsert x l) /\ (y == x)%Q.
Proof.
  induction l as [|z l IH]; cbn; [exists x; split; [auto|reflexivity]|]. destruct (Qeq_bool x z) eqn:E.
  - apply Qeq_bool_iff in E. exists z. split; [left; reflexivity|]. symmetry. exact E.
  - destruct (Qle_bool x z); [exists x; split; [now left|reflexivity]|]. destruct IH as (y & Hy & Ey). exists y. split; [now right|exact Ey].
Qed.
Lemma uinsert_keeps x l y : In y l -> In y (uinsert x l).
Proof.
  induction l as [|z l IH]; cbn; [tauto|]. destruct (Qeq_bool x z); [auto|]. destruct (Qle_bool x z); cbn; [auto|]. intros [->|H]; auto.
Qed.
Lemma uinsert_sorted x l : StronglySorted Qlt l -> StronglySorted Qlt (uinsert x l).
Proof.
  induction 1 as [|z l S IH F]; cbn; [repeat constructor|]. destruct (Qeq_bool x z) eqn:E; [constructor; assumption|].
  apply Qeq_bool_neq in E. destruct (Qle_bool x z) eqn:L.
  - apply Qle_bool_iff in L. assert (x < z)%Q by (destruct (Qlt_le_dec x z); [assumption|exfalso; apply E; apply Qle_antisym; assumption]).
    constructor; [constructor; assumption|]. constructor; [assumption|]. eapply Forall_impl; [|exact F]. intros a Ha. lra.
  - assert (z < x)%Q by (apply Qnot_le_lt; intros X; apply Qle_bool_iff in X; congruence).
    constructor; [exact IH|]. rewrite Forall_forall in F |- *. intros y Hy. destruct (uinsert_in _ _ _ Hy) as [->|Hy']; auto.
Qed.
Lemma unique_sorted l : StronglySorted Qlt (unique l).
Proof. induction l as [|x l IH]; cbn; [constructor|]. apply uinsert_sorted. exact IH. Qed.
Lemma unique_sub l y : In y (unique l) -> In y l.
Proof. induction l as [|x l IH]; cbn; [tauto|]. intros H. destruct (uinsert_in _ _ _ H) as [->|H']; auto. Qed.
Lemma unique_has l x : In x l -> exists y, In y (unique l) /\ (y == x)%Q.
Proof.
  induction l as [|z l IH]; cbn; [tauto|]. intros [->|H]; [apply uinsert_has|]. destruct (IH H) as (y & Hy & E). exists y. split; [apply uinsert_keeps; exact Hy|exact E].
Qed.

(** minimum, maximum, clip *)
Lemma qmin_le x l : (qmin x l <= x)%Q /\ forall y, In y l -> (qmin x l <= y)%Q.
Proof.
  revert x. induction l as [|z l IH]; intros x; cbn; [split; [apply Qle_refl|tauto]|]. destruct (IH (if Qle_bool x z then x else z)) as [A B].
  destruct (Qle_bool x z) eqn:E.
  - apply Qle_bool_iff in E. split; [exact A|]. intros y [<-|I]; [eapply Qle_trans; eassumption|now apply B].
  - assert (z <= x)%Q by (apply Qlt_le_weak, Qnot_le_lt; intros X; apply Qle_bool_iff in X; congruence). split; [eapply Qle_trans; eassumption|]. intros y [<-|I]; [exact A|now apply B].
Qed.
Lemma qmin_in x l : In (qmin x l) (x :: l).
Proof. revert x. induction l as [|z l IH]; intros x; cbn; [now left|]. destruct (Qle_bool x z); [destruct (IH x); auto|destruct (IH z); auto]. Qed.
Lemma qmax_ge x l : (x <= qmax x l)%Q /\ forall y, In y l -> (y <= qmax x l)%Q.
Proof.
  revert x. induction l as [|z l IH]; intros x; cbn; [split; [apply Qle_refl|tauto]|]. destruct (IH (if Qle_bool x z then z else x)) as [A B].
  destruct (Qle_bool x z) eqn:E.
  - apply Qle_bool_iff in E. split; [eapply Qle_trans; eassumption|]. intros y [<-|I]; [exact A|now apply B].
  - assert (z <= x)%Q by (apply Qlt_le_weak, Qnot_le_lt; intros X; apply Qle_bool_iff in X; congruence). split; [exact A|]. intros y [<-|I]; [eapply Qle_trans; eassumption|now apply B].
Qed.
Lemma qmax_in x l : In (qmax x l) (x :: l).
Proof. revert x. induction l as [|z l IH]; intros x; cbn; [now left|]. destruct (Qle_bool x z); [destruct (IH z); auto|destruct (IH x); auto]. Qed.
Lemma clip_cases lo hi r : (lo <= hi)%Q ->
  ((r <= lo)%Q /\ (clip lo hi r == lo)%Q) \/ ((hi <= r)%Q /\ (clip lo hi r == hi)%Q) \/ ((lo <= r)%Q /\ (r <= hi)%Q /\ clip lo hi r = r).
Proof.
  intros H. unfold clip. destruct (Qle_bool lo r) eqn:A.
  - apply Qle_bool_iff in A. destruct (Qle_bool r hi) eqn:B.
    + apply Qle_bool_iff in B. auto.
    + assert (hi <= r)%Q by (apply Qlt_le_weak, Qnot_le_lt; intros X; apply Qle_bool_iff in X; congruence). right. left. split; [assumption|reflexivity].
  - assert (r <= lo)%Q by (apply Qlt_le_weak, Qnot_le_lt; intros X; apply Qle_bool_iff in X; congruence).
    destruct (Qle_bool lo hi) eqn:B; [left; split; [assumption|reflexivity]|]. apply Qle_bool_iff in H. congruence.
Qed.
Lemma ravel_vector l : ravel (vector l) = l.
Proof.
  unfold ravel, vector. cbn [shape indices at_].
  assert (M : forall s, flat_map (fun i : nat => map (cons i) [[]]) s = map (fun i => [i]) s) by (induction s as [|i s IH]; [reflexivity|cbn in *; now rewrite IH]).
  rewrite M, map_map. cbn [hd].
  assert (G : forall (l p : list Q), map (fun x => nth x (p ++ l) 0%Q) (seq (length p) (length l)) = l).
  { clear. induction l as [|q l IH]; intros p; [reflexivity|]. cbn [length seq map]. rewrite app_nth2, Nat.sub_diag by lia. cbn [nth]. f_equal.
    specialize (IH (p ++ [q])). rewrite app_length, <- app_assoc in IH. cbn in IH. rewrite Nat.add_1_r in IH. exact IH. }
  exact (G l []).
Qed.

(** The nearest time to a request outside the grid is the extreme one: clipping changes nothing visible
    except that the extreme is the target. *)
Lemma linspace_length a b n : 1 <= n -> length (linspace a b n) = n.
Proof. intros H. destruct n as [|[|n]]; [lia|reflexivity|]. unfold linspace. rewrite map_length, seq_length. reflexivity. Qed.
Lemma linspace_first a b n : 1 <= n -> exists x, nth_error (linspace a b n) 0 = Some x /\ (x == a)%Q.
Proof.
  intros H. destruct n as [|[|n]]; [lia|exists a; split; reflexivity|]. cbn [linspace seq map nth_error]. eexists. split; [reflexivity|].
  change (inject_Z (Z.of_nat 0)) with 0%Q. ring.
Qed.
Lemma linspace_last a b n : 2 <= n -> exists x, nth_error (linspace a b n) (n - 1) = Some x /\ (x == b)%Q.
Proof.
  intros H. destruct n as [|[|n]]; [lia|lia|]. unfold linspace. rewrite nth_error_map. 
  assert (E : nth_error (seq 0 (S (S n))) (S (S n) - 1) = Some (S n)).
  { rewrite (nth_error_nth' _ 0) by (rewrite seq_length; lia). rewrite seq_nth by lia. reflexivity. }
  rewrite E. cbn [option_map]. eexists. split; [reflexivity|].
  replace (Z.of_nat (S (S n)) - 1)%Z with (Z.of_nat (S n)) by lia. field. intros X. unfold Qeq in X. cbn in X. lia.
Qed.
Lemma linspace_bounds a b n x : (a <= b)%Q -> In x (linspace a b n) -> (a <= x)%Q /\ (x <= b)%Q.
Proof.
  intros H I. destruct n as [|[|n]]; [destruct I|destruct I as [<-|[]]; split; [apply Qle_refl|exact H]|].
  unfold linspace in I. apply in_map_iff in I as (i & <- & Hi). apply in_seq in Hi.
  replace (Z.of_nat (S (S n)) - 1)%Z with (Z.of_nat (S n)) by lia.
  set (m := inject_Z (Z.of_nat (S n))). set (k := inject_Z (Z.of_nat i)).
  assert (0 < m)%Q by (unfold m; change 0%Q with (inject_Z 0); rewrite <- Zlt_Qlt; lia).
  assert (0 <= k)%Q by (unfold k; change 0%Q with (inject_Z 0); rewrite <- Zle_Qle; lia).
  assert (k <= m)%Q by (unfold k, m; rewrite <- Zle_Qle; lia).
  set (s := ((b - a) / m)%Q). assert (E : (s * m == b - a)%Q) by (unfold s; field; lra).
  assert (0 <= s)%Q by (unfold s; apply Qle_shift_div_l; lra).
  split; [assert (0 <= k * s)%Q by (apply Qmult_le_0_compat; assumption); lra|].
  assert (k * s <= m * s)%Q by (apply Qmult_le_compat_r; assumption). lra.
Qed.
