(** Facts about Utils.v. *)
From Coq Require Import QArith Qabs Lqa.
From Verif Require Import Base Num Utils.
Local Open Scope nat_scope.

(** ** Specification of the Pareto front *)
(** x is at least as good as y in every cost *)
Definition le_cost (x y : cost) : Prop := Forall2 (fun a b => nle a b = true) x y.
Definition dominates (x y : cost) : Prop := le_cost x y /\ ~ le_cost y x.
(** rows of a numpy array without NaN *)
Definition table (w : nat) (costs : list cost) : Prop :=
  Forall (fun c => List.length c = w /\ Forall (fun a => is_nan a = false) c) costs.

Lemma le_cost_refl x : Forall (fun a => is_nan a = false) x -> le_cost x x.
Proof. induction 1; constructor; auto using nle_refl. Qed.
Lemma le_cost_trans x y z : le_cost x y -> le_cost y z -> le_cost x z.
Proof.
  intros H. revert z. induction H as [|a b x y Hab H IH]; intros z Hz; inversion Hz as [|? c ? z' Hbc Hz']; subst; [constructor|].
  constructor; [exact (nle_trans _ _ _ Hab Hbc)|exact (IH _ Hz')].
Qed.
Lemma any_lt_spec w x y : List.length x = w -> List.length y = w ->
  Forall (fun a => is_nan a = false) x -> Forall (fun a => is_nan a = false) y -> any_lt x y = false <-> le_cost y x.
Proof.
  revert x y. induction w as [|w IH]; intros [|a x] [|b y] Hx Hy Nx Ny; try discriminate; [split; [constructor|reflexivity]|].
  inversion Nx as [|? ? Na Nx']; inversion Ny as [|? ? Nb Ny']; subst. cbn in Hx, Hy. injection Hx as Hx. injection Hy as Hy. specialize (IH x y Hx Hy ltac:(auto) ltac:(auto)).
  unfold any_lt in *. cbn. rewrite orb_false_iff, IH. split.
  - intros [K1 K2]. constructor; [apply not_nlt_nle; auto|exact K2].
  - intros K. inversion K; subst. split; [apply nle_not_nlt; assumption|assumption].
Qed.

(** y beats x: at least as good, and better or earlier *)
Definition beats (y x : point) : Prop := le_cost (snd y) (snd x) /\ (~ le_cost (snd x) (snd y) \/ fst y < fst x).
Lemma beats_irrefl x : Forall (fun a => is_nan a = false) (snd x) -> ~ beats x x.
Proof. intros H [_ [A|A]]; [apply A; apply le_cost_refl; exact H|lia]. Qed.
Lemma beats_trans x y z : beats x y -> beats y z -> beats x z.
Proof.
  intros [A1 A2] [B1 B2]. split; [eapply le_cost_trans; eauto|]. destruct A2 as [A2|A2].
  - left. intros H. apply A2. eapply le_cost_trans; eauto.
  - destruct B2 as [B2|B2]; [left; intros H; apply B2; eapply le_cost_trans; eauto|right; lia].
Qed.

(** Positions with distinct, increasing indices *)
Definition incr (L : list point) : Prop := forall i j x y, i < j -> nth_error L i = Some x -> nth_error L j = Some y -> fst x < fst y.

Lemma compress_In {A} (l : list A) : forall m x, In x (compress l m) <-> exists i, nth_error l i = Some x /\ nth_error m i = Some true.
Proof.
  induction l as [|a l IH]; intros [|b m] x; cbn.
  1-3: split; [tauto|]; intros ([|i] & H1 & H2); discriminate.
  destruct b; cbn; rewrite IH; split.
  - intros [<-|(i & H)]; [exists 0|exists (S i)]; auto.
  - intros ([|i] & H1 & H2); cbn in *; [injection H1 as ->; auto|right; eauto].
  - intros (i & H). exists (S i). exact H.
  - intros ([|i] & H1 & H2); cbn in *; [discriminate|eauto].
Qed.
Lemma compress_firstn {A} (l : list A) : forall m k, List.length m = List.length l ->
  compress (firstn k l) (firstn k m) = firstn (btrue (firstn k m)) (compress l m).
Proof.
  induction l as [|a l IH]; intros [|b m] [|k] H; cbn in *; try discriminate; try reflexivity.
  injection H as H. unfold btrue, count in *. cbn. destruct b; cbn; rewrite (IH m k H); reflexivity.
Qed.
Lemma compress_pos {A} (l : list A) : forall m i x, List.length m = List.length l -> nth_error l i = Some x -> nth_error m i = Some true ->
  nth_error (compress l m) (btrue (firstn i m)) = Some x.
Proof.
  induction l as [|a l IH]; intros [|b m] [|i] x H H1 H2; cbn in *; try discriminate.
  - injection H2 as ->. exact H1.
  - injection H as H. unfold btrue, count in *. cbn. destruct b; cbn; apply IH; auto.
Qed.
Lemma compress_length {A} (l : list A) : forall m, List.length m = List.length l -> List.length (compress l m) = btrue m.
Proof. induction l as [|a l IH]; intros [|b m] H; cbn in *; try discriminate; [reflexivity|]. injection H as H. unfold btrue, count in *. cbn. destruct b; cbn; auto. Qed.
Lemma incr_tail a L : incr (a :: L) -> incr L /\ forall x, In x L -> fst a < fst x.
Proof.
  intros H. split.
  - intros i j x y Hij H1 H2. exact (H (S i) (S j) x y ltac:(lia) H1 H2).
  - intros x Hx. apply In_nth_error in Hx as (j & Hj). exact (H 0 (S j) a x ltac:(lia) eq_refl Hj).
Qed.
Lemma incr_cons a L : incr L -> (forall x, In x L -> fst a < fst x) -> incr (a :: L).
Proof.
  intros H1 H2 i j x y Hij A B. destruct i, j; cbn in *; try lia.
  - injection A as <-. apply H2. eapply nth_error_In; eauto.
  - exact (H1 i j x y ltac:(lia) A B).
Qed.
Lemma compress_incr L : forall m, incr L -> incr (compress L m).
Proof.
  induction L as [|a L IH]; intros [|b m] H; cbn; auto; try (intros i; destruct i; discriminate).
  destruct (incr_tail _ _ H) as [H1 H2]. destruct b; [|auto]. apply incr_cons; [auto|]. intros x Hx. apply compress_In in Hx as (i & Hi & _).
  apply H2. eapply nth_error_In; eauto.
Qed.
Lemma incr_inj L i j x y : incr L -> nth_error L i = Some x -> nth_error L j = Some y -> fst x = fst y -> i = j.
Proof.
  intros H A B E. destruct (Nat.lt_trichotomy i j) as [K|[K|K]]; [|exact K|].
  - pose proof (H _ _ _ _ K A B). lia.
  - pose proof (H _ _ _ _ K B A). lia.
Qed.

Lemma pmask_length L k pv : List.length (pmask L k pv) = List.length L.
Proof. unfold pmask. rewrite map_length, combine_length, seq_length. lia. Qed.
Lemma nth_combine {A B} (l1 : list A) (l2 : list B) i : nth_error (combine l1 l2) i =
  match nth_error l1 i, nth_error l2 i with Some a, Some b => Some (a, b) | _, _ => None end.
Proof.
  revert l2 i. induction l1 as [|a l1 IH]; intros [|b l2] [|i]; cbn; try reflexivity; [destruct (nth_error l1 i); reflexivity|apply IH].
Qed.
Lemma nth_seq a n i : i < n -> nth_error (seq a n) i = Some (a + i).
Proof. revert a i. induction n as [|n IH]; intros a [|i] H; cbn; try lia; [f_equal; lia|]. rewrite IH by lia. f_equal. lia. Qed.
Lemma pmask_nth L k pv i x : nth_error L i = Some x -> nth_error (pmask L k pv) i = Some (Nat.eqb i k || any_lt (snd x) pv).
Proof.
  intros H. unfold pmask. rewrite nth_error_map, nth_combine. rewrite H. assert (i < List.length L) by (apply nth_error_Some; congruence).
  rewrite nth_seq by assumption. reflexivity.
Qed.

Section Pareto.
Variable w : nat.
Variable all : list point.
Hypothesis Hall : Forall (fun p => List.length (snd p) = w /\ Forall (fun a => is_nan a = false) (snd p)) all.

Record pinv (L : list point) (k : nat) : Prop := mkPI {
  pi_sub : forall x, In x L -> In x all;
  pi_incr : incr L;
  pi_cover : forall x, In x all -> ~ In x L -> exists y, In y L /\ beats y x;
  pi_done : forall i j p z, i < k -> i <> j -> nth_error L i = Some p -> nth_error L j = Some z -> ~ le_cost (snd p) (snd z) }.

Lemma ok_point x : In x all -> List.length (snd x) = w /\ Forall (fun a => is_nan a = false) (snd x).
Proof. rewrite Forall_forall in Hall. auto. Qed.
Lemma point_dec (x y : point) : {x = y} + {x <> y}.
Proof. repeat decide equality. Qed.

Lemma pstep L k p : pinv L k -> nth_error L k = Some p ->
  pinv (compress L (pmask L k (snd p))) (btrue (firstn k (pmask L k (snd p))) + 1) /\
  List.length (compress L (pmask L k (snd p))) - (btrue (firstn k (pmask L k (snd p))) + 1) < List.length L - k.
Proof.
  intros [S I C D] Ek. set (m := pmask L k (snd p)) in *.
  assert (List.length m = List.length L) as Lm by apply pmask_length.
  assert (k < List.length L) as Hk by (apply nth_error_Some; congruence).
  assert (nth_error m k = Some true) as Mk by (unfold m; rewrite (pmask_nth _ _ _ _ _ Ek), Nat.eqb_refl; reflexivity).
  pose proof (compress_pos L m k p Lm Ek Mk) as Pk.
  assert (In p (compress L m)) as Hp by (eapply nth_error_In; eauto).
  assert (forall j z, nth_error L j = Some z -> nth_error m j = Some false -> beats p z) as Removed.
  { intros j z Ez Mz. unfold m in Mz. rewrite (pmask_nth _ _ _ _ _ Ez) in Mz. injection Mz as Mz. apply orb_false_iff in Mz as [Mj Mz].
    apply Nat.eqb_neq in Mj. destruct (ok_point z (S z (nth_error_In _ _ Ez))) as [Z1 Z2]. destruct (ok_point p (S p (nth_error_In _ _ Ek))) as [P1 P2].
    apply (any_lt_spec w _ _ Z1 P1 Z2 P2) in Mz. split; [exact Mz|]. destruct (Nat.lt_ge_cases j k) as [Hj|Hj].
    - left. exact (D j k z p Hj Mj Ez Ek).
    - right. exact (I k j p z ltac:(lia) Ek Ez). }
  split.
  - constructor.
    + intros x Hx. apply compress_In in Hx as (i & Hi & _). apply S. eapply nth_error_In; eauto.
    + apply compress_incr. exact I.
    + intros x Hx Hn.
      (* x was in L and removed now, or was covered before *)
      assert (forall y, In y L -> ~ In y (compress L m) -> beats p y) as Rem.
      { intros y Hy Hny. apply In_nth_error in Hy as (j & Hj). apply (Removed j y Hj).
        assert (j < List.length m) as Hjm by (rewrite Lm; apply nth_error_Some; congruence).
        destruct (nth_error m j) as [[]|] eqn:E; [|reflexivity|apply nth_error_None in E; lia]. exfalso. apply Hny. apply compress_In. eauto. }
      assert (forall y, In y L -> In y (compress L m) \/ beats p y) as Dec.
      { intros y Hy. pose proof Hy as Hy'. apply In_nth_error in Hy as (j & Hj).
        assert (j < List.length m) as Hjm by (rewrite Lm; apply nth_error_Some; congruence).
        destruct (nth_error m j) as [[]|] eqn:E; [left; apply compress_In; eauto|right; eauto|apply nth_error_None in E; lia]. }
      assert (In x L \/ ~ In x L) as [HxL|HxL].
      { destruct (List.in_dec point_dec x L); auto. }
      * exists p. auto.
      * destruct (C x Hx HxL) as (y & Hy & By). destruct (Dec y Hy) as [K|K]; [eauto|]. exists p. split; [exact Hp|]. eapply beats_trans; eauto.
    + intros i j a z Hi Hij Ea Ez Hle.
      pose proof (compress_In L m a) as Ca. pose proof (compress_In L m z) as Cz.
      destruct (proj1 Ca (nth_error_In _ _ Ea)) as (i0 & Ei0 & Mi0). destruct (proj1 Cz (nth_error_In _ _ Ez)) as (j0 & Ej0 & Mj0).
      pose proof (compress_pos L m i0 a Lm Ei0 Mi0) as Pa. pose proof (compress_pos L m j0 z Lm Ej0 Mj0) as Pz.
      assert (btrue (firstn i0 m) = i) as Qi by exact (incr_inj _ _ _ _ _ (compress_incr L m I) Pa Ea eq_refl).
      assert (btrue (firstn j0 m) = j) as Qj by exact (incr_inj _ _ _ _ _ (compress_incr L m I) Pz Ez eq_refl).
      assert (i0 <> j0) as Nij by (intros ->; congruence).
      assert (i0 <= k) as Hi0.
      { destruct (Nat.le_gt_cases i0 k) as [K|K]; [exact K|]. exfalso.
        (* then at least btrue(firstn k m)+1 trues come before i0 *)
        assert (btrue (firstn k m) + 1 <= btrue (firstn i0 m)) as Lt.
        { replace i0 with (k + (1 + (i0 - k - 1))) by lia. rewrite <- (firstn_skipn k m) at 2.
          rewrite firstn_app. assert (List.length (firstn k m) = k) as Lk by (rewrite firstn_length; lia). rewrite Lk.
          replace (k + (1 + (i0 - k - 1)) - k) with (1 + (i0 - k - 1)) by lia. rewrite (firstn_all2 (firstn k m)) by lia.
          unfold btrue. rewrite count_app. apply Nat.add_le_mono_l.
          destruct (skipn k m) as [|b t] eqn:Es.
          - exfalso. assert (List.length (skipn k m) = 0) by (rewrite Es; reflexivity). rewrite skipn_length in H. lia.
          - assert (b = true) as ->.
            { rewrite <- (firstn_skipn k m), Es in Mk. rewrite nth_error_app2 in Mk by lia. rewrite Lk, Nat.sub_diag in Mk. cbn in Mk. congruence. }
            cbn. lia. }
        lia. }
      destruct (Nat.eq_dec i0 k) as [->|Nik].
      * rewrite Ek in Ei0. injection Ei0 as <-. unfold m in Mj0. rewrite (pmask_nth _ _ _ _ _ Ej0) in Mj0. injection Mj0 as Mj0.
        apply orb_true_iff in Mj0 as [K|K]; [apply Nat.eqb_eq in K; congruence|].
        destruct (ok_point z (S z (nth_error_In _ _ Ej0))) as [Z1 Z2]. destruct (ok_point p (S p (nth_error_In _ _ Ek))) as [P1 P2].
        apply (any_lt_spec w _ _ Z1 P1 Z2 P2) in Hle. congruence.
      * exact (D i0 j0 a z ltac:(lia) Nij Ei0 Ej0 Hle).
  - rewrite (compress_length L m Lm).
    assert (btrue m = btrue (firstn k m) + btrue (skipn k m)) as -> by (unfold btrue; rewrite <- count_app, firstn_skipn; reflexivity).
    assert (btrue (skipn k m) <= List.length (skipn k m)) as H by apply filter_length. rewrite skipn_length in H. lia.
Qed.

Lemma ploop : forall f L k, pinv L k -> List.length L - k <= f -> 
  exists k', pinv (pareto_loop f L k) k' /\ List.length (pareto_loop f L k) <= k'.
Proof.
  induction f as [|f IH]; intros L k H Hf; cbn.
  - exists k. split; [exact H|lia].
  - destruct (nth_error L k) as [p|] eqn:E; [|exists k; split; [exact H|apply nth_error_None; exact E]].
    destruct (pstep L k p H E) as [H1 H2]. apply IH; [exact H1|lia].
Qed.
End Pareto.

Theorem pareto_spec w costs : table w costs ->
  List.length (is_pareto_efficient costs) = List.length costs /\
  forall i c, nth_error costs i = Some c ->
    (nth_error (is_pareto_efficient costs) i = Some true <->
     (forall j d, nth_error costs j = Some d -> ~ dominates d c) /\
     (forall j d, nth_error costs j = Some d -> j < i -> ~ (le_cost d c /\ le_cost c d))).
Proof.
  intros HT. unfold is_pareto_efficient. split; [rewrite map_length, seq_length; reflexivity|].
  set (all := combine (seq 0 (List.length costs)) costs).
  assert (forall i c, In (i, c) all <-> nth_error costs i = Some c) as HA.
  { intros i c. split.
    - intros H. apply In_nth_error in H as (j & Hj). unfold all in Hj. rewrite nth_combine in Hj.
      destruct (nth_error (seq 0 _) j) as [a|] eqn:E1; [|discriminate]. destruct (nth_error costs j) as [b|] eqn:E2; [|discriminate]. injection Hj as -> ->.
      assert (j < List.length costs) as Hl by (apply nth_error_Some; congruence). rewrite nth_seq in E1 by exact Hl. injection E1 as <-. exact E2.
    - intros H. assert (i < List.length costs) as Hl by (apply nth_error_Some; congruence).
      apply nth_error_In with i. unfold all. rewrite nth_combine, nth_seq by exact Hl. rewrite H. reflexivity. }
  assert (Forall (fun p => List.length (snd p) = w /\ Forall (fun a => is_nan a = false) (snd p)) all) as Hok.
  { apply Forall_forall. intros [i c] H. apply HA in H. unfold table in HT. rewrite Forall_forall in HT. apply HT. eapply nth_error_In; eauto. }
  assert (incr all) as Hi.
  { intros i j [a c] [b d] Hij A B. assert (j < List.length costs) as Hl.
    { assert (j < List.length all) as Q by (apply nth_error_Some; intros Q; pose proof (eq_trans (eq_sym B) Q); discriminate). unfold all in Q. rewrite combine_length, seq_length in Q. lia. }
    unfold all in A, B. pose proof (eq_trans (eq_sym (nth_combine _ _ i)) A) as A'. pose proof (eq_trans (eq_sym (nth_combine _ _ j)) B) as B'. clear A B. rewrite nth_seq in A' by lia. rewrite nth_seq in B' by lia.
    destruct (nth_error costs i); [|discriminate]. destruct (nth_error costs j); [|discriminate]. injection A' as <- <-. injection B' as <- <-. cbn. lia. }
  assert (pinv all all 0) as H0.
  { constructor; auto; [|intros; lia]. intros x Hx Hn. contradiction. }
  destruct (ploop w all Hok (List.length costs) all 0 H0) as (k' & [S I C D] & Hk).
  { unfold all. rewrite combine_length, seq_length. lia. }
  intros i c Ei. assert (i < List.length costs) as Hl by (apply nth_error_Some; congruence).
  rewrite nth_error_map, nth_seq by exact Hl. cbn [option_map Nat.add].
  set (F := pareto_loop (List.length costs) all 0) in *.
  assert (Some (existsb (fun p => Nat.eqb (fst p) i) F) = Some true <-> In (i, c) F) as ->.
  { split.
    - intros H. injection H as H. apply existsb_exists in H as ([a d] & Hd & E). apply Nat.eqb_eq in E. cbn in E. subst a.
      pose proof (S _ Hd) as Hd'. apply HA in Hd'. rewrite Ei in Hd'. injection Hd' as <-. exact Hd.
    - intros H. f_equal. apply existsb_exists. exists (i, c). split; [exact H|apply Nat.eqb_refl]. }
  assert (forall x y, In x F -> In y F -> x <> y -> ~ le_cost (snd x) (snd y)) as Mut.
  { intros x y Hx Hy Nxy. apply In_nth_error in Hx as (a & Ha). apply In_nth_error in Hy as (b & Hb).
    apply (D a b x y); auto; [assert (a < List.length F) by (apply nth_error_Some; intros Q; pose proof (eq_trans (eq_sym Ha) Q); discriminate); lia|]. intros ->. pose proof (eq_trans (eq_sym Ha) Hb) as Q. injection Q as Q. contradiction. }
  assert (In (i, c) all) as Hall by (apply HA; exact Ei).
  rewrite Forall_forall in Hok.
  assert (In (i, c) F <-> forall y, In y all -> ~ beats y (i, c)) as K.
  { split.
    - intros Hin y Hy By. assert (y <> (i, c)) as Ny by (intros ->; apply (beats_irrefl (i, c)); [apply (Hok (i, c) Hall)|exact By]).
      destruct (List.in_dec point_dec y F) as [Q|Q].
      + exact (Mut _ _ Q Hin Ny (proj1 By)).
      + destruct (C y Hy Q) as (z & Hz & Bz). pose proof (beats_trans _ _ _ Bz By) as B.
        assert (z <> (i, c)) as Nz by (intros ->; apply (beats_irrefl (i, c)); [apply (Hok (i, c) Hall)|exact B]).
        exact (Mut _ _ Hz Hin Nz (proj1 B)).
    - intros H. destruct (List.in_dec point_dec (i, c) F) as [Q|Q]; [exact Q|]. exfalso.
      destruct (C _ Hall Q) as (y & Hy & By). exact (H y (S y Hy) By). }
  rewrite K. split.
  - intros H. split.
    + intros j d Ej [A B]. apply (H (j, d)); [apply HA; exact Ej|]. split; [exact A|left; exact B].
    + intros j d Ej Hj [A B]. apply (H (j, d)); [apply HA; exact Ej|]. split; [exact A|right; exact Hj].
  - intros [H1 H2] [j d] Hd [A B]. apply HA in Hd. cbn in A, B. destruct B as [B|B]; [exact (H1 j d Hd (conj A B))|].
    apply (H1 j d Hd). split; [exact A|]. intros Hle. exact (H2 j d Hd B (conj A Hle)).
Qed.

(** ** weighted_quantile *)
(** Total weight of the values satisfying [f]. *)
Definition weight (f : Q -> bool) (l : list (Q * Q)) : Q := fold_right (fun p a => if f (fst p) then snd p + a else a)%Q 0%Q l.
Lemma weight_cons f p l : weight f (p :: l) = (if f (fst p) then snd p + weight f l else weight f l)%Q.
Proof. reflexivity. Qed.
Lemma weight_insert f x l : (weight f (winsert x l) == weight f (x :: l))%Q.
Proof.
  induction l as [|y l IH]; [reflexivity|]. cbn [winsert]. destruct (Qle_bool (fst x) (fst y)); [reflexivity|].
  rewrite !weight_cons in *. destruct (f (fst x)), (f (fst y)); rewrite IH; ring.
Qed.
Lemma weight_sort f l : (weight f (wsort l) == weight f l)%Q.
Proof.
  induction l as [|x l IH]; [reflexivity|]. cbn [wsort]. rewrite weight_insert. rewrite !weight_cons. destruct (f (fst x)); rewrite IH; reflexivity.
Qed.
Lemma winsert_In x l y : In y (winsert x l) <-> y = x \/ In y l.
Proof. induction l as [|z l IH]; cbn; [intuition auto|]. destruct (Qle_bool (fst x) (fst z)); cbn; [intuition auto|]. rewrite IH. intuition auto. Qed.
Lemma wsort_In l y : In y (wsort l) <-> In y l.
Proof. induction l as [|x l IH]; cbn; [tauto|]. rewrite winsert_In, IH. intuition auto. Qed.
Inductive wsorted : list (Q * Q) -> Prop :=
| ws_nil : wsorted []
| ws_cons x l : (forall y, In y l -> (fst x <= fst y)%Q) -> wsorted l -> wsorted (x :: l).
Lemma winsert_sorted x l : wsorted l -> wsorted (winsert x l).
Proof.
  induction 1 as [|y l H S IH]; cbn; [constructor; [intros ? []|constructor]|]. destruct (Qle_bool (fst x) (fst y)) eqn:E.
  - apply Qle_bool_iff in E. constructor; [|constructor; auto]. intros z [<-|Hz]; [exact E|]. apply Qle_trans with (fst y); auto.
  - constructor; [|exact IH]. intros z Hz. apply winsert_In in Hz as [-> |Hz]; [|auto].
    apply Qlt_le_weak. apply Qnot_le_lt. intros K. apply Qle_bool_iff in K. congruence.
Qed.
Lemma wsort_sorted l : wsorted (wsort l).
Proof. induction l; cbn; [constructor|apply winsert_sorted; assumption]. Qed.
Lemma weight_nonneg f l : (forall p, In p l -> (0 <= snd p)%Q) -> (0 <= weight f l)%Q.
Proof.
  induction l as [|p l IH]; intros H; [apply Qle_refl|]. rewrite weight_cons. pose proof (H p (or_introl eq_refl)). specialize (IH (fun x Hx => H x (or_intror Hx))). destruct (f (fst p)); lra.
Qed.
Lemma weight_zero f l : (forall p, In p l -> f (fst p) = false) -> (weight f l == 0)%Q.
Proof. induction l as [|p l IH]; intros H; cbn; [reflexivity|]. rewrite (H p (or_introl eq_refl)). apply IH. intros x Hx. apply H. right. exact Hx. Qed.
Definition qlt (x y : Q) : bool := negb (Qle_bool y x).
Lemma wfirst_spec q : forall l acc v, wsorted l -> (forall p, In p l -> (0 <= snd p)%Q) -> (acc < q)%Q -> wfirst acc q l = Some v ->
  In v (map fst l) /\ (q <= acc + weight (fun x => Qle_bool x v) l)%Q /\ (acc + weight (fun x => qlt x v) l < q)%Q.
Proof.
  induction l as [|[x w] l IH]; intros acc v S HW Ha E; [discriminate|]. cbn [wfirst] in E. inversion S as [|? ? HS S']; subst. cbn [fst snd] in *.
  pose proof (HW _ (or_introl eq_refl)) as Hw. cbn in Hw.
  assert (forall p, In p l -> (0 <= snd p)%Q) as HW' by (intros p Hp; apply HW; right; exact Hp).
  rewrite !weight_cons. cbn [fst snd].
  destruct (Qle_bool q (acc + w)) eqn:Eq.
  - injection E as <-. apply Qle_bool_iff in Eq. split; [left; reflexivity|].
    unfold qlt at 1. rewrite (proj2 (Qle_bool_iff x x) (Qle_refl x)). cbn [negb]. pose proof (weight_nonneg (fun y => Qle_bool y x) l HW').
    assert (weight (fun y => qlt y x) l == 0)%Q as Z.
    { apply weight_zero. intros p Hp. unfold qlt. rewrite (proj2 (Qle_bool_iff _ _) (HS p Hp)). reflexivity. }
    rewrite Z. split; lra.
  - assert (acc + w < q)%Q as Ha' by (apply Qnot_le_lt; intros K; apply Qle_bool_iff in K; congruence).
    destruct (IH (acc + w)%Q v S' HW' Ha' E) as (I1 & I2 & I3). split; [right; exact I1|].
    apply in_map_iff in I1 as (p & <- & Hp). pose proof (HS p Hp) as Hle. rewrite (proj2 (Qle_bool_iff _ _) Hle).
    split; [lra|]. destruct (qlt x (fst p)); lra.
Qed.
Lemma wfirst_total q : forall l acc, (forall p, In p l -> (0 <= snd p)%Q) -> (acc < q)%Q -> (q <= acc + weight (fun _ => true) l)%Q -> wfirst acc q l <> None.
Proof.
  induction l as [|[x w] l IH]; intros acc HW Ha H; [cbn in *; lra|]. rewrite weight_cons in H. cbn [fst snd] in H. cbn [wfirst]. destruct (Qle_bool q (acc + w)) eqn:E; [discriminate|].
  apply IH; [intros p Hp; apply HW; right; exact Hp| |lra]. apply Qnot_le_lt; intros K; apply Qle_bool_iff in K; congruence.
Qed.
Lemma weighted_quantile_ok l q : (forall p, In p l -> (0 <= snd p)%Q) -> (0 < q)%Q -> (q <= weight (fun _ => true) l)%Q ->
  exists v, weighted_quantile l q = Ok v /\ In v (map fst l) /\
    (q <= weight (fun x => Qle_bool x v) l)%Q /\ (weight (fun x => qlt x v) l < q)%Q.
Proof.
  intros HW Hq Ht. unfold weighted_quantile.
  assert (forall p, In p (wsort l) -> (0 <= snd p)%Q) as HW' by (intros p Hp; apply HW, wsort_In; exact Hp).
  destruct (wfirst 0 q (wsort l)) as [v|] eqn:E.
  2:{ exfalso. revert E. apply wfirst_total; auto. rewrite weight_sort. lra. }
  destruct (wfirst_spec q (wsort l) 0 v (wsort_sorted l) HW' Hq E) as (A & B & C). rewrite weight_sort in B, C.
  exists v. split; [destruct (wsort l) as [|[v0 w0] s]; [discriminate|change (Ok (match wfirst 0 q ((v0, w0) :: s) with Some v => v | None => v0 end) = Ok v); rewrite E; reflexivity]|]. split.
  - apply in_map_iff in A as (p & <- & Hp). apply in_map. apply wsort_In. exact Hp.
  - split; lra.
Qed.

(** ** filter_same *)
Lemma near_sym a b : near a b = near b a.
Proof. unfold near. rewrite (Qabs_Qminus a b). reflexivity. Qed.
Lemma near_refl a : near a a = true.
Proof. unfold near. setoid_replace (a - a)%Q with 0%Q by ring. reflexivity. Qed.
Definition apart {P} (r : P -> Q) (l : list P) : Prop := forall i j p q, i <> j -> nth_error l i = Some p -> nth_error l j = Some q -> near (r p) (r q) = false.
Lemma filter_same_loop_ok {P} (r : P -> Q) : forall l kept, apart r kept ->
  apart r (filter_same_loop r kept l) /\ (forall p, In p kept -> In p (filter_same_loop r kept l)) /\
  (forall p, In p (filter_same_loop r kept l) -> In p kept \/ In p l) /\
  (forall p, In p l -> exists k, In k (filter_same_loop r kept l) /\ near (r p) (r k) = true).
Proof.
  induction l as [|p l IH]; intros kept HA; cbn [filter_same_loop]; [repeat split; auto; intros ? []|].
  destruct (existsb (fun k => near (r p) (r k)) kept) eqn:E.
  - destruct (IH kept HA) as (A & B & C & D). repeat split; auto.
    + intros x Hx. destruct (C x Hx); [auto|right; right; assumption].
    + intros x [<-|Hx]; [|auto]. apply existsb_exists in E as (k & Hk & Nk). exists k. split; [auto|exact Nk].
  - assert (forall k, In k kept -> near (r p) (r k) = false) as Np.
    { intros k Hk. destruct (near (r p) (r k)) eqn:K; [|reflexivity]. exfalso. assert (existsb (fun k => near (r p) (r k)) kept = true) by (apply existsb_exists; eauto). congruence. }
    assert (apart r (kept ++ [p])) as HA'.
    { intros i j x y Hij Hi Hj.
      assert (forall i x, nth_error (kept ++ [p]) i = Some x -> (nth_error kept i = Some x /\ i < List.length kept) \/ (i = List.length kept /\ x = p)) as Cs.
      { intros i0 x0 H0. destruct (Nat.lt_ge_cases i0 (List.length kept)) as [K|K].
        - rewrite nth_error_app1 in H0 by exact K. auto.
        - rewrite nth_error_app2 in H0 by exact K. destruct (i0 - List.length kept) as [|m] eqn:Em; cbn in H0; [injection H0 as <-; right; split; [lia|reflexivity]|destruct m; discriminate]. }
      destruct (Cs _ _ Hi) as [[A1 A2]|[A1 A2]], (Cs _ _ Hj) as [[B1 B2]|[B1 B2]].
      - exact (HA i j x y Hij A1 B1).
      - subst y. rewrite near_sym. apply Np. eapply nth_error_In; eauto.
      - subst x. apply Np. eapply nth_error_In; eauto.
      - lia. }
    destruct (IH _ HA') as (A & B & C & D). repeat split; auto.
    + intros x Hx. apply B. apply in_or_app. auto.
    + intros x Hx. destruct (C x Hx) as [K|K]; [|right; right; exact K]. apply in_app_or in K as [K|[K|[]]]; [auto|right; left; exact K].
    + intros x [<-|Hx]; [|auto]. exists p. split; [apply B; apply in_or_app; right; left; reflexivity|apply near_refl].
Qed.
