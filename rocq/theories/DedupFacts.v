(** drop_duplicates, cross_over_p and the aggregator's best reward: proofs. *)
From Coq Require Import QArith Qabs Permutation Relations.
From Verif Require Import Base LibraryFacts Library Aggregator.
Local Open Scope nat_scope.

Lemma set_nth_length {A} (l : list A) i x : i < List.length l -> List.length (set_nth l i x) = List.length l.
Proof. intros H. unfold set_nth. rewrite app_length, firstn_length. cbn [List.length]. rewrite skipn_length. lia. Qed.
Lemma set_nth_nth {A} (l : list A) i x k : i < List.length l ->
  nth_error (set_nth l i x) k = if Nat.eqb k i then Some x else nth_error l k.
Proof.
  revert i k. induction l as [|y l IH]; intros i k Hi; [cbn in Hi; lia|].
  destruct i as [|i]; destruct k as [|k]; try reflexivity.
  cbn in Hi. change (set_nth (y :: l) (S i) x) with (y :: set_nth l i x). cbn [nth_error Nat.eqb]. apply IH. lia.
Qed.
Lemma count_set_nth l i n m : n <> m -> nth_error l i = Some m -> forall k, k <> n ->
  count_occ Nat.eq_dec (set_nth l i n) k + (if Nat.eqb k m then 1 else 0) = count_occ Nat.eq_dec l k.
Proof.
  revert i. induction l as [|y l IH]; intros i Hnm Hi k Hk; [destruct i; discriminate|].
  destruct i as [|i]; cbn in Hi.
  - injection Hi as ->. cbn. destruct (Nat.eq_dec n k); [congruence|]. destruct (Nat.eq_dec m k), (Nat.eqb_spec k m); try congruence; lia.
  - change (set_nth (y :: l) (S i) n) with (y :: set_nth l i n). cbn [count_occ]. specialize (IH i Hnm Hi k Hk). destruct (Nat.eq_dec y k); lia.
Qed.

Section DD.
Context {T : Type}.
Implicit Type st : dd_state T.
Definition even_dd st : Prop := List.length (dd_tok st) = List.length (dd_val st) /\ List.length (dd_len st) = List.length (dd_val st).
Definition at_dd st k (p : T * list Q) (n : nat) : Prop :=
  nth_error (dd_tok st) k = Some (fst p) /\ nth_error (dd_val st) k = Some (snd p) /\ nth_error (dd_len st) k = Some n.
Definition put_dd st idx (t : T) (v : list Q) (n : nat) : dd_state T :=
  mkDD (set_nth (dd_tok st) idx t) (set_nth (dd_val st) idx v) (set_nth (dd_len st) idx n).
Lemma put_even st idx t v n : even_dd st -> idx < List.length (dd_len st) -> even_dd (put_dd st idx t v n).
Proof. intros [H1 H2] H. split; cbn; rewrite !set_nth_length; lia. Qed.
Lemma put_at st idx t v n k p m : even_dd st -> idx < List.length (dd_len st) -> at_dd (put_dd st idx t v n) k p m <->
  (k = idx /\ p = (t, v) /\ m = n) \/ (k <> idx /\ at_dd st k p m).
Proof.
  intros [H1 H2] H. unfold at_dd, put_dd. cbn [dd_tok dd_val dd_len]. rewrite !set_nth_nth by lia. destruct p as [a b]. cbn [fst snd].
  destruct (Nat.eqb_spec k idx) as [->|Hk].
  - split; [intros (E1 & E2 & E3); left; split; [reflexivity|]; split; congruence|]. intros [(_ & E & ->)|[Hc _]]; [|congruence]. injection E as -> ->. auto.
  - split; [right; auto|]. intros [(-> & _)|[_ H']]; [congruence|exact H'].
Qed.
Lemma put_idem st i t v n : even_dd st -> at_dd st i (t, v) n -> put_dd st i t v n = st.
Proof.
  intros [H1 H2] (A & B & C). cbn [fst snd] in *. destruct st as [a b c]. unfold put_dd. cbn [dd_tok dd_val dd_len] in *.
  assert (forall X (l : list X) x, nth_error l i = Some x -> set_nth l i x = l) as Q.
  { intros X l x H. unfold set_nth. rewrite <- (firstn_skipn i l) at 3. f_equal. clear - H. revert i H. induction l as [|y l IH]; intros [|i] H; try discriminate.
    - cbn in *. congruence.
    - cbn in *. apply IH. exact H. }
  f_equal; apply Q; assumption.
Qed.

(** A step of the inner loop in which a replacement happens. *)
Lemma index_len st m idx : index_of (Nat.eqb m) (dd_len st) = Some idx -> idx < List.length (dd_len st) /\ nth_error (dd_len st) idx = Some m.
Proof.
  intros H. apply index_of_spec in H as [(y & Hy & E) _]. apply Nat.eqb_eq in E. subst y. split; [apply nth_error_Some; congruence|exact Hy].
Qed.

(** [reach st st' t v n P]: [st'] comes from [st] by replacing entries satisfying [P] by (t, v, n). *)
Inductive reach (t : T) (v : list Q) (n : nat) (ok : nat -> Prop) : dd_state T -> dd_state T -> Prop :=
| reach_nil st : reach t v n ok st st
| reach_put st st' idx m : n < m -> ok m -> nth_error (dd_len st) idx = Some m ->
    reach t v n ok (put_dd st idx t v n) st' -> reach t v n ok st st'.
Lemma inner_reach t v n : forall snap st found st' found',
  dd_inner t v n snap st found = Ok (st', found') ->
  reach t v n (fun m => exists v', In (v', m) snap /\ close v' v = true) st st' /\
  (found' = found || existsb (fun p => close (fst p) v) snap)%bool /\
  (found' = false -> st' = st).
Proof.
  induction snap as [|[v' m] snap IH]; intros st found st' found' E; cbn [dd_inner] in E.
  { injection E as <- <-. split; [constructor|]. rewrite orb_false_r. auto. }
  assert (forall s s', reach t v n (fun m => exists v', In (v', m) snap /\ close v' v = true) s s' ->
    reach t v n (fun k => exists v0, In (v0, k) ((v', m) :: snap) /\ close v0 v = true) s s') as W.
  { intros s s' R. induction R as [s|s s' idx k H1 (v0 & H2 & H3) H4 _ IHR]; [constructor|]. eapply reach_put; eauto. exists v0. split; [right; exact H2|exact H3]. }
  cbn [existsb fst]. destruct (close v' v) eqn:Ec.
  - destruct (Nat.ltb_spec n m) as [Hlt|Hge].
    + destruct (index_of (Nat.eqb m) (dd_len st)) as [idx|] eqn:Ei; [|discriminate].
      destruct (IH _ _ _ _ E) as (R & F & _). apply index_len in Ei as [_ Ei]. split; [|split].
      * eapply reach_put; [exact Hlt| |exact Ei|apply W; exact R]. exists v'. split; [left; reflexivity|exact Ec].
      * rewrite F. cbn [orb]. destruct found; reflexivity.
      * rewrite F. discriminate.
    + destruct (IH _ _ _ _ E) as (R & F & G). split; [apply W; exact R|]. split; [rewrite F; destruct found; reflexivity|]. rewrite F. discriminate.
  - destruct (IH _ _ _ _ E) as (R & F & G). split; [apply W; exact R|]. split; [rewrite F; destruct found; reflexivity|exact G].
Qed.
Lemma inner_total t v n : forall snap st found,
  even_dd st -> (forall m, n < m -> count_occ Nat.eq_dec (map snd snap) m <= count_occ Nat.eq_dec (dd_len st) m) ->
  exists st' found', dd_inner t v n snap st found = Ok (st', found').
Proof.
  induction snap as [|[v' m] snap IH]; intros st found HE HC; cbn [dd_inner]; [eauto|].
  assert (forall k, n < k -> count_occ Nat.eq_dec (map snd snap) k <= count_occ Nat.eq_dec (dd_len st) k) as HC'.
  { intros k Hk. specialize (HC k Hk). cbn [map snd count_occ] in HC. destruct (Nat.eq_dec m k); lia. }
  destruct (close v' v); [|apply IH; auto]. destruct (Nat.ltb_spec n m) as [Hlt|Hge]; [|apply IH; auto].
  destruct (index_of (Nat.eqb m) (dd_len st)) as [idx|] eqn:Ei.
  - apply index_len in Ei as [Ei Ei2]. apply IH; [apply put_even; assumption|]. intros k Hk. cbn [dd_len].
    specialize (HC k Hk). cbn [map snd count_occ] in HC. pose proof (count_set_nth (dd_len st) idx n m ltac:(lia) Ei2 k ltac:(lia)) as Q.
    destruct (Nat.eq_dec m k), (Nat.eqb_spec k m); try congruence; lia.
  - exfalso. specialize (HC m Hlt). cbn [map snd count_occ] in HC. destruct (Nat.eq_dec m m); [|congruence].
    assert (count_occ Nat.eq_dec (dd_len st) m > 0) as Q by lia. apply count_occ_In in Q. apply In_nth_error in Q as (j & Ej).
    unfold index_of in Ei. pose proof (proj1 (index_from_None (Nat.eqb m) _ _) Ei) as Ei2.
    specialize (Ei2 m (nth_error_In _ _ Ej)). clear Ei. rename Ei2 into Ei. rewrite Nat.eqb_refl in Ei. discriminate.
Qed.
Lemma reach_even t v n ok st st' : reach t v n ok st st' -> even_dd st -> even_dd st' /\ List.length (dd_len st') = List.length (dd_len st).
Proof.
  induction 1 as [st|st st' idx m H1 H2 H3 _ IH]; intros HE; [auto|].
  assert (idx < List.length (dd_len st)) as L by (apply nth_error_Some; congruence).
  destruct (IH (put_even st idx t v n HE L)) as [I1 I2]. split; [exact I1|]. rewrite I2. cbn [put_dd dd_len]. apply set_nth_length. exact L.
Qed.
Lemma reach_pairs t v n ok st st' : reach t v n ok st st' -> even_dd st -> forall k p m, at_dd st' k p m ->
  at_dd st k p m \/ (p = (t, v) /\ m = n).
Proof.
  induction 1 as [st|st st' idx m H1 H2 H3 _ IH]; intros HE k p m' HA; [auto|].
  assert (idx < List.length (dd_len st)) as L by (apply nth_error_Some; congruence).
  destruct (IH (put_even st idx t v n HE L) k p m' HA) as [Q|Q]; [|auto].
  apply put_at in Q; [|exact HE|exact L]. destruct Q as [(_ & -> & ->)|[_ Q]]; auto.
Qed.
(** Under: entries of equal length are equal — an entry is replaced only by a close one. *)
Definition coherent st : Prop := forall j k p q m, at_dd st j p m -> at_dd st k q m -> p = q.
Lemma reach_coherent t v n ok st st' i : reach t v n ok st st' -> even_dd st -> coherent st -> at_dd st i (t, v) n ->
  coherent st' /\ at_dd st' i (t, v) n /\
  (forall k p m, at_dd st k p m -> at_dd st' k p m \/ (at_dd st' k (t, v) n /\ ok m /\ n < m)).
Proof.
  induction 1 as [st|st st' idx m H1 H2 H3 _ IH]; intros HE HC HI; [auto|].
  assert (idx < List.length (dd_len st)) as L by (apply nth_error_Some; congruence).
  assert (idx <> i) as Hne by (intros ->; destruct HI as (_ & _ & HI); rewrite H3 in HI; injection HI as ->; lia).
  destruct (IH (put_even st idx t v n HE L)) as (I1 & I2 & I3).
  - intros j k p q m' Hj Hk. apply put_at in Hj; [|exact HE|exact L]. apply put_at in Hk; [|exact HE|exact L].
    destruct Hj as [(-> & -> & ->)|[Nj Hj]]; destruct Hk as [(-> & -> & Em)|[Nk Hk]]; try reflexivity.
    + symmetry. exact (HC k i q (t, v) n Hk HI).
    + subst. exact (HC j i p (t, v) n Hj HI).
    + exact (HC j k p q m' Hj Hk).
  - apply put_at; auto.
  - split; [exact I1|]. split; [exact I2|]. intros k p m' Hk. destruct (Nat.eq_dec k idx) as [->|Nk].
    + assert (m' = m) as -> by (destruct Hk as (_ & _ & E); congruence). right.
      destruct (I3 idx (t, v) n) as [A|(A & _)]; [apply put_at; auto|auto|auto].
    + apply I3. apply put_at; auto.
Qed.

(** *** the outer loop *)
Lemma skipn_nth {A} (l : list A) i k : nth_error (skipn i l) k = nth_error l (i + k).
Proof. revert l. induction i as [|i IH]; intros [|x l]; cbn; try reflexivity; [destruct k; reflexivity|apply IH]. Qed.
Lemma nth_error_combine {A B} (l1 : list A) (l2 : list B) k a b :
  nth_error (combine l1 l2) k = Some (a, b) <-> nth_error l1 k = Some a /\ nth_error l2 k = Some b.
Proof.
  revert l2 k. induction l1 as [|x l1 IH]; intros [|y l2] [|k]; cbn; try (split; [discriminate|intros [? ?]; discriminate]).
  - split; [intros E; injection E as <- <-; auto|intros [E1 E2]; congruence].
  - apply IH.
Qed.
Definition snap_of (i : nat) st := combine (skipn (S i) (dd_val st)) (skipn (S i) (dd_len st)).
Lemma snap_In i st v m : even_dd st -> In (v, m) (snap_of i st) <-> exists k t, i < k /\ at_dd st k (t, v) m.
Proof.
  intros [H1 H2]. split.
  - intros H. apply In_nth_error in H as (k & H). apply nth_error_combine in H as [A B]. rewrite skipn_nth in A. rewrite skipn_nth in B.
    destruct (nth_error (dd_tok st) (S i + k)) as [t|] eqn:Et.
    + exists (S i + k), t. split; [lia|]. repeat split; auto.
    + apply nth_error_None in Et. assert (S i + k < List.length (dd_val st)) by (apply nth_error_Some; congruence). lia.
  - intros (k & t & Hk & _ & A & B). cbn [snd] in A. eapply (nth_error_In _ (k - S i)). apply nth_error_combine.
    rewrite !skipn_nth. replace (S i + (k - S i)) with k by lia. auto.
Qed.
Lemma at_exists st k : even_dd st -> k < List.length (dd_len st) -> exists p m, at_dd st k p m.
Proof.
  intros [H1 H2] Hk. destruct (nth_error (dd_tok st) k) as [a|] eqn:A; [|apply nth_error_None in A; lia].
  destruct (nth_error (dd_val st) k) as [b|] eqn:B; [|apply nth_error_None in B; lia].
  destruct (nth_error (dd_len st) k) as [c|] eqn:C; [|apply nth_error_None in C; lia]. exists (a, b), c. repeat split; assumption.
Qed.
Lemma count_snap i st m : even_dd st -> count_occ Nat.eq_dec (map snd (snap_of i st)) m <= count_occ Nat.eq_dec (dd_len st) m.
Proof.
  intros [H1 H2]. unfold snap_of.
  assert (forall A B (a : list A) (b : list B), List.length a = List.length b -> map snd (combine a b) = b) as Q.
  { intros A B. induction a as [|x a IH]; intros [|y b] E; try discriminate; [reflexivity|]. cbn. f_equal. apply IH. cbn in E. lia. }
  rewrite Q by (rewrite !skipn_length; lia).
  rewrite <- (firstn_skipn (S i) (dd_len st)) at 2. rewrite count_occ_app. lia.
Qed.
Lemma outer_step f i st p n : even_dd st -> at_dd st i p n ->
  exists st' found, dd_inner (fst p) (snd p) n (snap_of i st) st false = Ok (st', found) /\
    dd_outer (S f) i st = (do rest <- dd_outer f (S i) st' ; Ok (if found then rest else p :: rest)) /\
    even_dd st' /\ List.length (dd_len st') = List.length (dd_len st).
Proof.
  intros HE HA. destruct (inner_total (fst p) (snd p) n (snap_of i st) st false HE) as (st' & found & E).
  { intros m _. apply count_snap. exact HE. }
  exists st', found. split; [exact E|]. destruct (inner_reach _ _ _ _ _ _ _ _ E) as (R & _ & _).
  destruct (reach_even _ _ _ _ _ _ R HE) as [R1 R2]. split; [|auto].
  destruct HA as (A & B & C). cbn [dd_outer]. rewrite A, B, C. fold (snap_of i st). rewrite E. cbn [bind fst snd]. destruct p. reflexivity.
Qed.
Lemma outer_total : forall f i st, even_dd st -> exists r, dd_outer f i st = Ok r.
Proof.
  induction f as [|f IH]; intros i st HE; [cbn; eauto|].
  destruct (Nat.lt_ge_cases i (List.length (dd_len st))) as [Hi|Hi].
  - destruct (at_exists st i HE Hi) as (p & n & HA). destruct (outer_step f i st p n HE HA) as (st' & found & _ & E & HE' & _).
    destruct (IH (S i) st' HE') as (r & Er). rewrite E, Er. cbn [bind]. eauto.
  - cbn [dd_outer]. destruct HE as [H1 H2]. rewrite (proj2 (nth_error_None (dd_tok st) i)) by lia. eauto.
Qed.
Lemma outer_sound : forall f i st r, even_dd st -> dd_outer f i st = Ok r ->
  Forall (fun p => exists k m, i <= k /\ at_dd st k p m) r /\
  (forall r1 p r2 q, r = r1 ++ p :: r2 -> In q r2 -> close (snd q) (snd p) = false).
Proof.
  induction f as [|f IH]; intros i st r HE E; [cbn in E; injection E as <-; split; [constructor|intros [|? ?] ? ? ? Q; discriminate]|].
  destruct (Nat.lt_ge_cases i (List.length (dd_len st))) as [Hi|Hi].
  2:{ cbn [dd_outer] in E. destruct HE as [H1 H2]. rewrite (proj2 (nth_error_None (dd_tok st) i)) in E by lia. injection E as <-.
      split; [constructor|intros [|? ?] ? ? ? Q; discriminate]. }
  destruct (at_exists st i HE Hi) as (p & n & HA). destruct (outer_step f i st p n HE HA) as (st' & found & Ei & Eo & HE' & _).
  rewrite Eo in E. destruct (dd_outer f (S i) st') as [rest|] eqn:Er; [|discriminate]. cbn [bind] in E. injection E as <-.
  destruct (IH _ _ _ HE' Er) as [I1 I2]. destruct (inner_reach _ _ _ _ _ _ _ _ Ei) as (R & F & G).
  assert (Forall (fun q => exists k m, i <= k /\ at_dd st k q m) rest) as Fr.
  { eapply Forall_impl; [|exact I1]. cbn. intros q (k & m & Hk & Hq). destruct (reach_pairs _ _ _ _ _ _ R HE k q m Hq) as [Q|[-> ->]].
    - exists k, m. split; [lia|exact Q].
    - exists i, n. split; [lia|]. destruct p. exact HA. }
  destruct found; [split; assumption|]. specialize (G eq_refl). subst st'. split; [constructor; [exists i, n; auto|exact Fr]|].
  intros [|p1 r1] p' r2 q Eq Hq.
  - injection Eq as <- <-. rewrite Forall_forall in I1. destruct (I1 q Hq) as (k & m & Hk & Hq2).
    cbn [orb] in F. symmetry in F. destruct (close (snd q) (snd p)) eqn:Ec; [|reflexivity]. exfalso.
    assert (existsb (fun p0 => close (fst p0) (snd p)) (snap_of i st) = true) as Q; [|congruence].
    apply existsb_exists. exists (snd q, m). split; [|exact Ec]. apply snap_In; [exact HE|]. exists k, (fst q). split; [lia|]. destruct q. exact Hq2.
  - injection Eq as <- ->. exact (I2 r1 p' r2 q eq_refl Hq).
Qed.

(** [a] and [b] are joined by a chain of values of [vals] in which neighbours are close. *)
Definition linked (vals : list (list Q)) (a b : list Q) : Prop :=
  clos_refl_sym_trans _ (fun x y => In x vals /\ In y vals /\ close x y = true) a b.
Definition within (vals : list (list Q)) st : Prop := forall k p m, at_dd st k p m -> In (snd p) vals.
Lemma reach_within vals t v n ok st st' i : reach t v n ok st st' -> even_dd st -> at_dd st i (t, v) n -> within vals st -> within vals st'.
Proof.
  intros R HE HI HW k p m HA. destruct (reach_pairs _ _ _ _ _ _ R HE k p m HA) as [Q|[-> ->]]; [exact (HW _ _ _ Q)|exact (HW _ _ _ HI)].
Qed.
Lemma outer_cover vals : forall f i st r, even_dd st -> within vals st -> coherent st -> i + f = List.length (dd_len st) -> dd_outer f i st = Ok r ->
  forall k p m, i <= k -> at_dd st k p m -> exists q, In q r /\ linked vals (snd p) (snd q).
Proof.
  induction f as [|f IH]; intros i st r HE HW HC HL E k p m Hk HA.
  { exfalso. destruct HA as (_ & _ & A). assert (k < List.length (dd_len st)) by (apply nth_error_Some; congruence). lia. }
  destruct (at_exists st i HE ltac:(lia)) as (p0 & n & HA0). destruct (outer_step f i st p0 n HE HA0) as (st' & found & Ei & Eo & HE' & HL').
  rewrite Eo in E. destruct (dd_outer f (S i) st') as [rest|] eqn:Er; [|discriminate]. cbn [bind] in E. injection E as <-.
  destruct (inner_reach _ _ _ _ _ _ _ _ Ei) as (R & F & G).
  assert (at_dd st i (fst p0, snd p0) n) as HA0' by (destruct p0; exact HA0).
  destruct (reach_coherent _ _ _ _ _ _ i R HE HC HA0') as (C' & AI & K).
  pose proof (reach_within vals _ _ _ _ _ _ i R HE HA0' HW) as HW'.
  assert (forall k p m, i < k -> at_dd st k p m -> exists q, In q rest /\ linked vals (snd p) (snd q)) as Later.
  { intros k' p' m' Hk' HA'. destruct (K k' p' m' HA') as [Q|(Q & (v' & Hv & Cv) & _)].
    - exact (IH (S i) st' rest HE' HW' C' ltac:(lia) Er k' p' m' ltac:(lia) Q).
    - destruct (IH (S i) st' rest HE' HW' C' ltac:(lia) Er k' _ n ltac:(lia) Q) as (q & Hq & Lq). exists q. split; [exact Hq|].
      apply rst_trans with (snd p0); [|exact Lq]. apply rst_step. split; [exact (HW _ _ _ HA')|]. split; [exact (HW _ _ _ HA0)|].
      apply snap_In in Hv as (k2 & t2 & _ & Hv); [|exact HE]. rewrite (HC k' k2 p' _ m' HA' Hv). exact Cv. }
  assert (forall q, In q rest -> In q (if found then rest else p0 :: rest)) as Sub by (intros q Hq; destruct found; [exact Hq|right; exact Hq]).
  destruct (Nat.eq_dec k i) as [->|Nk].
  - assert (p = p0) as -> by exact (HC i i p p0 m HA ltac:(destruct HA as (_ & _ & Q1); destruct HA0 as (A1 & A2 & Q2); repeat split; congruence)).
    destruct found.
    + cbn [orb] in F. symmetry in F. apply existsb_exists in F as ((v' & m') & Hv & Cv). cbn [fst] in Cv.
      apply snap_In in Hv as (k2 & t2 & Hk2 & Hv); [|exact HE]. destruct (Later k2 _ m' Hk2 Hv) as (q & Hq & Lq). exists q. split; [exact Hq|].
      apply rst_trans with v'; [apply rst_sym; apply rst_step; split; [exact (HW _ _ _ Hv)|split; [exact (HW _ _ _ HA0)|exact Cv]]|exact Lq].
    + exists p0. split; [left; reflexivity|apply rst_refl].
  - destruct (Later k p m ltac:(lia) HA) as (q & Hq & Lq). eauto.
Qed.
(** All lengths equal: nothing is ever replaced. *)
Lemma outer_cover_flat vals : forall f i st r c, even_dd st -> within vals st -> Forall (fun n => n = c) (dd_len st) -> i + f = List.length (dd_len st) -> dd_outer f i st = Ok r ->
  forall k p m, i <= k -> at_dd st k p m -> exists q, In q r /\ linked vals (snd p) (snd q).
Proof.
  induction f as [|f IH]; intros i st r c HE HW HC HL E k p m Hk HA.
  { exfalso. destruct HA as (_ & _ & A). assert (k < List.length (dd_len st)) by (apply nth_error_Some; congruence). lia. }
  destruct (at_exists st i HE ltac:(lia)) as (p0 & n & HA0). destruct (outer_step f i st p0 n HE HA0) as (st' & found & Ei & Eo & HE' & HL').
  rewrite Eo in E. destruct (dd_outer f (S i) st') as [rest|] eqn:Er; [|discriminate]. cbn [bind] in E. injection E as <-.
  destruct (inner_reach _ _ _ _ _ _ _ _ Ei) as (R & F & _).
  assert (forall j x, nth_error (dd_len st) j = Some x -> x = c) as Hc by (intros j x H; rewrite Forall_forall in HC; apply HC; eapply nth_error_In; eauto).
  assert (st' = st) as ->.
  { inversion R as [|? ? idx m' H1 _ H3]; [reflexivity|]. exfalso. destruct HA0 as (_ & _ & H4). apply Hc in H3. apply Hc in H4. lia. }
  assert (forall k p m, i < k -> at_dd st k p m -> exists q, In q rest /\ linked vals (snd p) (snd q)) as Later.
  { intros k' p' m' Hk' HA'. exact (IH (S i) st rest c HE HW HC ltac:(lia) Er k' p' m' ltac:(lia) HA'). }
  assert (forall q, In q rest -> In q (if found then rest else p0 :: rest)) as Sub by (intros q Hq; destruct found; [exact Hq|right; exact Hq]).
  destruct (Nat.eq_dec k i) as [->|Nk].
  - assert (p = p0) as ->.
    { destruct HA as (Q1 & Q2 & _), HA0 as (A1 & A2 & _). destruct p, p0. cbn [fst snd] in *. congruence. }
    destruct found.
    + cbn [orb] in F. symmetry in F. apply existsb_exists in F as ((v' & m') & Hv & Cv). cbn [fst] in Cv.
      apply snap_In in Hv as (k2 & t2 & Hk2 & Hv); [|exact HE]. destruct (Later k2 _ m' Hk2 Hv) as (q & Hq & Lq). exists q. split; [exact Hq|].
      apply rst_trans with v'; [apply rst_sym; apply rst_step; split; [exact (HW _ _ _ Hv)|split; [exact (HW _ _ _ HA0)|exact Cv]]|exact Lq].
    + exists p0. split; [left; reflexivity|apply rst_refl].
  - destruct (Later k p m ltac:(lia) HA) as (q & Hq & Lq). eauto.
Qed.
End DD.

Lemma init_even {T} len (toks : list T) vals : List.length toks = List.length vals -> even_dd (mkDD toks vals (map len toks)).
Proof. intros H. split; cbn; [exact H|rewrite map_length; exact H]. Qed.
Lemma init_at {T} len (toks : list T) vals k p m : at_dd (mkDD toks vals (map len toks)) k p m ->
  nth_error (combine toks vals) k = Some p /\ m = len (fst p).
Proof.
  intros (A & B & C). cbn in *. destruct p as [t v]. cbn [fst snd] in *. split; [apply nth_error_combine; auto|].
  rewrite nth_error_map, A in C. cbn in C. congruence.
Qed.
Lemma at_init {T} len (toks : list T) vals k p : nth_error (combine toks vals) k = Some p ->
  at_dd (mkDD toks vals (map len toks)) k p (len (fst p)).
Proof.
  destruct p as [t v]. intros H. apply nth_error_combine in H as [A B]. repeat split; cbn; auto. rewrite nth_error_map, A. reflexivity.
Qed.
Lemma dedup_sound {T} len (toks : list T) vals : List.length toks = List.length vals ->
  exists r, drop_duplicates len toks vals = Ok r /\ Forall (fun p => In p (combine toks vals)) r /\
    (forall r1 p r2 q, r = r1 ++ p :: r2 -> In q r2 -> close (snd q) (snd p) = false).
Proof.
  intros H. unfold drop_duplicates. pose proof (init_even len toks vals H) as HE.
  destruct (outer_total (List.length toks) 0 _ HE) as (r & E). exists r. split; [exact E|]. destruct (outer_sound _ _ _ _ HE E) as [S1 S2].
  split; [|exact S2]. eapply Forall_impl; [|exact S1]. cbn. intros p (k & m & _ & A). apply init_at in A as [A _]. eapply nth_error_In; eauto.
Qed.
Lemma dedup_cover {T} len (toks : list T) vals r : List.length toks = List.length vals ->
  ((forall t, In t toks -> forall t', In t' toks -> len t = len t') \/
   (forall p q, In p (combine toks vals) -> In q (combine toks vals) -> len (fst p) = len (fst q) -> p = q)) ->
  drop_duplicates len toks vals = Ok r ->
  forall p, In p (combine toks vals) -> exists q, In q r /\ linked vals (snd p) (snd q).
Proof.
  intros H HO E p Hp. apply In_nth_error in Hp as (k & Hk). pose proof (at_init len toks vals k p Hk) as HA.
  assert (within vals (mkDD toks vals (map len toks))) as HW.
  { intros k' p' m' (_ & B & _). cbn in B. eapply nth_error_In; eauto. }
  unfold drop_duplicates in E. destruct HO as [HO|HO].
  - assert (exists c, Forall (fun n => n = c) (map len toks)) as (c & Hc).
    { destruct toks as [|t0 toks]; [exists 0; constructor|]. exists (len t0). apply Forall_forall. intros n Hn. apply in_map_iff in Hn as (t & <- & Ht).
      symmetry. apply HO; [left; reflexivity|exact Ht]. }
    eapply outer_cover_flat; [apply init_even; exact H|exact HW|exact Hc| |exact E|lia|exact HA]. cbn. rewrite map_length. reflexivity.
  - eapply outer_cover; [apply init_even; exact H|exact HW| | |exact E|lia|exact HA].
    + intros j i a b m Ha Hb. apply init_at in Ha as [Ha ->]. apply init_at in Hb as [Hb Hm].
      apply HO; [eapply nth_error_In; eauto|eapply nth_error_In; eauto|exact Hm].
    + cbn. rewrite map_length. reflexivity.
Qed.

(** ** cross_over_p *)
Lemma set_nth_split {A} (l : list A) i a x : nth_error l i = Some a -> l = firstn i l ++ a :: skipn (S i) l /\ set_nth l i x = firstn i l ++ x :: skipn (S i) l.
Proof.
  intros H. split; [|reflexivity]. revert i H. induction l as [|y l IH]; intros [|i] H; try discriminate; cbn in *; [congruence|]. f_equal. apply IH. exact H.
Qed.
Lemma cross_over_ok {A} swap ix1 ix2 (t1 t2 : list A) : ix1 < List.length t1 -> ix2 < List.length t2 ->
  exists r1 r2, cross_over_p swap ix1 ix2 t1 t2 = Ok (r1, r2) /\ r1 <> [] /\ r2 <> [] /\
    (forall x, In x (r1 ++ r2) <-> In x (t1 ++ t2)) /\
    (swap = true -> Permutation (r1 ++ r2) (t1 ++ t2)) /\
    (swap = false -> List.length r1 = S (List.length t1) /\ (2 <= List.length t2 -> Permutation (r1 ++ r2) (t1 ++ t2)) /\ (List.length t2 = 1 -> r2 = t2)).
Proof.
  intros H1 H2. unfold cross_over_p.
  destruct (nth_error t1 ix1) as [a|] eqn:E1; [|apply nth_error_None in E1; lia].
  destruct (nth_error t2 ix2) as [b|] eqn:E2; [|apply nth_error_None in E2; lia].
  destruct (set_nth_split t1 ix1 a b E1) as [S1 R1]. destruct (set_nth_split t2 ix2 b a E2) as [S2 R2].
  set (p1 := firstn ix1 t1) in *. set (q1 := skipn (S ix1) t1) in *. set (p2 := firstn ix2 t2) in *. set (q2 := skipn (S ix2) t2) in *.
  destruct swap.
  - exists (set_nth t1 ix1 b), (set_nth t2 ix2 a). rewrite R1, R2.
    assert (Permutation ((p1 ++ b :: q1) ++ p2 ++ a :: q2) (t1 ++ t2)) as P.
    { clearbody p1 q1 p2 q2. rewrite S1, S2. clear.
      assert (forall x y : A, Permutation ((p1 ++ x :: q1) ++ p2 ++ y :: q2) (x :: y :: (p1 ++ q1) ++ p2 ++ q2)) as G.
      { intros x y. apply Permutation_trans with ((x :: p1 ++ q1) ++ y :: p2 ++ q2).
        - apply Permutation_app; apply Permutation_sym, Permutation_middle.
        - cbn [app]. apply perm_skip. apply Permutation_sym, Permutation_middle. }
      eapply Permutation_trans; [apply G|]. eapply Permutation_trans; [apply perm_swap|]. apply Permutation_sym, G. }
    split; [reflexivity|]. split; [destruct p1; discriminate|]. split; [destruct p2; discriminate|]. split; [|split; [auto|discriminate]].
    intros x. split; apply Permutation_in; [exact P|apply Permutation_sym; exact P].
  - exists (t1 ++ [b]), (if Nat.ltb 1 (List.length t2) then del_nth t2 ix2 else t2). split; [reflexivity|].
    split; [destruct t1; discriminate|].
    assert (In b t2) as Hb by (eapply nth_error_In; eauto).
    destruct (Nat.ltb_spec 1 (List.length t2)) as [L|L].
    + assert (Permutation ((t1 ++ [b]) ++ del_nth t2 ix2) (t1 ++ t2)) as P.
      { unfold del_nth. fold p2 q2. clearbody p2 q2. rewrite S2. rewrite <- app_assoc. cbn [app]. apply Permutation_app_head. apply Permutation_middle. }
      split; [unfold del_nth; fold p2 q2; intros E; apply (f_equal (@List.length A)) in S2; apply app_eq_nil in E as [Ep Eq]; rewrite Ep, Eq in S2; cbn in S2; lia|].
      split; [intros x; split; apply Permutation_in; [exact P|apply Permutation_sym; exact P]|]. split; [discriminate|].
      intros _. rewrite app_length. cbn [List.length]. split; [lia|]. split; [auto|lia].
    + split; [destruct t2; [cbn in H2; lia|discriminate]|]. split.
      * intros x. rewrite !in_app_iff. cbn [In]. intuition congruence.
      * split; [discriminate|]. intros _. rewrite app_length. cbn. split; [lia|]. split; [lia|auto].
Qed.

(** ** rewards *)
Lemma qmax_l a b : (a <= qmax a b)%Q.
Proof. unfold qmax. destruct (Qle_bool a b) eqn:E; [apply Qle_bool_iff; exact E|apply Qle_refl]. Qed.
Lemma qle_false a b : Qle_bool a b = false -> (b <= a)%Q.
Proof.
  intros E. destruct (Qlt_le_dec b a) as [H|H]; [apply Qlt_le_weak; exact H|].
  apply Qle_bool_iff in H. congruence.
Qed.
Lemma qmax_r a b : (b <= qmax a b)%Q.
Proof. unfold qmax. destruct (Qle_bool a b) eqn:E; [apply Qle_refl|apply qle_false; exact E]. Qed.
Lemma qmaxl_ge l : forall d, (d <= qmaxl d l)%Q /\ (forall x, In x l -> (x <= qmaxl d l)%Q).
Proof.
  unfold qmaxl. induction l as [|y l IH]; intros d; cbn [fold_left]; [split; [apply Qle_refl|intros x []]|].
  destruct (IH (qmax d y)) as [I1 I2]. split; [eapply Qle_trans; [apply qmax_l|exact I1]|].
  intros x [->|Hx]; [eapply Qle_trans; [apply qmax_r|exact I1]|auto].
Qed.
Lemma qmaxl_in l : forall d, qmaxl d l = d \/ In (qmaxl d l) l.
Proof.
  unfold qmaxl. induction l as [|y l IH]; intros d; cbn [fold_left]; [auto|]. destruct (IH (qmax d y)) as [->|H]; [|right; right; exact H].
  unfold qmax. destruct (Qle_bool d y); [right; left; reflexivity|left; reflexivity].
Qed.
Lemma dedup_rewards_in l r : dedup_rewards l = Ok r -> forall p, In p r -> In p l.
Proof.
  unfold dedup_rewards. intros E p Hp. destruct (dedup_sound snd l (map (fun p => [fst p]) l)) as (r0 & E0 & F & _); [rewrite map_length; reflexivity|].
  rewrite E0 in E. cbn [bind] in E. injection E as <-. apply in_map_iff in Hp as ((q & v) & <- & Hq). rewrite Forall_forall in F.
  specialize (F _ Hq). apply in_combine_l in F. exact F.
Qed.
Lemma agg_best_monotone mutation best best_r rp gp last b : agg_best mutation best best_r rp gp last = Ok b ->
  (best_r <= b)%Q /\ (forall l, last = Some l -> (l <= b)%Q) /\
  (b = best_r \/ last = Some b \/ (exists n, best = Some (b, n)) \/ In b (map fst rp) \/ (mutation = true /\ In b (map fst gp))).
Proof.
  unfold agg_best. intros E. destruct (qminl (map fst rp)) as [rq|]; [|discriminate]. cbn [bind] in E.
  destruct (dedup_rewards rp) as [ps|] eqn:Ed; [|discriminate]. cbn [bind] in E.
  set (ps1 := ps ++ match best with Some b => [b] | None => [] end) in *.
  destruct (if mutation then _ else _) as [ps2|] eqn:E2; [|discriminate]. cbn [bind] in E.
  assert (forall q, In q ps2 -> (exists n, best = Some (fst q, n)) \/ In (fst q) (map fst rp) \/ (mutation = true /\ In (fst q) (map fst gp))) as Src.
  { assert (forall q, In q ps1 -> (exists n, best = Some (fst q, n)) \/ In (fst q) (map fst rp)) as S1.
    { intros q Hq. unfold ps1 in Hq. apply in_app_or in Hq as [Hq|Hq]; [right; apply in_map; eapply dedup_rewards_in; eauto|].
      destruct best as [[x n]|]; [|destruct Hq]. destruct Hq as [<-|[]]. left. exists n. reflexivity. }
    intros q Hq. destruct mutation; [|injection E2 as <-; destruct (S1 q Hq); auto].
    destruct (dedup_rewards (filter (fun p => negb (Qle_bool (fst p) rq)) gp)) as [h|] eqn:Eh; [|discriminate]. cbn [bind] in E2. injection E2 as <-.
    apply in_app_or in Hq as [Hq|Hq]; [destruct (S1 q Hq); auto|]. right; right. split; [reflexivity|].
    apply in_map. apply (dedup_rewards_in _ _ Eh) in Hq. apply filter_In in Hq. apply Hq. }
  destruct ps2 as [|p rest]; [discriminate|]. destruct last as [l|]; [|discriminate]. injection E as <-.
  set (top := qmaxl (fst p) (map fst rest)). set (cand := if Qle_bool top l then l else top).
  assert (l <= cand)%Q as Lc by (unfold cand; destruct (Qle_bool top l) eqn:Q; [apply Qle_refl|apply qle_false; exact Q]).
  assert ((exists n, best = Some (top, n)) \/ In top (map fst rp) \/ (mutation = true /\ In top (map fst gp))) as St.
  { destruct (qmaxl_in (map fst rest) (fst p)) as [Q|Q]; fold top in Q.
    - rewrite Q. apply Src. left. reflexivity.
    - apply in_map_iff in Q as (q & Eq & Hq). rewrite <- Eq. apply Src. right. exact Hq. }
  destruct (Qle_bool cand best_r) eqn:Qc.
  - split; [apply Qle_refl|]. split; [|auto]. intros l' E'. injection E' as <-. eapply Qle_trans; [exact Lc|]. apply Qle_bool_iff. exact Qc.
  - split; [apply qle_false; exact Qc|]. split; [intros l' E'; injection E' as <-; exact Lc|].
    unfold cand in *. destruct (Qle_bool top l); [auto|]. right. right. exact St.
Qed.
