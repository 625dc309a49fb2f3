(** Proofs about the Library model. *)
From Verif Require Import Base Library.

Lemma make_library_inv toks lib : make_library toks = Ok lib ->
  ltokens lib = toks /\ lL lib = List.length toks /\ lnames lib = map tname toks /\
  larities lib = map tarity toks /\
  lterminal lib = tokens_of_arity toks 0 /\ lunary lib = tokens_of_arity toks 1 /\
  lbinary lib = tokens_of_arity toks 2 /\
  lparent_adjust lib = parent_adjust_loop 0%Z (map tarity toks) /\
  lEMPTY_ACTION lib = List.length toks /\ lEMPTY_SIBLING lib = List.length toks /\
  lEMPTY_PARENT lib = List.length toks - List.length (tokens_of_arity toks 0) /\
  lstate_tokens lib = indices (fun t => is_some (tstate t)) toks /\
  linput_tokens lib <> [] /\
  (linput_tokens lib = indices (fun t => is_some (tinput t)) toks \/
   linput_tokens lib = indices (fun t => is_some (tstate t)) toks /\ indices (fun t => is_some (tinput t)) toks = []).
Proof.
  unfold make_library. intros H.
  destruct (Nat.eqb_spec (List.length (indices (fun t => is_some (tinput t)) toks)) 0) as [E1|E1];
  destruct (Nat.eqb_spec (List.length (indices (fun t => is_some (tstate t)) toks)) 0) as [E2|E2];
  cbn [andb] in H; try discriminate; injection H as <-; cbn;
  repeat split; try lia; auto.
  all: try (intros E; rewrite E in *; simpl in *; lia).
  right; split; auto. apply length_zero_iff_nil; auto.
Qed.

Lemma tokens_of_arity_In toks a i :
  In i (tokens_of_arity toks a) <-> exists t, nth_error toks i = Some t /\ tarity t = a.
Proof.
  unfold tokens_of_arity. rewrite indices_spec.
  split; intros (t & H1 & H2); exists t; split; auto; [apply Nat.eqb_eq|apply Nat.eqb_eq]; auto.
Qed.

Lemma ar_of_nth lib toks i t : make_library toks = Ok lib ->
  nth_error toks i = Some t -> ar_of lib i = tarity t.
Proof.
  intros H Hn. apply make_library_inv in H as (_ & _ & _ & Ha & _).
  unfold ar_of. rewrite Ha. apply nth_error_nth. apply map_nth_error. exact Hn.
Qed.

Lemma tokens_of_arity_ar lib toks a i : make_library toks = Ok lib ->
  In i (tokens_of_arity toks a) <-> i < lL lib /\ ar_of lib i = a.
Proof.
  intros H. rewrite tokens_of_arity_In.
  pose proof (make_library_inv _ _ H) as (_ & HL & _).
  split.
  - intros (t & Hn & Ht). split.
    + rewrite HL. apply nth_error_Some. congruence.
    + erewrite ar_of_nth; eauto.
  - intros (Hi & Ha). destruct (nth_error toks i) as [t|] eqn:Hn.
    + exists t. split; auto. erewrite ar_of_nth in Ha; eauto.
    + apply nth_error_None in Hn. lia.
Qed.

Lemma input_tokens_terminal toks lib i : tokens_ok toks -> make_library toks = Ok lib ->
  In i (linput_tokens lib) -> i < lL lib /\ ar_of lib i = 0.
Proof.
  intros Hok H Hin.
  pose proof (make_library_inv _ _ H) as (_ & HL & _ & _ & _ & _ & _ & _ & _ & _ & _ & _ & _ & Hi).
  assert (exists t, nth_error toks i = Some t /\ (is_some (tinput t) || is_some (tstate t)) = true) as (t & Hn & Hv).
  { destruct Hi as [Hi|[Hi _]]; rewrite Hi in Hin; apply indices_spec in Hin as (t & Hn & Hv);
    exists t; rewrite Hv; split; auto. apply orb_true_r. }
  split; [rewrite HL; apply nth_error_Some; congruence|].
  erewrite ar_of_nth by eauto.
  apply nth_error_In in Hn. unfold tokens_ok in Hok. rewrite Forall_forall in Hok.
  specialize (Hok _ Hn). unfold make_token in Hok.
  destruct (Nat.eqb_spec (tarity t) 0) as [E|E]; [assumption|].
  rewrite Hv in Hok. discriminate.
Qed.

Lemma state_tokens_terminal toks lib i : tokens_ok toks -> make_library toks = Ok lib ->
  In i (lstate_tokens lib) -> i < lL lib /\ ar_of lib i = 0.
Proof.
  intros Hok H Hin.
  pose proof (make_library_inv _ _ H) as (_ & HL & _ & _ & _ & _ & _ & _ & _ & _ & _ & Hs & _ & _).
  rewrite Hs in Hin. apply indices_spec in Hin as (t & Hn & Hv).
  split; [rewrite HL; apply nth_error_Some; congruence|].
  erewrite ar_of_nth by eauto.
  apply nth_error_In in Hn. unfold tokens_ok in Hok. rewrite Forall_forall in Hok.
  specialize (Hok _ Hn). unfold make_token in Hok.
  destruct (Nat.eqb_spec (tarity t) 0) as [E|E]; [assumption|].
  rewrite Hv, orb_true_r in Hok. discriminate.
Qed.

(** parent numbering *)
Definition nonterm_before (ars : list nat) (i : nat) : nat :=
  List.length (filter (fun a => Nat.ltb 0 a) (firstn i ars)).

Lemma parent_adjust_nth ars : forall c i a, nth_error ars i = Some a ->
  nth_error (parent_adjust_loop c ars) i =
  Some (if Nat.ltb 0 a then (c + Z.of_nat (nonterm_before ars i))%Z else (-1)%Z).
Proof.
  induction ars as [|b ars IH]; intros c i a Hn; [destruct i; discriminate|].
  destruct i as [|i]; simpl in Hn.
  - injection Hn as ->. simpl. destruct (Nat.ltb 0 a); cbn; f_equal; change (Z.of_nat 0) with 0%Z; lia.
  - simpl. unfold nonterm_before in *. cbn [firstn filter].
    destruct (Nat.ltb 0 b); cbn [nth_error]; rewrite (IH _ _ _ Hn); destruct (Nat.ltb 0 a); f_equal.
    cbn [List.length]. lia.
Qed.

Lemma parent_adjust_length ars : forall c, List.length (parent_adjust_loop c ars) = List.length ars.
Proof.
  induction ars as [|b ars IH]; intros c; simpl; [reflexivity|].
  destruct (Nat.ltb 0 b); simpl; rewrite IH; reflexivity.
Qed.

Lemma nonterm_before_mono ars i j a : i < j -> nth_error ars i = Some a -> Nat.ltb 0 a = true ->
  nonterm_before ars i < nonterm_before ars j.
Proof.
  intros Hij Hn Ha. unfold nonterm_before.
  assert (firstn j ars = firstn i ars ++ a :: skipn (S i) (firstn j ars)) as E.
  { rewrite <- (firstn_skipn i (firstn j ars)) at 1.
    rewrite firstn_firstn, Nat.min_l by lia. f_equal.
    assert (nth_error (firstn j ars) i = Some a) as Hn'.
    { rewrite <- Hn. clear -Hij. revert j Hij. revert i. induction ars as [|b ars IH]; intros i j Hij.
      - destruct j, i; reflexivity.
      - destruct j; [lia|]. destruct i; [reflexivity|]. simpl. apply IH. lia. }
    clear -Hn'. revert Hn'. generalize (firstn j ars) as l. intros l. revert i.
    induction l as [|b l IH]; intros [|i] H; simpl in *; try discriminate.
    - injection H as ->. reflexivity.
    - apply IH. exact H. }
  rewrite E, filter_app, app_length. simpl. rewrite Ha. simpl. lia.
Qed.

Lemma filter_len_le {A} (f : A -> bool) l : List.length (filter f l) <= List.length l.
Proof. induction l as [|x l IH]; simpl; [lia|]. destruct (f x); simpl; lia. Qed.

Lemma indices_from_length {A} (f : A -> bool) l : forall i,
  List.length (indices_from f i l) = List.length (filter f l).
Proof.
  induction l as [|x l IH]; intros i; simpl; [reflexivity|].
  rewrite app_length, IH. destruct (f x); reflexivity.
Qed.

Lemma nonterm_total toks : List.length toks - List.length (tokens_of_arity toks 0) =
  nonterm_before (map tarity toks) (List.length toks).
Proof.
  unfold tokens_of_arity, indices. rewrite indices_from_length.
  unfold nonterm_before. rewrite firstn_all2 by (rewrite map_length; lia).
  assert (forall l : list token, List.length (filter (fun a => Nat.ltb 0 a) (map tarity l)) =
     List.length l - List.length (filter (fun t => Nat.eqb (tarity t) 0) l)) as E; [|symmetry; apply E].
  induction l as [|t l IH]; cbn [map filter]; [reflexivity|].
  assert (List.length (filter (fun t0 => Nat.eqb (tarity t0) 0) l) <= List.length l)
    by apply filter_len_le.
  destruct (tarity t) as [|n];
    [change (Nat.ltb 0 0) with false; change (Nat.eqb 0 0) with true
    |change (Nat.ltb 0 (S n)) with true; change (Nat.eqb (S n) 0) with false];
    cbv iota; cbn [List.length]; rewrite IH; [reflexivity|].
  symmetry. apply Nat.sub_succ_l. assumption.
Qed.

(** Surjectivity: every number below the total is a [nonterm_before]. *)
Lemma nonterm_before_surj ars : forall n, n < nonterm_before ars (List.length ars) ->
  exists i a, nth_error ars i = Some a /\ Nat.ltb 0 a = true /\ nonterm_before ars i = n.
Proof.
  unfold nonterm_before. rewrite firstn_all.
  induction ars as [|b ars IH]; intros n Hn; cbn [filter List.length] in Hn; [lia|].
  destruct (Nat.ltb 0 b) eqn:Eb; cbn [List.length] in Hn.
  - destruct n as [|n].
    + exists 0, b. simpl. auto.
    + destruct (IH n ltac:(lia)) as (i & a & H1 & H2 & H3).
      exists (S i), a. cbn [nth_error firstn filter]. rewrite Eb. cbn [List.length]. auto.
  - destruct (IH n ltac:(lia)) as (i & a & H1 & H2 & H3).
    exists (S i), a. cbn [nth_error firstn filter]. rewrite Eb. auto.
Qed.

(** names *)
Lemma index_from_spec {A} (f : A -> bool) l : forall i k,
  index_from f i l = Some k <->
  (i <= k /\ (exists x, nth_error l (k - i) = Some x /\ f x = true) /\
   forall j y, j < k - i -> nth_error l j = Some y -> f y = false).
Proof.
  induction l as [|x l IH]; intros i k; simpl.
  - split; [discriminate|]. intros (_ & (x & H & _) & _). destruct (k - i); discriminate.
  - destruct (f x) eqn:Ef.
    + split.
      * intros H. injection H as <-. rewrite Nat.sub_diag. split; [lia|]. split; [exists x; auto|]. intros; lia.
      * intros (Hle & (y & Hn & Hy) & Hall).
        destruct (Nat.eq_dec i k) as [->|Hne]; [reflexivity|].
        specialize (Hall 0 x ltac:(lia) eq_refl). congruence.
    + rewrite IH. split.
      * intros (Hle & (y & Hn & Hy) & Hall). split; [lia|]. split.
        -- exists y. replace (k - i) with (S (k - S i)) by lia. auto.
        -- intros [|j] z Hj Hz; simpl in Hz; [congruence|]. apply (Hall j z); [lia|auto].
      * intros (Hle & (y & Hn & Hy) & Hall).
        destruct (Nat.eq_dec i k) as [->|Hne].
        { rewrite Nat.sub_diag in Hn. simpl in Hn. congruence. }
        split; [lia|]. split.
        -- exists y. replace (k - i) with (S (k - S i)) in Hn by lia. auto.
        -- intros j z Hj Hz. apply (Hall (S j) z); [lia|exact Hz].
Qed.

Lemma index_of_spec {A} (f : A -> bool) l k :
  index_of f l = Some k <->
  ((exists x, nth_error l k = Some x /\ f x = true) /\
   forall j y, j < k -> nth_error l j = Some y -> f y = false).
Proof.
  unfold index_of. rewrite index_from_spec. rewrite Nat.sub_0_r.
  split; [intros (_ & H); exact H|intros H; split; [lia|exact H]].
Qed.

Lemma index_from_None {A} (f : A -> bool) l : forall i,
  index_from f i l = None <-> forall x, In x l -> f x = false.
Proof.
  induction l as [|x l IH]; intros i; simpl; [split; [tauto|auto]|].
  destruct (f x) eqn:E.
  - split; [discriminate|]. intros H. specialize (H x (or_introl eq_refl)). congruence.
  - rewrite IH. split; [intros H y [<-|Hy]; auto|auto].
Qed.

Lemma getitem_index lib toks i t : make_library toks = Ok lib -> nth_error toks i = Some t ->
  getitem lib (KInt (Z.of_nat i)) = Ok (i, t).
Proof.
  intros H Hn. pose proof (make_library_inv _ _ H) as (Ht & HL & _).
  assert (i < List.length toks) by (apply nth_error_Some; congruence).
  unfold getitem. rewrite HL, Ht.
  destruct (Z.ltb_spec (Z.of_nat i) 0); [lia|].
  destruct (Z.ltb_spec (Z.of_nat i) 0); [lia|].
  destruct (Z.leb_spec (Z.of_nat (List.length toks)) (Z.of_nat i)); [lia|].
  cbn [orb]. rewrite Nat2Z.id, Hn. reflexivity.
Qed.

Lemma getitem_name lib toks i t : make_library toks = Ok lib ->
  NoDup (map tname toks) -> nth_error toks i = Some t ->
  getitem lib (KStr (tname t)) = Ok (i, t).
Proof.
  intros H Hnd Hn. pose proof (make_library_inv _ _ H) as (Ht & HL & Hnm & _).
  unfold getitem.
  assert (index_of (String.eqb (tname t)) (lnames lib) = Some i) as ->.
  { rewrite Hnm. apply index_of_spec. split.
    - exists (tname t). split; [apply map_nth_error; auto|apply String.eqb_refl].
    - intros j y Hj Hy. apply String.eqb_neq. intros <-.
      assert (j = i); [|lia].
      apply (proj1 (NoDup_nth_error _) Hnd).
      + apply nth_error_Some. congruence.
      + rewrite Hy. symmetry. apply map_nth_error. exact Hn. }
  pose proof (getitem_index _ _ _ _ H Hn) as G. unfold getitem in G. exact G.
Qed.

Lemma getitem_name_unknown lib toks s : make_library toks = Ok lib ->
  ~ In s (map tname toks) -> getitem lib (KStr s) = Err OtherError.
Proof.
  intros H Hni. pose proof (make_library_inv _ _ H) as (_ & _ & Hnm & _).
  unfold getitem. rewrite Hnm.
  assert (index_of (String.eqb s) (map tname toks) = None) as ->; [|reflexivity].
  apply index_from_None. intros x Hx. apply String.eqb_neq. intros <-. tauto.
Qed.
