(** Proofs about the program cache (Program.v, from_tokens). *)
From Verif Require Import Base Trees TreeFacts Library LibraryFacts Program ProgramFacts.

(** ** Byte images of token arrays *)
Lemma le_bytes_length w : forall z, List.length (le_bytes w z) = w.
Proof. induction w as [|w IH]; intros z; simpl; auto. Qed.

Lemma le_bytes_inj w : forall z z', (0 <= z < 256 ^ Z.of_nat w)%Z -> (0 <= z' < 256 ^ Z.of_nat w)%Z ->
  le_bytes w z = le_bytes w z' -> z = z'.
Proof.
  induction w as [|w IH]; intros z z' Hz Hz' E.
  - change (256 ^ Z.of_nat 0)%Z with 1%Z in *. lia.
  - cbn [le_bytes] in E. injection E as E1 E2.
    rewrite Nat2Z.inj_succ, Z.pow_succ_r in Hz, Hz' by lia.
    assert (z / 256 = z' / 256)%Z as Ed.
    { apply IH; [| |exact E2].
      - split; [apply Z.div_pos; lia|apply Z.div_lt_upper_bound; lia].
      - split; [apply Z.div_pos; lia|apply Z.div_lt_upper_bound; lia]. }
    rewrite (Z.div_mod z 256), (Z.div_mod z' 256) by lia. congruence.
Qed.

Lemma app_len_inj {A} (a b c d : list A) : List.length a = List.length c -> a ++ b = c ++ d -> a = c /\ b = d.
Proof.
  revert c. induction a as [|x a IH]; intros [|y c] Hl E; simpl in *; try discriminate; auto.
  injection E as -> E. destruct (IH c) as [-> ->]; auto.
Qed.

Lemma tobytes_inj w l l' : 1 <= w ->
  Forall (fun t => (Z.of_nat t < 256 ^ Z.of_nat w)%Z) l ->
  Forall (fun t => (Z.of_nat t < 256 ^ Z.of_nat w)%Z) l' ->
  tobytes w l = tobytes w l' -> l = l'.
Proof.
  intros Hw H. revert l'. unfold tobytes.
  induction H as [|t l Ht Hl IH]; intros l' Hl' E.
  - destruct l' as [|t' l']; [reflexivity|].
    apply (f_equal (@List.length Z)) in E. cbn [flat_map] in E. rewrite app_length, le_bytes_length in E. simpl in E. lia.
  - destruct l' as [|t' l'].
    + apply (f_equal (@List.length Z)) in E. cbn [flat_map] in E. rewrite app_length, le_bytes_length in E. simpl in E. lia.
    + cbn [flat_map] in E. apply app_len_inj in E as [E1 E2]; [|rewrite !le_bytes_length; reflexivity].
      inversion Hl'; subst. apply le_bytes_inj in E1; [|lia|lia].
      f_equal; [lia|]. apply IH; assumption.
Qed.

Lemma le_bytes_zero w : le_bytes w 0 = repeat 0%Z w.
Proof. induction w as [|w IH]; [reflexivity|]. cbn [le_bytes repeat]. rewrite <- IH. reflexivity. Qed.

Lemma le_bytes_wide a b : forall z, (0 <= z < 256 ^ Z.of_nat a)%Z ->
  le_bytes (a + b) z = le_bytes a z ++ repeat 0%Z b.
Proof.
  induction a as [|a IH]; intros z Hz.
  - change (256 ^ Z.of_nat 0)%Z with 1%Z in Hz. assert (z = 0%Z) by lia. subst.
    simpl. apply le_bytes_zero.
  - cbn [Nat.add le_bytes app]. f_equal. apply IH.
    rewrite Nat2Z.inj_succ, Z.pow_succ_r in Hz by lia.
    split; [apply Z.div_pos; lia|apply Z.div_lt_upper_bound; lia].
Qed.

Definition interleave0 (l : list nat) : list nat := flat_map (fun t => [t; 0]) l.

Lemma tobytes_8_4 l : Forall (fun t => (Z.of_nat t < 256 ^ 4)%Z) l ->
  tobytes 8 l = tobytes 4 (interleave0 l).
Proof.
  induction 1 as [|t l Ht Hl IH]; [reflexivity|].
  unfold tobytes, interleave0 in *. cbn [flat_map app].
  rewrite IH. change 8 with (4 + 4). rewrite le_bytes_wide.
  - rewrite <- app_assoc. f_equal.
  - change (Z.of_nat 4) with 4%Z. lia.
Qed.

(** A 64-bit image of a complete expression is never the 32-bit image of one. *)
Section Ilv.
Context (ar : nat -> nat).
Fixpoint sumar (l : list nat) : Z := match l with [] => 0%Z | t :: l' => (Z.of_nat (ar t) - 1 + sumar l')%Z end.
Lemma slots_sum l : forall k m, slots ar k l = Some m -> Z.of_nat m = (Z.of_nat k + sumar l)%Z.
Proof.
  induction l as [|t l IH]; intros k m H; cbn [slots sumar] in *.
  - injection H as ->. lia.
  - destruct k as [|k]; [discriminate|]. apply IH in H. lia.
Qed.
Lemma sumar_ilv l : sumar (interleave0 l) = (sumar l + Z.of_nat (List.length l) * (Z.of_nat (ar 0) - 1))%Z.
Proof.
  unfold interleave0. induction l as [|t l IH]; cbn [flat_map app sumar List.length]; [lia|]. rewrite IH. lia.
Qed.
Lemma slots_ilv l : ar 0 = 1 -> l <> [] -> forall k, slots ar (S k) l = Some 0 ->
  slots ar (S k) (interleave0 l) = None.
Proof.
  intros H0. induction l as [|t l IH]; [congruence|]. intros _ k Hs.
  unfold interleave0 in *. cbn [flat_map app slots] in *.
  destruct (ar t + k) as [|m] eqn:E; [reflexivity|].
  rewrite H0. simpl plus. apply IH; [|exact Hs].
  intros ->. discriminate.
Qed.
Lemma complete_ilv l : complete ar l -> ~ complete ar (interleave0 l).
Proof.
  rewrite !complete_slots. intros H H2.
  assert (l <> []) as Hne by (intros ->; discriminate).
  assert (ar 0 = 1) as E.
  { apply slots_sum in H. apply slots_sum in H2. rewrite sumar_ilv in H2.
    assert (0 < List.length l) by (destruct l; [congruence|simpl; lia]). nia. }
  rewrite (slots_ilv l E Hne 0 H) in H2. discriminate.
Qed.
End Ilv.

(** ** The cache *)
Section WithLib.
Context (toks : list token) (lib : library) (st : bool).
Hypothesis Hok : tokens_ok toks.
Hypothesis Hlib : make_library toks = Ok lib.
Hypothesis Hsmall : (Z.of_nat (lL lib) <= 256 ^ 4)%Z.
Notation ar := (ar_of lib).

Definition req_ok (q : request) : Prop :=
  Forall (fun t => t < lL lib) (q_tokens q) /\ choice_ok lib (q_rnd q) /\
  (q_width q = 4 \/ q_width q = 8).

(** The completed token sequence a request stands for. *)
Definition completed (q : request) : res (list nat) := finish_tokens lib 1 (q_rnd q) (q_tokens q).

Lemma completed_ok q r : req_ok q -> completed q = Ok r -> complete ar r /\ Forall (fun t => t < lL lib) r.
Proof.
  intros (HF & Hr & _) E. split.
  - assert (q_tokens q <> []) as Hne by (intros Hn; unfold completed in E; rewrite Hn in E; discriminate).
    destruct (finish_complete toks lib Hok Hlib _ _ HF Hne Hr) as (r' & E' & Hc & _).
    unfold completed in E. congruence.
  - eapply finish_in_range; eauto.
Qed.

Lemma key_sound w w' l l' : (w = 4 \/ w = 8) -> (w' = 4 \/ w' = 8) ->
  complete ar l -> complete ar l' ->
  Forall (fun t => t < lL lib) l -> Forall (fun t => t < lL lib) l' ->
  tobytes w l = tobytes w' l' -> l = l' /\ w = w'.
Proof.
  intros Hw Hw' Hc Hc' HF HF' E.
  assert (forall l, Forall (fun t => t < lL lib) l -> Forall (fun t => (Z.of_nat t < 256 ^ 4)%Z) l) as W4.
  { intros l0 H. eapply Forall_impl; [|exact H]. simpl. intros; lia. }
  assert (forall l, Forall (fun t => t < lL lib) l -> Forall (fun t => (Z.of_nat t < 256 ^ 8)%Z) l) as W8.
  { intros l0 H. eapply Forall_impl; [|exact H]. simpl. intros.
    change (256 ^ 8)%Z with (256 ^ 4 * 256 ^ 4)%Z. nia. }
  assert (forall l, Forall (fun t => t < lL lib) l -> Forall (fun t => t < lL lib) (interleave0 l)) as WI.
  { intros l0 H. unfold interleave0. induction H as [|t l0 Ht Hl IH]; cbn [flat_map app]; [constructor|].
    constructor; [assumption|]. constructor; [lia|assumption]. }
  destruct Hw as [-> | ->], Hw' as [-> | ->]; split; try reflexivity.
  - apply (tobytes_inj 4) in E; auto; lia.
  - exfalso. rewrite (tobytes_8_4 l') in E by auto. apply (tobytes_inj 4) in E; auto; try lia.
    subst l. apply (complete_ilv ar l'); assumption.
  - exfalso. rewrite (tobytes_8_4 l') in E by auto. apply (tobytes_inj 4) in E; auto; try lia.
    subst l. apply (complete_ilv ar l'); assumption.
  - exfalso. rewrite (tobytes_8_4 l) in E by auto. apply (tobytes_inj 4) in E; auto; try lia.
    subst l'. apply (complete_ilv ar l); assumption.
  - exfalso. rewrite (tobytes_8_4 l) in E by auto. apply (tobytes_inj 4) in E; auto; try lia.
    subst l'. apply (complete_ilv ar l); assumption.
  - apply (tobytes_inj 8) in E; auto; lia.
Qed.

Definition tokens_at (s : pstate) (i : nat) : option (list nat) := option_map p_tokens (nth_error (p_heap s) i).
Definition on_at (s : pstate) (i : nat) : nat := match nth_error (p_heap s) i with Some p => p_on p | None => 0 end.
Definition off_at (s : pstate) (i : nat) : nat := match nth_error (p_heap s) i with Some p => p_off p | None => 0 end.

Definition CInv (s : pstate) : Prop :=
  forall k i, In (k, i) (p_cache s) ->
    exists w l, (w = 4 \/ w = 8) /\ k = tobytes w l /\ tokens_at s i = Some l /\
      complete ar l /\ Forall (fun t => t < lL lib) l.

Lemma beq_bytes_true a b : beq_bytes a b = true <-> a = b.
Proof. unfold beq_bytes. destruct (list_eq_dec Z.eq_dec a b); split; congruence. Qed.

Lemma cache_get_In k c i : cache_get k c = Some i -> In (k, i) c.
Proof.
  induction c as [|[k' j] c IH]; simpl; [discriminate|].
  destruct (beq_bytes k k') eqn:E; intros H.
  - apply beq_bytes_true in E. injection H as ->. subst. auto.
  - right. auto.
Qed.

Lemma update_nth_nth {A} (f : A -> A) l : forall i j,
  nth_error (update_nth i f l) j = if Nat.eqb i j then option_map f (nth_error l j) else nth_error l j.
Proof.
  induction l as [|x l IH]; intros i j.
  - destruct i, j; simpl; try reflexivity; destruct (Nat.eqb i j); reflexivity.
  - destruct i, j; simpl; try reflexivity. apply IH.
Qed.

Lemma update_nth_length {A} (f : A -> A) l : forall i, List.length (update_nth i f l) = List.length l.
Proof. induction l as [|x l IH]; intros [|i]; simpl; auto. Qed.

(** What one request does. *)
Lemma from_tokens_step s q s' a : CInv s -> req_ok q -> from_tokens lib st s q = (s', a) ->
  CInv s' /\
  (forall i l, tokens_at s i = Some l -> tokens_at s' i = Some l) /\
  (forall k i, cache_get k (p_cache s) = Some i -> cache_get k (p_cache s') = Some i) /\
  (forall i, a = Ok i -> exists l, completed q = Ok l /\ tokens_at s' i = Some l /\
     (q_skip q || st = false -> cache_get (tobytes (q_width q) l) (p_cache s') = Some i)) /\
  (forall e, a = Err e -> completed q = Err e /\ s' = s) /\
  (forall j, on_at s' j = on_at s j + (match a with Ok i => if Nat.eqb i j then if q_on q then 1 else 0 else 0 | Err _ => 0 end)) /\
  (forall j, off_at s' j = off_at s j + (match a with Ok i => if Nat.eqb i j then if q_on q then 0 else 1 else 0 | Err _ => 0 end)).
Proof.
  intros HI Hq E. unfold from_tokens in E. change (finish_tokens lib 1 (q_rnd q) (q_tokens q)) with (completed q) in E.
  destruct (completed q) as [l|e] eqn:Ec.
  2:{ injection E as <- <-. split; [exact HI|]. split; [auto|]. split; [auto|].
      split; [discriminate|]. split; [intros e' X; injection X as ->; auto|]. split; intros; lia. }
  destruct (completed_ok q l Hq Ec) as [Hcomp Hrange].
  assert (Hnew : forall i l0, tokens_at s i = Some l0 ->
     tokens_at (mkP (p_heap s ++ [new_program l (q_on q)]) (p_cache s)) i = Some l0).
  { intros i l0 H. unfold tokens_at in *. cbn [p_heap]. rewrite nth_error_app1; [exact H|].
    apply nth_error_Some. intros X. rewrite X in H. discriminate. }
  assert (Hfresh : nth_error (p_heap s ++ [new_program l (q_on q)]) (List.length (p_heap s)) = Some (new_program l (q_on q))).
  { rewrite nth_error_app2, Nat.sub_diag by lia. reflexivity. }
  assert (Honoff : forall c j,
     on_at (mkP (p_heap s ++ [new_program l (q_on q)]) c) j =
       on_at s j + (if Nat.eqb (List.length (p_heap s)) j then if q_on q then 1 else 0 else 0) /\
     off_at (mkP (p_heap s ++ [new_program l (q_on q)]) c) j =
       off_at s j + (if Nat.eqb (List.length (p_heap s)) j then if q_on q then 0 else 1 else 0)).
  { intros c j. unfold on_at, off_at. cbn [p_heap].
    destruct (Nat.eqb_spec (List.length (p_heap s)) j) as [<-|Hne].
    - rewrite Hfresh. assert (nth_error (p_heap s) (List.length (p_heap s)) = None) as -> by (apply nth_error_None; lia).
      cbn. split; lia.
    - destruct (Nat.lt_ge_cases j (List.length (p_heap s))) as [Hj|Hj].
      + rewrite nth_error_app1 by assumption. split; lia.
      + assert (nth_error (p_heap s ++ [new_program l (q_on q)]) j = None) as ->
          by (apply nth_error_None; rewrite app_length; simpl; lia).
        assert (nth_error (p_heap s) j = None) as -> by (apply nth_error_None; lia). split; lia. }
  destruct (q_skip q || st) eqn:Esk.
  - injection E as <- <-. split; [|split; [|split; [|split; [|split; [|split]]]]].
    + intros k i Hin. cbn [p_cache] in Hin. destruct (HI k i Hin) as (w & l0 & Hw & Hk & Ht & Hc & Hr).
      exists w, l0. repeat split; auto.
    + apply Hnew.
    + intros k i H. exact H.
    + intros i H. injection H as <-. exists l. split; [reflexivity|]. split; [|discriminate].
      unfold tokens_at. cbn [p_heap]. rewrite Hfresh. reflexivity.
    + discriminate.
    + intros j. apply Honoff.
    + intros j. apply Honoff.
  - destruct (cache_get (tobytes (q_width q) l) (p_cache s)) as [i|] eqn:Eg.
    + injection E as <- <-.
      destruct (HI _ _ (cache_get_In _ _ _ Eg)) as (w & l0 & Hw & Hk & Ht & Hc & Hr).
      assert (l = l0) as <-.
      { destruct Hq as (_ & _ & Hqw). eapply key_sound in Hk; eauto. tauto. }
      assert (Htok : forall j, tokens_at (mkP (update_nth i (bump (q_on q)) (p_heap s)) (p_cache s)) j = tokens_at s j).
      { intros j. unfold tokens_at. cbn [p_heap]. rewrite update_nth_nth.
        destruct (Nat.eqb i j); [|reflexivity]. destruct (nth_error (p_heap s) j) as [p|]; [|reflexivity].
        simpl. unfold bump. destruct (q_on q); reflexivity. }
      assert (exists p, nth_error (p_heap s) i = Some p) as (p & Hp).
      { unfold tokens_at in Ht. destruct (nth_error (p_heap s) i); [eauto|discriminate]. }
      split; [|split; [|split; [|split; [|split; [|split]]]]].
      * intros k j Hin. cbn [p_cache] in Hin. destruct (HI k j Hin) as (w1 & l1 & ?).
        exists w1, l1. rewrite Htok. assumption.
      * intros j l1 H. rewrite Htok. exact H.
      * auto.
      * intros j H. injection H as <-. exists l. split; [reflexivity|]. rewrite Htok. auto.
      * discriminate.
      * intros j. unfold on_at. cbn [p_heap]. rewrite update_nth_nth.
        destruct (Nat.eqb_spec i j) as [<-|]; [|lia]. rewrite Hp. simpl. unfold bump. destruct (q_on q); simpl; lia.
      * intros j. unfold off_at. cbn [p_heap]. rewrite update_nth_nth.
        destruct (Nat.eqb_spec i j) as [<-|]; [|lia]. rewrite Hp. simpl. unfold bump. destruct (q_on q); simpl; lia.
    + injection E as <- <-. split; [|split; [|split; [|split; [|split; [|split]]]]].
      * intros k i Hin. cbn [p_cache] in Hin. destruct Hin as [Hin|Hin].
        -- injection Hin as <- <-. exists (q_width q), l. destruct Hq as (_ & _ & Hqw).
           repeat split; auto. unfold tokens_at. cbn [p_heap]. rewrite Hfresh. reflexivity.
        -- destruct (HI k i Hin) as (w & l0 & Hw & Hk & Ht & Hc & Hr).
           exists w, l0. repeat split; auto. apply Hnew. exact Ht.
      * apply Hnew.
      * intros k i H. cbn [p_cache cache_get]. destruct (beq_bytes k (tobytes (q_width q) l)) eqn:Eb; [|exact H].
        apply beq_bytes_true in Eb. subst k. congruence.
      * intros i H. injection H as <-. exists l. split; [reflexivity|]. split.
        -- unfold tokens_at. cbn [p_heap]. rewrite Hfresh. reflexivity.
        -- intros _. cbn [p_cache cache_get].
           assert (beq_bytes (tobytes (q_width q) l) (tobytes (q_width q) l) = true) as -> by (apply beq_bytes_true; reflexivity).
           reflexivity.
      * discriminate.
      * intros j. apply Honoff.
      * intros j. apply Honoff.
Qed.

Definition returned (i : nat) (on : bool) (e : request * res nat) : bool :=
  match snd e with Ok j => Nat.eqb j i && Bool.eqb (q_on (fst e)) on | Err _ => false end.

Lemma run_requests_inv qs : forall s s' tr, CInv s -> Forall req_ok qs ->
  run_requests lib st s qs = (s', tr) ->
  CInv s' /\
  map fst tr = qs /\
  (forall i l, tokens_at s i = Some l -> tokens_at s' i = Some l) /\
  (forall k i, cache_get k (p_cache s) = Some i -> cache_get k (p_cache s') = Some i) /\
  (forall q i, In (q, Ok i) tr -> exists l, completed q = Ok l /\ tokens_at s' i = Some l /\
     (q_skip q || st = false -> cache_get (tobytes (q_width q) l) (p_cache s') = Some i)) /\
  (forall q e, In (q, Err e) tr -> completed q = Err e) /\
  (forall j, on_at s' j = on_at s j + List.length (filter (returned j true) tr)) /\
  (forall j, off_at s' j = off_at s j + List.length (filter (returned j false) tr)).
Proof.
  induction qs as [|q qs IH]; intros s s' tr HI HF E; cbn [run_requests] in E.
  - injection E as <- <-. repeat split; auto; simpl; try tauto; intros; lia.
  - destruct (from_tokens lib st s q) as [s1 a] eqn:E1.
    destruct (run_requests lib st s1 qs) as [s2 tr2] eqn:E2.
    injection E as <- <-. inversion HF as [|? ? Hq HF']; subst.
    destruct (from_tokens_step _ _ _ _ HI Hq E1) as (A1 & A2 & A3 & A4 & A5 & A6 & A7).
    destruct (IH s1 s2 tr2 A1 HF' E2) as (B1 & B2 & B3 & B4 & B5 & B6 & B7 & B8).
    split; [exact B1|]. split; [cbn [map fst]; congruence|].
    split; [auto|]. split; [auto|]. split; [|split; [|split]].
    + intros q' i [H|H]; [|apply B5; exact H].
      injection H as <- ->. destruct (A4 i eq_refl) as (l & L1 & L2 & L3).
      exists l. repeat split; auto.
    + intros q' e [H|H]; [|apply (B6 q' e); exact H].
      injection H as <- ->. apply (A5 e eq_refl).
    + intros j. rewrite B7, A6. cbn [filter]. unfold returned at 2. cbn [fst snd].
      destruct a as [i|e]; [|lia]. destruct (Nat.eqb i j); cbn [andb]; [|lia].
      destruct (q_on q); cbn [Bool.eqb List.length]; lia.
    + intros j. rewrite B8, A7. cbn [filter]. unfold returned at 2. cbn [fst snd].
      destruct a as [i|e]; [|lia]. destruct (Nat.eqb i j); cbn [andb]; [|lia].
      destruct (q_on q); cbn [Bool.eqb List.length]; lia.
Qed.

Lemma CInv_init : CInv p_init.
Proof. intros k i []. Qed.

End WithLib.
