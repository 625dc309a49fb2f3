(** C128: the loss the policy network is trained with. *)
From Coq Require Import QArith Lqa.
From Verif Require Import Base Num Library Subroutines Prior PriorSpec PriorFacts EqGpt Controller ExampleLib PropsController PropsControllerPolicy.
Local Open Scope nat_scope.
Local Open Scope list_scope.

(** ** Specification *)
Fixpoint qsum (l : list Q) : Q := match l with [] => 0%Q | x :: r => (x + qsum r)%Q end.
Definition qmean (l : list Q) : Q := (qsum l / inject_Z (Z.of_nat (List.length l)))%Q.
(** The value is the rational [q]. *)
Definition is_q (a : num) (q : Q) : Prop := exists x, a = Fin x /\ (x == q)%Q.

(** ** Arithmetic *)
Lemma q_fin q : is_q (Fin q) q. Proof. exists q. split; [reflexivity|apply Qeq_refl]. Qed.
Lemma q_ext a q r : is_q a q -> (q == r)%Q -> is_q a r.
Proof. intros (x & -> & E) E'. exists x. split; [reflexivity|]. rewrite E. exact E'. Qed.
Lemma q_add a b x y : is_q a x -> is_q b y -> is_q (nadd a b) (x + y)%Q.
Proof. intros (u & -> & E1) (v & -> & E2). exists (u + v)%Q. split; [reflexivity|]. rewrite E1, E2. apply Qeq_refl. Qed.
Lemma q_mul a b x y : is_q a x -> is_q b y -> is_q (nmul a b) (x * y)%Q.
Proof. intros (u & -> & E1) (v & -> & E2). exists (u * v)%Q. split; [reflexivity|]. rewrite E1, E2. apply Qeq_refl. Qed.
Lemma q_neg a x : is_q a x -> is_q (nneg a) (- x)%Q.
Proof. intros E. eapply q_ext; [apply q_mul; [apply q_fin|exact E]|]. ring. Qed.
Lemma q_sum l qs : Forall2 is_q l qs -> is_q (nsum l) (qsum qs).
Proof. induction 1; [apply q_fin|]. cbn [nsum fold_right qsum]. apply q_add; assumption. Qed.
Lemma q_mean l qs : l <> [] -> Forall2 is_q l qs -> is_q (nmean l) (qmean qs).
Proof.
  intros Hne HF. destruct (q_sum _ _ HF) as (x & E1 & E2). unfold nmean, qmean. rewrite E1.
  assert (List.length l = List.length qs) as EL by (clear -HF; induction HF; cbn; congruence). rewrite EL.
  assert (~ inject_Z (Z.of_nat (List.length qs)) == 0)%Q as N.
  { rewrite <- EL. destruct l; [congruence|]. unfold Qeq. cbn [List.length inject_Z Qnum Qden]. lia. }
  cbn [ndiv]. destruct (Qeq_bool _ 0) eqn:Eq; [apply Qeq_bool_iff in Eq; contradiction|]. eexists. split; [reflexivity|]. rewrite E2. apply Qeq_refl.
Qed.
Lemma q_fun a q r : is_q a q -> is_q a r -> (q == r)%Q.
Proof. intros (x & -> & E1) (y & [= <-] & E2). rewrite <- E1. exact E2. Qed.

(** sum of products where the second factor is 1 up to [len] and 0 from there on *)
Lemma masked_sum (c : nat -> num) (v : nat -> Q) (w : nat -> Q) len n : len <= n ->
  (forall t, t < n -> is_q (c t) (v t)) ->
  is_q (nsum (map (fun t => nmul (c t) (nmul (Fin (w t)) (if t <? len then Fin 1 else Fin 0))) (seq 0 n)))
       (qsum (map (fun t => v t * w t)%Q (seq 0 len))).
Proof.
  intros Hl Hc.
  assert (forall k i, i + k <= n -> is_q (nsum (map (fun t => nmul (c t) (nmul (Fin (w t)) (if t <? len then Fin 1 else Fin 0))) (seq i k)))
            (qsum (map (fun t => v t * w t * (if (t <? len)%nat then 1 else 0))%Q (seq i k)))) as G.
  { induction k as [|k IH]; intros i Hi; [apply q_fin|]. cbn [seq map nsum fold_right qsum]. apply q_add; [|apply IH; lia].
    eapply q_ext; [apply (q_mul _ _ (v i) (w i * (if i <? len then 1 else 0))%Q); [apply Hc; lia|apply q_mul; [apply q_fin|destruct (i <? len); apply q_fin]]|ring]. }
  eapply q_ext; [apply G; lia|]. replace n with (len + (n - len)) by lia. rewrite seq_app, map_app. cbn [Nat.add].
  assert (forall a b, qsum (a ++ b) == qsum a + qsum b)%Q as Happ.
  { induction a as [|x a IH]; intros b; cbn [List.app qsum]; [ring|]. rewrite IH. ring. }
  rewrite Happ. assert (forall k i, (len <= i)%nat -> qsum (map (fun t => v t * w t * (if (t <? len)%nat then 1 else 0))%Q (seq i k)) == 0)%Q as Hz.
  { induction k as [|k IH]; intros i Hi; [reflexivity|]. cbn [seq map qsum]. rewrite IH by lia. destruct (Nat.ltb_spec i len); [lia|]. ring. }
  setoid_rewrite (Hz (n - len) len); [|lia]. rewrite Qplus_0_r.
  assert (forall k i, (i + k <= len)%nat -> qsum (map (fun t => v t * w t * (if (t <? len)%nat then 1 else 0))%Q (seq i k)) == qsum (map (fun t => v t * w t)%Q (seq i k)))%Q as O1.
  { induction k as [|k IH]; intros i Hi; [reflexivity|]. cbn [seq map qsum].
    rewrite IH by lia. destruct (Nat.ltb_spec i len); [|lia]. ring. }
  apply O1. lia.
Qed.
Lemma map2_seq {A B C} (f : A -> B -> C) (la : list A) (lb : list B) da db n : List.length la = n -> List.length lb = n ->
  map2 f la lb = map (fun t => f (nth t la da) (nth t lb db)) (seq 0 n).
Proof.
  intros <-. revert lb. unfold map2. induction la as [|a la IH]; intros [|b lb] E; cbn in E; try discriminate; [reflexivity|].
  cbn [combine map List.length seq fst snd nth]. f_equal. rewrite <- seq_shift, map_map. apply IH. lia.
Qed.

(** cross entropy of a one-hot distribution *)
Lemma hot_entropy a n logq v : a < n -> List.length logq = n -> nth_error logq a = Some (Fin v) ->
  is_q (safe_cross_entropy (hot a n) logq) (- v)%Q.
Proof.
  intros Ha Hn Ev. unfold safe_cross_entropy. apply q_neg.
  rewrite (map2_seq _ (hot a n) logq (Fin 0) (Fin 0) n) by (unfold hot; rewrite ?map_length, ?seq_length; auto).
  assert (forall k i, is_q (nsum (map (fun t => nmul (nth t (hot a n) (Fin 0)) (if num_eqb (nth t (hot a n) (Fin 0)) (Fin 0) then Fin 1 else nth t logq (Fin 0))) (seq i k)))
            (if (i <=? a) && (a <? i + k) then v else 0)%Q) as G.
  { induction k as [|k IH]; intros i.
    - replace ((i <=? a) && (a <? i + 0)) with false by (destruct (Nat.leb_spec i a), (Nat.ltb_spec a (i + 0)); cbn; lia || reflexivity). apply q_fin.
    - cbn [seq map nsum fold_right]. fold (nsum (map (fun t => nmul (nth t (hot a n) (Fin 0)) (if num_eqb (nth t (hot a n) (Fin 0)) (Fin 0) then Fin 1 else nth t logq (Fin 0))) (seq (S i) k))).
      assert (is_q (nmul (nth i (hot a n) (Fin 0)) (if num_eqb (nth i (hot a n) (Fin 0)) (Fin 0) then Fin 1 else nth i logq (Fin 0))) (if i =? a then v else 0)%Q) as H1.
      { destruct (Nat.eqb_spec i a) as [->|Hne].
        - unfold hot. rewrite (nth_indep _ _ ((fun i => if i =? a then Fin 1 else Fin 0) 0)) by (rewrite map_length, seq_length; exact Ha).
          rewrite (map_nth (fun i => if i =? a then Fin 1 else Fin 0)). rewrite List.seq_nth by exact Ha. cbn [Nat.add]. rewrite Nat.eqb_refl.
          replace (num_eqb (Fin 1) (Fin 0)) with false by reflexivity. rewrite (nth_error_nth _ _ _ Ev). eapply q_ext; [apply q_mul; apply q_fin|]. ring.
        - assert (nth i (hot a n) (Fin 0) = Fin 0) as ->.
          { unfold hot. destruct (Nat.lt_ge_cases i n) as [Hi|Hi].
            - rewrite (nth_indep _ _ ((fun i => if i =? a then Fin 1 else Fin 0) 0)) by (rewrite map_length, seq_length; exact Hi).
              rewrite (map_nth (fun i => if i =? a then Fin 1 else Fin 0)). rewrite List.seq_nth by exact Hi. cbn [Nat.add].
              destruct (Nat.eqb_spec i a); [contradiction|reflexivity].
            - apply nth_overflow. rewrite map_length, seq_length. exact Hi. }
          replace (num_eqb (Fin 0) (Fin 0)) with true by reflexivity. eapply q_ext; [apply q_mul; apply q_fin|]. ring. }
      eapply q_ext; [apply q_add; [exact H1|apply IH]|].
      destruct (Nat.eqb_spec i a), (Nat.leb_spec i a), (Nat.leb_spec (S i) a), (Nat.ltb_spec a (S i + k)), (Nat.ltb_spec a (i + S k)); cbn [andb]; try lia; ring. }
  eapply q_ext; [apply (G n 0)|]. cbn [Nat.leb andb Nat.add]. destruct (Nat.ltb_spec a n); [reflexivity|lia].
Qed.

Section Loss.
Variables (H : Type) (cell : H -> list Z -> list Q * H) (zero : H) (lib : library) (m : manager) (max_length : nat).
Variables (softmax log_softmax : list logit -> list num).
Notation logits := (train_logits H cell zero lib m).
Notation neglogp_ent := (neglogp_entropy H cell zero lib m max_length softmax log_softmax).

(** A row as the batch holds it: max_length steps, an action of the library in each, a length of at most max_length. *)
Definition row_ok (r : row) : Prop :=
  List.length (r_actions r) = max_length /\ List.length (r_obs r) = max_length /\ List.length (r_priors r) = max_length /\
  r_len r <= max_length /\ Forall (fun a => a < lL lib) (r_actions r).

Lemma mapM_len {A B} (f : A -> res B) l r : mapM f l = Ok r -> List.length r = List.length l.
Proof.
  revert r. induction l as [|a l IH]; intros r E; cbn in E; [injection E as <-; reflexivity|].
  destruct (f a); cbn in E; [|discriminate]. destruct (mapM f l); cbn in E; [|discriminate]. injection E as <-. cbn. f_equal. apply IH. reflexivity.
Qed.
Lemma unroll_len h xs : List.length (unroll H cell h xs) = List.length xs.
Proof. revert h. induction xs as [|x xs IH]; intros h; cbn [unroll]; [reflexivity|]. destruct (cell h x). cbn. f_equal. apply IH. Qed.
Lemma logits_len r lgs : row_ok r -> logits r = Ok lgs -> List.length lgs = max_length.
Proof.
  intros (R1 & R2 & R3 & _) E. unfold train_logits in E. destruct (mapM _ _) as [xs|] eqn:Ex; cbn [bind] in E; [|discriminate]. injection E as <-.
  unfold map2. rewrite map_length, combine_length, unroll_len, (mapM_len _ _ _ Ex), R2, R3. lia.
Qed.

(** *** C128 *)
(** The negative log probability of a program is the sum over its own tokens (the first [r_len] of the row), the entropy
    the sum discounted by gamma per step - provided every token of the row, padding included, has a finite log
    probability. *)
Theorem C128_neglogp g r lgs (v e : nat -> Q) : row_ok r -> logits r = Ok lgs ->
  (forall lg, In lg lgs -> List.length (log_softmax lg) = lL lib) ->
  (forall t, t < max_length -> nth_error (log_softmax (nth t lgs [])) (nth t (r_actions r) 0) = Some (Fin (v t))) ->
  (forall t, t < max_length -> is_q (safe_cross_entropy (softmax (nth t lgs [])) (log_softmax (nth t lgs []))) (e t)) ->
  exists a b, neglogp_ent g r = Ok (a, b) /\
    is_q a (- qsum (map v (seq 0 (r_len r))))%Q /\
    is_q b (qsum (map (fun t => e t * qpow (match g with Some q => q | None => 1 end) t)%Q (seq 0 (r_len r)))).
Proof.
  intros HR EL Hls Hv He. pose proof (logits_len r lgs HR EL) as Hlen. destruct HR as (R1 & R2 & R3 & R4 & R5).
  unfold neglogp_entropy. rewrite EL. cbn [bind]. eexists _, _. split; [reflexivity|]. split.
  - rewrite (map2_seq nmul (neglogp_steps log_softmax (lL lib) lgs (r_actions r)) (mask max_length (r_len r)) (Fin 0) (Fin 0) max_length).
    2: { unfold neglogp_steps, map2. rewrite map_length, combine_length, Hlen, R1. lia. }
    2: { unfold mask. rewrite map_length, seq_length. reflexivity. }
    assert (forall q, is_q (nsum (map (fun t => nmul (safe_cross_entropy (hot (nth t (r_actions r) 0) (lL lib)) (log_softmax (nth t lgs []))) (nmul (Fin 1) (if t <? r_len r then Fin 1 else Fin 0))) (seq 0 max_length))) q ->
      is_q (nsum (map (fun t => nmul (nth t (neglogp_steps log_softmax (lL lib) lgs (r_actions r)) (Fin 0)) (nth t (mask max_length (r_len r)) (Fin 0))) (seq 0 max_length))) q) as G.
    { intros q Hq. erewrite map_ext_in; [exact Hq|]. intros t Ht. apply in_seq in Ht. cbv beta. f_equal.
      - unfold neglogp_steps. rewrite (map2_seq _ lgs (r_actions r) [] 0 max_length Hlen R1).
        match goal with |- nth t (map ?f _) _ = _ => rewrite (nth_indep _ _ (f 0)) by (rewrite map_length, seq_length; lia); rewrite (map_nth f) end.
        rewrite List.seq_nth by lia. reflexivity.
      - unfold mask. match goal with |- nth t (map ?f _) _ = _ => rewrite (nth_indep _ _ (f 0)) by (rewrite map_length, seq_length; lia); rewrite (map_nth f) end.
        rewrite List.seq_nth by lia. cbn [Nat.add]. destruct (t <? r_len r); reflexivity. }
    apply G. clear G. eapply q_ext; [apply (masked_sum _ (fun t => - v t)%Q (fun _ => 1%Q)); [exact R4|]|].
    + intros t Ht. apply hot_entropy; [|apply Hls; apply nth_In; lia|apply Hv; exact Ht]. rewrite Forall_forall in R5. apply R5. apply nth_In. lia.
    + generalize (seq 0 (r_len r)). induction l as [|x l IH]; cbn [map qsum]; [reflexivity|].
      rewrite IH. ring.
  - rewrite (map2_seq nmul (decay max_length g) (mask max_length (r_len r)) (Fin 0) (Fin 0) max_length) by (unfold decay, mask; rewrite map_length, seq_length; reflexivity).
    rewrite (map2_seq nmul (entropy_steps softmax log_softmax lgs) _ (Fin 0) (Fin 0) max_length).
    2: { unfold entropy_steps. rewrite map_length. exact Hlen. }
    2: { rewrite map_length, seq_length. reflexivity. }
    assert (forall q, is_q (nsum (map (fun t => nmul (safe_cross_entropy (softmax (nth t lgs [])) (log_softmax (nth t lgs []))) (nmul (Fin (qpow (gamma_of g) t)) (if t <? r_len r then Fin 1 else Fin 0))) (seq 0 max_length))) q ->
      is_q (nsum (map (fun t => nmul (nth t (entropy_steps softmax log_softmax lgs) (Fin 0)) (nth t (map (fun t0 => nmul (nth t0 (decay max_length g) (Fin 0)) (nth t0 (mask max_length (r_len r)) (Fin 0))) (seq 0 max_length)) (Fin 0))) (seq 0 max_length))) q) as G.
    { intros q Hq. erewrite map_ext_in; [exact Hq|]. intros t Ht. apply in_seq in Ht. cbv beta. f_equal.
      - unfold entropy_steps. rewrite (nth_indep _ _ ((fun lg => safe_cross_entropy (softmax lg) (log_softmax lg)) [])) by (rewrite map_length; lia).
        rewrite (map_nth (fun lg => safe_cross_entropy (softmax lg) (log_softmax lg))). reflexivity.
      - match goal with |- nth t (map ?f _) _ = _ => rewrite (nth_indep _ _ (f 0)) by (rewrite map_length, seq_length; lia); rewrite (map_nth f) end.
        rewrite List.seq_nth by lia. cbn [Nat.add]. f_equal.
        + unfold decay. match goal with |- nth t (map ?f _) _ = _ => rewrite (nth_indep _ _ (f 0)) by (rewrite map_length, seq_length; lia); rewrite (map_nth f) end.
          rewrite List.seq_nth by lia. reflexivity.
        + unfold mask. match goal with |- nth t (map ?f _) _ = _ => rewrite (nth_indep _ _ (f 0)) by (rewrite map_length, seq_length; lia); rewrite (map_nth f) end.
          rewrite List.seq_nth by lia. reflexivity. }
    apply G. clear G. apply masked_sum; [exact R4|exact He].
Qed.

Lemma unroll_firstn n : forall h xs, firstn n (unroll H cell h xs) = unroll H cell h (firstn n xs).
Proof. induction n as [|n IH]; intros h [|x xs]; try reflexivity. cbn [unroll firstn]. destruct (cell h x). cbn [firstn unroll]. f_equal. apply IH. Qed.
Lemma mapM_firstn {A B} (f : A -> res B) n : forall l r, mapM f l = Ok r -> mapM f (firstn n l) = Ok (firstn n r).
Proof.
  induction n as [|n IH]; intros l r E; [reflexivity|]. destruct l as [|a l]; cbn in E; [injection E as <-; reflexivity|].
  destruct (f a) as [b|] eqn:Ea; cbn in E; [|discriminate]. destruct (mapM f l) as [bs|] eqn:El; cbn in E; [|discriminate]. injection E as <-.
  cbn [firstn mapM]. rewrite Ea. cbn [bind]. rewrite (IH l bs El). reflexivity.
Qed.
(** The logits of the first [n] steps depend only on the first [n] recorded observations and priors. *)
Theorem C128_causal n r1 r2 lgs1 lgs2 : firstn n (r_obs r1) = firstn n (r_obs r2) -> firstn n (r_priors r1) = firstn n (r_priors r2) ->
  logits r1 = Ok lgs1 -> logits r2 = Ok lgs2 -> firstn n lgs1 = firstn n lgs2.
Proof.
  intros Eo Ep E1 E2. unfold train_logits in *.
  destruct (mapM _ (r_obs r1)) as [x1|] eqn:X1; cbn [bind] in E1; [|discriminate]. injection E1 as <-.
  destruct (mapM _ (r_obs r2)) as [x2|] eqn:X2; cbn [bind] in E2; [|discriminate]. injection E2 as <-.
  apply (mapM_firstn _ n) in X1, X2. rewrite Eo in X1. rewrite X2 in X1. injection X1 as X1.
  unfold map2. rewrite !firstn_map. f_equal. rewrite !combine_firstn. rewrite !unroll_firstn, Ep. f_equal. f_equal. symmetry. exact X1.
Qed.
End Loss.

Section TrainLoss.
Variables (H : Type) (cell : H -> list Z -> list Q * H) (zero : H) (lib : library) (m : manager) (max_length : nat).
Variables (softmax log_softmax : list logit -> list num).
Notation neglogp_ent := (neglogp_entropy H cell zero lib m max_length softmax log_softmax).
Notation loss := (train_loss H cell zero lib m max_length softmax log_softmax).

(** The rows of a batch, each with a finite negative log probability and a finite entropy. *)
Definition scored (g : option Q) (rows : list row) (nl en : list Q) : Prop :=
  Forall2 (fun r p => exists a b, neglogp_ent g r = Ok (a, b) /\ is_q a (fst p) /\ is_q b (snd p)) rows (combine nl en) /\
  List.length nl = List.length rows /\ List.length en = List.length rows.
Lemma scored_mapM g rows nl en : scored g rows nl en -> exists ne, mapM (neglogp_ent g) rows = Ok ne /\
  Forall2 is_q (map fst ne) nl /\ Forall2 is_q (map snd ne) en.
Proof.
  intros (HF & L1 & L2). revert nl en L1 L2 HF. induction rows as [|r rows IH]; intros [|x nl] [|y en] L1 L2 HF; cbn in L1, L2; try discriminate.
  - exists []. repeat split; constructor.
  - cbn [combine] in HF. inversion HF as [|? ? ? ? (a & b & E & Ha & Hb) HF']; subst. destruct (IH nl en) as (ne & E1 & E2 & E3); [lia|lia|exact HF'|].
    exists ((a, b) :: ne). cbn [mapM]. rewrite E. cbn [bind]. rewrite E1. cbn [bind map fst snd]. repeat split; constructor; assumption.
Qed.
Lemma weighted rows rw b q ne nl : Forall2 is_q (map r_reward rows) rw -> is_q b q -> Forall2 is_q ne nl -> List.length ne = List.length rows ->
  Forall2 is_q (map2 nmul (map (fun r => nadd (r_reward r) (nneg b)) rows) ne) (map (fun p => (fst p - q) * snd p)%Q (combine rw nl)).
Proof.
  intros H1 Hb. revert rw ne nl H1. induction rows as [|r rows IH]; intros rw ne nl H1 H2 HL.
  - cbn in H1. inversion H1; subst. cbn. constructor.
  - cbn [map] in H1. inversion H1 as [|? w ? rw' Hw H1']; subst. destruct H2 as [|a x ne nl Ha H2]; [discriminate|].
    unfold map2. cbn [map combine fst snd]. constructor; [|apply IH; auto].
    eapply q_ext; [apply q_mul; [apply q_add; [exact Hw|apply q_neg; exact Hb]|exact Ha]|]. cbn [fst snd]. ring.
Qed.
Lemma F2_len {A B} (P : A -> B -> Prop) l1 l2 : Forall2 P l1 l2 -> List.length l1 = List.length l2.
Proof. induction 1; cbn; congruence. Qed.

(** The loss: minus the weighted mean entropy, plus the policy gradient term mean((reward - baseline) * neglogp) when
    priority queue training is off or pqt_use_pg is set, plus the weighted mean neglogp of the queue's batch when it is on. *)
Theorem C128_loss c b q sampled pqt rw nl en nlq enq :
  (c_optimizer c = "adam" \/ c_optimizer c = "sgd")%string -> sampled <> [] -> pqt <> [] ->
  scored (c_entropy_gamma c) sampled nl en -> scored (c_entropy_gamma c) pqt nlq enq ->
  Forall2 is_q (map r_reward sampled) rw -> is_q b q ->
  exists v, loss c b sampled pqt = Ok v /\
    is_q v (- (c_entropy_weight c * qmean en)
            + (if negb (c_pqt c) || c_pqt_use_pg c then qmean (map (fun p => (fst p - q) * snd p) (combine rw nl)) else 0)
            + (if c_pqt c then c_pqt_weight c * qmean nlq else 0))%Q.
Proof.
  intros Ho Hs Hq S1 S2 HR Hb. destruct (scored_mapM _ _ _ _ S1) as (ne & E1 & F1 & F2). destruct (scored_mapM _ _ _ _ S2) as (nq & E3 & F3 & F4).
  assert (List.length ne = List.length sampled) as Lne by (eapply mapM_len; exact E1). assert (List.length nq = List.length pqt) as Lnq by (eapply mapM_len; exact E3).
  assert (ne <> []) as N1 by (destruct ne; [destruct sampled; [congruence|discriminate]|discriminate]).
  assert (nq <> []) as N2 by (destruct nq; [destruct pqt; [congruence|discriminate]|discriminate]).
  unfold train_loss. assert (optimizer_usable c = Ok tt) as -> by (unfold optimizer_usable; destruct Ho as [-> | ->]; reflexivity).
  cbn [bind]. rewrite E1. cbn [bind].
  assert (is_q (nmul (nneg (Fin (c_entropy_weight c))) (nmean (map snd ne))) (- (c_entropy_weight c * qmean en))%Q) as P1.
  { eapply q_ext; [apply q_mul; [apply q_neg; apply q_fin|apply q_mean; [destruct ne; [congruence|discriminate]|exact F2]]|]. ring. }
  assert (is_q (nmean (map2 nmul (map (fun r => nadd (r_reward r) (nneg b)) sampled) (map fst ne))) (qmean (map (fun p => (fst p - q) * snd p)%Q (combine rw nl)))) as P2.
  { apply q_mean; [|apply weighted; auto; rewrite map_length; exact Lne].
    intros C. apply (f_equal (@List.length num)) in C. unfold map2 in C. rewrite map_length, combine_length, !map_length, Lne in C. cbn in C.
    destruct sampled; [congruence|cbn in C; lia]. }
  assert (is_q (nmul (Fin (c_pqt_weight c)) (nmean (map fst nq))) (c_pqt_weight c * qmean nlq)%Q) as P3.
  { apply q_mul; [apply q_fin|apply q_mean; [destruct nq; [congruence|discriminate]|exact F3]]. }
  destruct (c_pqt c); cbn [negb orb andb].
  - rewrite E3. cbn [bind]. destruct (c_pqt_use_pg c); (eexists; split; [reflexivity|]).
    + apply q_add; [apply q_add; assumption|assumption].
    + eapply q_ext; [apply q_add; eassumption|]. ring.
  - eexists. split; [reflexivity|]. eapply q_ext; [apply q_add; eassumption|]. ring.
Qed.
(** With the shipped settings of KD_Discover and of the regression model the loss depends neither on the rewards, nor on
    the baseline, nor on the memory: it is the entropy term alone. *)
Theorem C128_default_ignores_rewards b q sampled pqt rw nl en nlq enq :
  sampled <> [] -> pqt <> [] ->
  scored (Some (7 # 10)) sampled nl en -> scored (Some (7 # 10)) pqt nlq enq ->
  Forall2 is_q (map r_reward sampled) rw -> is_q b q ->
  exists v, loss default_settings b sampled pqt = Ok v /\ is_q v (- ((3 # 100) * qmean en))%Q.
Proof.
  intros Hs Hq S1 S2 HR Hb. destruct (C128_loss default_settings b q sampled pqt rw nl en nlq enq) as (v & E1 & E2); auto. exists v. split; [exact E1|].
  eapply q_ext; [exact E2|]. cbn [default_settings c_entropy_weight c_pqt c_pqt_use_pg c_pqt_weight negb orb]. ring.
Qed.
(** With the shipped settings of KD_Discover_SPR it is the entropy term and the policy gradient. *)
Theorem C128_spr_loss b q sampled pqt rw nl en nlq enq :
  sampled <> [] -> pqt <> [] ->
  scored (Some (7 # 10)) sampled nl en -> scored (Some (7 # 10)) pqt nlq enq ->
  Forall2 is_q (map r_reward sampled) rw -> is_q b q ->
  exists v, loss spr_settings b sampled pqt = Ok v /\
    is_q v (- ((3 # 100) * qmean en) + qmean (map (fun p => (fst p - q) * snd p) (combine rw nl)))%Q.
Proof.
  intros Hs Hq S1 S2 HR Hb. destruct (C128_loss spr_settings b q sampled pqt rw nl en nlq enq) as (v & E1 & E2); auto. exists v. split; [exact E1|].
  eapply q_ext; [exact E2|]. cbn [spr_settings c_entropy_weight c_pqt c_pqt_use_pg c_pqt_weight negb orb]. ring.
Qed.
End TrainLoss.
(** In the policy gradient term a program counts with the excess of its reward over the baseline: making program [i] more
    likely (its neglogp smaller by [d]) changes the term by -(reward - baseline) * d / n, so it pays exactly for programs
    better than the baseline. *)
Theorem C128_credit q rw nl1 x d nl2 rw1 r rw2 : rw = rw1 ++ r :: rw2 -> List.length rw1 = List.length nl1 -> List.length rw2 = List.length nl2 ->
  (qmean (map (fun p => (fst p - q) * snd p) (combine rw (nl1 ++ (x - d) :: nl2))) ==
   qmean (map (fun p => (fst p - q) * snd p) (combine rw (nl1 ++ x :: nl2))) - (r - q) * d / inject_Z (Z.of_nat (List.length rw)))%Q.
Proof.
  intros -> L1 L2. unfold qmean. rewrite !map_length, !combine_length, !app_length. cbn [List.length]. rewrite <- L1, <- L2, !Nat.min_id.
  assert (qsum (map (fun p => (fst p - q) * snd p)%Q (combine (rw1 ++ r :: rw2) (nl1 ++ (x - d)%Q :: nl2))) ==
          qsum (map (fun p => (fst p - q) * snd p)%Q (combine (rw1 ++ r :: rw2) (nl1 ++ x :: nl2))) - (r - q) * d)%Q as E.
  { clear L2. revert nl1 L1. induction rw1 as [|w rw1 IH]; intros [|y nl1] L1; try discriminate.
    - cbn [List.app combine map qsum fst snd]. ring.
    - cbn [List.app combine map qsum fst snd] in *. rewrite IH by (cbn in L1; lia). ring. }
  rewrite E. unfold Qdiv. ring.
Qed.

(** ** Examples: two programs of the tiny library (add, u1, x1), rows of three steps, a cell that counts its inputs *)
Definition tiny_lib : library := mk tiny_toks.
Definition tiny_cell (h : Q) (x : list Z) : list Q * Q := ([h; 0; 1], h + 1)%Q.
Definition tiny_lsm (lg : list logit) : list num := map (fun o => match o with Some q => Fin (q - 2) | None => NInf end) lg.
Definition tiny_sm (lg : list logit) : list num := map (fun o => match o with Some q => Fin (1 # 2) | None => Fin 0 end) lg.
Definition tiny_row (r : Q) (last : logit) : row :=
  mkRow [1; 0; 2] [seen tiny_lib []; seen tiny_lib [1]; seen tiny_lib [1; 0]]
        [repeat (Some 0%Q) 3; repeat (Some 0%Q) 3; [Some 0%Q; Some 0%Q; last]] 1 (Fin r).
Definition tiny_loss c b rows := train_loss Q tiny_cell 0%Q tiny_lib default_manager 3 tiny_sm tiny_lsm c (Fin b) rows rows.
(** The shipped settings give the same loss whatever the rewards; those of KD_Discover_SPR do not. *)
Theorem C128_default_refuted : exists v w x,
  tiny_loss default_settings 0 [tiny_row 1 (Some 0%Q)] = Ok v /\ tiny_loss default_settings 0 [tiny_row (1 # 2) (Some 0%Q)] = Ok w /\ num_eqb v w = true /\
  is_q v (- ((3 # 100) * (5 # 2)))%Q /\
  tiny_loss spr_settings 0 [tiny_row 1 (Some 0%Q)] = Ok x /\ is_q x (- ((3 # 100) * (5 # 2)) + 2)%Q.
Proof. eexists _, _, _. vm_compute. repeat split; eexists; split; reflexivity. Qed.
(** A padding token forbidden by the prior makes the loss NaN although it lies behind the program's end. *)
Theorem C128_forbidden_padding : tiny_loss spr_settings 0 [tiny_row 1 None] = Ok NaN /\
  row_ok tiny_lib 3 (tiny_row 1 None) /\ r_len (tiny_row 1 None) = 1.
Proof. vm_compute. repeat split; repeat constructor. Qed.
Theorem C128_scored_example : exists nl en,
  scored Q tiny_cell 0%Q tiny_lib default_manager 3 tiny_sm tiny_lsm (Some (7 # 10)) [tiny_row 1 (Some 0%Q)] nl en /\
  row_ok tiny_lib 3 (tiny_row 1 (Some 0%Q)).
Proof.
  exists [2%Q], [(5 # 2)%Q]. split; [|vm_compute; repeat split; repeat constructor].
  split; [|split; reflexivity]. constructor; [|constructor]. eexists _, _. split; [vm_compute; reflexivity|].
  split; eexists; (split; [reflexivity|vm_compute; reflexivity]).
Qed.
Print Assumptions C128_neglogp.
Print Assumptions C128_causal.
Print Assumptions C128_loss.
Print Assumptions C128_default_ignores_rewards.
Print Assumptions C128_spr_loss.
Print Assumptions C128_credit.
Print Assumptions C128_default_refuted.
Print Assumptions C128_forbidden_padding.
Print Assumptions C128_scored_example.
