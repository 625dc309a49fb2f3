(** *** C59: evaluating a candidate and the data it is evaluated on *)
From Coq Require Import QArith Lqa.
From Verif Require Import Base Trees SgaTree SgaSpec SgaTreeFacts SgaGenFacts SgaEval SgaDivide.
Local Open Scope nat_scope.

(** ** The shifted divisor *)
Definition nonpos (y : list Q) : nat := List.length (filter (fun q => Qle_bool q 0) y).
Lemma nonpos_le y : nonpos y <= List.length y.
Proof. unfold nonpos. induction y as [|q y IH]; cbn [filter List.length]; [lia|]. destruct (Qle_bool q 0); cbn [List.length]; lia. Qed.
Lemma eta_pos : (0 < eta)%Q.
Proof. reflexivity. Qed.
Lemma nonpos_shift y : nonpos (map (fun q => (q + eta)%Q) y) <= nonpos y.
Proof.
  unfold nonpos. induction y as [|q y IH]; cbn [map filter List.length]; [lia|].
  destruct (Qle_bool (q + eta) 0) eqn:A, (Qle_bool q 0) eqn:B; cbn [List.length]; try lia.
  apply Qle_bool_iff in A. assert (q <= 0)%Q as X by (pose proof eta_pos; lra). apply Qle_bool_iff in X. congruence.
Qed.
Lemma nonpos_decr y : any_zero y = true -> nonpos (map (fun q => (q + eta)%Q) y) < nonpos y.
Proof.
  unfold nonpos. induction y as [|q y IH]; cbn [map filter List.length any_zero existsb]; [discriminate|].
  rewrite orb_true_iff. intros [Z|Z].
  - apply Qeq_bool_iff in Z. assert (Qle_bool q 0 = true) as -> by (apply Qle_bool_iff; lra).
    destruct (Qle_bool (q + eta) 0) eqn:A; [apply Qle_bool_iff in A; pose proof eta_pos; lra|]. cbn [List.length].
    pose proof (nonpos_shift y). unfold nonpos in *. lia.
  - specialize (IH Z). destruct (Qle_bool (q + eta) 0) eqn:A, (Qle_bool q 0) eqn:B; cbn [List.length]; try lia.
    apply Qle_bool_iff in A. assert (q <= 0)%Q as X by (pose proof eta_pos; lra). apply Qle_bool_iff in X. congruence.
Qed.
Lemma shift_loop_done : forall f y, nonpos y <= f -> any_zero (shift_loop f y) = false.
Proof.
  induction f as [|f IH]; intros y H; cbn [shift_loop]; destruct (any_zero y) eqn:Z; auto.
  - pose proof (nonpos_decr y Z). lia.
  - apply IH. pose proof (nonpos_decr y Z). lia.
Qed.
Lemma shift_loop_form : forall f y, exists m, m <= f /\ Forall2 (fun a b => (b == a + inject_Z (Z.of_nat m) * eta)%Q) y (shift_loop f y).
Proof.
  assert (R : forall y, Forall2 (fun a b => (b == a + inject_Z (Z.of_nat 0) * eta)%Q) y y).
  { induction y; constructor; auto. change (inject_Z (Z.of_nat 0)) with 0%Q. ring. }
  induction f as [|f IH]; intros y; cbn [shift_loop].
  - exists 0. split; [lia|]. destruct (any_zero y); apply R.
  - destruct (any_zero y); [|exists 0; split; [lia|apply R]]. destruct (IH (map (fun q => (q + eta)%Q) y)) as (m & L & F). exists (Datatypes.S m). split; [lia|].
    remember (map (fun q => (q + eta)%Q) y) as z eqn:E. revert y E. induction F as [|a b z w H F IHF]; intros [|q y] E; try discriminate; constructor.
    + cbn [map] in E. injection E as -> _. rewrite H, Nat2Z.inj_succ, <- Z.add_1_l, inject_Z_plus. change (inject_Z 1) with 1%Q. ring.
    + apply IHF. cbn [map] in E. now injection E.
Qed.
(** The division loop ends within as many rounds as there are entries, and leaves no zero. *)
Theorem C59_shift_no_zero y : Forall (fun q => ~ (q == 0)%Q) (shift_q y).
Proof.
  pose proof (shift_loop_done (List.length y) y (nonpos_le y)) as H. fold (shift_q y) in H. revert H. unfold any_zero. generalize (shift_q y) as z.
  induction z as [|q z IH]; cbn [existsb]; intros H; constructor; apply orb_false_iff in H; destruct H as [H1 H2].
  - intros E. apply Qeq_bool_iff in E. congruence.
  - auto.
Qed.
(** What it adds is the same multiple of 1e-10 on every entry, at most one per entry. *)
Theorem C59_shift_bound y : exists m, m <= List.length y /\ Forall2 (fun a b => (b == a + inject_Z (Z.of_nat m) * (1 # 10000000000))%Q) y (shift_q y).
Proof. apply shift_loop_form. Qed.
Theorem C59_shift_id y : Forall (fun q => ~ (q == 0)%Q) y -> shift_q y = y.
Proof.
  intros H. assert (Z : any_zero y = false).
  { unfold any_zero. induction H as [|q y Hq H IH]; cbn [existsb]; [reflexivity|]. rewrite IH, orb_false_r. destruct (Qeq_bool q 0) eqn:E; [|reflexivity]. apply Qeq_bool_iff in E. contradiction. }
  unfold shift_q. destruct (List.length y); cbn [shift_loop]; now rewrite Z.
Qed.
Example C59_shift_example : Forall2 Qeq (shift_q [0; - eta; 1]%Q) [2 * eta; eta; 1 + 2 * eta]%Q.
Proof. vm_compute. repeat constructor. Qed.

Section C59.
Context {V : Type}.
Variables (f1 : ent -> V -> V) (f2 : ent -> V -> V -> V) (diffop : ent -> V -> string -> V) (known : string -> bool)
          (lhs : string) (zeroish : V -> bool) (pert : V -> V) (guard : bool) (nonzero : V -> bool) (hz : V -> bool) (shift : V -> V).
Notation store := (ent -> V).
Notation eval_node_s := (eval_node_s f1 f2 diffop known lhs zeroish pert guard hz shift).
Notation eval_nodes_s := (eval_nodes_s f1 f2 diffop known lhs zeroish pert guard hz shift).
Notation eval_levels_s := (eval_levels_s f1 f2 diffop known lhs zeroish pert guard hz shift).
Notation eval_term_s := (eval_term_s f1 f2 diffop known lhs zeroish pert guard nonzero hz shift).
Notation eval_all_s := (eval_all_s f1 f2 diffop known lhs zeroish pert guard nonzero hz shift).
Notation divide_effect := (divide_effect hz shift).

(** ** With no zero in the data the arrays are never written *)
Definition lift {A} (S : store) (r : res A) : res (A * store) := match r with Ok x => Ok (x, S) | Err e => Err e end.
Section NoZero.
Variable S : store.
Hypothesis NZ : forall e, hz (S e) = false.
Lemma effect_none n k : divide_effect S n k = S.
Proof. unfold SgaDivide.divide_effect. destruct k; [reflexivity|]. now rewrite NZ, andb_false_r. Qed.
Lemma node_pure n k B Bc : eval_node_s n k B Bc S = lift S (eval_node S f1 f2 diffop known lhs zeroish pert guard n k B Bc).
Proof.
  unfold SgaDivide.eval_node_s, eval_node. destruct (Nat.eqb (nar n) 0); [reflexivity|]. destruct (nst n) as [st|]; [|reflexivity].
  destruct (Nat.eqb (nar n) 1).
  - destruct (child B Bc st); [|reflexivity]. cbn [bind]. destruct (operand _ _ _); [|reflexivity]. cbn [bind]. destruct k; reflexivity.
  - destruct (Nat.eqb (nar n) 2); [|reflexivity]. destruct (child B Bc st) as [c1|]; [|reflexivity]. cbn [bind]. destruct (child B Bc (st + 1)) as [c2|]; [|reflexivity]. cbn [bind].
    destruct (is_d (nname n)).
    + destruct (String.eqb _ lhs); [reflexivity|]. destruct (negb _); [reflexivity|]. destruct (operand _ _ _); [|reflexivity]. cbn [bind]. destruct k; reflexivity.
    + destruct (operand S (fst c1) (snd c1)) as [x|] eqn:E1; [|reflexivity]. cbn [bind]. destruct (operand S (fst c2) (snd c2)) as [y|] eqn:E2; [|reflexivity]. cbn [bind].
      destruct (String.eqb (nname n) "/"); cbn [andb].
      * destruct (zeroish y); cbn [andb].
        -- destruct guard; [reflexivity|]. destruct k; reflexivity.
        -- destruct k; [reflexivity|]. cbv zeta. rewrite effect_none, E1. cbn [bind]. rewrite E2. reflexivity.
      * destruct k; reflexivity.
Qed.
Lemma nodes_pure B : forall U Uc Bc, eval_nodes_s U Uc B Bc S = lift S (eval_nodes S f1 f2 diffop known lhs zeroish pert guard U Uc B Bc).
Proof.
  induction U as [|n U IH]; intros [|k Uc] Bc; cbn [SgaDivide.eval_nodes_s eval_nodes]; try reflexivity.
  rewrite node_pure. destruct (eval_node _ _ _ _ _ _ _ _ _ _ _ _ _) as [[[k' Bc']|]|]; cbn [lift bind]; try reflexivity.
  rewrite IH. destruct (eval_nodes _ _ _ _ _ _ _ _ _ _ _ _ _) as [[[ks B2]|]|]; reflexivity.
Qed.
Lemma levels_pure : forall ls cs, eval_levels_s ls cs S = lift S (eval_levels S f1 f2 diffop known lhs zeroish pert guard ls cs).
Proof.
  induction ls as [|L rest IH]; intros [|C crest]; cbn [SgaDivide.eval_levels_s eval_levels]; try reflexivity.
  rewrite IH. destruct (eval_levels _ _ _ _ _ _ _ _ _ rest crest) as [[crest'|]|]; cbn [lift bind]; try reflexivity.
  destruct rest as [|[|b B] rest]; try reflexivity. destruct crest' as [|Bc more]; try reflexivity.
  rewrite nodes_pure. destruct (eval_nodes _ _ _ _ _ _ _ _ _ _ _ _ _) as [[[C' Bc']|]|]; reflexivity.
Qed.
End NoZero.
(** Data without a zero: every term, whatever its caches, is evaluated as in the model with
    immutable arrays (C23), and the data are unchanged. *)
Theorem C59_no_zero (S : store) t : (forall e, hz (S e) = false) ->
  eval_term_s t S = match eval_term S f1 f2 diffop known lhs zeroish pert guard nonzero t with Ok r => Ok (r, S) | Err e => Err e end.
Proof.
  intros NZ. unfold SgaDivide.eval_term_s, eval_term. rewrite (levels_pure S NZ). destruct (eval_levels _ _ _ _ _ _ _ _ _ _ _) as [[[|[|[v|] c0] cs]|]|]; try reflexivity.
  cbn [lift bind]. destruct (nonzero v); reflexivity.
Qed.

(** ** The first evaluation of new terms works on private copies *)
Definition priv (p : nat) (B : list node) (Bc : list (option V)) : Prop :=
  forall i n k, p <= i -> nth_error B i = Some n -> nth_error Bc i = Some k -> nar n = 0 -> k <> None.
Lemma set_at_nth {A} (l : list A) : forall i x j, i <> j -> nth_error (set_at l i x) j = nth_error l j.
Proof. induction l as [|a l IH]; intros [|i] x [|j] H; cbn; try reflexivity; try congruence. apply IH. congruence. Qed.
Lemma priv_set p q B Bc i x : priv p B Bc -> p <= q -> i < q -> priv q B (set_at Bc i x).
Proof. intros H L I j n k Lj Eb Ec. rewrite set_at_nth in Ec by lia. apply (H j n k); auto; lia. Qed.
Lemma priv_mono p q B Bc : priv p B Bc -> p <= q -> priv q B Bc.
Proof. intros H L j n k Lj. apply H. lia. Qed.
Lemma node_fresh p n k B Bc S r S' : (0 < nar n -> nst n = Some p) -> priv p B Bc -> eval_node_s n k B Bc S = Ok (r, S') ->
  S' = S /\ match r with Some (k', Bc') => priv (p + nar n) B Bc' /\ (nar n = 0 -> k' = k) | None => True end.
Proof.
  intros Hst P. unfold SgaDivide.eval_node_s. destruct (Nat.eqb_spec (nar n) 0) as [Z|Z].
  - intros [= <- <-]. rewrite Z, Nat.add_0_r. auto.
  - rewrite Hst by lia. destruct (Nat.eqb_spec (nar n) 1) as [O|O].
    + destruct (child B Bc p) as [c1|]; [|discriminate]. cbn [bind]. destruct (operand _ _ _); [|discriminate]. cbn [bind]. destruct k; [discriminate|]. intros [= <- <-]. split; [reflexivity|]. split; [|lia].
      eapply priv_set; eauto; lia.
    + destruct (Nat.eqb_spec (nar n) 2) as [T|T].
      2: { intros [= <- <-]. split; [reflexivity|]. split; [eapply priv_mono; eauto; lia|lia]. }
      assert (PR : priv (p + nar n) B (set_at (set_at Bc p None) (p + 1) None)).
      { eapply priv_set with (p := p + 1); [eapply priv_set; [exact P|lia|lia]|lia|lia]. }
      destruct (child B Bc p) as [c1|]; [|discriminate]. cbn [bind]. destruct (child B Bc (p + 1)) as [[n2 k2]|] eqn:C2; [|discriminate]. cbn [bind fst snd].
      destruct (is_d (nname n)).
      * destruct (String.eqb _ lhs); [intros [= <- <-]; auto|]. destruct (negb _); [discriminate|]. destruct (operand _ _ _); [|discriminate]. cbn [bind]. destruct k; [discriminate|].
        intros [= <- <-]. split; [reflexivity|]. split; [exact PR|lia].
      * destruct (operand S (fst c1) (snd c1)) as [x|] eqn:E1; [|discriminate]. cbn [bind]. destruct (operand S n2 k2) as [y|] eqn:E2; [|discriminate]. cbn [bind].
        destruct (String.eqb (nname n) "/" && zeroish y && guard); [intros [= <- <-]; auto|]. destruct k; [discriminate|].
        destruct (String.eqb (nname n) "/"); [|intros [= <- <-]; split; [reflexivity|]; split; [exact PR|lia]].
        destruct (zeroish y); [intros [= <- <-]; split; [reflexivity|]; split; [exact PR|lia]|].
        assert (DE : divide_effect S n2 k2 = S).
        { unfold SgaDivide.divide_effect. destruct k2 as [v2|]; [reflexivity|]. destruct (Nat.eqb_spec (nar n2) 0) as [A|A]; [|reflexivity]. exfalso.
          unfold child in C2. destruct (nth_error B (p + 1)) eqn:N1; [|discriminate]. destruct (nth_error Bc (p + 1)) eqn:N2; [|discriminate]. injection C2 as -> ->.
          apply (P (p + 1) n2 None); auto; lia. }
        cbv zeta. rewrite DE, E1. cbn [bind]. rewrite E2. cbn [bind]. intros [= <- <-]. split; [reflexivity|]. split; [exact PR|lia].
Qed.
Lemma nodes_fresh B : forall U Uc Bc p S r S', SgaTreeFacts.starts p U -> priv p B Bc -> eval_nodes_s U Uc B Bc S = Ok (r, S') ->
  S' = S /\ match r with Some (ks, _) => forall d, priv 0 (repeat d 0 ++ U) Uc -> priv 0 U ks | None => True end.
Proof.
  induction U as [|n U IH]; intros [|k Uc] Bc p S r S' St P; cbn [SgaDivide.eval_nodes_s]; try (intros [= <- <-]; split; [reflexivity|auto]).
  destruct St as [St1 St2]. destruct (eval_node_s n k B Bc S) as [[[[k' Bc']|] S1]|] eqn:E; [|cbn [bind]|discriminate].
  - apply (node_fresh p) in E; [|exact St1|exact P]. destruct E as (-> & P' & K). cbn [bind].
    destruct (eval_nodes_s U Uc B Bc' S) as [[r2 S2]|] eqn:E2; [|discriminate]. cbn [bind fst snd]. apply (IH _ _ (p + nar n)) in E2; [|exact St2|exact P']. destruct E2 as (-> & H).
    intros [= <- <-]. split; [reflexivity|]. destruct r2 as [[ks B2]|]; [|exact I]. intros d Q. specialize (H d).
    intros [|i] m kk _ Em Ek Z; cbn in Em, Ek.
    + injection Em as <-. injection Ek as <-. rewrite (K Z). apply (Q 0 n k); auto.
    + revert Ek Z. apply (H (fun i n0 k0 L Eb Ec => Q (Datatypes.S i) n0 k0 ltac:(lia) Eb Ec) i m kk); auto. lia.
  - apply (node_fresh p) in E; [|exact St1|exact P]. destruct E as (-> & _). intros [= <- <-]. auto.
Qed.
Lemma levels_fresh c : forall ls cs S r S', wf_levels c ls -> Forall2 (priv 0) ls cs -> eval_levels_s ls cs S = Ok (r, S') ->
  S' = S /\ match r with Some cs' => match ls, cs' with L :: _, C :: _ => priv 0 L C | _, _ => True end | None => True end.
Proof.
  induction ls as [|L rest IH]; intros cs S r S' W F; inversion F as [|? C ? crest P F']; subst; cbn [SgaDivide.eval_levels_s]; [intros [= <- <-]; auto|].
  destruct W as (W1 & _ & W3). destruct (eval_levels_s rest crest S) as [[[crest'|] S1]|] eqn:E; cbn [bind]; [| |discriminate].
  - apply IH in E; auto. destruct E as (-> & H). destruct rest as [|[|b B] rest]; [intros [= <- <-]; auto|destruct crest'; intros [= <- <-]; auto|].
    destruct crest' as [|Bc more]; [intros [= <- <-]; auto|].
    destruct (eval_nodes_s L C (b :: B) Bc S) as [[x S2]|] eqn:E2; [|discriminate]. cbn [bind fst snd]. apply (nodes_fresh (b :: B)) with (p := 0) in E2; auto. destruct E2 as (-> & K).
    intros [= <- <-]. split; [reflexivity|]. destruct x as [[C' Bc']|]; [|exact I]. apply (K b P).
  - apply IH in E; auto. destruct E as (-> & _). intros [= <- <-]. auto.
Qed.
Lemma new_priv (S : store) ls : Forall2 (priv 0) ls (map (map (fun n => if Nat.eqb (nar n) 0 then Some (S (nent n)) else None)) ls).
Proof.
  induction ls as [|L ls IH]; cbn [map]; constructor; auto. intros i n k _ Eb Ec Z. rewrite nth_error_map, Eb in Ec. cbn in Ec. rewrite Z in Ec. cbn in Ec. injection Ec as <-. discriminate.
Qed.
(** Scoring a candidate made of newly generated terms never changes the data. *)
Theorem C59_first_evaluation c max_depth ss (S S' : store) r : ctx_ok c -> sane c -> 2 <= max_depth -> Forall (evolved c max_depth) ss ->
  eval_all_s (map (fun s => new_term S (t_levels s)) ss) S = Ok (r, S') -> S' = S.
Proof.
  intros Hc Hs Hm. revert r S'. enough (G : forall S0 r S', Forall (evolved c max_depth) ss -> eval_all_s (map (fun s => new_term S (t_levels s)) ss) S0 = Ok (r, S') -> S' = S0) by (intros; eapply G; eauto).
  induction ss as [|s ss IH]; intros S0 r S' H; cbn [map SgaDivide.eval_all_s]; [now intros [= <- <-]|].
  pose proof (Forall_inv H) as H1. pose proof (Forall_inv_tail H) as H2.
  destruct (eval_term_s (new_term S (t_levels s)) S0) as [[r1 S1]|] eqn:E; [|discriminate]. cbn [bind fst snd].
  assert (S1 = S0) as ->.
  { destruct (evolved_wf c max_depth s Hc Hs Hm H1) as (rt & ls & T & W & _). unfold SgaDivide.eval_term_s, new_term in E. cbn [tm_levels tm_caches] in E. rewrite T in E.
    destruct (eval_levels_s _ _ S0) as [[x S2]|] eqn:E2; [|discriminate]. cbn [bind] in E. apply (levels_fresh c) in E2; [|exact W|apply new_priv]. destruct E2 as (-> & _).
    destruct x as [[|[|[v|] c0] cs]|]; try discriminate; now injection E. }
  destruct (eval_all_s _ S0) as [[r2 S2]|] eqn:E2; [|discriminate]. cbn [bind fst snd]. intros [= <- <-]. eapply IH; eauto.
Qed.

(** ** What the data can become *)
Hypothesis shift_clears : forall v, hz (shift v) = false.
Definition drift (S S' : store) : Prop := forall e, S' e = S e \/ (hz (S e) = true /\ S' e = shift (S e)).
Lemma drift_refl S : drift S S. Proof. intros e. now left. Qed.
Lemma drift_trans S1 S2 S3 : drift S1 S2 -> drift S2 S3 -> drift S1 S3.
Proof.
  intros A B e. destruct (A e) as [A1|[A1 A2]], (B e) as [B1|[B1 B2]].
  - left. congruence.
  - right. rewrite A1 in *. auto.
  - right. split; congruence.
  - rewrite A2, shift_clears in B1. discriminate.
Qed.
Lemma ent_eqb_eq a b : ent_eqb a b = true -> a = b.
Proof.
  unfold ent_eqb. rewrite !andb_true_iff. intros [[A B] C]. apply String.eqb_eq in A. apply Nat.eqb_eq in B, C. destruct a, b; cbn in *. congruence.
Qed.
Lemma effect_drift S n k : drift S (divide_effect S n k).
Proof.
  unfold SgaDivide.divide_effect. destruct k; [apply drift_refl|]. destruct (Nat.eqb (nar n) 0 && hz (S (nent n))) eqn:E; [|apply drift_refl]. apply andb_true_iff in E as [_ E].
  intros e. unfold upd. destruct (ent_eqb e (nent n)) eqn:Q; [|now left]. apply ent_eqb_eq in Q. subst. auto.
Qed.
Lemma node_drift n k B Bc S r S' : eval_node_s n k B Bc S = Ok (r, S') -> drift S S'.
Proof.
  unfold SgaDivide.eval_node_s. destruct (Nat.eqb (nar n) 0); [intros [= <- <-]; apply drift_refl|]. destruct (nst n) as [st|]; [|discriminate].
  destruct (Nat.eqb (nar n) 1).
  - destruct (child B Bc st); [|discriminate]. cbn [bind]. destruct (operand _ _ _); [|discriminate]. cbn [bind]. destruct k; [discriminate|]. intros [= <- <-]. apply drift_refl.
  - destruct (Nat.eqb (nar n) 2); [|intros [= <- <-]; apply drift_refl]. destruct (child B Bc st) as [c1|]; [|discriminate]. cbn [bind]. destruct (child B Bc (st + 1)) as [c2|]; [|discriminate]. cbn [bind].
    destruct (is_d (nname n)).
    + destruct (String.eqb _ lhs); [intros [= <- <-]; apply drift_refl|]. destruct (negb _); [discriminate|]. destruct (operand _ _ _); [|discriminate]. cbn [bind]. destruct k; [discriminate|]. intros [= <- <-]. apply drift_refl.
    + destruct (operand S (fst c1) (snd c1)); [|discriminate]. cbn [bind]. destruct (operand S (fst c2) (snd c2)) as [y|]; [|discriminate]. cbn [bind].
      destruct (String.eqb (nname n) "/" && zeroish y && guard); [intros [= <- <-]; apply drift_refl|]. destruct k; [discriminate|].
      destruct (String.eqb (nname n) "/"); [|intros [= <- <-]; apply drift_refl]. destruct (zeroish y); [intros [= <- <-]; apply drift_refl|]. cbv zeta.
      destruct (operand _ (fst c1) _); [|discriminate]. cbn [bind]. destruct (operand _ (fst c2) _); [|discriminate]. cbn [bind]. intros [= <- <-]. apply effect_drift.
Qed.
Lemma nodes_drift B : forall U Uc Bc S r S', eval_nodes_s U Uc B Bc S = Ok (r, S') -> drift S S'.
Proof.
  induction U as [|n U IH]; intros [|k Uc] Bc S r S'; cbn [SgaDivide.eval_nodes_s]; try (intros [= <- <-]; apply drift_refl).
  destruct (eval_node_s n k B Bc S) as [[[[k' Bc']|] S1]|] eqn:E; cbn [bind]; [| |discriminate]; apply node_drift in E; [|intros [= <- <-]; exact E].
  destruct (eval_nodes_s U Uc B Bc' S1) as [[x S2]|] eqn:E2; [|discriminate]. cbn [bind fst snd]. intros [= <- <-]. eapply drift_trans; eauto.
Qed.
Lemma levels_drift : forall ls cs S r S', eval_levels_s ls cs S = Ok (r, S') -> drift S S'.
Proof.
  induction ls as [|L rest IH]; intros [|C crest] S r S'; cbn [SgaDivide.eval_levels_s]; try (intros [= <- <-]; apply drift_refl).
  destruct (eval_levels_s rest crest S) as [[[crest'|] S1]|] eqn:E; cbn [bind]; [| |discriminate]; apply IH in E; [|intros [= <- <-]; exact E].
  destruct rest as [|[|b B] rest]; [intros [= <- <-]; exact E|destruct crest'; intros [= <- <-]; exact E|].
  destruct crest' as [|Bc more]; [intros [= <- <-]; exact E|].
  destruct (eval_nodes_s L C (b :: B) Bc S1) as [[x S2]|] eqn:E2; [|discriminate]. cbn [bind fst snd]. apply nodes_drift in E2. intros [= <- <-]. eapply drift_trans; eauto.
Qed.
Lemma term_drift t S r S' : eval_term_s t S = Ok (r, S') -> drift S S'.
Proof.
  unfold SgaDivide.eval_term_s. destruct (eval_levels_s _ _ S) as [[x S1]|] eqn:E; [|discriminate]. cbn [bind]. apply levels_drift in E. destruct x as [[|[|[v|] c0] cs]|]; try discriminate; intros [= <- <-]; exact E.
Qed.
(** A history of evaluations of any terms in any cache state. *)
Inductive evaluations : store -> store -> Prop :=
| ev_none S : evaluations S S
| ev_more S ts r S1 S2 : eval_all_s ts S = Ok (r, S1) -> evaluations S1 S2 -> evaluations S S2.
Lemma all_drift : forall ts S r S', eval_all_s ts S = Ok (r, S') -> drift S S'.
Proof.
  induction ts as [|t ts IH]; intros S r S'; cbn [SgaDivide.eval_all_s]; [intros [= <- <-]; apply drift_refl|].
  destruct (eval_term_s t S) as [[r1 S1]|] eqn:E; [|discriminate]. cbn [bind fst snd]. destruct (eval_all_s ts S1) as [[r2 S2]|] eqn:E2; [|discriminate]. cbn [bind fst snd]. intros [= <- <-].
  apply term_drift in E. eapply drift_trans; eauto.
Qed.
(** After any number of evaluations every array is the original one or the original one shifted
    once (and only if it had a zero): the drift does not accumulate. *)
Theorem C59_drift (S S' : store) : evaluations S S' -> forall e, S' e = S e \/ (hz (S e) = true /\ S' e = shift (S e)).
Proof. induction 1 as [S|S ts r S1 S2 E H IH]; [apply drift_refl|]. eapply drift_trans; [eapply all_drift; exact E|exact IH]. Qed.
End C59.

(** The hypothesis of [C59_drift] holds of the actual loop. *)
Example C59_drift_example : (forall y, any_zero (shift_q y) = false) /\ any_zero [0; 1]%Q = true.
Proof. split; [intros y; apply shift_loop_done, nonpos_le|reflexivity]. Qed.

(** ** A candidate's value depends on what was evaluated before it *)
Definition vmap2 (f : Q -> Q -> Q) (x y : list Q) : list Q := map (fun p => f (fst p) (snd p)) (combine x y).
Definition fq1 (e : ent) (x : list Q) : list Q := vmap2 Qmult x x.
Definition fq2 (e : ent) (x y : list Q) : list Q :=
  if String.eqb (ename e) "/" then vmap2 Qdiv x (shift_q y) else vmap2 Qmult x y.
Definition small (y : list Q) : bool := forallb (fun q => Qle_bool q eta && Qle_bool (- eta)%Q q) y.
Definition eval_q := @eval_all_s (list Q) fq1 fq2 (fun _ x _ => x) (fun _ => true) "t" small (map (fun q => q + (1 # 1000000))%Q) false
  (fun v => existsb (fun q => negb (Qeq_bool q 0)) v) any_zero shift_q.
Definition data0 (e : ent) : list Q := if String.eqb (ename e) "u" then [0; 1]%Q else [1; 2]%Q.
Definition nd (e : ent) (st : option nat) (p : nat) := mkNode e st 0 p.
Definition x_over_u := [[nd (op "/" 2) (Some 0) 0]; [nd (mkEnt "x" 0 1) None 0; nd (mkEnt "u" 0 0) None 0]].
Definition u_squared := [[nd (op "^2" 1) (Some 0) 0]; [nd (mkEnt "u" 0 0) None 0]].
(** [u^2] scored on the data, and after [x / u] was scored twice: the first scoring leaves the
    array of u alone, the second one changes it, and with it the column of [u^2]. *)
Theorem C59_refuted :
  match eval_q [new_term data0 x_over_u] data0 with
  | Ok (first, S1) => Forall2 Qeq (S1 (mkEnt "u" 0 0)) (data0 (mkEnt "u" 0 0)) /\
      match eval_q (snd first) S1 with
      | Ok (_, S2) => ~ Forall2 Qeq (S2 (mkEnt "u" 0 0)) (data0 (mkEnt "u" 0 0)) /\
          match eval_q [new_term data0 u_squared] data0, eval_q [new_term S2 u_squared] S2 with
          | Ok (([Some before], _), _), Ok (([Some after], _), _) => ~ Forall2 Qeq after before
          | _, _ => False
          end
      | Err _ => False
      end
  | Err _ => False
  end.
Proof.
  vm_compute. repeat split; repeat constructor; intros H; inversion H; discriminate.
Qed.
Print Assumptions C59_shift_no_zero.
Print Assumptions C59_shift_bound.
Print Assumptions C59_shift_id.
Print Assumptions C59_no_zero.
Print Assumptions C59_first_evaluation.
Print Assumptions C59_drift.
Print Assumptions C59_refuted.
