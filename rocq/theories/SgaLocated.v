(** Positions and sizes of well-formed tables; derivatives along the left-hand-side axis. *)
From Verif Require Import Base Trees SgaTree SgaSpec SgaTreeFacts SgaGenFacts SgaEval SgaEvalFacts.

Section Loc.
Variable c : sctx.
Lemma feeds_located i L L' : feeds c i L L' -> forall pre k n j, SgaTreeFacts.starts (List.length pre) L -> nth_error L k = Some n -> j < nar n ->
  exists st x, nst n = Some st /\ nth_error (pre ++ L') (st + j) = Some x /\ npar x = i + k.
Proof.
  induction 1 as [|i m L chunk rest H1 H2 H3 IH]; intros pre k n j S E Hj; [destruct k; discriminate|].
  destruct S as [S1 S2]. pose proof (proj1 H2) as Hl. rewrite map_length in Hl. destruct k as [|k].
  - injection E as ->. exists (List.length pre). destruct (nth_error chunk j) as [x|] eqn:Ex; [|apply nth_error_None in Ex; lia].
    exists x. split; [apply S1; lia|]. split.
    + rewrite nth_error_app2 by lia. replace (List.length pre + j - List.length pre) with j by lia. rewrite nth_error_app1; [assumption|].
      apply nth_error_Some. congruence.
    + rewrite Forall_forall in H1. rewrite Nat.add_0_r. apply H1. eapply nth_error_In; eauto.
  - destruct (IH (pre ++ chunk) k n j) as (st & x & A & B & C); auto.
    + now rewrite app_length, Hl.
    + exists st, x. rewrite <- app_assoc in B. repeat split; auto. lia.
Qed.
Lemma wf_nth ls : wf_levels c ls -> forall d, d < List.length ls ->
  SgaTreeFacts.starts 0 (nth d ls []) /\ feeds c 0 (nth d ls []) (nth (S d) ls []).
Proof.
  induction ls as [|L rest IH]; intros W d Hd; [cbn in Hd; lia|]. destruct W as (W1 & W2 & W3). destruct d as [|d].
  - cbn. split; [assumption|]. destruct rest; exact W2.
  - cbn [nth]. apply IH; [assumption|]. cbn in Hd. lia.
Qed.
Lemma wf_located ls : wf_levels c ls -> located ls.
Proof.
  intros W d i n j E Hj. destruct (Nat.ltb_spec d (List.length ls)) as [Hd|Hd].
  - destruct (wf_nth ls W d Hd) as [S F]. destruct (feeds_located _ _ _ F [] i n j S E Hj) as (st & x & A & B & C). eauto.
  - rewrite nth_overflow in E by assumption. destruct i; discriminate.
Qed.
Lemma wf_sized ls : wf_levels c ls -> sized ls.
Proof.
  intros W d Hd. destruct (wf_nth ls W d Hd) as [S F]. rewrite (feeds_length _ _ _ _ F). generalize (nth d ls []) as L.
  clear. induction L as [|n L IH]; unfold list_sum in *; cbn in *; [reflexivity|lia].
Qed.
End Loc.

Section Diff.
Context {V : Type}.
Variables (leafval : ent -> V) (f1 : ent -> V -> V) (f2 : ent -> V -> V -> V) (diffop : ent -> V -> string -> V)
          (lhs : string) (zeroish : V -> bool) (pert : V -> V) (guard : bool).
Lemma value_diff c t : term_ok c t -> differentiates lhs t -> value leafval f1 f2 diffop lhs zeroish pert guard t = None.
Proof.
  intros T D. revert T. induction D as [e a b cs Hd Hb|e cs t Hin D IH]; intros T.
  - cbn. destruct (value _ _ _ _ _ _ _ _ a); [|reflexivity]. destruct (value _ _ _ _ _ _ _ _ b); [|reflexivity].
    rewrite Hd, Hb, String.eqb_refl. reflexivity.
  - inversion T as [? ? (F1 & F2 & F3 & F4) T']; subst. rewrite map_length in F1.
    assert (term_ok c t) as Tt. { rewrite Forall_forall in T'. auto. }
    specialize (IH Tt).
    assert (List.length cs <= 2) as L.
    { destruct cs as [|k cs]; [destruct Hin|]. specialize (F3 ltac:(discriminate)). cbn in F3. rewrite F1. intuition (subst; cbn; lia). }
    destruct cs as [|a [|b [|? ?]]]; cbn in L; try lia; [destruct Hin| |].
    + destruct Hin as [-> | []]. cbn. now rewrite IH.
    + cbn. destruct Hin as [-> | [-> | []]]; rewrite IH; [reflexivity|]. now destruct (value _ _ _ _ _ _ _ _ a).
Qed.
End Diff.

(** The tree stored in a table. *)
Definition stored_tree (s : stree) : tree ent := match build (t_levels s) with t :: _ => t | [] => Nd (op "" 0) [] end.
Lemma stored_good {V} c max_depth s : ctx_ok c -> sane c -> 2 <= max_depth -> evolved c max_depth s ->
  (stores s (stored_tree s) /\ term_ok c (stored_tree s)) /\ good c (stored_tree s) (fresh (V := V) (t_levels s)).
Proof.
  intros Hc Hs Hm H.
  destruct (evolved_wf c max_depth s Hc Hs Hm H) as (r & ls & T & W & L & R & F).
  assert (In (nent r) OPS) as Ro by now apply root_ops.
  pose proof (ops_ar _ Ro) as Ha. unfold stored_tree. rewrite T.
  set (t1 := Nd (nent r) (firstn (nar r) (build ls))).
  assert (build ([r] :: ls) = [t1]) as Eb by reflexivity. rewrite Eb.
  pose proof (build_ok c _ W) as Bk. rewrite Eb in Bk. inversion Bk as [|? ? Bt _]; subst.
  split; [split; [|exact Bt]|].
  - split; [|].
    + intros k. rewrite T. rewrite <- (build_level c _ W k), Eb. cbn. apply app_nil_r.
    + unfold finish, inorder in F. rewrite (dfs_build c _ W 0 t1) in F by (now rewrite Eb).
      rewrite (merge_build c _ W) in F by discriminate. rewrite Eb in F. cbn [bind map done] in F. injection F as <-. split; reflexivity.
  - exists r, ls. repeat split; auto; try apply W. cbn [kids_of].
    inversion Bt as [? ? (G1 & _) _]; subst. rewrite map_length in G1. intros K. change (firstn (nar r) (build ls) = []) in K. rewrite K in G1. cbn in G1. lia.
Qed.
