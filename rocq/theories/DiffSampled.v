(** Expressions sampled under the diff_right constraint satisfy [diff_ok], so the
    executor differentiates along the operator's own second argument. *)
From Verif Require Import Base Trees TreeFacts TreePos Library LibraryFacts Subroutines SubroutinesFacts Prior PriorSpec PriorFacts LengthFacts JointFacts Execute ExecuteSpec ExecuteFacts.

Fixpoint tmap {A B} (f : A -> B) (t : tree A) : tree B :=
  match t with Nd a cs => Nd (f a) (map (tmap f) cs) end.
Definition dummy_token : token := mkTok EmptyString 0 None None None.
(** Program._init (program.py:244): traversal = [library[t] for t in tokens]. *)
Definition tok_of (lib : library) (t : nat) : token := nth t (ltokens lib) dummy_token.
Definition tok_tree (lib : library) (t : tree nat) : tree token := tmap (tok_of lib) t.

Lemma tmap_preorder {A B} (f : A -> B) t : preorder (tmap f t) = map f (preorder t).
Proof.
  induction t as [a cs IH] using tree_ind'. cbn [tmap preorder map]. f_equal.
  induction IH as [|t cs Ht HF IHc]; [reflexivity|]. cbn [map flat_map]. rewrite map_app, Ht, IHc. reflexivity.
Qed.
Lemma tok_arity lib t : lib_ok lib -> tarity (tok_of lib t) = ar_of lib t.
Proof.
  intros [(toks & _ & H) _]. pose proof (make_library_inv _ _ H) as (E1 & E2 & E3 & E4 & _).
  unfold tok_of, ar_of. rewrite E1, E4.
  symmetry. exact (map_nth tarity toks dummy_token t).
Qed.
Lemma tok_tree_respects lib t : lib_ok lib -> respects (ar_of lib) t -> respects tarity (tok_tree lib t).
Proof.
  intros Hl. induction t as [a cs IH] using tree_ind'. intros Hr. inversion Hr as [? ? H1 H2]; subst.
  unfold tok_tree. cbn [tmap]. constructor.
  - rewrite map_length, tok_arity; auto.
  - apply Forall_forall. intros x Hx. apply in_map_iff in Hx as (s & <- & Hs). rewrite Forall_forall in IH, H2. apply IH; auto.
Qed.

Lemma lib_diff_in lib : lib_ok lib -> forall t, t < lL lib -> has_diff (tname (tok_of lib t)) = true -> In t (ldiff lib).
Proof.
  intros [(toks & _ & H) _] t. unfold make_library in H.
  destruct (_ && _) in H; [discriminate|]. injection H as <-. unfold tok_of. cbn [ldiff lL ltokens].
  intros Ht Hd. apply indices_spec. exists (nth t toks dummy_token). split; [|exact Hd]. apply nth_error_nth'. exact Ht.
Qed.

(** The library declares at least one input variable. *)
Definition has_input_var (lib : library) : Prop := exists t i, In t (ltokens lib) /\ tinput t = Some i.
Lemma lib_input_var lib : lib_ok lib -> has_input_var lib -> forall t, In t (linput_tokens lib) -> exists i, tinput (tok_of lib t) = Some i.
Proof.
  intros [(toks & _ & H) _] (t0 & i0 & Hin & Hi0) t Ht. unfold make_library in H.
  destruct (_ && _) in H; [discriminate|]. injection H as <-. unfold tok_of. cbn [linput_tokens ltokens] in *.
  destruct (Nat.eqb_spec (List.length (indices (fun t => is_some (tinput t)) toks)) 0) as [E|E].
  - exfalso. apply In_nth_error in Hin as (k & Hk).
    assert (In k (indices (fun t => is_some (tinput t)) toks)) as HIn.
    { apply indices_spec. exists t0. rewrite Hi0. auto. }
    destruct (indices (fun t => is_some (tinput t)) toks); [destruct HIn|discriminate].
  - apply indices_spec in Ht as (y & Hy & Hs). rewrite (nth_error_nth _ _ _ Hy).
    destruct (tinput y) as [i|]; [eauto|discriminate].
Qed.

Lemma diff_ok_nodes lib : lib_ok lib -> has_input_var lib -> (forall d, In d (ldiff lib) -> ar_of lib d = 2) ->
  forall t c, respects (ar_of lib) t -> in_lib lib (preorder t) ->
  (forall a c', In (a, c') (nodes c t) -> ~ in_relation (ar_of lib) RRChild (diff_right_targets lib) (ldiff lib) a c') ->
  diff_ok (tok_tree lib t).
Proof.
  intros Hl Hi Hd2. induction t as [a cs IH] using tree_ind'. intros c Hr Hin HN.
  inversion Hr as [? ? H1 H2]; subst. unfold tok_tree. cbn [tmap]. rewrite nodes_cons in HN.
  unfold in_lib in Hin. cbn [preorder] in Hin. inversion Hin as [|? ? Ha Hcs]; subst.
  constructor.
  - intros Hdiff _ _ _. pose proof (lib_diff_in lib Hl a Ha Hdiff) as HaD. rewrite (Hd2 a HaD) in H1.
    destruct cs as [|t1 [|t2 [|]]]; try discriminate. exists (tok_tree lib t2).
    inversion H2 as [|? ? R1 R2']; subst. inversion R2' as [|? ? R2 _]; subst.
    destruct t2 as [b bs].
    assert (b < lL lib) as Hb.
    { rewrite Forall_forall in Hcs. apply Hcs. cbn [flat_map]. apply in_app_iff. right. apply in_app_iff. left. left. reflexivity. }
    assert (~ In b (diff_right_targets lib)) as Hnt.
    { intros Ht. apply (HN b ((a, [t1]) :: c)).
      - right. cbn [nodes_f]. apply in_app_iff. right. cbn [nodes_f List.app]. apply in_app_iff. left. rewrite nodes_cons. left. reflexivity.
      - cbn. split; [auto|]. exists a. split; [auto|]. split; [auto|]. cbn. discriminate. }
    destruct (arity_class lib Hl b) as (A0 & A1 & A2). unfold diff_right_targets in Hnt. rewrite !in_app_iff, filter_In in Hnt.
    assert (ar_of lib b = 0) as Hb0.
    { pose proof (proj2 Hl b). assert (ar_of lib b = 0 \/ ar_of lib b = 1 \/ ar_of lib b = 2) as [E|[E|E]] by lia; auto; exfalso; apply Hnt; tauto. }
    assert (In b (linput_tokens lib)) as Hbi.
    { destruct (memb b (linput_tokens lib)) eqn:Em; [apply memb_In; auto|]. exfalso. apply Hnt. right. right. split; [tauto|]. reflexivity. }
    destruct (lib_input_var lib Hl Hi b Hbi) as (i & Hi2). exists i.
    split; [reflexivity|]. inversion R2 as [? ? Hl0 _]; subst. rewrite Hb0 in Hl0. destruct bs; [|discriminate].
    cbn. exact Hi2.
  - (* children *)
    apply Forall_forall. intros x Hx. apply in_map_iff in Hx as (s & <- & Hs).
    apply in_split in Hs as (l1 & l2 & ->).
    rewrite Forall_forall in IH, H2. apply (IH s) with (c := (a, l1) :: c).
    + apply in_app_iff. right. left. reflexivity.
    + apply H2. apply in_app_iff. right. left. reflexivity.
    + rewrite flat_map_app in Hcs. apply Forall_app in Hcs as [_ Hcs]. cbn [flat_map] in Hcs. apply Forall_app in Hcs as [Hcs _]. exact Hcs.
    + intros b c' Hb. apply HN. right. clear -Hb.
      assert (forall left, In (b, c') (nodes ((a, left ++ l1) :: c) s) -> In (b, c') (nodes_f a c left (l1 ++ s :: l2))) as G.
      { clear Hb. induction l1 as [|t l1 IH]; intros left Hb; cbn [List.app nodes_f].
        - rewrite app_nil_r in Hb. apply in_app_iff. auto.
        - apply in_app_iff. right. apply IH. rewrite <- app_assoc. exact Hb. }
      apply (G []). exact Hb.
Qed.

Theorem sampled_diff_ok lib ps t rest : lib_ok lib -> has_input_var lib ->
  (forall d, In d (ldiff lib) -> ar_of lib d = 2) -> In (diff_right_prior lib) ps ->
  respects (ar_of lib) t -> sampled lib ps (preorder t ++ rest) -> diff_ok (tok_tree lib t).
Proof.
  intros Hl Hi Hd2 Hin Hr Hs. apply (diff_ok_nodes lib Hl Hi Hd2 t []); auto.
  - eapply sampled_in_lib, sampled_prefix; eauto.
  - intros a c Hn Hrel.
    apply (sampled_relational lib ps RRChild (diff_right_targets lib) (ldiff lib) t rest); auto.
    + intros e He. unfold diff_right_targets in He. rewrite !in_app_iff, filter_In in He.
      destruct (arity_class lib Hl e) as (A & B & C). rewrite A, B, C in He. tauto.
    + intros e He. split; [eapply lib_diff_lt; eauto|]. rewrite (Hd2 e He). lia.
    + discriminate.
    + exists a, c. auto.
Qed.

(** Executing a sampled expression (trailing draws included). *)
Theorem sampled_execute {V} (u x : list V) param call lib ps t rest : lib_ok lib -> has_input_var lib ->
  (forall d, In d (ldiff lib) -> ar_of lib d = 2) -> In (diff_right_prior lib) ps ->
  respects (ar_of lib) t -> sampled lib ps (preorder t ++ rest) ->
  python_execute u x param call (map (tok_of lib) (preorder t)) = sem u x param call (tok_tree lib t).
Proof.
  intros Hl Hi Hd2 Hin Hr Hs. rewrite <- tmap_preorder. fold (tok_tree lib t).
  rewrite <- (app_nil_r (preorder (tok_tree lib t))).
  apply python_execute_sem; [apply tok_tree_respects; auto|]. eapply sampled_diff_ok; eauto.
Qed.

(** A successful evaluation evaluated every subexpression successfully. *)
Inductive subterm {A} : tree A -> tree A -> Prop :=
| sub_refl t : subterm t t
| sub_child s a cs c : In c cs -> subterm s c -> subterm s (Nd a cs).

Lemma evalf_subterms {V F} (app : token -> list V -> F -> (V * F) + out V) t : forall flag v f,
  evalf app t flag = inl (v, f) -> forall s, subterm s t -> exists flag' w f', evalf app s flag' = inl (w, f').
Proof.
  induction t as [tok cs IH] using tree_ind'. intros flag v f Hev s Hs.
  inversion Hs as [|? ? ? c Hc Hsub]; subst; [eauto|]. cbn [evalf] in Hev.
  destruct (seqf (evalf app) cs flag) as [[vs f1]|o] eqn:Es; [|discriminate]. clear Hev Hs.
  revert flag vs f1 Es. induction IH as [|t cs Ht HF IHc]; intros flag vs f1 Es; [destruct Hc|].
  cbn [seqf] in Es. destruct (evalf app t flag) as [[w f2]|o] eqn:E1; [|discriminate].
  destruct (seqf (evalf app) cs f2) as [[vs' f3]|o] eqn:E2; [|discriminate].
  destruct Hc as [<-|Hc]; [eauto|]. eapply IHc; eauto.
Qed.
Lemma exec_subterms {V F} (app : token -> list V -> F -> (V * F) + out V) t flag rest v : respects tarity t ->
  (forall tok args f v', app tok args f <> inr (OVal v')) ->
  exec_loop app (preorder t ++ rest) [] flag = OVal v ->
  forall s, subterm s t -> exists flag' w f', evalf app s flag' = inl (w, f').
Proof.
  intros Hr Happ. rewrite exec_complete by auto. destruct (evalf app t flag) as [[w f]|o] eqn:E.
  - intros _. eapply evalf_subterms; eauto.
  - intros ->. exfalso. clear Hr. revert flag E. 
    assert (forall t flag v, evalf app t flag <> inr (OVal v)) as G.
    { clear t v. induction t as [tok cs IH] using tree_ind'. intros flag v E. cbn [evalf] in E.
      destruct (seqf (evalf app) cs flag) as [[vs f1]|o] eqn:Es; [eapply Happ; eauto|]. injection E as ->.
      revert flag Es. induction IH as [|t cs Ht HF IHc]; intros flag Es; [discriminate|]. cbn [seqf] in Es.
      destruct (evalf app t flag) as [[w f2]|o] eqn:E1; [|injection Es as ->; eapply Ht; eauto].
      destruct (seqf (evalf app) cs f2) as [[vs' f3]|o] eqn:E2; [discriminate|]. injection Es as ->. eapply IHc; eauto. }
    intros flag E. eapply G; eauto.
Qed.
