(** The torch executor against recursive evaluation (specification and facts). *)
From Verif Require Import Base Trees Library Execute ExecuteSpec ExecuteFacts ExecExtra DiffSampled.

Section Torch.
Context {V : Type}.
Variables (ustate : nat -> option V) (x : list V) (param : token -> V).
Variable call : token -> list V -> extra -> res V.
Variable all_bad : V -> option bool.

(** What a node yields on the values of its arguments. *)
Definition node_value (tok : token) (vs : list V) : out V :=
  match tinput tok, tparam tok, tstate tok with
  | Some i, _, _ => match nth_error x i with Some v => OVal v | None => ORaise IndexError end
  | None, Some _, _ => OVal (param tok)
  | None, None, Some i => match ustate i with Some v => OVal v | None => ORaise IndexError end
  | None, None, None =>
      if has_diff (tname tok) then match call tok vs NoExtra with Ok v => OVal v | Err _ => ONone end
      else match call tok vs (if contains "lap" (tname tok) then AllX else NoExtra) with Ok v => OVal v | Err e => ORaise e end
  end.
(** Recursive meaning: a value that is all NaN or all infinite, or cannot be tested, stops
    the evaluation with None. *)
Fixpoint semT (t : tree token) : out V :=
  match t with
  | Nd tok cs =>
      match seqv semT cs with
      | inr o => o
      | inl vs => match node_value tok vs with
                  | OVal v => match all_bad v with Some false => OVal v | _ => ONone end
                  | o => o
                  end
      end
  end.
Notation app := (app_torch ustate x param call all_bad).
Lemma app_torch_node tok vs flag :
  match app tok vs flag with
  | inl (v, _) => node_value tok vs = OVal v /\ all_bad v = Some false
  | inr o => match node_value tok vs with OVal v => o = ONone /\ all_bad v <> Some false | o' => o' = o end
  end.
Proof.
  unfold app_torch, node_value.
  destruct (tinput tok) as [i|].
  { destruct (nth_error x i) as [v|]; [|reflexivity]. destruct (all_bad v) as [[|]|] eqn:E; auto; split; auto; discriminate. }
  destruct (tparam tok).
  { destruct (all_bad (param tok)) as [[|]|] eqn:E; auto; split; auto; discriminate. }
  destruct (tstate tok) as [i|].
  { destruct (ustate i) as [v|]; [|reflexivity]. destruct (all_bad v) as [[|]|] eqn:E; auto; split; auto; discriminate. }
  destruct (has_diff (tname tok)).
  { destruct (call tok vs NoExtra) as [v|]; [|reflexivity]. destruct (all_bad v) as [[|]|] eqn:E; auto; split; auto; discriminate. }
  destruct (contains "lap" (tname tok)).
  - destruct (call tok vs AllX) as [v|]; [|reflexivity]. destruct (all_bad v) as [[|]|] eqn:E; auto; split; auto; discriminate.
  - destruct (call tok vs NoExtra) as [v|]; [|reflexivity]. destruct (all_bad v) as [[|]|] eqn:E; auto; split; auto; discriminate.
Qed.
Lemma evalf_semT t : forall flag, semT t = match evalf app t flag with inl (v, _) => OVal v | inr o => o end /\
  (forall v, evalf app t flag <> inr (OVal v)).
Proof.
  induction t as [tok cs IH] using tree_ind'. intros flag. cbn [evalf semT].
  assert (seqv semT cs = match seqf (evalf app) cs flag with inl (vs, _) => inl vs | inr o => inr o end /\
          forall v, seqf (evalf app) cs flag <> inr (OVal v)) as [Es Ns].
  { clear tok. revert flag. induction IH as [|t cs Ht IH IHl]; intros flag; cbn; [split; [reflexivity|discriminate]|].
    destruct (Ht flag) as [-> Nt]. destruct (evalf app t flag) as [[v f]|o] eqn:E.
    - destruct (IHl f) as [-> Nl]. destruct (seqf (evalf app) cs f) as [[vs f']|o]; split; auto; try discriminate.
    - destruct o as [v| |]; [exfalso; now apply (Nt v)| |]; split; auto; discriminate. }
  rewrite Es. destruct (seqf (evalf app) cs flag) as [[vs f]|o] eqn:E; [|split; auto; intros v; intros K; injection K as ->; now apply (Ns v)].
  pose proof (app_torch_node tok vs f) as A. destruct (app tok vs f) as [[v f']|o].
  - destruct A as [-> ->]. split; [reflexivity|discriminate].
  - destruct (node_value tok vs) as [w| |e].
    + destruct A as [-> A]. destruct (all_bad w) as [[|]|]; try congruence; split; auto; discriminate.
    + subst o. split; [reflexivity|discriminate].
    + subst o. split; [reflexivity|discriminate].
Qed.
Lemma torch_sem t junk : respects tarity t -> python_execute_torch ustate x param call all_bad (preorder t ++ junk) = semT t.
Proof.
  intros H. unfold python_execute_torch. rewrite exec_complete by assumption. now rewrite (proj1 (evalf_semT t None)).
Qed.
Lemma app_torch_no_value tok vs flag v : app tok vs flag <> inr (OVal v).
Proof.
  intros K. pose proof (app_torch_node tok vs flag) as A. rewrite K in A. destruct (node_value tok vs); [destruct A; discriminate|discriminate|discriminate].
Qed.
(** A value means that every sub-expression has a value that passed the test. *)
Lemma semT_sub t v : semT t = OVal v -> forall s, subterm s t -> exists w, semT s = OVal w /\ all_bad w = Some false.
Proof.
  intros E s Hs. destruct (evalf_semT t None) as [Et Nt]. rewrite E in Et.
  destruct (evalf app t None) as [[w f]|o] eqn:Ev; [|subst o; exfalso; now apply (Nt v)].
  destruct (evalf_subterms app t None w f Ev s Hs) as (flag' & w' & f' & Es). exists w'. destruct (evalf_semT s flag') as [Ess _]. rewrite Es in Ess.
  split; [assumption|]. destruct s as [tok cs]. cbn [evalf] in Es. destruct (seqf (evalf app) cs flag') as [[vs f2]|o]; [|discriminate].
  pose proof (app_torch_node tok vs f2) as A. rewrite Es in A. apply A.
Qed.
End Torch.
