(** Proofs: the stack machine refines recursive evaluation. *)
From Verif Require Import Base Trees Library Execute ExecuteSpec.

Section Machine.
Context {V F : Type}.
Variable app : token -> list V -> F -> (V * F) + out V.
Notation evalf := (evalf app).
Notation seqf := (seqf evalf).

(** Feeding the value of a finished sub-expression to the frames below. *)
Definition feed (v : V) (stack : list (token * list V)) (flag : F) : (list (token * list V) * F) + out V :=
  match stack with
  | [] => inr (OVal v)
  | (tok, args) :: rest => reduce app tok (args ++ [v]) rest flag
  end.
Definition continue (trav : list token) (r : (list (token * list V) * F) + out V) : out V :=
  match r with inr o => o | inl (st, f) => exec_loop app trav st f end.

Lemma reduce_full tok args rest flag : List.length args = tarity tok ->
  reduce app tok args rest flag =
  match app tok args flag with inr o => inr o | inl (v, f) => feed v rest f end.
Proof.
  intros H. destruct rest as [|[tok' args'] rest']; cbn [reduce]; rewrite H, Nat.eqb_refl; reflexivity.
Qed.
Lemma reduce_open tok args rest flag : List.length args <> tarity tok ->
  reduce app tok args rest flag = inl ((tok, args) :: rest, flag).
Proof.
  intros H. destruct rest; cbn [reduce]; destruct (Nat.eqb_spec (List.length args) (tarity tok)); congruence.
Qed.

Lemma exec_tree t : respects tarity t -> forall stack flag trav,
  exec_loop app (preorder t ++ trav) stack flag =
  match evalf t flag with
  | inl (v, f) => continue trav (feed v stack f)
  | inr o => o
  end.
Proof.
  induction t as [tok cs IH] using tree_ind'. intros Hr stack flag trav.
  inversion Hr as [? ? Hlen HF]; subst.
  cbn [preorder ExecuteSpec.evalf List.app exec_loop].
  (* generalised: part of the children already evaluated *)
  assert (G : forall cs2 args flag,
     Forall (fun t => respects tarity t -> forall stack flag trav,
        exec_loop app (preorder t ++ trav) stack flag =
        match evalf t flag with inl (v, f) => continue trav (feed v stack f) | inr o => o end) cs2 ->
     Forall (respects tarity) cs2 -> List.length args + List.length cs2 = tarity tok ->
     continue (flat_map preorder cs2 ++ trav) (reduce app tok args stack flag) =
     match seqf cs2 flag with
     | inl (vs, f) => match app tok (args ++ vs) f with
                      | inl (v, f') => continue trav (feed v stack f')
                      | inr o => o end
     | inr o => o
     end).
  { clear. induction cs2 as [|c cs2 IHc]; intros args flag HI HR Hl.
    - cbn [ExecuteSpec.seqf flat_map List.app]. rewrite app_nil_r. simpl in Hl.
      rewrite reduce_full by lia. destruct (app tok args flag) as [[v f]|o]; reflexivity.
    - simpl in Hl. rewrite reduce_open by lia. cbn [continue flat_map].
      inversion HI as [|? ? H1 H2]; subst. inversion HR as [|? ? R1 R2]; subst.
      rewrite <- app_assoc, (H1 R1). cbn [ExecuteSpec.seqf].
      destruct (evalf c flag) as [[v f]|o]; [|reflexivity].
      cbn [feed]. rewrite (IHc (args ++ [v]) f H2 R2) by (rewrite app_length; simpl; lia).
      destruct (seqf cs2 f) as [[vs f']|o]; [|reflexivity].
      rewrite <- app_assoc. reflexivity. }
  specialize (G cs [] flag IH HF Hlen). cbn [List.app] in *.
  fold (exec_loop app). change (match reduce app tok [] stack flag with
     | inl (stack', flag') => exec_loop app (flat_map preorder cs ++ trav) stack' flag'
     | inr o => o end) with (continue (flat_map preorder cs ++ trav) (reduce app tok [] stack flag)).
  rewrite G. destruct (seqf cs flag) as [[vs f]|o]; reflexivity.
Qed.

Lemma exec_complete t flag trav : respects tarity t ->
  exec_loop app (preorder t ++ trav) [] flag =
  match evalf t flag with inl (v, _) => OVal v | inr o => o end.
Proof. intros H. rewrite exec_tree by assumption. destruct (evalf t flag) as [[v f]|o]; reflexivity. Qed.

(** A proper part of an expression never yields a value. *)
End Machine.

Section Np.
Context {V : Type}.
Variables (u x : list V) (param : token -> V).
Variable call : token -> list V -> extra -> option V.
Notation app := (app_np u x param call).
Notation sem := (sem u x param call).

(** Flag after evaluating: for an input variable it is that variable. *)
Lemma evalf_sem t : diff_ok t -> forall flag,
  (forall v f, evalf app t flag = inl (v, f) ->
      sem t = OVal v /\ (forall i, var_of t = Some i -> f = Some (i + 1))) /\
  (forall o, evalf app t flag = inr o -> sem t = o /\ match o with OVal _ => False | _ => True end).
Proof.
  induction t as [tok cs IH] using tree_ind'. intros Hd flag.
  inversion Hd as [? ? Hdiff HF]; subst.
  (* children *)
  assert (G : forall cs flag, Forall (fun t => diff_ok t -> forall flag,
      (forall v f, evalf app t flag = inl (v, f) ->
        sem t = OVal v /\ (forall i, var_of t = Some i -> f = Some (i + 1))) /\
      (forall o, evalf app t flag = inr o -> sem t = o /\ match o with OVal _ => False | _ => True end)) cs ->
      Forall diff_ok cs ->
      (forall vs f, seqf (evalf app) cs flag = inl (vs, f) ->
         seqv sem cs = inl vs /\
         (forall c i, last_child cs = Some c -> var_of c = Some i -> f = Some (i + 1))) /\
      (forall o, seqf (evalf app) cs flag = inr o -> seqv sem cs = inr o /\ match o with OVal _ => False | _ => True end)).
  { clear. induction cs as [|c cs IHc]; intros flag HI HD.
    - split; [|discriminate]. intros vs f E. injection E as <- <-. split; [reflexivity|].
      intros c i Hc. discriminate.
    - inversion HI as [|? ? H1 H2]; subst. inversion HD as [|? ? D1 D2]; subst.
      destruct (H1 D1 flag) as [A B]. cbn [seqf seqv].
      destruct (evalf app c flag) as [[v f]|o] eqn:Ec.
      + destruct (A v f eq_refl) as [S1 S2]. rewrite S1.
        destruct (IHc f H2 D2) as [C D].
        fold (seqf (evalf app)). fold (seqv sem).
        destruct (seqf (evalf app) cs f) as [[vs f']|o] eqn:Es.
        * destruct (C vs f' eq_refl) as [C1 C2]. rewrite C1. split; [|discriminate].
          intros vs0 f0 E. injection E as <- <-. split; [reflexivity|].
          intros c0 i Hlast Hv. destruct cs as [|c1 cs].
          -- cbn in Hlast. injection Hlast as <-. cbn in Es. injection Es as <- <-. apply S2. exact Hv.
          -- apply (C2 c0 i); [|exact Hv]. unfold last_child in *.
             change (rev (c :: c1 :: cs)) with (rev (c1 :: cs) ++ [c]) in Hlast.
             destruct (rev (c1 :: cs)) as [|z zs] eqn:Er; [|exact Hlast].
             apply (f_equal (@List.length _)) in Er. rewrite rev_length in Er. discriminate.
        * destruct (D o eq_refl) as [D1' D2']. rewrite D1'. split; [discriminate|].
          intros o' E. injection E as <-. auto.
      + destruct (B o eq_refl) as [B1 B2]. split; [discriminate|].
        intros o' E. injection E as <-. rewrite B1. destruct o; [tauto|auto|auto]. }
  destruct (G cs flag IH HF) as [A B]. cbn [ExecuteSpec.evalf ExecuteSpec.sem].
  destruct (seqf (evalf app) cs flag) as [[vs f]|o] eqn:Es.
  - destruct (A vs f eq_refl) as [A1 A2]. rewrite A1. unfold app_np; cbv zeta.
    destruct (tinput tok) as [i|] eqn:Ei.
    { destruct (nth_error x i) as [v|] eqn:Ex.
      - split; [|discriminate]. intros v0 f0 E. injection E as <- <-. split; [reflexivity|].
        intros j Hj. unfold var_of in Hj. destruct cs; [|discriminate]. congruence.
      - split; [discriminate|]. intros o E. injection E as <-. auto. }
    assert (Hnv : forall j, var_of (Nd tok cs) = Some j -> False).
    { intros j Hj. unfold var_of in Hj. destruct cs; [congruence|discriminate]. }
    destruct (tparam tok) as [p|] eqn:Ep.
    { split; [|discriminate]. intros v0 f0 E. injection E as <- <-. split; [reflexivity|].
      intros j Hj. destruct (Hnv j Hj). }
    destruct (tstate tok) as [s|] eqn:Est.
    { destruct (nth_error u s) as [v|] eqn:Eu.
      - split; [|discriminate]. intros v0 f0 E. injection E as <- <-. split; [reflexivity|].
        intros j Hj. destruct (Hnv j Hj).
      - split; [discriminate|]. intros o E. injection E as <-. auto. }
    assert (Hcall : (if has_diff (tname tok) then call tok vs (Dim f)
               else if is_lap (tname tok) then call tok vs AllX else call tok vs NoExtra) =
        call tok vs (if has_diff (tname tok) then Dim (own_dim cs)
                                 else if is_lap (tname tok) then AllX else NoExtra)).
    { destruct (has_diff (tname tok)) eqn:Ed; [|destruct (is_lap (tname tok)); reflexivity].
      destruct (Hdiff eq_refl eq_refl eq_refl eq_refl) as (c & i & Hc & Hv).
      rewrite (A2 c i Hc Hv). unfold own_dim. rewrite Hc, Hv. reflexivity. }
    rewrite Hcall. clear Hcall.
    match goal with |- context [call tok vs ?ex] => destruct (call tok vs ex) as [v|] end.
    + split; [|discriminate]. intros v0 f0 E. injection E as <- <-. split; [reflexivity|].
      intros j Hj. destruct (Hnv j Hj).
    + split; [discriminate|]. intros o E. injection E as <-. auto.
  - destruct (B o eq_refl) as [B1 B2]. rewrite B1. split; [discriminate|].
    intros o' E. injection E as <-. auto.
Qed.

Lemma python_execute_sem t : respects tarity t -> diff_ok t ->
  forall junk, python_execute u x param call (preorder t ++ junk) = sem t.
Proof.
  intros Hr Hd junk. unfold python_execute. rewrite exec_complete by assumption.
  destruct (evalf_sem t Hd None) as [A B].
  destruct (evalf app t None) as [[v f]|o] eqn:E.
  - destruct (A v f eq_refl) as [-> _]. reflexivity.
  - destruct (B o eq_refl) as [-> _]. reflexivity.
Qed.
End Np.
