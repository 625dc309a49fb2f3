(** More facts about the executor: a value is returned only for a complete
    expression, and each derivative operator uses its own second argument
    whatever the rest of the expression looks like. *)
From Verif Require Import Base Trees TreeFacts Library Execute ExecuteSpec ExecuteFacts.

Section Need.
Context {V F : Type}.
Variable app : token -> list V -> F -> (V * F) + out V.
Hypothesis Happ : forall tok args f v, app tok args f <> inr (OVal v).

Fixpoint need (st : list (token * list V)) : nat :=
  match st with
  | [] => 1
  | (tok, args) :: rest => (tarity tok - List.length args) + need rest - 1
  end.
Definition frames_ok (st : list (token * list V)) : Prop :=
  Forall (fun fr => List.length (snd fr) < tarity (fst fr)) st.

Lemma need_pos st : frames_ok st -> 1 <= need st.
Proof.
  induction 1 as [|[tok args] st H _ IH]; cbn [need]; [lia|]. cbn [fst snd] in H. lia.
Qed.

Lemma reduce_need : forall rest tok args flag, frames_ok rest -> List.length args <= tarity tok ->
  match reduce app tok args rest flag with
  | inl (st', _) => frames_ok st' /\ need st' = (tarity tok - List.length args) + need rest - 1
  | inr (OVal _) => (tarity tok - List.length args) + need rest - 1 = 0
  | inr _ => True
  end.
Proof.
  induction rest as [|[tok' args'] rest IH]; intros tok args flag HF Hle; cbn [reduce].
  - destruct (Nat.eqb_spec (List.length args) (tarity tok)) as [E|E].
    + destruct (app tok args flag) as [[v f]|o] eqn:EA; [cbn [need]; lia|].
      destruct o; auto. exfalso. eapply Happ; eauto.
    + cbn [need]. split; [|lia]. constructor; [cbn; lia|constructor].
  - inversion HF as [|? ? H1 H2]; subst. cbn [fst snd] in H1.
    destruct (Nat.eqb_spec (List.length args) (tarity tok)) as [E|E].
    + destruct (app tok args flag) as [[v f]|o] eqn:EA.
      * specialize (IH tok' (args' ++ [v]) f H2). rewrite app_length in IH. cbn [List.length] in IH.
        specialize (IH ltac:(lia)). pose proof (need_pos _ H2).
        destruct (reduce app tok' (args' ++ [v]) rest f) as [[st' g]|[ | | ]]; auto; cbn [need].
        -- destruct IH. split; [assumption|]. lia.
        -- lia.
      * destruct o; auto. exfalso. eapply Happ; eauto.
    + split; [|cbn [need]; lia]. constructor; [cbn; lia|assumption].
Qed.

Lemma exec_loop_complete trav : forall st flag v, frames_ok st ->
  exec_loop app trav st flag = OVal v ->
  exists l1 l2, trav = l1 ++ l2 /\ slots tarity (need st) l1 = Some 0.
Proof.
  induction trav as [|node trav IH]; intros st flag v HF E; cbn [exec_loop] in E; [discriminate|].
  pose proof (reduce_need st node [] flag HF (Nat.le_0_l _)) as R.
  pose proof (need_pos _ HF) as HP. cbn [List.length] in R. rewrite Nat.sub_0_r in R.
  destruct (reduce app node [] st flag) as [[st' f]|o].
  - destruct R as [R1 R2]. destruct (IH _ _ _ R1 E) as (l1 & l2 & -> & S). exists (node :: l1), l2.
    split; [reflexivity|]. destruct (need st) as [|k]; [lia|]. cbn [slots].
    replace (tarity node + k) with (need st') by lia. exact S.
  - subst o. exists [node], trav. split; [reflexivity|]. destruct (need st) as [|k]; [lia|]. cbn [slots].
    f_equal. lia.
Qed.

Lemma exec_value_complete trav flag v : exec_loop app trav [] flag = OVal v ->
  exists t rest, respects tarity t /\ trav = preorder t ++ rest.
Proof.
  intros E. destruct (exec_loop_complete trav [] flag v (Forall_nil _) E) as (l1 & l2 & -> & S).
  cbn [need] in S. apply complete_slots in S. destruct S as (t & H1 & <-). eauto.
Qed.
End Need.

(** ** Derivatives *)
Section Own.
Context {V : Type}.
Variables (u x : list V) (param : token -> V).
Variable call : token -> list V -> extra -> option V.

(** Recursive evaluation in which a derivative operator whose last argument is
    an input variable gets the dimension of that variable; any other derivative
    operator gets the dimension of the variable evaluated last before it. *)
Fixpoint sem_last (t : tree token) (last : option nat) : (V * option nat) + out V :=
  match t with
  | Nd tok cs =>
      match seqf sem_last cs last with
      | inr o => inr o
      | inl (vs, last') =>
          let result (r : out V) (l : option nat) := match r with OVal v => inl (v, l) | o => inr o end in
          let fetch (l : list V) i := match nth_error l i with Some v => OVal v | None => ORaise IndexError end in
          match tinput tok, tparam tok, tstate tok with
          | Some i, _, _ => result (fetch x i) (Some (i + 1))
          | None, Some _, _ => result (OVal (param tok)) last'
          | None, None, Some i => result (fetch u i) last'
          | None, None, None =>
              let d := match own_dim cs with Some k => Some k | None => last' end in
              result (match call tok vs (if has_diff (tname tok) then Dim d
                                         else if is_lap (tname tok) then AllX else NoExtra) with
                      | Some v => OVal v | None => ONone end) last'
          end
      end
  end.

Lemma seqf_last (f : tree token -> option nat -> (V * option nat) + out V) cs : forall flag vs flag' c,
  seqf f cs flag = inl (vs, flag') -> last_child cs = Some c ->
  exists g v, f c g = inl (v, flag').
Proof.
  induction cs as [|t cs IH]; intros flag vs flag' c E L; [discriminate|].
  cbn [seqf] in E. destruct (f t flag) as [[v g]|] eqn:Ef; [|discriminate].
  destruct (seqf f cs g) as [[vs' g']|] eqn:Eg; [|discriminate]. injection E as <- <-.
  unfold last_child in L. cbn [rev] in L. destruct cs as [|t' cs'].
  - cbn in L, Eg. injection L as ->. injection Eg as <- <-. eauto.
  - eapply IH; [exact Eg|]. unfold last_child. destruct (rev (t' :: cs')) as [|z zs] eqn:Er.
    + apply (f_equal (@List.length _)) in Er. rewrite rev_length in Er. discriminate.
    + cbn [List.app] in L. exact L.
Qed.

Lemma seqf_ext (f g : tree token -> option nat -> (V * option nat) + out V) cs :
  Forall (fun t => forall l, f t l = g t l) cs -> forall l, seqf f cs l = seqf g cs l.
Proof.
  induction 1 as [|t cs H _ IH]; intros l; cbn [seqf]; [reflexivity|]. rewrite H.
  destruct (g t l) as [[v l']|]; [|reflexivity]. fold (seqf f). fold (seqf g). rewrite IH. reflexivity.
Qed.

Lemma evalf_sem_last t : forall last, evalf (app_np u x param call) t last = sem_last t last.
Proof.
  induction t as [tok cs IH] using tree_ind'. intros last.
  cbn [evalf sem_last].
  assert (Forall (fun t => forall l, evalf (app_np u x param call) t l = sem_last t l) cs) as HE.
  { exact IH. }
  rewrite (seqf_ext _ _ _ HE).
  destruct (seqf sem_last cs last) as [[vs l']|o] eqn:Es; [|reflexivity].
  unfold app_np. destruct (tinput tok) as [i|]; [destruct (nth_error x i); reflexivity|].
  destruct (tparam tok) as [p|]; [reflexivity|].
  destruct (tstate tok) as [i|]; [destruct (nth_error u i); reflexivity|].
  destruct (has_diff (tname tok)) eqn:HD.
  - assert (match own_dim cs with Some k => Some k | None => l' end = l') as ->.
    { unfold own_dim. destruct (last_child cs) as [c|] eqn:Lc; [|reflexivity].
      destruct (var_of c) as [i|] eqn:Vc; [|reflexivity].
      destruct (seqf_last _ _ _ _ _ _ Es Lc) as (g & v & Ev).
      destruct c as [tk [|]]; [|discriminate]. cbn [var_of] in Vc. cbn [sem_last seqf] in Ev.
      rewrite Vc in Ev. destruct (nth_error x i); [|discriminate]. injection Ev as <- <-. reflexivity. }
    destruct (call tok vs (Dim l')); reflexivity.
  - destruct (is_lap (tname tok)); [destruct (call tok vs AllX)|destruct (call tok vs NoExtra)]; reflexivity.
Qed.

Lemma execute_sem_last t junk : respects tarity t ->
  python_execute u x param call (preorder t ++ junk) =
  match sem_last t None with inl (v, _) => OVal v | inr o => o end.
Proof.
  intros HR. unfold python_execute. rewrite exec_complete by assumption. rewrite evalf_sem_last. reflexivity.
Qed.

Lemma app_np_no_value tok args f v : app_np u x param call tok args f <> inr (OVal v).
Proof.
  unfold app_np. destruct (tinput tok) as [i|]; [destruct (nth_error x i); discriminate|].
  destruct (tparam tok); [discriminate|]. destruct (tstate tok) as [i|]; [destruct (nth_error u i); discriminate|].
  destruct (if has_diff _ then _ else _); discriminate.
Qed.
End Own.
