(** Facts about prefix notation: counting open argument slots decides completeness. *)
From Verif Require Import Base Trees.

Section Facts.
Context {A : Type} (ar : A -> nat).

(** Open slots after reading [l] when [k] expressions are expected; [None] when
    a token was read although nothing was expected. *)
Fixpoint slots (k : nat) (l : list A) : option nat :=
  match l with
  | [] => Some k
  | a :: l' => match k with O => None | S k' => slots (ar a + k') l' end
  end.

Lemma slots_app k l1 l2 :
  slots k (l1 ++ l2) = match slots k l1 with Some k' => slots k' l2 | None => None end.
Proof.
  revert k. induction l1 as [|a l1 IH]; intros k; simpl; [reflexivity|].
  destruct k; [reflexivity|apply IH].
Qed.

Lemma slots_tree t : respects ar t -> forall k, slots (S k) (preorder t) = Some k.
Proof.
  induction t as [a cs IH] using tree_ind'. intros Hr k.
  inversion Hr as [a' cs' Hlen Hcs]; subst.
  simpl. rewrite <- Hlen. clear Hlen Hr.
  revert k. induction cs as [|c cs IHc]; intros k; simpl; [reflexivity|].
  inversion IH; subst. inversion Hcs; subst.
  rewrite slots_app. rewrite H1 by assumption. apply IHc; assumption.
Qed.

Lemma slots_forest ts : Forall (respects ar) ts ->
  forall k, slots (List.length ts + k) (flat_map preorder ts) = Some k.
Proof.
  induction 1 as [|t ts Ht Hts IH]; intros k; simpl; [reflexivity|].
  rewrite slots_app, slots_tree by assumption. apply IH.
Qed.


Lemma parse_all : forall n l k, List.length l <= n -> slots k l = Some 0 ->
  exists ts, List.length ts = k /\ Forall (respects ar) ts /\ flat_map preorder ts = l.
Proof.
  induction n as [|n IH]; intros l k Hlen Hs.
  - destruct l; [|simpl in Hlen; lia]. simpl in Hs. injection Hs as ->.
    exists []. auto.
  - destruct l as [|a l]; [simpl in Hs; injection Hs as ->; exists []; auto|].
    simpl in Hs. destruct k as [|k]; [discriminate|].
    simpl in Hlen.
    destruct (IH l (ar a + k) ltac:(lia) Hs) as (ts & Hl & Hf & Hp).
    exists (Nd a (firstn (ar a) ts) :: skipn (ar a) ts).
    rewrite <- (firstn_skipn (ar a) ts) in Hf. apply Forall_app in Hf. destruct Hf as [Hf1 Hf2].
    split; [|split].
    + simpl. rewrite skipn_length. lia.
    + constructor; [|assumption]. constructor; [|assumption].
      rewrite firstn_length. lia.
    + simpl. f_equal. rewrite <- flat_map_app, firstn_skipn. exact Hp.
Qed.

Lemma forest_slots k l : forest ar k l <-> slots k l = Some 0.
Proof.
  split.
  - intros (ts & Hl & Hf & Hp). subst. rewrite <- (Nat.add_0_r (List.length ts)).
    apply slots_forest. assumption.
  - intros H. destruct (parse_all (List.length l) l k (le_n _) H) as (ts & ?).
    exists ts. auto.
Qed.

Lemma complete_forest l : complete ar l <-> forest ar 1 l.
Proof.
  split.
  - intros (t & Hr & Hp). exists [t]. simpl. rewrite app_nil_r. auto.
  - intros (ts & Hl & Hf & Hp). destruct ts as [|t [|]]; try discriminate.
    inversion Hf; subst. exists t. simpl. rewrite app_nil_r. auto.
Qed.

Lemma complete_slots l : complete ar l <-> slots 1 l = Some 0.
Proof. rewrite complete_forest. apply forest_slots. Qed.

Lemma slots_complete_ext l k : slots 1 l = Some (S k) -> forall z, ar z = 0 ->
  slots 1 (l ++ repeat z (S k)) = Some 0.
Proof.
  intros H z Hz. rewrite slots_app, H.
  assert (forall n, slots n (repeat z n) = Some 0) as E.
  { induction n as [|n IHn]; simpl; [reflexivity|]. rewrite Hz. exact IHn. }
  apply E.
Qed.

Lemma slots_terms l : Forall (fun z => ar z = 0) l -> forall k,
  slots (List.length l + k) l = Some k.
Proof.
  induction 1 as [|z l Hz Hl IH]; intros k; simpl; [reflexivity|].
  rewrite Hz. apply IH.
Qed.

(** A complete expression has no proper initial or longer part that is complete. *)
Lemma slots_prefix_unique k l1 l2 :
  slots k l1 = Some 0 -> slots k (l1 ++ l2) = Some 0 -> l2 = [].
Proof.
  intros H1 H2. rewrite slots_app, H1 in H2. destruct l2; [reflexivity|discriminate].
Qed.

Lemma complete_prefix_unique l l1 l2 l1' l2' :
  l = l1 ++ l2 -> l = l1' ++ l2' -> complete ar l1 -> complete ar l1' -> l1 = l1'.
Proof.
  rewrite !complete_slots. intros E1 E2 H1 H2.
  assert (firstn (List.length l1) l = l1) as F1
    by (subst l; rewrite firstn_app, Nat.sub_diag, firstn_all; simpl; apply app_nil_r).
  assert (firstn (List.length l1') l = l1') as F2
    by (rewrite E2, firstn_app, Nat.sub_diag, firstn_all; simpl; apply app_nil_r).
  destruct (Nat.le_ge_cases (List.length l1) (List.length l1')) as [Hle|Hle].
  - assert (l1' = l1 ++ skipn (List.length l1) l1') as E.
    { rewrite <- (firstn_skipn (List.length l1) l1') at 1. f_equal.
      rewrite <- F2, firstn_firstn, Nat.min_l by assumption. exact F1. }
    rewrite E in H2. apply slots_prefix_unique in H2; [|assumption].
    rewrite H2, app_nil_r in E. auto.
  - assert (l1 = l1' ++ skipn (List.length l1') l1) as E.
    { rewrite <- (firstn_skipn (List.length l1') l1) at 1. f_equal.
      rewrite <- F1, firstn_firstn, Nat.min_l by assumption. exact F2. }
    rewrite E in H1. apply slots_prefix_unique in H1; [|assumption].
    rewrite H1, app_nil_r in E. auto.
Qed.

Lemma preorder_inj_forest : forall ts1 ts2,
  Forall (respects ar) ts1 -> Forall (respects ar) ts2 ->
  List.length ts1 = List.length ts2 ->
  flat_map preorder ts1 = flat_map preorder ts2 -> ts1 = ts2.
Proof.
  intros ts1. remember (List.length (flat_map preorder ts1)) as n eqn:En.
  assert (List.length (flat_map preorder ts1) <= n) as Hn by lia. clear En.
  revert ts1 Hn. induction n as [|n IH]; intros ts1 Hn ts2 H1 H2 Hl Hp.
  - destruct ts1 as [|[a cs] ts1]; simpl in Hn; [|lia].
    destruct ts2; [reflexivity|discriminate].
  - destruct ts1 as [|[a cs] ts1]; destruct ts2 as [|[b ds] ts2]; try discriminate; [reflexivity|].
    simpl in Hp. injection Hp as Hab Hp. subst b.
    inversion H1 as [|? ? Hr1 Hf1]; subst. inversion H2 as [|? ? Hr2 Hf2]; subst.
    inversion Hr1; subst. inversion Hr2; subst.
    rewrite <- !flat_map_app in Hp. simpl in Hl.
    assert (cs ++ ts1 = ds ++ ts2) as E.
    { apply IH.
      - simpl in Hn. rewrite <- flat_map_app in Hn. lia.
      - apply Forall_app; auto.
      - apply Forall_app; auto.
      - rewrite !app_length. lia.
      - exact Hp. }
    assert (cs = ds /\ ts1 = ts2) as [-> ->]; [|reflexivity].
    apply (f_equal (firstn (ar a))) in E as E1.
    apply (f_equal (skipn (ar a))) in E as E2.
    rewrite !firstn_app, !skipn_app in *.
    replace (ar a - List.length cs) with 0 in * by lia.
    replace (ar a - List.length ds) with 0 in * by lia.
    simpl in *. rewrite !app_nil_r in *.
    rewrite !firstn_all2 in E1 by lia. rewrite !skipn_all2 in E2 by lia. auto.
Qed.

Lemma preorder_inj t1 t2 : respects ar t1 -> respects ar t2 -> preorder t1 = preorder t2 -> t1 = t2.
Proof.
  intros H1 H2 E.
  assert ([t1] = [t2]) as X; [|congruence].
  apply preorder_inj_forest; auto. simpl. rewrite !app_nil_r. exact E.
Qed.

Lemma partial_slots (z : A) (Hz : ar z = 0) l :
  partial ar l <-> exists k, slots 1 l = Some (S k).
Proof.
  split.
  - intros (l' & Hne & Hc). apply complete_slots in Hc. rewrite slots_app in Hc.
    destruct (slots 1 l) as [[|k]|]; try discriminate; [|eauto].
    destruct l'; [congruence|discriminate].
  - intros (k & H). exists (repeat z (S k)). split; [discriminate|].
    apply complete_slots. apply slots_complete_ext; assumption.
Qed.

End Facts.
