(** Proofs about the flat-list routines against tree positions. *)
From Verif Require Import Base Trees TreeFacts TreePos Library Subroutines.

Section Facts.
Variables (ar : nat -> nat) (padj : nat -> Z).
Notation scan_back := (scan_back ar).
Notation tree := (tree nat).

Fixpoint asum (l : list nat) : Z := match l with [] => 0%Z | t :: l' => (Z.of_nat (ar t) - 1 + asum l')%Z end.
Lemma asum_app l1 l2 : asum (l1 ++ l2) = (asum l1 + asum l2)%Z.
Proof. induction l1 as [|t l1 IH]; cbn [List.app asum]; [lia|]. rewrite IH. lia. Qed.
Lemma asum_tree t : respects ar t -> asum (preorder t) = (-1)%Z.
Proof.
  induction t as [a cs IH] using tree_ind'. intros Hr. inversion Hr as [? ? Hl HF]; subst.
  cbn [preorder asum].
  assert (asum (flat_map preorder cs) = (- Z.of_nat (List.length cs))%Z) as ->; [|lia].
  clear Hl Hr. induction IH as [|t cs Ht HI IHc]; cbn [flat_map asum List.length]; [lia|].
  inversion HF; subst. rewrite asum_app, Ht, IHc by assumption. lia.
Qed.
Lemma asum_forest ts : Forall (respects ar) ts -> asum (flat_map preorder ts) = (- Z.of_nat (List.length ts))%Z.
Proof.
  induction 1 as [|t ts Ht HF IH]; cbn [flat_map asum List.length]; [lia|].
  rewrite asum_app, asum_tree, IH by assumption. lia.
Qed.

(** Non-empty suffixes of forests have negative sum. *)
Lemma suffix_neg : forall l k l1 l2, slots ar k l = Some 0 -> l = l1 ++ l2 -> l2 <> [] -> (asum l2 < 0)%Z.
Proof.
  intros l k l1 l2 Hs -> Hne. rewrite slots_app in Hs.
  destruct (slots ar k l1) as [m|]; [|discriminate].
  assert (forall l m, slots ar m l = Some 0 -> Z.of_nat m = (- asum l)%Z) as G.
  { clear. induction l as [|t l IH]; intros m H; cbn [slots asum] in *.
    - injection H as ->. lia.
    - destruct m as [|m]; [discriminate|]. apply IH in H. lia. }
  pose proof (G _ _ Hs). destruct m as [|m]; [|lia]. destruct l2; [congruence|discriminate].
Qed.

(** Scanning backwards over the tail of a forest never stops inside it. *)
Lemma scan_back_forest k l : slots ar k l = Some 0 -> forall l1 l2, l = l1 ++ l2 -> forall rest nxt,
  scan_back (rev l2 ++ rest) nxt 0%Z =
  scan_back rest (match l2 with [] => nxt | t :: _ => t end) (asum l2).
Proof.
  intros Hs l1 l2. revert l1. induction l2 as [|t l2 IH]; intros l1 El rest nxt; [reflexivity|].
  cbn [rev]. rewrite <- app_assoc. rewrite (IH (l1 ++ [t])) by (rewrite <- app_assoc; exact El).
  cbn [List.app Subroutines.scan_back].
  assert (asum (t :: l2) < 0)%Z as Hneg by (eapply suffix_neg; [exact Hs|exact El|discriminate]).
  cbn [asum] in *. replace (asum l2 + (Z.of_nat (ar t) - 1))%Z with (Z.of_nat (ar t) - 1 + asum l2)%Z by lia.
  destruct (Z.eqb_spec (Z.of_nat (ar t) - 1 + asum l2) 0); [lia|]. reflexivity.
Qed.

Lemma scan_back_none ts : Forall (respects ar) ts -> scan_back (rev (flat_map preorder ts)) 0 0%Z = None.
Proof.
  intros H. pose proof (slots_forest ar ts H 0) as Hs. rewrite Nat.add_0_r in Hs.
  pose proof (scan_back_forest _ _ Hs [] (flat_map preorder ts) eq_refl [] 0) as G.
  rewrite app_nil_r in G. exact G.
Qed.

(** What the routine reports for a context. *)
Definition adj_parent (ep : Z) (o : option nat) : Z := match o with Some p => padj p | None => ep end.
Definition sib_or (es : nat) (o : option nat) : nat := match o with Some s => s | None => es end.

Lemma parents_siblings_ctx ep es prev c :
  (forall a, In a (ancestors_of c) -> ar a <= 2) ->
  Forall (respects ar) prev -> ctx_ok ar c ->
  flat_map preorder prev ++ before c <> [] ->
  parents_siblings ar padj ep es (flat_map preorder prev ++ before c) =
  Ok (adj_parent ep (parent_of c), sib_or es (left_sibling c)).
Proof.
  intros Har Hprev Hc Hne. destruct c as [|[a ls] c].
  - cbn [before parent_of left_sibling adj_parent sib_or] in *. rewrite app_nil_r in *.
    unfold parents_siblings. destruct (rev (flat_map preorder prev)) as [|last r] eqn:Er.
    { apply (f_equal (@rev nat)) in Er. rewrite rev_involutive in Er. contradiction. }
    (* the last token of a forest is a terminal *)
    assert (ar last = 0) as H0.
    { assert (flat_map preorder prev = rev r ++ [last]) as E
        by (rewrite <- (rev_involutive (flat_map preorder prev)), Er; reflexivity).
      pose proof (slots_forest ar prev Hprev 0) as Hs.
      pose proof (suffix_neg _ _ (rev r) [last] Hs E) as G. cbn [asum] in G. specialize (G ltac:(discriminate)). lia. }
    destruct (Nat.ltb_spec 0 (ar last)); [lia|].
    rewrite <- Er, scan_back_none by assumption. reflexivity.
  - inversion Hc as [|? ? [H1 H2] H3]; subst. cbn [fst snd] in *.
    assert (ar a <= 2) as Ha by (apply Har; left; reflexivity).
    cbn [before parent_of left_sibling adj_parent].
    destruct ls as [|t ls].
    + cbn [flat_map rev sib_or]. unfold parents_siblings.
      rewrite !rev_app_distr. cbn [rev List.app].
      destruct (Nat.ltb_spec 0 (ar a)); [reflexivity|simpl in H1; lia].
    + destruct ls as [|t2 ls]; [|simpl in H1; lia].
      assert (ar a = 2) as Ha2 by (simpl in H1; lia).
      inversion H2 as [|? ? Ht _]; subst. cbn [flat_map rev List.app sib_or]. rewrite app_nil_r.
      unfold parents_siblings.
      rewrite !rev_app_distr. cbn [rev]. rewrite <- !app_assoc. cbn [List.app].
      destruct t as [b cs]. cbn [root].
      destruct (rev (preorder (Nd b cs))) as [|last r] eqn:Er.
      { apply (f_equal (@List.length nat)) in Er. rewrite rev_length in Er. discriminate. }
      assert (ar last = 0) as H0.
      { assert (preorder (Nd b cs) = rev r ++ [last]) as E
          by (rewrite <- (rev_involutive (preorder (Nd b cs))), Er; reflexivity).
        pose proof (slots_tree ar _ Ht 0) as Hs.
        pose proof (suffix_neg _ _ (rev r) [last] Hs E ltac:(discriminate)) as G. cbn [asum] in G. lia. }
      cbn [List.app]. destruct (Nat.ltb_spec 0 (ar last)); [lia|].
      change (last :: r ++ a :: rev (before c) ++ rev (flat_map preorder prev))
        with ((last :: r) ++ a :: rev (before c) ++ rev (flat_map preorder prev)).
      rewrite <- Er.
      rewrite (scan_back_forest 1 (preorder (Nd b cs)) (slots_tree ar _ Ht 0) [] _ eq_refl).
      rewrite asum_tree by assumption. cbn [preorder Subroutines.scan_back].
      rewrite Ha2. change (Z.of_nat 2) with 2%Z. cbn. reflexivity.
Qed.

Lemma at_once_entry_ps ep es tokens b : 0 < b -> tokens <> [] ->
  Ok (at_once_entry ar padj ep es tokens b) = parents_siblings ar padj ep es (firstn b tokens).
Proof.
  intros Hb Hne. unfold at_once_entry, parents_siblings.
  destruct (rev (firstn b tokens)) as [|last r] eqn:Er.
  - destruct b; [lia|]. destruct tokens; [congruence|].
    cbn [firstn rev] in Er. destruct (rev (firstn b tokens)); discriminate.
  - destruct (Nat.ltb 0 (ar last)); [reflexivity|].
    destruct (Subroutines.scan_back ar (last :: r) 0 0) as [[p s]|]; reflexivity.
Qed.

Lemma respects_root_range (Q : nat -> Prop) t : Forall Q (preorder t) -> forall c,
  Forall Q (ancestors_of c) -> Forall (fun e => Q (fst e) /\ Forall Q (ancestors_of (snd e))) (nodes c t).
Proof.
  induction t as [a cs IH] using tree_ind'. intros HQ c Hc. rewrite nodes_cons.
  cbn [preorder] in HQ. inversion HQ as [|? ? Qa Qcs]; subst. constructor; [auto|].
  generalize (@nil tree) as left. clear HQ. induction IH as [|t cs Ht HF IHc]; intros left; cbn [nodes_f]; [constructor|].
  cbn [flat_map] in Qcs. apply Forall_app in Qcs as [Q1 Q2].
  apply Forall_app. split.
  - apply Ht; [exact Q1|]. unfold ancestors_of in *. cbn [map fst]. constructor; assumption.
  - apply IHc. exact Q2.
Qed.

Lemma at_once_tree ep es t : respects ar t -> Forall (fun a => ar a <= 2) (preorder t) ->
  parents_siblings_at_once ar padj ep es (preorder t) =
  map (fun e => (adj_parent ep (parent_of (snd e)), sib_or es (left_sibling (snd e)))) (nodes [] t).
Proof.
  intros Hr Har. unfold parents_siblings_at_once.
  assert (List.length (nodes [] t) = List.length (preorder t)) as Hlen.
  { rewrite <- (nodes_labels t []), map_length. reflexivity. }
  apply nth_ext with (d := (0%Z, 0)) (d' := (0%Z, 0)).
  { rewrite !map_length, seq_length. lia. }
  intros n Hn. rewrite map_length, seq_length in Hn.
  rewrite (nth_indep (map (at_once_entry ar padj ep es (preorder t)) (seq 0 (List.length (preorder t)))) (0%Z, 0)
             (at_once_entry ar padj ep es (preorder t) 0)) by (rewrite map_length, seq_length; lia).
  rewrite map_nth. rewrite seq_nth by lia. cbn [Nat.add].
  destruct (nth_error (nodes [] t) n) as [[a c]|] eqn:En.
  2:{ apply nth_error_None in En. lia. }
  rewrite (nth_error_nth (map _ (nodes [] t)) n (0%Z, 0) (map_nth_error _ _ _ En)). cbn [snd].
  destruct (nodes_before ar t Hr [] (Forall_nil _) n a c En) as [Hb Hc].
  cbn [before List.app] in Hb.
  destruct n as [|n].
  - destruct t as [r cs]. rewrite nodes_cons in En. cbn in En. injection En as _ <-. reflexivity.
  - assert (Ok (at_once_entry ar padj ep es (preorder t) (S n)) =
            Ok (adj_parent ep (parent_of c), sib_or es (left_sibling c))) as E; [|congruence].
    rewrite at_once_entry_ps; [|lia|destruct t; discriminate].
    rewrite Hb. apply (parents_siblings_ctx ep es [] c); auto.
    + pose proof (respects_root_range (fun a => ar a <= 2) t Har [] (Forall_nil _)) as HF.
      rewrite Forall_forall in HF. apply nth_error_In in En. destruct (HF _ En) as [_ G].
      cbn [snd] in G. rewrite Forall_forall in G. exact G.
    + cbn [flat_map List.app]. rewrite <- Hb. destruct t; discriminate.
Qed.

(** ** ancestors *)
Notation step := (anc_step ar).
Variable eff : list nat.
Hypothesis Heff : forall e, In e eff -> 1 <= ar e.

Lemma step_none d a : step eff (d, None) a =
  ((d + (Z.of_nat (ar a) - 1))%Z, if memb a eff then Some (d + (Z.of_nat (ar a) - 1) - 1)%Z else None).
Proof. reflexivity. Qed.
Lemma step_some d th a : step eff (d, Some th) a =
  ((d + (Z.of_nat (ar a) - 1))%Z, if (d + (Z.of_nat (ar a) - 1) =? th)%Z then None else Some th).
Proof. reflexivity. Qed.

Lemma anc_tree t : respects ar t -> forall d,
  (fold_left (step eff) (preorder t) (d, None) = ((d - 1)%Z, None)) /\
  (forall th, (th < d)%Z -> fold_left (step eff) (preorder t) (d, Some th) =
      ((d - 1)%Z, if (th =? d - 1)%Z then None else Some th)).
Proof.
  induction t as [a cs IH] using tree_ind'. intros Hr d. inversion Hr as [? ? Hl HF]; subst.
  (* forests *)
  assert (GN : forall cs, Forall (fun t => respects ar t -> forall d,
       (fold_left (step eff) (preorder t) (d, None) = ((d - 1)%Z, None)) /\
       (forall th, (th < d)%Z -> fold_left (step eff) (preorder t) (d, Some th) =
           ((d - 1)%Z, if (th =? d - 1)%Z then None else Some th))) cs -> Forall (respects ar) cs ->
     forall d, fold_left (step eff) (flat_map preorder cs) (d, None) = ((d - Z.of_nat (List.length cs))%Z, None)).
  { clear. induction cs as [|t cs IHc]; intros HI HF d.
    - cbn. f_equal. lia.
    - inversion HI; subst. inversion HF; subst. cbn [flat_map List.length]. rewrite fold_left_app.
      match goal with H : respects ar t -> _ |- _ => destruct (H ltac:(assumption) d) as [-> _] end.
      rewrite IHc by assumption. f_equal. lia. }
  assert (GS : forall cs, Forall (fun t => respects ar t -> forall d,
       (fold_left (step eff) (preorder t) (d, None) = ((d - 1)%Z, None)) /\
       (forall th, (th < d)%Z -> fold_left (step eff) (preorder t) (d, Some th) =
           ((d - 1)%Z, if (th =? d - 1)%Z then None else Some th))) cs -> Forall (respects ar) cs ->
     forall d th, (th < d)%Z -> fold_left (step eff) (flat_map preorder cs) (d, Some th) =
       ((d - Z.of_nat (List.length cs))%Z, if (d - Z.of_nat (List.length cs) <=? th)%Z then None else Some th)).
  { clear -GN. induction cs as [|t cs IHc]; intros HI HF d th Hth.
    - cbn [flat_map fold_left List.length]. destruct (Z.leb_spec (d - Z.of_nat 0) th); [lia|]. f_equal. lia.
    - inversion HI as [|? ? I1 I2]; subst. inversion HF as [|? ? F1 F2]; subst. cbn [flat_map List.length]. rewrite fold_left_app.
      destruct (I1 F1 d) as [_ G]. rewrite (G th Hth).
      destruct (Z.eqb_spec th (d - 1)).
      + rewrite (GN cs I2 F2). f_equal; [lia|]. destruct (Z.leb_spec (d - Z.of_nat (S (List.length cs))) th); [reflexivity|lia].
      + rewrite (IHc I2 F2) by lia. f_equal; [lia|].
        destruct (Z.leb_spec (d - 1 - Z.of_nat (List.length cs)) th), (Z.leb_spec (d - Z.of_nat (S (List.length cs))) th);
          auto; lia. }
  cbn [preorder fold_left]. split.
  - rewrite step_none. destruct (memb a eff) eqn:Em.
    + apply memb_In, Heff in Em.
      rewrite (GS cs IH HF) by lia. rewrite Hl. f_equal; [lia|].
      match goal with |- context [(?x <=? ?y)%Z] => destruct (Z.leb_spec x y) end; [reflexivity|lia].
    + rewrite (GN cs IH HF). f_equal. lia.
  - intros th Hth. rewrite step_some.
    destruct (Z.eqb_spec (d + (Z.of_nat (ar a) - 1)) th).
    + assert (ar a = 0) by lia. destruct cs; [|simpl in Hl; lia]. cbn [flat_map fold_left].
      f_equal; [lia|]. destruct (Z.eqb_spec th (d - 1)); [reflexivity|lia].
    + destruct (Z.eq_dec th (d - 1 + Z.of_nat (ar a))%Z); [lia|].
      destruct (Z.lt_ge_cases th (d - 1 + Z.of_nat (ar a))%Z) as [Hlt|Hge].
      * rewrite (GS cs IH HF) by lia. rewrite Hl. f_equal; [lia|].
        match goal with |- context [(?x <=? ?y)%Z] => destruct (Z.leb_spec x y) end;
        destruct (Z.eqb_spec th (d - 1)); try reflexivity; lia.
      * lia.
Qed.

Lemma anc_forest ts : Forall (respects ar) ts -> forall d,
  (fold_left (step eff) (flat_map preorder ts) (d, None) = ((d - Z.of_nat (List.length ts))%Z, None)) /\
  (forall th, (th < d - Z.of_nat (List.length ts))%Z ->
     fold_left (step eff) (flat_map preorder ts) (d, Some th) = ((d - Z.of_nat (List.length ts))%Z, Some th)).
Proof.
  induction 1 as [|t ts Ht HF IH]; intros d.
  - cbn. split; intros; f_equal; lia.
  - cbn [flat_map List.length]. rewrite !fold_left_app. destruct (anc_tree t Ht d) as [A B].
    split.
    + rewrite A. destruct (IH (d - 1)%Z) as [-> _]. f_equal. lia.
    + intros th Hth. rewrite fold_left_app, B by lia. destruct (Z.eqb_spec th (d - 1)); [lia|].
      destruct (IH (d - 1)%Z) as [_ C]. rewrite C by lia. f_equal. lia.
Qed.

Lemma anc_ctx c : ctx_ok ar c -> forall d0,
  exists d, (fold_left (step eff) (before c) (d0, None) = (d, None) /\ existsb (fun a => memb a eff) (first_arg_ancestors c) = false) \/
            (exists th, fold_left (step eff) (before c) (d0, None) = (d, Some th) /\ (th < d)%Z /\
               existsb (fun a => memb a eff) (first_arg_ancestors c) = true).
Proof.
  induction c as [|[a ls] c IH]; intros Hc d0.
  - exists d0. left. auto.
  - inversion Hc as [|? ? [H1 H2] H3]; subst. cbn [fst snd] in *.
    destruct (IH H3 d0) as (d & [[E1 E2]|(th & E1 & E2 & E3)]); cbn [before]; rewrite fold_left_app, E1; cbn [fold_left].
    + rewrite step_none. unfold first_arg_ancestors in *. cbn [filter snd].
      destruct (memb a eff) eqn:Em.
      * destruct ls as [|t ls].
        -- cbn [flat_map fold_left map fst existsb]. rewrite Em.
           exists (d + (Z.of_nat (ar a) - 1))%Z. right. exists (d + (Z.of_nat (ar a) - 1) - 1)%Z.
           split; [reflexivity|]. split; [lia|reflexivity].
        -- exists (d + (Z.of_nat (ar a) - 1) - Z.of_nat (List.length (t :: ls)))%Z. left.
           split; [|exact E2]. cbn [flat_map]. rewrite fold_left_app. inversion H2 as [|? ? T1 T2]; subst.
           destruct (anc_tree t T1 (d + (Z.of_nat (ar a) - 1))%Z) as [_ B]. rewrite B by lia.
           destruct (Z.eqb_spec (d + (Z.of_nat (ar a) - 1) - 1) (d + (Z.of_nat (ar a) - 1) - 1)) as [_|]; [|lia].
           destruct (anc_forest ls T2 (d + (Z.of_nat (ar a) - 1) - 1)%Z) as [-> _].
           cbn [List.length]. f_equal. lia.
      * destruct (anc_forest ls H2 (d + (Z.of_nat (ar a) - 1))%Z) as [-> _].
        exists (d + (Z.of_nat (ar a) - 1) - Z.of_nat (List.length ls))%Z. left. split; [reflexivity|].
        destruct ls; [|exact E2]. cbn [map fst existsb]. rewrite Em. exact E2.
    + rewrite step_some.
      destruct (Z.eqb_spec (d + (Z.of_nat (ar a) - 1)) th); [lia|].
      destruct (anc_forest ls H2 (d + (Z.of_nat (ar a) - 1))%Z) as [_ B]. rewrite B by lia.
      exists (d + (Z.of_nat (ar a) - 1) - Z.of_nat (List.length ls))%Z. right. exists th.
      split; [reflexivity|]. split; [lia|]. unfold first_arg_ancestors in *. cbn [filter snd].
      destruct ls; [|exact E3]. cbn [map fst existsb]. rewrite E3. apply orb_true_r.
Qed.

Lemma ancestors_ctx prev c : Forall (respects ar) prev -> ctx_ok ar c ->
  ancestors ar eff (flat_map preorder prev ++ before c) = existsb (fun a => memb a eff) (first_arg_ancestors c).
Proof.
  intros Hp Hc. unfold ancestors. rewrite fold_left_app.
  destruct (anc_forest prev Hp 0%Z) as [-> _].
  destruct (anc_ctx c Hc (0 - Z.of_nat (List.length prev))%Z) as (d & [[-> ->]|(th & -> & _ & ->)]); reflexivity.
Qed.
End Facts.

(** For effectors with one argument the first argument is the only one. *)
Lemma first_arg_unary ar c : ctx_ok ar c -> forall eff, (forall e, In e eff -> ar e = 1) ->
  existsb (fun a => memb a eff) (first_arg_ancestors c) = existsb (fun a => memb a eff) (ancestors_of c).
Proof.
  intros Hc eff He. unfold first_arg_ancestors, ancestors_of.
  induction Hc as [|[a ls] c [H1 H2] Hc IH]; [reflexivity|]. cbn [fst snd] in *. cbn [filter map fst snd existsb].
  destruct ls as [|t ls]; cbn [map fst existsb]; rewrite IH; [reflexivity|].
  destruct (memb a eff) eqn:Em; [|reflexivity].
  apply memb_In, He in Em. simpl in H1. lia.
Qed.
