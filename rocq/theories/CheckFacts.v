(** The violation checkers against the tree relations. *)
From Verif Require Import Base Trees TreeFacts TreePos Library LibraryFacts Subroutines SubroutinesFacts Prior PriorSpec PriorFacts LengthFacts.

(** The fill value of the whole-batch routine (subroutines.py:114):
    np.max(parent_adjust) + 1. *)
Definition at_once_empty_parent (lib : library) : Z :=
  (match lparent_adjust lib with [] => 0 | z :: l => fold_left Z.max l z end + 1)%Z.

Lemma fold_max_spec l : forall z, (forall x, In x (z :: l) -> x <= fold_left Z.max l z)%Z /\ In (fold_left Z.max l z) (z :: l).
Proof.
  induction l as [|y l IH]; intros z; cbn [fold_left].
  - split; [|left; auto]. intros x [->|[]]. lia.
  - destruct (IH (Z.max z y)) as [A B]. split.
    + intros x [->|[->|Hx]].
      * specialize (A (Z.max x y) (or_introl eq_refl)). lia.
      * specialize (A (Z.max z x) (or_introl eq_refl)). lia.
      * apply A. right. auto.
    + destruct B as [B|B]; [|right; right; auto]. rewrite <- B.
      destruct (Z.max_spec z y) as [[_ ->]|[_ ->]]; [right; left|left]; auto.
Qed.

Lemma at_once_empty lib : lib_ok lib -> at_once_empty_parent lib = Z.of_nat (lEMPTY_PARENT lib).
Proof.
  intros [(toks & _ & H) _]. pose proof (make_library_inv _ _ H) as (E1 & E2 & E3 & E4 & E5 & E6 & E7 & E8 & E9 & E10 & E11 & E12 & E13 & E14).
  unfold at_once_empty_parent. rewrite E11, nonterm_total.
  assert (toks <> []) as Hne. { intros ->. apply E13. destruct E14 as [E|[E _]]; rewrite E; reflexivity. }
  set (ars := map tarity toks) in *.
  assert (forall i a, nth_error ars i = Some a -> nth_error (lparent_adjust lib) i =
      Some (if Nat.ltb 0 a then Z.of_nat (nonterm_before ars i) else (-1)%Z)) as Hn.
  { intros i a Ha. rewrite E8. rewrite (parent_adjust_nth _ 0%Z _ _ Ha). reflexivity. }
  assert (List.length (lparent_adjust lib) = List.length ars) as Hlen by (rewrite E8; apply parent_adjust_length).
  assert (List.length ars = List.length toks) as Hlen2 by apply map_length. rewrite <- Hlen2.
  destruct (lparent_adjust lib) as [|z l] eqn:Ep.
  { destruct toks; [congruence|]. cbn in Hlen, Hlen2. lia. }
  destruct (fold_max_spec l z) as [A B]. set (mx := fold_left Z.max l z) in *.
  destruct (nonterm_before ars (List.length ars)) as [|n] eqn:En.
  - (* all terminals: maximum is -1 *)
    apply In_nth_error in B as (i & Hi). destruct (nth_error ars i) as [a|] eqn:Ea.
    2:{ apply nth_error_None in Ea. assert (nth_error (z :: l) i = None) by (apply nth_error_None; lia). congruence. }
    rewrite (Hn _ _ Ea) in Hi. injection Hi as Hi. destruct (Nat.ltb 0 a) eqn:Eb; [|lia].
    assert (i < List.length ars) by (apply nth_error_Some; congruence).
    pose proof (nonterm_before_mono ars i _ _ H0 Ea Eb). lia.
  - destruct (nonterm_before_surj ars n) as (i & a & Ha & Hp & Hi); [lia|].
    assert (Z.of_nat n <= mx)%Z as L1.
    { apply A. specialize (Hn _ _ Ha). rewrite Hp, Hi in Hn. eapply nth_error_In; eauto. }
    apply In_nth_error in B as (i2 & Hi2). destruct (nth_error ars i2) as [a2|] eqn:Ea.
    2:{ apply nth_error_None in Ea. assert (nth_error (z :: l) i2 = None) by (apply nth_error_None; lia). congruence. }
    rewrite (Hn _ _ Ea) in Hi2. injection Hi2 as Hi2. destruct (Nat.ltb 0 a2) eqn:Eb; [|lia].
    assert (i2 < List.length ars) as Hl2 by (apply nth_error_Some; congruence).
    pose proof (nonterm_before_mono ars i2 _ _ Hl2 Ea Eb). lia.
Qed.

(** Parents and siblings handed to the checkers for a full row. *)
Definition row_parents lib l := map fst (parents_siblings_at_once (ar_of lib) (padj_of lib) (at_once_empty_parent lib) (lL lib) l).
Definition row_siblings lib l := map snd (parents_siblings_at_once (ar_of lib) (padj_of lib) (at_once_empty_parent lib) (lL lib) l).

Lemma row_tree lib t : lib_ok lib -> respects (ar_of lib) t ->
  preorder t = map fst (nodes [] t) /\
  row_parents lib (preorder t) = map (fun e => adj_parent (padj_of lib) (Z.of_nat (lEMPTY_PARENT lib)) (parent_of (snd e))) (nodes [] t) /\
  row_siblings lib (preorder t) = map (fun e => sib_or (lL lib) (left_sibling (snd e))) (nodes [] t).
Proof.
  intros Hl Hr. split; [symmetry; apply nodes_labels|]. unfold row_parents, row_siblings. rewrite (at_once_empty lib Hl).
  rewrite at_once_tree; [|auto|apply Forall_forall; intros; apply Hl].
  rewrite !map_map. split; reflexivity.
Qed.

Lemma combine_map {A B C} (f : A -> B) (g : A -> C) l : combine (map f l) (map g l) = map (fun x => (f x, g x)) l.
Proof. induction l as [|x l IH]; [reflexivity|]. cbn. rewrite IH. reflexivity. Qed.
Lemma existsb_map {A B} (f : A -> B) p l : existsb p (map f l) = existsb (fun x => p (f x)) l.
Proof. induction l as [|x l IH]; [reflexivity|]. cbn. rewrite IH. reflexivity. Qed.

(** Facts about every node of a tree over known tokens. *)
Lemma node_facts lib t a c : lib_ok lib -> respects (ar_of lib) t -> in_lib lib (preorder t) -> In (a, c) (nodes [] t) ->
  a < lL lib /\ (forall p, parent_of c = Some p -> p < lL lib /\ 0 < ar_of lib p) /\
  (forall s, left_sibling c = Some s -> s < lL lib).
Proof.
  intros Hl Hr Hin Hn. apply In_nth_error in Hn as (n & Hn).
  destruct (nodes_before (ar_of lib) t Hr [] (Forall_nil _) n a c Hn) as [B1 B2]. cbn [before List.app] in B1.
  unfold in_lib in Hin. rewrite Forall_forall in Hin. split; [|split].
  - apply Hin. rewrite <- (nodes_labels t []). apply in_map_iff. exists (a, c). split; [reflexivity|]. eapply nth_error_In; eauto.
  - intros p Hp. pose proof (ctx_ok_parent _ _ _ B2 Hp). split; [eapply ar_of_lt|]; eauto.
  - intros s Hs. apply left_sibling_before in Hs. rewrite <- B1 in Hs. apply Hin.
    rewrite <- (firstn_skipn n (preorder t)). apply in_app_iff. auto.
Qed.

Lemma zmem_of_nat s l : existsb (Z.eqb (Z.of_nat s)) (map Z.of_nat l) = memb s l.
Proof.
  unfold memb. rewrite existsb_map.
  induction l as [|x l IH]; [reflexivity|]. cbn [existsb]. rewrite IH. f_equal.
  destruct (Nat.eqb_spec s x); lia.
Qed.

Theorem checker_exact lib r tg ef t :
  lib_ok lib -> targets_ok lib tg -> effectors_ok lib r ef ->
  respects (ar_of lib) t -> in_lib lib (preorder t) ->
  (r = RChild \/ r = RSibling \/ r = RUChild) ->
  exists b, rel_violated lib tg ef r (preorder t) (row_parents lib (preorder t)) (row_siblings lib (preorder t)) = Ok (Some b) /\
    (b = true <-> tree_in_relation (ar_of lib) r tg ef t).
Proof.
  intros Hl Ht He Hr Hin Hcase. destruct (row_tree lib t Hl Hr) as (E1 & E2 & E3). rewrite E2, E3. rewrite E1.
  assert (forall c, (forall s, left_sibling c = Some s -> s < lL lib) -> forall X, (forall e, In e X -> e < lL lib) ->
     (memb (sib_or (lL lib) (left_sibling c)) X = true <-> exists s, left_sibling c = Some s /\ In s X)) as Hs.
  { intros c Hsib X HX. rewrite memb_In. destruct (left_sibling c) as [s|]; cbn [sib_or].
    - split; [intros; exists s; auto|]. intros (s' & [= <-] & H'); auto.
    - split; [intros H'; apply HX in H'; lia|]. intros (s' & H' & _); discriminate. }
  destruct Hcase as [->|[->| ->]]; cbn [rel_violated].
  - eexists. split; [reflexivity|]. unfold check_violation. rewrite combine_map, existsb_map, existsb_exists. cbn [fst snd].
    split.
    + intros ((a & c) & Hn & Hb). cbn [fst snd] in Hb. apply andb_true_iff in Hb as [Hb1 Hb2].
      destruct (node_facts lib t a c Hl Hr Hin Hn) as (F1 & F2 & F3).
      exists a, c. split; [auto|]. cbn. apply memb_In in Hb1. split; [auto|].
      apply (zmem_adj lib ef) in Hb2; auto.
    + intros (a & c & Hn & H1 & H2). exists (a, c). split; [auto|]. cbn [fst snd].
      destruct (node_facts lib t a c Hl Hr Hin Hn) as (F1 & F2 & F3).
      apply andb_true_iff. split; [apply memb_In; auto|]. apply (zmem_adj lib ef); auto.
  - assert (forall e, In e ef -> e < lL lib) as He' by (intros e Hx; apply He; auto).
    eexists. split; [reflexivity|]. unfold check_violation. rewrite map_map. rewrite !combine_map, !existsb_map, orb_true_iff, !existsb_exists. cbn [fst snd].
    split.
    + intros [((a & c) & Hn & Hb)|((a & c) & Hn & Hb)]; cbn [fst snd] in Hb; rewrite zmem_of_nat in Hb; apply andb_true_iff in Hb as [Hb1 Hb2];
      destruct (node_facts lib t a c Hl Hr Hin Hn) as (F1 & F2 & F3);
      apply memb_In in Hb1; apply (Hs c F3) in Hb2; auto; destruct Hb2 as (s & Es & Hs2);
      exists a, c; (split; [auto|]); exists s; auto.
    + intros (a & c & Hn & s & Es & Hor).
      destruct (node_facts lib t a c Hl Hr Hin Hn) as (F1 & F2 & F3).
      destruct Hor as [[H1 H2]|[H1 H2]]; [left|right]; exists (a, c); (split; [auto|]); cbn [fst snd];
      rewrite zmem_of_nat; apply andb_true_iff; (split; [apply memb_In; auto|]); apply (Hs c F3); eauto.
  - assert (forall e, In e ef -> e < lL lib) as He' by (intros e Hx; apply He; auto).
    eexists. split; [reflexivity|]. unfold check_violation_uchild. rewrite !combine_map, existsb_map, existsb_exists.
    split.
    + intros ((a & c) & Hn & Hb). cbn [fst snd] in Hb. apply andb_true_iff in Hb as [Hb1 Hb2].
      destruct (node_facts lib t a c Hl Hr Hin Hn) as (F1 & F2 & F3). apply memb_In in Hb1.
      exists a, c. split; [auto|]. cbn. split; [auto|].
      apply orb_true_iff in Hb2 as [Hb2|Hb2].
      * apply (zmem_adj lib) in Hb2; auto.
        2:{ intros e Hx; apply filter_In in Hx; apply He; tauto. }
        destruct Hb2 as (e & H1 & H2). apply unary_filter in H1; auto. destruct H1. exists e. auto.
      * apply andb_true_iff in Hb2 as [H1 H2]. apply (Hs c F3) in H1; auto.
        apply (zmem_adj lib) in H2; auto. destruct H2 as (e & H2 & H3). exists e. auto.
    + intros (a & c & Hn & H1 & e & H2 & H3 & H4).
      destruct (node_facts lib t a c Hl Hr Hin Hn) as (F1 & F2 & F3).
      exists (a, c). split; [auto|]. cbn [fst snd]. apply andb_true_iff. split; [apply memb_In; auto|].
      apply orb_true_iff. destruct H4 as [H4|(s & H4 & H5)].
      * left. apply (zmem_adj lib); auto.
        { intros e' Hx; apply filter_In in Hx; apply He; tauto. }
        exists e. split; [|auto]. apply unary_filter; auto.
      * right. apply andb_true_iff. split; [apply (Hs c F3); eauto|]. apply (zmem_adj lib); eauto.
Qed.

(** ** Descendant checkers *)
Section Desc.
Variables (ar : nat -> nat) (eff tgt binary unary : list nat).
Hypothesis Hbin : forall a, In a binary <-> ar a = 2.
Hypothesis Hun : forall a, In a unary <-> ar a = 1.
Hypothesis Har : forall a, ar a <= 2.
Hypothesis Heff : forall e, In e eff -> 1 <= ar e.

Definition has (S : list nat) (t : tree nat) : bool := existsb (fun a => memb a S) (preorder t).
Fixpoint nested (S T : list nat) (t : tree nat) : bool :=
  match t with
  | Nd a cs => (memb a S && match cs with [] => false | t1 :: _ => has T t1 end) || existsb (nested S T) cs
  end.

Definition dadj (a : nat) (d : Z) : Z := if memb a binary then (d + 1)%Z else if negb (memb a unary) then (d - 1)%Z else d.
Lemma dadj_spec a d : dadj a d = (d + Z.of_nat (ar a) - 1)%Z.
Proof.
  unfold dadj. destruct (memb a binary) eqn:E1.
  - apply memb_In, Hbin in E1. lia.
  - apply memb_nIn in E1. rewrite Hbin in E1. destruct (memb a unary) eqn:E2; cbn.
    + apply memb_In, Hun in E2. lia.
    + apply memb_nIn in E2. rewrite Hun in E2. specialize (Har a). lia.
Qed.

Notation loop1 := (desc_no_target eff binary unary).
Definition after (d : Z) : option Z := if (d =? 0)%Z then None else Some d.

Lemma loop1_some t : respects ar t -> forall d rest, (1 <= d)%Z ->
  loop1 (Some d) (preorder t ++ rest) = if has eff t then true else loop1 (after (d - 1)) rest.
Proof.
  induction t as [a cs IH] using tree_ind'. intros Hr d rest Hd. inversion Hr as [? ? Hlen HF]; subst.
  cbn [preorder List.app desc_no_target]. unfold has. cbn [preorder existsb].
  destruct (memb a eff) eqn:Ea; [reflexivity|]. cbn [orb].
  change (if memb a binary then (d + 1)%Z else if negb (memb a unary) then (d - 1)%Z else d) with (dadj a d).
  rewrite dadj_spec. rewrite <- Hlen.
  assert (forall cs, Forall (fun t => respects ar t -> forall d rest, (1 <= d)%Z ->
     loop1 (Some d) (preorder t ++ rest) = if has eff t then true else loop1 (after (d - 1)) rest) cs ->
     Forall (respects ar) cs -> forall d rest, (1 <= d)%Z ->
     loop1 (after (d + Z.of_nat (List.length cs) - 1)) (flat_map preorder cs ++ rest) =
     if existsb (fun a => memb a eff) (flat_map preorder cs) then true else loop1 (after (d - 1)) rest) as G.
  { clear. induction cs as [|t cs IHc]; intros HI HF d rest Hd.
    - cbn [flat_map List.app existsb List.length]. do 2 f_equal. lia.
    - inversion HI as [|? ? I1 I2]; subst. inversion HF as [|? ? F1 F2]; subst.
      cbn [flat_map List.length]. rewrite <- app_assoc.
      replace (after (d + Z.of_nat (S (List.length cs)) - 1)) with (Some (d + Z.of_nat (List.length cs))%Z).
      2:{ unfold after. destruct (Z.eqb_spec (d + Z.of_nat (S (List.length cs)) - 1) 0); [lia|]. f_equal. lia. }
      rewrite I1 by (auto; lia). rewrite existsb_app. fold (has eff t). destruct (has eff t); [reflexivity|].
      cbn [orb]. apply IHc; auto. }
  specialize (G cs IH HF d rest Hd). unfold after in G at 1. exact G.
Qed.

Lemma loop1_none t : respects ar t -> forall rest,
  loop1 None (preorder t ++ rest) = if nested eff eff t then true else loop1 None rest.
Proof.
  induction t as [a cs IH] using tree_ind'. intros Hr rest. inversion Hr as [? ? Hlen HF]; subst.
  cbn [preorder List.app desc_no_target nested].
  assert (forall cs, Forall (fun t => respects ar t -> forall rest, loop1 None (preorder t ++ rest) = if nested eff eff t then true else loop1 None rest) cs ->
     Forall (respects ar) cs -> forall rest, loop1 None (flat_map preorder cs ++ rest) =
     if existsb (nested eff eff) cs then true else loop1 None rest) as G.
  { clear. induction cs as [|t cs IHc]; intros HI HF rest; [reflexivity|].
    inversion HI as [|? ? I1 I2]; subst. inversion HF as [|? ? F1 F2]; subst.
    cbn [flat_map existsb]. rewrite <- app_assoc, I1 by auto. destruct (nested eff eff t); cbn [orb]; auto. }
  destruct (memb a eff) eqn:Ea; cbn [andb orb].
  - apply memb_In, Heff in Ea. destruct cs as [|t1 cs]; [cbn in Hlen; lia|].
    inversion IH as [|? ? I1 I2]; subst. inversion HF as [|? ? F1 F2]; subst.
    cbn [flat_map]. rewrite <- app_assoc, (loop1_some t1 F1) by lia.
    destruct (has eff t1) eqn:E1; [reflexivity|]. cbn [orb existsb]. change (after (1 - 1)) with (@None Z).
    rewrite (G cs I2 F2).
    assert (nested eff eff t1 = false) as ->; [|reflexivity].
    { destruct (nested eff eff t1) eqn:En; [|reflexivity]. exfalso.
      enough (has eff t1 = true) by congruence. clear -En.
      revert En. induction t1 as [a cs IH] using tree_ind'. cbn [nested]. unfold has. cbn [preorder existsb].
      intros En. apply orb_true_iff in En as [En|En].
      - apply andb_true_iff in En as [-> _]. reflexivity.
      - apply orb_true_iff. right. apply existsb_exists in En as (t & Ht & En).
        rewrite Forall_forall in IH. specialize (IH t Ht En). unfold has in IH. apply existsb_exists in IH as (b & Hb & Hm).
        apply existsb_exists. exists b. split; [|auto]. apply in_flat_map. eauto. }
  - apply G; auto.
Qed.

Lemma desc_no_target_nested t : respects ar t -> loop1 None (preorder t) = nested eff eff t.
Proof.
  intros Hr. pose proof (loop1_none t Hr []) as H. rewrite app_nil_r in H. rewrite H. cbn. destruct (nested eff eff t); reflexivity.
Qed.

(** With separate targets. *)
Hypothesis Hdisj : forall a, In a eff -> ~ In a tgt.
Notation loop2 := (desc_with_target_loop eff tgt binary unary).
Lemma loop2_some t : respects ar t -> has eff t = false -> forall d rest, (1 <= d)%Z ->
  loop2 (Some d) (preorder t ++ rest) = if has tgt t then true else loop2 (after (d - 1)) rest.
Proof.
  induction t as [a cs IH] using tree_ind'. intros Hr Hne d rest Hd. inversion Hr as [? ? Hlen HF]; subst.
  cbn [preorder List.app desc_with_target_loop]. unfold has in *. cbn [preorder existsb] in *.
  apply orb_false_iff in Hne as [Ea Hne]. rewrite Ea.
  destruct (memb a tgt) eqn:Et; [reflexivity|]. cbn [orb].
  change (if memb a binary then (d + 1)%Z else if negb (memb a unary) then (d - 1)%Z else d) with (dadj a d).
  rewrite dadj_spec. rewrite <- Hlen.
  assert (forall cs, Forall (fun t => respects ar t -> existsb (fun a => memb a eff) (preorder t) = false -> forall d rest, (1 <= d)%Z ->
     loop2 (Some d) (preorder t ++ rest) = if existsb (fun a => memb a tgt) (preorder t) then true else loop2 (after (d - 1)) rest) cs ->
     Forall (respects ar) cs -> existsb (fun a => memb a eff) (flat_map preorder cs) = false -> forall d rest, (1 <= d)%Z ->
     loop2 (after (d + Z.of_nat (List.length cs) - 1)) (flat_map preorder cs ++ rest) =
     if existsb (fun a => memb a tgt) (flat_map preorder cs) then true else loop2 (after (d - 1)) rest) as G.
  { clear. induction cs as [|t cs IHc]; intros HI HF Hne d rest Hd.
    - cbn [flat_map List.app existsb List.length]. do 2 f_equal. lia.
    - inversion HI as [|? ? I1 I2]; subst. inversion HF as [|? ? F1 F2]; subst.
      cbn [flat_map List.length] in *. rewrite <- app_assoc. rewrite existsb_app in Hne. apply orb_false_iff in Hne as [N1 N2].
      replace (after (d + Z.of_nat (S (List.length cs)) - 1)) with (Some (d + Z.of_nat (List.length cs))%Z).
      2:{ unfold after. destruct (Z.eqb_spec (d + Z.of_nat (S (List.length cs)) - 1) 0); [lia|]. f_equal. lia. }
      rewrite I1 by (auto; lia). rewrite existsb_app. destruct (existsb (fun a => memb a tgt) (preorder t)); [reflexivity|].
      cbn [orb]. apply IHc; auto. }
  specialize (G cs IH HF Hne d rest Hd). unfold after in G at 1. exact G.
Qed.

Lemma loop2_none t : respects ar t -> nested eff eff t = false -> forall rest,
  loop2 None (preorder t ++ rest) = if nested eff tgt t then true else loop2 None rest.
Proof.
  induction t as [a cs IH] using tree_ind'. intros Hr Hn rest. inversion Hr as [? ? Hlen HF]; subst.
  cbn [preorder List.app desc_with_target_loop nested] in *. apply orb_false_iff in Hn as [Hn1 Hn2].
  assert (forall cs, Forall (fun t => respects ar t -> nested eff eff t = false -> forall rest, loop2 None (preorder t ++ rest) = if nested eff tgt t then true else loop2 None rest) cs ->
     Forall (respects ar) cs -> existsb (nested eff eff) cs = false -> forall rest, loop2 None (flat_map preorder cs ++ rest) =
     if existsb (nested eff tgt) cs then true else loop2 None rest) as G.
  { clear. induction cs as [|t cs IHc]; intros HI HF Hn rest; [reflexivity|].
    inversion HI as [|? ? I1 I2]; subst. inversion HF as [|? ? F1 F2]; subst. cbn [existsb] in Hn. apply orb_false_iff in Hn as [N1 N2].
    cbn [flat_map existsb]. rewrite <- app_assoc, I1 by auto. destruct (nested eff tgt t); cbn [orb]; auto. }
  destruct (memb a eff) eqn:Ea; cbn [andb orb] in *.
  - apply memb_In, Heff in Ea. destruct cs as [|t1 cs]; [cbn in Hlen; lia|].
    inversion IH as [|? ? I1 I2]; subst. inversion HF as [|? ? F1 F2]; subst.
    cbn [existsb] in Hn2. apply orb_false_iff in Hn2 as [N1 N2].
    cbn [flat_map]. rewrite <- app_assoc, (loop2_some t1 F1) by (auto; lia).
    destruct (has tgt t1) eqn:E1; [reflexivity|]. cbn [orb existsb]. change (after (1 - 1)) with (@None Z).
    rewrite (G cs I2 F2 N2).
    assert (nested eff tgt t1 = false) as ->; [|reflexivity].
    { destruct (nested eff tgt t1) eqn:En; [|reflexivity]. exfalso.
      enough (has tgt t1 = true) by congruence. clear -En.
      revert En. induction t1 as [a cs IH] using tree_ind'. cbn [nested]. unfold has. cbn [preorder existsb].
      intros En. apply orb_true_iff. right. apply orb_true_iff in En as [En|En].
      - apply andb_true_iff in En as [_ En]. destruct cs as [|t cs]; [discriminate|]. unfold has in En. cbn [flat_map].
        rewrite existsb_app, En. reflexivity.
      - apply existsb_exists in En as (t & Ht & En).
        rewrite Forall_forall in IH. specialize (IH t Ht En). unfold has in IH. apply existsb_exists in IH as (b & Hb & Hm).
        apply existsb_exists. exists b. split; [|auto]. apply in_flat_map. eauto. }
  - destruct (memb a tgt); apply G; auto.
Qed.
Lemma desc_with_target_nested t : respects ar t -> nested eff eff t = false ->
  List.length eff = List.length tgt -> desc_with_target tgt eff binary unary (preorder t) = Some (nested eff tgt t).
Proof.
  intros Hr Hn Hlen. unfold desc_with_target. rewrite Hlen, Nat.ltb_irrefl, <- Hlen, firstn_all.
  pose proof (loop2_none t Hr Hn []) as H. rewrite app_nil_r in H. rewrite H. cbn. destruct (nested eff tgt t); reflexivity.
Qed.
End Desc.

(** [nested] in terms of positions. *)
Lemma has_nodes T t c : has T t = true <-> exists a c', In (a, c') (nodes c t) /\ In a T.
Proof.
  unfold has. rewrite existsb_exists. rewrite <- (nodes_labels t c). split.
  - intros (a & Ha & Hm). apply in_map_iff in Ha as ([b c'] & <- & Hin). apply memb_In in Hm. eauto.
  - intros (a & c' & Hin & HT). exists a. split; [apply in_map_iff; exists (a, c'); auto|apply memb_In; auto].
Qed.

Lemma first_arg_cons S a left (c : ctx nat) :
  (exists e, In e S /\ In e (first_arg_ancestors ((a, left) :: c))) <->
  (In a S /\ left = []) \/ (exists e, In e S /\ In e (first_arg_ancestors c)).
Proof.
  unfold first_arg_ancestors. cbn [filter snd]. destruct left as [|t left]; cbn [map fst In].
  - split.
    + intros (e & H1 & [<-|H2]); eauto.
    + intros [[H _]|(e & H1 & H2)]; eauto.
  - split; [intros (e & H); eauto|]. intros [[_ H]|H]; [discriminate|auto].
Qed.

Lemma nested_nodes S T t : forall c,
  (exists a c', In (a, c') (nodes c t) /\ in_first_arg T S a c') <->
  nested S T t = true \/ (has T t = true /\ exists e, In e S /\ In e (first_arg_ancestors c)).
Proof.
  unfold in_first_arg. induction t as [a cs IH] using tree_ind'. intros c. rewrite nodes_cons. cbn [nested In].
  (* over the children *)
  assert (forall cs left, Forall (fun t => forall c,
     (exists a c', In (a, c') (nodes c t) /\ In a T /\ exists e, In e S /\ In e (first_arg_ancestors c')) <->
     nested S T t = true \/ (has T t = true /\ exists e, In e S /\ In e (first_arg_ancestors c))) cs ->
     ((exists b c', In (b, c') (nodes_f a c left cs) /\ In b T /\ exists e, In e S /\ In e (first_arg_ancestors c')) <->
      (existsb (nested S T) cs = true \/
       (In a S /\ left = [] /\ match cs with [] => false | t1 :: _ => has T t1 end = true) \/
       (existsb (has T) cs = true /\ exists e, In e S /\ In e (first_arg_ancestors c))))) as G.
  { clear. induction cs as [|t cs IHc]; intros left HI; cbn [nodes_f existsb].
    - split; [intros (b & c' & [] & _)|]. intros [H|[(_ & _ & H)|[H _]]]; discriminate.
    - inversion HI as [|? ? I1 I2]; subst. specialize (IHc (left ++ [t]) I2).
      assert ((exists b c', In (b, c') (nodes ((a, left) :: c) t ++ nodes_f a c (left ++ [t]) cs) /\ In b T /\
                 exists e, In e S /\ In e (first_arg_ancestors c')) <->
        ((exists b c', In (b, c') (nodes ((a, left) :: c) t) /\ In b T /\ exists e, In e S /\ In e (first_arg_ancestors c')) \/
         (exists b c', In (b, c') (nodes_f a c (left ++ [t]) cs) /\ In b T /\ exists e, In e S /\ In e (first_arg_ancestors c')))) as ->.
      { split.
        - intros (b & c' & Hin & H). apply in_app_iff in Hin as [Hin|Hin]; [left|right]; eauto.
        - intros [(b & c' & Hin & H)|(b & c' & Hin & H)]; exists b, c'; (split; [apply in_app_iff; auto|auto]). }
      rewrite I1, IHc, first_arg_cons.
      assert (left ++ [t] = [] <-> False) as -> by (split; [intros E; apply app_eq_nil in E; destruct E; discriminate|tauto]).
      rewrite !orb_true_iff. tauto. }
  specialize (G cs [] IH).
  assert ((exists a0 c', ((a, c) = (a0, c') \/ In (a0, c') (nodes_f a c [] cs)) /\ In a0 T /\ (exists e, In e S /\ In e (first_arg_ancestors c'))) <->
     (In a T /\ (exists e, In e S /\ In e (first_arg_ancestors c))) \/
     (exists b c', In (b, c') (nodes_f a c [] cs) /\ In b T /\ exists e, In e S /\ In e (first_arg_ancestors c'))) as ->.
  { split.
    - intros (b & c' & [E0|Hin] & Hx); [injection E0 as <- <-; left; auto|right; eauto].
    - intros [H|(b & c' & Hin & H)]; [exists a, c; auto|exists b, c'; auto]. }
  assert (has T (Nd a cs) = memb a T || existsb (has T) cs) as ->.
  { unfold has. cbn [preorder existsb]. f_equal. clear. induction cs as [|t cs IHc]; [reflexivity|].
    cbn [flat_map existsb]. rewrite existsb_app, IHc. reflexivity. }
  rewrite G. rewrite !orb_true_iff, andb_true_iff, !memb_In.
  assert (@nil (tree nat) = [] <-> True) as -> by tauto. tauto.
Qed.
Lemma nested_spec S T t : nested S T t = true <-> exists a c, In (a, c) (nodes [] t) /\ in_first_arg T S a c.
Proof. rewrite (nested_nodes S T t []). split; [auto|]. intros [H|(_ & e & _ & [])]; auto. Qed.
