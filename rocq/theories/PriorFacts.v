(** Proofs about the priors. *)
From Verif Require Import Base Trees TreeFacts TreePos Library LibraryFacts Subroutines SubroutinesFacts Prior PriorSpec.

(** ** Observations *)
Lemma dangling_asum lib l : dangling_of lib l = (1 + asum (ar_of lib) l)%Z.
Proof.
  unfold dangling_of. assert (forall l d, fold_left (fun d t => d + (Z.of_nat (ar_of lib t) - 1))%Z l d = (d + asum (ar_of lib) l)%Z) as H.
  { clear. induction l as [|t l IH]; intros d; cbn [fold_left asum]; [lia|]. rewrite IH. lia. }
  apply H.
Qed.
Lemma slots_asum {ar : nat -> nat} l : forall k j, slots ar k l = Some j -> (Z.of_nat j = Z.of_nat k + asum ar l)%Z.
Proof.
  induction l as [|t l IH]; intros k j; cbn [slots asum].
  - intros [= ->]. lia.
  - destruct k as [|k]; [discriminate|]. intros H. apply IH in H. lia.
Qed.

Lemma obs_of_ctx lib prev c : lib_ok lib -> Forall (respects (ar_of lib)) prev -> ctx_ok (ar_of lib) c ->
  flat_map preorder prev ++ before c <> [] ->
  obs_of lib (flat_map preorder prev ++ before c) =
  Ok (mkObs (flat_map preorder prev ++ before c)
        (adj_parent (padj_of lib) (Z.of_nat (lEMPTY_PARENT lib)) (parent_of c))
        (sib_or (lEMPTY_SIBLING lib) (left_sibling c))
        (dangling_of lib (flat_map preorder prev ++ before c))).
Proof.
  intros [_ Har] Hp Hc Hne. unfold obs_of. rewrite (parents_siblings_ctx (ar_of lib)); auto.
Qed.

(** ** Adjusted parents *)
Lemma padj_of_val lib toks t : make_library toks = Ok lib -> t < lL lib ->
  padj_of lib t = if Nat.ltb 0 (ar_of lib t) then Z.of_nat (nonterm_before (larities lib) t) else (-1)%Z.
Proof.
  intros H Ht. pose proof (make_library_inv _ _ H) as (E1 & E2 & E3 & E4 & E5 & E6 & E7 & E8 & E9 & E10 & E11 & _).
  unfold padj_of, ar_of. rewrite E8, E4. rewrite E2 in Ht.
  destruct (nth_error (map tarity toks) t) as [a|] eqn:En.
  2:{ apply nth_error_None in En. rewrite map_length in En. lia. }
  rewrite (nth_error_nth _ _ _ (parent_adjust_nth _ 0%Z _ _ En)), (nth_error_nth _ _ _ En). reflexivity.
Qed.

Lemma padj_inj lib : lib_ok lib -> forall a b, a < lL lib -> b < lL lib ->
  0 < ar_of lib a -> 0 < ar_of lib b -> padj_of lib a = padj_of lib b -> a = b.
Proof.
  intros [(toks & _ & H) _] a b Ha Hb Hpa Hpb. rewrite !(padj_of_val lib toks) by auto.
  apply Nat.ltb_lt in Hpa, Hpb. rewrite Hpa, Hpb. intros E.
  pose proof (make_library_inv _ _ H) as (E1 & E2 & E3 & E4 & _).
  assert (forall i, i < lL lib -> nth_error (larities lib) i = Some (ar_of lib i)) as Hn.
  { intros i Hi. unfold ar_of. apply nth_error_nth'. rewrite E4, map_length. lia. }
  destruct (Nat.lt_trichotomy a b) as [L|[->|L]]; [|reflexivity|].
  - pose proof (nonterm_before_mono _ _ _ _ L (Hn a Ha) Hpa). lia.
  - pose proof (nonterm_before_mono _ _ _ _ L (Hn b Hb) Hpb). lia.
Qed.
Lemma padj_not_empty lib : lib_ok lib -> forall a, a < lL lib -> 0 < ar_of lib a ->
  padj_of lib a <> Z.of_nat (lEMPTY_PARENT lib).
Proof.
  intros [(toks & _ & H) _] a Ha Hpa. rewrite (padj_of_val lib toks) by auto.
  apply Nat.ltb_lt in Hpa. rewrite Hpa.
  pose proof (make_library_inv _ _ H) as (E1 & E2 & E3 & E4 & E5 & E6 & E7 & E8 & E9 & E10 & E11 & _).
  rewrite E11, nonterm_total, <- E4.
  assert (nth_error (larities lib) a = Some (ar_of lib a)) as Hn.
  { unfold ar_of. apply nth_error_nth'. rewrite E4, map_length. lia. }
  rewrite E2 in Ha. pose proof (nonterm_before_mono _ _ _ _ Ha Hn Hpa). lia.
Qed.

Lemma zmem_In z l : zmem z l = true <-> In z l.
Proof.
  unfold zmem. rewrite existsb_exists. split.
  - intros (y & H & E). apply Z.eqb_eq in E. subst; auto.
  - intros H. exists z. split; auto. apply Z.eqb_refl.
Qed.

Lemma zmem_adj lib ef o : lib_ok lib -> (forall e, In e ef -> e < lL lib /\ 0 < ar_of lib e) ->
  (forall p, o = Some p -> p < lL lib /\ 0 < ar_of lib p) ->
  zmem (adj_parent (padj_of lib) (Z.of_nat (lEMPTY_PARENT lib)) o) (adj lib ef) = true <->
  exists e, In e ef /\ o = Some e.
Proof.
  intros Hl He Ho. rewrite zmem_In. unfold adj. rewrite in_map_iff. destruct o as [p|]; cbn [adj_parent].
  - destruct (Ho p eq_refl) as [H1 H2]. split.
    + intros (e & E & Hin). destruct (He e Hin). exists e. split; [auto|]. f_equal. symmetry. apply (padj_inj lib); auto.
    + intros (e & Hin & [= <-]). exists p. auto.
  - split.
    + intros (e & E & Hin). destruct (He e Hin). exfalso. eapply padj_not_empty; eauto.
    + intros (e & _ & E). discriminate.
Qed.

Lemma ar_of_lt lib t : lib_ok lib -> 0 < ar_of lib t -> t < lL lib.
Proof.
  intros [(toks & _ & H) _] Hp. pose proof (make_library_inv _ _ H) as (E1 & E2 & E3 & E4 & _).
  unfold ar_of in Hp. destruct (Nat.lt_ge_cases t (lL lib)); [auto|].
  rewrite nth_overflow in Hp by (rewrite E4, map_length; lia). lia.
Qed.

Lemma ctx_ok_parent ar (c : ctx nat) p : ctx_ok ar c -> parent_of c = Some p -> 0 < ar p.
Proof.
  intros H. destruct c as [|[a ls] c]; cbn [parent_of]; [discriminate|]. intros [= <-].
  inversion H as [|? ? [H1 _] _]; subst. cbn [fst snd] in H1. lia.
Qed.

Definition in_lib (lib : library) (l : list nat) : Prop := Forall (fun t => t < lL lib) l.

Lemma left_sibling_before (c : ctx nat) s : left_sibling c = Some s -> In s (before c).
Proof.
  destruct c as [|[a ls] c]; cbn [left_sibling before]; [discriminate|].
  destruct (rev ls) as [|t r] eqn:E; [discriminate|]. intros [= <-].
  assert (In t ls) as Ht by (apply in_rev; rewrite E; left; auto).
  apply in_app_iff. right. right. apply in_flat_map. exists t. split; [auto|]. destruct t as [b bs]. left. reflexivity.
Qed.

Lemma unary_filter lib ef e : lib_ok lib -> (forall e, In e ef -> e < lL lib) ->
  In e (filter (fun e => memb e (lunary lib)) ef) <-> In e ef /\ ar_of lib e = 1.
Proof.
  intros [(toks & _ & H) _] He. rewrite filter_In, memb_In.
  pose proof (make_library_inv _ _ H) as (E1 & E2 & E3 & E4 & E5 & E6 & _).
  rewrite E6, (tokens_of_arity_ar _ _ _ _ H). split; intros [A B]; (split; [auto|]).
  - tauto.
  - split; [apply He|]; auto.
Qed.

Lemma empty_sibling lib : lib_ok lib -> lEMPTY_SIBLING lib = lL lib.
Proof.
  intros [(toks & _ & H) _].
  pose proof (make_library_inv _ _ H) as (E1 & E2 & E3 & E4 & E5 & E6 & E7 & E8 & E9 & E10 & E11 & _). lia.
Qed.

Lemma In_when b l (x : nat) : In x (when b l) <-> b = true /\ In x l.
Proof. destruct b; cbn [when]; simpl; intuition discriminate. Qed.

(** ** The mask of a relational constraint is exactly its relation. *)
Theorem mask_exact lib r tg ef prev c a :
  lib_ok lib -> targets_ok lib tg -> effectors_ok lib r ef ->
  (r = RDescendant -> forall e, In e ef -> ar_of lib e = 1) ->
  Forall (respects (ar_of lib)) prev -> ctx_ok (ar_of lib) c ->
  in_lib lib (flat_map preorder prev ++ before c) ->
  flat_map preorder prev ++ before c <> [] ->
  (In a (forbidden lib (rel_prior lib tg ef r) (flat_map preorder prev ++ before c)) <->
   in_relation (ar_of lib) r tg ef a c).
Proof.
  intros Hl Ht He Hd Hp Hc Hin Hne. unfold forbidden.
  destruct (flat_map preorder prev ++ before c) as [|x0 l0] eqn:El; [congruence|]. rewrite <- El in *. clear El x0 l0.
  rewrite (obs_of_ctx lib prev c) by auto. cbn [pr_forb rel_prior].
  assert (forall p, parent_of c = Some p -> p < lL lib /\ 0 < ar_of lib p) as Hpar.
  { intros p Ep. pose proof (ctx_ok_parent _ _ _ Hc Ep). split; [eapply ar_of_lt|]; eauto. }
  assert (forall s, left_sibling c = Some s -> s < lL lib) as Hsib.
  { intros s Es. apply left_sibling_before in Es. unfold in_lib in Hin. rewrite Forall_forall in Hin. apply Hin, in_app_iff; auto. }
  assert (forall X, (forall e, In e X -> e < lL lib) ->
     (memb (sib_or (lEMPTY_SIBLING lib) (left_sibling c)) X = true <-> exists s, left_sibling c = Some s /\ In s X)) as Hs.
  { intros X HX. rewrite memb_In. destruct (left_sibling c) as [s|]; cbn [sib_or].
    - split; [intros; exists s; auto|]. intros (s' & [= <-] & H'); auto.
    - rewrite empty_sibling by auto. split; [intros H'; apply HX in H'; lia|]. intros (s' & H' & _); discriminate. }
  destruct r; cbn [forb_rel in_relation o_actions o_parent o_sibling o_dangling].
  - assert (forall e, In e ef -> 1 <= ar_of lib e) as He1 by (intros e0 Hx; destruct (He e0 Hx); lia).
    rewrite In_when, (ancestors_ctx (ar_of lib) (padj_of lib) ef He1 prev c Hp Hc). rewrite first_arg_unary with (ar := ar_of lib) by auto.
    rewrite existsb_exists. split.
    + intros [(e & H1 & H2) H3]. apply memb_In in H2. split; [auto|]. exists e; auto.
    + intros [H1 (e & H2 & H3)]. split; [|auto]. exists e. split; [auto|]. apply memb_In; auto.
  - rewrite In_when, zmem_adj by (auto; exact He). tauto.
  - assert (forall e, In e ef -> e < lL lib) as He' by (intros e Hx; apply He; auto).
    rewrite in_app_iff, !In_when, (Hs ef He'), (Hs tg Ht). split.
    + intros [[(s & E & H1) H2]|[(s & E & H1) H2]]; exists s; auto.
    + intros (s & E & [[H1 H2]|[H1 H2]]); [left|right]; split; eauto.
  - assert (forall e, In e ef -> e < lL lib) as He' by (intros e Hx; apply He; auto).
    rewrite In_when, orb_true_iff, andb_true_iff, (Hs tg Ht).
    rewrite !zmem_adj by (auto; try exact He; intros e Hx; apply filter_In in Hx; apply He; tauto).
    split.
    + intros [[(e & H1 & H2)|[(s & E & H1) (e & H2 & H3)]] H4]; (split; [auto|]); exists e.
      * apply unary_filter in H1; auto. destruct H1. auto.
      * split; [auto|]. split; [auto|]. right. eauto.
    + intros [H1 (e & H2 & H3 & [H4|(s & H4 & H5)])]; (split; [|auto]).
      * left. exists e. split; [|auto]. apply unary_filter; auto.
      * right. split; eauto.
  - rewrite In_when, andb_true_iff, zmem_adj by (auto; exact He). rewrite Nat.eqb_eq.
    assert (sib_or (lEMPTY_SIBLING lib) (left_sibling c) = lL lib <-> left_sibling c = None) as ->.
    { destruct (left_sibling c) as [s|] eqn:Es; cbn [sib_or].
      - specialize (Hsib s eq_refl). split; [lia|discriminate].
      - rewrite empty_sibling by auto. tauto. }
    split; [intros [[(e & H1 & H2) H3] H4]|intros [H1 (e & H2 & H3 & H4)]]; eauto 8.
  - rewrite In_when, andb_true_iff, zmem_adj by (auto; exact He). rewrite Nat.ltb_lt.
    assert (sib_or (lEMPTY_SIBLING lib) (left_sibling c) < lL lib <-> left_sibling c <> None) as ->.
    { destruct (left_sibling c) as [s|] eqn:Es; cbn [sib_or].
      - specialize (Hsib s eq_refl). split; [discriminate|auto].
      - rewrite empty_sibling by auto. split; [lia|congruence]. }
    split; [intros [[(e & H1 & H2) H3] H4]|intros [H1 (e & H2 & H3 & H4)]]; eauto 8.
Qed.

(** Descendant constraint with arbitrary effectors: exactly the first-argument
    nesting. *)
Theorem mask_descendant lib tg ef prev c a :
  lib_ok lib ->
  Forall (respects (ar_of lib)) prev -> ctx_ok (ar_of lib) c ->
  flat_map preorder prev ++ before c <> [] -> (forall e, In e ef -> 0 < ar_of lib e) ->
  (In a (forbidden lib (rel_prior lib tg ef RDescendant) (flat_map preorder prev ++ before c)) <->
   in_first_arg tg ef a c).
Proof.
  intros Hl Hp Hc Hne He. unfold forbidden.
  destruct (flat_map preorder prev ++ before c) as [|x0 l0] eqn:El; [congruence|]. rewrite <- El in *. clear El x0 l0.
  rewrite (obs_of_ctx lib prev c) by auto. cbn [pr_forb rel_prior forb_rel o_actions].
  rewrite In_when, (ancestors_ctx (ar_of lib) (padj_of lib) ef He prev c Hp Hc). unfold in_first_arg. rewrite existsb_exists. split.
  - intros [(e & H1 & H2) H3]. apply memb_In in H2. split; [auto|]. exists e; auto.
  - intros [H1 (e & H2 & H3)]. split; [|auto]. exists e. split; [auto|]. apply memb_In; auto.
Qed.

(** ** Sampled sequences *)
Lemma sampled_prefix lib ps l1 l2 : sampled lib ps (l1 ++ l2) -> sampled lib ps l1.
Proof.
  induction l2 as [|x l2 IH] using rev_ind; [rewrite app_nil_r; auto|].
  rewrite app_assoc. intros H. apply IH. inversion H as [E|l t Hs Hp E].
  - symmetry in E. apply app_eq_nil in E. destruct E; discriminate.
  - apply app_inj_tail in E as [<- <-]. exact Hs.
Qed.
Lemma sampled_nth lib ps l1 t l2 : sampled lib ps (l1 ++ t :: l2) -> permitted lib ps l1 t.
Proof.
  intros H. change (t :: l2) with ([t] ++ l2) in H. rewrite app_assoc in H. apply sampled_prefix in H.
  inversion H as [E|l t' Hs Hp E].
  - symmetry in E. apply app_eq_nil in E. destruct E; discriminate.
  - apply app_inj_tail in E as [<- <-]. exact Hp.
Qed.
Lemma sampled_in_lib lib ps l : sampled lib ps l -> in_lib lib l.
Proof.
  induction 1 as [|l t H IH [Hp _]]; [constructor|]. apply Forall_app. split; [auto|]. constructor; auto.
Qed.

(** Every node of a sampled expression was permitted at its position. *)
Lemma sampled_node lib ps t rest a c : sampled lib ps (preorder t ++ rest) -> respects (ar_of lib) t ->
  In (a, c) (nodes [] t) -> permitted lib ps (before c) a /\ ctx_ok (ar_of lib) c /\ in_lib lib (before c).
Proof.
  intros Hs Hr Hin. apply In_nth_error in Hin as (n & Hn).
  destruct (nodes_before (ar_of lib) t Hr [] (Forall_nil _) n a c Hn) as [B1 B2]. cbn [before List.app] in B1.
  assert (nth_error (preorder t) n = Some a) as Ha.
  { rewrite <- (nodes_labels t []). rewrite nth_error_map, Hn. reflexivity. }
  assert (exists l2, preorder t ++ rest = before c ++ a :: l2) as (l2 & E).
  { exists (skipn (S n) (preorder t) ++ rest). rewrite <- B1.
    rewrite <- (firstn_skipn n (preorder t)) at 1. rewrite <- app_assoc. f_equal.
    change (a :: skipn (S n) (preorder t) ++ rest) with ((a :: skipn (S n) (preorder t)) ++ rest). f_equal.
    clear -Ha. revert n Ha. induction (preorder t) as [|b p IH]; intros [|n] H; try discriminate; cbn in *.
    - injection H as ->. reflexivity.
    - apply IH. exact H. }
  rewrite E in Hs. split; [eapply sampled_nth; eauto|]. split; [exact B2|]. eapply sampled_in_lib, sampled_prefix; eauto.
Qed.

Lemma before_nil (c : ctx nat) : before c = [] -> c = [].
Proof. destruct c as [|[a ls] c]; [auto|]. cbn [before]. intros E. apply app_eq_nil in E. destruct E; discriminate. Qed.

Theorem sampled_relational lib ps r tg ef t rest :
  lib_ok lib -> targets_ok lib tg -> effectors_ok lib r ef ->
  (r = RDescendant -> forall e, In e ef -> ar_of lib e = 1) ->
  In (rel_prior lib tg ef r) ps ->
  respects (ar_of lib) t -> sampled lib ps (preorder t ++ rest) ->
  ~ tree_in_relation (ar_of lib) r tg ef t.
Proof.
  intros Hl Ht He Hd Hin Hr Hs (a & c & Hn & Hrel).
  destruct (sampled_node _ _ _ _ _ _ Hs Hr Hn) as ((Hlt & Hp) & Hc & Hb).
  specialize (Hp _ Hin). apply Hp. clear Hp.
  destruct (before c) as [|b0 b] eqn:Eb.
  - apply before_nil in Eb. subst c. exfalso. destruct r; cbn in Hrel.
    + destruct Hrel as (_ & e & _ & []).
    + destruct Hrel as (_ & e & _ & ?); discriminate.
    + destruct Hrel as (s & ? & _); discriminate.
    + destruct Hrel as (_ & e & _ & ? & _); discriminate.
    + destruct Hrel as (_ & e & _ & ? & _); discriminate.
    + destruct Hrel as (_ & e & _ & ? & _); discriminate.
  - rewrite <- Eb in *. apply (mask_exact lib r tg ef [] c a); auto; cbn [flat_map List.app]; congruence.
Qed.

Theorem sampled_descendant lib ps tg ef t rest :
  lib_ok lib -> (forall e, In e ef -> 0 < ar_of lib e) -> In (rel_prior lib tg ef RDescendant) ps ->
  respects (ar_of lib) t -> sampled lib ps (preorder t ++ rest) ->
  forall a c, In (a, c) (nodes [] t) -> ~ in_first_arg tg ef a c.
Proof.
  intros Hl He Hin Hr Hs a c Hn Hrel.
  destruct (sampled_node _ _ _ _ _ _ Hs Hr Hn) as ((Hlt & Hp) & Hc & Hb).
  specialize (Hp _ Hin). apply Hp. clear Hp.
  destruct (before c) as [|b0 b] eqn:Eb.
  - apply before_nil in Eb. subst c. destruct Hrel as (_ & e & _ & []).
  - rewrite <- Eb in *. apply (mask_descendant lib tg ef [] c a); auto; cbn [flat_map List.app]; congruence.
Qed.

(** ** Repeat constraint *)
Lemma count_in_app ts l1 l2 : count_in ts (l1 ++ l2) = count_in ts l1 + count_in ts l2.
Proof. unfold count_in. rewrite filter_app, app_length. reflexivity. Qed.
Lemma obs_of_actions lib l o : obs_of lib l = Ok o -> o_actions o = l.
Proof.
  unfold obs_of. destruct (parents_siblings _ _ _ _ l); cbn [bind]; [|discriminate]. intros [= <-]. reflexivity.
Qed.
Lemma obs_of_dangling lib l o : obs_of lib l = Ok o -> o_dangling o = dangling_of lib l.
Proof.
  unfold obs_of. destruct (parents_siblings _ _ _ _ l); cbn [bind]; [|discriminate]. intros [= <-]. reflexivity.
Qed.
Lemma obs_of_Ok lib l : l <> [] -> exists o, obs_of lib l = Ok o.
Proof.
  intros H. unfold obs_of, parents_siblings. destruct (rev l) as [|x r] eqn:E.
  { apply (f_equal (@rev nat)) in E. rewrite rev_involutive in E. cbn in E. congruence. }
  rewrite <- E. clear E. destruct (Nat.ltb 0 (ar_of lib x)); cbn [bind]; [eauto|].
  destruct (scan_back (ar_of lib) (rev l) 0 0%Z) as [[? ?]|]; cbn [bind]; eauto.
Qed.

Theorem sampled_repeat lib ps toks m l : 1 <= m -> In (repeat_prior toks m) ps -> sampled lib ps l -> count_in toks l <= m.
Proof.
  intros Hm Hin. induction 1 as [|l t H IH [_ Hp]]; [cbn; lia|].
  rewrite count_in_app. specialize (Hp _ Hin). unfold forbidden in Hp.
  assert (count_in toks [t] <= 1) as H1.
  { unfold count_in. cbn [filter]. destruct (memb t toks); cbn; lia. }
  destruct l as [|x l]; [cbn in *; lia|]. set (l' := x :: l) in *.
  destruct (obs_of_Ok lib l') as (o & Eo); [discriminate|]. rewrite Eo in Hp. cbn [pr_forb repeat_prior] in Hp.
  unfold forb_repeat in Hp. rewrite (obs_of_actions _ _ _ Eo) in Hp.
  rewrite In_when in Hp. destruct (Nat.leb m (count_in toks l')) eqn:E.
  - assert (count_in toks [t] = 0) as ->; [|lia].
    unfold count_in. cbn [filter]. destruct (memb t toks) eqn:Em; [|reflexivity].
    exfalso. apply Hp. split; [auto|]. apply memb_In. exact Em.
  - apply Nat.leb_gt in E. lia.
Qed.
Theorem repeat_mask_exact lib toks m l t : l <> [] ->
  (In t (forbidden lib (repeat_prior toks m) l) <-> In t toks /\ m <= count_in toks l).
Proof.
  intros Hl. unfold forbidden. destruct l as [|x l]; [congruence|]. set (l' := x :: l) in *.
  destruct (obs_of_Ok lib l') as (o & Eo); [discriminate|]. rewrite Eo. cbn [pr_forb repeat_prior]. unfold forb_repeat.
  rewrite (obs_of_actions _ _ _ Eo), In_when, Nat.leb_le. tauto.
Qed.
