(** Length, no-inputs and joint (no deadlock) facts about the priors. *)
From Verif Require Import Base Trees TreeFacts TreePos Library LibraryFacts Subroutines SubroutinesFacts Prior PriorSpec PriorFacts.

Lemma forbidden_obs lib p l : l <> [] -> exists o, obs_of lib l = Ok o /\ o_actions o = l /\
  o_dangling o = dangling_of lib l /\ forbidden lib p l = pr_forb p o.
Proof.
  intros H. destruct (obs_of_Ok lib l H) as (o & E). exists o.
  split; [exact E|]. split; [eapply obs_of_actions; eauto|]. split; [eapply obs_of_dangling; eauto|].
  unfold forbidden. destruct l; [congruence|]. rewrite E. reflexivity.
Qed.

Lemma arity_class lib : lib_ok lib -> forall t, 
  (In t (lterminal lib) <-> t < lL lib /\ ar_of lib t = 0) /\
  (In t (lunary lib) <-> t < lL lib /\ ar_of lib t = 1) /\
  (In t (lbinary lib) <-> t < lL lib /\ ar_of lib t = 2).
Proof.
  intros [(toks & _ & H) _] t. pose proof (make_library_inv _ _ H) as (E1 & E2 & E3 & E4 & E5 & E6 & E7 & _).
  rewrite E5, E6, E7, !(tokens_of_arity_ar _ _ _ _ H). tauto.
Qed.

(** A list either has a complete prefix or still has open slots. *)
Lemma slots_dichotomy (ar : nat -> nat) l : forall k,
  (exists j, slots ar (S k) l = Some (S j)) \/ (exists l1 l2, l = l1 ++ l2 /\ slots ar (S k) l1 = Some 0).
Proof.
  induction l as [|t l IH]; intros k; cbn [slots].
  - left. eauto.
  - destruct (ar t + k) as [|m] eqn:E.
    + right. exists [t], l. split; [reflexivity|]. cbn [slots]. rewrite E. reflexivity.
    + destruct (IH m) as [(j & Ej)|(l1 & l2 & -> & E2)].
      * left. eauto.
      * right. exists (t :: l1), l2. split; [reflexivity|]. cbn [slots]. rewrite E. exact E2.
Qed.

Lemma slots_bound (ar : nat -> nat) (Har : forall t, ar t <= 2) l : forall k j,
  slots ar k l = Some j -> j <= k + List.length l.
Proof.
  induction l as [|t l IH]; intros k j; cbn [slots List.length]; [intros [= ->]; lia|].
  destruct k as [|k]; [discriminate|]. intros H. apply IH in H. specialize (Har t). lia.
Qed.

Lemma dangling_slots lib l j : slots (ar_of lib) 1 l = Some j -> dangling_of lib l = Z.of_nat j.
Proof. intros H. rewrite dangling_asum. apply slots_asum in H. lia. Qed.

(** *** Maximum length *)
Lemma length_max_inv lib ps mn mx l : lib_ok lib -> 3 <= mx -> In (length_prior lib mn (Some mx)) ps ->
  sampled lib ps l -> forall j, slots (ar_of lib) 1 l = Some (S j) -> S j + List.length l <= mx.
Proof.
  intros Hl Hmx Hin. induction 1 as [|l t Hs IH [Ht Hp]]; intros j Hj.
  - cbn in Hj. injection Hj as <-. cbn. lia.
  - rewrite slots_app in Hj. destruct (slots (ar_of lib) 1 l) as [k|] eqn:Ek; [|discriminate].
    cbn [slots] in Hj. destruct k as [|k]; [discriminate|]. injection Hj as Hj.
    specialize (IH k eq_refl). rewrite app_length. cbn [List.length].
    pose proof (proj2 Hl t) as Har. specialize (Hp _ Hin).
    destruct l as [|x l0] eqn:El.
    + cbn in Ek. injection Ek as <-. cbn. lia.
    + rewrite <- El in *. assert (l <> []) as Hne by (rewrite El; discriminate).
      destruct (forbidden_obs lib (length_prior lib mn (Some mx)) l Hne) as (o & Eo & Ea & Ed & Ef).
      rewrite Ef in Hp. cbn [pr_forb length_prior] in Hp. unfold forb_length in Hp. rewrite Ea, Ed in Hp.
      rewrite (dangling_slots _ _ _ Ek) in Hp.
      pose proof (slots_bound _ (proj2 Hl) _ _ _ Ek) as Hb.
      pose proof (arity_class lib Hl t) as (_ & Hu & Hbin).
      destruct (Z.leb_spec (Z.of_nat (mx / 2)) (Z.of_nat (List.length l) - 1 + 2)) as [Hg|Hg].
      * rewrite !in_app_iff, !In_when in Hp.
        assert (ar_of lib t = 0 \/ ar_of lib t = 1 \/ ar_of lib t = 2) as [A|[A|A]] by lia.
        -- lia.
        -- destruct (Z.eqb_spec (Z.of_nat (S k)) (Z.of_nat mx - (Z.of_nat (List.length l) - 1 + 1))) as [E|E].
           ++ exfalso. apply Hp. left. right. split; [reflexivity|]. apply Hu. auto.
           ++ lia.
        -- destruct (Z.leb_spec (Z.of_nat mx - (Z.of_nat (List.length l) - 1 + 1) - 1) (Z.of_nat (S k))) as [E|E].
           ++ exfalso. apply Hp. left. left. split; [reflexivity|]. apply Hbin. auto.
           ++ lia.
      * pose proof (Nat.div_mod mx 2 ltac:(lia)). lia.
Qed.

Theorem sampled_length_max lib ps mn mx l : lib_ok lib -> 3 <= mx -> In (length_prior lib mn (Some mx)) ps ->
  sampled lib ps l -> List.length l = mx ->
  exists t rest, l = preorder t ++ rest /\ respects (ar_of lib) t.
Proof.
  intros Hl Hmx Hin Hs Hlen. destruct (slots_dichotomy (ar_of lib) l 0) as [(j & Ej)|(l1 & l2 & -> & E)].
  - pose proof (length_max_inv _ _ _ _ _ Hl Hmx Hin Hs j Ej). lia.
  - apply complete_slots in E. destruct E as (t & Hr & <-). eauto.
Qed.

(** *** Minimum length and non-terminal root *)
Lemma last_token (ar : nat -> nat) t : respects ar t -> exists l z, preorder t = l ++ [z] /\ slots ar 1 l = Some 1 /\ ar z = 0.
Proof.
  intros Hr. pose proof (slots_tree ar t Hr 0) as Hs.
  assert (preorder t <> []) as Hne by (destruct t; discriminate).
  destruct (exists_last Hne) as (l & z & E). exists l, z. split; [exact E|].
  rewrite E, slots_app in Hs. destruct (slots ar 1 l) as [k|]; [|discriminate]. cbn [slots] in Hs.
  destruct k as [|k]; [discriminate|]. injection Hs as Hs. replace k with 0 by lia. split; [reflexivity|lia].
Qed.

Theorem sampled_root lib ps mn mx t rest : lib_ok lib -> In (length_prior lib mn mx) ps ->
  respects (ar_of lib) t -> sampled lib ps (preorder t ++ rest) -> 0 < ar_of lib (root t).
Proof.
  intros Hl Hin Hr Hs. destruct t as [a cs]. cbn [preorder List.app root] in *.
  change (a :: flat_map preorder cs ++ rest) with ([] ++ a :: (flat_map preorder cs ++ rest)) in Hs.
  apply sampled_nth in Hs as [Ha Hp]. specialize (Hp _ Hin). cbn [forbidden length_prior pr_init] in Hp.
  destruct (ar_of lib a) eqn:E; [|lia]. exfalso. apply Hp. apply (arity_class lib Hl). auto.
Qed.

Theorem sampled_length_min lib ps mn mx t rest : lib_ok lib -> In (length_prior lib (Some mn) mx) ps ->
  respects (ar_of lib) t -> sampled lib ps (preorder t ++ rest) -> mn <= List.length (preorder t).
Proof.
  intros Hl Hin Hr Hs. pose proof (sampled_root _ _ _ _ _ _ Hl Hin Hr Hs) as Hroot.
  destruct (last_token _ _ Hr) as (l & z & E & Es & Hz). rewrite E, <- app_assoc in Hs.
  destruct (Nat.le_gt_cases mn (List.length (preorder t))) as [|Hlt]; [auto|]. exfalso.
  apply sampled_nth in Hs as [Ha Hp]. specialize (Hp _ Hin).
  assert (l <> []) as Hne.
  { intros ->. destruct t as [a cs]. cbn in E. injection E as <- _. cbn in Hroot. lia. }
  destruct (forbidden_obs lib (length_prior lib (Some mn) mx) l Hne) as (o & Eo & Ea & Ed & Ef).
  rewrite Ef in Hp. cbn [pr_forb length_prior] in Hp. unfold forb_length in Hp. rewrite Ea, Ed in Hp.
  apply Hp. rewrite (dangling_slots _ _ _ Es). apply in_app_iff. right.
  rewrite E, app_length in Hlt. cbn [List.length] in Hlt.
  destruct (Z.ltb_spec (Z.of_nat (List.length l) - 1 + 2) (Z.of_nat mn)); [|lia].
  apply In_when. split; [reflexivity|]. apply (arity_class lib Hl). auto.
Qed.

(** *** The length prior alone never deadlocks *)
Theorem length_no_deadlock lib mn mx l : lib_ok lib -> 3 <= mx ->
  (exists t, t < lL lib /\ ar_of lib t = 0) ->
  (match mn with
   | None => exists t, t < lL lib /\ 0 < ar_of lib t
   | Some m => (m <= mx /\ exists t, t < lL lib /\ ar_of lib t = 1) \/ (m < mx /\ exists t, t < lL lib /\ 0 < ar_of lib t)
   end) ->
  sampled lib [length_prior lib mn (Some mx)] l -> List.length l < mx ->
  exists t, permitted lib [length_prior lib mn (Some mx)] l t.
Proof.
  intros Hl Hmx (z & Hz1 & Hz2) Hmn Hs Hlen.
  set (p := length_prior lib mn (Some mx)) in *.
  assert (forall t, t < lL lib -> ~ In t (forbidden lib p l) -> exists t, permitted lib [p] l t) as Hdone.
  { intros t Ht Hn. exists t. split; [auto|]. intros q [<-|[]]. exact Hn. }
  destruct l as [|x l0] eqn:El.
  { assert (exists t, t < lL lib /\ 0 < ar_of lib t) as (t & H1 & H2).
    { destruct mn as [m|]; [|auto]. destruct Hmn as [(_ & t & H1 & H2)|(_ & Hm)]; [|auto]. exists t. split; [auto|lia]. }
    apply (Hdone t H1). cbn [forbidden p length_prior pr_init]. intros Hin. apply (arity_class lib Hl) in Hin. lia. }
  rewrite <- El in *. assert (l <> []) as Hne by (rewrite El; discriminate). clear El.
  destruct (forbidden_obs lib p l Hne) as (o & Eo & Ea & Ed & Ef). rewrite Ef in Hdone.
  cbn [p pr_forb length_prior] in Hdone. unfold forb_length in Hdone. rewrite Ea, Ed in Hdone.
  set (n := List.length l) in *. set (d := dangling_of lib l) in *.
  set (i := (Z.of_nat n - 1)%Z) in *.
  destruct (match mn with Some m => (i + 2 <? Z.of_nat m)%Z && (d =? 1)%Z | None => false end) eqn:Hmin.
  2:{ apply (Hdone z Hz1). intros Hin. apply in_app_iff in Hin as [Hin|Hin].
      - destruct (Z.of_nat (mx / 2) <=? i + 2)%Z; [|destruct Hin].
        apply in_app_iff in Hin as [Hin|Hin]; apply In_when in Hin as [_ Hin];
        apply (arity_class lib Hl) in Hin; lia.
      - destruct mn as [m|]; [|destruct Hin]. destruct (i + 2 <? Z.of_nat m)%Z; [|destruct Hin].
        apply In_when in Hin as [Hin _]. rewrite Hin in Hmin. discriminate. }
  destruct mn as [m|]; [|discriminate]. apply andb_true_iff in Hmin as [Hm1 Hd].
  apply Z.ltb_lt in Hm1. apply Z.eqb_eq in Hd.
  assert (exists t, t < lL lib /\ (ar_of lib t = 1 /\ m <= mx \/ 0 < ar_of lib t /\ m < mx)) as (t & Ht & Hcase).
  { destruct Hmn as [(A & t & H1 & H2)|(A & t & H1 & H2)]; exists t; auto. }
  apply (Hdone t Ht). intros Hin. apply in_app_iff in Hin as [Hin|Hin].
  - destruct (Z.of_nat (mx / 2) <=? i + 2)%Z; [|destruct Hin].
    apply in_app_iff in Hin as [Hin|Hin]; apply In_when in Hin as [Hc Hin];
    apply (arity_class lib Hl) in Hin as [_ Hin].
    + apply Z.leb_le in Hc. unfold i in *. lia.
    + apply Z.eqb_eq in Hc. unfold i in *. lia.
  - destruct (i + 2 <? Z.of_nat m)%Z; [|destruct Hin]. apply In_when in Hin as [_ Hin].
    apply (arity_class lib Hl) in Hin. lia.
Qed.

(** ** No-inputs constraint *)
Lemma lib_state lib : lib_ok lib -> forall t, In t (lterminal lib) -> ~ In t (lnon_state lib) -> In t (lstate_tokens lib).
Proof.
  intros [(toks & _ & H) _] t. unfold make_library in H.
  destruct (_ && _) in H; [discriminate|]. injection H as <-. cbn [lterminal lnon_state lstate_tokens].
  unfold tokens_of_arity. rewrite !indices_spec. intros (x & E1 & E2) Hn.
  exists x. split; [auto|]. destruct (is_some (tstate x)) eqn:Es; [reflexivity|].
  exfalso. apply Hn. exists x. split; [auto|]. rewrite E2, Es. reflexivity.
Qed.

Theorem sampled_state_var lib ps mn mx t rest : lib_ok lib ->
  In (no_inputs_prior lib) ps -> In (length_prior lib mn mx) ps ->
  respects (ar_of lib) t -> sampled lib ps (preorder t ++ rest) ->
  exists s, In s (lstate_tokens lib) /\ In s (preorder t).
Proof.
  intros Hl Hin Hin2 Hr Hs. pose proof (sampled_root _ _ _ _ _ _ Hl Hin2 Hr Hs) as Hroot.
  destruct (last_token _ _ Hr) as (l & z & E & Es & Hz). rewrite E, <- app_assoc in Hs.
  apply sampled_nth in Hs as [Ha Hp]. specialize (Hp _ Hin).
  assert (l <> []) as Hne.
  { intros ->. destruct t as [a cs]. cbn in E. injection E as <- _. cbn in Hroot. lia. }
  destruct (forbidden_obs lib (no_inputs_prior lib) l Hne) as (o & Eo & Eact & Ed & Ef).
  rewrite Ef in Hp. cbn [pr_forb no_inputs_prior] in Hp. unfold forb_no_inputs in Hp.
  rewrite Eact, Ed, (dangling_slots _ _ _ Es), In_when in Hp.
  destruct (Nat.eqb_spec (count_in (lstate_tokens lib) l) 0) as [E0|E0].
  - exists z. rewrite E. split; [|apply in_app_iff; right; left; auto].
    apply (lib_state lib Hl); [apply (arity_class lib Hl); auto|]. intros Hn. apply Hp. auto.
  - unfold count_in in E0. destruct (filter (fun t => memb t (lstate_tokens lib)) l) as [|s r] eqn:Efl; [cbn in E0; lia|].
    assert (In s (filter (fun t => memb t (lstate_tokens lib)) l)) as Hsin by (rewrite Efl; left; auto).
    apply filter_In in Hsin as [H1 H2]. apply memb_In in H2. exists s. rewrite E. split; [auto|]. apply in_app_iff; auto.
Qed.

(** ** Decomposition of any token list: finished expressions, then a position. *)
Lemma decompose lib z l : ar_of lib z = 0 ->
  exists prev c, l = flat_map preorder prev ++ before c /\ Forall (respects (ar_of lib)) prev /\ ctx_ok (ar_of lib) c.
Proof.
  intros Hz. remember (List.length l) as n eqn:En. revert l En. induction n as [n IH] using lt_wf_ind. intros l ->.
  destruct (slots_dichotomy (ar_of lib) l 0) as [(j & Ej)|(l1 & l2 & -> & E)].
  - pose proof (slots_complete_ext (ar_of lib) l j Ej z Hz) as Hc. apply complete_slots in Hc. destruct Hc as (t & Hr & Et).
    assert (exists e, nth_error (nodes [] t) (List.length l) = Some e) as ([a c] & Hn).
    { destruct (nth_error (nodes [] t) (List.length l)) eqn:E; [eauto|]. apply nth_error_None in E.
      rewrite <- (map_length fst), nodes_labels, Et, app_length in E. cbn in E. lia. }
    destruct (nodes_before _ t Hr [] (Forall_nil _) _ _ _ Hn) as [B1 B2]. cbn [before List.app] in B1.
    exists [], c. split; [|auto]. cbn [flat_map List.app]. rewrite <- B1, Et, firstn_app, firstn_all, Nat.sub_diag.
    cbn [firstn]. rewrite app_nil_r. reflexivity.
  - assert (l1 <> []) as Hne by (intros ->; discriminate).
    destruct (IH (List.length l2)) with (l := l2) as (prev & c & -> & H1 & H2); [|reflexivity|].
    { rewrite app_length. destruct l1; [congruence|]. cbn. lia. }
    apply complete_slots in E. destruct E as (t & Hr & <-).
    exists (t :: prev), c. cbn [flat_map]. rewrite app_assoc. auto.
Qed.
