(** The joint prior of the default PDE configuration never deadlocks. *)
From Verif Require Import Base Trees TreeFacts TreePos Library LibraryFacts Subroutines SubroutinesFacts Prior PriorSpec PriorFacts LengthFacts.

(** config/config_pde.json:"prior" with the entries that are on: length, repeat
    (one token), inverse, trig, soft_length, diff_left, diff_right,
    diff_descedent; make_prior (prior.py:18-90) keeps those that validate. *)
Definition default_priors (lib : library) (mx rep_tok rep_max : nat) (inv : list (nat * nat)) : list prior :=
  [length_prior lib (Some 3) (Some mx); repeat_prior [rep_tok] rep_max; inverse_prior lib inv;
   trig_prior lib; soft_prior; diff_left_prior lib; diff_right_prior lib; diff_des_prior lib].

(** Tokens no optional rule singles out. *)
Definition plain (lib : library) (rep_tok : nat) (inv : list (nat * nat)) (t : nat) : Prop :=
  t < lL lib /\ t <> rep_tok /\ ~ In t (ltrig lib) /\ ~ In t (diff_des_targets lib) /\ ~ In t (map fst inv).

Lemma lib_diff_lt lib : lib_ok lib -> forall t, In t (ldiff lib) -> t < lL lib.
Proof.
  intros [(toks & _ & H) _] t. unfold make_library in H.
  destruct (_ && _) in H; [discriminate|]. injection H as <-. cbn [ldiff lL].
  rewrite indices_spec. intros (x & E & _). apply nth_error_Some. congruence.
Qed.
Lemma lib_input_lt lib : lib_ok lib -> forall t, In t (linput_tokens lib) -> t < lL lib /\ ar_of lib t = 0.
Proof. intros [(toks & H1 & H2) _] t. eapply input_tokens_terminal; eauto. Qed.
Lemma lib_const_lt lib : lib_ok lib -> forall t, lconst_token lib = Some t -> t < lL lib.
Proof.
  intros [(toks & _ & H) _] t. unfold make_library in H.
  destruct (_ && _) in H; [discriminate|]. injection H as <-. cbn [lconst_token lL].
  rewrite index_of_spec. intros ((x & E & _) & _). rewrite nth_error_map in E.
  destruct (nth_error toks t) eqn:E2; [|discriminate]. apply nth_error_Some. congruence.
Qed.

Theorem default_no_deadlock lib mx rep_tok rep_max inv ps l :
  lib_ok lib -> 4 <= mx ->
  (forall d, In d (ldiff lib) -> ar_of lib d = 2) ->
  (exists x, plain lib rep_tok inv x /\ In x (linput_tokens lib)) ->
  (exists u, plain lib rep_tok inv u /\ ar_of lib u = 0 /\ ~ In u (linput_tokens lib)) ->
  (exists m, plain lib rep_tok inv m /\ 0 < ar_of lib m) ->
  (forall p, In p ps -> In p (default_priors lib mx rep_tok rep_max inv)) ->
  In (length_prior lib (Some 3) (Some mx)) ps ->
  sampled lib ps l ->
  exists t, permitted lib ps l t.
Proof.
  intros Hl Hmx Hd2 (x & Px & Hx) (u & Pu & Hu0 & Hui) (m & Pm & Hm) Hps Hlen Hs.
  pose proof (lib_input_lt lib Hl x Hx) as [Hxl Hx0].
  destruct l as [|x0 l0] eqn:El.
  { exists m. split; [apply Pm|]. intros p Hp. apply Hps in Hp. cbn [default_priors In] in Hp.
    destruct Hp as [<-|[<-|[<-|[<-|[<-|[<-|[<-|[<-|[]]]]]]]]]; cbn; try tauto.
    intros Hin. apply (arity_class lib Hl) in Hin. lia. }
  rewrite <- El in *. assert (l <> []) as Hne by (rewrite El; discriminate). clear El x0 l0.
  destruct (decompose lib u l Hu0) as (prev & c & El & Hprev & Hc).
  assert (in_lib lib l) as Hinl by (eapply sampled_in_lib; eauto).
  assert (targets_ok lib (diff_left_targets lib)) as Tl.
  { intros e He. unfold diff_left_targets in He. apply in_app_iff in He as [He|He].
    - destruct (lconst_token lib) as [k|] eqn:Ek; [|destruct He]. destruct He as [<-|[]]. eapply lib_const_lt; eauto.
    - apply lib_input_lt in He; tauto. }
  assert (targets_ok lib (diff_right_targets lib)) as Tr.
  { intros e He. unfold diff_right_targets in He. rewrite !in_app_iff, filter_In in He.
    destruct (arity_class lib Hl e) as (A & B & C). rewrite A, B, C in He. tauto. }
  assert (forall r, effectors_ok lib r (ldiff lib)) as Ed.
  { intros r e He. split; [eapply lib_diff_lt; eauto|]. specialize (Hd2 e He). destruct r; auto; lia. }
  (* generic step: a plain token is forbidden only by length, diff_left, diff_right *)
  assert (forall t, plain lib rep_tok inv t ->
     ~ In t (forbidden lib (length_prior lib (Some 3) (Some mx)) l) ->
     ~ in_relation (ar_of lib) RLChild (diff_left_targets lib) (ldiff lib) t c ->
     ~ in_relation (ar_of lib) RRChild (diff_right_targets lib) (ldiff lib) t c ->
     permitted lib ps l t) as Hgen.
  { intros t (P1 & P2 & P3 & P4 & P5) HA HB HC. split; [auto|]. intros p Hp. apply Hps in Hp. cbn [default_priors In] in Hp.
    destruct Hp as [<-|[<-|[<-|[<-|[<-|[<-|[<-|[<-|[]]]]]]]]]; auto.
    - intros Hin. apply repeat_mask_exact in Hin as [[Hin|[]] _]; auto.
    - destruct (forbidden_obs lib (inverse_prior lib inv) l Hne) as (o & Eo & Ea & Edg & Ef). rewrite Ef.
      cbn [pr_forb inverse_prior]. intros Hin. apply in_flat_map in Hin as ([a b] & Hab & Hin).
      cbn [forb_rel fst snd] in Hin. apply In_when in Hin as [_ [<-|[]]]. apply P5. apply in_map_iff. exists (a, b). auto.
    - destruct (forbidden_obs lib (trig_prior lib) l Hne) as (o & Eo & Ea & Edg & Ef). rewrite Ef.
      cbn [pr_forb trig_prior rel_prior forb_rel]. rewrite In_when. tauto.
    - destruct (forbidden_obs lib soft_prior l Hne) as (o & Eo & Ea & Edg & Ef). rewrite Ef. cbn. tauto.
    - rewrite El. intros Hin. apply HB. apply (mask_exact lib RLChild _ _ prev c t) in Hin; auto; try (rewrite <- El; auto). discriminate.
    - rewrite El. intros Hin. apply HC. apply (mask_exact lib RRChild _ _ prev c t) in Hin; auto; try (rewrite <- El; auto). discriminate.
    - destruct (forbidden_obs lib (diff_des_prior lib) l Hne) as (o & Eo & Ea & Edg & Ef). rewrite Ef.
      cbn [pr_forb diff_des_prior rel_prior forb_rel]. rewrite In_when. tauto. }
  destruct (forbidden_obs lib (length_prior lib (Some 3) (Some mx)) l Hne) as (o & Eo & Ea & Edg & Ef).
  rewrite Ef in Hgen. cbn [pr_forb length_prior] in Hgen. unfold forb_length in Hgen. rewrite Ea, Edg in Hgen.
  assert (forall t, ar_of lib t = 0 -> ~ (List.length l = 1 /\ dangling_of lib l = 1%Z) ->
     ~ In t ((if (Z.of_nat (mx / 2) <=? Z.of_nat (List.length l) - 1 + 2)%Z
               then when (Z.of_nat mx - (Z.of_nat (List.length l) - 1 + 1) - 1 <=? dangling_of lib l)%Z (lbinary lib) ++
                    when (dangling_of lib l =? Z.of_nat mx - (Z.of_nat (List.length l) - 1 + 1))%Z (lunary lib)
               else []) ++
              (if (Z.of_nat (List.length l) - 1 + 2 <? Z.of_nat 3)%Z then when (dangling_of lib l =? 1)%Z (lterminal lib) else []))) as Hterm.
  { intros t Ht Hn Hin. apply in_app_iff in Hin as [Hin|Hin].
    - destruct (_ <=? _)%Z; [|destruct Hin].
      apply in_app_iff in Hin as [Hin|Hin]; apply In_when in Hin as [_ Hin]; apply (arity_class lib Hl) in Hin; lia.
    - destruct (Z.ltb_spec (Z.of_nat (List.length l) - 1 + 2) (Z.of_nat 3)) as [Hlt|]; [|destruct Hin].
      apply In_when in Hin as [Hin _]. apply Z.eqb_eq in Hin. apply Hn. split; [|auto].
      destruct l; [congruence|]. cbn [List.length] in *. lia. }
  (* after a single unary root *)
  destruct (Nat.eq_dec (List.length l) 1) as [L1|L1]; [destruct (Z.eq_dec (dangling_of lib l) 1) as [D1|D1]|].
  - destruct l as [|r [|]]; try discriminate. rewrite dangling_asum in D1. cbn [asum] in D1.
    assert (ar_of lib r = 1) as Hr1 by lia.
    assert (forall e, In e (ldiff lib) -> parent_of c <> Some e) as Hnd.
    { intros e He Hp. specialize (Hd2 e He). destruct c as [|[a ls] c']; [discriminate|]. injection Hp as ->.
      cbn [before] in El. assert (In e [r]) as Hin by (rewrite El, !in_app_iff; cbn; auto).
      destruct Hin as [->|[]]. lia. }
    exists m. apply Hgen; auto.
    + intros Hin. apply in_app_iff in Hin as [Hin|Hin].
      * destruct (_ <=? _)%Z; [|destruct Hin].
        apply in_app_iff in Hin as [Hin|Hin]; apply In_when in Hin as [Hb Hin].
        -- apply Z.leb_le in Hb. rewrite dangling_asum in Hb. cbn [List.length asum] in *. lia.
        -- apply Z.eqb_eq in Hb. rewrite dangling_asum in Hb. cbn [List.length asum] in *. lia.
      * destruct (_ <? _)%Z; [|destruct Hin]. apply In_when in Hin as [_ Hin]. apply (arity_class lib Hl) in Hin. lia.
    + intros (_ & e & He & Hp & _). eapply Hnd; eauto.
    + intros (_ & e & He & Hp & _). eapply Hnd; eauto.
  - (* fallthrough: terminals allowed *)
    destruct (left_sibling c) as [s|] eqn:Es.
    + exists x. apply Hgen; auto.
      * apply Hterm; [auto|]. intros [_ ?]; auto.
      * intros (_ & e & _ & _ & H0). congruence.
      * intros (Hin & _). unfold diff_right_targets in Hin. rewrite !in_app_iff, filter_In in Hin.
        destruct (arity_class lib Hl x) as (A & B & C). rewrite B, C in Hin.
        destruct Hin as [Hin|[Hin|[_ Hin]]]; [lia|lia|]. apply negb_true_iff, memb_nIn in Hin. auto.
    + exists u. apply Hgen; auto.
      * apply Hterm; [auto|]. intros [_ ?]; auto.
      * intros (Hin & _). unfold diff_left_targets in Hin. apply in_app_iff in Hin as [Hin|Hin]; [|auto].
        destruct Pu as (_ & _ & _ & P4 & _). apply P4. unfold diff_des_targets. apply in_app_iff. auto.
      * intros (_ & e & _ & _ & H0). congruence.
  - destruct (left_sibling c) as [s|] eqn:Es.
    + exists x. apply Hgen; auto.
      * apply Hterm; [auto|]. intros [? _]; auto.
      * intros (_ & e & _ & _ & H0). congruence.
      * intros (Hin & _). unfold diff_right_targets in Hin. rewrite !in_app_iff, filter_In in Hin.
        destruct (arity_class lib Hl x) as (A & B & C). rewrite B, C in Hin.
        destruct Hin as [Hin|[Hin|[_ Hin]]]; [lia|lia|]. apply negb_true_iff, memb_nIn in Hin. auto.
    + exists u. apply Hgen; auto.
      * apply Hterm; [auto|]. intros [? _]; auto.
      * intros (Hin & _). unfold diff_left_targets in Hin. apply in_app_iff in Hin as [Hin|Hin]; [|auto].
        destruct Pu as (_ & _ & _ & P4 & _). apply P4. unfold diff_des_targets. apply in_app_iff. auto.
      * intros (_ & e & _ & _ & H0). congruence.
Qed.
