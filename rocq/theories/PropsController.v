(** C126, C127: sampling of expressions by the policy network and the probabilities its training uses. *)
From Coq Require Import QArith.
From Verif Require Import Base Num Library Subroutines Prior PriorSpec PriorFacts EqGpt Controller ExampleLib.
Local Open Scope nat_scope.
Local Open Scope list_scope.

(** ** Specification *)
(** What the policy is shown after the tokens [l]: the previous token, and parent, left sibling and number of open slots
    of the node to be chosen next (C05 says that [obs_of] gives those of the expression tree); "empty" at the start. *)
Definition seen (lib : library) (l : list nat) : ob :=
  match obs_of lib l with
  | Ok o => mkOb (last l 0) (o_parent o) (o_sibling o) (o_dangling o)
  | Err _ => mkOb (lL lib) (Z.of_nat (lEMPTY_PARENT lib)) (lL lib) 1
  end.
(** The prior logits after the tokens [l]. *)
Definition allowed (lib : library) (ps : list prior) (soft0 : nat -> Q) (soft : pobs -> nat -> Q) (l : list nat) : list logit :=
  match obs_of lib l with Ok o => prior_logits lib ps soft o | Err _ => init_logits lib ps soft0 end.
Definition set_dangling (o : ob) (d : Z) : ob := mkOb (ob_action o) (ob_parent o) (ob_sibling o) d.

(** ** Lemmas *)
Lemma obs_nil lib : obs_of lib [] = Err IndexError. Proof. reflexivity. Qed.
Lemma dangling_snoc lib l a : dangling_of lib (l ++ [a]) = (dangling_of lib l + (Z.of_nat (ar_of lib a) - 1))%Z.
Proof. unfold dangling_of. rewrite fold_left_app. reflexivity. Qed.
Lemma seen_dangling lib l : ob_dangling (seen lib l) = dangling_of lib l.
Proof.
  unfold seen. destruct l as [|a l]; [reflexivity|].
  destruct (obs_of_Ok lib (a :: l)) as (o & E); [discriminate|]. rewrite E. cbn [ob_dangling]. eapply obs_of_dangling; eauto.
Qed.
Lemma next_obs lib ps soft0 soft l a :
  get_next_obs lib ps soft (l ++ [a]) (seen lib l) =
  Ok (seen lib (l ++ [a]), allowed lib ps soft0 soft (l ++ [a]), set_dangling (seen lib l) (dangling_of lib (l ++ [a]))).
Proof.
  destruct (obs_of_Ok lib (l ++ [a])) as (o & E); [destruct l; discriminate|].
  replace (seen lib (l ++ [a])) with (mkOb a (o_parent o) (o_sibling o) (o_dangling o)) by (unfold seen; rewrite E, last_last; reflexivity).
  unfold get_next_obs, allowed. rewrite E. rewrite seen_dangling, last_last.
  unfold obs_of in E. destruct (parents_siblings _ _ _ _ _) as [[p s]|]; cbn [bind] in E |- *; [|discriminate]. injection E as <-.
  cbn [fst snd o_parent o_sibling o_dangling]. rewrite dangling_snoc. reflexivity.
Qed.
Lemma multinomial_some k lg a : multinomial k lg = Ok a -> exists q, nth_error lg a = Some (Some q).
Proof.
  unfold multinomial. destruct (indices is_some lg) as [|x l] eqn:E; [discriminate|]. intros [= <-].
  assert (In (nth (k mod List.length (x :: l)) (x :: l) 0) (indices is_some lg)) as I.
  { rewrite E. apply nth_In. apply Nat.mod_upper_bound. discriminate. }
  apply indices_spec in I as ([q|] & E1 & E2); [|discriminate]. exists q. exact E1.
Qed.
Lemma nth_map2 {A B C} (f : A -> B -> C) la lb i z : nth_error (map2 f la lb) i = Some z ->
  exists x y, nth_error la i = Some x /\ nth_error lb i = Some y /\ z = f x y.
Proof.
  unfold map2. revert lb i. induction la as [|a la IH]; intros [|b lb] [|i] E; cbn in E; try discriminate.
  - injection E as <-. exists a, b. auto.
  - destruct (IH lb i E) as (x & y & E1 & E2 & ->). exists x, y. auto.
Qed.
Lemma add_some out pr i q : nth_error (add_logits out pr) i = Some (Some q) -> exists p, nth_error pr i = Some (Some p).
Proof. intros E. apply nth_map2 in E as (o & p & E1 & E2 & E3). destruct p as [p|]; [|discriminate]. eauto. Qed.
Lemma seq_nth n i k : nth_error (seq 0 n) i = Some k -> i = k /\ k < n.
Proof.
  intros E. assert (i < n) as Hi. { rewrite <- (seq_length n 0). apply nth_error_Some. rewrite E. discriminate. }
  apply (nth_error_nth _ _ 0) in E. rewrite seq_nth in E; lia.
Qed.
Lemma allowed_permitted lib ps soft0 soft l i q : nth_error (allowed lib ps soft0 soft l) i = Some (Some q) -> permitted lib ps l i.
Proof.
  unfold allowed, permitted, Prior.forbidden. intros E. destruct l as [|a l].
  - rewrite obs_nil in E. unfold init_logits in E. rewrite nth_error_map in E.
    destruct (nth_error (seq 0 (lL lib)) i) as [k|] eqn:Ek; cbn in E; [|discriminate]. apply seq_nth in Ek as [<- Hk].
    split; [exact Hk|]. intros p Hp Hin. destruct (existsb (fun p => memb i (pr_init p)) ps) eqn:Ex; [discriminate|].
    assert (existsb (fun p => memb i (pr_init p)) ps = true) as C; [|congruence]. apply existsb_exists. exists p. split; [exact Hp|]. apply memb_In. exact Hin.
  - destruct (obs_of_Ok lib (a :: l)) as (o & Eo); [discriminate|]. rewrite Eo in E |- *. unfold prior_logits in E. rewrite nth_error_map in E.
    destruct (nth_error (seq 0 (lL lib)) i) as [k|] eqn:Ek; cbn [option_map] in E; [|discriminate]. apply seq_nth in Ek as [<- Hk].
    split; [exact Hk|]. intros p Hp Hin. destruct (existsb (fun p => memb i (pr_forb p o)) ps) eqn:Ex; [discriminate|].
    assert (existsb (fun p => memb i (pr_forb p o)) ps = true) as C; [|congruence]. apply existsb_exists. exists p. split; [exact Hp|]. apply memb_In. exact Hin.
Qed.

Section Episode.
Variables (H : Type) (cell : H -> list Z -> list Q * H) (zero : H).
Variables (lib : library) (m : manager) (ps : list prior) (soft0 : nat -> Q) (soft : pobs -> nat -> Q).
Variables (draw : nat -> nat) (max_length : nat).
Notation sees := (seen lib).
Notation allows := (allowed lib ps soft0 soft).

(** The logits from which the token after [l] is drawn. *)
Definition step_logits (l : list nat) : res (list logit) :=
  do x <- get_tensor_input lib m (List.length l =? 0) (sees l) ; Ok (add_logits (fst (cell zero x)) (allows l)).
(** one token more *)
Definition recorded (l : list nat) (t : nat) : ob := set_dangling (sees (firstn t l)) (dangling_of lib (firstn (S t) l)).

(** the state of the loop after the tokens [l] *)
Definition steps_of (n : nat) : nat := Nat.max 1 n.
Definition at_state (l : list nat) : lstate :=
  mkL l (map (recorded l) (seq 0 (List.length l))) (map (fun t => allows (firstn t l)) (seq 0 (List.length l)))
      (sees l) (allows l) (Nat.min (S (List.length l)) (steps_of max_length)) (steps_of max_length <=? List.length l).


Lemma at_start : (exists toks, make_library toks = Ok lib) -> loop_start lib ps soft0 = at_state [].
Proof.
  intros (toks & E). assert (lEMPTY_ACTION lib = lL lib /\ lEMPTY_SIBLING lib = lL lib) as [E1 E2].
  { unfold make_library in E. destruct (_ && _) in E; [discriminate|]. injection E as <-. cbn. lia. }
  unfold loop_start, at_state, steps_of, initial_ob. unfold seen, allowed. rewrite obs_nil. cbn [List.length seq map].
  rewrite (proj2 (Nat.leb_gt _ _)) by lia. rewrite Nat.min_l by lia. rewrite E1, E2. reflexivity.
Qed.

Lemma firstn_le_app {A} t (l r : list A) : t <= List.length l -> firstn t (l ++ r) = firstn t l.
Proof. intros Ht. rewrite firstn_app. replace (t - List.length l) with 0 by lia. cbn. apply app_nil_r. Qed.

Lemma at_step l out : List.length l < steps_of max_length ->
  loop_step lib ps soft draw max_length (S (List.length l)) out (at_state l) =
  do a <- multinomial (draw (S (List.length l))) (add_logits out (allows l)) ; Ok (at_state (l ++ [a])).
Proof.
  intros Hk. unfold loop_step. cbn [l_prior at_state l_actions l_cur l_obs l_priors l_fin l_len].
  destruct (multinomial _ _) as [a|e]; cbn [bind]; [|reflexivity].
  rewrite (next_obs lib ps soft0 soft). cbn [bind]. unfold at_state. rewrite app_length. cbn [List.length].
  replace (List.length l + 1) with (S (List.length l)) by lia. f_equal. f_equal.
  - rewrite seq_S, map_app. cbn [map Nat.add]. f_equal.
    + apply map_ext_in. intros t Ht. apply in_seq in Ht. unfold recorded. rewrite !firstn_le_app by lia. reflexivity.
    + unfold recorded. rewrite firstn_le_app by lia. rewrite firstn_all. rewrite (firstn_all2 (l ++ [a])) by (rewrite app_length; cbn [List.length]; lia). reflexivity.
  - rewrite seq_S, map_app. cbn [map Nat.add]. f_equal.
    + apply map_ext_in. intros t Ht. apply in_seq in Ht. rewrite !firstn_le_app by lia. reflexivity.
    + rewrite firstn_le_app by lia. rewrite firstn_all. reflexivity.
  - unfold steps_of in *. rewrite (proj2 (Nat.leb_gt (Nat.max 1 max_length) _) Hk). cbn [orb].
    destruct (Nat.leb_spec max_length (S (List.length l))); lia.
  - unfold steps_of in *. rewrite (proj2 (Nat.leb_gt (Nat.max 1 max_length) _) Hk). cbn [orb].
    destruct (Nat.leb_spec max_length (S (List.length l))), (Nat.leb_spec (Nat.max 1 max_length) (S (List.length l))); lia || reflexivity.
Qed.

Lemma loop_ok fuel : forall l s, List.length l <= steps_of max_length -> steps_of max_length <= fuel + List.length l ->
  sample_loop H cell lib m ps soft draw max_length fuel (List.length l) zero (at_state l) = Ok s ->
  exists r, s = at_state (l ++ r) /\ List.length (l ++ r) = steps_of max_length /\
    forall t, List.length l <= t < steps_of max_length -> exists lg,
      step_logits (firstn t (l ++ r)) = Ok lg /\ multinomial (draw (S t)) lg = Ok (nth t (l ++ r) 0).
Proof.
  induction fuel as [|fuel IH]; intros l s H1 H2 E.
  - cbn [sample_loop] in E. change (l_fin (at_state l)) with (steps_of max_length <=? List.length l) in E. rewrite (proj2 (Nat.leb_le (steps_of max_length) (List.length l)) H2) in E. injection E as <-.
    exists []. rewrite app_nil_r. split; [reflexivity|]. split; [lia|]. intros t Ht. lia.
  - cbn [sample_loop] in E. change (l_fin (at_state l)) with (steps_of max_length <=? List.length l) in E. destruct (Nat.leb_spec (steps_of max_length) (List.length l)) as [Hd|Hd].
    + injection E as <-. exists []. rewrite app_nil_r. split; [reflexivity|]. split; [lia|]. intros t Ht. lia.
    + change (l_cur (at_state l)) with (seen lib l) in E.
      destruct (get_tensor_input lib m (List.length l =? 0) (seen lib l)) as [x|e] eqn:Ex; cbn [bind] in E; [|discriminate].
      destruct (cell zero x) as [out h] eqn:Ec. rewrite at_step in E by exact Hd.
      destruct (multinomial (draw (S (List.length l))) (add_logits out (allows l))) as [a|e] eqn:Em; cbn [bind] in E; [|discriminate].
      replace (S (List.length l)) with (List.length (l ++ [a])) in E by (rewrite app_length; cbn [List.length]; lia).
      apply IH in E; [|rewrite app_length; cbn [List.length]; lia|rewrite app_length; cbn [List.length]; lia]. destruct E as (r & -> & E1 & E2).
      exists (a :: r). rewrite <- app_assoc in *. cbn [List.app] in *. split; [reflexivity|]. split; [exact E1|].
      intros t Ht. destruct (Nat.eq_dec t (List.length l)) as [->|Hne].
      * rewrite firstn_le_app, firstn_all by lia. unfold step_logits. rewrite Ex. cbn [bind]. rewrite Ec. cbn [fst].
        eexists. split; [reflexivity|]. rewrite Em. f_equal. rewrite app_nth2, Nat.sub_diag by lia. reflexivity.
      * apply E2. rewrite app_length. cbn [List.length]. lia.
Qed.

Lemma loop_runs fuel : forall l, List.length l <= steps_of max_length -> steps_of max_length <= fuel + List.length l ->
  sampled lib ps l ->
  (forall l', sampled lib ps l' -> List.length l' < steps_of max_length ->
     exists x, get_tensor_input lib m (List.length l' =? 0) (sees l') = Ok x /\ List.length (fst (cell zero x)) = lL lib) ->
  (forall l', sampled lib ps l' -> List.length l' < steps_of max_length -> exists t, permitted lib ps l' t) ->
  exists s, sample_loop H cell lib m ps soft draw max_length fuel (List.length l) zero (at_state l) = Ok s.
Proof.
  induction fuel as [|fuel IH]; intros l H1 H2 Hs Hx Hp.
  - cbn [sample_loop]. change (l_fin (at_state l)) with (steps_of max_length <=? List.length l). rewrite (proj2 (Nat.leb_le (steps_of max_length) (List.length l)) H2). eauto.
  - cbn [sample_loop]. change (l_fin (at_state l)) with (steps_of max_length <=? List.length l). destruct (Nat.leb_spec (steps_of max_length) (List.length l)) as [Hd|Hd]; [eauto|].
    change (l_cur (at_state l)) with (seen lib l).
    destruct (Hx l Hs Hd) as (x & -> & Hlen). cbn [bind]. destruct (cell zero x) as [out h]. cbn [fst] in Hlen. rewrite at_step by exact Hd.
    assert (exists a, multinomial (draw (S (List.length l))) (add_logits out (allows l)) = Ok a) as (a & Em).
    { unfold multinomial. destruct (indices is_some (add_logits out (allows l))) eqn:Ei; [|eauto]. exfalso.
      destruct (Hp l Hs Hd) as (t & Ht). destruct Ht as [Ht1 Ht2].
      assert (exists q, nth_error (allows l) t = Some (Some q)) as (q & Eq).
      { unfold allowed, Prior.forbidden in *. destruct l as [|b l].
        - rewrite obs_nil. unfold init_logits. rewrite nth_error_map. rewrite (nth_error_nth' _ 0) by (rewrite seq_length; exact Ht1).
          rewrite List.seq_nth by exact Ht1. cbn [option_map Nat.add]. destruct (existsb _ ps) eqn:Ee; [|eauto].
          apply existsb_exists in Ee as (p & P1 & P2). apply memb_In in P2. destruct (Ht2 p P1 P2).
        - destruct (obs_of_Ok lib (b :: l)) as (o & Eo); [discriminate|]. rewrite Eo in *. unfold prior_logits. rewrite nth_error_map.
          rewrite (nth_error_nth' _ 0) by (rewrite seq_length; exact Ht1). rewrite List.seq_nth by exact Ht1. cbn [option_map Nat.add].
          destruct (existsb _ ps) eqn:Ee; [|eauto]. apply existsb_exists in Ee as (p & P1 & P2). apply memb_In in P2. destruct (Ht2 p P1 P2). }
      assert (In t (indices is_some (add_logits out (allows l)))) as I; [|rewrite Ei in I; exact I].
      apply indices_spec. exists (Some (nth t out 0 + q)%Q). split; [|reflexivity]. unfold add_logits, map2. rewrite nth_error_map.
      assert (@nth_error (Q * option Q) (@combine Q (option Q) out (allows l)) t = Some (nth t out 0%Q, Some q)) as ->.
      { clear -Eq Hlen Ht1. rewrite <- Hlen in Ht1. clear Hlen. revert t Eq Ht1. generalize (allows l) as b. induction out as [|o out IH]; intros b t Eq Ht; [cbn in Ht; lia|].
        destruct b as [|b0 b]; [destruct t; discriminate|]. destruct t as [|t]; cbn in Eq |- *; [congruence|]. apply IH; [exact Eq|cbn in Ht; lia]. }
      reflexivity. }
    rewrite Em. cbn [bind]. replace (S (List.length l)) with (List.length (l ++ [a])) by (rewrite app_length; cbn [List.length]; lia).
    apply IH; auto; [rewrite app_length; cbn [List.length]; lia|rewrite app_length; cbn [List.length]; lia|].
    apply sampled_snoc; [exact Hs|]. apply multinomial_some in Em as (q & Em). apply add_some in Em as (p & Em). exact (allowed_permitted _ _ _ _ _ _ _ Em).
Qed.

(** *** C126 *)
(** An episode has max_length steps (one if that is 0).  Before step [t] the policy is shown the observation of the first
    [t] tokens, and token [t] is what the random draw picks among the tokens of finite logit, the logits being the cell's
    output for that observation plus the prior of the first [t] tokens.  The prior is recorded as it was; in the recorded
    observation the number of open slots is the one AFTER the step. *)
Theorem C126_episode s : lib_ok lib ->
  sample_episode H cell zero lib m ps soft0 soft draw max_length = Ok s ->
  let n := Nat.max 1 max_length in
  let l := l_actions s in
  List.length l = n /\ l_len s = n /\ List.length (l_obs s) = n /\ List.length (l_priors s) = n /\
  forall t, t < n ->
    (exists x, get_tensor_input lib m (t =? 0) (sees (firstn t l)) = Ok x /\
       multinomial (draw (S t)) (add_logits (fst (cell zero x)) (allows (firstn t l))) = Ok (nth t l 0)) /\
    nth_error (l_priors s) t = Some (allows (firstn t l)) /\
    nth_error (l_obs s) t = Some (set_dangling (sees (firstn t l)) (dangling_of lib (firstn (S t) l))).
Proof.
  intros [(toks & _ & HL) _] E. unfold sample_episode in E. rewrite at_start in E by eauto.
  change 0 with (List.length (@nil nat)) in E. apply loop_ok in E; [|cbn [List.length]; lia|unfold steps_of; cbn [List.length]; lia].
  destruct E as (r & -> & E1 & E2). cbn [List.app] in *. cbv zeta. unfold at_state at 1 2 3 4 5. cbn [l_actions l_len l_obs l_priors].
  rewrite !map_length, !seq_length. fold (steps_of max_length). rewrite E1. rewrite Nat.min_r by lia.
  do 4 (split; [reflexivity|]). intros t Ht. unfold at_state. cbn [l_actions l_obs l_priors].
  destruct (E2 t) as (lg & F1 & F2); [cbn [List.length]; lia|]. unfold step_logits in F1. rewrite firstn_length, Nat.min_l in F1 by lia.
  destruct (get_tensor_input lib m (t =? 0) (sees (firstn t r))) as [x|e]; cbn [bind] in F1; [|discriminate]. injection F1 as <-.
  split; [exists x; auto|]. rewrite !nth_error_map. rewrite (nth_error_nth' _ 0) by (rewrite seq_length; lia).
  rewrite List.seq_nth by lia. split; reflexivity.
Qed.
(** Every token of an episode was permitted by all priors given the tokens before it: the theorems about [sampled]
    expressions (C07-C12) are about episodes. *)
Theorem C126_permitted s : lib_ok lib ->
  sample_episode H cell zero lib m ps soft0 soft draw max_length = Ok s -> sampled lib ps (l_actions s).
Proof.
  intros HL E. destruct (C126_episode s HL E) as (E1 & _ & _ & _ & E2). set (l := l_actions s) in *.
  assert (forall t, t <= Nat.max 1 max_length -> sampled lib ps (firstn t l)) as G.
  { induction t as [|t IH]; intros Ht; [apply sampled_nil|].
    destruct (E2 t) as ((x & _ & Em) & _); [lia|]. apply multinomial_some in Em as (q & Em). apply add_some in Em as (p & Em).
    replace (firstn (S t) l) with (firstn t l ++ [nth t l 0]).
    - apply sampled_snoc; [apply IH; lia|]. exact (allowed_permitted _ _ _ _ _ _ _ Em).
    - clear - E1 Ht. assert (t < List.length l) as Hl by lia. clear Ht E1. revert t Hl. induction l as [|a l IH]; intros [|t] Hl; cbn in *; try lia; [reflexivity|].
      f_equal. apply IH. lia. }
  specialize (G (Nat.max 1 max_length) (le_n _)). rewrite firstn_all2 in G by (rewrite E1; lia). exact G.
Qed.
(** Sampling goes through if every prefix leaves a token (C08) and the observations can be encoded (C129). *)
Theorem C126_runs : lib_ok lib ->
  (forall l, sampled lib ps l -> List.length l < Nat.max 1 max_length ->
     exists x, get_tensor_input lib m (List.length l =? 0) (sees l) = Ok x /\ List.length (fst (cell zero x)) = lL lib) ->
  (forall l, sampled lib ps l -> List.length l < Nat.max 1 max_length -> exists t, permitted lib ps l t) ->
  exists s, sample_episode H cell zero lib m ps soft0 soft draw max_length = Ok s.
Proof.
  intros [(toks & _ & HL) _] Hx Hp. unfold sample_episode. rewrite at_start by eauto. change 0 with (List.length (@nil nat)) at 1.
  apply loop_runs; auto; [cbn [List.length]; lia|unfold steps_of; cbn [List.length]; lia|apply sampled_nil].
Qed.
End Episode.
Print Assumptions C126_episode.
Print Assumptions C126_permitted.
Print Assumptions C126_runs.
