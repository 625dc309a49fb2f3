(** C129: the inputs of the policy network.  C130: which settings of the policy network work. *)
From Coq Require Import QArith.
From Verif Require Import Base Num Library Subroutines Prior PriorSpec PriorFacts EqGpt Controller ExampleLib PropsProgram PropsController PropsControllerPolicy.
Local Open Scope nat_scope.
Local Open Scope list_scope.

Lemma scan_neg ar rest : (forall t, ar t <= 2) -> forall nxt d p s, (d < 0)%Z -> scan_back ar rest nxt d = Some (p, s) ->
  2 <= ar p /\ In p rest /\ (s = nxt \/ In s rest).
Proof.
  intros Har. induction rest as [|t rest IH]; intros nxt d p s Hd E; cbn [scan_back] in E; [discriminate|].
  destruct (Z.eqb_spec (d + (Z.of_nat (ar t) - 1)) 0) as [Hz|Hz].
  - injection E as <- <-. split; [lia|]. split; [left; reflexivity|left; reflexivity].
  - apply IH in E; [|specialize (Har t); lia]. destruct E as (E1 & E2 & E3). split; [exact E1|]. split; [right; exact E2|].
    right. destruct E3 as [->|E3]; [left; reflexivity|right; exact E3].
Qed.
Lemma padj_range lib toks p : make_library toks = Ok lib -> p < lL lib -> 0 < ar_of lib p -> (0 <= padj_of lib p < Z.of_nat (lEMPTY_PARENT lib))%Z.
Proof.
  intros HL Hp Har. destruct (C36_parent_numbering toks lib HL) as (G & _).
  assert (lL lib = List.length toks /\ larities lib = map tarity toks) as [E1 E2].
  { unfold make_library in HL. destruct (_ && _) in HL; [discriminate|]. injection HL as <-. split; reflexivity. }
  destruct (nth_error toks p) as [t|] eqn:Et; [|apply nth_error_None in Et; lia]. apply (G p t Et).
  unfold ar_of in Har. rewrite E2 in Har. rewrite (nth_error_nth _ _ _ (map_nth_error tarity _ _ Et)) in Har. exact Har.
Qed.
(** Everything the policy can be shown is within the ranges of the encoders. *)
Lemma seen_range lib l : lib_ok lib -> Forall (fun t => t < lL lib) l ->
  ob_action (seen lib l) <= lL lib /\ (0 <= ob_parent (seen lib l) <= Z.of_nat (lEMPTY_PARENT lib))%Z /\ ob_sibling (seen lib l) <= lL lib.
Proof.
  intros [(toks & _ & HL) Har] Hl.
  assert (lEMPTY_SIBLING lib = lL lib) as ES by (unfold make_library in HL; destruct (_ && _) in HL; [discriminate|]; injection HL as <-; cbn; lia).
  destruct l as [|a0 l0]; [unfold seen; rewrite obs_nil; cbn [ob_action ob_parent ob_sibling]; lia|].
  set (l := a0 :: l0) in *. assert (l <> []) as Hne by discriminate. unfold seen. destruct (obs_of_Ok lib l Hne) as (o & Eo). rewrite Eo. cbn [ob_action ob_parent ob_sibling].
  assert (last l 0 < lL lib) as Hlast. { rewrite Forall_forall in Hl. apply Hl. destruct (exists_last Hne) as (l' & a & ->). rewrite last_last. apply in_or_app. right. left. reflexivity. }
  split; [lia|]. unfold obs_of, parents_siblings in Eo. destruct (rev l) as [|b rest] eqn:Er; cbn [bind] in Eo; [discriminate|].
  assert (forall x, In x (b :: rest) -> x < lL lib) as Hin. { intros x Hx. rewrite <- Er in Hx. apply in_rev in Hx. rewrite Forall_forall in Hl. auto. }
  destruct (Nat.ltb_spec 0 (ar_of lib b)) as [Hb|Hb]; cbn [bind] in Eo.
  - injection Eo as <-. cbn [o_parent o_sibling fst snd]. pose proof (padj_range lib toks b HL (Hin b (or_introl eq_refl)) Hb). lia.
  - cbn [scan_back] in Eo. destruct (Z.eqb_spec (0 + (Z.of_nat (ar_of lib b) - 1)) 0) as [Hz|Hz]; [lia|].
    destruct (scan_back (ar_of lib) rest b _) as [[p s]|] eqn:Es; cbn [bind] in Eo; injection Eo as <-; cbn [o_parent o_sibling fst snd].
    + apply scan_neg in Es; [|exact Har|lia]. destruct Es as (E1 & E2 & E3).
      pose proof (padj_range lib toks p HL (Hin p (or_intror E2)) ltac:(lia)). split; [lia|].
      destruct E3 as [->|E3]; [|specialize (Hin s (or_intror E3)); lia]. specialize (Hin b (or_introl eq_refl)). lia.
    + lia.
Qed.
Lemma one_hot_ok n z : (0 <= z < Z.of_nat n)%Z -> exists x, one_hot n z = Ok x /\ List.length x = n.
Proof.
  intros Hz. unfold one_hot. destruct ((z <? 0) || (Z.of_nat n <=? z))%Z eqn:E; [lia|]. eexists. split; [reflexivity|]. rewrite map_length, seq_length. reflexivity.
Qed.
Lemma one_hot_inj n z z' x : one_hot n z = Ok x -> one_hot n z' = Ok x -> z = z'.
Proof.
  unfold one_hot. destruct ((z <? 0) || (Z.of_nat n <=? z))%Z eqn:E; [discriminate|]. destruct ((z' <? 0) || (Z.of_nat n <=? z'))%Z eqn:E'; [discriminate|].
  intros [= <-] [= Em]. assert (nth_error (map (fun i => if (Z.of_nat i =? z')%Z then 1%Z else 0%Z) (seq 0 n)) (Z.to_nat z') = Some 1%Z) as Hn.
  { rewrite nth_error_map. rewrite (nth_error_nth' _ 0) by (rewrite seq_length; lia). rewrite List.seq_nth by lia. cbn [option_map Nat.add]. destruct (Z.eqb_spec (Z.of_nat (Z.to_nat z')) z'); [reflexivity|lia]. }
  rewrite Em in Hn. rewrite nth_error_map in Hn. rewrite (nth_error_nth' _ 0) in Hn by (rewrite seq_length; lia). rewrite List.seq_nth in Hn by lia.
  cbn [option_map Nat.add] in Hn. destruct (Z.eqb_spec (Z.of_nat (Z.to_nat z')) z); [lia|discriminate].
Qed.
Lemma one_hot_len n z x : one_hot n z = Ok x -> List.length x = n.
Proof. unfold one_hot. destruct (_ || _); [discriminate|]. intros [= <-]. rewrite map_length, seq_length. reflexivity. Qed.

(** *** C129 *)
(** Every observation sampling can meet is encoded, in a vector whose length does not depend on the observation - if
    embeddings and the number of open slots are not asked for. *)
Theorem C129_encodable lib m b l : lib_ok lib -> Forall (fun t => t < lL lib) l -> m_embedding m = false -> m_dangling m = false ->
  exists x, get_tensor_input lib m b (seen lib l) = Ok x /\
    List.length x = (if m_action m then lL lib + 1 else 0) + (if m_parent m then lEMPTY_PARENT lib + 1 else 0) + (if m_sibling m then lL lib + 1 else 0).
Proof.
  intros HL Hl He Hd. destruct (seen_range lib l HL Hl) as (R1 & R2 & R3). destruct HL as [(toks & _ & HL) _].
  assert (lEMPTY_SIBLING lib = lL lib /\ lEMPTY_ACTION lib = lL lib) as [ES EA] by (unfold make_library in HL; destruct (_ && _) in HL; [discriminate|]; injection HL as <-; cbn; lia).
  unfold get_tensor_input, categorical, n_action_inputs, n_parent_inputs, n_sibling_inputs. rewrite He, Hd, ES, EA.
  destruct (one_hot_ok (lL lib + 1) (Z.of_nat (ob_action (seen lib l)))) as (xa & Ea & La); [lia|].
  destruct (one_hot_ok (lEMPTY_PARENT lib + 1) (ob_parent (seen lib l))) as (xp & Ep & Lp); [lia|].
  destruct (one_hot_ok (lL lib + 1) (Z.of_nat (ob_sibling (seen lib l)))) as (xs & Es & Ls); [lia|].
  rewrite Ea, Ep, Es. destruct (m_action m), (m_parent m), (m_sibling m); cbn [bind]; (eexists; split; [reflexivity|]); rewrite ?app_length; cbn [List.length]; lia.
Qed.
(** The input determines what was observed, and nothing else enters it. *)
Theorem C129_faithful lib m b b' o o' x x' : get_tensor_input lib m b o = Ok x -> get_tensor_input lib m b' o' = Ok x' ->
  x = x' <->
  (m_action m = true -> ob_action o = ob_action o') /\ (m_parent m = true -> ob_parent o = ob_parent o') /\
  (m_sibling m = true -> ob_sibling o = ob_sibling o') /\ (m_dangling m = true -> ob_dangling o = ob_dangling o').
Proof.
  unfold get_tensor_input, categorical. intros E1 E2.
  destruct (if m_action m then _ else _) as [a|] eqn:A1 in E1; cbn [bind] in E1; [|discriminate].
  destruct (if m_parent m then _ else _) as [p|] eqn:P1 in E1; cbn [bind] in E1; [|discriminate].
  destruct (if m_sibling m then _ else _) as [s|] eqn:S1 in E1; cbn [bind] in E1; [|discriminate].
  destruct (if m_dangling m then _ else _) as [d|] eqn:D1 in E1; cbn [bind] in E1; [|discriminate]. injection E1 as <-.
  destruct (if m_action m then _ else _) as [a'|] eqn:A2 in E2; cbn [bind] in E2; [|discriminate].
  destruct (if m_parent m then _ else _) as [p'|] eqn:P2 in E2; cbn [bind] in E2; [|discriminate].
  destruct (if m_sibling m then _ else _) as [s'|] eqn:S2 in E2; cbn [bind] in E2; [|discriminate].
  destruct (if m_dangling m then _ else _) as [d'|] eqn:D2 in E2; cbn [bind] in E2; [|discriminate]. injection E2 as <-.
  assert (List.length a = List.length a' /\ (a = a' <-> (m_action m = true -> ob_action o = ob_action o'))) as [LA QA].
  { destruct (m_action m); [|injection A1 as <-; injection A2 as <-; split; [reflexivity|split; [discriminate|reflexivity]]].
    destruct (m_embedding m); [discriminate|]. split; [rewrite (one_hot_len _ _ _ A1), (one_hot_len _ _ _ A2); reflexivity|]. split.
    - intros -> _. pose proof (one_hot_inj _ _ _ _ A1 A2). lia.
    - intros Q. rewrite Q in A1 by reflexivity. congruence. }
  assert (List.length p = List.length p' /\ (p = p' <-> (m_parent m = true -> ob_parent o = ob_parent o'))) as [LP QP].
  { destruct (m_parent m); [|injection P1 as <-; injection P2 as <-; split; [reflexivity|split; [discriminate|reflexivity]]].
    destruct (m_embedding m); [discriminate|]. split; [rewrite (one_hot_len _ _ _ P1), (one_hot_len _ _ _ P2); reflexivity|]. split.
    - intros -> _. exact (one_hot_inj _ _ _ _ P1 P2).
    - intros Q. rewrite Q in P1 by reflexivity. congruence. }
  assert (List.length s = List.length s' /\ (s = s' <-> (m_sibling m = true -> ob_sibling o = ob_sibling o'))) as [LS QS].
  { destruct (m_sibling m); [|injection S1 as <-; injection S2 as <-; split; [reflexivity|split; [discriminate|reflexivity]]].
    destruct (m_embedding m); [discriminate|]. split; [rewrite (one_hot_len _ _ _ S1), (one_hot_len _ _ _ S2); reflexivity|]. split.
    - intros -> _. pose proof (one_hot_inj _ _ _ _ S1 S2). lia.
    - intros Q. rewrite Q in S1 by reflexivity. congruence. }
  assert (d = d' <-> (m_dangling m = true -> ob_dangling o = ob_dangling o')) as QD.
  { destruct (m_dangling m); [|injection D1 as <-; injection D2 as <-; split; [discriminate|reflexivity]].
    destruct b, b'; try discriminate. injection D1 as <-. injection D2 as <-. split; [intros [= ->]; reflexivity|intros Q; rewrite Q by reflexivity; reflexivity]. }
  assert (forall (u v u' v' : list Z), List.length u = List.length u' -> (u ++ v = u' ++ v' <-> u = u' /\ v = v')) as Happ.
  { induction u as [|c u IH]; intros v [|c' u'] v' EL; cbn in EL; try discriminate; cbn [List.app]; [tauto|]. split.
    - intros [= -> E]. apply IH in E; [|lia]. destruct E as [-> ->]. split; reflexivity.
    - intros [[= -> ->] ->]. reflexivity. }
  rewrite (Happ a), (Happ p), (Happ s) by assumption. rewrite QA, QP, QS, QD. tauto.
Qed.
(** With the shipped settings the whole sampler runs (C126_runs) whenever every prefix leaves a permitted token. *)
Theorem C129_sampler_runs H cell zero lib ps soft0 soft draw n : lib_ok lib ->
  (forall h x, List.length (fst (cell h x : list Q * H)) = lL lib) ->
  (forall l, sampled lib ps l -> List.length l < Nat.max 1 n -> exists t, permitted lib ps l t) ->
  exists s, sample_episode H cell zero lib default_manager ps soft0 soft draw n = Ok s.
Proof.
  intros HL Hc Hp. apply C126_runs; auto. intros l Hs _.
  assert (Forall (fun t => t < lL lib) l) as Hf. { clear -Hs. induction Hs as [|l t _ IH P]; [constructor|]. apply Forall_app. split; [exact IH|]. constructor; [apply P|constructor]. }
  destruct (C129_encodable lib default_manager (List.length l =? 0) l HL Hf eq_refl eq_refl) as (x & Ex & _). exists x. split; [exact Ex|apply Hc].
Qed.
Theorem C129_example : get_tensor_input ex_lib default_manager false (seen ex_lib [0; 8]) =
  Ok ([1; 0; 0; 0; 0; 0; 0; 0; 0]%Z ++ [0; 0; 0; 0; 0; 0; 0; 0; 1; 0; 0; 0]%Z).
Proof. vm_compute. reflexivity. Qed.

(** *** C130 *)
(** One epoch of a run: construct the state manager and the controller, call the cell, train.  It gets past the settings
    exactly if the cell is an LSTM of one layer initialized with zeros, the optimizer adam or sgd, embeddings and the number
    of open slots are not asked for but something else is, and some maximal length is given. *)
Definition settings_pass (lib : library) (m : manager) (c : settings) (priors : list (option (option nat))) : res nat :=
  do m <- make_manager m ; do n <- make_controller lib m c priors ; do _ <- cell_callable c ; do _ <- optimizer_usable c ; Ok n.
Theorem C130_settings lib m c priors : lib_ok lib -> 1 <= c_layers c ->
  (exists n, settings_pass lib m c priors = Ok n) <->
  c_cell c = "lstm"%string /\ c_layers c = 1 /\ c_initializer c = "zeros"%string /\ (c_optimizer c = "adam" \/ c_optimizer c = "sgd")%string /\
  m_embedding m = false /\ m_dangling m = false /\ (m_action m = true \/ m_parent m = true \/ m_sibling m = true) /\
  (prior_max_length priors <> None \/ c_max_length c <> None).
Proof.
  intros HL H1. unfold settings_pass, make_controller, resolve_max_length.
  assert (initial_ob lib = seen lib []) as Ei.
  { unfold initial_ob, seen. rewrite obs_nil. destruct HL as [(toks & _ & HL) _]. unfold make_library in HL. destruct (_ && _) in HL; [discriminate|]. injection HL as <-. cbn. f_equal; lia. }
  split.
  - intros (n & E). unfold make_manager in E. destruct (m_action m || m_parent m || m_sibling m || m_dangling m) eqn:Em; cbn [bind] in E; [|discriminate].
    assert (prior_max_length priors <> None \/ c_max_length c <> None) as Hn.
    { destruct (prior_max_length priors); [left; discriminate|]. destruct (c_max_length c); [right; discriminate|]. cbn [bind] in E. discriminate. }
    assert (exists k, (do _ <- get_tensor_input lib m true (initial_ob lib) ; do _ <- build_cell c ; do _ <- cell_callable c ; do _ <- optimizer_usable c ; Ok k) = Ok n) as (k & E').
    { destruct (prior_max_length priors) as [k|]; [|destruct (c_max_length c) as [k|]; [|cbn [bind] in E; discriminate]]; cbn [bind] in E; exists k;
        (destruct (get_tensor_input lib m true (initial_ob lib)); cbn [bind] in E |- *; [|discriminate]; destruct (build_cell c); cbn [bind] in E |- *; [exact E|discriminate]). }
    clear E. destruct (get_tensor_input lib m true (initial_ob lib)) as [x|] eqn:Ex; cbn [bind] in E'; [|discriminate].
    pose proof (input_dangling _ _ _ _ Ex) as Hd.
    assert (m_embedding m = false) as He.
    { destruct (m_embedding m) eqn:He; [|reflexivity]. exfalso. unfold get_tensor_input, categorical in Ex. rewrite He, Hd in Ex. rewrite Hd in Em.
      destruct (m_action m), (m_parent m), (m_sibling m); cbn in Ex, Em; discriminate. }
    rewrite Hd in Em. unfold build_cell in E'. destruct (negb _) eqn:Ec in E'; cbn [bind] in E'; [discriminate|].
    destruct (String.eqb (c_initializer c) "zeros") eqn:Eini; cbn [bind] in E'; [|destruct (String.eqb (c_initializer c) "var_scale"); cbn [bind] in E'; discriminate].
    unfold cell_callable in E'. destruct (String.eqb (c_cell c) "gru") eqn:Eg; cbn [bind] in E'; [discriminate|].
    destruct (Nat.eqb_spec (c_layers c) 1) as [El|El]; cbn [bind] in E'; [|discriminate].
    unfold optimizer_usable in E'. destruct (String.eqb (c_optimizer c) "adam" || String.eqb (c_optimizer c) "sgd") eqn:Eo; cbn [bind] in E'; [|discriminate].
    apply String.eqb_eq in Eini. apply orb_true_iff in Eo. rewrite !String.eqb_eq in Eo.
    assert (c_cell c = "lstm"%string) as Ecell. { apply negb_false_iff in Ec. apply orb_true_iff in Ec as [Ec|Ec]; [apply String.eqb_eq; exact Ec|congruence]. }
    repeat (split; [assumption|]). split; [|exact Hn]. destruct (m_action m), (m_parent m), (m_sibling m); auto; discriminate.
  - intros (Ec & El & Ei2 & Eo & He & Hd & Ha & Hn).
    assert (make_manager m = Ok m) as -> by (unfold make_manager; destruct Ha as [Ha|[Ha|Ha]]; rewrite Ha; rewrite ?orb_true_r, ?orb_true_l; reflexivity).
    cbn [bind]. rewrite Ei. destruct (C129_encodable lib m true [] HL (Forall_nil _) He Hd) as (x & Ex & _). rewrite Ex.
    assert (build_cell c = Ok tt) as -> by (unfold build_cell; rewrite Ec, Ei2; reflexivity).
    assert (cell_callable c = Ok tt) as -> by (unfold cell_callable; rewrite Ec, El; reflexivity).
    assert (optimizer_usable c = Ok tt) as -> by (unfold optimizer_usable; destruct Eo as [-> | ->]; reflexivity).
    destruct (prior_max_length priors) as [k|]; [exists k; reflexivity|]. destruct (c_max_length c) as [k|]; [exists k; reflexivity|]. destruct Hn; congruence.
Qed.
(** The maximal length is the one of the first length prior, else the configured one. *)
Theorem C130_max_length lib m c priors n : settings_pass lib m c priors = Ok n ->
  prior_max_length priors = Some n \/ prior_max_length priors = None /\ c_max_length c = Some n.
Proof.
  unfold settings_pass, make_controller, resolve_max_length. destruct (make_manager m) as [m'|]; cbn [bind]; [|discriminate].
  intros E. destruct (prior_max_length priors) as [k|]; [left|right; split; [reflexivity|destruct (c_max_length c) as [k|]; [|discriminate]]];
    cbn [bind] in E; destruct (get_tensor_input _ _ _ _); cbn [bind] in E; try discriminate; destruct (build_cell c); cbn [bind] in E; try discriminate;
    destruct (cell_callable c); cbn [bind] in E; try discriminate; destruct (optimizer_usable c); cbn [bind] in E; try discriminate; congruence.
Qed.
(** "First length prior" spelled out: the first in the list that is a LengthConstraint decides, even if a later one has a
    maximum and it has none. *)
Theorem C130_first_length_prior lib m c priors n : settings_pass lib m c priors = Ok n ->
  (exists before rest, priors = before ++ Some (Some n) :: rest /\ Forall (fun p => p = None) before) \/
  c_max_length c = Some n /\ (Forall (fun p => p = None) priors \/ exists before rest, priors = before ++ Some None :: rest /\ Forall (fun p => p = None) before).
Proof.
  intros E. assert (forall l, (exists mx before rest, l = before ++ Some mx :: rest /\ Forall (fun p => p = None) before /\ prior_max_length l = mx) \/ (Forall (fun p => p = None) l /\ prior_max_length l = None)) as G.
  { induction l as [|[mx|] l IH]; [right; split; [constructor|reflexivity]|left; exists mx, [], l; repeat split; constructor|].
    destruct IH as [(mx & b & r & -> & F & P)|[F P]]; [left; exists mx, (None :: b), r; repeat split; [constructor; [reflexivity|exact F]|exact P]|right; split; [constructor; [reflexivity|exact F]|exact P]]. }
  destruct (C130_max_length lib m c priors n E) as [P|[P Q]]; destruct (G priors) as [(mx & b & r & El & F & Em)|[F Em]].
  - left. exists b, r. rewrite Em in P. rewrite P in El. auto.
  - congruence.
  - right. split; [exact Q|]. right. exists b, r. rewrite Em in P. rewrite P in El. auto.
  - right. split; [exact Q|]. left. exact F.
Qed.
(** So the documented alternatives fail: cell 'gru', initializer 'var_scale', optimizer 'rmsprop', more than one layer,
    embeddings, observing the number of open slots.  The shipped settings pass. *)
Theorem C130_documented_refuted :
  settings_pass ex_lib default_manager default_settings [Some (Some 64)] = Ok 64 /\
  settings_pass ex_lib default_manager spr_settings [Some (Some 64)] = Ok 64 /\
  settings_pass ex_lib default_manager (mkC "gru" 1 "zeros" "adam" (Some 64) 0 None true 0 false) [] = Err AttributeError /\
  settings_pass ex_lib default_manager (mkC "lstm" 1 "var_scale" "adam" (Some 64) 0 None true 0 false) [] = Err ValueError /\
  settings_pass ex_lib default_manager (mkC "lstm" 1 "zeros" "rmsprop" (Some 64) 0 None true 0 false) [] = Err AttributeError /\
  settings_pass ex_lib default_manager (mkC "lstm" 2 "zeros" "adam" (Some 64) 0 None true 0 false) [] = Err RuntimeError /\
  settings_pass ex_lib (mkM true true false false true) default_settings [] = Err TypeError /\
  settings_pass ex_lib (mkM true true false true false) default_settings [] = Err AttributeError.
Proof. vm_compute. repeat split; reflexivity. Qed.
Print Assumptions C129_encodable.
Print Assumptions C129_faithful.
Print Assumptions C129_sampler_runs.
Print Assumptions C129_example.
Print Assumptions C130_settings.
Print Assumptions C130_max_length.
Print Assumptions C130_documented_refuted.
Print Assumptions C130_first_length_prior.
