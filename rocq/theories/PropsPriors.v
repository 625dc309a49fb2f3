(** Property theorems: sampling constraints (C07-C12), retrospective priors,
    constraint counting and estimator reuse (C39-C43).  Only statements,
    one-line proofs, examples and refutations. *)
From Verif Require Import Base Trees TreeFacts TreePos Library LibraryFacts Program Subroutines SubroutinesFacts
  Prior PriorSpec PriorFacts LengthFacts JointFacts CheckFacts DiffSampled ExampleLib SamplingLemmas
  Estimator PriorExtra.

(** *** C07 *)
Theorem C07_max_length lib ps mn mx l :
  lib_ok lib -> 3 <= mx -> In (length_prior lib mn (Some mx)) ps ->
  sampled lib ps l -> List.length l = mx ->
  exists t rest, l = preorder t ++ rest /\ respects (ar_of lib) t.
Proof. exact (sampled_length_max lib ps mn mx l). Qed.
Print Assumptions C07_max_length.

Theorem C07_min_length lib ps mn mx t rest :
  lib_ok lib -> In (length_prior lib (Some mn) mx) ps ->
  respects (ar_of lib) t -> sampled lib ps (preorder t ++ rest) -> mn <= List.length (preorder t).
Proof. exact (sampled_length_min lib ps mn mx t rest). Qed.
Print Assumptions C07_min_length.

Theorem C07_root_not_terminal lib ps mn mx t rest :
  lib_ok lib -> In (length_prior lib mn mx) ps ->
  respects (ar_of lib) t -> sampled lib ps (preorder t ++ rest) -> 0 < ar_of lib (root t).
Proof. exact (sampled_root lib ps mn mx t rest). Qed.
Print Assumptions C07_root_not_terminal.

(** A maximum of two is accepted by the constructor but not enforced: add, u1
    is sampled, has two tokens and one open slot. *)
Theorem C07_tiny_maximum_refuted :
  exists lib l, lib_ok lib /\ sampled lib [length_prior lib None (Some 2)] l /\ List.length l = 2 /\
    ~ exists t rest, l = preorder t ++ rest /\ respects (ar_of lib) t.
Proof.
  exists ex_lib, [0; 8]. split; [exact ex_lib_ok|]. split; [apply sampledb_ok; reflexivity|]. split; [reflexivity|].
  intros (t & rest & E & R). assert (complete (ar_of ex_lib) (preorder t)) as C by (exists t; auto).
  apply complete_slots in C. destruct (preorder t) as [|a [|b [|c l]]]; cbn [app] in E; try discriminate.
  - injection E as <- E. vm_compute in C. discriminate.
  - injection E as <- <- E. vm_compute in C. discriminate.
Qed.
Print Assumptions C07_tiny_maximum_refuted.

Example C07_example : sampled ex_lib (default_priors ex_lib 9 0 5 []) [0; 3; 1; 8; 8; 9; 4; 8; 10].
Proof. apply sampledb_ok. reflexivity. Qed.

(** *** C08 *)
Theorem C08_length_never_stuck lib mn mx l :
  lib_ok lib -> 3 <= mx ->
  (exists t, t < lL lib /\ ar_of lib t = 0) ->
  (match mn with
   | None => exists t, t < lL lib /\ 0 < ar_of lib t
   | Some m => (m <= mx /\ exists t, t < lL lib /\ ar_of lib t = 1) \/ (m < mx /\ exists t, t < lL lib /\ 0 < ar_of lib t)
   end) ->
  sampled lib [length_prior lib mn (Some mx)] l -> List.length l < mx ->
  exists t, permitted lib [length_prior lib mn (Some mx)] l t.
Proof. exact (length_no_deadlock lib mn mx l). Qed.
Print Assumptions C08_length_never_stuck.

Theorem C08_default_constraints_never_stuck lib mx rep_tok rep_max inv ps l :
  lib_ok lib -> 4 <= mx ->
  (forall d, In d (ldiff lib) -> ar_of lib d = 2) ->
  (exists x, plain lib rep_tok inv x /\ In x (linput_tokens lib)) ->
  (exists u, plain lib rep_tok inv u /\ ar_of lib u = 0 /\ ~ In u (linput_tokens lib)) ->
  (exists m, plain lib rep_tok inv m /\ 0 < ar_of lib m) ->
  (forall p, In p ps -> In p (default_priors lib mx rep_tok rep_max inv)) ->
  In (length_prior lib (Some 3) (Some mx)) ps ->
  sampled lib ps l ->
  exists t, permitted lib ps l t.
Proof. exact (default_no_deadlock lib mx rep_tok rep_max inv ps l). Qed.
Print Assumptions C08_default_constraints_never_stuck.

Example C08_hyps : plain ex_lib 0 [] 9 /\ In 9 (linput_tokens ex_lib) /\ plain ex_lib 0 [] 8 /\
  ~ In 8 (linput_tokens ex_lib) /\ plain ex_lib 0 [] 1 /\ forall d, In d (ldiff ex_lib) -> ar_of ex_lib d = 2.
Proof.
  repeat split; try (vm_compute; lia); try discriminate; try (vm_compute; intuition lia).
  intros d H. vm_compute in H. intuition (subst; reflexivity).
Qed.
(** {add, u1, x1} with min = max = 4: no complete expression has four tokens;
    the sampler is stuck after [add, u1] (no token keeps probability). *)
Theorem C08_no_unary_refuted :
  exists lib l, lib_ok lib /\ sampled lib [length_prior lib (Some 4) (Some 4)] l /\ List.length l < 4 /\
    ~ exists t, permitted lib [length_prior lib (Some 4) (Some 4)] l t.
Proof.
  exists (mk tiny_toks), [0; 1]. split; [exact tiny_lib_ok|]. split; [apply sampledb_ok; reflexivity|].
  split; [simpl; lia|]. apply stuckb_ok. reflexivity.
Qed.
Print Assumptions C08_no_unary_refuted.
(** A larger minimum length together with the derivative constraint (both can be
    configured) is stuck after [diff, u1]: the second argument must be a
    variable, which would end the expression too early. *)
Theorem C08_diff_and_min_length_refuted :
  exists lib ps l, lib_ok lib /\ ps = [length_prior lib (Some 4) (Some 64); diff_right_prior lib] /\
    sampled lib ps l /\ ~ exists t, permitted lib ps l t.
Proof.
  exists ex_lib. eexists. exists [3; 8]. split; [exact ex_lib_ok|]. split; [reflexivity|].
  split; [apply sampledb_ok; reflexivity|]. apply stuckb_ok. reflexivity.
Qed.
Print Assumptions C08_diff_and_min_length_refuted.
Definition param_toks : list token :=
  [op "add" 2; op "diff" 2; mkTok "u1" 0 None (Some 0) None; mkTok "x1" 0 (Some 0) None None; mkTok "p1" 0 None None (Some 0)].
Theorem C08_no_inputs_and_parameter_refuted :
  exists lib ps l, lib_ok lib /\ ps = [length_prior lib (Some 3) (Some 64); no_inputs_prior lib; diff_right_prior lib] /\
    sampled lib ps l /\ ~ exists t, permitted lib ps l t.
Proof.
  exists (mk param_toks). eexists. exists [1; 4].
  split; [apply mk_ok; [repeat constructor|eexists; reflexivity|reflexivity]|]. split; [reflexivity|].
  split; [apply sampledb_ok; reflexivity|]. apply stuckb_ok. reflexivity.
Qed.
Print Assumptions C08_no_inputs_and_parameter_refuted.

(** *** C09 *)
Theorem C09_sampled_respects_relation lib ps r tg ef t rest :
  lib_ok lib -> targets_ok lib tg -> effectors_ok lib r ef ->
  (r = RDescendant -> forall e, In e ef -> ar_of lib e = 1) ->
  In (rel_prior lib tg ef r) ps ->
  respects (ar_of lib) t -> sampled lib ps (preorder t ++ rest) ->
  ~ tree_in_relation (ar_of lib) r tg ef t.
Proof. exact (sampled_relational lib ps r tg ef t rest). Qed.
Print Assumptions C09_sampled_respects_relation.

Theorem C09_mask_exact lib r tg ef prev c a :
  lib_ok lib -> targets_ok lib tg -> effectors_ok lib r ef ->
  (r = RDescendant -> forall e, In e ef -> ar_of lib e = 1) ->
  Forall (respects (ar_of lib)) prev -> ctx_ok (ar_of lib) c ->
  in_lib lib (flat_map preorder prev ++ before c) ->
  flat_map preorder prev ++ before c <> [] ->
  (In a (forbidden lib (rel_prior lib tg ef r) (flat_map preorder prev ++ before c)) <->
   in_relation (ar_of lib) r tg ef a c).
Proof. exact (mask_exact lib r tg ef prev c a). Qed.
Print Assumptions C09_mask_exact.

Theorem C09_descendant_first_argument lib ps tg ef t rest :
  lib_ok lib -> (forall e, In e ef -> 0 < ar_of lib e) -> In (rel_prior lib tg ef RDescendant) ps ->
  respects (ar_of lib) t -> sampled lib ps (preorder t ++ rest) ->
  forall a c, In (a, c) (nodes [] t) -> ~ in_first_arg tg ef a c.
Proof. exact (sampled_descendant lib ps tg ef t rest). Qed.
Print Assumptions C09_descendant_first_argument.

(** "No addition inside a derivative" (diff_descedent) does not hold: in
    mul(diff(u1, add(x1, x1)), u1) the addition is under diff.  (The
    diff_right constraint, if also on, removes this particular tree.) *)
Definition add_under_diff : tree nat := Nd 1 [Nd 3 [Nd 8 []; Nd 0 [Nd 9 []; Nd 9 []]]; Nd 8 []].
Theorem C09_binary_descendant_refuted :
  exists lib t, lib_ok lib /\ respects (ar_of lib) t /\ sampled lib [diff_des_prior lib] (preorder t) /\
    tree_in_relation (ar_of lib) RDescendant (diff_des_targets lib) (ldiff lib) t.
Proof.
  exists ex_lib, add_under_diff. split; [exact ex_lib_ok|]. split; [repeat constructor|].
  split; [apply sampledb_ok; reflexivity|]. exists 0, [(3, [Nd 8 []]); (1, [])].
  split; [cbn; tauto|]. split; [vm_compute; tauto|]. exists 3. split; vm_compute; tauto.
Qed.
Print Assumptions C09_binary_descendant_refuted.
Example C09_example : sampled ex_lib [diff_right_prior ex_lib; diff_left_prior ex_lib] [0; 3; 8; 9; 1; 8; 4; 8; 10] /\
  ~ permitted ex_lib [diff_right_prior ex_lib] [0; 3; 8] 8 /\ ~ permitted ex_lib [diff_left_prior ex_lib] [0; 3] 9.
Proof.
  split; [apply sampledb_ok; reflexivity|]. split; intros H; apply permittedb_iff in H; discriminate H.
Qed.

(** *** C10 *)
Theorem C10_repeat_cap lib ps toks m l :
  1 <= m -> In (repeat_prior toks m) ps -> sampled lib ps l -> count_in toks l <= m.
Proof. exact (sampled_repeat lib ps toks m l). Qed.
Print Assumptions C10_repeat_cap.

Theorem C10_repeat_mask_exact lib toks m l t : l <> [] ->
  (In t (forbidden lib (repeat_prior toks m) l) <-> In t toks /\ m <= count_in toks l).
Proof. exact (repeat_mask_exact lib toks m l t). Qed.
Print Assumptions C10_repeat_mask_exact.

(** A cap of zero does not apply to the first token. *)
Theorem C10_zero_cap_refuted : exists lib l, lib_ok lib /\ sampled lib [repeat_prior [0] 0] l /\ 0 < count_in [0] l.
Proof.
  exists ex_lib, [0; 8; 9]. split; [exact ex_lib_ok|]. split; [apply sampledb_ok; reflexivity|vm_compute; lia].
Qed.
Print Assumptions C10_zero_cap_refuted.
Example C10_example : sampled ex_lib [repeat_prior [0] 2] [0; 0; 8; 9; 8] /\
  ~ permitted ex_lib [repeat_prior [0] 2] [0; 0; 8; 9] 0.
Proof. split; [apply sampledb_ok; reflexivity|]. intros H; apply permittedb_iff in H; discriminate H. Qed.

(** *** C11 *)
Theorem C11_state_variable lib ps mn mx t rest :
  lib_ok lib -> In (no_inputs_prior lib) ps -> In (length_prior lib mn mx) ps ->
  respects (ar_of lib) t -> sampled lib ps (preorder t ++ rest) ->
  exists s, In s (lstate_tokens lib) /\ In s (preorder t).
Proof. exact (sampled_state_var lib ps mn mx t rest). Qed.
Print Assumptions C11_state_variable.

(** Without the length constraint the very first token may be an input variable. *)
Theorem C11_without_length_refuted : exists lib t, lib_ok lib /\ respects (ar_of lib) t /\
  sampled lib [no_inputs_prior lib] (preorder t) /\ ~ exists s, In s (lstate_tokens lib) /\ In s (preorder t).
Proof.
  exists ex_lib, (Nd 9 []). split; [exact ex_lib_ok|]. split; [repeat constructor|].
  split; [apply sampledb_ok; reflexivity|]. intros (s & [<-|[]] & [H|[]]). discriminate H.
Qed.
Print Assumptions C11_without_length_refuted.
Example C11_example : let ps := [no_inputs_prior ex_lib; length_prior ex_lib (Some 3) (Some 64)] in
  sampled ex_lib ps [0; 9; 8] /\ ~ permitted ex_lib ps [0; 9] 10.
Proof. cbv zeta. split; [apply sampledb_ok; reflexivity|]. intros H; apply permittedb_iff in H; discriminate H. Qed.

(** *** C12 *)
Theorem C12_checker_exact lib r tg ef t :
  lib_ok lib -> targets_ok lib tg -> effectors_ok lib r ef ->
  respects (ar_of lib) t -> in_lib lib (preorder t) ->
  (r = RChild \/ r = RSibling \/ r = RUChild) ->
  exists b, rel_violated lib tg ef r (preorder t) (row_parents lib (preorder t)) (row_siblings lib (preorder t)) = Ok (Some b) /\
    (b = true <-> tree_in_relation (ar_of lib) r tg ef t).
Proof. exact (checker_exact lib r tg ef t). Qed.
Print Assumptions C12_checker_exact.

Theorem C12_trig_checker lib ef t :
  lib_ok lib -> (forall e, In e ef -> 0 < ar_of lib e) -> respects (ar_of lib) t ->
  (desc_no_target ef (lbinary lib) (lunary lib) None (preorder t) = true <->
   exists a c, In (a, c) (nodes [] t) /\ in_first_arg ef ef a c).
Proof. exact (desc_same_checker lib ef t). Qed.
Print Assumptions C12_trig_checker.

Theorem C12_descendant_checker lib tg ef t :
  lib_ok lib -> (forall e, In e ef -> 0 < ar_of lib e) ->
  (forall a, In a ef -> ~ In a tg) -> List.length ef = List.length tg -> respects (ar_of lib) t ->
  (~ exists a c, In (a, c) (nodes [] t) /\ in_first_arg ef ef a c) ->
  exists b, rel_violated lib tg ef RDescendant (preorder t) (row_parents lib (preorder t)) (row_siblings lib (preorder t)) = Ok (Some b) /\
    (b = true <-> exists a c, In (a, c) (nodes [] t) /\ in_first_arg tg ef a c).
Proof.
  exact (fun H1 H2 H3 H4 H5 H6 => match desc_checker lib tg ef t H1 H2 H3 H4 H5 H6 with
    | ex_intro _ b (conj E F) => ex_intro _ b (conj (f_equal Ok E) F) end).
Qed.
Print Assumptions C12_descendant_checker.

(** The remaining cases are violations of the property by the code. *)
(** (a) left / right child: the result variable is never assigned. *)
Theorem C12_lchild_rchild_refuted lib tg ef actions parent sibling :
  rel_violated lib tg ef RLChild actions parent sibling = Err UnboundLocalError /\
  rel_violated lib tg ef RRChild actions parent sibling = Err UnboundLocalError.
Proof. exact (conj eq_refl eq_refl). Qed.
Print Assumptions C12_lchild_rchild_refuted.
(** (b) the effector loop runs over the number of targets: with effectors
    (sin, exp) and the single target cos, exp(cos x) is not reported. *)
Theorem C12_descendant_effectors_ignored_refuted :
  exists lib tg ef t, lib_ok lib /\ respects (ar_of lib) t /\ (forall e, In e ef -> ar_of lib e = 1) /\
    tree_in_relation (ar_of lib) RDescendant tg ef t /\
    rel_violated lib tg ef RDescendant (preorder t) (row_parents lib (preorder t)) (row_siblings lib (preorder t)) = Ok (Some false).
Proof.
  exists (mk trig_toks), [3], [1; 2], (Nd 2 [Nd 3 [Nd 5 []]]).
  split; [exact trig_lib_ok|]. split; [repeat constructor|].
  split; [intros e [<-|[<-|[]]]; reflexivity|]. split; [|reflexivity].
  exists 3, [(2, [])]. split; [cbn; tauto|]. split; [simpl; auto|]. exists 2. simpl. auto.
Qed.
Print Assumptions C12_descendant_effectors_ignored_refuted.
(** (c) a nested effector restarts the open-argument count: in
    sin(add(sin(x1), exp(x1))) with effector sin and target exp the exp is
    inside sin but is not reported. *)
Theorem C12_nested_effector_refuted :
  exists lib tg ef t, lib_ok lib /\ respects (ar_of lib) t /\ (forall e, In e ef -> ar_of lib e = 1) /\ List.length tg = List.length ef /\
    tree_in_relation (ar_of lib) RDescendant tg ef t /\
    rel_violated lib tg ef RDescendant (preorder t) (row_parents lib (preorder t)) (row_siblings lib (preorder t)) = Ok (Some false).
Proof.
  exists (mk trig_toks), [2], [1], (Nd 1 [Nd 0 [Nd 1 [Nd 5 []]; Nd 2 [Nd 5 []]]]).
  split; [exact trig_lib_ok|]. split; [repeat constructor|].
  split; [intros e [<-|[]]; reflexivity|]. split; [reflexivity|]. split; [|reflexivity].
  exists 2, [(0, [Nd 1 [Nd 5 []]]); (1, [])]. split; [cbn; tauto|]. split; [simpl; auto|]. exists 1. simpl. auto.
Qed.
Print Assumptions C12_nested_effector_refuted.
(** (d) the counting checkers mean what they say. *)
Theorem C12_repeat_checker tokens max_ actions :
  repeat_violated tokens max_ actions = true <-> max_ < List.length (filter (fun a => memb a tokens) actions).
Proof. unfold repeat_violated, count_in. rewrite Nat.ltb_lt. reflexivity. Qed.
Print Assumptions C12_repeat_checker.
Theorem C12_length_checker min_ max_ actions :
  length_violated min_ max_ actions = false <->
  (forall mn, min_ = Some mn -> mn <= List.length actions) /\ (forall mx, max_ = Some mx -> List.length actions <= mx).
Proof.
  unfold length_violated. rewrite orb_false_iff. destruct min_ as [mn|], max_ as [mx|]; rewrite ?Nat.ltb_ge; split; intros [A B]; split; auto;
    try (intros k E; injection E as <-; assumption); discriminate.
Qed.
Print Assumptions C12_length_checker.
Theorem C12_no_inputs_checker lib actions :
  no_inputs_violated lib actions = true <-> (forall s, In s (lstate_tokens lib) -> ~ In s actions).
Proof.
  unfold no_inputs_violated. rewrite Nat.eqb_eq. split.
  - intros H s Hs Ha. apply length_zero_iff_nil in H. assert (In s (filter (fun s => memb s actions) (lstate_tokens lib))) as X.
    { apply filter_In. split; [assumption|]. now apply memb_In. }
    rewrite H in X. destruct X.
  - intros H. apply length_zero_iff_nil. destruct (filter (fun s => memb s actions) (lstate_tokens lib)) as [|s l] eqn:E; [reflexivity|].
    assert (In s (filter (fun s => memb s actions) (lstate_tokens lib))) as X by (rewrite E; now left).
    apply filter_In in X as [X1 X2]. apply memb_In in X2. exfalso. exact (H s X1 X2).
Qed.
Print Assumptions C12_no_inputs_checker.
Example C12_counting_example : repeat_violated [0; 1] 2 [0; 3; 1; 4; 0] = true /\ repeat_violated [0; 1] 3 [0; 3; 1; 4; 0] = false /\
  length_violated (Some 3) (Some 5) [0; 1; 2; 3; 4] = false /\ length_violated (Some 3) (Some 4) [0; 1; 2; 3; 4] = true.
Proof. repeat split. Qed.
Example C12_example : exists t, respects (ar_of (mk trig_toks)) t /\ preorder t = [1; 0; 4; 3; 5] /\
  tree_in_relation (ar_of (mk trig_toks)) RChild [3] [0] t /\
  rel_violated (mk trig_toks) [3] [0] RChild (preorder t) (row_parents (mk trig_toks) (preorder t)) (row_siblings (mk trig_toks) (preorder t)) = Ok (Some true).
Proof.
  exists (Nd 1 [Nd 0 [Nd 4 []; Nd 3 [Nd 5 []]]]). split; [repeat constructor|]. split; [reflexivity|]. split; [|reflexivity].
  exists 3, [(0, [Nd 4 []]); (1, [])]. split; [cbn; tauto|]. split; [simpl; auto|]. exists 0. simpl. auto.
Qed.

(** *** C39: retrospective priors *)
Theorem C39_at_once_equals_stepwise lib ps actions : lib_ok lib -> ps <> [] ->
  joint_at_once lib ps actions (row_parents lib actions) (row_siblings lib actions) =
  Ok (map (fun t => map (fun p => forbidden lib p (firstn t actions)) ps) (seq 0 (List.length actions))).
Proof. exact (joint_at_once_eq lib ps actions). Qed.
Print Assumptions C39_at_once_equals_stepwise.
Theorem C39_no_priors_refuted lib actions parent sibling :
  joint_at_once lib [] actions parent sibling = Err IndexError.
Proof. exact eq_refl. Qed.
Print Assumptions C39_no_priors_refuted.
Example C39_example : joint_at_once ex_lib [diff_right_prior ex_lib] [3; 8; 9] (row_parents ex_lib [3; 8; 9]) (row_siblings ex_lib [3; 8; 9])
  = Ok [[[]]; [[]]; [[6; 7; 0; 1; 2; 3; 4; 5; 8]]].
Proof. reflexivity. Qed.

(** *** C40: constraint counting *)
Theorem C40_counting hard inc :
  (forall n m, hard = repeat true n ++ repeat false m -> count_constraints hard inc = Ok (map inc (seq 0 n))) /\
  ((forall n m, hard <> repeat true n ++ repeat false m) -> count_constraints hard inc = Err IndexError).
Proof. exact (count_constraints_spec hard inc). Qed.
Print Assumptions C40_counting.
(** The default configuration (soft_length before the derivative constraints). *)
Theorem C40_default_config_refuted inc :
  count_constraints [true; true; true; true; false; true; true; true] inc = Err IndexError.
Proof. exact eq_refl. Qed.
Print Assumptions C40_default_config_refuted.
Example C40_example : count_constraints [true; true; false] (fun i => i + 5) = Ok [5; 6].
Proof. reflexivity. Qed.

(** *** C41: the configured constraints are in force *)
(** [setups spr es] counts how often the constraints have been built: at every import, and for
    the sparse model also at every training.  For every history of the two calls the
    constraints in force are those configured after the first building and none after any
    later one. *)
Theorem C41_constraints_in_force {P} (spr : bool) (cfg : list (list (pspec P))) es :
  e_prior (run_events (if spr then step_spr else step_regular) cfg es) =
  match setups spr es with 0 => None | 1 => Some (configured cfg) | _ => Some [] end.
Proof. exact (prior_after spr cfg es). Qed.
Print Assumptions C41_constraints_in_force.
Theorem C41_first_import {P} (cfg : list (list (pspec P))) n :
  e_prior (run_events step_regular cfg (Import :: repeat Train n)) = Some (configured cfg).
Proof. exact (regular_first_import cfg n). Qed.
Print Assumptions C41_first_import.
(** On any later import, and on every training run of the sparse model, all of
    them are gone, whatever the configuration. *)
Theorem C41_reuse_drops_all_refuted {P} (cfg : list (list (pspec P))) es :
  In Import es ->
  e_prior (run_events step_regular cfg (es ++ [Import])) = Some [] /\
  e_prior (run_events step_spr cfg (es ++ [Import])) = Some [].
Proof. exact (fun H => conj (second_setup_drops step_regular cfg es (or_introl eq_refl) H) (second_setup_drops step_spr cfg es (or_intror eq_refl) H)). Qed.
Print Assumptions C41_reuse_drops_all_refuted.
Theorem C41_sparse_training_unconstrained_refuted {P} (cfg : list (list (pspec P))) n :
  e_prior (run_events step_spr cfg (Import :: repeat Train (S n))) = Some [].
Proof. exact (spr_train_drops cfg n). Qed.
Print Assumptions C41_sparse_training_unconstrained_refuted.
Example C41_example : let cfg := [[mkSpec (Some true) (Some 1) true]; [mkSpec (Some false) (Some 2) true; mkSpec (Some true) (Some 3) true]] in
  configured cfg = [1; 3] /\ e_prior (run_events step_spr cfg [Import; Train]) = Some [].
Proof. split; reflexivity. Qed.

(** *** C42: function set follows the current dataset *)
Theorem C42_function_set_spec base n new :
  1 < n -> (if existsb ends_t base then diff_torch_by_dim n else diff_by_dim n) = Some new ->
  NoDup (auto_function_set base (Some n)) /\
  forall s, In s (auto_function_set base (Some n)) <-> In s new \/ (In s base /\ ~ In s all_diff_tokens).
Proof. exact (auto_fs_spec base n new). Qed.
Print Assumptions C42_function_set_spec.
Theorem C42_history_independent operators base n : forall (hist : list (option nat)) old,
  set_function_set operators base (fold_left (set_function_set operators base) hist old) n =
  match operators with [] => auto_function_set base n | _ => operators end.
Proof. exact (fun _ _ => eq_refl). Qed.
Print Assumptions C42_history_independent.
Theorem C42_nd_config_history_independent base old old' d : inject_nd base old d = inject_nd base old' d.
Proof. exact eq_refl. Qed.
Print Assumptions C42_nd_config_history_independent.
(** The configuration of a data set with n space dimensions: n inputs plus time, automatic
    differentiation along several axes, and the parameters of the data; otherwise the base. *)
Theorem C42_nd_config base old d :
  nd_input_dim (inject_nd base old d) = (if Nat.ltb 1 (dt_n_input_dim d) then dt_n_input_dim d + 1 else nd_input_dim base) /\
  nd_n_input_var (inject_nd base old d) = (if Nat.ltb 1 (dt_n_input_dim d) then dt_n_input_dim d else nd_n_input_var base) /\
  nd_generation (inject_nd base old d) = (if Nat.ltb 1 (dt_n_input_dim d) then "multi_AD"%string else nd_generation base) /\
  nd_n_param_var (inject_nd base old d) = dt_n_param_var d /\
  nd_param_names (inject_nd base old d) = (if Nat.ltb 0 (dt_n_param_var d) then Some (dt_param_names d) else None).
Proof.
  unfold inject_nd. destruct (Nat.ltb 1 (dt_n_input_dim d)), (Nat.ltb_spec 0 (dt_n_param_var d)); cbn; repeat split; lia.
Qed.
Print Assumptions C42_nd_config.
Example C42_example : auto_function_set ["add"; "mul"; "diff"; "diff2"; "n2"]%string (Some 2) = ["Diff"; "Diff2"; "lap"; "add"; "mul"; "n2"]%string.
Proof. reflexivity. Qed.
