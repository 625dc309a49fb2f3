(** Lemmas: retrospective priors, constraint counting, checkers of the
    descendant relation, building priors, function set selection. *)
From Verif Require Import Base Trees TreeFacts TreePos Library LibraryFacts Subroutines SubroutinesFacts
  Prior PriorSpec PriorFacts LengthFacts CheckFacts Estimator ExampleLib.

(** *** JointPrior.at_once *)
Lemma row_nth lib actions t : lib_ok lib -> 0 < t < List.length actions ->
  obs_of lib (firstn t actions) =
  Ok (mkObs (firstn t actions) (nth t (row_parents lib actions) 0%Z) (nth t (row_siblings lib actions) 0)
        (dangling_of lib (firstn t actions))).
Proof.
  intros HL [H1 H2]. unfold obs_of.
  assert (actions <> []) as Hne by (intros ->; simpl in H2; lia).
  pose proof (at_once_entry_ps (ar_of lib) (padj_of lib) (at_once_empty_parent lib) (lL lib) actions t H1 Hne) as E.
  rewrite (at_once_empty lib HL) in E. rewrite (empty_sibling lib HL). rewrite <- E. cbn [bind].
  unfold row_parents, row_siblings, parents_siblings_at_once. rewrite !map_map.
  rewrite (at_once_empty lib HL).
  assert (forall (B : Type) (g : nat -> B) d, nth t (map g (seq 0 (List.length actions))) d = g t) as N.
  { intros B g d. rewrite (nth_indep _ d (g 0)) by (rewrite map_length, seq_length; lia).
    rewrite map_nth. rewrite seq_nth by lia. reflexivity. }
  rewrite !N. reflexivity.
Qed.

Lemma joint_at_once_eq lib ps actions : lib_ok lib -> ps <> [] ->
  joint_at_once lib ps actions (row_parents lib actions) (row_siblings lib actions) =
  Ok (map (fun t => map (fun p => forbidden lib p (firstn t actions)) ps) (seq 0 (List.length actions))).
Proof.
  intros HL Hps. unfold joint_at_once. destruct ps as [|p0 ps]; [congruence|]. f_equal.
  apply map_ext_in. intros t Ht. apply in_seq in Ht. destruct t as [|t].
  - apply map_ext. intros p. cbn [firstn forbidden]. reflexivity.
  - cbn [at_once_obs]. pose proof (row_nth lib actions (S t) HL ltac:(lia)) as E.
    apply map_ext. intros p. unfold forbidden. rewrite E.
    destruct (firstn (S t) actions) eqn:Ef; [|reflexivity].
    apply (f_equal (@List.length _)) in Ef. rewrite firstn_length in Ef. cbn [List.length] in Ef. lia.
Qed.

(** *** Counting constraints *)
Lemma count_loop_err idx inc : forall counts, (exists i, In i idx /\ List.length counts <= i) ->
  count_loop idx inc counts = Err IndexError.
Proof.
  induction idx as [|i idx IH]; intros counts (j & Hj & Hl); [destruct Hj|]. cbn [count_loop].
  destruct (Nat.ltb_spec i (List.length counts)) as [Hlt|]; [|reflexivity].
  apply IH. destruct Hj as [->|Hj]; [lia|]. exists j. split; [assumption|].
  rewrite app_length. cbn [List.length]. rewrite firstn_length, skipn_length. lia.
Qed.
Lemma count_loop_ok inc n : forall m counts, List.length counts = m + n ->
  exists r, count_loop (seq m n) inc counts = Ok r /\
   r = firstn m counts ++ map (fun i => nth i counts 0 + inc i) (seq m n).
Proof.
  induction n as [|n IH]; intros m counts Hl; cbn [seq count_loop].
  - exists counts. split; [reflexivity|]. cbn [map]. rewrite app_nil_r. symmetry. apply firstn_all2. lia.
  - destruct (Nat.ltb_spec m (List.length counts)) as [Hlt|]; [|lia].
    set (c' := firstn m counts ++ (nth m counts 0 + inc m) :: skipn (S m) counts).
    destruct (IH (S m) c') as (r & E1 & E2).
    { unfold c'. rewrite app_length. cbn [List.length]. rewrite firstn_length, skipn_length. lia. }
    exists r. split; [exact E1|]. rewrite E2. unfold c'. cbn [map].
    rewrite firstn_app, firstn_firstn. rewrite firstn_length.
    replace (Nat.min (S m) m) with m by lia. replace (S m - Nat.min m (List.length counts)) with 1 by lia.
    cbn [firstn]. rewrite <- app_assoc. cbn [app]. f_equal. f_equal.
    apply map_ext_in. intros i Hi. apply in_seq in Hi. f_equal.
    rewrite app_nth2 by (rewrite firstn_length; lia). rewrite firstn_length.
    replace (i - Nat.min m (List.length counts)) with (S (i - S m)) by lia. cbn [nth].
    transitivity (nth (S m + (i - S m)) counts 0); [|f_equal; lia].
    clear. generalize (i - S m) as k. generalize (S m) as q. intros q. revert counts.
    induction q as [|q IHq]; intros [|x counts] k; try reflexivity.
    + destruct k; reflexivity.
    + cbn [skipn Nat.add nth]. apply IHq.
Qed.

Definition num_hard (hard : list bool) : nat := List.length (filter (fun b => b) hard).
Lemma constraint_indices_len hard : List.length (constraint_indices hard) = num_hard hard.
Proof. apply indices_from_length. Qed.
Lemma constraint_indices_front n m : constraint_indices (repeat true n ++ repeat false m) = seq 0 n.
Proof.
  unfold constraint_indices, indices. generalize 0 as i. induction n as [|n IH]; intros i; cbn [repeat app indices_from seq].
  - revert i. induction m as [|m IHm]; intros i; cbn [repeat indices_from app]; auto.
  - cbn [app]. rewrite IH. reflexivity.
Qed.
Lemma num_hard_front n m : num_hard (repeat true n ++ repeat false m) = n.
Proof. rewrite <- constraint_indices_len, constraint_indices_front. apply seq_length. Qed.
Lemma nth_repeat_lt {A} (x : A) n i : i < n -> nth_error (repeat x n) i = Some x.
Proof. revert i. induction n as [|n IH]; intros i H; [lia|]. destruct i; [reflexivity|]. cbn. apply IH. lia. Qed.
Lemma hard_split hard : (exists n m, hard = repeat true n ++ repeat false m) \/
  (exists i, nth_error hard i = Some true /\ num_hard hard <= i).
Proof.
  induction hard as [|b hard IH]; [left; exists 0, 0; reflexivity|].
  destruct b.
  - destruct IH as [(n & m & ->)|(i & E & H)]; [left; exists (S n), m; reflexivity|].
    right. exists (S i). split; [exact E|]. unfold num_hard in *. cbn [filter List.length]. lia.
  - destruct IH as [(n & m & ->)|(i & E & H)].
    + destruct n as [|n]; [left; exists 0, (S m); reflexivity|]. right. exists (S n). split.
      * cbn [nth_error]. rewrite nth_error_app1 by (rewrite repeat_length; lia). apply nth_repeat_lt. lia.
      * change (num_hard (false :: repeat true (S n) ++ repeat false m)) with (num_hard (repeat true (S n) ++ repeat false m)).
        rewrite num_hard_front. lia.
    + right. exists (S i). split; [exact E|]. change (num_hard (false :: hard)) with (num_hard hard). lia.
Qed.

Lemma count_constraints_spec hard inc :
  (forall n m, hard = repeat true n ++ repeat false m -> count_constraints hard inc = Ok (map inc (seq 0 n))) /\
  ((forall n m, hard <> repeat true n ++ repeat false m) -> count_constraints hard inc = Err IndexError).
Proof.
  split.
  - intros n m ->. unfold count_constraints. rewrite constraint_indices_front, seq_length.
    destruct (count_loop_ok inc n 0 (repeat 0 n) (repeat_length _ _)) as (r & -> & ->). cbn [firstn app]. f_equal.
    apply map_ext_in. intros i Hi. apply in_seq in Hi. rewrite nth_repeat. reflexivity.
  - intros H. destruct (hard_split hard) as [(n & m & E)|(i & E & Hi)]; [exfalso; eapply H; eauto|].
    unfold count_constraints. apply count_loop_err. exists i. split.
    + unfold constraint_indices. apply indices_spec. exists true. auto.
    + rewrite repeat_length, constraint_indices_len. exact Hi.
Qed.

(** *** Descendant checkers on library level *)
Lemma lib_classes lib : lib_ok lib -> (forall a, In a (lbinary lib) <-> ar_of lib a = 2) /\ (forall a, In a (lunary lib) <-> ar_of lib a = 1).
Proof.
  intros H. pose proof (arity_class lib H) as C. split; intros a; destruct (C a) as (_ & C1 & C2); rewrite ?C1, ?C2; split; try tauto;
    intros E; (split; [apply (ar_of_lt lib a H); lia|exact E]).
Qed.
Lemma desc_same_checker lib ef t : lib_ok lib -> (forall e, In e ef -> 0 < ar_of lib e) -> respects (ar_of lib) t ->
  (desc_no_target ef (lbinary lib) (lunary lib) None (preorder t) = true <->
   exists a c, In (a, c) (nodes [] t) /\ in_first_arg ef ef a c).
Proof.
  intros H He Hr. destruct (lib_classes lib H) as [C1 C2].
  rewrite (desc_no_target_nested (ar_of lib) ef (lbinary lib) (lunary lib) C1 C2 (proj2 H) He t Hr). apply nested_spec.
Qed.
Lemma desc_checker lib tg ef t : lib_ok lib -> (forall e, In e ef -> 0 < ar_of lib e) ->
  (forall a, In a ef -> ~ In a tg) -> List.length ef = List.length tg -> respects (ar_of lib) t ->
  (~ exists a c, In (a, c) (nodes [] t) /\ in_first_arg ef ef a c) ->
  exists b, desc_with_target tg ef (lbinary lib) (lunary lib) (preorder t) = Some b /\
    (b = true <-> exists a c, In (a, c) (nodes [] t) /\ in_first_arg tg ef a c).
Proof.
  intros H He Hd Hl Hr Hn. destruct (lib_classes lib H) as [C1 C2]. exists (nested ef tg t). split; [|apply nested_spec].
  apply (desc_with_target_nested (ar_of lib)); auto; [exact (proj2 H)|].
  destruct (nested ef ef t) eqn:E; [|reflexivity]. exfalso. apply Hn. apply nested_spec. exact E.
Qed.

(** *** Building priors *)
Lemma take_popped {P} (s : pspec P) : take (popped s) = [].
Proof. reflexivity. Qed.
Lemma make_prior_popped {P} (cfg : list (list (pspec P))) : fst (make_prior (snd (make_prior cfg))) = [].
Proof.
  unfold make_prior. cbn [fst snd]. induction cfg as [|l cfg IH]; [reflexivity|]. cbn [map flat_map]. rewrite IH, app_nil_r.
  induction l as [|s l IHl]; [reflexivity|]. cbn [map flat_map]. rewrite take_popped. exact IHl.
Qed.
Lemma popped_idem {P} (cfg : list (list (pspec P))) : map (map popped) (map (map popped) cfg) = map (map popped) cfg.
Proof. rewrite map_map. apply map_ext. intros l. rewrite map_map. reflexivity. Qed.

Lemma regular_first_import {P} (cfg : list (list (pspec P))) n :
  e_prior (run_events step_regular cfg (Import :: repeat Train n)) = Some (configured cfg).
Proof.
  unfold run_events. cbn [fold_left step_regular setup make_prior e_cfg].
  induction n as [|n IH]; [reflexivity|]. cbn [repeat fold_left step_regular]. exact IH.
Qed.
Lemma cfg_after {P} step (cfg : list (list (pspec P))) es : (step = step_regular \/ step = step_spr) ->
  let s := run_events step cfg es in
  e_prior s = None /\ e_cfg s = cfg \/
  e_cfg s = map (map popped) cfg /\ exists ps, e_prior s = Some ps.
Proof.
  intros Hs. cbv zeta. unfold run_events.
  assert (forall es s, (e_prior s = None /\ e_cfg s = cfg \/ e_cfg s = map (map popped) cfg /\ exists ps, e_prior s = Some ps) ->
     let s' := fold_left step es s in
     (e_prior s' = None /\ e_cfg s' = cfg \/ e_cfg s' = map (map popped) cfg /\ exists ps, e_prior s' = Some ps)) as G.
  2:{ apply G. left. auto. }
  clear es. induction es as [|e es IH]; intros s H; cbn [fold_left]; [exact H|]. apply IH.
  assert (e_cfg (setup s) = map (map popped) cfg /\ exists ps, e_prior (setup s) = Some ps) as HS.
  { unfold setup, make_prior. cbn. split; [|eauto]. destruct H as [[_ ->]|[-> _]]; [reflexivity|apply popped_idem]. }
  destruct Hs as [->| ->], e; cbn [step_regular step_spr]; auto.
Qed.
Lemma second_setup_drops {P} step (cfg : list (list (pspec P))) es :
  (step = step_regular \/ step = step_spr) -> In Import es ->
  e_prior (run_events step cfg (es ++ [Import])) = Some [].
Proof.
  intros Hs Hin. pose proof (cfg_after step cfg es Hs) as C. unfold run_events in *. rewrite fold_left_app. cbn [fold_left].
  assert (exists ps, e_prior (fold_left step es (mkE cfg None)) = Some ps) as (ps & Hp).
  { clear C. assert (forall es s, (exists ps, e_prior s = Some ps) -> exists ps, e_prior (fold_left step es s) = Some ps) as K.
    { induction es0 as [|e es0 IH]; intros s H; cbn [fold_left]; [exact H|]. apply IH.
      destruct Hs as [->| ->], e; cbn; eauto. }
    revert Hin. generalize (mkE cfg None) as s. induction es as [|e es IH]; intros s; [intros []|]. intros [->|Hin]; cbn [fold_left].
    - apply K. destruct Hs as [->| ->]; cbn; eauto.
    - apply IH. exact Hin. }
  destruct C as [[C _]|[C _]]; [congruence|].
  assert (step (fold_left step es (mkE cfg None)) Import = setup (fold_left step es (mkE cfg None))) as -> by (destruct Hs as [->| ->]; reflexivity).
  unfold setup, make_prior. cbn [e_prior]. rewrite C. f_equal. exact (make_prior_popped cfg).
Qed.
Lemma spr_train_drops {P} (cfg : list (list (pspec P))) n :
  e_prior (run_events step_spr cfg (Import :: repeat Train (S n))) = Some [].
Proof.
  unfold run_events. cbn [repeat fold_left step_spr].
  assert (forall s, e_cfg s = map (map popped) cfg -> e_prior s = Some [] -> e_prior (fold_left step_spr (repeat (@Train) n) s) = Some []) as K.
  { induction n as [|n IH]; intros s H1 H2; cbn [repeat fold_left]; [exact H2|]. apply IH; cbn [step_spr setup make_prior]; unfold setup, make_prior; cbn [e_cfg e_prior].
    - rewrite H1. apply popped_idem.
    - rewrite H1. f_equal. exact (make_prior_popped cfg). }
  apply K; unfold setup, make_prior; cbn [e_cfg e_prior].
  - apply popped_idem.
  - f_equal. exact (make_prior_popped cfg).
Qed.

(** Number of times the constraints have been built. *)
Fixpoint setups (spr : bool) (es : list event) : nat :=
  match es with [] => 0 | Import :: es' => S (setups spr es') | Train :: es' => (if spr then 1 else 0) + setups spr es' end.
Lemma prior_after {P} (spr : bool) (cfg : list (list (pspec P))) es :
  e_prior (run_events (if spr then step_spr else step_regular) cfg es) =
  match setups spr es with 0 => None | 1 => Some (configured cfg) | _ => Some [] end.
Proof.
  assert (forall es s, e_cfg s = map (map popped) cfg -> forall ps, e_prior s = Some ps ->
     e_prior (fold_left (if spr then step_spr else step_regular) es s) = match setups spr es with 0 => Some ps | _ => Some [] end) as K.
  { clear es. induction es as [|e es IH]; intros s H1 ps H2; cbn [fold_left setups]; [exact H2|].
    assert (e_cfg (setup s) = map (map popped) cfg /\ e_prior (setup s) = Some []) as [A B].
    { unfold setup, make_prior. cbn [e_cfg e_prior]. rewrite H1. split; [apply popped_idem|]. f_equal. exact (make_prior_popped cfg). }
    assert (e_prior (fold_left (if spr then step_spr else step_regular) es (setup s)) = Some []) as C.
    { rewrite (IH _ A _ B). destruct (setups spr es); reflexivity. }
    destruct spr, e; cbn [step_spr step_regular Nat.add]; try exact C. exact (IH s H1 ps H2). }
  unfold run_events. induction es as [|e es IH]; [reflexivity|]. cbn [fold_left setups].
  assert (e_cfg (setup (mkE cfg None)) = map (map popped) cfg /\ e_prior (setup (mkE cfg None)) = Some (configured cfg)) as [A B] by (split; reflexivity).
  pose proof (K es _ A _ B) as C.
  destruct spr, e; cbn [step_spr step_regular Nat.add]; try (rewrite C; destruct (setups _ es); reflexivity). exact IH.
Qed.

(** *** Function sets *)
Lemma smem_In s l : smem s l = true <-> In s l.
Proof.
  unfold smem. rewrite existsb_exists. split.
  - intros (y & H & E). apply String.eqb_eq in E. subst. exact H.
  - intros H. exists s. split; [exact H|apply String.eqb_refl].
Qed.
Lemma dedup_spec l : forall seen, NoDup (dedup seen l) /\ (forall s, In s (dedup seen l) <-> In s l /\ ~ In s seen).
Proof.
  induction l as [|x l IH]; intros seen; cbn [dedup]; [split; [constructor|simpl; tauto]|].
  destruct (smem x seen) eqn:E.
  - apply smem_In in E. destruct (IH seen) as [H1 H2]. split; [exact H1|]. intros s. rewrite H2. simpl. split; [tauto|].
    intros [[->|H] Hn]; [tauto|auto].
  - assert (~ In x seen) as Hx by (intros H; apply smem_In in H; congruence).
    destruct (IH (x :: seen)) as [H1 H2]. split.
    + constructor; [|exact H1]. rewrite H2. simpl. tauto.
    + intros s. simpl. rewrite H2. simpl. destruct (string_dec x s) as [->|]; intuition.
Qed.
Lemma auto_fs_spec base n new :
  1 < n -> (if existsb ends_t base then diff_torch_by_dim n else diff_by_dim n) = Some new ->
  NoDup (auto_function_set base (Some n)) /\
  forall s, In s (auto_function_set base (Some n)) <-> In s new \/ (In s base /\ ~ In s all_diff_tokens).
Proof.
  intros Hn E. unfold auto_function_set. destruct (Nat.leb_spec n 1); [lia|]. rewrite E.
  destruct (dedup_spec (new ++ filter (fun t => negb (smem t all_diff_tokens)) base) []) as [H1 H2].
  split; [exact H1|]. intros s. rewrite H2, in_app_iff, filter_In. rewrite negb_true_iff.
  assert (smem s all_diff_tokens = false <-> ~ In s all_diff_tokens) as ->.
  { rewrite <- smem_In. destruct (smem s all_diff_tokens); split; congruence. }
  simpl. tauto.
Qed.
