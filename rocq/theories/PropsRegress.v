(** Property theorems: term splitting, regression, recombination, mutation,
    duplicate removal (C15-C17, C34, C35, C43-C48). *)
From Coq Require Import QArith Qabs Permutation.
From Verif Require Import Base Trees TreeFacts Library LibraryFacts Program ProgramFacts Prior PriorSpec PriorFacts Execute ExecuteSpec ExecuteFacts
  Stridge StridgeFacts StridgeFit Aggregator AggregatorFacts DedupFacts RegressLemmas ExampleLib.
Local Open Scope nat_scope.

(** *** C15 *)
(** Whatever commutative group the values live in, an executed expression is the sum of its
    terms, each taken with its sign ([true_signs]: a term changes sign on the right of a
    subtraction). *)
Theorem C15_signed_sum {V} (u x : list V) param call zero vadd vneg t sp v :
  abelian zero vadd vneg -> sums_called call vadd vneg -> respects tarity t -> diff_ok t ->
  arity_le2 (preorder t) -> sums_binary (preorder t) -> split_forest (preorder t) [] = Ok sp ->
  python_execute u x param call (preorder t) = OVal v ->
  exists vs : list V, Forall2 (fun toks w => python_execute u x param call toks = OVal w) (sp_tokens sp) vs /\
    List.length vs = List.length (true_signs t) /\ v = ssum zero vadd vneg (combine (true_signs t) vs).
Proof. exact (terms_signed u x param call zero vadd vneg t sp v). Qed.
Print Assumptions C15_signed_sum.
(** The recorded symbols are those signs when no right argument of a subtraction is
    itself a sum. *)
Theorem C15_symbols t sp : respects tarity t -> arity_le2 (preorder t) -> sums_binary (preorder t) -> right_atomic t ->
  split_forest (preorder t) [] = Ok sp -> sp_symbols sp = true_signs t.
Proof. exact (symbols_right t sp). Qed.
Print Assumptions C15_symbols.
(** No term of a split is itself a sum or difference: the split is complete. *)
Theorem C15_terms_are_atomic t sp : respects tarity t -> arity_le2 (preorder t) -> sums_binary (preorder t) ->
  split_forest (preorder t) [] = Ok sp ->
  Forall (fun m => match m with Nd a _ => is_sum (tname a) = false end) (sp_terms sp).
Proof.
  intros HR HA HB E. rewrite (split_forest_ok t [] HR HA HB) in E. injection E as <-. cbn [sp_terms]. unfold terms_of. cbn [map]. rewrite app_nil_r.
  apply Forall_forall. intros [a cs] Hm. exact (splits_root t 1 _ (respects_sum_ok t HR HB) Hm).
Qed.
Print Assumptions C15_terms_are_atomic.
(** Otherwise they are not: u - (u + u) is recorded with symbols +, +, + although its value is u - u - u. *)
Definition c15_u := mkTok "u1" 0 None (Some 0) None.
Definition c15_bad : node := Nd (op "sub" 2) [Nd c15_u []; Nd (op "add" 2) [Nd c15_u []; Nd c15_u []]].
Theorem C15_symbols_refuted :
  exists sp, respects tarity c15_bad /\ diff_ok c15_bad /\ split_forest (preorder c15_bad) [] = Ok sp /\
    sp_symbols sp = [1; 1; 1]%Z /\ true_signs c15_bad = [1; -1; -1]%Z /\ sp_tokens sp = [[c15_u]; [c15_u]; [c15_u]] /\
    python_execute [5%Z] [] (fun _ => 0%Z) zcall [c15_u] = OVal 5%Z /\
    python_execute [5%Z] [] (fun _ => 0%Z) zcall (preorder c15_bad) = OVal (-5)%Z.
Proof.
  eexists. split; [repeat constructor|]. split; [repeat constructor; cbn; discriminate|]. repeat split.
Qed.
Print Assumptions C15_symbols_refuted.
Definition c15_ok : node := Nd (op "sub" 2) [Nd (op "sub" 2) [Nd c15_u []; Nd (op "n2" 1) [Nd c15_u []]]; Nd (op "mul" 2) [Nd c15_u []; Nd c15_u []]].
Example C15_hypotheses : abelian 0%Z Z.add Z.opp /\ sums_called zcall Z.add Z.opp /\ respects tarity c15_ok /\ diff_ok c15_ok /\
  arity_le2 (preorder c15_ok) /\ sums_binary (preorder c15_ok) /\ right_atomic c15_ok /\
  python_execute [5%Z] [] (fun _ => 0%Z) zcall (preorder c15_ok) = OVal (-45)%Z /\
  exists sp, split_forest (preorder c15_ok) [] = Ok sp /\ sp_symbols sp = [1; -1; -1]%Z.
Proof.
  split; [exact z_abelian|]. split; [exact z_sums|]. split; [repeat constructor|]. split; [repeat constructor; cbn; discriminate|].
  split; [unfold arity_le2; repeat constructor|].
  split; [unfold sums_binary; repeat constructor; cbn; intros; try discriminate; repeat split|].
  split; [apply ra_sub; [reflexivity|repeat split|reflexivity| |reflexivity]; apply ra_sub; [reflexivity|repeat split|reflexivity| |reflexivity]; apply ra_atom; reflexivity|]. split; [reflexivity|]. eexists. split; reflexivity.
Qed.

(** *** C16 *)
Theorem C16_build_then_flatten t : respects tarity t -> arity_le2 (preorder t) ->
  rebuild_tree (preorder t) = Ok (t, []) /\ preorder_traverse t = Ok (preorder t).
Proof.
  intros HR HA. split; [rewrite <- (app_nil_r (preorder t)); exact (rebuild_ok t [] HR)|].
  exact (preorder_traverse_ok t (respects_small t HR HA)).
Qed.
Print Assumptions C16_build_then_flatten.
Theorem C16_flatten_after_build l t rest : rebuild_tree l = Ok (t, rest) ->
  respects tarity t /\ l = preorder t ++ rest /\ (arity_le2 l -> preorder_traverse t = Ok (preorder t)).
Proof.
  intros E. destruct (rebuild_sound l t rest E) as [HR ->]. split; [exact HR|]. split; [reflexivity|].
  intros HA. apply Forall_app in HA. apply preorder_traverse_ok. apply respects_small; [exact HR|apply HA].
Qed.
Print Assumptions C16_flatten_after_build.
(** Building fails exactly on lists with no complete expression at the front. *)
Theorem C16_build_fails_iff_incomplete l :
  (exists e, rebuild_tree l = Err e) <-> (forall p q, l = p ++ q -> ~ complete tarity p).
Proof.
  split.
  - intros (e & E) p q -> (t & HR & <-). rewrite rebuild_ok in E by exact HR. discriminate.
  - intros H. destruct (rebuild_tree l) as [[t rest]|e] eqn:E; [|eauto]. exfalso.
    destruct (rebuild_sound l t rest E) as [HR ->]. apply (H _ _ eq_refl). exists t. auto.
Qed.
Print Assumptions C16_build_fails_iff_incomplete.
Theorem C16_reported_sizes t defaults sp : respects tarity t -> arity_le2 (preorder t) -> sums_binary (preorder t) ->
  Forall (fun d => tarity d = 0) defaults -> split_forest (preorder t) defaults = Ok sp ->
  sp_tokens sp = map preorder (sp_terms sp) /\ sp_len sp = map (fun m => List.length (preorder m)) (sp_terms sp) /\
  Forall (respects tarity) (sp_terms sp) /\
  List.length (sp_symbols sp) = List.length (sp_terms sp) /\ List.length (sp_depth sp) = List.length (sp_terms sp).
Proof. exact (C16_facts t defaults sp). Qed.
Print Assumptions C16_reported_sizes.
Example C16_example : rebuild_tree (preorder c15_ok) = Ok (c15_ok, []) /\
  (exists sp, split_forest (preorder c15_ok) [c15_u] = Ok sp /\ sp_len sp = [1; 2; 3; 1]) /\
  rebuild_tree [op "mul" 2; c15_u] = Err IndexError.
Proof. split; [reflexivity|]. split; [eexists; split; reflexivity|reflexivity]. Qed.

(** *** C17 *)
Theorem C17_alignment_and_range exec lstsq add_const rg trav defaults sp y w cols :
  lstsq_shape lstsq -> split_forest trav defaults = Ok sp ->
  calculate exec lstsq add_const rg sp y = Valid w cols ->
  exists vs, Forall2 (fun l v => exec l = TVal v) (sp_tokens sp) vs /\ vs <> [] /\
    List.length w = List.length cols /\ lstsq cols y = Some w /\
    ((cols = vs /\ add_const = false /\ Forall in_range w) \/
     (exists n, cols = vs ++ [repeat 1%Q n] /\ (forall v, In v vs -> List.length v = n) /\ add_const = true /\ Forall in_range w) \/
     (cols = vs /\ add_const = true)).
Proof. intros HL E. exact (calculate_ok exec lstsq add_const rg sp y w cols HL (wf_split_forest _ _ _ E)). Qed.
Print Assumptions C17_alignment_and_range.
(** The printed equation pairs coefficient i with term i, and the extra coefficient,
    if any, with the constant. *)
Theorem C17_printed_pairs w q terms : List.length w = List.length terms ->
  str_pairs w terms = combine w (map Some terms) /\ str_pairs (w ++ [q]) terms = combine (w ++ [q]) (map Some terms ++ [None]).
Proof. exact (fun H => conj (str_pairs_same w terms H) (str_pairs_const w q terms H)). Qed.
Print Assumptions C17_printed_pairs.
(** With add_const, dropping a small constant re-fits without checking the range:
    a coefficient below 5e-5 is accepted. *)
Definition c17_exec (l : list token) : term_eval := TVal [1; 2]%Q.
Definition c17_y : list Q := [2 # 100000; 8 # 100000]%Q.
Theorem C17_refit_unchecked_refuted :
  exists sp w cols, lstsq_shape lsq /\ split_forest [c15_u] [] = Ok sp /\
    calculate c17_exec lsq true (mkRegs 4 None) sp c17_y = Valid w cols /\ List.length w = 1 /\ ~ Forall in_range w.
Proof.
  eexists. eexists. eexists. split; [exact lsq_shape|]. split; [reflexivity|]. split; [vm_compute; reflexivity|]. split; [reflexivity|].
  intros H. inversion H as [|? ? [A _] _]; subst. vm_compute in A. apply A. reflexivity.
Qed.
Print Assumptions C17_refit_unchecked_refuted.
Example C17_example : exists sp w cols, split_forest (preorder c15_ok) [] = Ok sp /\ List.length (sp_tokens sp) = 3 /\
  (exists sp', split_forest [op "add" 2; c15_u; op "n2" 1; c15_u] [] = Ok sp' /\
    calculate (fun l => TVal (match l with [_] => [1; 2; 3] | _ => [1; 4; 9] end)%Q) lsq false (mkRegs 4 (Some 1)) sp' [3; 10; 21]%Q = Valid w cols) /\
  w = [1; 2]%Q.
Proof. eexists. eexists. eexists. split; [reflexivity|]. split; [reflexivity|]. split; [eexists; split; [reflexivity|vm_compute; reflexivity]|reflexivity]. Qed.

(** *** C43 depth limit *)
Theorem C43_shallow_terms_pass md i t : respects tarity t -> arity_le2 (preorder t) -> tdepth t <= md ->
  ~ In "depth_limit"%string (snd (check_term md i (preorder t) (Nat.log2_up (List.length (preorder t))))).
Proof. intros HR HA. exact (depth_never_rejects md (preorder t) i t HR HA eq_refl). Qed.
Print Assumptions C43_shallow_terms_pass.
Fixpoint tower (n : nat) : node := match n with O => Nd c15_u [] | S n' => Nd (op "n2" 1) [tower n'] end.
Theorem C43_deep_terms_pass_refuted : exists t, respects tarity t /\ arity_le2 (preorder t) /\ tdepth t = 16 /\
  snd (check_term 4 0 (preorder t) (Nat.log2_up (List.length (preorder t)))) = [].
Proof. exists (tower 15). split; [repeat constructor|]. split; [unfold arity_le2; repeat constructor|]. split; reflexivity. Qed.
Print Assumptions C43_deep_terms_pass_refuted.
Example C43_rejects : snd (check_term 4 0 (preorder (tower 16)) (Nat.log2_up (List.length (preorder (tower 16))))) = ["depth_limit"%string].
Proof. reflexivity. Qed.

(** *** C44 *)
Theorem C44_terms_mention_u exec lstsq ac rg trav ds sp y w cols : split_forest trav ds = Ok sp ->
  calculate exec lstsq ac rg sp y = Valid w cols ->
  Forall (fun l => (exists k, In k l /\ contains "u" (tname k) = true) /\
    (Forall (fun k => no_comma (tname k)) l -> l <> [] -> has_diff (repr_list l) = true ->
     exists k, In k (tl l) /\ has_prefix "u" (tname k) = true)) (sp_tokens sp).
Proof. exact (valid_terms_u exec lstsq ac rg trav ds sp y w cols). Qed.
Print Assumptions C44_terms_mention_u.
(** "u" is looked for in the printed term: mul(x1, x1) passes because of the "u" in "mul". *)
Definition c44_x := mkTok "x1" 0 (Some 0) None None.
Theorem C44_no_state_variable_refuted :
  exists sp w cols, split_forest [op "mul" 2; c44_x; c44_x] [] = Ok sp /\
    calculate c17_exec lsq false (mkRegs 4 (Some 1)) sp [2; 4]%Q = Valid w cols /\
    Forall (fun l => Forall (fun k => tstate k = None) l) (sp_tokens sp).
Proof. eexists. eexists. eexists. split; [reflexivity|]. split; [vm_compute; reflexivity|]. repeat constructor. Qed.
Print Assumptions C44_no_state_variable_refuted.

(** *** C45 *)
(** After any history of numpy and torch evaluations, a numpy evaluation is reported invalid
    exactly when there is an entry nobody has read: one left by torch evaluations since the
    last numpy evaluation, or one of its own warnings; the first such entry is reported. *)
Theorem C45_numpy_report {V} zero (h : list (@evaluation V)) ws (y : option V) :
  snd (unsafe_execute ws y (fst (ev_run zero ilog_init h))) =
  match unread h ++ ws with
  | [] => mkRep y false None None
  | w :: _ => mkRep y true (Some (fst w)) (Some (snd w))
  end.
Proof. exact (numpy_report zero h ws y). Qed.
Print Assumptions C45_numpy_report.
(** Hence, with numpy evaluations only, each one is reported for its own warnings. *)
Theorem C45_numpy_only {V} zero (h : list (@evaluation V)) ws (y : option V) : (forall ws' y', ~ In (Torch ws' y') h) ->
  snd (unsafe_execute ws y (fst (ev_run zero ilog_init h))) =
  match ws with
  | [] => mkRep y false None None
  | w :: _ => mkRep y true (Some (fst w)) (Some (snd w))
  end.
Proof. intros H. rewrite C45_numpy_report, (unread_no_torch h H). reflexivity. Qed.
Print Assumptions C45_numpy_only.
(** A torch evaluation is reported for its own outcome, whatever the log holds. *)
Theorem C45_torch_report {V} (zero : V) g ws (y : option V) :
  snd (unsafe_execute_torch zero ws y g) =
  match y with Some v => mkRep (Some v) false None None
             | None => mkRep (Some zero) true (Some "bad_diff") (Some "bad_diff") end%string.
Proof. destruct y; reflexivity. Qed.
Print Assumptions C45_torch_report.
Example C45_example : let h := [Numpy [("overflow", "exp"); ("invalid", "log")]%string (Some 1%Z); Torch [] (Some 2%Z)] in
  unread h = [] /\ snd (unsafe_execute [("divide", "div")]%string (Some 3%Z) (fst (ev_run 0%Z ilog_init h))) = mkRep (Some 3%Z) true (Some "divide"%string) (Some "div"%string).
Proof. split; reflexivity. Qed.
(** A failed torch evaluation leaves its entry in the log: the next numpy evaluation,
    which emits no warning, is reported invalid. *)
Theorem C45_stale_entry_refuted :
  let '(g, r1) := unsafe_execute_torch 0%Z [] None ilog_init in
  let '(_, r2) := unsafe_execute [] (Some 7%Z) g in
  rp_invalid r1 = true /\ rp_value r2 = Some 7%Z /\ rp_invalid r2 = true.
Proof. repeat split. Qed.
Print Assumptions C45_stale_entry_refuted.
(** The node and the type of the error are swapped: a warning of type [ty] at node [nd]
    is reported with error_node = ty and error_type = nd. *)
Theorem C45_node_and_type_swapped_refuted ty nd :
  let r := snd (unsafe_execute [(ty, nd)] (Some 7%Z) ilog_init) in rp_node r = Some ty /\ rp_type r = Some nd.
Proof. split; reflexivity. Qed.
Print Assumptions C45_node_and_type_swapped_refuted.

(** *** C34 *)
Theorem C34_recombination toks lib a terms rnd max_length :
  tokens_ok toks -> make_library toks = Ok lib -> Forall (fun k => tarity k <= 2) toks ->
  Forall (fun k => is_sum (tname k) = true -> tarity k = 2) toks -> choice_ok lib rnd ->
  add_index lib = Ok a -> terms <> [] ->
  Forall (fun t => in_lib lib t /\ complete (ar_of lib) t /\ root_plain lib t) terms ->
  exists l sp, reconstruct_tokens lib terms = Ok l /\ complete (ar_of lib) l /\
    split_forest (map (tok_at lib) l) [] = Ok sp /\ sp_tokens sp = map (map (tok_at lib)) terms /\
    Forall (fun s => s = 1%Z) (sp_symbols sp) /\
    (if Nat.leb (List.length l) max_length
     then exists p, tokens2index l max_length = Ok p /\ List.length p = max_length /\ finish_tokens lib 1 rnd p = Ok l
     else tokens2index l max_length = Err ValueError).
Proof. exact (recombination toks lib a terms rnd max_length). Qed.
Print Assumptions C34_recombination.
(** Joining no terms at all fails. *)
Theorem C34_no_terms lib : exists e, reconstruct_tokens lib [] = Err e.
Proof. exact (reconstruct_empty lib). Qed.
Print Assumptions C34_no_terms.
Definition c34_terms : list (list nat) := [[8]; [3; 8; 9]; [1; 8; 4; 8; 9]].
Example C34_example : add_index ex_lib = Ok 0 /\ Forall (fun t => in_lib ex_lib t /\ complete (ar_of ex_lib) t /\ root_plain ex_lib t) c34_terms /\
  reconstruct_tokens ex_lib c34_terms = Ok [0; 8; 0; 3; 8; 9; 1; 8; 4; 8; 9] /\
  Forall (fun k => is_sum (tname k) = true -> tarity k = 2) ex_toks /\ Forall (fun k => tarity k <= 2) ex_toks.
Proof.
  split; [reflexivity|]. split; [repeat constructor; try (vm_compute; lia); try (apply complete_slots; reflexivity)|].
  split; [reflexivity|]. split; repeat constructor; cbn; intros; discriminate.
Qed.

(** *** C35 *)
Definition no_overlap (toks : list token) : Prop :=
  forall tok, In tok toks -> is_some (tstate tok) = true -> is_some (tinput tok) = true -> False.
Theorem C35_mutated_token_same_kind toks lib only draws t r : tokens_ok toks -> make_library toks = Ok lib -> t < lL lib ->
  no_overlap toks -> draws_ok lib only draws t -> mutate_single lib only draws t = Ok (Some r) ->
  r < lL lib /\ ar_of lib r = ar_of lib t /\ kind_of (tok_at lib r) = kind_of (tok_at lib t) /\
  (only = true -> 0 < ar_of lib t -> r = t).
Proof. exact (mutate_single_kind toks lib only draws t r). Qed.
Print Assumptions C35_mutated_token_same_kind.
Theorem C35_mutated_token_differs toks lib only draws t : make_library toks = Ok lib -> mutate_single lib only draws t = Ok (Some t) ->
  exists tok, nth_error toks t = Some tok /\
     (candidates lib only t tok = Ok None \/ exists c, candidates lib only t tok = Ok (Some c) /\ List.length c = 1).
Proof. exact (fun H E => mutate_single_differs toks lib only draws t t H E eq_refl). Qed.
Print Assumptions C35_mutated_token_differs.
Theorem C35_term_stays_an_expression toks lib only term choices r : tokens_ok toks -> make_library toks = Ok lib -> no_overlap toks ->
  in_lib lib term -> Forall2 (choice_fine lib only) term choices -> complete (ar_of lib) term ->
  mutate_tokens lib only choices term = Ok (Some r) ->
  in_lib lib r /\ complete (ar_of lib) r /\ map (ar_of lib) r = map (ar_of lib) term /\
  map (fun t => kind_of (tok_at lib t)) r = map (fun t => kind_of (tok_at lib t)) term.
Proof.
  intros HT HM HO HI HC HCm E. destruct (mutate_tokens_kinds toks lib only HT HM HO term choices r HI HC E) as (A & B & C & _).
  split; [exact A|]. split; [exact (complete_map _ _ _ (eq_sym B) HCm)|]. auto.
Qed.
Print Assumptions C35_term_stays_an_expression.
(** In terminal-only mode no operator changes. *)
Theorem C35_terminal_only_keeps_operators toks lib term choices r : tokens_ok toks -> make_library toks = Ok lib -> no_overlap toks ->
  in_lib lib term -> Forall2 (choice_fine lib true) term choices -> mutate_tokens lib true choices term = Ok (Some r) ->
  Forall2 (fun t t' => 0 < ar_of lib t -> t' = t) term r.
Proof. intros HT HM HO HI HC E. exact (proj2 (proj2 (proj2 (mutate_tokens_kinds toks lib true HT HM HO term choices r HI HC E))) eq_refl). Qed.
Print Assumptions C35_terminal_only_keeps_operators.
Definition c35_choices : list (option (list nat)) := [Some [1; 3]; Some [8]; Some [9; 9; 10]].
Example C35_example : in_lib ex_lib [1; 8; 9] /\ Forall2 (choice_fine ex_lib false) [1; 8; 9] c35_choices /\ no_overlap ex_toks /\
  mutate_tokens ex_lib false c35_choices [1; 8; 9] = Ok (Some [3; 8; 10]).
Proof.
  split; [repeat constructor; vm_compute; lia|]. split; [|split; [|reflexivity]].
  - apply choices_fineb_ok. reflexivity.
  - intros tok H. cbn in H. intuition subst; cbn in *; discriminate.
Qed.
(** ... but it may break the derivative constraint: the right argument of a new diff is u1. *)
Theorem C35_mutation_breaks_diff_refuted :
  exists r, complete (ar_of ex_lib) [1; 9; 8] /\ Forall2 (choice_fine ex_lib false) [1; 9; 8] [Some [3]; None; None] /\
    mutate_tokens ex_lib false [Some [3]; None; None] [1; 9; 8] = Ok (Some r) /\
    diff_ok (Nd (tok_at ex_lib 1) [Nd (tok_at ex_lib 9) []; Nd (tok_at ex_lib 8) []]) /\
    ~ diff_ok (Nd (tok_at ex_lib 3) [Nd (tok_at ex_lib 9) []; Nd (tok_at ex_lib 8) []]) /\
    map (tok_at ex_lib) r = preorder (Nd (tok_at ex_lib 3) [Nd (tok_at ex_lib 9) []; Nd (tok_at ex_lib 8) []]).
Proof.
  eexists. split; [apply complete_slots; reflexivity|]. split; [apply choices_fineb_ok; reflexivity|].
  split; [reflexivity|]. split; [repeat constructor; cbn; discriminate|]. split; [|reflexivity].
  intros H. inversion H as [? ? H1 _]; subst. destruct (H1 eq_refl eq_refl eq_refl eq_refl) as (c & i & E1 & E2). cbn in E1. injection E1 as <-. discriminate.
Qed.
Print Assumptions C35_mutation_breaks_diff_refuted.
(** Constants (and parameters) cannot be mutated at all: the whole step fails. *)
Definition c35_const_toks := ex_toks ++ [op "const" 0].
Theorem C35_constant_crashes_refuted : exists lib, make_library c35_const_toks = Ok lib /\ tokens_ok c35_const_toks /\
  mutate_single lib true [8] 11 = Err UnboundLocalError.
Proof. eexists. split; [reflexivity|]. split; [repeat constructor|reflexivity]. Qed.
Print Assumptions C35_constant_crashes_refuted.
(** Crossover of two non-empty term lists: nothing is invented or lost, neither list
    becomes empty. *)
Theorem C35_crossover {A} swap ix1 ix2 (t1 t2 : list A) : ix1 < List.length t1 -> ix2 < List.length t2 ->
  exists r1 r2, cross_over_p swap ix1 ix2 t1 t2 = Ok (r1, r2) /\ r1 <> [] /\ r2 <> [] /\
    (forall x, In x (r1 ++ r2) <-> In x (t1 ++ t2)) /\
    (swap = true -> Permutation (r1 ++ r2) (t1 ++ t2)) /\
    (swap = false -> List.length r1 = S (List.length t1) /\ (2 <= List.length t2 -> Permutation (r1 ++ r2) (t1 ++ t2)) /\ (List.length t2 = 1 -> r2 = t2)).
Proof. exact (cross_over_ok swap ix1 ix2 t1 t2). Qed.
Print Assumptions C35_crossover.
Example C35_crossover_example : cross_over_p true 1 0 [10; 11] [20; 21; 22] = Ok ([10; 20], [11; 21; 22]) /\
  cross_over_p false 1 0 [10; 11] [20; 21; 22] = Ok ([10; 11; 20], [21; 22]).
Proof. split; reflexivity. Qed.

(** *** C46 *)
Theorem C46_dedup_sound {T} (len : T -> nat) toks vals : List.length toks = List.length vals ->
  exists r, drop_duplicates len toks vals = Ok r /\ Forall (fun p => In p (combine toks vals)) r /\
    (forall r1 p r2 q, r = r1 ++ p :: r2 -> In q r2 -> close (snd q) (snd p) = false).
Proof. exact (dedup_sound len toks vals). Qed.
Print Assumptions C46_dedup_sound.
Theorem C46_dedup_covers {T} (len : T -> nat) toks vals r : List.length toks = List.length vals ->
  ((forall t, In t toks -> forall t', In t' toks -> len t = len t') \/
   (forall p q, In p (combine toks vals) -> In q (combine toks vals) -> len (fst p) = len (fst q) -> p = q)) ->
  drop_duplicates len toks vals = Ok r ->
  forall p, In p (combine toks vals) -> exists q, In q r /\ linked vals (snd p) (snd q).
Proof. exact (dedup_cover len toks vals r). Qed.
Print Assumptions C46_dedup_covers.
(** In general a term is lost: replacing "the" entry of a given length overwrites an
    unrelated one (values 1, 2, 1 with lengths 5, 7, 7: the value 2 disappears). *)
Theorem C46_unrelated_term_lost_refuted :
  drop_duplicates (fun t => t) [5; 7; 7] [[1]; [2]; [1]]%Q = Ok [(5, [1]%Q)] /\ close [2]%Q [1]%Q = false.
Proof. split; reflexivity. Qed.
Print Assumptions C46_unrelated_term_lost_refuted.
(** Values are compared by the sum of their differences: different columns with the
    same sum are merged. *)
Theorem C46_different_values_merged_refuted :
  drop_duplicates (fun t => t) [1; 1] [[1; -1]; [2; -2]]%Q = Ok [(1, [2; -2]%Q)].
Proof. reflexivity. Qed.
Print Assumptions C46_different_values_merged_refuted.
Example C46_example : drop_duplicates (fun t => t) [3; 5; 1] [[1; 2]; [7; 7]; [1; 2]]%Q = Ok [(5, [7; 7]%Q); (1, [1; 2]%Q)].
Proof. reflexivity. Qed.

(** *** C47 *)
Theorem C47_aggregator_best mutation best best_r rp gp last b : agg_best mutation best best_r rp gp last = Ok b ->
  (best_r <= b)%Q /\ (forall l, last = Some l -> (l <= b)%Q) /\
  (b = best_r \/ last = Some b \/ (exists n, best = Some (b, n)) \/ In b (map fst rp) \/ (mutation = true /\ In b (map fst gp))).
Proof. exact (agg_best_monotone mutation best best_r rp gp last b). Qed.
Print Assumptions C47_aggregator_best.
(** The best reward of the batch may be dropped as a "duplicate" of a slightly worse
    one, and the loss accumulates along a chain. *)
Theorem C47_best_dropped_refuted :
  agg_best false None 0 [(900018 # 1000000, 3%nat); (900009 # 1000000, 3%nat); (9 # 10, 3%nat)]%Q [] (Some 0%Q) = Ok (9 # 10)%Q.
Proof. reflexivity. Qed.
Print Assumptions C47_best_dropped_refuted.
(** With no expression to convert, the step fails. *)
Theorem C47_no_expression_refuted : agg_best false None 0 [(1 # 2, 3%nat)]%Q [] None = Err IndexError.
Proof. reflexivity. Qed.
Print Assumptions C47_no_expression_refuted.

(** *** C48 *)
Theorem C48_previous_action toks lib idx t : make_library toks = Ok lib -> fst (agent_obs lib idx t) = fst (sampler_obs lib idx t).
Proof. intros H. destruct (make_library_inv _ _ H) as (_ & HL & _ & _ & _ & _ & _ & _ & HE & _). destruct t; cbn; congruence. Qed.
Print Assumptions C48_previous_action.
(** The number of open slots is that after, not before, the step: it equals what the
    sampler observed one step later. *)
Theorem C48_open_slots_shifted lib idx t : snd (agent_obs lib idx t) = snd (sampler_obs lib idx (S t)).
Proof. reflexivity. Qed.
Print Assumptions C48_open_slots_shifted.
Theorem C48_open_slots_refuted : snd (agent_obs ex_lib [0; 8; 9] 0) = 2%Z /\ snd (sampler_obs ex_lib [0; 8; 9] 0) = 1%Z.
Proof. split; reflexivity. Qed.
Print Assumptions C48_open_slots_refuted.
