(** Property theorems: token completion, program cache, execution, features,
    library (C01-C06, C36).  Only statements, one-line proofs and examples. *)
From Verif Require Import Base Trees TreeFacts TreePos Library LibraryFacts Program ProgramFacts CacheFacts
  Execute ExecuteSpec ExecuteFacts Subroutines SubroutinesFacts Prior PriorSpec PriorFacts LengthFacts
  CheckFacts DiffSampled ExampleLib SamplingLemmas ExecExtra TorchExec.

(** *** C01 *)
Theorem C01_completion toks lib rnd tokens :
  tokens_ok toks -> make_library toks = Ok lib -> in_lib lib tokens -> tokens <> [] -> choice_ok lib rnd ->
  exists r, finish_tokens lib 1 rnd tokens = Ok r /\ complete (ar_of lib) r /\
    ((exists rest, tokens = r ++ rest) \/
     ((forall p q, tokens = p ++ q -> ~ complete (ar_of lib) p) /\
      exists pad, r = tokens ++ pad /\ Forall (fun t => In t (linput_tokens lib)) pad)) /\
    (forall p q, tokens = p ++ q -> complete (ar_of lib) p -> p = r) /\
    (forall rnd', choice_ok lib rnd' -> finish_tokens lib 1 rnd' r = Ok r).
Proof. exact (completion_full toks lib rnd tokens). Qed.
Print Assumptions C01_completion.

Theorem C01_multi_object toks lib n rnd tokens :
  make_library toks = Ok lib -> 2 <= n -> in_lib lib tokens ->
  (exists r rest parts, finish_tokens lib n rnd tokens = Ok r /\ tokens = r ++ rest /\
      traversals (ar_of lib) n r = parts /\ List.length parts = n /\
      Forall (complete (ar_of lib)) parts /\ List.concat parts = r) \/
  (finish_tokens lib n rnd tokens = Err AssertionError /\
   forall r rest, tokens = r ++ rest -> ~ forest (ar_of lib) n r).
Proof.
  exact (fun E Hn HF => match finish_n_objects toks lib E n rnd tokens Hn HF with
    | or_introl (ex_intro _ r (ex_intro _ rest (conj A (conj B C)))) =>
        match traversals_forest (ar_of lib) n r C with
        | ex_intro _ parts (conj D G) => or_introl (ex_intro _ r (ex_intro _ rest (ex_intro _ parts (conj A (conj B (conj D G))))))
        end
    | or_intror H => or_intror H
    end).
Qed.
Print Assumptions C01_multi_object.

Definition pad_x1 (n : nat) : list nat := repeat 9 n.
Lemma pad_x1_ok : choice_ok ex_lib pad_x1.
Proof.
  intros n. unfold pad_x1. split; [apply repeat_length|]. apply Forall_forall. intros t Ht.
  apply repeat_spec in Ht. subst. left. reflexivity.
Qed.
(** mul(diff(u1, ., .)) is padded with two input variables; a long draw is cut. *)
Example C01_pads : finish_tokens ex_lib 1 pad_x1 [1; 3; 8] = Ok [1; 3; 8; 9; 9].
Proof. reflexivity. Qed.
Example C01_cuts : finish_tokens ex_lib 1 pad_x1 [0; 8; 9; 1; 1; 8] = Ok [0; 8; 9].
Proof. reflexivity. Qed.
Example C01_hyps : in_lib ex_lib [1; 3; 8] /\ choice_ok ex_lib pad_x1.
Proof. split; [repeat constructor; vm_compute; lia|exact pad_x1_ok]. Qed.
Example C01_two_objects : finish_tokens ex_lib 2 pad_x1 [0; 8; 9; 6; 8; 1; 1] = Ok [0; 8; 9; 6; 8] /\
  traversals (ar_of ex_lib) 2 [0; 8; 9; 6; 8] = [[0; 8; 9]; [6; 8]].
Proof. split; reflexivity. Qed.

(** *** C02 *)
Theorem C02_cache_history toks lib st qs s tr :
  tokens_ok toks -> make_library toks = Ok lib -> (Z.of_nat (lL lib) <= 256 ^ 4)%Z ->
  Forall (req_ok lib) qs -> run_requests lib st p_init qs = (s, tr) ->
  map fst tr = qs /\
  (forall q i, In (q, Ok i) tr -> exists l, completed lib q = Ok l /\ tokens_at s i = Some l) /\
  (forall q e, In (q, Err e) tr -> completed lib q = Err e) /\
  (forall q q' i j l, In (q, Ok i) tr -> In (q', Ok j) tr ->
     q_skip q || st = false -> q_skip q' || st = false -> q_width q = q_width q' ->
     completed lib q = Ok l -> completed lib q' = Ok l -> i = j) /\
  (forall i, on_at s i + off_at s i = List.length (returning i tr)) /\
  (forall i, on_at s i = List.length (filter (fun e => q_on (fst e)) (returning i tr))).
Proof. exact (cache_history toks lib st qs s tr). Qed.
Print Assumptions C02_cache_history.

(** The missing part is false: the cache key is the byte image of the array, so
    the same tokens as int32 (from_str_tokens) and as int64 (sampled) give two
    programs. *)
Definition req (w : nat) : request := mkReq [6; 8] w false true pad_x1.
Theorem C02_mixed_width_refuted :
  exists toks lib s tr, tokens_ok toks /\ make_library toks = Ok lib /\
    Forall (req_ok lib) [req 4; req 8] /\ run_requests lib false p_init [req 4; req 8] = (s, tr) /\
    completed lib (req 4) = completed lib (req 8) /\
    map snd tr = [Ok 0; Ok 1] /\ tokens_at s 0 = Some [6; 8] /\ tokens_at s 1 = Some [6; 8].
Proof.
  exists ex_toks, ex_lib. eexists. eexists. split; [exact ex_tokens_ok|]. split; [exact ex_make|].
  split; [repeat constructor; try (vm_compute; lia); auto; apply pad_x1_ok|].
  split; [reflexivity|]. repeat split.
Qed.
Print Assumptions C02_mixed_width_refuted.
Example C02_hit : let '(s, tr) := run_requests ex_lib false p_init [req 8; mkReq [6; 8; 0] 8 false false pad_x1; req 8] in
  map snd tr = [Ok 0; Ok 0; Ok 0] /\ on_at s 0 = 2 /\ off_at s 0 = 1.
Proof. vm_compute. auto. Qed.

(** *** C03 *)
Theorem C03_stack_is_recursion {V} (u x : list V) param call t junk :
  respects tarity t ->
  python_execute u x param call (preorder t ++ junk) =
  match sem_last u x param call t None with inl (v, _) => OVal v | inr o => o end.
Proof. exact (execute_sem_last u x param call t junk). Qed.
Print Assumptions C03_stack_is_recursion.

Theorem C03_value_only_if_complete {V} (u x : list V) param call trav v :
  python_execute u x param call trav = OVal v ->
  exists t rest, respects tarity t /\ trav = preorder t ++ rest.
Proof. exact (exec_value_complete _ (app_np_no_value u x param call) trav None v). Qed.
Print Assumptions C03_value_only_if_complete.

Theorem C03_all_subexpressions_succeed {V} (u x : list V) param call t rest v :
  respects tarity t -> python_execute u x param call (preorder t ++ rest) = OVal v ->
  forall s, subterm s t -> exists last w last', sem_last u x param call s last = inl (w, last').
Proof.
  exact (fun H E s Hs =>
    match exec_subterms _ t None rest v H (app_np_no_value u x param call) E s Hs with
    | ex_intro _ f (ex_intro _ w (ex_intro _ f' Ev)) =>
        ex_intro _ f (ex_intro _ w (ex_intro _ f' (eq_trans (eq_sym (evalf_sem_last u x param call s f)) Ev)))
    end).
Qed.
Print Assumptions C03_all_subexpressions_succeed.

(** add(mul(u1, 3?), ..) over Z: add / mul computed, div by zero fails. *)
Definition zcall (tok : token) (args : list Z) (e : extra) : option Z :=
  match tname tok, args with
  | "add"%string, [a; b] => Some (a + b)%Z
  | "mul"%string, [a; b] => Some (a * b)%Z
  | "div"%string, [a; b] => if (b =? 0)%Z then None else Some (a / b)%Z
  | "diff"%string, [a; b] => match e with Dim (Some d) => Some (1000 * Z.of_nat d + a)%Z | _ => None end
  | _, _ => None
  end.
Definition toks_of (l : list nat) : list token := map (tok_of ex_lib) l.
Example C03_value : python_execute [7%Z] [2%Z; 5%Z] (fun _ => 0%Z) zcall (toks_of [0; 1; 8; 9; 10]) = OVal 19%Z.
Proof. reflexivity. Qed.
Example C03_fail : python_execute [0%Z] [2%Z; 5%Z] (fun _ => 0%Z) zcall (toks_of [0; 2; 9; 8; 10]) = ONone.
Proof. reflexivity. Qed.

(** Which operators get something besides their operands: a name in which the word diff (or Diff)
    occurs gets the dimension, exactly lap, lap_3 and lap_t get all coordinates, any other nothing. *)
Definition mentions (word name : string) : Prop := exists a b, name = String.append a (String.append word b).
Lemma has_prefix_iff p s : has_prefix p s = true <-> exists b, s = String.append p b.
Proof.
  revert s. induction p as [|c p IH]; intros s; cbn [has_prefix]; [split; [exists s; reflexivity|reflexivity]|].
  destruct s as [|d s]; [split; [discriminate|intros [b H]; discriminate]|]. rewrite andb_true_iff, IH, Ascii.eqb_eq. cbn [String.append].
  split; [intros [-> [b ->]]; exists b; reflexivity|intros [b [= -> ->]]; split; [reflexivity|exists b; reflexivity]].
Qed.
Lemma contains_iff p s : contains p s = true <-> mentions p s.
Proof.
  unfold mentions. induction s as [|c s IH]; cbn [contains]; rewrite orb_true_iff, has_prefix_iff.
  - split; [intros [[b H]|H]; [exists EmptyString, b; exact H|discriminate]|]. intros (a & b & H). left. destruct a; [exists b; exact H|discriminate].
  - rewrite IH. split.
    + intros [[b H]|(a & b & ->)]; [exists EmptyString, b; exact H|exists (String c a), b; reflexivity].
    + intros (a & b & H). destruct a as [|c' a]; [left; exists b; exact H|]. injection H as -> ->. right. exists a, b. reflexivity.
Qed.
Theorem C03_extra_argument {V} (u x : list V) param call tok args t junk :
  tinput tok = None -> tparam tok = None -> tstate tok = None -> tarity tok = 1 -> respects tarity t ->
  sem_last u x param call t None = inl (args, None) ->
  let result e := match call tok [args] e with Some v => OVal v | None => ONone end in
  python_execute u x param call (tok :: preorder t ++ junk) =
  result (if has_diff (tname tok) then Dim None else if existsb (String.eqb (tname tok)) ["lap"; "lap_3"; "lap_t"]%string then AllX else NoExtra) /\
  (has_diff (tname tok) = true <-> mentions "diff" (tname tok) \/ mentions "Diff" (tname tok)).
Proof.
  intros I P T A R Es result. split; [|unfold has_diff; rewrite orb_true_iff, !contains_iff; reflexivity].
  pose proof (C03_stack_is_recursion u x param call (Nd tok [t]) junk) as E. cbn [preorder flat_map] in E. rewrite app_nil_r in E.
  change ((tok :: preorder t) ++ junk) with (tok :: preorder t ++ junk) in E. rewrite E.
  - cbn [sem_last]. cbn. rewrite Es. cbn. rewrite I, P, T. unfold result. unfold is_lap.
    assert (Ev : var_of t = None).
    { destruct t as [k [|c cs]]; [|reflexivity]. cbn [var_of]. destruct (tinput k) as [i|] eqn:Ei; [|reflexivity]. cbn in Es. rewrite Ei in Es. destruct (nth_error x i); discriminate. }
    rewrite Ev.
    destruct (has_diff (tname tok)); [|destruct (String.eqb (tname tok) "lap"), (String.eqb (tname tok) "lap_3"), (String.eqb (tname tok) "lap_t")]; cbn [orb];
      match goal with |- context [call tok [args] ?e] => destruct (call tok [args] e) end; reflexivity.
  - constructor; [exact (eq_sym A)|repeat constructor; exact R].
Qed.
Print Assumptions C03_extra_argument.
Example C03_extra_case : python_execute [7%Z] [2%Z] (fun _ => 0%Z) (fun tok args e => match e, args with AllX, [a] => Some (a + 100)%Z | NoExtra, [a] => Some (- a)%Z | _, _ => None end)
    [mkTok "lap_3" 1 None None None; mkTok "neg" 1 None None None; mkTok "u1" 0 None (Some 0) None] = OVal 93%Z.
Proof. reflexivity. Qed.

(** *** C04 *)
Theorem C04_sampled_derivatives {V} (u x : list V) param call lib ps t rest :
  lib_ok lib -> has_input_var lib ->
  (forall d, In d (ldiff lib) -> ar_of lib d = 2) -> In (diff_right_prior lib) ps ->
  respects (ar_of lib) t -> sampled lib ps (preorder t ++ rest) ->
  python_execute u x param call (map (tok_of lib) (preorder t)) = sem u x param call (tok_tree lib t).
Proof. exact (sampled_execute u x param call lib ps t rest). Qed.
Print Assumptions C04_sampled_derivatives.

Theorem C04_own_argument {V} (u x : list V) param call t junk :
  respects tarity t -> diff_ok t ->
  python_execute u x param call (preorder t ++ junk) = sem u x param call t.
Proof. exact (fun H D => python_execute_sem u x param call t H D junk). Qed.
Print Assumptions C04_own_argument.

(** diff(diff(u1, x1), x2): dimension 1 then 2. *)
Example C04_nested : python_execute [7%Z] [2%Z; 5%Z] (fun _ => 0%Z) zcall (toks_of [3; 3; 8; 9; 10]) = OVal 3007%Z.
Proof. reflexivity. Qed.
Example C04_sampled_nonvacuous : sampled ex_lib [diff_right_prior ex_lib] [3; 3; 8; 9; 10].
Proof.
  change [3; 3; 8; 9; 10] with (((((([] ++ [3]) ++ [3]) ++ [8]) ++ [9]) ++ [10]) : list nat).
  repeat (apply sampled_snoc; [|split; [vm_compute; lia|intros p [<-|[]]; vm_compute; intuition lia]]).
  apply sampled_nil.
Qed.
(** Without the right-argument constraint a derivative by something that is not
    a variable silently takes the variable evaluated last: add(x2, diff(u1, u1)). *)
Theorem C04_unconstrained_refuted :
  exists t, respects tarity t /\
    python_execute [7%Z] [2%Z; 5%Z] (fun _ => 0%Z) zcall (preorder t) <> sem [7%Z] [2%Z; 5%Z] (fun _ => 0%Z) zcall t.
Proof.
  exists (Nd (tok_of ex_lib 0) [Nd (tok_of ex_lib 10) []; Nd (tok_of ex_lib 3) [Nd (tok_of ex_lib 8) []; Nd (tok_of ex_lib 8) []]]).
  split; [repeat constructor|vm_compute; discriminate].
Qed.
Print Assumptions C04_unconstrained_refuted.

(** *** C05 *)
Theorem C05_features_of_next_node lib prev c :
  lib_ok lib -> Forall (respects (ar_of lib)) prev -> ctx_ok (ar_of lib) c ->
  flat_map preorder prev ++ before c <> [] ->
  obs_of lib (flat_map preorder prev ++ before c) =
  Ok (mkObs (flat_map preorder prev ++ before c)
        (match parent_of c with Some p => padj_of lib p | None => Z.of_nat (lEMPTY_PARENT lib) end)
        (match left_sibling c with Some s => s | None => lEMPTY_SIBLING lib end)
        (dangling_of lib (flat_map preorder prev ++ before c))).
Proof. exact (obs_of_ctx lib prev c). Qed.
Print Assumptions C05_features_of_next_node.

Theorem C05_features_at_once lib t :
  lib_ok lib -> respects (ar_of lib) t ->
  preorder t = map fst (nodes [] t) /\
  row_parents lib (preorder t) =
    map (fun e => match parent_of (snd e) with Some p => padj_of lib p | None => Z.of_nat (lEMPTY_PARENT lib) end) (nodes [] t) /\
  row_siblings lib (preorder t) =
    map (fun e => match left_sibling (snd e) with Some s => s | None => lL lib end) (nodes [] t).
Proof. exact (row_tree lib t). Qed.
Print Assumptions C05_features_at_once.

(** mul(add(u1, x1), [here]): parent mul (1), left sibling add (0). *)
Example C05_example : let c := [(1, [Nd 0 [Nd 8 []; Nd 9 []]])] in
  ctx_ok (ar_of ex_lib) c /\ before c = [1; 0; 8; 9] /\
  obs_of ex_lib (before c) = Ok (mkObs [1; 0; 8; 9] 1%Z 0 1%Z).
Proof. cbv zeta. split; [repeat constructor|split; reflexivity]. Qed.

(** *** C06 *)
Theorem C06_ancestor_mask lib eff prev c :
  Forall (respects (ar_of lib)) prev -> ctx_ok (ar_of lib) c -> (forall e, In e eff -> 0 < ar_of lib e) ->
  (ancestors (ar_of lib) eff (flat_map preorder prev ++ before c) = true <->
   exists e, In e eff /\ In e (first_arg_ancestors c)).
Proof. exact (ancestor_mask_first_arg lib eff prev c). Qed.
Print Assumptions C06_ancestor_mask.

Theorem C06_unary_effectors lib eff prev c :
  Forall (respects (ar_of lib)) prev -> ctx_ok (ar_of lib) c -> (forall e, In e eff -> ar_of lib e = 1) ->
  (ancestors (ar_of lib) eff (flat_map preorder prev ++ before c) = true <->
   exists e, In e eff /\ In e (ancestors_of c)).
Proof. exact (ancestor_mask_unary lib eff prev c). Qed.
Print Assumptions C06_unary_effectors.

(** diff(u1, [here]) is inside diff, but the mask is off: only the first
    argument of a binary effector counts. *)
Theorem C06_binary_effector_refuted :
  exists lib eff c, lib_ok lib /\ ctx_ok (ar_of lib) c /\ (exists e, In e eff /\ In e (ancestors_of c)) /\
    ancestors (ar_of lib) eff (before c) = false.
Proof.
  exists ex_lib, [3], [(3, [Nd 8 []])]. split; [exact ex_lib_ok|].
  split; [repeat constructor|]. split; [exists 3; simpl; auto|reflexivity].
Qed.
Print Assumptions C06_binary_effector_refuted.
(** sin(add(x1, [here])) *)
Example C06_example : let lib := mk trig_toks in let c := [(0, [Nd 5 []]); (1, [])] in
  ctx_ok (ar_of lib) c /\ ancestors (ar_of lib) [1] (before c) = true /\ ancestors (ar_of lib) [2] (before c) = false.
Proof. cbv zeta. split; [repeat constructor|split; reflexivity]. Qed.

(** *** C36 *)
Theorem C36_arity_classes_partition toks lib : make_library toks = Ok lib -> (forall t, In t toks -> tarity t <= 2) ->
  (forall i, i < List.length toks <-> In i (lterminal lib) \/ In i (lunary lib) \/ In i (lbinary lib)) /\
  (forall i, ~ (In i (lterminal lib) /\ In i (lunary lib))) /\
  (forall i, ~ (In i (lterminal lib) /\ In i (lbinary lib))) /\
  (forall i, ~ (In i (lunary lib) /\ In i (lbinary lib))) /\
  NoDup (lterminal lib) /\ NoDup (lunary lib) /\ NoDup (lbinary lib).
Proof. exact (fun E H => conj (library_partition toks lib E H) (library_disjoint toks lib E)). Qed.
Print Assumptions C36_arity_classes_partition.

Theorem C36_parent_numbering toks lib : make_library toks = Ok lib ->
  (forall i t, nth_error toks i = Some t ->
     (tarity t = 0 -> padj_of lib i = (-1)%Z) /\
     (0 < tarity t -> (0 <= padj_of lib i < Z.of_nat (lEMPTY_PARENT lib))%Z)) /\
  (forall i j t t', nth_error toks i = Some t -> nth_error toks j = Some t' -> 0 < tarity t -> 0 < tarity t' ->
     padj_of lib i = padj_of lib j -> i = j) /\
  (forall n, n < lEMPTY_PARENT lib -> exists i t, nth_error toks i = Some t /\ 0 < tarity t /\ padj_of lib i = Z.of_nat n) /\
  lEMPTY_ACTION lib = List.length toks /\ lEMPTY_SIBLING lib = List.length toks.
Proof. exact (library_parents toks lib). Qed.
Print Assumptions C36_parent_numbering.

Theorem C36_names_roundtrip toks lib : make_library toks = Ok lib -> NoDup (map tname toks) ->
  forall l, Forall (fun i => i < List.length toks) l ->
  actionize lib (map (fun i => KStr (nth i (lnames lib) EmptyString)) l) = Ok l.
Proof. exact (names_roundtrip toks lib). Qed.
Print Assumptions C36_names_roundtrip.

Theorem C36_unknown_name_raises lib toks s : make_library toks = Ok lib ->
  ~ In s (map tname toks) -> getitem lib (KStr s) = Err OtherError.
Proof. exact (getitem_name_unknown lib toks s). Qed.
Print Assumptions C36_unknown_name_raises.

(** Integer keys follow Python indexing: 0..L-1 from the front, -1..-L from the back, and
    everything else is refused. *)
Theorem C36_integer_keys lib toks z : make_library toks = Ok lib ->
  getitem lib (KInt z) =
  let L := Z.of_nat (List.length toks) in
  let k := Z.to_nat (if (z <? 0)%Z then z + L else z) in
  if ((- L <=? z) && (z <? L))%Z then match nth_error toks k with Some t => Ok (k, t) | None => Err OtherError end else Err OtherError.
Proof.
  intros H. pose proof (make_library_inv _ _ H) as (Ht & HL & _). unfold getitem. rewrite HL, Ht. cbv zeta.
  set (L := Z.of_nat (List.length toks)).
  destruct (Z.ltb_spec z 0); destruct (Z.leb_spec (- L) z); cbn [andb].
  - destruct (Z.ltb_spec z L); [|lia]. destruct (Z.ltb_spec (z + L) 0); [lia|]. destruct (Z.leb_spec L (z + L)); [lia|]. reflexivity.
  - destruct (Z.ltb_spec (z + L) 0); [reflexivity|lia].
  - destruct (Z.ltb_spec z L); destruct (Z.ltb_spec z 0); try lia; destruct (Z.leb_spec L z); try lia; reflexivity.
  - lia.
Qed.
Print Assumptions C36_integer_keys.
Theorem C36_negative_index lib toks i t : make_library toks = Ok lib -> nth_error toks i = Some t ->
  getitem lib (KInt (Z.of_nat i - Z.of_nat (List.length toks))) = Ok (i, t).
Proof.
  intros H Hn. assert (i < List.length toks) by (apply nth_error_Some; congruence). rewrite (C36_integer_keys lib toks _ H). cbv zeta.
  destruct (Z.ltb_spec (Z.of_nat i - Z.of_nat (List.length toks)) 0); [|lia].
  destruct (Z.leb_spec (- Z.of_nat (List.length toks)) (Z.of_nat i - Z.of_nat (List.length toks))); [|lia].
  destruct (Z.ltb_spec (Z.of_nat i - Z.of_nat (List.length toks)) (Z.of_nat (List.length toks))); [|lia]. cbn [andb].
  replace (Z.to_nat (Z.of_nat i - Z.of_nat (List.length toks) + Z.of_nat (List.length toks))) with i by lia. now rewrite Hn.
Qed.
Print Assumptions C36_negative_index.

Example C36_example : actionize ex_lib [KStr "add"; KStr "diff"; KStr "u1"; KStr "x1"; KStr "x2"]%string = Ok [0; 3; 8; 9; 10]
  /\ lparent_adjust ex_lib = [0; 1; 2; 3; 4; 5; 6; 7; -1; -1; -1]%Z /\ lEMPTY_PARENT ex_lib = 8.
Proof. repeat split. Qed.

(** *** C53: the torch executor *)
Theorem C53_torch_is_recursion {V} (ustate : nat -> option V) x param call all_bad t junk : respects tarity t ->
  python_execute_torch ustate x param call all_bad (preorder t ++ junk) = semT ustate x param call all_bad t.
Proof. exact (torch_sem ustate x param call all_bad t junk). Qed.
Print Assumptions C53_torch_is_recursion.
(** A value is returned only for a complete expression all of whose sub-expressions have a
    value that is neither all NaN nor all infinite. *)
Theorem C53_torch_values_screened {V} (ustate : nat -> option V) x param call all_bad trav v :
  python_execute_torch ustate x param call all_bad trav = OVal v ->
  exists t rest, respects tarity t /\ trav = preorder t ++ rest /\ all_bad v = Some false /\
    forall s, subterm s t -> exists w, semT ustate x param call all_bad s = OVal w /\ all_bad w = Some false.
Proof.
  intros E. destruct (exec_value_complete _ (app_torch_no_value ustate x param call all_bad) trav None v E) as (t & rest & Ht & ->).
  exists t, rest. rewrite torch_sem in E by assumption.
  pose proof (semT_sub ustate x param call all_bad t v E) as S. repeat split; auto.
  destruct (S t (sub_refl t)) as (w & Ew & B). congruence.
Qed.
Print Assumptions C53_torch_values_screened.
Example C53_example :
  let call := fun tok args e => match zcall tok args e with Some v => Ok v | None => Err ValueError end in
  python_execute_torch (fun _ => Some 7%Z) [2%Z; 5%Z] (fun _ => 0%Z) call (fun v => Some (Z.eqb v 10)) (toks_of [0; 1; 8; 9; 10]) = OVal 19%Z /\
  python_execute_torch (fun _ => Some 5%Z) [2%Z; 5%Z] (fun _ => 0%Z) call (fun v => Some (Z.eqb v 10)) (toks_of [0; 1; 8; 9; 10]) = ONone.
Proof. split; reflexivity. Qed.
