(** Properties of the SGA expression trees: C20, C21, C23, C52. *)
From Verif Require Import Base Trees SgaTree SgaSpec SgaTreeFacts SgaGenFacts SgaNames SgaEval SgaEvalFacts SgaLocated.

(** An example context: field u, axes x, y, t with left-hand-side axis t. *)
Definition ex_ctx : sctx := mkCtx (entries 0 ["u"; "x"; "y"; "0"]%string) (entries 1 ["x"; "y"]%string) true.
Definition ex_pick (d i n : nat) : nat := (d + 2 * i + 1) mod n.
Example ex_ctx_built : make_ctx true ["u"]%string ["x"; "y"; "t"]%string [] [] "t" = Ok ex_ctx.
Proof. reflexivity. Qed.
Lemma ex_pick_ok : rng_ok ex_pick.
Proof. intros d i n Hn. apply Nat.mod_upper_bound. lia. Qed.
Lemma ex_ctx_ok : ctx_ok ex_ctx.
Proof. exact (proj1 (make_ctx_ok _ _ _ _ _ _ _ ex_ctx_built)). Qed.

(** *** C20 *)
(** Every context that can be built is usable: variables have no arguments, there is an axis
    to differentiate along, and neither the variables nor the axes contain the
    left-hand-side axis. *)
Theorem C20_context simple fields axes params grads lhs c : make_ctx simple fields axes params grads lhs = Ok c ->
  ctx_ok c /\ ~ In lhs (den_names c) /\ ~ In lhs (map ename (c_vars c)).
Proof.
  intros E. destruct (make_ctx_ok _ _ _ _ _ _ _ E) as (A & B & _ & _ & D). split; [exact A|]. split; [|exact D].
  rewrite B. intros H. apply filter_In in H as [_ H]. rewrite String.eqb_refl in H. discriminate.
Qed.
Print Assumptions C20_context.
Theorem C20_no_axis_left simple fields axes params grads lhs : (forall a, In a axes -> a = lhs) ->
  make_ctx simple fields axes params grads lhs = Err ValueError.
Proof.
  intros H. unfold make_ctx. replace (filter (fun a => negb (String.eqb a lhs)) axes) with (@nil string); [reflexivity|].
  symmetry. induction axes as [|a axes IH]; [reflexivity|]. cbn. rewrite (H a) by now left. rewrite String.eqb_refl. cbn.
  apply IH. intros b Hb. apply H. now right.
Qed.
Print Assumptions C20_no_axis_left.
(** Generation never fails and stores a term of the grammar, of at most the given depth. *)
Theorem C20_generated c isvar pick max_depth : ctx_ok c -> rng_ok pick -> 2 <= max_depth ->
  exists s t, gen_tree c isvar pick max_depth = Ok s /\ stores s t /\ term_ok c t /\ height t <= max_depth /\
    In (root_of t) ROOT /\ List.length (t_levels s) = max_depth /\ located (t_levels s) /\ sized (t_levels s).
Proof.
  intros Hc Hp Hm. destruct (gen_tree_wf c Hc isvar pick Hp max_depth Hm) as (r & ls & E & W & L & R).
  destruct (finish_ok c r ls W) as (s & t & F & T & S & Tk & Hh & Rt). exists s, t. rewrite E, F, T. cbn [List.length].
  repeat split; auto; try apply S; try lia; try congruence; [eapply wf_located|eapply wf_sized]; eauto.
Qed.
Print Assumptions C20_generated.
(** With a maximal depth of one (or zero) no tree can be generated: the root is always an
    operator and its children have no level to live in. *)
Theorem C20_depth_one_refuted c isvar pick max_depth : rng_ok pick -> max_depth < 2 -> gen_tree c isvar pick max_depth = Err IndexError.
Proof.
  intros Hp Hm. destruct max_depth as [|[|k]]; [reflexivity| |lia]. cbn [gen_tree gen_levels bind].
  unfold draw. destruct (nth_error ROOT (pick 0 0 (List.length ROOT))) as [e|] eqn:E.
  - apply nth_error_In in E. cbn in E. intuition (subst; reflexivity).
  - apply nth_error_None in E. specialize (Hp 0 0 (List.length ROOT)). cbn in *. lia.
Qed.
Print Assumptions C20_depth_one_refuted.
Example C20_example : exists s t, gen_tree ex_ctx (fun d i => Nat.eqb i 0) ex_pick 4 = Ok s /\ stores s t /\ term_ok ex_ctx t /\
  t_inorder s = "(y d x)"%string.
Proof.
  destruct (C20_generated ex_ctx (fun d i => Nat.eqb i 0) ex_pick 4 ex_ctx_ok ex_pick_ok ltac:(lia)) as (s & t & E & S & T & _).
  exists s, t. repeat split; auto; try apply S. vm_compute in E. injection E as <-. reflexivity.
Qed.

(** *** C21 *)
(** Generation followed by any number of mutations: the table still stores a term of the
    grammar with matching notations; depth, root operator and positions are kept. *)
Theorem C21_evolved c max_depth s : ctx_ok c -> sane c -> 2 <= max_depth -> evolved c max_depth s ->
  exists t, stores s t /\ term_ok c t /\ height t <= max_depth /\ In (root_of t) ROOT /\ located (t_levels s) /\ sized (t_levels s).
Proof.
  intros Hc Hs Hm H. destruct (evolved_wf c max_depth s Hc Hs Hm H) as (r & ls & T & W & L & R & F).
  destruct (finish_ok c r ls W) as (s0 & t & F0 & T0 & S & Tk & Hh & Rt). rewrite F in F0. injection F0 as <-. exists t. rewrite T.
  repeat split; auto; try apply S; try lia; try congruence; [eapply wf_located|eapply wf_sized]; eauto.
Qed.
Print Assumptions C21_evolved.
(** One mutation of such a tree never raises, and when it is finished the shape is unchanged. *)
Theorem C21_shape c max_depth choice s : ctx_ok c -> sane c -> 2 <= max_depth -> evolved c max_depth s -> choices_ok c choice s ->
  mutate c choice s = Ok None \/
  exists s', mutate c choice s = Ok (Some s') /\ map (map (fun n => nar n)) (t_levels s') = map (map (fun n => nar n)) (t_levels s) /\
     hd [] (t_levels s') = hd [] (t_levels s).
Proof.
  intros Hc Hs Hm H Hch. destruct (evolved_wf c max_depth s Hc Hs Hm H) as (r & ls & T & W & _).
  destruct (mutate_wf c Hc Hs choice s r ls T W Hch) as [(X & _)|(s' & ls' & X & _ & T' & _ & A)]; [now left|]. right.
  exists s'. rewrite X, T, T'. cbn [map hd]. rewrite A. auto.
Qed.
Print Assumptions C21_shape.
(** It does finish when the draws eventually offer every entry of the tables, provided there
    are two axes to differentiate along, or the axis x in simple mode. *)
Theorem C21_finishes c max_depth choice s : ctx_ok c -> sane c -> 2 <= max_depth -> evolved c max_depth s -> choices_ok c choice s ->
  escapable c -> fair c choice s -> exists s', mutate c choice s = Ok (Some s').
Proof.
  intros Hc Hs Hm H Hch He Hf. destruct (evolved_wf c max_depth s Hc Hs Hm H) as (r & ls & T & W & _).
  destruct (mutate_wf c Hc Hs choice s r ls T W Hch) as [(X & N)|(s' & ls' & X & _)]; [exfalso; auto|]. eauto.
Qed.
Print Assumptions C21_finishes.
(** A leaf under a derivative is only ever replaced by an axis, also when it is the function
    being differentiated. *)
Theorem C21_operand_becomes_axis c parent temp draws e : sane c -> is_d parent = true ->
  Forall (fun e => In e (c_vars c)) draws -> draw_leaf c parent temp draws = Some e -> In (ename e) (den_names c).
Proof. intros Hs Hd Hdr E. apply (draw_leaf_ok c Hs parent temp draws e Hdr E). exact Hd. Qed.
Print Assumptions C21_operand_becomes_axis.

Definition one_axis (simple : bool) (a : string) : sctx := mkCtx (entries 0 ["u"; a; "0"]%string) (entries 1 [a]) simple.
Definition d_tree (c : sctx) (a : string) : stree :=
  mkTree [[mkNode (op "d" 2) (Some 0) 0 0]; [mkNode (mkEnt "u" 0 0) None 0 0; mkNode (mkEnt a 0 1) None 0 1]]
         ["d"; "u"; a]%string ("(u d " ++ a ++ ")")%string.
(** With a single axis (other than x in simple mode) mutation can loop for ever: whatever is
    drawn, the axis of a derivative cannot be replaced. *)
Theorem C21_endless_refuted simple a : a <> "x"%string \/ simple = false -> a <> "u"%string -> a <> "0"%string ->
  forall draws, Forall (fun e => In e (c_vars (one_axis simple a))) draws ->
  mutate (one_axis simple a) (fun d i => if Nat.eqb d 1 && Nat.eqb i 1 then Some draws else None) (d_tree (one_axis simple a) a) = Ok None.
Proof.
  intros Ha Hu H0 draws Hd.
  assert (draw_leaf (one_axis simple a) "d" a draws = None) as E.
  { induction Hd as [|e draws He Hd IH]; [reflexivity|]. cbn [draw_leaf].
    assert (ename e = a \/ ename e = "u"%string \/ ename e = "0"%string) as N. { cbn in He. intuition (subst; auto). }
    assert (c_simple (one_axis simple a) && is_d "d" && String.eqb (ename e) "x" = false) as Ex.
    { cbn. destruct simple; [|reflexivity]. destruct Ha as [Ha|Ha]; [|discriminate]. cbn.
      destruct N as [-> | [-> | ->]]; try reflexivity. now apply String.eqb_neq. }
    rewrite Ex. destruct (String.eqb_spec (ename e) a) as [Ea|Ea]; [exact IH|].
    assert (nmem (ename e) (den_names (one_axis simple a)) = false) as Em.
    { cbn. destruct (String.eqb_spec (ename e) a); [contradiction|reflexivity]. }
    rewrite Em. exact IH. }
  unfold mutate, d_tree. cbn [t_levels mute_levels mute_level nent ear op seq mute_kids nst nth_error Nat.add Nat.eqb andb mute_node bind set_at ename].
  rewrite E. reflexivity.
Qed.
Print Assumptions C21_endless_refuted.
(** In simple mode a field called x is accepted as an axis although it is none. *)
Definition fx_ctx : sctx := mkCtx (entries 0 ["x"; "y"; "0"]%string) (entries 1 ["y"]%string) true.
Definition fx_tree (a : ent) (i : nat) (b : string) : stree :=
  mkTree [[mkNode (op "d" 2) (Some 0) 0 0]; [mkNode (mkEnt "y" 0 1) None 0 0; mkNode a None 0 i]] ["d"; "y"; b]%string ("(y d " ++ b ++ ")")%string.
Theorem C21_field_x_refuted :
  make_ctx true ["x"]%string ["y"; "t"]%string [] [] "t" = Ok fx_ctx /\
  gen_tree fx_ctx (fun _ _ => true) (fun d i n => Nat.min 1 (n - 1)) 2 = Ok (fx_tree (mkEnt "y" 0 1) 1 "y") /\
  mutate fx_ctx (fun d i => if Nat.eqb i 1 then Some [mkEnt "x" 0 0] else None) (fx_tree (mkEnt "y" 0 1) 1 "y") = Ok (Some (fx_tree (mkEnt "x" 0 0) 0 "x")) /\
  ~ In "x"%string (den_names fx_ctx).
Proof. repeat split; try reflexivity. cbn. intuition discriminate. Qed.
Print Assumptions C21_field_x_refuted.
Definition ex_choice (d i : nat) : option (list ent) :=
  if Nat.eqb d 1 && Nat.eqb i 0 then Some [mkEnt "y" 0 2; mkEnt "u" 0 0; mkEnt "x" 0 1] else None.
Example C21_example : sane ex_ctx /\ escapable ex_ctx /\
  exists s s', gen_tree ex_ctx (fun d i => Nat.eqb i 0) ex_pick 4 = Ok s /\
  mutate ex_ctx ex_choice s = Ok (Some s') /\ evolved ex_ctx 4 s' /\ t_inorder s' = "(x d x)"%string.
Proof.
  split; [split; [cbn; intuition (subst; cbn in *; intuition discriminate)|cbn; auto]|].
  split; [split; [exists "u"%string, "x"%string; cbn; intuition discriminate|right; exists "x"%string, "y"%string; cbn; intuition discriminate]|].
  destruct (gen_tree ex_ctx (fun d i => Nat.eqb i 0) ex_pick 4) as [s|] eqn:G; [|vm_compute in G; discriminate].
  destruct (mutate ex_ctx ex_choice s) as [[s'|]|] eqn:M; try (vm_compute in G; injection G as <-; vm_compute in M; discriminate).
  exists s, s'. repeat split; auto.
  - apply (ev_mut _ _ ex_choice s); [apply (ev_gen _ _ (fun d i => Nat.eqb i 0) ex_pick); [exact ex_pick_ok|exact G]| |exact M].
    intros d i cur draws E Hd. unfold ex_choice in Hd. destruct d as [|[|d]]; cbn in Hd; try discriminate. destruct i as [|i]; cbn in Hd; [|discriminate].
    injection Hd as <-. vm_compute in G. injection G as <-. cbn in E. injection E as <-. unfold draws_from. cbn [nar nent ear]. repeat (apply Forall_cons; [cbn; tauto|]). constructor.
  - vm_compute in G. injection G as <-. vm_compute in M. injection M as <-. reflexivity.
Qed.

(** *** C23 *)
Section C23.
Context {V : Type}.
Variables (leafval : ent -> V) (f1 : ent -> V -> V) (f2 : ent -> V -> V -> V) (diffop : ent -> V -> string -> V)
          (known : string -> bool) (lhs : string) (zeroish : V -> bool) (pert : V -> V) (guard : bool)
          (nonzero finite : V -> bool).
Notation column := (column leafval f1 f2 diffop lhs zeroish pert guard nonzero).
Notation evaluate := (evaluate leafval f1 f2 diffop known lhs zeroish pert guard nonzero finite).
Definition has_column (t : tree ent) : bool := match column t with Some _ => true | None => false end.
(** a candidate whose terms are the given trees, with clean caches *)
Definition candidate (ss : list stree) : @pde V := mkPde (map (fun s => fresh (t_levels s)) ss) (List.length ss).
Definition regress_input (defaults cols : list V) : option (list V) :=
  match cols with [] => None | _ => if forallb finite cols then Some (defaults ++ cols) else None end.

Lemma evaluate_core c max_depth ss : ctx_ok c -> sane c -> 2 <= max_depth -> Forall (evolved c max_depth) ss ->
  (forall a, In a (den_names c) -> known a = true \/ a = lhs) -> forall zero defaults, exists cols,
    let kept := filter (fun s => has_column (stored_tree s)) ss in
    evaluate zero defaults (candidate ss) = Ok (candidate kept, regress_input defaults cols) /\
    map Some cols = map (fun s => column (stored_tree s)) kept.
Proof.
  intros Hc Hs Hm Hev Hk zero defaults. set (ts := map stored_tree ss).
  exists (somes (map column ts)). cbv zeta.
  assert (Forall2 (good c) ts (map (fun s => fresh (V := V) (t_levels s)) ss)) as G.
  { unfold ts. clear ts. induction Hev as [|s ss H Hev IH]; constructor; auto. apply (stored_good c max_depth s Hc Hs Hm H). }
  assert (List.length ss = List.length ts) as L2 by (unfold ts; now rewrite map_length).
  destruct (eval_terms_ok c leafval f1 f2 diffop known lhs zeroish pert guard nonzero finite Hk zero ts _ G 0) as (us' & E & L & K).
  unfold SgaEval.evaluate, candidate at 1. cbn [pd_terms]. rewrite E. cbn [bind].
  rewrite map_length in L.
  pose proof (delete_loop_ok zero us' (map column ts) 0 0 [] []) as D. cbn [app] in D.
  rewrite D by (try reflexivity; rewrite map_length; congruence). cbn [bind]. rewrite K.
  set (kept := filter (fun s => has_column (stored_tree s)) ss).
  assert (keep (combine (map (fun s => fresh (V := V) (t_levels s)) ss) (map column ts)) = map (fun s => fresh (t_levels s)) kept) as EK.
  { unfold kept, ts. clear. induction ss as [|s ss IH]; [reflexivity|]. cbn. unfold has_column at 1.
    destruct (column (stored_tree s)); cbn; now rewrite IH. }
  assert (map Some (somes (map column ts)) = map (fun s => column (stored_tree s)) kept) as EC.
  { unfold kept, ts. clear. induction ss as [|s ss IH]; [reflexivity|]. cbn. unfold has_column at 1.
    destruct (column (stored_tree s)) eqn:Et; cbn; rewrite IH; [now rewrite Et|reflexivity]. }
  split; [|exact EC].
  assert (pd_W (candidate ss) - List.length (positions 0 (map column ts)) = List.length kept) as EW.
  { cbn [pd_W candidate]. pose proof (positions_length (map column ts) 0) as P. rewrite map_length in P.
    apply (f_equal (@List.length _)) in EC. rewrite !map_length in EC. lia. }
  unfold candidate in EW |- *. cbn [pd_W] in EW |- *. rewrite EK, EW. unfold regress_input. destruct (somes (map column ts)) as [|v vs]; cbn [List.length Nat.eqb].
  - rewrite orb_true_r. reflexivity.
  - rewrite orb_false_r. destruct (forallb finite (v :: vs)); reflexivity.
Qed.
(** Evaluation of a candidate: its terms are trees of the grammar; kept are exactly the
    terms with a column, in order, the regression gets exactly their columns behind the
    default terms, and the recorded width is their number. *)
Theorem C23_evaluate c max_depth ss : ctx_ok c -> sane c -> 2 <= max_depth -> Forall (evolved c max_depth) ss ->
  (forall a, In a (den_names c) -> known a = true \/ a = lhs) ->
  exists tree_of : stree -> tree ent, Forall (fun s => stores s (tree_of s) /\ term_ok c (tree_of s)) ss /\
  forall zero defaults, exists cols,
    let kept := filter (fun s => has_column (tree_of s)) ss in
    evaluate zero defaults (candidate ss) = Ok (candidate kept, regress_input defaults cols) /\
    map Some cols = map (fun s => column (tree_of s)) kept.
Proof.
  intros Hc Hs Hm Hev Hk. exists stored_tree. split.
  - eapply Forall_impl; [|exact Hev]. intros s H. destruct (stored_good c max_depth s (V := V) Hc Hs Hm H) as [X _]. exact X.
  - intros zero defaults. exact (evaluate_core c max_depth ss Hc Hs Hm Hev Hk zero defaults).
Qed.
(** A term that differentiates along the left-hand-side axis never gets a column. *)
Theorem C23_lhs_removed c t : term_ok c t -> differentiates lhs t -> column t = None.
Proof. intros T D. unfold SgaEval.column. rewrite (value_diff leafval f1 f2 diffop lhs zeroish pert guard c t T D). reflexivity. Qed.
(** Neither does a term that is zero everywhere. *)
Theorem C23_zero_removed t v : value leafval f1 f2 diffop lhs zeroish pert guard t = Some v -> nonzero v = false -> column t = None.
Proof. intros E N. unfold SgaEval.column. now rewrite E, N. Qed.
(** Evaluating again the candidate that is left changes nothing, as long as the arrays of the
    variables are not written to (C59: divide() writes to arrays that contain a zero). *)
Theorem C23_again c max_depth ss zero defaults p m : ctx_ok c -> sane c -> 2 <= max_depth -> Forall (evolved c max_depth) ss ->
  (forall a, In a (den_names c) -> known a = true \/ a = lhs) ->
  evaluate zero defaults (candidate ss) = Ok (p, m) -> evaluate zero defaults p = Ok (p, m).
Proof.
  intros Hc Hs Hm Hev Hk E. destruct (evaluate_core c max_depth ss Hc Hs Hm Hev Hk zero defaults) as (cols & E1 & C1). cbv zeta in E1, C1.
  rewrite E in E1. injection E1 as -> ->. set (kept := filter _ ss) in *.
  assert (Forall (evolved c max_depth) kept) as Hev' by (apply Forall_forall; intros s I; apply filter_In in I as [I _]; rewrite Forall_forall in Hev; auto).
  destruct (evaluate_core c max_depth kept Hc Hs Hm Hev' Hk zero defaults) as (cols' & E2 & C2). cbv zeta in E2, C2.
  assert (filter (fun s => has_column (stored_tree s)) kept = kept) as FF.
  { unfold kept. clear. induction ss as [|s ss IH]; [reflexivity|]. cbn. destruct (has_column (stored_tree s)) eqn:X; [|exact IH]. cbn. now rewrite X, IH. }
  rewrite FF in E2, C2. rewrite <- C1 in C2.
  assert (cols' = cols) as ->; [|exact E2]. clear -C2. revert cols' C2. induction cols as [|x l IH]; intros [|y l'] H; try discriminate; [reflexivity|].
  injection H as -> H. f_equal. auto.
Qed.
End C23.
Print Assumptions C23_evaluate.
Print Assumptions C23_lhs_removed.
Print Assumptions C23_zero_removed.
Print Assumptions C23_again.
(** Non-vacuity: with numbers for arrays (x -> 2, u -> 3, derivatives add one), the candidate
    (u * x) , (u d x) , (0 ^2) loses its third term. *)
Definition num_leaf (e : ent) : Z := if String.eqb (ename e) "u" then 3 else if String.eqb (ename e) "0" then 0 else 2.
Definition num_eval := @evaluate Z num_leaf (fun _ x => x * x)%Z (fun _ x y => x * y)%Z (fun _ x _ => x + 1)%Z (fun a => nmem a ["x"; "y"]%string) "t"
  (fun z => Z.eqb z 0) (fun z => z + 1)%Z false (fun z => negb (Z.eqb z 0)) (fun _ => true).
Definition leaf_at (e : ent) (i : nat) := mkNode e None 0 i.
Example C23_example : let two o a b := [[mkNode (op o 2) (Some 0) 0 0]; [leaf_at a 0; leaf_at b 1]] in
  let one o a := [[mkNode (op o 1) (Some 0) 0 0]; [leaf_at a 0]] in
  let u := mkEnt "u" 0 0 in let x := mkEnt "x" 0 1 in let z := mkEnt "0" 0 3 in
  num_eval 0%Z [7]%Z (mkPde [fresh (two "*" u x); fresh (one "^2" z); fresh (two "d" u x)]%string 3) =
  Ok (mkPde [fresh (two "*" u x); fresh (two "d" u x)]%string 2, Some [7; 6; 4]%Z).
Proof. vm_compute. reflexivity. Qed.

(** *** C52 *)
(** Different candidate equations are written differently, so that the duplicate test of
    the solver never discards a new candidate. *)
Theorem C52_visualize_injective c ts ts' : ctx_ok c ->
  (forall e, In e (c_vars c) -> name_ok (ename e) = true) ->
  (forall e e', In e (c_vars c) -> In e' (c_vars c) -> ename e = ename e' -> e = e') ->
  Forall (term_ok c) ts -> Forall (term_ok c) ts' -> visualize (map infix ts) = visualize (map infix ts') -> ts = ts'.
Proof. intros Hc Hn Hd. apply visualize_inj; assumption. Qed.
Print Assumptions C52_visualize_injective.
Example C52_example : (forall e, In e (c_vars ex_ctx) -> name_ok (ename e) = true) /\
  (forall e e', In e (c_vars ex_ctx) -> In e' (c_vars ex_ctx) -> ename e = ename e' -> e = e') /\
  visualize (map infix [Nd (op "*" 2) [Nd (mkEnt "u" 0 0) []; Nd (op "^2" 1) [Nd (mkEnt "x" 0 1) []]]; Nd (mkEnt "u" 0 0) []]) = "(u * ( ^2 x))+u"%string.
Proof.
  split; [cbn; intuition (subst; reflexivity)|]. split; [cbn; intuition (subst; try reflexivity; discriminate)|reflexivity].
Qed.
