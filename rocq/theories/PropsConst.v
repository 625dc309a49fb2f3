(** C136: placeholder constants in equations. *)
From Coq Require Import QArith Qabs.
From Verif Require Import Base Trees TreeFacts Library Execute ExecuteSpec ExecuteFacts Stridge StridgeFacts StridgeFit RegressLemmas Const.
Local Open Scope nat_scope.

(** *** Unset constants stop an evaluation *)
Section Unset.
Context {V : Type}.
Variables (u x : list V) (param : token -> V).
Variable call : token -> list V -> extra -> option V.
Lemma evalf_unset t : (exists a, In a (preorder t) /\ is_const a = true /\ plain a) ->
  forall flag, match evalf (app_np u x param (call_lib call)) t flag with inl _ => False | inr o => match o with OVal _ => False | _ => True end end
    \/ exists o, evalf (app_np u x param (call_lib call)) t flag = inr o /\ (forall v, o <> OVal v).
Proof.
  induction t as [a cs IH] using tree_ind'. intros (c & Hc & K & P) flag. right. cbn [preorder] in Hc. cbn [evalf].
  assert ((exists o, seqf (evalf (app_np u x param (call_lib call))) cs flag = inr o /\ (forall v, o <> OVal v)) \/
    (a = c /\ (exists r, seqf (evalf (app_np u x param (call_lib call))) cs flag = inl r)) \/
    (exists o, seqf (evalf (app_np u x param (call_lib call))) cs flag = inr o /\ (forall v, o <> OVal v))) as H.
  { assert (forall cs flag, (forall o, seqf (evalf (app_np u x param (call_lib call))) cs flag = inr o -> forall v, o <> OVal v)) as NV.
    { assert (forall t flag o, evalf (app_np u x param (call_lib call)) t flag = inr o -> forall v, o <> OVal v) as NT.
      { clear. induction t as [a cs IH] using tree_ind'. intros flag o E v. cbn [evalf] in E.
        destruct (seqf (evalf (app_np u x param (call_lib call))) cs flag) as [[vs f]|o'] eqn:ES.
        - unfold app_np in E. destruct (tinput a); [destruct (nth_error x n); [discriminate|]; injection E as <-; discriminate|].
          destruct (tparam a); [discriminate|]. destruct (tstate a); [destruct (nth_error u n); [discriminate|]; injection E as <-; discriminate|].
          destruct (if has_diff (tname a) then _ else _); [discriminate|]. injection E as <-. discriminate.
        - injection E as <-. clear -IH ES. revert flag ES. induction IH as [|c cs Hc _ IH2]; intros flag ES; [discriminate|].
          cbn [seqf] in ES. destruct (evalf _ c flag) as [[v0 f0]|o0] eqn:E0; [|injection ES as <-; exact (Hc _ _ E0 v)].
          fold (seqf (evalf (app_np u x param (call_lib call)))) in ES.
          destruct (seqf _ cs f0) as [[vs f1]|o1] eqn:E1; [discriminate|]. injection ES as <-. exact (IH2 _ E1). }
      induction cs0 as [|d ds IHd]; intros fl o E v; [discriminate|]. cbn [seqf] in E.
      destruct (evalf _ d fl) as [[v0 f0]|o0] eqn:E0; [|injection E as <-; exact (NT _ _ _ E0 v)].
      fold (seqf (evalf (app_np u x param (call_lib call)))) in E.
      destruct (seqf _ ds f0) as [[vs f1]|o1] eqn:E1; [discriminate|]. injection E as <-. exact (IHd _ _ E1 v). }
    destruct Hc as [->|Hc].
    - destruct (seqf _ cs flag) as [r|o] eqn:ES; [right; left; split; [reflexivity|eexists; reflexivity]|]. left. exists o. split; [reflexivity|]. exact (NV _ _ _ ES).
    - left. clear - IH Hc K P NV. revert flag. induction IH as [|d ds Hd _ IH2]; [destruct Hc|]. intros flag. cbn [flat_map] in Hc. apply in_app_iff in Hc.
      cbn [seqf]. fold (seqf (evalf (app_np u x param (call_lib call)))).
      destruct (evalf _ d flag) as [[v0 f0]|o0] eqn:E0.
      + destruct Hc as [Hc|Hc].
        * exfalso. destruct (Hd (ex_intro _ c (conj Hc (conj K P))) flag) as [Z0|(o & Z0 & _)]; rewrite E0 in Z0; [exact Z0|discriminate].
        * destruct (IH2 Hc f0) as (o & -> & No). exists o. split; [reflexivity|exact No].
      + exists o0. split; [reflexivity|]. apply (NV [d] flag). cbn [seqf]. rewrite E0. reflexivity. }
  destruct H as [(o & -> & No)|[(-> & ([vs f] & ->))|(o & -> & No)]]; [exists o; auto| |exists o; auto].
  destruct P as (P1 & P2 & P3). unfold app_np, call_lib. rewrite P1, P2, P3, K.
  destruct (has_diff (tname c)); [|destruct (is_lap (tname c))]; exists ONone; split; try reflexivity; discriminate.
Qed.
Lemma execute_unset t : respects tarity t -> (exists a, In a (preorder t) /\ is_const a = true /\ plain a) ->
  forall v, python_execute u x param (call_lib call) (preorder t) <> OVal v.
Proof.
  intros HR HC v. unfold python_execute. rewrite <- (app_nil_r (preorder t)). rewrite exec_complete by exact HR.
  destruct (evalf_unset t HC None) as [Z0|(o & -> & No)]; [|apply No].
  destruct (evalf _ t None) as [r|o]; [destruct Z0|destruct o; [destruct Z0|discriminate|discriminate]].
Qed.
End Unset.

(** a constant of the expression is in one of its terms *)
Lemma const_in_term c : is_sum (tname c) = false -> forall t s, In c (preorder t) -> exists m, In m (map snd (splits s t)) /\ In c (preorder m).
Proof.
  intros NS. induction t as [a cs IH] using tree_ind'. intros s Hc. cbn [splits].
  assert (exists m, In m (map snd [(s, Nd a cs)]) /\ In c (preorder m)) as HA by (exists (Nd a cs); split; [left; reflexivity|exact Hc]).
  destruct cs as [|c0 [|c1 [|? ?]]]; try exact HA. destruct (is_sum (tname a)) eqn:Ea; [|exact HA].
  inversion IH as [|? ? I1 IH']; subst. inversion IH' as [|? ? I2 _]; subst.
  cbn [preorder flat_map] in Hc. rewrite app_nil_r in Hc. destruct Hc as [->|Hc]; [congruence|]. apply in_app_iff in Hc.
  rewrite map_app. destruct Hc as [Hc|Hc].
  - destruct (I1 (if is_sub (tname a) && negb (Z.eqb s 1) then (-1)%Z else 1%Z) Hc) as (m & Hm & Hm'). exists m. split; [apply in_or_app; left; exact Hm|exact Hm'].
  - destruct (I2 (if is_sub (tname a) then (-1)%Z else 1%Z) Hc) as (m & Hm & Hm'). exists m. split; [apply in_or_app; right; exact Hm|exact Hm'].
Qed.

(** *** Positions of constants *)
Lemma positions_from : forall l i, map fst (filter (fun p => is_cst (snd p)) (combine (seq i (List.length l)) l)) = map (fun k => i + k) (positions l).
Proof.
  unfold positions. assert (forall l i j, map fst (filter (fun p : nat * ptok => is_cst (snd p)) (combine (seq (i + j) (List.length l)) l)) =
    map (fun k => i + k) (map fst (filter (fun p : nat * ptok => is_cst (snd p)) (combine (seq j (List.length l)) l)))) as G.
  { induction l as [|k l IH]; intros i j; [reflexivity|]. cbn [List.length seq combine filter snd]. rewrite <- Nat.add_succ_r.
    destruct (is_cst k); cbn [map fst]; rewrite IH; reflexivity. }
  intros l i. rewrite <- (Nat.add_0_r i) at 1. apply G.
Qed.
Lemma positions_cons k l : positions (k :: l) = (if is_cst k then [0] else []) ++ map S (positions l).
Proof.
  unfold positions at 1. cbn [List.length seq combine filter snd]. destruct (is_cst k); cbn [map fst app]; rewrite (positions_from l 1); reflexivity.
Qed.
Lemma fold_update_S cs : forall pos k (t : list ptok),
  fold_left (fun t pc => update (fst pc) (Cst (Some (snd pc))) t) (combine (map S pos) cs) (k :: t) =
  k :: fold_left (fun t pc => update (fst pc) (Cst (Some (snd pc))) t) (combine pos cs) t.
Proof.
  revert cs. intros cs pos. revert cs. induction pos as [|i pos IH]; intros cs k t; [reflexivity|].
  destruct cs as [|q cs]; [reflexivity|]. cbn [map combine fold_left fst snd update]. apply IH.
Qed.
(** setting as many constants as there are: constant [i] of the list is the [i]th constant, other tokens stay *)
Fixpoint filled (l : list ptok) (cs : list Q) : list ptok :=
  match l with
  | [] => []
  | Lib k :: l' => Lib k :: filled l' cs
  | Cst v :: l' => match cs with [] => Cst v :: l' | q :: cs' => Cst (Some q) :: filled l' cs' end
  end.
Lemma set_filled : forall l cs, fold_left (fun t pc => update (fst pc) (Cst (Some (snd pc))) t) (combine (positions l) cs) l = filled l cs.
Proof.
  induction l as [|k l IH]; intros cs; [reflexivity|]. rewrite positions_cons. destruct k as [k|v]; cbn [is_cst app].
  - rewrite fold_update_S, IH. reflexivity.
  - destruct cs as [|q cs]; [reflexivity|]. cbn [combine fold_left fst snd update filled]. rewrite fold_update_S, IH. reflexivity.
Qed.
Lemma positions_filled : forall l cs, positions (filled l cs) = positions l.
Proof.
  induction l as [|k l IH]; intros cs; [reflexivity|]. destruct k as [k|v]; cbn [filled].
  - rewrite !positions_cons, IH. reflexivity.
  - destruct cs as [|q cs]; [reflexivity|]. rewrite !positions_cons, IH. reflexivity.
Qed.
Lemma get_filled : forall l cs, List.length cs = List.length (positions l) -> get_constants_of (filled l cs) = Ok cs.
Proof.
  induction l as [|k l IH]; intros cs HL; [destruct cs; [reflexivity|discriminate]|].
  rewrite positions_cons in HL. destruct k as [k|v]; cbn [filled get_constants_of is_cst app] in *.
  - rewrite map_length in HL. apply IH. exact HL.
  - destruct cs as [|q cs]; [discriminate|]. cbn [List.length app] in HL. rewrite map_length in HL. cbn [get_constants_of]. rewrite IH by lia. reflexivity.
Qed.

(** *** Specification: the expression with given values for its constants, in order *)
Definition with_constants (toks : list token) (cs : list Q) : list ptok := filled (map from_library toks) cs.
Definition n_constants (toks : list token) : nat := List.length (filter is_const toks).
Lemma n_positions toks : List.length (positions (map from_library toks)) = n_constants toks.
Proof.
  unfold n_constants. induction toks as [|k l IH]; [reflexivity|]. cbn [map filter]. rewrite positions_cons, app_length, map_length, IH.
  unfold from_library at 1. destruct (is_const k); reflexivity.
Qed.

(** *** C136 *)
(** With constants fitted by SciPy, the scored expression is the user's expression with exactly the
    constants that the minimiser returned for the objective "mean squared error of the expression
    with these constants", started at 1; get_constants returns them; every term has weight 1. *)
Theorem C136_scored_with_fitted_constants {V} (u x : list V) param call flat lstsq value mse m ac rg toks ds sp ut :
  split_forest toks ds = Ok sp -> n_constants toks <> 0 ->
  (forall f x0, List.length (m f x0) = List.length x0) ->
  exists f, let cs := m f (repeat 1%Q (n_constants toks)) in
    let '(p, r) := r_ridge u x param call flat lstsq value mse (Scipy m) ac rg sp toks ut in
    p_trav p = with_constants toks cs /\ get_constants p = Ok cs /\
    (forall y w c, r = Fitted y w c -> value (with_constants toks cs) = Some y /\ List.length y = List.length ut /\ w = map (fun _ => 1%Q) (sp_tokens sp)) /\
    (forall k, List.length k = n_constants toks -> forall y, value (with_constants toks k) = Some y -> List.length y = List.length ut ->
       snd (apply_regulations rg sp) = [] -> f k = mse ut y).
Proof.
  intros ES NC HM. set (p0 := new_program toks).
  exists (objective u x param call flat lstsq value mse (Scipy m) ac rg sp p0 ut). cbv zeta. unfold r_ridge, optimize. fold p0.
  assert (p_const_pos p0 = positions (map from_library toks)) as EP by reflexivity.
  destruct (p_const_pos p0) as [|i pos] eqn:E0; [exfalso; apply NC; rewrite <- n_positions, <- EP; reflexivity|].
  assert (map (fun _ : nat => 1%Q) (i :: pos) = repeat 1%Q (n_constants toks)) as ER.
  { rewrite EP. rewrite <- n_positions. clear. induction (positions (map from_library toks)) as [|a l IH]; [reflexivity|]. cbn. rewrite IH. reflexivity. }
  rewrite ER. cbn [call_optimizer]. set (cs := m _ _).
  assert (List.length cs = n_constants toks) as LC by (unfold cs; rewrite HM, repeat_length; reflexivity).
  assert (forall k, p_trav (set_constants p0 k) = with_constants toks k) as ET.
  { intros k. unfold set_constants, with_constants. cbn [p_trav]. rewrite E0, EP. apply set_filled. }
  split; [apply ET|]. split; [unfold get_constants; rewrite ET; apply get_filled; rewrite n_positions; exact LC|]. split.
  - intros y w c H. cbn [execute] in H. unfold evaluate_bfgs in H. rewrite ET in H. destruct (snd (apply_regulations rg sp)); [|discriminate].
    destruct (value (with_constants toks cs)) as [y'|]; [|discriminate]. destruct (Nat.eqb_spec (List.length y') (List.length ut)); [|discriminate].
    injection H as <- <- <-. auto.
  - intros k Hk y Hy Ly RG. unfold objective. cbn [execute]. unfold evaluate_bfgs. rewrite RG, ET, Hy. rewrite (proj2 (Nat.eqb_eq _ _) Ly). reflexivity.
Qed.
(** Constants are set in this program's own tokens: the library's token, and with it every other
    program, keeps its constants unset. *)
Theorem C136_other_programs_untouched toks cs toks' :
  let p := set_constants (new_program toks) cs in
  p_library_trav p = toks /\ p_trav (new_program toks') = with_constants toks' [].
Proof.
  split; [reflexivity|]. cbn [new_program p_trav]. unfold with_constants. induction (map from_library toks') as [|k l IH]; [reflexivity|].
  destruct k; cbn [filled]; [rewrite <- IH|]; reflexivity.
Qed.
(** With the default setting ("dummy") the regression works on the tokens without values: no
    expression that contains a constant is ever fitted, on any data. *)
Theorem C136_default_constants_refuted {V} (u x : list V) param call flat lstsq value mse ac rg t ds sp ut :
  respects tarity t -> arity_le2 (preorder t) -> sums_binary (preorder t) -> In const_token (preorder t) ->
  split_forest (preorder t) ds = Ok sp ->
  snd (r_ridge u x param call flat lstsq value mse Dummy ac rg sp (preorder t) ut) = NotFitted.
Proof.
  intros HR HA HB HC ES. unfold r_ridge. cbn [snd]. generalize (optimize u x param call flat lstsq value mse Dummy ac rg sp (new_program (preorder t)) ut) as p. intros p. cbn [execute].
  destruct (calculate (exec_term u x param call flat) lstsq ac rg sp ut) as [e|w cols|] eqn:EC; try reflexivity. exfalso.
  unfold calculate in EC. destruct (evaluate_terms (exec_term u x param call flat) rg sp) as [vs|] eqn:Ev; [|discriminate].
  destruct (evaluate_terms_ok _ _ _ _ (wf_split_forest _ _ _ ES) Ev) as (F & _).
  rewrite (split_forest_ok t ds HR HA HB) in ES. injection ES as <-. cbn [sp_tokens] in F.
  destruct (const_in_term const_token eq_refl t 1 HC) as (m & Hm & Hm').
  assert (respects tarity m) as Rm.
  { assert (Forall (respects tarity) (map snd (splits 1 t))) as FR by (apply splits_forall; [|exact HR]; intros a cs H; inversion H; assumption).
    rewrite Forall_forall in FR. apply FR. exact Hm. }
  assert (forall l, In m l -> forall vs, Forall2 (fun l v => exec_term u x param call flat l = TVal v) (map preorder l) vs -> False) as G.
  { clear - Rm Hm'. induction l as [|a l IH]; [intros []|]. intros H vs F. inversion F as [|? ? ? ? F1 F2]; subst. destruct H as [->|H]; [|exact (IH H _ F2)].
    unfold exec_term in F1. destruct (python_execute u x param (call_lib call) (preorder m)) as [v| |] eqn:E; try discriminate.
    revert E. apply execute_unset; [exact Rm|]. exists const_token. split; [exact Hm'|]. split; [reflexivity|]. repeat split. }
  apply (G (terms_of t ds)) with (vs := vs); [unfold terms_of; apply in_or_app; left; exact Hm|exact F].
Qed.
(** The printed equation shows "const" whatever the fitted value: two runs of mul(const, u1) with
    different constants print the same. *)
Definition c136_u := mkTok "u1" 0 None (Some 0) None.
Definition c136_t : node := Nd (mkTok "mul" 2 None None None) [Nd const_token []; Nd c136_u []].
Definition c136_value (p : list ptok) : option (list Q) :=
  match p with [Lib _; Cst (Some q); Lib _] => Some [q; q * 2]%Q | _ => None end.
Definition c136_mse (y z : list Q) : Q := fold_right Qplus 0%Q (map (fun p => (fst p - snd p) * (fst p - snd p))%Q (combine y z)).
Definition c136_run m := r_ridge [1%Q] [] (fun _ => 0%Q) (fun _ _ _ => Some 1%Q) (fun q => [q]) lsq c136_value c136_mse (Scipy m) false (mkRegs 4 (Some 1)).
Theorem C136_printed_without_value_refuted : exists sp,
  split_forest (preorder c136_t) [] = Ok sp /\
  (forall q, get_constants (fst (c136_run (fun _ _ => [q]) sp (preorder c136_t) [1; 2]%Q)) = Ok [q] /\
    exists w, snd (c136_run (fun _ _ => [q]) sp (preorder c136_t) [1; 2]%Q) = Fitted [q; q * 2]%Q w None /\
      printed w sp = [(1%Q, "mul(const,u1)"%string)]).
Proof.
  eexists. split; [reflexivity|]. intros q. split; [reflexivity|]. eexists. split; reflexivity.
Qed.
(** what the minimiser would have to find: the objective is 0 at 3 and positive at 1 *)
Example C136_case : n_constants (preorder c136_t) = 1 /\ respects tarity c136_t /\ In const_token (preorder c136_t) /\
  arity_le2 (preorder c136_t) /\ sums_binary (preorder c136_t) /\
  exists sp, split_forest (preorder c136_t) [] = Ok sp /\
    (objective [1%Q] [] (fun _ => 0%Q) (fun _ _ _ => Some 1%Q) (fun q => [q]) lsq c136_value c136_mse (Scipy (fun _ _ => [3%Q])) false (mkRegs 4%nat (Some 1%nat)) sp
      (new_program (preorder c136_t)) [3; 6]%Q [3%Q] == 0)%Q /\
    snd (c136_run (fun _ _ => [3%Q]) sp (preorder c136_t) [3; 6]%Q) = Fitted [3; 6]%Q [1%Q] None.
Proof.
  split; [reflexivity|]. split; [repeat constructor|]. split; [right; left; reflexivity|]. split; [unfold arity_le2; repeat constructor|].
  split; [unfold sums_binary; repeat constructor; cbn; intros; discriminate|].
  eexists. split; [reflexivity|]. split; vm_compute; reflexivity.
Qed.
Print Assumptions C136_scored_with_fitted_constants.
Print Assumptions C136_other_programs_untouched.
Print Assumptions C136_default_constants_refuted.
Print Assumptions C136_printed_without_value_refuted.
