(** Statements of C15-C17, C43-C45 assembled from StridgeFacts / StridgeFit, and the
    concrete data used in their refutations. *)
From Coq Require Import QArith Qabs.
From Verif Require Import Base Trees TreeFacts Library Execute ExecuteSpec ExecuteFacts Stridge StridgeFacts StridgeFit ExampleLib.
Local Open Scope nat_scope.

Section Sum.
Context {V : Type}.
Variables (u x : list V) (param : token -> V) (call : token -> list V -> extra -> option V).
Variables (zero : V) (vadd : V -> V -> V) (vneg : V -> V).
Lemma diff_ok_sub a cs : diff_ok (Nd a cs) -> Forall diff_ok cs.
Proof. intros H. inversion H. assumption. Qed.
Lemma respects_sub a (cs : list node) : respects tarity (Nd a cs) -> Forall (respects tarity) cs.
Proof. intros H. inversion H. assumption. Qed.
Lemma exec_terms t s : respects tarity t -> diff_ok t ->
  Forall (fun m => python_execute u x param call (preorder m) = sem u x param call m) (map snd (splits s t)).
Proof.
  intros HR HD. pose proof (splits_forall _ respects_sub t s HR) as A. pose proof (splits_forall _ diff_ok_sub t s HD) as B.
  rewrite Forall_forall in *. intros m Hm. rewrite <- (app_nil_r (preorder m)). apply python_execute_sem; auto.
Qed.
Lemma terms_span t sp v : abelian zero vadd vneg -> sums_called call vadd vneg -> respects tarity t -> diff_ok t ->
  arity_le2 (preorder t) -> sums_binary (preorder t) -> split_forest (preorder t) [] = Ok sp ->
  python_execute u x param call (preorder t) = OVal v ->
  exists l : list (Z * V), Forall2 (fun toks p => python_execute u x param call toks = OVal (snd p)) (sp_tokens sp) l /\
    Forall (fun p => fst p = 1%Z \/ fst p = (-1)%Z) l /\ v = ssum zero vadd vneg l.
Proof.
  intros AB SC HR HD HA HB E EV. rewrite (split_forest_ok t [] HR HA HB) in E. injection E as <-. cbn [sp_tokens].
  rewrite <- (app_nil_r (preorder t)), (python_execute_sem u x param call t HR HD) in EV.
  destruct (splits_span u x param call zero vadd vneg AB SC t v (respects_sum_ok t HR HB) EV) as (l & F & S & ->).
  exists l. split; [|auto]. unfold terms_of. cbn [map]. rewrite app_nil_r. pose proof (exec_terms t 1%Z HR HD) as X. clear - F X.
  revert l F. induction X as [|m ms Hm _ IH]; intros l F; inversion F; subst; cbn [map]; constructor; [congruence|auto].
Qed.
Lemma terms_symbols t sp v : abelian zero vadd vneg -> sums_called call vadd vneg -> respects tarity t -> diff_ok t ->
  arity_le2 (preorder t) -> sums_binary (preorder t) -> right_atomic t -> split_forest (preorder t) [] = Ok sp ->
  python_execute u x param call (preorder t) = OVal v ->
  exists vs : list V, Forall2 (fun toks w => python_execute u x param call toks = OVal w) (sp_tokens sp) vs /\
    v = ssum zero vadd vneg (combine (sp_symbols sp) vs).
Proof.
  intros AB SC HR HD HA HB RA E EV. rewrite (split_forest_ok t [] HR HA HB) in E. injection E as <-. cbn [sp_tokens sp_symbols].
  rewrite <- (app_nil_r (preorder t)), (python_execute_sem u x param call t HR HD) in EV.
  destruct (splits_symbols u x param call zero vadd vneg AB SC t RA v EV) as (vs & F & ->).
  exists vs. cbn [map]. rewrite app_nil_r. split; [|reflexivity]. unfold terms_of. cbn [map]. rewrite app_nil_r.
  pose proof (exec_terms t 1%Z HR HD) as X. clear - F X. revert vs F X. induction (splits 1 t) as [|m ms IH]; intros vs F X; inversion F; subst; cbn [map] in *; [constructor|].
  inversion X; subst. constructor; [congruence|auto].
Qed.
End Sum.

(** Specification of C15: the sign each term has in the expression, left to right.  Terms on
    the right of a subtraction change sign. *)
Fixpoint true_signs (t : node) : list Z :=
  match t with
  | Nd a [l; r] => if is_sum (tname a) then true_signs l ++ (if is_sub (tname a) then map Z.opp (true_signs r) else true_signs r) else [1%Z]
  | Nd _ _ => [1%Z]
  end.
Section Signs.
Context {V : Type}.
Variables (u x : list V) (param : token -> V) (call : token -> list V -> extra -> option V).
Variables (zero : V) (vadd : V -> V -> V) (vneg : V -> V).
Lemma true_signs_unit t : Forall (fun s => s = 1%Z \/ s = (-1)%Z) (true_signs t).
Proof.
  induction t as [a cs IH] using tree_ind'. cbn [true_signs]. destruct cs as [|l [|r [|? ?]]]; try (repeat constructor; auto; fail).
  inversion IH as [|? ? I1 IH']; subst. inversion IH' as [|? ? I2 _]; subst.
  destruct (is_sum (tname a)); [|repeat constructor; auto]. apply Forall_app. split; [exact I1|]. destruct (is_sub (tname a)); [|exact I2].
  clear - I2. induction I2 as [|s ss H _ IH]; [constructor|]. cbn [map]. constructor; [lia|exact IH].
Qed.
Lemma ssum_opp : abelian zero vadd vneg -> forall ss vs, Forall (fun s => s = 1%Z \/ s = (-1)%Z) ss ->
  ssum zero vadd vneg (combine (map Z.opp ss) vs) = vneg (ssum zero vadd vneg (combine ss vs)).
Proof.
  intros AB ss vs H. rewrite <- (ssum_flip zero vadd vneg AB).
  - f_equal. revert vs. induction H as [|s ss H _ IH]; intros [|v vs]; try reflexivity. cbn [map combine flip]. fold (flip (combine ss vs)). rewrite <- IH.
    f_equal. cbn [fst snd]. destruct H as [->| ->]; reflexivity.
  - revert vs. induction H as [|s ss H _ IH]; intros [|v vs]; cbn [combine]; constructor; [exact H|apply IH].
Qed.
Lemma splits_signed : abelian zero vadd vneg -> sums_called call vadd vneg -> forall t v, sum_ok t -> sem u x param call t = OVal v ->
  exists vs, Forall2 (fun tm w => sem u x param call tm = OVal w) (map snd (splits 1 t)) vs /\ List.length vs = List.length (true_signs t) /\
    v = ssum zero vadd vneg (combine (true_signs t) vs).
Proof.
  intros AB SC. induction t as [a cs IH] using tree_ind'. intros v HS E. inversion HS as [? ? H1 H2]; subst.
  destruct (is_sum (tname a)) eqn:Ea.
  - destruct (H1 eq_refl) as [H1' HP]. destruct cs as [|c0 [|c1 [|? ?]]]; try discriminate.
    inversion IH as [|? ? I1 IH']; subst. inversion IH' as [|? ? I2 _]; subst.
    inversion H2 as [|? ? S1 H2']; subst. inversion H2' as [|? ? S2 _]; subst.
    destruct (sem_sum u x param call vadd vneg SC a c0 c1 v Ea HP E) as (v0 & v1 & E0 & E1 & ->).
    destruct (I1 v0 S1 E0) as (l0 & A1 & A2 & ->). destruct (I2 v1 S2 E1) as (l1 & B1 & B2 & ->).
    cbn [splits true_signs]. rewrite Ea, map_app, (splits_nodes c0 _ 1%Z), (splits_nodes c1 _ 1%Z).
    exists (l0 ++ l1). split; [apply Forall2_app; assumption|]. split; [rewrite !app_length; destruct (is_sub (tname a)); rewrite ?map_length; lia|].
    assert (forall s1 s2 : list Z, List.length l0 = List.length s1 -> combine (s1 ++ s2) (l0 ++ l1) = combine s1 l0 ++ combine s2 l1) as CA.
    { clear. induction l0 as [|w l0 IHl]; intros [|s s1] s2 L; try discriminate; [reflexivity|]. cbn [app combine]. f_equal. apply IHl. cbn in L. lia. }
    rewrite CA by exact A2. rewrite (ssum_app zero vadd vneg AB). destruct (is_sub (tname a)); [|reflexivity].
    rewrite (ssum_opp AB) by apply true_signs_unit. reflexivity.
  - exists [v]. rewrite splits_atom by exact Ea. cbn [map snd]. split; [repeat constructor; exact E|].
    assert (true_signs (Nd a cs) = [1%Z]) as -> by (cbn [true_signs]; destruct cs as [|? [|? [|? ?]]]; rewrite ?Ea; reflexivity).
    split; [reflexivity|]. cbn [combine ssum]. unfold sgn. cbn. symmetry. apply (vadd_0_r zero vadd vneg AB).
Qed.
Lemma terms_signed t sp v : abelian zero vadd vneg -> sums_called call vadd vneg -> respects tarity t -> diff_ok t ->
  arity_le2 (preorder t) -> sums_binary (preorder t) -> split_forest (preorder t) [] = Ok sp ->
  python_execute u x param call (preorder t) = OVal v ->
  exists vs : list V, Forall2 (fun toks w => python_execute u x param call toks = OVal w) (sp_tokens sp) vs /\
    List.length vs = List.length (true_signs t) /\ v = ssum zero vadd vneg (combine (true_signs t) vs).
Proof.
  intros AB SC HR HD HA HB E EV. rewrite (split_forest_ok t [] HR HA HB) in E. injection E as <-. cbn [sp_tokens].
  rewrite <- (app_nil_r (preorder t)), (python_execute_sem u x param call t HR HD) in EV.
  destruct (splits_signed AB SC t v (respects_sum_ok t HR HB) EV) as (l & F & Ln & ->).
  exists l. split; [|auto]. unfold terms_of. cbn [map]. rewrite app_nil_r. pose proof (exec_terms u x param call t 1%Z HR HD) as X. clear - F X.
  revert l F. induction X as [|m ms Hm _ IH]; intros l F; inversion F; subst; cbn [map]; constructor; [congruence|auto].
Qed.
End Signs.
Lemma symbols_right t sp : respects tarity t -> arity_le2 (preorder t) -> sums_binary (preorder t) -> right_atomic t ->
  split_forest (preorder t) [] = Ok sp -> sp_symbols sp = true_signs t.
Proof.
  intros HR HA HB RA E. rewrite (split_forest_ok t [] HR HA HB) in E. injection E as <-. cbn [sp_symbols map]. rewrite app_nil_r. clear HR HA HB.
  induction RA as [a cs Ha|a c0 c1 Ha HP Hs H0 IH0 H1 IH1|a c0 b cs Ha HP Hs H0 IH0 Hb].
  - rewrite splits_atom by exact Ha. cbn [map fst true_signs]. destruct cs as [|? [|? [|? ?]]]; rewrite ?Ha; reflexivity.
  - cbn [splits true_signs]. rewrite Ha, Hs. cbn [andb]. rewrite map_app, IH0, IH1. reflexivity.
  - assert (splits 1 (Nd a [c0; Nd b cs]) = splits 1 c0 ++ [((-1)%Z, Nd b cs)]) as ->.
    { rewrite <- (splits_atom (-1)%Z b cs Hb). cbn [splits]. rewrite Ha, Hs. reflexivity. }
    rewrite map_app, IH0. cbn [map fst]. change (true_signs (Nd a [c0; Nd b cs])) with (if is_sum (tname a) then true_signs c0 ++ (if is_sub (tname a) then map Z.opp (true_signs (Nd b cs)) else true_signs (Nd b cs)) else [1%Z]).
    rewrite Ha, Hs. f_equal. cbn [true_signs]. destruct cs as [|? [|? [|? ?]]]; rewrite ?Hb; reflexivity.
Qed.

(** Integers as values: add, sub, mul; everything else fails. *)
Definition zcall (tok : token) (vs : list Z) (e : extra) : option Z :=
  match vs, e with
  | [a; b], NoExtra => if is_sum (tname tok) then Some (if is_sub (tname tok) then a + - b else a + b)%Z
                       else if String.eqb (tname tok) "mul" then Some (a * b)%Z else None
  | [a], NoExtra => if String.eqb (tname tok) "n2" then Some (a * a)%Z else None
  | _, _ => None
  end.
Lemma z_abelian : abelian 0%Z Z.add Z.opp.
Proof. repeat split; intros; lia. Qed.
Lemma z_sums : sums_called zcall Z.add Z.opp.
Proof. intros tok a b H. unfold zcall. rewrite H. reflexivity. Qed.

Lemma C16_facts t defaults sp : respects tarity t -> arity_le2 (preorder t) -> sums_binary (preorder t) ->
  Forall (fun d => tarity d = 0) defaults -> split_forest (preorder t) defaults = Ok sp ->
  sp_tokens sp = map preorder (sp_terms sp) /\ sp_len sp = map (fun m => List.length (preorder m)) (sp_terms sp) /\
  Forall (respects tarity) (sp_terms sp) /\
  List.length (sp_symbols sp) = List.length (sp_terms sp) /\ List.length (sp_depth sp) = List.length (sp_terms sp).
Proof.
  intros HR HA HB HD E. rewrite (split_forest_ok t defaults HR HA HB) in E. injection E as <-. cbn.
  split; [reflexivity|]. split; [apply map_ext; intros m; symmetry; apply tsize_preorder|]. split; [apply terms_respects; assumption|].
  unfold terms_of. rewrite !app_length, !map_length, ?app_length, ?map_length. auto.
Qed.
Lemma rebuild_sound trav t rest : rebuild_tree trav = Ok (t, rest) -> respects tarity t /\ trav = preorder t ++ rest.
Proof. apply rebuild_fuel_sound. Qed.

(** ** C43 depth *)
Lemma depth_never_rejects md l i t : respects tarity t -> arity_le2 (preorder t) -> l = preorder t -> tdepth t <= md ->
  ~ In "depth_limit"%string (snd (check_term md i l (Nat.log2_up (List.length l)))).
Proof.
  intros HR HA -> HD. unfold check_term. cbn [snd]. rewrite tsize_preorder.
  pose proof (depth_estimate t (respects_small t HR HA)) as DE.
  destruct (Nat.ltb_spec md (Nat.log2_up (tsize t))); [lia|]. cbn [snd].
  intros H'. destruct (has_diff _ && _); destruct (negb _); cbn in H'; intuition discriminate.
Qed.

(** ** C44 state variable *)
Lemma valid_terms_u exec lstsq ac rg trav ds sp y w cols : split_forest trav ds = Ok sp ->
  calculate exec lstsq ac rg sp y = Valid w cols ->
  Forall (fun l => (exists k, In k l /\ contains "u" (tname k) = true) /\
    (Forall (fun k => no_comma (tname k)) l -> l <> [] -> has_diff (repr_list l) = true ->
     exists k, In k (tl l) /\ has_prefix "u" (tname k) = true)) (sp_tokens sp).
Proof.
  intros ES EC. pose proof (calculate_valid_terms exec lstsq ac rg sp y w cols (wf_split_forest _ _ _ ES) EC) as F.
  clear - F. induction F as [|l d ls ds (A & _ & B) _ IH]; [constructor|]. constructor; [|exact IH]. split.
  - rewrite repr_u in B. apply existsb_exists in B. exact B.
  - intros NC NE HD. specialize (A HD). rewrite repr_comma_u in A by assumption. apply existsb_exists in A. exact A.
Qed.

(** ** C45 the error log *)
Section Log.
Context {V : Type}.
(** Specification of C45: an evaluation (numpy or torch) with the warnings emitted during it
    and what it returns; the entries it writes to the log; the entries nobody has read yet. *)
Inductive evaluation := Numpy (ws : list (string * string)) (y : option V) | Torch (ws : list (string * string)) (y : option V).
Definition torch_entries (ws : list (string * string)) (y : option V) : list (string * string) :=
  ws ++ match y with None => [("bad_diff", "bad_diff")]%string | Some _ => [] end.
Fixpoint unread (hist : list evaluation) : list (string * string) :=
  match hist with
  | [] => []
  | Numpy _ _ :: h => unread h
  | Torch ws y :: h => if existsb (fun e => match e with Numpy _ _ => true | _ => false end) h then unread h else torch_entries ws y ++ unread h
  end.
Fixpoint ev_run (zero : V) (g : ilog) (hist : list evaluation) : ilog * list (eval_report V) :=
  match hist with
  | [] => (g, [])
  | e :: h => let '(g1, r) := match e with Numpy ws y => unsafe_execute ws y g | Torch ws y => unsafe_execute_torch zero ws y g end in
              let '(g2, rs) := ev_run zero g1 h in (g2, r :: rs)
  end.
(** the log holds exactly the first unread entry *)
Definition holds (g : ilog) (l : list (string * string)) : Prop :=
  match l with [] => lg_new g = false | w :: _ => lg_new g = true /\ lg_type g = Some (fst w) /\ lg_node g = Some (snd w) end.
Lemma holds_writes ws : forall g l, holds g l -> holds (fold_left (fun g w => ilog_write (fst w) (snd w) g) ws g) (l ++ ws).
Proof.
  induction ws as [|w ws IH]; intros g l H; [rewrite app_nil_r; exact H|]. cbn [fold_left].
  replace (l ++ w :: ws) with ((l ++ [w]) ++ ws) by (rewrite <- app_assoc; reflexivity). apply IH. unfold ilog_write.
  destruct l as [|v l]; cbn [holds app] in *; [rewrite H|destruct H as (-> & -> & ->)]; cbn; auto.
Qed.
Lemma ev_run_app zero h1 : forall h2 g, ev_run zero g (h1 ++ h2) =
  let '(g1, r1) := ev_run zero g h1 in let '(g2, r2) := ev_run zero g1 h2 in (g2, r1 ++ r2).
Proof.
  induction h1 as [|e h1 IH]; intros h2 g; cbn [app ev_run]; [destruct (ev_run zero g h2); reflexivity|].
  destruct (match e with Numpy ws y => unsafe_execute ws y g | Torch ws y => unsafe_execute_torch zero ws y g end) as [g1 r].
  rewrite IH. destruct (ev_run zero g1 h1) as [g2 r1]. destruct (ev_run zero g2 h2). reflexivity.
Qed.
Lemma existsb_numpy_app (h1 h2 : list evaluation) f : existsb f (h1 ++ h2) = (existsb f h1 || existsb f h2)%bool.
Proof. apply existsb_app. Qed.
Lemma unread_numpy h ws y : unread (h ++ [Numpy ws y]) = [].
Proof.
  induction h as [|[? ?|? ?] h IH]; cbn [app unread]; auto. rewrite existsb_app. cbn [existsb]. rewrite orb_true_r. exact IH.
Qed.
Lemma unread_torch h ws y : unread (h ++ [Torch ws y]) = unread h ++ torch_entries ws y.
Proof.
  induction h as [|[? ?|? ?] h IH]; cbn [app unread existsb]; [rewrite app_nil_r; reflexivity|exact IH|].
  rewrite existsb_app. cbn [existsb]. rewrite orb_false_r, IH. destruct (existsb _ h); [reflexivity|apply app_assoc].
Qed.
Lemma ev_run_holds zero h : holds (fst (ev_run zero ilog_init h)) (unread h).
Proof.
  induction h as [|e h IH] using rev_ind; [reflexivity|]. rewrite ev_run_app. destruct (ev_run zero ilog_init h) as [g rs]. cbn [fst] in IH.
  destruct e as [ws y|ws y]; cbn [ev_run].
  - rewrite unread_numpy. unfold unsafe_execute. destruct (ilog_update _) as [g2 [[i a] b]] eqn:E. cbn [fst holds].
    unfold ilog_update in E. destruct (lg_new _) eqn:N in E; injection E as <- _ _ _; [reflexivity|exact N].
  - rewrite unread_torch. unfold unsafe_execute_torch, torch_entries. pose proof (holds_writes ws g (unread h) IH) as H.
    destruct y as [v|]; cbn [fst]; [rewrite app_nil_r; exact H|]. rewrite app_assoc. exact (holds_writes [("bad_diff", "bad_diff")]%string _ _ H).
Qed.
Lemma numpy_report zero h ws (y : option V) : snd (unsafe_execute ws y (fst (ev_run zero ilog_init h))) =
  match unread h ++ ws with [] => mkRep y false None None | w :: _ => mkRep y true (Some (fst w)) (Some (snd w)) end.
Proof.
  pose proof (holds_writes ws _ _ (ev_run_holds zero h)) as H. unfold unsafe_execute, ilog_update.
  destruct (unread h ++ ws) as [|w l]; cbn [holds] in H; [rewrite H; reflexivity|]. destruct H as (-> & -> & ->). reflexivity.
Qed.
Lemma unread_no_torch h : (forall ws y, ~ In (Torch ws y) h) -> unread h = [].
Proof.
  induction h as [|[ws y|ws y] h IH]; intros H; cbn [unread]; [reflexivity| |].
  - apply IH. intros ws' y' Hin. exact (H ws' y' (or_intror Hin)).
  - exfalso. exact (H ws y (or_introl eq_refl)).
Qed.
End Log.

(** ** least squares on one or two columns, exactly (normal equations) *)
Definition qdot (a b : list Q) : Q := fold_right Qplus 0%Q (map (fun p => fst p * snd p)%Q (combine a b)).
Definition lsq (cols : list (list Q)) (y : list Q) : option (list Q) :=
  match cols with
  | [a] => if Qeq_bool (qdot a a) 0 then None else Some [Qred (qdot a y / qdot a a)]
  | [a; b] =>
      let d := (qdot a a * qdot b b - qdot a b * qdot a b)%Q in
      if Qeq_bool d 0 then None
      else Some [Qred ((qdot b b * qdot a y - qdot a b * qdot b y) / d); Qred ((qdot a a * qdot b y - qdot a b * qdot a y) / d)]
  | _ => None
  end.
Lemma lsq_shape : lstsq_shape lsq.
Proof.
  intros cols y w E. destruct cols as [|a [|b [|? ?]]]; cbn [lsq] in E; try discriminate.
  - destruct (Qeq_bool _ _); [discriminate|]. injection E as <-. reflexivity.
  - destruct (Qeq_bool _ _); [discriminate|]. injection E as <-. reflexivity.
Qed.
