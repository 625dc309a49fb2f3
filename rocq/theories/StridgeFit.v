(** split_forest, regulations and coefficient fitting: proofs. *)
From Coq Require Import QArith Qabs Ascii.
From Verif Require Import Base Trees TreeFacts Library Execute ExecuteSpec ExecuteFacts Stridge StridgeFacts.
Local Open Scope nat_scope.

(** ** split_forest *)
Definition sums_binary (l : list token) : Prop := Forall (fun k => is_sum (tname k) = true -> tarity k = 2 /\ plain k) l.
Lemma respects_sum_ok t : respects tarity t -> sums_binary (preorder t) -> sum_ok t.
Proof.
  induction t as [a cs IH] using tree_ind'. intros HR HF. inversion HR as [? ? Hn HC]; subst. inversion HF as [|? ? H1 H2]; subst.
  constructor; [intros E; destruct (H1 E) as [Q1 Q2]; split; [exact (eq_trans Hn Q1)|exact Q2]|]. clear - IH HC H2. induction IH as [|c cs Hc _ IH2]; [constructor|].
  cbn [flat_map] in H2. apply Forall_app in H2 as [H2 H3]. inversion HC; subst. constructor; auto.
Qed.
Lemma mapM_ok {A B} (f : A -> res B) (g : A -> B) l : (forall x, In x l -> f x = Ok (g x)) -> mapM f l = Ok (map g l).
Proof.
  induction l as [|x l IH]; intros H; [reflexivity|]. cbn [mapM map]. rewrite (H x (or_introl eq_refl)). cbn [bind].
  rewrite IH by (intros y Hy; apply H; right; exact Hy). reflexivity.
Qed.
Definition terms_of (t : node) (defaults : list token) : list node := map snd (splits 1 t) ++ map (fun d => Nd d []) defaults.
Definition arity_le2 (l : list token) : Prop := Forall (fun k => tarity k <= 2) l.

Lemma split_forest_ok t defaults : respects tarity t -> arity_le2 (preorder t) -> sums_binary (preorder t) ->
  split_forest (preorder t) defaults =
    Ok (mkSplit (map fst (splits 1 t) ++ map (fun _ => 1%Z) defaults) (terms_of t defaults)
          (map preorder (terms_of t defaults)) (map tsize (terms_of t defaults))
          (map (fun m => Nat.log2_up (tsize m)) (terms_of t defaults)) (preorder t)).
Proof.
  intros HR HA HS. unfold split_forest. pose proof (rebuild_ok t [] HR) as E. rewrite app_nil_r in E. rewrite E. cbn [bind fst].
  destruct (split_sum_ok t 1 (respects_sum_ok t HR HS)) as (n & En & Ex). rewrite En. cbn [bind]. rewrite Ex.
  fold (terms_of t defaults).
  assert (Forall small_arity (terms_of t defaults)) as HT.
  { apply Forall_app. split.
    - apply splits_forall; [|apply respects_small; assumption]. intros a cs H. inversion H; assumption.
    - apply Forall_forall. intros m Hm. apply in_map_iff in Hm as (d & <- & _). constructor; [simpl; lia|constructor]. }
  rewrite (mapM_ok _ preorder).
  2:{ intros m Hm. apply preorder_traverse_ok. rewrite Forall_forall in HT. auto. }
  cbn [bind]. rewrite !map_map. f_equal. f_equal.
  - apply map_ext. intros m. apply tsize_preorder.
  - apply map_ext. intros m. rewrite tsize_preorder. reflexivity.
Qed.
Lemma terms_respects t defaults : respects tarity t -> Forall (fun d => tarity d = 0) defaults ->
  Forall (respects tarity) (terms_of t defaults).
Proof.
  intros HR HD. apply Forall_app. split.
  - apply splits_forall; [|exact HR]. intros a cs H. inversion H; assumption.
  - clear HR. induction HD as [|d ds H _ IH]; [constructor|]. cbn [map]. constructor; [|exact IH]. constructor; [simpl; auto|constructor].
Qed.

(** ** depth *)
Fixpoint tdepth {A} (t : tree A) : nat := match t with Nd _ cs => S (fold_right Nat.max 0 (map tdepth cs)) end.
Lemma size_depth t : small_arity t -> tsize t < 2 ^ tdepth t.
Proof.
  induction t as [a cs IH] using tree_ind'. intros H. inversion H as [? ? H1 H2]; subst. cbn [tsize tdepth].
  destruct cs as [|c0 [|c1 [|? ?]]]; cbn [List.length] in H1; try lia; cbn [map fold_right]; unfold list_sum; cbn [fold_right].
  - cbn. lia.
  - inversion IH as [|? ? I1 _]; subst. inversion H2; subst. specialize (I1 ltac:(assumption)).
    rewrite Nat.max_0_r, Nat.add_0_r. cbn [Nat.pow]. lia.
  - inversion IH as [|? ? I1 IH']; subst. inversion IH' as [|? ? I2 _]; subst. inversion H2 as [|? ? K1 K2]; subst. inversion K2; subst.
    specialize (I1 K1). specialize (I2 ltac:(assumption)). rewrite Nat.max_0_r, Nat.add_0_r.
    pose proof (Nat.pow_le_mono_r 2 (tdepth c0) (Nat.max (tdepth c0) (tdepth c1)) ltac:(lia) ltac:(lia)).
    pose proof (Nat.pow_le_mono_r 2 (tdepth c1) (Nat.max (tdepth c0) (tdepth c1)) ltac:(lia) ltac:(lia)).
    cbn [Nat.pow]. lia.
Qed.
Lemma depth_estimate t : small_arity t -> Nat.log2_up (tsize t) <= tdepth t.
Proof.
  intros H. pose proof (size_depth t H) as S.
  assert (0 < tsize t) as P by (destruct t; cbn; lia).
  apply Nat.log2_up_le_pow2; lia.
Qed.

(** ** strings *)
Local Open Scope string_scope.
Lemma contains_eq p c s : contains p (String c s) = has_prefix p (String c s) || contains p s.
Proof. reflexivity. Qed.
Lemma has_prefix_app p s r : has_prefix p s = true -> has_prefix p (s ++ r) = true.
Proof.
  revert s. induction p as [|c p IH]; intros [|d s] H; try reflexivity; [discriminate|]. cbn [has_prefix append] in *.
  apply andb_true_iff in H as [H1 H2]. rewrite H1. cbn [andb]. apply IH. exact H2.
Qed.
Lemma contains_app_l p s r : contains p s = true -> contains p (s ++ r) = true.
Proof.
  induction s as [|c s IH]; intros H.
  - destruct p; [|discriminate]. destruct r; reflexivity.
  - cbn [append]. rewrite contains_eq in *. apply orb_true_iff in H as [H|H].
    + change (String c (s ++ r)) with (String c s ++ r). rewrite has_prefix_app by exact H. reflexivity.
    + rewrite IH by exact H. apply orb_true_r.
Qed.
Lemma contains_app_r p s r : contains p r = true -> contains p (s ++ r) = true.
Proof.
  induction s as [|c s IH]; intros H; [exact H|]. cbn [append]. rewrite contains_eq, IH by exact H. apply orb_true_r.
Qed.
Definition no_comma (n : string) : Prop := contains "," n = false.
Definition starts_u (n : string) : bool := has_prefix "u" n.
Lemma no_comma_cons c n : no_comma (String c n) -> Ascii.eqb ","%char c = false /\ no_comma n.
Proof.
  unfold no_comma. rewrite contains_eq. intros H. apply orb_false_iff in H as [H1 H2]. split; [|exact H2].
  cbn [has_prefix] in H1. rewrite andb_true_r in H1. exact H1.
Qed.
Lemma skip_name n r : no_comma n -> contains ", u" (n ++ r) = contains ", u" r.
Proof.
  induction n as [|c n IH]; intros H; [reflexivity|]. apply no_comma_cons in H as [H1 H2].
  cbn [append]. rewrite contains_eq. cbn [has_prefix]. rewrite H1. cbn [andb orb]. apply IH. exact H2.
Qed.
Lemma comma_u_join : forall ns n r, Forall no_comma (n :: ns) -> contains ", u" r = false -> has_prefix "u" r = false ->
  contains ", u" (join ", " (n :: ns) ++ r) = existsb starts_u ns.
Proof.
  induction ns as [|m ns IH]; intros n r HF Hr Hp; inversion HF as [|? ? H1 H2]; subst.
  - cbn [join existsb]. rewrite skip_name by exact H1. exact Hr.
  - assert (forall s, (n ++ ", " ++ s) ++ r = n ++ String "," (String " " (s ++ r))) as Q.
    { intros s. clear. induction n as [|c n IH]; [reflexivity|]. cbn [append]. f_equal. exact IH. }
    change (join ", " (n :: m :: ns)) with (n ++ ", " ++ join ", " (m :: ns)). rewrite Q.
    rewrite skip_name by exact H1. cbn [existsb].
    rewrite contains_eq, contains_eq.
    assert (has_prefix ", u" (String " " (join ", " (m :: ns) ++ r)) = false) as Z1 by reflexivity. rewrite Z1. cbn [orb].
    rewrite (IH m r H2 Hr Hp). f_equal. unfold starts_u. cbn [has_prefix].
    change (Ascii.eqb "," ","%char) with true. change (Ascii.eqb " " " "%char) with true. cbn [andb].
    inversion H2 as [|? ? H3 _]; subst. destruct m as [|c m].
    + destruct ns as [|k ns]; [exact Hp|reflexivity].
    + destruct ns; reflexivity.
Qed.
Lemma repr_comma_u l : l <> [] -> Forall (fun k => no_comma (tname k)) l ->
  contains ", u" (repr_list l) = existsb (fun k => starts_u (tname k)) (tl l).
Proof.
  intros Hn HF. destruct l as [|k l]; [congruence|]. unfold repr_list. cbn [tl map].
  cbn [append]. rewrite contains_eq. cbn [has_prefix]. change (Ascii.eqb "," "["%char) with false. cbn [andb orb].
  rewrite comma_u_join; [|rewrite Forall_forall in *; intros y Hy; change (tname k :: map tname l) with (map tname (k :: l)) in Hy; apply in_map_iff in Hy as (z & <- & Hz); auto|reflexivity|reflexivity].
  clear. induction l as [|m l IH]; [reflexivity|]. cbn [map existsb]. rewrite IH. reflexivity.
Qed.
Lemma join_member sep l n : In n l -> exists a b, join sep l = a ++ n ++ b.
Proof.
  assert (forall s, s ++ "" = s) as E0 by (intros s; induction s as [|c s IH]; [reflexivity|cbn [append]; f_equal; exact IH]).
  assert (forall a b c : string, (a ++ b) ++ c = a ++ b ++ c) as EA by (intros a b c; induction a as [|x a IH]; [reflexivity|cbn [append]; f_equal; exact IH]).
  induction l as [|m l IH]; [intros []|]. intros [H|H]; subst.
  - destruct l as [|k l]; [exists "", ""; cbn; symmetry; apply E0|]. exists "", (sep ++ join sep (k :: l)). reflexivity.
  - destruct (IH H) as (a & b & E). destruct l as [|k l]; [destruct H|]. exists (m ++ sep ++ a), b.
    change (join sep (m :: k :: l)) with (m ++ sep ++ join sep (k :: l)). rewrite E, !EA. reflexivity.
Qed.
Lemma repr_contains p l k : In k l -> contains p (tname k) = true -> contains p (repr_list l) = true.
Proof.
  intros Hk Hp. unfold repr_list. apply contains_app_r. apply contains_app_l.
  destruct (join_member ", " (map tname l) (tname k)) as (a & b & ->); [apply in_map; exact Hk|].
  apply contains_app_r, contains_app_l. exact Hp.
Qed.
(** a single character occurs in the printed list only through a name *)
Lemma contains_u_app s r : contains "u" (s ++ r) = contains "u" s || contains "u" r.
Proof.
  induction s as [|c s IH]; [reflexivity|]. cbn [append]. rewrite !contains_eq, IH, orb_assoc. f_equal.
Qed.
Lemma repr_u l : contains "u" (repr_list l) = existsb (fun k => contains "u" (tname k)) l.
Proof.
  unfold repr_list. rewrite !contains_u_app. change (contains "u" "[") with false. change (contains "u" "]") with false.
  cbn [orb]. rewrite orb_false_r. induction l as [|k l IH]; [reflexivity|]. cbn [map existsb]. rewrite <- IH.
  destruct l as [|m l]; [cbn; rewrite orb_false_r; reflexivity|].
  change (join ", " (tname k :: map tname (m :: l))) with (tname k ++ ", " ++ join ", " (map tname (m :: l))).
  rewrite !contains_u_app. reflexivity.
Qed.
Local Close Scope string_scope.

(** ** regulations *)
Lemma check_term_ok md i l d : snd (check_term md i l d) = [] ->
  (has_diff (repr_list l) = true -> contains ", u" (repr_list l) = true) /\ d <= md /\ contains "u" (repr_list l) = true /\
  fst (check_term md i l d) = [].
Proof.
  unfold check_term. cbn [snd fst]. intros H. apply app_eq_nil in H as [H1 H]. apply app_eq_nil in H as [H2 H3].
  destruct (has_diff (repr_list l)) eqn:E1; destruct (contains ", u" (repr_list l)) eqn:E2; cbn [andb negb snd fst] in *; try discriminate;
  (destruct (Nat.ltb_spec md d); cbn [snd fst] in *; [discriminate|]);
  (destruct (contains "u" (repr_list l)); cbn [negb snd fst] in *; [|discriminate]); repeat split; auto; try discriminate; try lia.
Qed.
Lemma check_terms_ok md : forall ls ds i, List.length ls = List.length ds -> snd (check_terms_from md i ls ds) = [] ->
  fst (check_terms_from md i ls ds) = [] /\
  Forall2 (fun l d => (has_diff (repr_list l) = true -> contains ", u" (repr_list l) = true) /\ d <= md /\ contains "u" (repr_list l) = true) ls ds.
Proof.
  induction ls as [|l ls IH]; intros [|d ds] i HL H; try discriminate; [split; [reflexivity|constructor]|].
  cbn [check_terms_from] in *. pose proof (check_term_ok md i l d) as C.
  destruct (check_term md i l d) as [o e]. pose proof (IH ds (i + 1)) as IH'.
  destruct (check_terms_from md (i + 1) ls ds) as [o' e']. cbn [fst snd] in *.
  apply app_eq_nil in H as [H1 H2]. destruct (C H1) as (A1 & A2 & A3 & ->). destruct IH' as [-> B]; [cbn in HL; lia|exact H2|].
  split; [reflexivity|]. constructor; auto.
Qed.

(** ** fitting *)
Lemma drop_omitted_nil {A} (l : list A) : drop_omitted [] l = l.
Proof.
  unfold drop_omitted.
  assert (forall (l : list A) i, map snd (filter (fun p => negb (memb (fst p) [])) (combine (seq i (List.length l)) l)) = l) as G.
  { induction l0 as [|x l0 IH]; intros i; [reflexivity|]. cbn. f_equal. apply IH. }
  apply G.
Qed.
Lemma eval_all_ok exec ls vs : eval_all exec ls = inl vs -> Forall2 (fun l v => exec l = TVal v) ls vs.
Proof.
  revert vs. induction ls as [|l ls IH]; intros vs E; cbn [eval_all] in E; [injection E as <-; constructor|].
  destruct (exec l) as [v| |] eqn:El; try discriminate. destruct (eval_all exec ls) as [vs'|]; [|discriminate].
  injection E as <-. constructor; auto.
Qed.
Definition wf_split (sp : split) : Prop := List.length (sp_tokens sp) = List.length (sp_depth sp).
Lemma evaluate_terms_ok exec rg sp vs : wf_split sp -> evaluate_terms exec rg sp = inl vs ->
  Forall2 (fun l v => exec l = TVal v) (sp_tokens sp) vs /\ vs <> [] /\
  (forall a b, In a vs -> In b vs -> List.length a = List.length b) /\
  Forall2 (fun l d => (has_diff (repr_list l) = true -> contains ", u" (repr_list l) = true) /\ d <= r_depth rg /\ contains "u" (repr_list l) = true) (sp_tokens sp) (sp_depth sp) /\
  (forall d, r_dims rg = Some d -> check_spatial d (sp_trav sp) = []).
Proof.
  intros HW E. unfold evaluate_terms, apply_regulations, check_single_term in E.
  pose proof (check_terms_ok (r_depth rg) (sp_tokens sp) (sp_depth sp) 0 HW) as C.
  destruct (check_terms_from (r_depth rg) 0 (sp_tokens sp) (sp_depth sp)) as [omit err]. cbn [fst snd] in *.
  destruct (match r_dims rg with Some d => check_spatial d (sp_trav sp) | None => [] end ++ err) as [|e err'] eqn:EE; [|discriminate].
  apply app_eq_nil in EE as [ES ->]. destruct (C eq_refl) as [-> C2].
  assert (forall d, r_dims rg = Some d -> check_spatial d (sp_trav sp) = []) as C3 by (intros d Hd; rewrite Hd in ES; exact ES).
  destruct (eval_all exec (sp_tokens sp)) as [[|v vs']|] eqn:Ee; try discriminate.
  destruct (forallb _ vs') eqn:Ef; [|discriminate]. injection E as <-. rewrite drop_omitted_nil.
  split; [apply eval_all_ok; exact Ee|]. split; [discriminate|]. split; [|split; [exact C2|exact C3]].
  rewrite forallb_forall in Ef.
  assert (forall a, In a (v :: vs') -> List.length a = List.length v) as L.
  { intros a [<-|Ha]; [reflexivity|]. apply Nat.eqb_eq, Ef. exact Ha. }
  intros a b Ha Hb. rewrite (L a Ha), (L b Hb). reflexivity.
Qed.

Definition in_range (q : Q) : Prop := (5 # 100000 <= Qabs q /\ Qabs q <= 10000)%Q.
Lemma not_small q : small q = false -> (5 # 100000 <= Qabs q)%Q.
Proof. unfold small. intros H. apply negb_false_iff in H. apply Qle_bool_iff. exact H. Qed.
Lemma not_large q : large q = false -> (Qabs q <= 10000)%Q.
Proof. unfold large. intros H. apply negb_false_iff in H. apply Qle_bool_iff. exact H. Qed.
Lemma scan_ok ac : forall w b, scan ac w = inr b ->
  (b = false -> Forall in_range w) /\ (b = true -> ac = true /\ w <> [] /\ Forall in_range (removelast w)).
Proof.
  induction w as [|q w IH]; intros b E.
  { cbn in E. injection E as <-. split; [constructor|discriminate]. }
  destruct w as [|q' w].
  - cbn [scan] in E. destruct (small q) eqn:Es.
    + destruct ac; [|discriminate]. injection E as <-. split; [discriminate|]. intros _. split; [reflexivity|]. split; [discriminate|constructor].
    + destruct (large q) eqn:El; [discriminate|]. injection E as <-. split; [|discriminate]. intros _. constructor; [|constructor].
      split; [apply not_small|apply not_large]; assumption.
  - change (scan ac (q :: q' :: w)) with (if small q then @inl string bool "small_coe"%string else if large q then inl "large_coe"%string else scan ac (q' :: w)) in E.
    destruct (small q) eqn:Es; [discriminate|]. destruct (large q) eqn:El; [discriminate|]. destruct (IH b E) as [A B].
    assert (in_range q) as R by (split; [apply not_small|apply not_large]; assumption).
    split; [intros Hb; constructor; auto|]. intros Hb. destruct (B Hb) as (B1 & B2 & B3). split; [exact B1|]. split; [discriminate|].
    change (removelast (q :: q' :: w)) with (q :: removelast (q' :: w)). constructor; auto.
Qed.

(** What np.linalg.lstsq guarantees about shapes: one coefficient per column. *)
Definition lstsq_shape (lstsq : list (list Q) -> list Q -> option (list Q)) : Prop :=
  forall cols y w, lstsq cols y = Some w -> List.length w = List.length cols.

Lemma calculate_ok exec lstsq ac rg sp y w cols : lstsq_shape lstsq -> wf_split sp ->
  calculate exec lstsq ac rg sp y = Valid w cols ->
  exists vs, Forall2 (fun l v => exec l = TVal v) (sp_tokens sp) vs /\ vs <> [] /\
    List.length w = List.length cols /\
    lstsq cols y = Some w /\
    ((cols = vs /\ ac = false /\ Forall in_range w) \/
     (exists n, cols = vs ++ [repeat 1%Q n] /\ (forall v, In v vs -> List.length v = n) /\ ac = true /\ Forall in_range w) \/
     (cols = vs /\ ac = true)).
Proof.
  intros HL HW E. unfold calculate in E. destruct (evaluate_terms exec rg sp) as [vs|] eqn:Ev; [|discriminate].
  destruct (evaluate_terms_ok exec rg sp vs HW Ev) as (A1 & A2 & A3 & _). exists vs. split; [exact A1|]. split; [exact A2|].
  unfold coef_calculate in E.
  set (n := match vs with [] => 0 | v :: _ => List.length v end) in *.
  assert (forall v, In v vs -> List.length v = n) as Hn.
  { intros v Hv. unfold n. destruct vs as [|v0 vs]; [destruct Hv|]. apply A3; [exact Hv|left; reflexivity]. }
  destruct (lstsq (if ac then vs ++ [repeat 1%Q n] else vs) y) as [w0|] eqn:E1; [|discriminate].
  destruct (scan ac w0) as [e|b] eqn:Es; [discriminate|]. destruct (scan_ok ac w0 b Es) as [S1 S2]. destruct b.
  - destruct (S2 eq_refl) as (-> & B2 & B3). rewrite removelast_last in E.
    destruct (lstsq vs y) as [w'|] eqn:E2; [|discriminate]. injection E as <- <-. split; [apply (HL _ _ _ E2)|]. split; [exact E2|]. right. right. auto.
  - injection E as <- <-. split; [apply (HL _ _ _ E1)|]. split; [exact E1|]. destruct ac; [|left; auto].
    right. left. exists n. auto.
Qed.
Lemma calculate_valid_terms exec lstsq ac rg sp y w cols : wf_split sp -> calculate exec lstsq ac rg sp y = Valid w cols ->
  Forall2 (fun l d => (has_diff (repr_list l) = true -> contains ", u" (repr_list l) = true) /\ d <= r_depth rg /\ contains "u" (repr_list l) = true) (sp_tokens sp) (sp_depth sp).
Proof.
  intros HW E. unfold calculate in E. destruct (evaluate_terms exec rg sp) as [vs|] eqn:Ev; [|discriminate].
  apply (evaluate_terms_ok exec rg sp vs HW Ev).
Qed.
Lemma wf_split_forest trav ds sp : split_forest trav ds = Ok sp -> wf_split sp.
Proof.
  unfold split_forest. intros E. destruct (rebuild_tree trav) as [r|]; [|discriminate]. cbn [bind] in E.
  destruct (split_sum 1 (fst r)) as [n|]; [|discriminate]. cbn [bind] in E.
  destruct (mapM preorder_traverse _) as [toks|]; [|discriminate]. cbn [bind] in E. injection E as <-.
  unfold wf_split. cbn. rewrite map_length. reflexivity.
Qed.

(** str_expression *)
Lemma combine_app {A B} (a1 a2 : list A) (b1 b2 : list B) : List.length a1 = List.length b1 ->
  combine (a1 ++ a2) (b1 ++ b2) = combine a1 b1 ++ combine a2 b2.
Proof. revert b1. induction a1 as [|x a1 IH]; intros [|y b1] H; try discriminate; [reflexivity|]. cbn. f_equal. apply IH. cbn in H. lia. Qed.
Lemma str_pairs_same w terms : List.length w = List.length terms ->
  str_pairs w terms = combine w (map Some terms).
Proof.
  intros H. unfold str_pairs. rewrite H. destruct (Nat.eqb_spec (List.length terms) (List.length terms + 1)); [lia|]. rewrite app_nil_r.
  revert terms H n. induction w as [|q w IH]; intros [|t terms] H n; try discriminate; [reflexivity|]. cbn. f_equal. apply IH; cbn in *; lia.
Qed.
Lemma str_pairs_const w q terms : List.length w = List.length terms ->
  str_pairs (w ++ [q]) terms = combine (w ++ [q]) (map Some terms ++ [None]).
Proof.
  intros H. unfold str_pairs. rewrite app_length. cbn [List.length]. rewrite H, Nat.eqb_refl, rev_unit.
  rewrite (combine_app w [q] (map Some terms) [None]) by (rewrite map_length; exact H). f_equal.
  rewrite <- (app_nil_r terms) at 1. rewrite combine_app by exact H. cbn [combine]. rewrite app_nil_r.
  clear q. revert terms H. induction w as [|q w IH]; intros [|t terms] H; try discriminate; [reflexivity|]. cbn. f_equal. apply IH. cbn in H. lia.
Qed.
