(** Sharper statements for C42, C57, C65, C75, C122, C123, C136 and C153, added after automatic edits of the model. *)
From Coq Require Import QArith Qabs Lqa Ascii.
From Verif Require Import Base Num.
Local Open Scope nat_scope.
Local Open Scope list_scope.

(** ** C42: the function set of a data set with two or three dimensions, in full. *)
From Verif Require Estimator PropsPriors.
Theorem C42_function_set base n new : 
  ((n = 2 /\ (forall s, In s base -> (forall p, s <> String.append p "_t")) /\ new = ["Diff"; "Diff2"; "lap"]) \/
   (n = 3 /\ (forall s, In s base -> (forall p, s <> String.append p "_t")) /\ new = ["Diff_3"; "Diff2_3"; "lap_3"]) \/
   ((n = 2 \/ n = 3) /\ (exists p, In (String.append p "_t") base) /\ new = ["lap_t"]))%string ->
  NoDup (Estimator.auto_function_set base (Some n)) /\
  forall s, In s (Estimator.auto_function_set base (Some n)) <-> In s new \/
    (In s base /\ ~ In s ["diff"; "diff2"; "diff3"; "diff4"; "Diff"; "Diff2"; "lap"; "Diff_3"; "Diff2_3"; "lap_3"; "diff_t"; "diff2_t"; "diff3_t"; "diff4_t"; "lap_t"]%string).
Proof.
  assert (T : forall s, Estimator.ends_t s = true <-> exists p, s = String.append p "_t").
  { induction s as [|c s IH]; cbn; [split; [discriminate|intros ([|? ?] & X); discriminate]|]. rewrite orb_true_iff, IH. split.
    - intros [E|(p & ->)]; [|exists (String c p); reflexivity]. exists EmptyString. cbn. destruct (Ascii.eqb_spec c "_"%char) as [->|]; [|discriminate E]. apply String.eqb_eq in E as ->. reflexivity.
    - intros ([|d p] & X); cbn in X; injection X as -> ->; [left; reflexivity|right; eauto]. }
  assert (B0 : (forall s, In s base -> forall p, s <> String.append p "_t") -> existsb Estimator.ends_t base = false).
  { intros H. apply not_true_iff_false. rewrite existsb_exists. intros (s & I & E). apply T in E as (p & ->). exact (H _ I p eq_refl). }
  intros [(-> & H & ->)|[(-> & H & ->)|(Hn & (p & H) & ->)]].
  - apply PropsPriors.C42_function_set_spec; [lia|]. rewrite (B0 H). reflexivity.
  - apply PropsPriors.C42_function_set_spec; [lia|]. rewrite (B0 H). reflexivity.
  - assert (existsb Estimator.ends_t base = true) as E by (apply existsb_exists; exists (String.append p "_t"); split; [exact H|apply T; eauto]).
    apply PropsPriors.C42_function_set_spec; [lia|]. rewrite E. destruct Hn as [-> | ->]; reflexivity.
Qed.
Theorem C42_function_set_other base n : n <> 2 -> n <> 3 -> Estimator.auto_function_set base (Some n) = base.
Proof.
  intros H2 H3. unfold Estimator.auto_function_set. destruct (Nat.leb_spec n 1); [reflexivity|].
  destruct n as [|[|[|[|n]]]]; try lia. cbn. destruct (existsb _ _); reflexivity.
Qed.
Example C42_function_set_case : Estimator.auto_function_set ["add"; "mul"; "diff"; "diff2"; "sin"]%string (Some 2) = ["Diff"; "Diff2"; "lap"; "add"; "mul"; "sin"]%string /\
  Estimator.auto_function_set ["add_t"; "mul_t"; "diff_t"]%string (Some 3) = ["lap_t"; "add_t"; "mul_t"]%string.
Proof. split; reflexivity. Qed.

(** ** C57: what a uniform axis is. *)
From Verif Require Import SgaNaming SgaNamingFacts SgaRegistry.
Theorem C57_uniform_axis l : uniform l = true <->
  forall i, S i < List.length l -> (Qabs ((nth (S i) l 0 - nth i l 0) - (nth 1 l 0 - nth 0 l 0)) <= (1 # 100000000) + (1 # 100000) * Qabs (nth 1 l 0 - nth 0 l 0))%Q.
Proof.
  assert (N : forall l i, S i < List.length l -> nth_error (diffs l) i = Some (nth (S i) l 0 - nth i l 0)%Q).
  { induction l0 as [|x [|y l0] IH]; intros i H; cbn in H; try lia. destruct i as [|i]; [reflexivity|]. change (nth_error (diffs (y :: l0)) i = Some (nth (S i) (y :: l0) 0 - nth i (y :: l0) 0)%Q). apply IH. cbn. lia. }
  assert (L : forall l, List.length (diffs l) = pred (List.length l)).
  { induction l0 as [|x [|y l0] IH]; [reflexivity|reflexivity|]. change (S (List.length (diffs (y :: l0))) = S (pred (List.length (y :: l0)))). rewrite IH. reflexivity. }
  unfold uniform. destruct (diffs l) as [|d0 ds] eqn:E.
  - split; [|reflexivity]. intros _ i H. pose proof (L l) as Ll. rewrite E in Ll. cbn in Ll. lia.
  - assert (D0 : d0 = (nth 1 l 0 - nth 0 l 0)%Q). { pose proof (L l) as Ll. rewrite E in Ll. cbn in Ll. pose proof (N l 0 ltac:(lia)) as X. rewrite E in X. injection X as ->. reflexivity. }
    rewrite <- E, forallb_forall. split.
    + intros H i Hi. rewrite <- D0. apply Qle_bool_iff. apply (H (nth (S i) l 0 - nth i l 0)%Q). eapply nth_error_In, N, Hi.
    + intros H d I. apply In_nth_error in I as (i & I). assert (i < List.length (diffs l)) as Hi by (apply nth_error_Some; congruence). rewrite L in Hi.
      rewrite (N l i) in I by lia. injection I as <-. unfold close. apply Qle_bool_iff. rewrite D0. apply H. lia.
Qed.
Example C57_uniform_case : uniform [0; 1; 2]%Q = true /\ uniform [0; 1; 3]%Q = false /\ uniform [5]%Q = true.
Proof. repeat split. Qed.
(** The main space axis: the configured one if it is a space axis (anything else is a ValueError), else x, else the first. *)
Theorem C57_primary {A} (cf : config (A := A)) axes p : resolve_primary cf axes = Ok p ->
  In p axes /\ p <> c_lhs cf /\ (forall q, c_primary cf = Some q -> q = p).
Proof.
  unfold resolve_primary. set (sp := filter _ axes).
  assert (F : forall a, In a sp <-> In a axes /\ a <> c_lhs cf).
  { intros a. unfold sp. rewrite filter_In, negb_true_iff. rewrite <- not_true_iff_false, streq_eq. tauto. }
  destruct sp as [|s0 sp'] eqn:E; [discriminate|]. destruct (c_primary cf) as [q|].
  - destruct (inl q axes) eqn:I; [|discriminate]. destruct (streq q (c_lhs cf)) eqn:X; [discriminate|]. intros [= <-]. split; [apply inl_In, I|]. split; [|congruence]. intros Y. apply streq_eq in Y. congruence.
  - set (b := inl x_name (s0 :: sp')). intros H. assert (p = if b then x_name else s0) as -> by congruence. unfold b. clear H b. destruct (inl x_name (s0 :: sp')) eqn:I.
    + apply inl_In in I. destruct (proj1 (F _) I) as [I1 I2]. idtac. split; [assumption|]. split; [assumption|]. intros q X. discriminate X.
    + destruct (proj1 (F s0) (or_introl eq_refl)) as [I1 I2]. split; [assumption|]. split; [assumption|]. intros q X. discriminate X.
Qed.

(** ** C65: the fields of a data set's information. *)
From Verif Require Params Info.
Local Open Scope string_scope.
Local Open Scope nat_scope.
Local Open Scope list_scope.
Theorem C65_fields kw : let known := ["description"; "citation"; "homepage"; "license"; "author"; "keywords"; "version"]%string in
  ((exists i, Info.build kw = Ok i) <-> forall k, In k (map fst kw) -> In k known) /\
  (forall i, Info.build kw = Ok i -> map fst i = known /\
     forall k, In k known -> Params.dget kw k = None -> Params.dget i k = Some (if String.eqb k "keywords" then Info.IList [] else Info.IStr "")).
Proof.
  cbv zeta. unfold Info.build. cbn [map fst Info.fields].
  destruct (forallb _ kw) eqn:E.
  - split; [split; [intros _|eauto]|].
    + intros k I. apply in_map_iff in I as ((k' & v) & <- & I). rewrite forallb_forall in E. specialize (E _ I). apply existsb_exists in E as (k2 & I2 & X). apply String.eqb_eq in X. cbn [fst] in *. subst. exact I2.
    + intros i [= <-]. split; [reflexivity|]. intros k I N. cbn in I. decompose [or] I; try contradiction; subst k; rewrite N; vm_compute; reflexivity.
  - split; [|discriminate]. split; [intros (i & X); discriminate|]. intros H. exfalso. apply not_true_iff_false in E. apply E. apply forallb_forall. intros p I. apply existsb_exists.
    exists (fst p). split; [apply (H (fst p)), in_map, I|apply String.eqb_refl].
Qed.
Example C65_fields_case : exists i, Info.build [("author", Info.IStr "a")] = Ok i /\ Params.dget i "license" = Some (Info.IStr "") /\ Info.build [("title", Info.IStr "a")] = Err TypeError.
Proof. eexists. split; [reflexivity|]. split; reflexivity. Qed.

(** ** C75: a blank left side stands for u_t. *)
From Verif Require SgaEq.
Theorem C75_blank_left_side g6 wc lz lhs terms : SgaEq.strip lhs = "" -> SgaEq.to_latex g6 wc lz lhs terms = SgaEq.to_latex g6 wc lz "u_t" terms.
Proof. intros H. unfold SgaEq.to_latex, SgaEq.format_lhs. rewrite H. reflexivity. Qed.
Example C75_blank_case : SgaEq.to_latex (fun _ => "1") true true "  " [] = "u_t = 0" /\ SgaEq.to_latex (fun _ => "1") true true "  " [] = SgaEq.to_latex (fun _ => "1") true true "u_t" [].
Proof. split; vm_compute; reflexivity. Qed.

(** ** C61: the data set named in a result file. *)
From Verif Require Job.
Theorem C61_dataset_field {P D} (m : Job.machine P D) c r code : Job.main P D m c = (Some r, code) ->
  (forall n, n <> "" -> Job.c_name _ c = Job.Str n -> Job.r_dataset _ r = Job.Str n) /\
  ((forall n, n <> "" -> Job.c_name _ c <> Job.Str n) -> (Job.c_file _ c = Job.Absent -> Job.r_dataset _ r = Job.Str "unknown") /\ (Job.c_file _ c <> Job.Absent -> Job.r_dataset _ r = Job.c_file _ c)).
Proof.
  intros M. assert (E : Job.r_dataset _ r = Job.dataset_info P c).
  { unfold Job.main in M. destruct (Job.fget (Job.c_model P c)) as [name|]; [|discriminate]. destruct (negb _); [discriminate|]. destruct (negb _); [discriminate|].
    destruct (bind _ _) as [eq|e]; [injection M as <- _; reflexivity|]. destruct (Job.m_save P D m 1); [injection M as <- _; reflexivity|discriminate]. }
  rewrite E. unfold Job.dataset_info. split.
  - intros n N ->. cbn. destruct (String.eqb_spec n ""); [congruence|]. reflexivity.
  - intros N. assert (T : Job.truthy (Job.fget (Job.c_name P c)) = false). { destruct (Job.c_name P c) as [| |n]; cbn; try reflexivity. destruct (String.eqb_spec n ""); [reflexivity|]. exfalso. exact (N n n0 eq_refl). }
    rewrite T. destruct (Job.c_file P c); (split; [try congruence|]; intros H; congruence || reflexivity).
Qed.
Example C61_dataset_case : exists r, Job.main nat nat (Job.mkMachine nat nat (fun _ => true) (fun _ => Ok 1) (fun _ _ _ => Ok "u_t = u") (fun _ => Ok tt) (fun _ => "x")) (Job.mkCfg nat (Job.Str "dlga") Job.Absent 0 Job.Absent (Job.Str "a.npy")) = (Some r, 0%Z) /\
  Job.r_dataset _ r = Job.Str "a.npy".
Proof. eexists. split; reflexivity. Qed.

(** ** C136: with fixed constants the prediction is the weighted sum of the terms' columns, row by row. *)
From Verif Require Stridge Const PropsConst.
Theorem C136_prediction {V} (u x : list V) param call flat lstsq value ac rg sp p ut y w cols :
  Const.execute u x param call flat lstsq value Const.Dummy ac rg sp p ut = Const.Fitted y w (Some cols) ->
  List.length y = List.length ut /\ forall k, k < List.length ut -> nth k y 0%Q = fold_right (fun c s => fst c * nth k (snd c) 0 + s)%Q 0%Q (combine w cols).
Proof.
  assert (DR : forall w cols k, Stridge.dot_row w cols k = fold_right (fun c s => fst c * nth k (snd c) 0 + s)%Q 0%Q (combine w cols)).
  { induction w0 as [|q w0 IH]; intros [|c cs] k; cbn; try reflexivity. rewrite IH. reflexivity. }
  unfold Const.execute. destruct (Stridge.calculate _ _ _ _ _ _) as [e|w' c'|]; try discriminate. intros [= <- <- <-]. rewrite map_length, seq_length. split; [reflexivity|].
  intros k H. rewrite (nth_indep _ 0%Q (Stridge.dot_row w' c' 0)) by (rewrite map_length, seq_length; exact H). rewrite map_nth, seq_nth by exact H. apply DR.
Qed.

(** ** C123: values the platform's runner refuses. *)
From Verif Require Web.
Theorem C123_refused_values ps :
  (Web.pget ps "operators" Web.JNull = Web.JNull -> In "operators" (map fst ps) -> Web.runner_call "dlga" ps = Err TypeError) /\
  (forall o, Web.pget ps "operators" (Web.JStr "u,u_x,u_xx,u_xxx") = Web.JStr o ->
     (Web.pget ps "epi" (Web.JNum (Fin (1 # 10))) = Web.JNull -> Web.runner_call "dlga" ps = Err TypeError) /\
     (forall s, Web.pget ps "epi" (Web.JNum (Fin (1 # 10))) = Web.JStr s -> Web.runner_call "dlga" ps = Err ValueError)).
Proof.
  split.
  - intros E I. unfold Web.runner_call. cbn [String.eqb Ascii.eqb Bool.eqb]. assert (X : forall d, Web.pget ps "operators" d = Web.JNull).
    { revert E I. induction ps as [|[k v] ps IH]; intros E I; [destruct I|]. cbn [Web.pget] in E |- *. destruct (String.eqb_spec "operators" k) as [<-|N]; [intros d; exact E|]. apply IH; [exact E|]. destruct I as [I|I]; [cbn in I; congruence|exact I]. }
    rewrite X. reflexivity.
  - intros o E. split; [intros E2|intros s E2]; unfold Web.runner_call; cbn [String.eqb Ascii.eqb Bool.eqb]; rewrite E, E2; reflexivity.
Qed.
Theorem C123_nan_sample p e m : Web.dlga_epi p = Web.VNum e -> Web.to_int (Web.dlga_max_iter p) = Ok m -> Web.dlga_sample p = Web.VNum NaN ->
  Web.local_call "KD_DLGA" p = Some (Err ValueError) /\ Web.gpu_params "KD_DLGA" p = Err ValueError.
Proof. intros E M S'. unfold Web.local_call, Web.gpu_params. cbn [String.eqb Ascii.eqb Bool.eqb]. rewrite E, M, S'. split; reflexivity. Qed.

(** ** C153: the value of the network on one row, written out. *)
From Verif Require Import Network PropsNetwork.
Definition weighted (w x : list Q) : Q := fold_right Qplus 0%Q (map (fun j => nth j w 0 * nth j x 0)%Q (seq 0 (List.length x))).
Definition affine (l : linear) (x y : list Q) : Prop := List.length y = List.length (weight l) /\
  forall k w b, nth_error (weight l) k = Some w -> nth_error (bias l) k = Some b -> exists v, nth_error y k = Some v /\ (v == weighted w x + b)%Q.
Definition activated (tanh sin : Q -> Q) (f : activation) (x y : Q) : Prop :=
  match f with
  | Tanh => y = tanh x
  | Sine => y = sin x
  | Rational (a0, a1, a2, a3) (b0, b1, b2) => (y == (a0 + a1 * x + a2 * (x * x) + a3 * (x * x * x)) / (b0 + b1 * x + b2 * (x * x)))%Q
  end.
Inductive value (tanh sin : Q -> Q) : list linear -> list activation -> list Q -> list Q -> Prop :=
| OutputLayer l x y : affine l x y -> value tanh sin [l] [] x y
| HiddenLayer l f ls fs x h h' y : affine l x h -> Forall2 (activated tanh sin f) h h' -> value tanh sin ls fs h' y -> value tanh sin (l :: ls) (f :: fs) x y.
Lemma dotp_weighted w x : List.length w = List.length x -> (dotp w x == weighted w x)%Q.
Proof.
  unfold weighted. revert x. induction w as [|a w IH]; intros [|b x] H; cbn in H; try discriminate; [reflexivity|]. cbn [dotp List.length seq map fold_right nth].
  rewrite <- seq_shift, map_map. cbn [nth]. rewrite (IH x) by lia. reflexivity.
Qed.
Theorem C153_value tanh sin n i o x : shape n i o -> List.length x = i -> exists y, forward tanh sin n [x] = Ok [y] /\ value tanh sin (layers n) (acts n) x y.
Proof.
  intros (_ & _ & P) L. unfold forward. revert x L. induction P as [l i o S'|l f ls fs i m o S' Pm P IH]; intros x L.
  - destruct (linear_row_ok l i o x S' L) as (y & E & Ly). exists y. cbn. unfold linear_batch. cbn. rewrite E. cbn. split; [reflexivity|]. constructor.
    destruct S' as (H1 & H2 & H3). split; [congruence|]. intros k w b Ew Eb. unfold linear_row in E. destruct (forallb _ _); [|discriminate]. injection E as <-.
    exists (dotp w x + b)%Q. split.
    + rewrite nth_error_map. assert (nth_error (combine (weight l) (bias l)) k = Some (w, b)) as ->; [|reflexivity]. clear -Ew Eb. revert k Ew Eb. generalize (weight l) (bias l). induction l0 as [|a l0 IH]; intros [|c l1] [|k] E1 E2; try discriminate; cbn in *; [congruence|]. apply IH; assumption.
    + rewrite dotp_weighted; [reflexivity|]. rewrite Forall_forall in H3. rewrite (H3 w (nth_error_In _ _ Ew)). congruence.
  - destruct (linear_row_ok l i m x S' L) as (y & E & Ly). destruct (IH (map (apply_act tanh sin f) y) ltac:(rewrite map_length; exact Ly)) as (z & Ez & Vz).
    exists z. cbn. unfold linear_batch. cbn. rewrite E. cbn. split; [exact Ez|]. apply (HiddenLayer _ _ _ _ _ _ _ y (map (apply_act tanh sin f) y)); [| |exact Vz].
    + destruct S' as (H1 & H2 & H3). split; [congruence|]. intros k w b Ew Eb. unfold linear_row in E. destruct (forallb _ _); [|discriminate]. injection E as <-.
      exists (dotp w x + b)%Q. split.
      * rewrite nth_error_map. assert (nth_error (combine (weight l) (bias l)) k = Some (w, b)) as ->; [|reflexivity]. clear -Ew Eb. revert k Ew Eb. generalize (weight l) (bias l). induction l0 as [|a l0 IH]; intros [|c l1] [|k] E1 E2; try discriminate; cbn in *; [congruence|]. apply IH; assumption.
      * rewrite dotp_weighted; [reflexivity|]. rewrite Forall_forall in H3. rewrite (H3 w (nth_error_In _ _ Ew)). congruence.
    + clear. induction y as [|a y IH]; cbn; constructor; [|exact IH]. unfold activated. destruct f as [| |[[[a0 a1] a2] a3] [[b0 b1] b2]]; cbn [apply_act]; try reflexivity.
      apply Qdiv_comp; ring.
Qed.
Example C136_prediction_case : exists sp y w cols, Stridge.split_forest [PropsConst.c136_u] [] = Ok sp /\
  snd (Const.r_ridge (V := Q) [1; 2]%Q [] (fun _ => 0%Q) (fun _ _ _ => None) (fun q => [q; q * 2]%Q) (fun _ _ => Some [3]%Q) (fun _ => None) (fun _ _ => 0%Q) Const.Dummy false (Stridge.mkRegs 4 (Some 1)) sp [PropsConst.c136_u] [3; 6]%Q) = Const.Fitted y w (Some cols) /\ (nth 1 y 0 == 6)%Q.
Proof. do 4 eexists. split; [reflexivity|]. split; [vm_compute; reflexivity|]. vm_compute. reflexivity. Qed.
Example C153_value_case : value (fun x => x) (fun x => x) [mkLinear [[2; 3]]%Q [1]%Q] [] [1; 1]%Q [6]%Q.
Proof. constructor. split; [reflexivity|]. intros [|[|k]] w b; cbn; try discriminate. intros [= <-] [= <-]. eexists. split; reflexivity. Qed.
Print Assumptions C42_function_set.
Print Assumptions C42_function_set_other.
Print Assumptions C57_uniform_axis.
Print Assumptions C57_primary.
Print Assumptions C65_fields.
Print Assumptions C75_blank_left_side.
Print Assumptions C61_dataset_field.
Print Assumptions C136_prediction.
Print Assumptions C123_refused_values.
Print Assumptions C123_nan_sample.
Print Assumptions C153_value.
