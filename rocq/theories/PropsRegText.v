(** Properties of the text reported by KD_Discover_Regression.fit: C81 (variable names) and
    C82 (constants). *)
From Coq Require Import QArith Qround Qabs Ascii Lqa.
From Verif Require Import Base DlgaEq PropsDlgaEq SgaEq RegText RegTextFacts.
Local Open Scope string_scope.

(** ** C81 *)
(** What "the expression with the user's names" means for one token: the i-th input variable
    becomes the i-th name, every other text stays. *)
Definition renamed (names : list string) (t t' : string) : Prop :=
  (exists i, nth_error names i = Some t' /\ t = xvar (i + 1)) \/
  ((forall i, t <> xvar (i + 1)) /\ t' = t).

(** Tokens: input variables of the data, or texts in which no "x<digit>" occurs. *)
Definition regression_token (d : nat) (t : string) : Prop :=
  (exists i, (i < d)%nat /\ t = xvar (i + 1)) \/ xdigit t = false.

Theorem C81_names names toks :
  Forall (regression_token (List.length names)) toks ->
  (forall i j name, nth_error names i = Some name -> (j < i)%nat -> ~ occurs (xvar (j + 1)) name) ->
  exists toks', Forall2 (renamed names) toks toks' /\ render_named (comma toks) names = comma toks'.
Proof.
  intros HT HN. exists (map (render_from 1 names) toks). split; [|apply render_commas].
  induction HT as [|t toks Ht _ IH]; constructor; [|exact IH]. destruct Ht as [(i & Hi & ->)|Hx].
  - left. exists i. split; [|reflexivity]. destruct (nth_error names i) as [name|] eqn:E; [|apply nth_error_None in E; lia].
    f_equal. symmetry. apply render_var; [lia| |].
    + replace (i + 1 - 1)%nat with i by lia. exact E.
    + intros j Hj. specialize (HN i (j - 1)%nat name E ltac:(lia)). replace (j - 1 + 1)%nat with j in HN by lia. exact HN.
  - right. split.
    + intros i ->. apply (xdigit_occurs _ (i + 1) Hx). exists "", "". rewrite sapp_nil. reflexivity.
    + apply render_plain. intros j _. apply xdigit_occurs. exact Hx.
Qed.

(** With the default names the two texts agree, whatever the expression is. *)
Theorem C81_default_names d s : render_named s (default_names d) = s.
Proof. exact (render_default d 1 s). Qed.

(** The tokens of the regression library qualify: every registered operator, the placeholder and
    every printed constant are free of "x<digit>". *)
Definition operator_names : list string :=
  ["Diff"; "Diff2"; "Diff2_3"; "Diff_3"; "abs"; "add"; "adv"; "adv_t"; "cos"; "ddx"; "ddx_t"; "ddy"; "ddy_t"; "diff"; "diff2";
   "diff2_t"; "diff3"; "diff3_t"; "diff4"; "diff4_t"; "diff_t"; "div"; "div_t"; "exp"; "expneg"; "harmonic"; "inv"; "laplacian";
   "laplacian_t"; "log"; "logabs"; "max"; "min"; "mul"; "mul_t"; "n2"; "n2_t"; "n3"; "n3_t"; "n4"; "n5"; "neg"; "sigmoid"; "sin";
   "sqrt"; "sub"; "sub_t"; "tan"; "tanh"; "const"].
Lemma no_x_app a b : (forall p q, a <> p ++ String "x" q) -> (forall p q, b <> p ++ String "x" q) -> forall p q, a ++ b <> p ++ String "x" q.
Proof.
  induction a as [|c a IH]; intros Ha Hb p q E; [exact (Hb p q E)|].
  destruct p as [|d p]; cbn [append] in E; injection E as E1 E2.
  - subst c. apply (Ha "" a). reflexivity.
  - eapply IH; [|exact Hb|exact E2]. intros p' q' ->. apply (Ha (String c p') q'). reflexivity.
Qed.
Lemma no_x_digits s : digits s -> forall p q, s <> p ++ String "x" q.
Proof. intros H p q E. apply (digits_char _ H _ _ _ E). reflexivity. Qed.
Lemma no_x_str s : forallb (fun c => negb (Ascii.eqb c "x")) (list_ascii_of_string s) = true -> forall p q, s <> p ++ String "x" q.
Proof.
  intros H p q ->. induction p as [|c p IH]; cbn [append list_ascii_of_string forallb] in H; [discriminate|].
  apply andb_true_iff in H as [_ H]. auto.
Qed.
Theorem C81_library_tokens d t :
  (exists i, (i < d)%nat /\ t = xvar (i + 1)) \/ In t operator_names \/ (exists v, t = token_text (RConst v)) ->
  regression_token d t.
Proof.
  intros [H|[H|[v ->]]]; [left; exact H| |]; right.
  - assert (forallb (fun t => negb (xdigit t)) operator_names = true) as F by (vm_compute; reflexivity).
    rewrite forallb_forall in F. apply F in H. apply negb_true_iff in H. exact H.
  - destruct v as [v|]; [|reflexivity]. cbn [token_text]. apply xdigit_no_x. destruct v as [neg mag|neg|].
    + destruct (format_shape neg mag) as (j & f & _ & _ & Hf & _ & ->). apply no_x_app; [|apply no_x_app; [|apply no_x_app]].
      * destruct neg; apply no_x_str; reflexivity.
      * apply no_x_digits, dec_digits.
      * apply no_x_str. reflexivity.
      * apply no_x_digits. unfold digits. rewrite fixed_val by exact Hf. discriminate.
    + destruct neg; apply no_x_str; vm_compute; reflexivity.
    + apply no_x_str; vm_compute; reflexivity.
Qed.

(** Swapping two default names renames both to the same variable. *)
Theorem C81_swapped_names_refuted :
  ~ (forall names toks, Forall (regression_token (List.length names)) toks ->
     exists toks', Forall2 (renamed names) toks toks' /\ render_named (comma toks) names = comma toks').
Proof.
  intros H. destruct (H ["x2"; "x1"] ["mul"; "x1"; "x2"]) as (toks' & F & E).
  - constructor; [right; reflexivity|]. constructor; [left; exists 0%nat; split; [cbn; lia|reflexivity]|].
    constructor; [left; exists 1%nat; split; [cbn; lia|reflexivity]|constructor].
  - inversion F as [|? a ? l1 Fa F1]; subst. inversion F1 as [|? b ? l2 Fb F2]; subst. inversion F2 as [|? c ? l3 Fc F3]; subst. inversion F3; subst.
    assert (a = "mul") as ->.
    { destruct Fa as [(i & _ & E1)|[_ E1]]; [unfold xvar in E1; discriminate|exact E1]. }
    assert (b = "x2") as ->.
    { destruct Fb as [(i & E2 & E1)|[E1 _]]; [|destruct (E1 0%nat); reflexivity].
      change "x1" with (xvar (0 + 1)) in E1. apply xvar_inj in E1. replace i with 0%nat in E2 by lia. cbn in E2. congruence. }
    assert (c = "x1") as ->.
    { destruct Fc as [(i & E2 & E1)|[E1 _]]; [|destruct (E1 1%nat); reflexivity].
      change "x2" with (xvar (1 + 1)) in E1. apply xvar_inj in E1. replace i with 1%nat in E2 by lia. cbn in E2. congruence. }
    vm_compute in E. discriminate.
Qed.

Example C81_case : render_named (comma ["add"; "x1"; "mul"; "x12"; "exp"; "x2"]) (["mass"] ++ default_names 0 ++ repeat "v" 10 ++ ["tax"])
  = "add,mass,mul,tax,exp,v".
Proof. vm_compute. reflexivity. Qed.
Example C81_case_hyp : regression_token 12 "x12" /\ regression_token 12 "exp".
Proof. split; [left; exists 11%nat; split; [lia|reflexivity]|right; reflexivity]. Qed.

(** ** C82 *)
Definition value (neg : bool) (mag : Q) : Q := ((if neg then -1 else 1) * mag)%Q.

(** The printed text is a decimal numeral whose value is the constant rounded to six decimals. *)
Theorem C82_value neg mag : (0 <= mag)%Q ->
  exists q, numeral (format_constant (Fin neg mag)) q /\ (Qabs (q - value neg mag) <= 5 # 10000000)%Q.
Proof.
  intros Hm. destruct (format_value neg mag Hm) as (q & Hq & E). exists q. split; [exact Hq|]. rewrite E. unfold value.
  pose proof (round_half_even_err (mag * 1000000)) as H. apply Qabs_Qle_condition in H as [H1 H2].
  set (r := inject_Z (round_half_even (mag * 1000000))) in *. apply Qabs_Qle_condition.
  assert (r / 1000000 == r * (1 # 1000000))%Q as F by field. destruct neg; rewrite F; split; lra.
Qed.
(** A constant that is a multiple of one millionth is printed exactly. *)
Theorem C82_exact neg k : exists q, numeral (format_constant (Fin neg (inject_Z (Z.of_nat k) / 1000000))) q /\
  (q == value neg (inject_Z (Z.of_nat k) / 1000000))%Q.
Proof.
  destruct (format_value neg (inject_Z (Z.of_nat k) / 1000000)) as (q & Hq & E).
  { apply Qle_shift_div_l; [reflexivity|]. rewrite Qmult_0_l. change 0%Q with (inject_Z 0). rewrite <- Zle_Qle. lia. }
  exists q. split; [exact Hq|]. rewrite E. unfold value. apply Qmult_comp; [reflexivity|].
  assert (round_half_even (inject_Z (Z.of_nat k) / 1000000 * 1000000) = Z.of_nat k) as ->; [|reflexivity].
  unfold round_half_even. assert (inject_Z (Z.of_nat k) / 1000000 * 1000000 == inject_Z (Z.of_nat k))%Q as Eq by field.
  rewrite (Qfloor_comp _ _ Eq), Qfloor_Z. rewrite Eq. setoid_replace (inject_Z (Z.of_nat k) - inject_Z (Z.of_nat k))%Q with 0%Q by lra. reflexivity.
Qed.
(** No padding: the text has one to six decimals, and a final zero only as the single decimal. *)
Theorem C82_short neg mag : exists X fp,
  format_constant (Fin neg mag) = X ++ "." ++ fp /\ (1 <= String.length fp <= 6)%nat /\
  (fp = "0" \/ forall s, fp <> s ++ "0").
Proof.
  destruct (format_shape neg mag) as (j & f & Hj & _ & Hf & Hz & E).
  exists ((if neg then "-" else "") ++ dec (millionths mag / 1000000)), (fixed j f). split; [rewrite sapp_assoc; exact E|].
  rewrite fixed_len. split; [exact Hj|]. destruct Hz as [Hz|[-> ->]]; [right|left; reflexivity].
  intros s F. destruct j; [lia|]. pose proof (fixed_val _ _ Hf) as V. rewrite F in V. change "0" with (String (dchar 0) "") in V.
  rewrite dval_snoc in V by reflexivity. destruct (dval 0 s) as [v|]; [|discriminate]. apply Hz.
  assert ((10 * v + 0)%N = f) as V' by congruence. rewrite <- V', N.add_0_r, N.mul_comm. apply N.mod_mul. discriminate.
Qed.
(** Two constants with the same text differ by at most one millionth. *)
Theorem C82_same_text n1 m1 n2 m2 : (0 <= m1)%Q -> (0 <= m2)%Q ->
  format_constant (Fin n1 m1) = format_constant (Fin n2 m2) -> (Qabs (value n1 m1 - value n2 m2) <= 1 # 1000000)%Q.
Proof.
  intros H1 H2 E. destruct (C82_value n1 m1 H1) as (q1 & N1 & B1). destruct (C82_value n2 m2 H2) as (q2 & N2 & B2). rewrite E in N1.
  assert (q1 == q2)%Q as Eq.
  { destruct N1 as (s1 & i1 & f1 & a1 & b1 & X1 & I1 & F1 & A1 & D1 & ->), N2 as (s2 & i2 & f2 & a2 & b2 & X2 & I2 & F2 & A2 & D2 & ->).
    rewrite X1 in X2.
    assert (dig : forall s v, dval 0 s = Some v -> forall p c q, s = p ++ String c q -> digit_val c <> None).
    { intros s v Hv. apply digits_char. unfold digits. congruence. }
    assert (s1 = s2 /\ i1 ++ "." ++ f1 = i2 ++ "." ++ f2) as [<- X3].
    { destruct s1, s2; cbn [append] in X2.
      - injection X2 as X2. auto.
      - destruct i2 as [|c i2]; [congruence|]. cbn [append] in X2. injection X2 as <- _. exfalso. apply (dig _ _ A2 "" _ _ eq_refl). reflexivity.
      - destruct i1 as [|c i1]; [congruence|]. cbn [append] in X2. injection X2 as -> _. exfalso. apply (dig _ _ A1 "" _ _ eq_refl). reflexivity.
      - auto. }
    clear X1 X2 I1 I2.
    assert (i1 = i2 /\ f1 = f2) as [<- <-].
    { assert (G1 : forall p c q, i1 = p ++ String c q -> digit_val c <> None) by (apply (dig _ _ A1)).
      assert (G2 : forall p c q, i2 = p ++ String c q -> digit_val c <> None) by (apply (dig _ _ A2)).
      clear - G1 G2 X3. revert i2 X3 G1 G2. induction i1 as [|c i1 IH]; intros i2 X3 G1 G2; destruct i2 as [|d i2]; cbn [append] in X3; injection X3 as X3.
      - auto.
      - exfalso. apply (G2 "" d i2 eq_refl). rewrite <- X3. reflexivity.
      - exfalso. apply (G1 "" c i1 eq_refl). rewrite X3. reflexivity.
      - subst d. destruct (IH i2 H) as [-> ->]; auto.
        + intros p e q ->. apply (G1 (String c p) e q). reflexivity.
        + intros p e q ->. apply (G2 (String c p) e q). reflexivity. }
    rewrite A1 in A2. rewrite D1 in D2. injection A2 as <-. injection D2 as <-. reflexivity. }
  apply Qabs_Qle_condition in B1, B2. apply Qabs_Qle_condition. rewrite Eq in B1. destruct B1, B2. split; lra.
Qed.

(** A placeholder constant reads as a number with a point exactly when it has a value; without one
    it reads "const", which no value does. *)
Theorem C82_set_or_unset v : 
  (token_text (RConst v) = "const" <-> v = None) /\ (v <> None <-> occurs "." (token_text (RConst v))).
Proof.
  assert (S : forall f, occurs "." (format_constant f)).
  { intros f. destruct f as [neg mag|neg|].
    - destruct (format_shape neg mag) as (j & g & _ & _ & _ & _ & ->).
      exists ((if neg then "-" else "") ++ dec (millionths mag / 1000000)), (fixed j g).
      rewrite !sapp_assoc. reflexivity.
    - destruct neg; [exists "-inf", "0"|exists "inf", "0"]; vm_compute; reflexivity.
    - exists "nan", "0". vm_compute. reflexivity. }
  assert (N : ~ occurs "." "const").
  { intros (p & q & E). repeat (destruct p as [|? p]; [discriminate E|cbn [append] in E; try discriminate E; injection E as _ E]). }
  destruct v as [f|]; cbn [token_text].
  - split; split; intros E; try congruence; [|apply S]. exfalso. apply N. rewrite <- E. apply S.
  - split; split; intros H; try reflexivity; try (exfalso; first [apply (N H)|congruence]).
Qed.

(** A constant that is not zero may be printed as zero. *)
Theorem C82_nonzero_refuted : ~ (forall mag q, (0 < mag)%Q -> numeral (format_constant (Fin false mag)) q -> ~ (q == 0)%Q).
Proof.
  intros H. apply (H (1 # 4000000)%Q 0%Q); [reflexivity| |reflexivity].
  exists false, "0", "0", 0%N, 0%N. repeat split; try discriminate.
Qed.
(** NaN and the infinities are printed as something that is no number. *)
Theorem C82_non_finite_refuted :
  format_constant NaN = "nan.0" /\ format_constant (Inf false) = "inf.0" /\ format_constant (Inf true) = "-inf.0".
Proof. repeat split; vm_compute; reflexivity. Qed.

Example C82_cases : map format_constant [Fin false (5 # 2); Fin true (1234567 # 1000); Fin false 100; Fin true (1 # 3); Fin false (1 # 2000000); Fin true 0]
  = ["2.5"; "-1234.567"; "100.0"; "-0.333333"; "0.0"; "-0.0"].
Proof. vm_compute. reflexivity. Qed.
Print Assumptions C81_names.
Print Assumptions C81_default_names.
Print Assumptions C81_library_tokens.
Print Assumptions C81_swapped_names_refuted.
Print Assumptions C82_value.
Print Assumptions C82_exact.
Print Assumptions C82_short.
Print Assumptions C82_same_text.
Print Assumptions C82_nonzero_refuted.
Print Assumptions C82_non_finite_refuted.
Print Assumptions C82_set_or_unset.
