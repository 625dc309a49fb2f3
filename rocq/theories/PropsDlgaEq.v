(** DLGA around the search: C69 (printed equation), C70 (LaTeX), C71 (operator library),
    C72 (training data), C73 (checkpoints). *)
From Coq Require Import QArith Qabs Qround Ascii Permutation Sorted Lqa.
From Verif Require Import Base Num Dlga DlgaFacts DlgaEq DlgaEqSpec DlgaEqFacts.
Local Open Scope string_scope.
Local Open Scope list_scope.

(** ** C69: the printed equation is the fitted one *)
(** Reading the right-hand side printed by KD_DLGA back gives, term by term, the printed
    coefficient and the names of the operators of the module. *)
Theorem C69_kd_equation_reads_back ops left chrom coefs : Forall opname ops ->
  chrom <> [] -> Forall (good_module (List.length ops)) chrom -> List.length coefs = List.length chrom -> Forall numeral coefs ->
  exists rhs, kd_equation ops left chrom coefs = (left ++ "=" ++ rhs)%string /\
    read_rhs rhs = map (fun p => snd p :: map (fun g => nth g ops "") (fst p)) (combine chrom coefs).
Proof.
  intros Ho N Hc L Hk. destruct chrom as [|m ch] eqn:Ech; [congruence|]. rewrite <- Ech in *.
  assert (combine chrom coefs <> []) as Nc by (rewrite Ech; destruct coefs; [rewrite Ech in L; discriminate|discriminate]).
  exists (replace_pm (joins "+" (kd_terms ops chrom coefs))). split; [unfold kd_equation; rewrite Ech; reflexivity|].
  rewrite (kd_terms_eq ops chrom Ho Hc). apply (products_read (fun t => replace_pm (joins "+" t))); auto.
  apply Forall_forall. intros [a b] Hin. split; [apply in_combine_l in Hin|apply in_combine_r in Hin]; [rewrite Forall_forall in Hc; apply Hc|rewrite Forall_forall in Hk; apply Hk]; exact Hin.
Qed.
(** Whatever genes a chromosome has: a module is left out exactly if none of its genes has a name,
    and every module that is shown keeps its own coefficient. *)
Theorem C69_own_coefficients ops chrom : Forall (fun o => o <> "") ops -> forall coefs,
  kd_terms ops chrom coefs = map (fun p => (snd p ++ "*" ++ joins "*" (flat_map (fun g => match nth_error ops g with Some s => [s] | None => [] end) (fst p)))%string)
    (filter (fun p => existsb (fun g => Nat.ltb g (List.length ops)) (fst p)) (combine chrom coefs)).
Proof.
  intros Ho. induction chrom as [|m ch IH]; intros [|k ks]; try reflexivity. cbn [kd_terms combine filter fst snd]. rewrite IH.
  assert (String.eqb (joins "*" (flat_map (fun g => match nth_error ops g with Some s => [s] | None => [] end) m)) "" = negb (existsb (fun g => Nat.ltb g (List.length ops)) m)) as ->.
  { clear IH. induction m as [|g m IH]; [reflexivity|]. cbn [flat_map existsb]. destruct (nth_error ops g) as [o|] eqn:E.
    - assert (Nat.ltb g (List.length ops) = true) as -> by (apply Nat.ltb_lt, nth_error_Some; congruence). cbn [orb negb].
      assert (o <> "") as No by (rewrite Forall_forall in Ho; apply Ho; eapply nth_error_In; exact E). apply String.eqb_neq.
      intros C. cbn [List.app] in C. destruct (flat_map _ m) as [|y l]; cbn [joins] in C; [congruence|]. destruct o; [congruence|discriminate].
    - assert (Nat.ltb g (List.length ops) = false) as -> by (apply Nat.ltb_ge, nth_error_None; exact E). exact IH. }
  destruct (existsb _ m); reflexivity.
Qed.
(** The same for plain DLGA with its own operator names. *)
Theorem C69_dlga_equation_reads_back left chrom coefs :
  chrom <> [] -> Forall (good_module 6) chrom -> List.length coefs = List.length chrom -> Forall numeral coefs ->
  exists rhs, dlga_equation left chrom coefs = (left ++ "=" ++ rhs)%string /\
    read_rhs rhs = map (fun p => snd p :: map (fun g => nth g dlga_names "") (fst p)) (combine chrom coefs).
Proof.
  intros N Hc L Hk. assert (combine chrom coefs <> []) as Nc by (destruct chrom, coefs; try discriminate; congruence).
  exists (String.concat "" (pop_last (dlga_tokens chrom coefs []))). split; [reflexivity|].
  unfold pop_last. rewrite (dlga_tokens_eq chrom Hc coefs [] Nc). cbn [String.concat String.append].
  apply (products_read (fun t => joins "+" t)); auto.
  - repeat constructor; discriminate.
  - apply Forall_forall. intros [a b] Hin. split; [apply in_combine_l in Hin|apply in_combine_r in Hin]; [rewrite Forall_forall in Hc; apply Hc|rewrite Forall_forall in Hk; apply Hk]; exact Hin.
Qed.
(** Equations with different terms print differently. *)
Theorem C69_equation_determines_the_terms ops left ch1 k1 ch2 k2 : Forall opname ops -> NoDup ops ->
  ch1 <> [] -> Forall (good_module (List.length ops)) ch1 -> List.length k1 = List.length ch1 -> Forall numeral k1 ->
  ch2 <> [] -> Forall (good_module (List.length ops)) ch2 -> List.length k2 = List.length ch2 -> Forall numeral k2 ->
  kd_equation ops left ch1 k1 = kd_equation ops left ch2 k2 -> ch1 = ch2 /\ k1 = k2.
Proof.
  intros Ho Nd N1 G1 L1 K1 N2 G2 L2 K2 E. destruct (C69_kd_equation_reads_back ops left ch1 k1 Ho N1 G1 L1 K1) as (r1 & E1 & R1).
  destruct (C69_kd_equation_reads_back ops left ch2 k2 Ho N2 G2 L2 K2) as (r2 & E2 & R2). rewrite E1, E2 in E.
  assert (r1 = r2) as <-. { clear -E. induction left as [|a l IH]; cbn in E; [congruence|]. injection E as E. auto. }
  rewrite R1 in R2. clear -R2 G1 G2 L1 L2 Nd. revert k1 ch2 k2 L1 L2 R2 G2. induction G1 as [|m ch1 [_ Hm] G1 IH]; intros k1 ch2 k2 L1 L2 R2 G2.
  - destruct k1; [|discriminate]. cbn in R2. destruct ch2, k2; try discriminate. auto.
  - destruct k1 as [|a k1]; [discriminate|]. destruct ch2 as [|m2 ch2], k2 as [|b k2]; try discriminate. cbn in R2. injection R2 as Ea Em R2.
    apply Forall_cons_iff in G2 as [[_ Hm2] G2]. destruct (IH k1 ch2 k2 ltac:(cbn in L1; lia) ltac:(cbn in L2; lia) R2 G2) as [-> ->]. subst b. split; [|reflexivity]. f_equal.
    clear -Em Hm Hm2 Nd. revert m2 Em Hm2. induction Hm as [|g m Hg Hm IH]; intros m2 Em Hm2; destruct m2 as [|g2 m2]; try discriminate; [reflexivity|].
    cbn in Em. injection Em as Eg Em. apply Forall_cons_iff in Hm2 as [Hg2 Hm2]. f_equal; [|auto]. eapply NoDup_nth; eauto.
Qed.
Example C69_case : kd_equation ["u"; "u_x"; "u_xx"] "u_t" [[0; 1]; [2]; [1]] ["-0.9984"; "0.1"; "-2.0"] = "u_t=-0.9984*u*u_x+0.1*u_xx-2.0*u_x" /\
  read_rhs "-0.9984*u*u_x+0.1*u_xx-2.0*u_x" = [["-0.9984"; "u"; "u_x"]; ["0.1"; "u_xx"]; ["-2.0"; "u_x"]] /\
  dlga_equation "u_t" [[0; 1]; [2]] ["-0.9984"; "-0.1"] = "u_t=-0.9984*u*ux+-0.1*uxx".
Proof. repeat split; vm_compute; reflexivity. Qed.

(** ** C71: the operator library *)
(** If every requested operator exists, gene i stands for operator i, and a module for the
    product of its operators, evaluated point by point. *)
Lemma theta_known avail ops (val : string -> column) : (forall o, In o ops -> avail o = Some (val o)) -> theta avail ops = map val ops.
Proof. induction ops as [|o ops IH]; intros H; [reflexivity|]. cbn. rewrite (H o (or_introl eq_refl)). cbn. f_equal. apply IH. intros x Hx. apply H. right. exact Hx. Qed.
Theorem C71_gene_is_its_operator avail ops val i o : (forall o, In o ops -> avail o = Some (val o)) ->
  nth_error ops i = Some o -> theta_col (theta avail ops) i = Ok (val o).
Proof. intros H E. rewrite (theta_known _ _ val H). unfold theta_col. apply at_some. rewrite nth_error_map, E. reflexivity. Qed.
(** value of a product at point p *)
Fixpoint prod_at (val : string -> column) (p : nat) (ns : list string) : Q :=
  match ns with [] => 1 | s :: ns' => (nth p (val s) 0 * prod_at val p ns')%Q end.
Lemma times_nth a : forall b p, List.length a = List.length b -> (p < List.length a)%nat -> nth p (times a b) 0%Q = (nth p a 0 * nth p b 0)%Q.
Proof.
  induction a as [|x a IH]; intros b p L Hp; [cbn in Hp; lia|]. destruct b as [|y b]; [discriminate|]. destruct p as [|p]; [reflexivity|].
  cbn [times map combine nth]. apply (IH b p); cbn in L, Hp; lia.
Qed.
Lemma times_length a b : List.length a = List.length b -> List.length (times a b) = List.length a.
Proof. intros L. unfold times. rewrite map_length, combine_length. lia. Qed.
Lemma fold_times n (val : string -> column) ns : (forall s, In s ns -> List.length (val s) = n) -> forall acc, List.length acc = n ->
  List.length (fold_left times (map val ns) acc) = n /\ forall p, (p < n)%nat -> (nth p (fold_left times (map val ns) acc) 0 == nth p acc 0 * prod_at val p ns)%Q.
Proof.
  induction ns as [|s ns IH]; intros H acc L; cbn.
  - split; [exact L|]. intros p _. ring.
  - assert (List.length (times acc (val s)) = n) as L' by (rewrite times_length; [exact L|rewrite L; symmetry; apply H; left; reflexivity]).
    destruct (IH (fun x Hx => H x (or_intror Hx)) _ L') as [A B]. split; [exact A|]. intros p Hp. rewrite (B p Hp), times_nth; [ring| |lia].
    rewrite L. symmetry. apply H. left. reflexivity.
Qed.
Lemma nth_repeat1 n p : (p < n)%nat -> nth p (repeat 1%Q n) 0%Q = 1%Q.
Proof. revert p. induction n as [|n IH]; intros p Hp; [lia|]. destruct p; [reflexivity|]. cbn. apply IH. lia. Qed.
Theorem C71_columns_are_the_named_products n avail ops val chrom :
  (forall o, In o ops -> avail o = Some (val o) /\ List.length (val o) = n) -> Forall (good_module (List.length ops)) chrom ->
  exists cols, translate n (theta avail ops) chrom = Ok cols /\ List.length cols = List.length chrom /\
    forall i m c, nth_error chrom i = Some m -> nth_error cols i = Some c ->
      List.length c = n /\ forall p, (p < n)%nat -> (nth p c 0 == prod_at val p (map (fun g => nth g ops "") m))%Q.
Proof.
  intros H G. assert (forall m, good_module (List.length ops) m -> exists c, translate_module n (theta avail ops) m = Ok c /\ c = fold_left times (map val (map (fun g => nth g ops "") m)) (repeat 1%Q n)) as T.
  { intros m [_ Hm]. unfold translate_module. assert (mapM (theta_col (theta avail ops)) m = Ok (map val (map (fun g => nth g ops "") m))) as ->; [|eexists; split; reflexivity].
    clear G. induction Hm as [|g m Hg Hm IH]; [reflexivity|]. cbn. destruct (nth_error ops g) as [o|] eqn:E; [|apply nth_error_None in E; lia].
    rewrite (C71_gene_is_its_operator avail ops val g o (fun o Ho => proj1 (H o Ho)) E). cbn. rewrite IH. cbn. rewrite (nth_error_nth _ _ "" E). reflexivity. }
  destruct (mapM_ok (translate_module n (theta avail ops)) chrom) as (cols & E).
  { intros m Hm. rewrite Forall_forall in G. destruct (T m (G m Hm)) as (c & Ec & _). eauto. }
  exists cols. split; [exact E|]. split; [apply (mapM_length _ _ _ E)|]. intros i m c Em Ec.
  destruct (mapM_nth _ _ _ _ _ E Em) as (c' & Ec' & Ef). assert (c' = c) as -> by congruence.
  assert (In m chrom) as Hm by (eapply nth_error_In; exact Em). rewrite Forall_forall in G. destruct (G m Hm) as [Gm1 Gm2]. destruct (T m (conj Gm1 Gm2)) as (c2 & Ec2 & ->).
  assert (c = fold_left times (map val (map (fun g => nth g ops "") m)) (repeat 1%Q n)) as -> by congruence.
  destruct (fold_times n val (map (fun g => nth g ops "") m)) with (acc := repeat 1%Q n) as [A B].
  { intros s Hs. apply in_map_iff in Hs as (g & <- & Hg). rewrite Forall_forall in Gm2. apply H. apply nth_In. apply Gm2. exact Hg. }
  { apply repeat_length. }
  split; [exact A|]. intros p Hp. rewrite (B p Hp), (nth_repeat1 n p Hp). ring.
Qed.
(** An operator name that does not exist is dropped from the columns but still counted and
    still used for printing: genes then print as another operator than the one that was
    fitted, or have no column. *)
Theorem C71_unknown_operator_shifts_names_refuted : exists avail ops, theta_col (theta avail ops) 0 = Ok [7%Q] /\ avail "u_x" = Some [7%Q] /\
  nth_error ops 0 = Some "u_y" /\ kd_equation ops "u_t" [[0%nat]] ["1.0"] = "u_t=1.0*u_y" /\
  library_size ops = 2 /\ translate 1 (theta avail ops) [[1%nat]] = Err IndexError.
Proof.
  exists (fun s => if String.eqb s "u_x" then Some [7%Q] else None), ["u_y"; "u_x"]. repeat split.
Qed.
(** In general: the columns are those of the known operators, in order, so every gene past
    the number of known operators fails. *)
Theorem C71_genes_past_the_known_operators_fail avail ops n m : (exists g, In g m /\ (List.length (filter (fun o => match avail o with Some _ => true | None => false end) ops) <= g)%nat) ->
  translate_module n (theta avail ops) m = Err IndexError.
Proof.
  intros (g & Hg & L). assert (List.length (theta avail ops) <= g)%nat as L'.
  { etransitivity; [|exact L]. clear. unfold theta. induction ops as [|o ops IH]; [cbn; lia|]. cbn. destruct (avail o); cbn; lia. }
  unfold translate_module. assert (mapM (theta_col (theta avail ops)) m = Err IndexError) as ->; [|reflexivity].
  induction m as [|x m IH]; [destruct Hg|]. cbn. destruct (Nat.lt_ge_cases x (List.length (theta avail ops))) as [Hx|Hx].
  - destruct (at_ok _ _ Hx) as (c & Ec & _). unfold theta_col at 1. rewrite Ec. cbn. rewrite IH; [reflexivity|]. destruct Hg as [->|Hg]; [lia|exact Hg].
  - unfold theta_col at 1. rewrite (at_err _ _ Hx). reflexivity.
Qed.
Example C71_case : translate 2 (theta (fun s => if String.eqb s "u" then Some [2; 3]%Q else if String.eqb s "u_x" then Some [5; 7]%Q else None) ["u"; "u_x"]) [[0; 1; 1]; [0]]%nat
  = Ok [[50; 147]; [2; 3]]%Q.
Proof. vm_compute. reflexivity. Qed.
Example C71_past_case : translate_module 2 (theta (fun s => if String.eqb s "u" then Some [2; 3]%Q else None) ["u"; "v"]) [0; 1]%nat = Err IndexError.
Proof. apply C71_genes_past_the_known_operators_fail. exists 1%nat. split; [right; left; reflexivity|cbn; lia]. Qed.

(** ** C70: the LaTeX form *)
(** The value of the coefficient shown: sign and four decimals, 1 if it is left out. *)
Definition shown_value (t : shown) : Q :=
  ((if neg t then -1 else 1) * (match mag t with None => 1 | Some z => inject_Z z / 10000 end))%Q.
(** The factors shown, powers written out. *)
Definition shown_factors (t : shown) : list string := flat_map (fun p => repeat (fst p) (snd p)) (base t).

Lemma round_half_even_err q : (Qabs (inject_Z (round_half_even q) - q) <= 1 # 2)%Q.
Proof.
  unfold round_half_even. pose proof (Qfloor_le q) as H1. pose proof (Qlt_floor q) as H2. rewrite inject_Z_plus in H2. set (f := Qfloor q) in *.
  destruct (Qcompare_spec (q - inject_Z f) (1 # 2)) as [E|E|E]; apply Qabs_Qle_condition.
  - destruct (Z.even f); [split; lra|]. rewrite inject_Z_plus. change (inject_Z 1) with 1%Q in *. split; lra.
  - split; lra.
  - rewrite inject_Z_plus. change (inject_Z 1) with 1%Q in *. split; lra.
Qed.
Lemma fmt4_err q : (Qabs (inject_Z (fmt4 q) / 10000 - q) <= 5 # 100000)%Q.
Proof.
  pose proof (round_half_even_err (q * 10000)) as H. fold (fmt4 q) in H. apply Qabs_Qle_condition in H as [H1 H2]. apply Qabs_Qle_condition.
  assert (inject_Z (fmt4 q) / 10000 == inject_Z (fmt4 q) * (1 # 10000))%Q as -> by (field).
  split; lra.
Qed.
Lemma format_value c b : (Qabs (shown_value (format_term c b) - c) <= 5 # 100000)%Q.
Proof.
  unfold shown_value, format_term. cbn [neg mag]. unfold close0, close1, Qtol. destruct (Qle_bool (Qabs c) (1 # 100000000)) eqn:E0.
  - apply Qle_bool_iff in E0. cbn [negb andb]. destruct (Qle_bool (Qabs (Qabs c - 1)) ((1 # 100000000) + (1 # 100000))) eqn:E1.
    + apply Qle_bool_iff in E1. apply Qabs_Qle_condition in E1, E0. exfalso. pose proof (Qle_Qabs c). assert (Qabs c <= 1 # 100000000)%Q by (apply Qabs_Qle_condition; exact E0). lra.
    + apply Qabs_Qle_condition in E0. apply Qabs_Qle_condition. assert (inject_Z 0 / 10000 == 0)%Q as -> by reflexivity. split; lra.
  - cbn [negb andb]. destruct (Qle_bool 0 c) eqn:Ep; cbn [negb].
    + apply Qle_bool_iff in Ep. destruct (Qle_bool (Qabs (Qabs c - 1)) ((1 # 100000000) + (1 # 100000))) eqn:E1.
      * apply Qle_bool_iff in E1. rewrite (Qabs_pos c Ep) in E1. apply Qabs_Qle_condition in E1. apply Qabs_Qle_condition. split; lra.
      * pose proof (fmt4_err (Qabs c)) as H. rewrite (Qabs_pos c Ep) in H at 2. apply Qabs_Qle_condition in H. apply Qabs_Qle_condition. split; lra.
    + assert (c < 0)%Q as Hn by (apply Qnot_le_lt; intros H; apply Qle_bool_iff in H; congruence).
      assert (Qabs c == - c)%Q as Ea by (apply Qabs_neg; lra). destruct (Qle_bool (Qabs (Qabs c - 1)) ((1 # 100000000) + (1 # 100000))) eqn:E1.
      * apply Qle_bool_iff in E1. apply Qabs_Qle_condition in E1. apply Qabs_Qle_condition. split; lra.
      * pose proof (fmt4_err (Qabs c)) as H. apply Qabs_Qle_condition in H. apply Qabs_Qle_condition. split; lra.
Qed.
Lemma occurrences_count g m : occurrences g m = count_occ Nat.eq_dec m g.
Proof. induction m as [|x m IH]; [reflexivity|]. cbn. rewrite IH. destruct (Nat.eqb_spec x g) as [->|N]; destruct (Nat.eq_dec _ _); try congruence; lia. Qed.
Lemma uniq_In l x : In x (uniq l) <-> In x l.
Proof.
  induction l as [|y l IH]; [tauto|]. cbn [uniq]. destruct l as [|z l']; [tauto|]. destruct (Nat.eqb_spec y z) as [->|N].
  - rewrite IH. split; [intros H; right; exact H|]. intros [<-|H]; [left; reflexivity|exact H].
  - cbn [In] in *. rewrite IH. tauto.
Qed.
Lemma uniq_NoDup l : StronglySorted le l -> NoDup (uniq l).
Proof.
  induction 1 as [|y l Hs IH Hy]; [constructor|]. cbn [uniq]. destruct l as [|z l']; [repeat constructor; auto|]. destruct (Nat.eqb_spec y z) as [->|N]; [exact IH|].
  constructor; [|exact IH]. rewrite uniq_In. intros Hin. apply Forall_cons_iff in Hy as [Hz _]. apply StronglySorted_inv in Hs as [_ Hs].
  destruct Hin as [->|Hin]; [congruence|]. rewrite Forall_forall in Hs. specialize (Hs y Hin). lia.
Qed.
Lemma count_repeat (x y : nat) n : count_occ Nat.eq_dec (repeat x n) y = if Nat.eq_dec x y then n else 0.
Proof. induction n as [|n IH]; cbn; [destruct (Nat.eq_dec x y); reflexivity|]. destruct (Nat.eq_dec x y) as [->|]; rewrite IH; [destruct (Nat.eq_dec y y)|destruct (Nat.eq_dec x y)]; congruence. Qed.
Lemma keys_expand m : Permutation (flat_map (fun g => repeat g (occurrences g m)) (keys m)) m.
Proof.
  apply (Permutation_count_occ Nat.eq_dec). intros x. rewrite <- (occurrences_count x m).
  assert (forall ks, NoDup ks -> count_occ Nat.eq_dec (flat_map (fun g => repeat g (occurrences g m)) ks) x = if in_dec Nat.eq_dec x ks then occurrences x m else 0) as H.
  { induction 1 as [|k ks Hk Hks IH]; [reflexivity|]. cbn [flat_map]. rewrite count_occ_app, count_repeat, IH.
    destruct (Nat.eq_dec k x) as [->|N].
    - destruct (in_dec Nat.eq_dec x ks); [contradiction|]. destruct (in_dec Nat.eq_dec x (x :: ks)) as [|N]; [lia|]. exfalso. apply N. left. reflexivity.
    - destruct (in_dec Nat.eq_dec x ks) as [Hi|Hi], (in_dec Nat.eq_dec x (k :: ks)) as [Hj|Hj]; try reflexivity.
      + exfalso. apply Hj. right. exact Hi.
      + exfalso. destruct Hj as [->|Hj]; [congruence|contradiction]. }
  rewrite (H (keys m) (uniq_NoDup _ (sorted_sorted m))). destruct (in_dec Nat.eq_dec x (keys m)) as [Hi|Hi]; [reflexivity|].
  symmetry. rewrite occurrences_count. apply count_occ_not_In. intros Hx. apply Hi. unfold keys. apply uniq_In. apply Permutation_in with m; [apply Permutation_sym, sorted_perm|exact Hx].
Qed.
Lemma shown_factors_eq names c m : Forall (fun g => (g < List.length names)%nat) m ->
  Permutation (shown_factors (format_term c (base_parts names m))) (map (fun g => style (nth g names "")) m).
Proof.
  intros H. unfold shown_factors, base_parts. cbn [base format_term].
  assert (flat_map (fun p : string * nat => repeat (fst p) (snd p)) (map (fun g => (match nth_error names g with Some s => style s | None => "?" end, occurrences g m)) (keys m))
    = map (fun g => style (nth g names "")) (flat_map (fun g => repeat g (occurrences g m)) (keys m))) as ->.
  { assert (Forall (fun g => (g < List.length names)%nat) (keys m)) as Hk.
    { apply Forall_forall. intros g Hg. unfold keys in Hg. apply (proj1 (uniq_In _ _)) in Hg. apply Permutation_in with (l' := m) in Hg; [|apply sorted_perm]. rewrite Forall_forall in H. apply H. exact Hg. }
    induction Hk as [|g ks Hg Hks IH]; [reflexivity|]. cbn [map flat_map fst snd]. rewrite IH, map_app. f_equal.
    destruct (nth_error names g) as [s|] eqn:E; [|apply nth_error_None in E; lia]. pose proof (nth_error_nth _ _ "" E) as Es. cbn [fst snd]. generalize (occurrences g m). intros n. induction n as [|n IHn]; cbn; [reflexivity|]. rewrite Es, IHn. reflexivity. }
  apply Permutation_map. apply keys_expand.
Qed.

(** Names of the operators as KD_DLGA knows them, in the order of DLGA's own list, and how
    each is written in LaTeX. *)
Definition standard_ops : list string := ["u"; "u_x"; "u_xx"; "u_xxx"; "u_t"; "u_tt"].
Definition latex_of (o : string) : string :=
  match o with "u_xx" => "u_{xx}" | "u_xxx" => "u_{xxx}" | "u_tt" => "u_{tt}" | _ => o end.
(** One term per module, in order; the coefficient shown differs from the fitted one by at
    most 0.00005 (so its sign is right whenever that matters); the factors shown are exactly
    the operators of the module, if the operators are the first ones of the standard list. *)
Theorem C70_latex_shows_the_equation k lhs chrom coefs : let ops := firstn k standard_ops in
  List.length coefs = List.length chrom -> Forall (good_module (List.length ops)) chrom ->
  let r := snd (dlga_eq2latex (Some ops) lhs chrom coefs) in
  List.length r = List.length chrom /\
  forall i t m c, nth_error r i = Some t -> nth_error chrom i = Some m -> nth_error coefs i = Some c ->
    (Qabs (shown_value t - c) <= 5 # 100000)%Q /\ Permutation (shown_factors t) (map (fun g => latex_of (nth g ops "")) m).
Proof.
  intros ops L G r. unfold r, dlga_eq2latex, chromosome_to_latex, latex_terms. cbn [snd]. split; [rewrite map_length, combine_length; lia|].
  intros i t m c Et Em Ec. rewrite nth_error_map in Et.
  assert (nth_error (combine chrom coefs) i = Some (m, c)) as E.
  { clear -Em Ec. revert i coefs Em Ec. induction chrom as [|x ch IH]; intros [|i] [|y ks] Em Ec; cbn in *; try discriminate; [congruence|]. apply IH; assumption. }
  rewrite E in Et. cbn in Et. injection Et as <-. split; [apply format_value|].
  rewrite Forall_forall in G. destruct (G m (nth_error_In _ _ Em)) as [_ Gm].
  assert (Forall (fun g => (g < List.length dlga_names)%nat) m) as Gm'.
  { eapply Forall_impl; [|exact Gm]. intros g Hg. unfold ops in Hg. rewrite firstn_length in Hg. cbn in Hg |- *. lia. }
  rewrite (shown_factors_eq dlga_names c m Gm'). erewrite map_ext_in; [reflexivity|]. intros g Hg. rewrite Forall_forall in Gm. specialize (Gm g Hg). unfold ops in *.
  clear -Gm. destruct k as [|[|[|[|[|[|k]]]]]]; cbn in Gm; try lia;
    do 6 (destruct g as [|g]; [try reflexivity; cbn in Gm; lia|]); cbn in Gm; try lia; rewrite firstn_nil in Gm; cbn in Gm; lia.
Qed.
(** With other operators the names shown are not those of the equation: the list passed as
    operator_names is not used.  Here the equation u_t = u_x is shown as u_t = u. *)
Theorem C70_operator_names_are_ignored_refuted : exists ops chrom coefs,
  kd_equation ops "u_t" chrom ["1.0"] = "u_t=1.0*u_x" /\ dlga_eq2latex (Some ops) "u_t" chrom coefs = ("u_t", [mkShown false None [("u", 1%nat)]]).
Proof. exists ["u_x"; "u_xx"], [[0%nat]], [1%Q]. split; vm_compute; reflexivity. Qed.
Theorem C70_operator_names_have_no_effect o1 o2 lhs chrom coefs : dlga_eq2latex o1 lhs chrom coefs = dlga_eq2latex o2 lhs chrom coefs.
Proof. reflexivity. Qed.
(** The left side u_tt is shown as "u_tt", which LaTeX typesets as u_t followed by t. *)
Theorem C70_second_order_left_side_refuted chrom coefs ops : fst (dlga_eq2latex ops "u_tt" chrom coefs) = "u_tt" /\ latex_of "u_tt" = "u_{tt}".
Proof. split; reflexivity. Qed.
Example C70_case : dlga_eq2latex (Some (firstn 3 standard_ops)) "u_t" [[1; 0; 1]; [2]]%nat [-(9984 # 10000); 1 # 3]%Q =
  ("u_t", [mkShown true (Some 9984%Z) [("u", 1%nat); ("u_x", 2%nat)]; mkShown false (Some 3333%Z) [("u_{xx}", 1%nat)]]).
Proof. vm_compute. reflexivity. Qed.

(** ** C72: training data *)
(** A shuffle of n positions. *)
Definition shuffles (perm : nat -> list nat) : Prop := forall n, Permutation (perm n) (seq 0 n).
Lemma gather_seq {A} (l : list A) : flat_map (fun i => match nth_error l i with Some x => [x] | None => [] end) (seq 0 (List.length l)) = l.
Proof.
  induction l as [|x l IH]; [reflexivity|]. cbn [List.length seq flat_map nth_error app]. f_equal. rewrite <- seq_shift. etransitivity; [|exact IH].
  clear. induction (seq 0 (List.length l)) as [|i is IH]; [reflexivity|]. cbn [map flat_map nth_error]. rewrite IH. reflexivity.
Qed.
Lemma rearrange_perm {A} perm (l : list A) : shuffles perm -> Permutation (rearrange perm l) l.
Proof. intros H. unfold rearrange. etransitivity; [apply Permutation_flat_map; apply H|]. rewrite gather_seq. reflexivity. Qed.
Lemma nth_combine {A B} (X : list A) : forall (y : list B) i, nth_error (combine X y) i = match nth_error X i, nth_error y i with Some a, Some b => Some (a, b) | _, _ => None end.
Proof. induction X as [|a X IH]; intros [|b y] [|i]; cbn; try reflexivity; [destruct (nth_error X i); reflexivity|apply IH]. Qed.
Lemma rearrange_combine {A B} perm (X : list A) (y : list B) : List.length X = List.length y -> combine (rearrange perm X) (rearrange perm y) = rearrange perm (combine X y).
Proof.
  intros L. unfold rearrange. rewrite combine_length, <- L, Nat.min_id. induction (perm (List.length X)) as [|i is IH]; [reflexivity|].
  cbn [flat_map]. rewrite nth_combine. destruct (nth_error X i) as [a|] eqn:Ea; destruct (nth_error y i) as [b|] eqn:Eb; cbn [app combine]; rewrite ?IH; try reflexivity.
  - apply nth_error_None in Eb. assert (nth_error X i <> None) as N by congruence. apply nth_error_Some in N. lia.
  - apply nth_error_None in Ea. assert (nth_error y i <> None) as N by congruence. apply nth_error_Some in N. lia.
Qed.
Lemma skipn_add {A} k j : forall (l : list A), skipn j (skipn k l) = skipn (k + j) l.
Proof. induction k as [|k IH]; intros [|x l]; cbn; try reflexivity; [apply skipn_nil|apply IH]. Qed.
Lemma combine_firstn_both {A B} n : forall (X : list A) (y : list B), combine (firstn n X) (firstn n y) = firstn n (combine X y).
Proof. induction n as [|n IH]; intros [|a X] [|b y]; cbn; try reflexivity. f_equal. apply IH. Qed.
Lemma combine_skipn_both {A B} n : forall (X : list A) (y : list B), List.length X = List.length y -> combine (skipn n X) (skipn n y) = skipn n (combine X y).
Proof. induction n as [|n IH]; intros [|a X] [|b y] L; cbn in *; try reflexivity; try discriminate. apply IH. lia. Qed.
Lemma combine_slice {A B} a b (X : list A) (y : list B) : List.length X = List.length y -> combine (slice a b X) (slice a b y) = slice a b (combine X y).
Proof. intros L. unfold slice. rewrite combine_firstn_both, combine_skipn_both by exact L. reflexivity. Qed.
(** Every training and validation pair is one of the given pairs, none is used twice, and no
    validation pair is a training pair: together with the unused ones they are the data. *)
Theorem C72_split_is_a_partition_of_the_pairs {A B} perm rt rv (X : list A) (y : list B) : shuffles perm -> List.length X = List.length y ->
  let s := split_data perm rt rv X y in
  List.length (x_train s) = List.length (y_train s) /\ List.length (x_valid s) = List.length (y_valid s) /\
  exists unused, Permutation (combine (x_train s) (y_train s) ++ combine (x_valid s) (y_valid s) ++ unused) (combine X y).
Proof.
  intros HP L s. assert (List.length (rearrange perm X) = List.length (rearrange perm y)) as L'.
  { rewrite (Permutation_length (rearrange_perm perm X HP)), (Permutation_length (rearrange_perm perm y HP)). exact L. }
  unfold s, split_data. cbn [x_train y_train x_valid y_valid]. set (k := cut _ rt). set (j := cut _ rv).
  split; [unfold slice; rewrite !firstn_length, !skipn_length, L'; reflexivity|]. split; [unfold slice; rewrite !firstn_length, !skipn_length, L'; reflexivity|].
  rewrite !combine_slice, rearrange_combine by assumption. set (D := rearrange perm (combine X y)).
  exists (skipn (k + j) D). unfold slice. rewrite Nat.sub_0_r. cbn [skipn]. replace (k + j - k)%nat with j by lia.
  assert (firstn k D ++ firstn j (skipn k D) ++ skipn (k + j) D = D) as ->.
  { replace (skipn (k + j) D) with (skipn j (skipn k D)) by apply skipn_add. rewrite firstn_skipn, firstn_skipn. reflexivity. }
  apply rearrange_perm. exact HP.
Qed.
(** Training on a sample leaves the data set as it was. *)
Theorem C72_sampled_fit_keeps_the_data_set {B} perm contiguous idx (usol : list B) : snd (fit_dataset_usol perm contiguous (Some idx) usol) = usol.
Proof. reflexivity. Qed.
(** Training on the full grid scrambles the data set's own values: they are the shuffled
    training targets afterwards, so value i is no longer at grid point i. *)
Theorem C72_full_fit_shuffles_the_data_set {B} perm (usol : list B) : shuffles perm ->
  snd (fit_dataset_usol perm true None usol) = fst (fit_dataset_usol perm true None usol) /\ Permutation (snd (fit_dataset_usol perm true None usol)) usol.
Proof. intros H. split; [reflexivity|]. apply rearrange_perm. exact H. Qed.
Theorem C72_full_fit_keeps_the_data_set_refuted : exists perm (usol : list nat), shuffles perm /\ snd (fit_dataset_usol perm true None usol) <> usol.
Proof.
  exists (fun n => rev (seq 0 n)), [1; 2; 3]%nat. split; [intros n; apply Permutation_sym, Permutation_rev|]. vm_compute. discriminate.
Qed.
(** A second fit on the same data set then trains on wrong pairs: the coordinates are those
    of the grid, the values the shuffled ones. *)
Theorem C72_second_fit_trains_on_wrong_pairs_refuted : exists perm rt (grid : list nat) (u : nat -> nat), shuffles perm /\
  let usol := map u grid in
  let after := snd (fit_dataset_usol perm true None usol) in
  let s := split_data perm rt (1 - rt) grid after in
  exists p, In p (combine (x_train s) (y_train s)) /\ snd p <> u (fst p).
Proof.
  exists (fun n => rev (seq 0 n)), (1 # 2)%Q, [0; 1; 2; 3]%nat, (fun x => x * 10)%nat. split; [intros n; apply Permutation_sym, Permutation_rev|].
  exists (3, 0)%nat. split; [left; vm_compute; reflexivity|]. cbn. lia.
Qed.
Example C72_case : split_data (fun n => rev (seq 0 n)) (1 # 2) (1 # 4) [1; 2; 3; 4]%nat [10; 20; 30; 40]%nat = mkSplit [4; 3]%nat [40; 30]%nat [2]%nat [20]%nat.
Proof. vm_compute. reflexivity. Qed.

(** ** C73: checkpoints *)
Section Checkpoints.
Context {W : Type}.
Implicit Types (verr : W -> num) (w : nat -> W).
Lemma train_loop_spec verr w every k : (0 < every)%nat -> forall i errs files,
  let '(errs', files') := train_loop verr w every k i errs files in
  errs' = errs ++ map (fun e => verr (w (e * every - 1)%nat)) (seq (i / every + 1) ((i + k) / every - i / every)) /\
  (forall e, (i / every < e <= (i + k) / every)%nat -> load files' (e * every) = Ok (w (e * every)%nat)).
Proof.
  intros Hev. induction k as [|k IH]; intros i errs files; cbn [train_loop].
  - rewrite Nat.add_0_r, Nat.sub_diag. cbn. rewrite app_nil_r. split; [reflexivity|]. intros e He. lia.
  - pose proof (Nat.div_mod (Datatypes.S i) every ltac:(lia)) as D. pose proof (Nat.mod_upper_bound (Datatypes.S i) every ltac:(lia)) as U.
    pose proof (Nat.div_mod i every ltac:(lia)) as D0. pose proof (Nat.mod_upper_bound i every ltac:(lia)) as U0.
    destruct (Nat.eqb_spec (Datatypes.S i mod every) 0) as [E|E].
    + assert (Datatypes.S i / every = i / every + 1)%nat as Eq by nia. assert (Datatypes.S i = (i / every + 1) * every)%nat as Ei by nia.
      specialize (IH (Datatypes.S i) (errs ++ [verr (w i)]) ((Datatypes.S i, w (Datatypes.S i)) :: files)).
      assert (i / every + 1 <= (Datatypes.S i + k) / every)%nat as Hge by (rewrite <- Eq; apply Nat.div_le_mono; lia).
      destruct (train_loop verr w every k (Datatypes.S i) _ _) as [errs' files'] eqn:Et. destruct IH as [IH1 IH2]. rewrite Eq in IH1, IH2.
      replace (i + Datatypes.S k)%nat with (Datatypes.S i + k)%nat by lia. split.
      * rewrite IH1, <- app_assoc. f_equal. replace ((Datatypes.S i + k) / every - i / every)%nat with (Datatypes.S ((Datatypes.S i + k) / every - (i / every + 1)))%nat by lia.
        cbn [seq map app]. f_equal; [do 2 f_equal; lia|]. do 2 f_equal. lia.
      * intros e He. destruct (Nat.eq_dec e (i / every + 1)) as [->|Ne]; [|apply IH2; lia].
        (* the file written now is not overwritten *)
        rewrite <- Ei. clear -Et. assert (forall k j errs files, (Datatypes.S i <= j)%nat -> load files (Datatypes.S i) = Ok (w (Datatypes.S i)) -> load (snd (train_loop verr w every k j errs files)) (Datatypes.S i) = Ok (w (Datatypes.S i))) as G.
        { clear. induction k as [|k IH]; intros j errs files Hj Hl; cbn [train_loop]; [exact Hl|]. destruct (Nat.eqb _ 0).
          - apply IH; [lia|]. cbn [load]. destruct (Nat.eqb_spec (Datatypes.S j) (Datatypes.S i)) as [Eq|]; [lia|exact Hl].
          - apply IH; [lia|exact Hl]. }
        specialize (G k (Datatypes.S i) (errs ++ [verr (w i)]) ((Datatypes.S i, w (Datatypes.S i)) :: files) (Nat.le_refl _)). rewrite Et in G. apply G.
        cbn [load]. rewrite Nat.eqb_refl. reflexivity.
    + assert (Datatypes.S i / every = i / every)%nat as Eq by nia. specialize (IH (Datatypes.S i) errs files). destruct (train_loop _ _ _ _ _ _ _) as [errs' files'].
      rewrite Eq in IH. replace (i + Datatypes.S k)%nat with (Datatypes.S i + k)%nat by lia. exact IH.
Qed.
(** Whatever the checkpoint directory held, training gives a checkpoint number whose file
    holds the weights of that step of this run.  With fewer steps than the interval it is the
    last step; otherwise it is a checkpoint, and the validation error recorded for it, which
    is that of the weights one step earlier, is the smallest recorded. *)
Theorem C73_loaded_weights_are_of_this_run verr w every max_iter old : (0 < every)%nat -> (forall i, is_nan (verr (w i)) = false) ->
  exists e files, train_NN verr w every max_iter old = Ok (e, files) /\ load files e = Ok (w e) /\ (e <= max_iter)%nat /\
    ((max_iter < every)%nat -> e = max_iter) /\
    ((every <= max_iter)%nat -> exists n, (0 < n)%nat /\ e = (n * every)%nat /\
       forall n', (0 < n')%nat -> (n' * every <= max_iter)%nat -> nle (verr (w (e - 1)%nat)) (verr (w (n' * every - 1)%nat)) = true).
Proof.
  intros Hev Hn. unfold train_NN. pose proof (train_loop_spec verr w every max_iter Hev 0 [] old) as H.
  destruct (train_loop verr w every max_iter 0 [] old) as [errs files]. rewrite Nat.div_0_l in H by lia. cbn [Nat.add app] in H. rewrite Nat.sub_0_r in H. destruct H as [He Hf].
  destruct (Nat.lt_ge_cases max_iter every) as [Hlt|Hge].
  - rewrite Nat.div_small in He by exact Hlt. cbn in He. subst errs. exists max_iter, ((max_iter, w max_iter) :: files). cbn [load]. rewrite Nat.eqb_refl. repeat split; auto; lia.
  - assert (1 <= max_iter / every)%nat as Hq by (apply Nat.div_le_lower_bound; lia).
    assert (Forall (fun a => is_nan a = false) errs) as Hnn by (rewrite He; apply Forall_map, Forall_forall; intros; apply Hn).
    assert (errs <> []) as Ne by (rewrite He; destruct (max_iter / every)%nat; [lia|discriminate]).
    destruct (pymin_spec errs Hnn Ne) as (m & Em & Hin & Hmn & Hm). destruct errs as [|x0 errs0] eqn:Ee; [congruence|]. rewrite <- Ee in *. unfold first_min. rewrite Em. cbn [bind].
    destruct (index_spec errs m) as (i & y & Ei & Hy & Heq); [exact Hmn|exact Hin|]. rewrite Ei. cbn [bind].
    assert (i < max_iter / every)%nat as Hi.
    { assert (nth_error errs i <> None) as Nn by congruence. apply nth_error_Some in Nn. rewrite He, map_length, seq_length in Nn. exact Nn. }
    exists ((i + 1) * every)%nat, files. split; [reflexivity|]. split; [apply Hf; lia|]. pose proof (Nat.mul_div_le max_iter every ltac:(lia)) as MD.
    split; [nia|]. split; [lia|]. intros _. exists (i + 1)%nat. split; [lia|]. split; [reflexivity|]. intros n' Hn' Hle.
    assert (y = verr (w ((i + 1) * every - 1)%nat)) as <-.
    { rewrite He in Hy. rewrite nth_error_map in Hy. destruct (nth_error (seq 1 (max_iter / every)) i) as [v|] eqn:Ev; [|discriminate]. cbn in Hy. injection Hy as <-.
      assert (v = i + 1)%nat as ->; [|reflexivity]. rewrite <- seq_shift in Ev. rewrite nth_error_map in Ev. destruct (nth_error (seq 0 (max_iter / every)) i) as [v'|] eqn:Ev'; [|discriminate]. cbn in Ev. injection Ev as <-.
      apply seq_nth_error in Ev'. lia. }
    apply nle_trans with m; [apply Heq|]. assert (In (verr (w (n' * every - 1)%nat)) errs) as Hine.
    { rewrite He. apply (in_map (fun e => verr (w (e * every - 1)%nat))). apply in_seq. assert (n' <= max_iter / every)%nat by (apply Nat.div_le_lower_bound; lia). lia. }
    apply Hm. exact Hine.
Qed.
End Checkpoints.
(** The weights chosen need not be those with the smallest validation error among the saved
    ones: the error compared is that before the last step. *)
Theorem C73_chosen_weights_have_the_smallest_error_refuted : exists (verr : nat -> num) w every max_iter e files e',
  train_NN verr w every max_iter [] = Ok (e, files) /\ load files e' = Ok (w e') /\ nlt (verr (w e')) (verr (w e)) = true.
Proof.
  exists (fun k => nth k [Fin 9; Fin 1; Fin 8; Fin 2; Fin 3] NaN), (fun i => i), 2%nat, 4%nat, 2%nat, [(4, 4); (2, 2)]%nat, 4%nat. repeat split; vm_compute; reflexivity.
Qed.
Example C73_case : train_NN (fun k : nat => nth k [Fin 9; Fin 5; Fin 4; Fin 2; Fin 1] NaN) (fun i => i) 2 4 [(4, 77)]%nat = Ok (4, [(4, 4); (2, 2); (4, 77)])%nat.
Proof. vm_compute. reflexivity. Qed.
Print Assumptions C69_kd_equation_reads_back.
Print Assumptions C69_dlga_equation_reads_back.
Print Assumptions C69_equation_determines_the_terms.
Print Assumptions C71_gene_is_its_operator.
Print Assumptions C71_columns_are_the_named_products.
Print Assumptions C71_unknown_operator_shifts_names_refuted.
Print Assumptions C71_genes_past_the_known_operators_fail.
Print Assumptions C70_latex_shows_the_equation.
Print Assumptions C70_operator_names_are_ignored_refuted.
Print Assumptions C70_operator_names_have_no_effect.
Print Assumptions C70_second_order_left_side_refuted.
Print Assumptions C72_split_is_a_partition_of_the_pairs.
Print Assumptions C72_sampled_fit_keeps_the_data_set.
Print Assumptions C72_full_fit_shuffles_the_data_set.
Print Assumptions C72_full_fit_keeps_the_data_set_refuted.
Print Assumptions C72_second_fit_trains_on_wrong_pairs_refuted.
Print Assumptions C73_loaded_weights_are_of_this_run.
Print Assumptions C73_chosen_weights_have_the_smallest_error_refuted.
Print Assumptions C69_own_coefficients.
