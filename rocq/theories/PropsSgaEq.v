(** Properties of the equation reported by SGA: C37, C74, C75. *)
From Coq Require Import QArith Qabs Ascii Lqa.
From Verif Require Import Base Trees SgaTree SgaSpec SgaTreeFacts SgaGenFacts SgaNames SgaEval SgaEvalFacts SgaLocated PropsSga SgaEq SgaEqSpec SgaEqFacts.
Local Open Scope string_scope.

(** *** C37 *)
Section C37.
Context {T : Type}.
Variables (dec : nat -> string) (inorder : T -> string).
Definition row (x : string * option T * Q) : eqterm T := let '(l, t, c) := x in mkTerm l (match t with None => true | Some _ => false end) c t.
(** coefficients of at least the tolerance *)
Definition shown (tol : Q) (x : string * option T * Q) : bool := Qle_bool tol (Qabs (snd x)).
Lemma default_eq tl names : forall coefs, (List.length names <= List.length coefs)%nat -> 
  flat_map (fun i => let c := nth i coefs 0%Q in
    if below tl c then [] else [mkTerm (match nth_error names i with Some s => s | None => "default_" ++ dec i end) true c (@None T)]) (seq 0 (List.length names))
  = map row (filter (shown tl) (combine (map (fun n => (n, None)) names) coefs)).
Proof.
  intros coefs Hl.
  assert (forall pre (cpre : list Q), List.length pre = List.length cpre -> forall names coefs, (List.length names <= List.length coefs)%nat ->
    flat_map (fun i => let c := nth i (cpre ++ coefs)%list 0%Q in
      if below tl c then [] else [mkTerm (match nth_error (pre ++ names)%list i with Some s => s | None => "default_" ++ dec i end) true c (@None T)]) (seq (List.length pre) (List.length names))
    = map row (filter (shown tl) (combine (map (fun n => (n, None)) names) coefs))) as G.
  { intros pre cpre E ns. revert pre cpre E. induction ns as [|n ns IH]; intros pre cpre E cs H; [reflexivity|]. destruct cs as [|c0 cs]; [cbn in H; lia|]. cbn [List.length] in H.
    cbn [List.length seq flat_map map combine filter]. unfold shown at 1. cbn [snd]. unfold below at 1. rewrite E at 1. rewrite (app_nth2 cpre (c0 :: cs)) by lia. rewrite Nat.sub_diag. cbn [nth].
    rewrite (nth_error_app2 pre (n :: ns)) by lia. rewrite Nat.sub_diag. cbn [nth_error].
    specialize (IH (pre ++ [n])%list (cpre ++ [c0])%list ltac:(rewrite !app_length; cbn; lia) cs ltac:(lia)).
    rewrite app_length in IH. cbn [List.length] in IH. rewrite Nat.add_1_r in IH. rewrite <- !app_assoc in IH. cbn [List.app] in IH. rewrite IH.
    rewrite E, (app_nth2 cpre (c0 :: cs)) by lia. rewrite Nat.sub_diag. cbn [nth].
    destruct (Qle_bool tl (Qabs c0)); reflexivity. }
  exact (G [] [] eq_refl names coefs Hl).
Qed.
Lemma generated_eq tl terms : forall (cpre coefs : list Q), List.length coefs = List.length terms ->
  generated_terms inorder tl (List.length cpre) terms (cpre ++ coefs)%list = map row (filter (shown tl) (combine (map (fun t => (inorder t, Some t)) terms) coefs)).
Proof.
  induction terms as [|t ts IH]; intros cpre coefs L; [reflexivity|]. destruct coefs as [|c0 cs]; [discriminate|]. cbn [generated_terms].
  rewrite nth_error_app2 by lia. rewrite Nat.sub_diag. cbn [nth_error].
  specialize (IH (cpre ++ [c0])%list cs ltac:(cbn in L; lia)). rewrite app_length in IH. cbn [List.length] in IH. rewrite Nat.add_1_r in IH. rewrite <- app_assoc in IH. cbn [List.app] in IH. rewrite IH.
  cbn [map combine filter]. unfold shown at 2. cbn [snd]. unfold below. destruct (Qle_bool tl (Qabs c0)); reflexivity.
Qed.
Lemma combine_split {A B} (a1 a2 : list A) : forall (b : list B), (List.length a1 <= List.length b)%nat -> combine (a1 ++ a2) b = (combine a1 (firstn (List.length a1) b) ++ combine a2 (skipn (List.length a1) b))%list.
Proof. induction a1 as [|x a1 IH]; intros b H; [reflexivity|]. destruct b as [|y b]; [cbn in H; lia|]. cbn. rewrite IH by (cbn in H; lia). reflexivity. Qed.
(** The terms of the extracted equation are the default terms followed by the terms found by
    the search, each with the coefficient at its own position, without those whose
    coefficient is below the tolerance. *)
Theorem C37_terms tl names terms coefs : List.length coefs = (List.length names + List.length terms)%nat ->
  extract dec inorder tl (List.length names) names terms coefs =
  map row (filter (shown tl) (combine (map (fun n => (n, None)) names ++ map (fun t => (inorder t, Some t)) terms) coefs)).
Proof.
  intros L. unfold extract, default_terms. rewrite Nat.min_l by lia.
  pose proof (default_eq tl names coefs ltac:(lia)) as DE. cbv zeta in DE. cbv zeta. rewrite DE.
  assert (coefs = firstn (List.length names) coefs ++ skipn (List.length names) coefs)%list as Ec by (symmetry; apply firstn_skipn).
  assert (List.length (firstn (List.length names) coefs) = List.length names) as Lf by (rewrite firstn_length; lia).
  assert (generated_terms inorder tl (List.length names) terms coefs = map row (filter (shown tl) (combine (map (fun t => (inorder t, Some t)) terms) (skipn (List.length names) coefs)))) as ->.
  { rewrite <- (generated_eq tl terms (firstn (List.length names) coefs)) by (rewrite skipn_length; lia). rewrite Lf, <- Ec. reflexivity. }
  rewrite combine_split by (rewrite map_length; lia). rewrite map_length, filter_app, map_app. f_equal.
  clear -L. f_equal. f_equal. assert (forall (A : Type) (a : list A) (b : list Q), combine a b = combine a (firstn (List.length a) b)) as G by (induction a as [|x a IH]; intros [|y b]; cbn; f_equal; auto).
  rewrite (G _ _ coefs), map_length. reflexivity.
Qed.
(** If the regression was skipped (its result is the single number 0), no term is listed. *)
Theorem C37_no_regression tl names terms : (0 < tl)%Q -> List.length names = 1%nat -> extract dec inorder tl (List.length names) names terms [0%Q] = [].
Proof.
  intros Ht L. unfold extract, default_terms. rewrite L. cbn [Nat.min List.length seq flat_map nth].
  assert (below tl 0 = true) as ->. { unfold below. destruct (Qle_bool tl (Qabs 0)) eqn:E; [|reflexivity]. apply Qle_bool_iff in E. cbn in E. lra. }
  destruct terms; reflexivity.
Qed.
End C37.
(** Evaluation of a candidate and extraction together: the coefficient a term is listed with
    stands at the position of the term's own column in the matrix given to the regression. *)
Section Found.
Context {V : Type}.
Variables (leafval : ent -> V) (f1 : ent -> V -> V) (f2 : ent -> V -> V -> V) (diffop : ent -> V -> string -> V)
          (known : string -> bool) (lhs : string) (zeroish : V -> bool) (pert : V -> V) (guard : bool)
          (nonzero finite : V -> bool) (dec : nat -> string) (regress : list V -> list Q).
Notation column := (column leafval f1 f2 diffop lhs zeroish pert guard nonzero).
Notation evaluate := (evaluate leafval f1 f2 diffop known lhs zeroish pert guard nonzero finite).
Theorem C37_found c max_depth ss : ctx_ok c -> sane c -> (2 <= max_depth)%nat -> Forall (evolved c max_depth) ss ->
  (forall a, In a (den_names c) -> known a = true \/ a = lhs) -> (forall m, List.length (regress m) = List.length m) ->
  forall zero defaults names p m tl, List.length names = List.length defaults -> evaluate zero defaults (candidate ss) = Ok (p, Some m) ->
  exists kept cols, p = candidate kept /\ m = (defaults ++ cols)%list /\ map Some cols = map (fun s => column (stored_tree s)) kept /\
    extract dec t_inorder tl (List.length defaults) names kept (regress m) =
    map row (filter (shown tl) (combine (map (fun n => (n, None)) names ++ map (fun s => (infix (stored_tree s), Some s)) kept) (regress m))).
Proof.
  intros Hc Hs Hm Hev Hk Hr zero defaults names p m tl Hn E.
  destruct (evaluate_core leafval f1 f2 diffop known lhs zeroish pert guard nonzero finite c max_depth ss Hc Hs Hm Hev Hk zero defaults) as (cols & E1 & C1). cbv zeta in E1, C1.
  rewrite E in E1. injection E1 as Ep Em. set (kept := filter _ ss) in *. exists kept, cols. split; [exact Ep|].
  assert (m = (defaults ++ cols)%list) as Em2. { unfold regress_input in Em. destruct cols; [discriminate|]. destruct (forallb _ _); [congruence|discriminate]. }
  split; [exact Em2|]. split; [exact C1|].
  rewrite <- Hn, C37_terms.
  - f_equal. f_equal. f_equal. f_equal. apply map_ext_in. intros s I. f_equal. f_equal. apply filter_In in I as [I _]. rewrite Forall_forall in Hev.
    destruct (stored_good c max_depth s (V := V) Hc Hs Hm (Hev s I)) as [[(_ & _ & X) _] _]. exact X.
  - rewrite Hr, Em2, app_length, Hn. f_equal. apply (f_equal (@List.length _)) in C1. rewrite !map_length in C1. exact C1.
Qed.
End Found.
(** Text of the equation: left side, then the terms with non-zero coefficient in order, each
    behind its sign (the first one without a plus). *)
Fixpoint tail_text (l : list (bool * string)) : string :=
  match l with [] => "" | (neg, b) :: l' => (if neg then " - " else " + ") ++ b ++ tail_text l' end.
Definition text (l : list (bool * string)) : string :=
  match l with [] => "0" | (neg, b) :: l' => (if neg then "- " else "") ++ b ++ tail_text l' end.
(** what a body may look like: the coefficient's magnitude and the expression, where the
    expression 1 is left out and a magnitude within 1e-5 of one is left out *)
Definition body_of (g6 : Q -> string) (with_coef : bool) (m : Q) (expr b : string) : Prop :=
  (with_coef = false /\ b = expr) \/
  (with_coef = true /\ b = expr /\ expr <> "1" /\ expr <> "0" /\ (Qabs (m - 1) <= 1 # 100000)%Q) \/
  (with_coef = true /\ b = g6 m /\ expr = "1") \/
  (with_coef = true /\ b = g6 m ++ "\," ++ expr /\ expr <> "1").
Lemma near_one m : Qle_bool m (1 + tol) = true -> Qle_bool (1 - tol) m = true -> (Qabs (m - 1) <= 1 # 100000)%Q.
Proof. intros A B. apply Qle_bool_iff in A, B. unfold tol in *. apply Qabs_Qle_condition. split; lra. Qed.
Lemma joinsp_tail l : forall x, joinsp (x :: map (signed_text false) l) = x ++ tail_text l.
Proof.
  induction l as [|[n b] l IH]; intros x; [cbn; induction x; cbn; congruence|]. transitivity (x ++ " " ++ joinsp (signed_text false (n, b) :: map (signed_text false) l)); [reflexivity|].
  rewrite IH. cbn [tail_text signed_text fst snd]. destruct n; rewrite ?sapp; reflexivity.
Qed.
Theorem C37_text g6 with_coef lz lhs terms :
  exists bodies, to_latex g6 with_coef lz lhs terms = format_lhs lhs ++ " = " ++ text bodies /\
    Forall2 (fun t nb => fst nb = negb (Qle_bool 0 (et_coef t)) /\
                         exists expr, expr <> "" /\ (term_expr lz t <> "" -> expr = term_expr lz t) /\ body_of g6 with_coef (Qabs (et_coef t)) expr (snd nb))
            (filter (fun t => negb (Qeq_bool (et_coef t) 0)) terms) bodies.
Proof.
  set (ts := filter _ terms). exists (map (format_term g6 with_coef lz) ts). split.
  - unfold to_latex. fold ts. destruct (map (format_term g6 with_coef lz) ts) as [|[n b] rest]; [reflexivity|].
    rewrite joinsp_tail. cbn [text signed_text fst snd]. destruct n; rewrite ?sapp; reflexivity.
  - induction ts as [|t l IH]; constructor; [|exact IH]. unfold format_term. cbn [fst snd]. split; [reflexivity|].
    set (e0 := term_expr lz t). exists (if String.eqb e0 "" then "1" else e0). destruct (String.eqb_spec e0 "") as [E|N].
    + repeat split; [discriminate|congruence|]. unfold body_of, needs_coef. rewrite orb_true_r. cbn [orb andb negb]. destruct with_coef; [right; right; left; auto|left; auto].
    + repeat split; [exact N|]. unfold body_of. destruct with_coef; [|auto]. right. unfold needs_coef.
      destruct (String.eqb_spec e0 "1") as [->|N1]; [rewrite orb_true_r; cbn; right; left; auto|].
      destruct (String.eqb_spec e0 "0") as [->|N0]; [rewrite !orb_true_r; cbn; right; right; repeat split; discriminate|].
      destruct (Qle_bool (Qabs (et_coef t)) (1 + tol)) eqn:A; [|cbn; right; right; auto].
      destruct (Qle_bool (1 - tol) (Qabs (et_coef t))) eqn:B; [|cbn; right; right; auto]. cbn [negb orb andb].
      destruct (Qeq_bool (Qabs (et_coef t)) 0); [cbn; right; right; auto|]. cbn. left. repeat split; auto. apply near_one; assumption.
Qed.
(** Non-vacuity: one default term and three trees; the second coefficient is too small. *)
Definition ex_u : tree ent := Nd (mkEnt "u" 0 0) [].
Definition ex_terms : list (string * Q) := [("u", -2#1); ("(u * x)", 1#1000000); ("(u d x)", 1#1); ("(u ^2)", 5#2)].
Example C37_example :
  map (fun t => (et_label t, et_coef t)) (extract (fun _ => "") (fun s : string => s) tol 1 ["u"] (map fst (List.tl ex_terms)) (map snd ex_terms))
  = [("u", -2#1); ("(u d x)", 1#1); ("(u ^2)", 5#2)]%Q.
Proof. vm_compute. reflexivity. Qed.
Example C37_text_example : to_latex (fun q => if Qeq_bool q (5#2) then "2.5" else "2") true false "ut"
  [mkTerm "u" true (-2#1)%Q None; mkTerm "ux" false (1#1)%Q None; mkTerm "u^2" false (-5#2)%Q None] = "u_{t} = - 2\,u + u_{x} - 2.5\,u^{2}".
Proof. vm_compute. reflexivity. Qed.

(** *** C74 *)
(** The terms of a candidate are always drawn (the fallback to the label is not used), and
    what is drawn is determined by the term alone. *)
Theorem C74_drawn c max_depth lz s : ctx_ok c -> sane c -> (2 <= max_depth)%nat -> evolved c max_depth s ->
  render_tree lz (t_levels s) = Ok (drawn lz (stored_tree s)).
Proof.
  intros Hc Hs Hm H. destruct (evolved_wf c max_depth s Hc Hs Hm H) as (rt & ls & E & W & _).
  unfold render_tree, stored_tree. rewrite E. destruct (build ([rt] :: ls)) as [|t l] eqn:B.
  - apply (f_equal (@List.length _)) in B. rewrite build_length in B. discriminate.
  - apply (render_build c lz ([rt] :: ls) W). rewrite B. reflexivity.
Qed.
(** In Leibniz notation the text of a term can be read in one way only, and read that way it
    means what the term means - for every meaning of the names and operations in which
    products associate - provided the names are plain and no product that ends in a sum is
    raised to a power. *)
Theorem C74_leibniz c max_depth s : ctx_ok c -> sane c -> (2 <= max_depth)%nat -> evolved c max_depth s -> good_names c -> clear_powers (stored_tree s) ->
  exists n e txt, render_tree true (t_levels s) = Ok txt /\ read_exp n txt = Some (e, "") /\
  forall (V : Type) (nm : string -> V) add sub mul div pow d, (forall a b c, mul a (mul b c) = mul (mul a b) c) ->
    eval nm add sub mul div pow d e = tval nm add sub mul div pow d render_leaf (stored_tree s).
Proof.
  intros Hc Hs Hm H Hg Hp. pose proof (C74_drawn c max_depth true s Hc Hs Hm H) as D.
  assert (term_ok c (stored_tree s)) as T by (destruct (stored_good c max_depth s (V := nat) Hc Hs Hm H) as [[_ X] _]; exact X).
  destruct (draw_reads c _ T Hg Hp) as [n R]. exists n, (exps (facs (of_tree (stored_tree s)))), (drawn true (stored_tree s)). split; [exact D|]. split; [exact R|].
  intros V nm add sub mul div pow d A. rewrite tval_mval. apply facs_meaning; [exact A|]. apply (drawn_of_tree c _ T Hg Hp).
Qed.
(** Two variables with different names are drawn differently, except that ux and u_x are the
    same drawing (both are the derivative of u along x). *)
Theorem C74_names a b : good_name a -> good_name b -> render_leaf a = render_leaf b -> a = b \/ (In a ["ux"; "u_x"] /\ In b ["ux"; "u_x"]).
Proof.
  intros Ha Hb E.
  assert (forall n, good_name n -> lookup leaf_table n = None -> render_leaf n = n /\ has_char (fun x => Ascii.eqb x "{" || Ascii.eqb x "\")%bool n = false) as P.
  { intros n [_ H] L. unfold render_leaf. rewrite L. split; [reflexivity|]. clear -H. induction n as [|x n IH]; [reflexivity|]. cbn [all_ok has_char] in *. apply andb_prop in H as [H1 H2]. rewrite (IH H2).
    rewrite (Ascii.eqb_sym x "{"), (Ascii.eqb_sym x "\"), !(okc_ne x) by (auto; reflexivity). reflexivity. }
  assert (forall n v, lookup leaf_table n = Some v -> In (n, v) leaf_table) as Q.
  { clear. generalize leaf_table. induction l as [|[x y] l IH]; cbn; [discriminate|]. intros n v. destruct (String.eqb_spec x n) as [->|]; [intros [= <-]; auto|auto]. }
  destruct (lookup leaf_table a) as [va|] eqn:La; destruct (lookup leaf_table b) as [vb|] eqn:Lb.
  - unfold render_leaf in E. rewrite La, Lb in E. subst vb. apply Q in La, Lb. cbn in La, Lb.
    repeat (destruct La as [La|La]; [injection La as <- <-; repeat (destruct Lb as [Lb|Lb]; [first [discriminate Lb|injection Lb as <-; (left; reflexivity) || (right; cbn; auto)]|]); destruct Lb|]); destruct La.
  - destruct (P b Hb Lb) as [Eb Nb]. unfold render_leaf at 1 in E. rewrite La, Eb in E. subst va. pose proof (Q _ _ La) as I. cbn in I.
    repeat (destruct I as [I|I]; [injection I as <- <-; first [left; reflexivity|discriminate Nb]|]); destruct I.
  - destruct (P a Ha La) as [Ea Na]. unfold render_leaf at 2 in E. rewrite Lb, Ea in E. subst vb. pose proof (Q _ _ Lb) as I. cbn in I.
    repeat (destruct I as [I|I]; [injection I as <- <-; first [left; reflexivity|discriminate Na]|]); destruct I.
  - left. rewrite (proj1 (P a Ha La)), (proj1 (P b Hb Lb)) in E. exact E.
Qed.
(** Without that proviso it does not: the square of (u+x)(u+x) and the product of u+x with the
    square of u+x, both generated by the search, have the same text.  Values at u = x = 1. *)
Definition table_pick (l : list (list nat)) (d i n : nat) : nat := (nth i (nth d l []) 0 mod n)%nat.
Lemma table_pick_ok l : rng_ok (table_pick l).
Proof. intros d i n Hn. apply Nat.mod_upper_bound. lia. Qed.
Definition zval : tree ent -> Z :=
  tval (fun _ => 1%Z) Z.add Z.sub Z.mul Z.div (fun n v => if Ascii.eqb n "2" then v * v else v * v * v)%Z (fun _ v _ => v) render_leaf.
Lemma ex_good_names : good_names ex_ctx.
Proof. intros v I. cbn in I. intuition (subst; split; [discriminate|reflexivity]). Qed.
Lemma ex_sane : sane ex_ctx.
Proof. split; [cbn; intuition (subst; cbn in *; intuition discriminate)|cbn; auto]. Qed.
Theorem C74_power_refuted : exists c s1 s2 txt, ctx_ok c /\ sane c /\ good_names c /\ evolved c 4 s1 /\ evolved c 4 s2 /\
  render_tree true (t_levels s1) = Ok txt /\ render_tree true (t_levels s2) = Ok txt /\
  zval (stored_tree s1) <> zval (stored_tree s2).
Proof.
  destruct (gen_tree ex_ctx (fun d i => false) (table_pick [[4]; [2]; [0; 0]; [0; 1; 0; 1]]%nat) 4) as [a|] eqn:Ea; [|vm_compute in Ea; discriminate].
  destruct (gen_tree ex_ctx (fun d i => Nat.eqb d 2 && Nat.ltb i 2) (table_pick [[0]; [0; 6]; [0; 1; 0]; [0; 1]]%nat) 4) as [b|] eqn:Eb; [|vm_compute in Eb; discriminate].
  exists ex_ctx, a, b, "(u + x) \cdot (u + x)^{2}".
  assert (evolved ex_ctx 4 a) as Va by (eapply ev_gen; [apply table_pick_ok|eassumption]).
  assert (evolved ex_ctx 4 b) as Vb by (eapply ev_gen; [apply table_pick_ok|eassumption]).
  split; [exact ex_ctx_ok|]. split; [exact ex_sane|]. split; [exact ex_good_names|].
  split; [exact Va|]. split; [exact Vb|]. clear Va Vb. vm_compute in Ea, Eb; injection Ea as <-; injection Eb as <-.
  vm_compute. repeat split; discriminate.
Qed.
(** In subscript notation (the default) the derivative of a product has the same text as the
    product with the last factor differentiated.  Values are pairs (f, derivative of f). *)
Definition jet := (Z * Z)%type.
Definition jval : tree ent -> jet :=
  tval (fun _ => (2, 3)%Z) (fun a b : jet => (fst a + fst b, snd a + snd b)%Z) (fun a b : jet => (fst a - fst b, snd a - snd b)%Z)
       (fun a b : jet => (fst a * fst b, snd a * fst b + fst a * snd b)%Z) (fun a _ : jet => a) (fun _ v => v) (fun _ (v : jet) _ => (snd v, 0%Z)) render_leaf.
Theorem C74_subscript_refuted : exists c s1 s2 txt, ctx_ok c /\ sane c /\ good_names c /\ evolved c 3 s1 /\ evolved c 3 s2 /\
  clear_powers (stored_tree s1) /\ clear_powers (stored_tree s2) /\
  render_tree false (t_levels s1) = Ok txt /\ render_tree false (t_levels s2) = Ok txt /\
  t_inorder s1 = "((u * u) d x)" /\ t_inorder s2 = "(u * (u d x))" /\
  fst (jval (stored_tree s1)) <> fst (jval (stored_tree s2)).
Proof.
  destruct (gen_tree ex_ctx (fun d i => false) (table_pick [[1]; [2; 0]; [0; 0]]%nat) 3) as [a|] eqn:Ea; [|vm_compute in Ea; discriminate].
  destruct (gen_tree ex_ctx (fun d i => Nat.eqb d 1 && Nat.eqb i 0) (table_pick [[0]; [0; 4]; [0; 0]]%nat) 3) as [b|] eqn:Eb; [|vm_compute in Eb; discriminate].
  exists ex_ctx, a, b, "u \cdot u_{x}".
  assert (evolved ex_ctx 3 a) as Va by (eapply ev_gen; [apply table_pick_ok|eassumption]).
  assert (evolved ex_ctx 3 b) as Vb by (eapply ev_gen; [apply table_pick_ok|eassumption]).
  split; [exact ex_ctx_ok|]. split; [exact ex_sane|]. split; [exact ex_good_names|].
  split; [exact Va|]. split; [exact Vb|]. clear Va Vb. vm_compute in Ea, Eb; injection Ea as <-; injection Eb as <-.
  assert (forall e : ent, clear_powers (Nd e [])) as C0 by (intros; constructor; [intros; discriminate|constructor]).
  assert (forall e a b, clear_powers a -> clear_powers b -> clear_powers (Nd e [a; b])) as C2 by (intros; constructor; [intros; discriminate|auto]).
  split; [vm_compute; auto|]. split; [vm_compute; auto|]. vm_compute. repeat split; discriminate.
Qed.
Example C74_example : exists s, evolved ex_ctx 4 s /\ clear_powers (stored_tree s) /\ render_tree true (t_levels s) = Ok "(u \cdot \frac{\partial u}{\partial x})^{2}".
Proof.
  destruct (gen_tree ex_ctx (fun d i => Nat.eqb d 2 && Nat.eqb i 0) (table_pick [[4]; [2]; [0; 4]; [0; 0]]%nat) 4) as [a|] eqn:Ea; [|vm_compute in Ea; discriminate].
  exists a. split; [eapply ev_gen; [apply table_pick_ok|eassumption]|]. vm_compute in Ea. injection Ea as <-. split; [|vm_compute; reflexivity].
  assert (forall e : ent, clear_powers (Nd e [])) as C0 by (intros; constructor; [intros; discriminate|constructor]).
  assert (forall e a b, clear_powers a -> clear_powers b -> clear_powers (Nd e [a; b])) as C2 by (intros; constructor; [intros; discriminate|auto]).
  vm_compute. constructor; [intros x [= <-]; reflexivity|auto].
Qed.

(** *** C75 *)
(** For the built-in problems the left side is u_t, which is what is fitted. *)
Theorem C75_builtin : format_lhs (infer_lhs (config_left_side false)) = "u_{t}" /\ default_names "u" = ["u"].
Proof. vm_compute. auto. Qed.
(** In general the label is what stands after the first = of the left side of the configuration, without the blanks around it; u_t if there is
    no = or nothing after it. *)
Fixpoint blanks (n : nat) : string := match n with 0 => "" | S n' => String " " (blanks n') end.
Fixpoint without (c : ascii) (s : string) : Prop := match s with "" => True | String a s' => a <> c /\ without c s' end.
Lemma srev_app a b acc : srev (a ++ b) acc = srev b (srev a acc).
Proof. revert acc. induction a as [|c a IH]; intros acc; [reflexivity|]. exact (IH _). Qed.
Lemma sapp_assoc' (a b c : string) : a ++ (b ++ c) = (a ++ b) ++ c.
Proof. induction a as [|x a IH]; [reflexivity|]. cbn [String.append]. rewrite IH. reflexivity. Qed.
Lemma srev_acc a acc : srev a acc = srev a "" ++ acc.
Proof. revert acc. induction a as [|c a IH]; intros acc; [reflexivity|]. cbn [srev]. rewrite IH, (IH (String c "")). rewrite <- sapp_assoc'. reflexivity. Qed.
Lemma lstrip_blanks n s : lstrip (blanks n ++ s) = lstrip s.
Proof. induction n as [|n IH]; [reflexivity|exact IH]. Qed.
Lemma srev_blanks n acc : srev (blanks n) acc = blanks n ++ acc.
Proof.
  revert acc. induction n as [|n IH]; intros acc; [reflexivity|]. cbn [blanks srev]. rewrite IH. clear IH. induction n as [|n IH]; [reflexivity|]. cbn [blanks String.append] in *. f_equal. exact IH.
Qed.
Lemma srev_twice s : srev (srev s "") "" = s.
Proof. induction s as [|c s IH]; [reflexivity|]. cbn [srev]. rewrite (srev_acc s (String c "")), srev_app, IH. reflexivity. Qed.
Lemma after_eq_app l r : without "=" l -> after_eq (l ++ String "=" r) = Some r.
Proof. induction l as [|c l IH]; [reflexivity|]. intros [N W]. cbn [String.append after_eq]. destruct (Ascii.eqb_spec c "="); [contradiction|]. exact (IH W). Qed.
Lemma after_eq_none l : without "=" l -> after_eq l = None.
Proof. induction l as [|c l IH]; [reflexivity|]. intros [N W]. cbn [after_eq]. destruct (Ascii.eqb_spec c "="); [contradiction|]. exact (IH W). Qed.
Theorem C75_label_of_left_side :
  (forall l n k m label a b, without "=" l -> label = String a k -> label = m ++ String b "" -> a <> " "%char -> b <> " "%char ->
     forall j, infer_lhs (Some (l ++ String "=" (blanks n ++ label ++ blanks j))) = label) /\
  (forall l n, without "=" l -> infer_lhs (Some (l ++ String "=" (blanks n))) = "u_t") /\
  (forall l, without "=" l -> infer_lhs (Some l) = "u_t") /\ infer_lhs None = "u_t".
Proof.
  assert (LB : forall n, lstrip (blanks n) = "") by (induction n; [reflexivity|exact IHn]).
  split; [|split; [|split]].
  - intros l n k m label a b W La Lb Na Nb j. unfold infer_lhs. rewrite after_eq_app by exact W.
    assert (St : strip (blanks n ++ label ++ blanks j) = label).
    { unfold strip. rewrite lstrip_blanks.
      assert (E1 : lstrip (label ++ blanks j) = label ++ blanks j) by (rewrite La; cbn [String.append lstrip]; destruct (Ascii.eqb_spec a " "); [contradiction|reflexivity]).
      rewrite E1, srev_app, srev_blanks, lstrip_blanks.
      assert (E2 : lstrip (srev label "") = srev label "") by (rewrite Lb, srev_app; cbn [srev lstrip]; destruct (Ascii.eqb_spec b " "); [contradiction|reflexivity]).
      rewrite E2. apply srev_twice. }
    rewrite St. rewrite La at 1. reflexivity.
  - intros l n W. unfold infer_lhs. rewrite after_eq_app by exact W. unfold strip. rewrite LB. reflexivity.
  - intros l W. unfold infer_lhs. rewrite after_eq_none by exact W. reflexivity.
  - reflexivity.
Qed.
Example C75_label_case : without "=" "left_side " /\ infer_lhs (Some "left_side = w_tt ") = "w_tt".
Proof. split; [cbn [without]; repeat split; discriminate|reflexivity]. Qed.
Print Assumptions C75_label_of_left_side.
(** For data given by the user the left side of the equation is u_t whatever the target field
    and the differentiated axis are called, and it is not even drawn as a derivative; the
    default term is called u whatever the target field is called. *)
Theorem C75_labels_refuted : forall target axis : string, 
  infer_lhs (config_left_side true) = "u_t" /\ format_lhs (infer_lhs (config_left_side true)) = "u_t" /\ default_names target = ["u"].
Proof. intros. vm_compute. auto. Qed.
(** The one-line summary PDE.concise_visualize: exactly the coefficients of at least 1e-4,
    each directly in front of its own term; it fails when the regression was skipped. *)
Fixpoint sum_text (l : list (string * string)) : string :=
  match l with [] => "" | [(c, n)] => c ++ n | (c, n) :: l' => c ++ n ++ " + " ++ sum_text l' end.
Definition big (x : Q * string) : bool := Qle_bool (1 # 10000) (Qabs (fst x)).
Definition summary_rows (r4 : Q -> string) (coefs : list Q) (labels : list string) : list (string * string) :=
  map (fun x => (r4 (fst x), snd x)) (filter big (combine coefs labels)).
Fixpoint more_text (l : list (string * string)) : string := match l with [] => "" | (c, n) :: l' => " + " ++ c ++ n ++ more_text l' end.
Lemma sum_more c n l : sum_text ((c, n) :: l) = c ++ n ++ more_text l.
Proof.
  revert c n. induction l as [|[c' n'] l IH]; intros c n; [cbn; induction c; cbn; [induction n; cbn; congruence|congruence]|].
  transitivity (c ++ n ++ " + " ++ sum_text ((c', n') :: l)); [reflexivity|]. rewrite IH. reflexivity.
Qed.
Lemma sapp_nil s : s ++ "" = s. Proof. induction s; cbn; congruence. Qed.
Lemma concise_from r4 names elements : (forall q, r4 q <> "") -> forall labs coefs i name,
  (forall k, nth_error labs k = nth_error (names ++ elements)%list (i + k)) -> (List.length coefs <= List.length labs)%nat -> (i <> 0 \/ name = "")%nat ->
  concise_loop r4 (List.length names) names elements i coefs name =
  Ok (if String.eqb name "" then sum_text (summary_rows r4 coefs labs) else name ++ more_text (summary_rows r4 coefs labs)).
Proof.
  intros Hr. induction labs as [|lab labs IH]; intros coefs i name Hl Hlen Hi.
  - destruct coefs; [|cbn in Hlen; lia]. cbn. destruct (String.eqb_spec name "") as [->|]; [reflexivity|]. rewrite sapp_nil. reflexivity.
  - destruct coefs as [|c cs]; [cbn; destruct (String.eqb_spec name "") as [->|]; [reflexivity|]; rewrite sapp_nil; reflexivity|].
    assert (forall k, nth_error labs k = nth_error (names ++ elements)%list (S i + k)) as Hl'. { intros k. specialize (Hl (S k)). rewrite Nat.add_succ_r in Hl. exact Hl. }
    cbn [concise_loop]. unfold below. unfold summary_rows. cbn [combine filter]. change (big (c, lab)) with (Qle_bool (1 # 10000) (Qabs c)). destruct (Qle_bool (1 # 10000) (Qabs c)) eqn:E; cbn [negb].
    + assert ((if Nat.ltb i (List.length names) then kid names i else kid elements (i - List.length names)) = Ok lab) as ->.
      { pose proof (Hl 0%nat) as H0. rewrite Nat.add_0_r in H0. cbn [nth_error] in H0. symmetry in H0. unfold kid. destruct (Nat.ltb_spec i (List.length names)).
        - rewrite nth_error_app1 in H0 by assumption. rewrite H0. reflexivity.
        - rewrite nth_error_app2 in H0 by assumption. rewrite H0. reflexivity. }
      cbn [bind]. rewrite (IH cs (S i)) by (auto; cbn in Hlen; lia).
      destruct (String.eqb_spec name "") as [->|N].
      * rewrite andb_false_r. cbn [map fst snd]. rewrite sum_more.
        change ("" ++ r4 c ++ lab) with (r4 c ++ lab). destruct (String.eqb_spec (r4 c ++ lab) "") as [X|_]; [|rewrite sapp; reflexivity].
        exfalso. apply (Hr c). destruct (r4 c); [reflexivity|discriminate].
      * assert (Nat.eqb i 0 = false) as -> by (apply Nat.eqb_neq; destruct Hi; [assumption|congruence]). cbn [negb andb map fst snd more_text].
        destruct (String.eqb_spec ((name ++ " + ") ++ r4 c ++ lab) "") as [X|_]; [destruct name; [congruence|discriminate]|]. f_equal. rewrite !sapp. reflexivity.
    + apply (IH cs (S i) name Hl'); [cbn in Hlen; lia|left; lia].
Qed.
Theorem C75_summary r4 names elements coefs : (forall q, r4 q <> "") -> List.length coefs = (List.length names + List.length elements)%nat ->
  concise_visualize r4 (List.length names) names elements (Some coefs) = Ok (sum_text (summary_rows r4 coefs (names ++ elements)%list)).
Proof.
  intros Hr L. unfold concise_visualize. rewrite (concise_from r4 names elements Hr (names ++ elements)%list coefs 0 ""); [reflexivity|reflexivity|rewrite app_length; lia|auto].
Qed.
Theorem C75_summary_skipped_refuted r4 names elements : concise_visualize r4 (List.length names) names elements None = Err TypeError.
Proof. reflexivity. Qed.
Example C75_example : concise_visualize (fun q => if Qle_bool 0 q then "0.5" else "-0.25") 1 ["u"] ["(u d x)"; "(u ^2)"] (Some [1#2; 1#1000000; -1#4]) = Ok "0.5u + -0.25(u ^2)".
Proof. vm_compute. reflexivity. Qed.
Print Assumptions C37_terms.
Print Assumptions C37_no_regression.
Print Assumptions C37_found.
Print Assumptions C37_text.
Print Assumptions C74_drawn.
Print Assumptions C74_leibniz.
Print Assumptions C74_names.
Print Assumptions C74_power_refuted.
Print Assumptions C74_subscript_refuted.
Print Assumptions C75_builtin.
Print Assumptions C75_labels_refuted.
Print Assumptions C75_summary.
Print Assumptions C75_summary_skipped_refuted.
