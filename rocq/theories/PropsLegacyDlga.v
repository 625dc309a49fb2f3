(** C157 (the older parity figure of DLGA), C158 (figures of products of terms), C159 (evolution summary) and C160
    (residual figure). *)
From Coq Require Import QArith Qabs Lqa.
From Verif Require Import Base Dlga DlgaEq DlgaEqFacts VizData VizDataFacts TimePick TimePickFacts DlgaPlot PropsVizData PropsDlgaParity LegacyDlga.
Local Open Scope string_scope.
Local Open Scope nat_scope.
Local Open Scope list_scope.

(** ** Specification *)
(** every gene of the individual [g] names an operator that is recorded *)
Definition all_recorded (meta : string -> option column) (ops : list string) (g : genome) : Prop :=
  forall md k, In md g -> In k md -> exists o, nth_error ops k = Some o /\ meta o <> None.
(** the sum of the list [l] *)
Definition sum (l : list Q) : Q := fold_right Qplus 0%Q l.
(** the product at point [p] of the recorded variables [l] *)
Fixpoint product_at (meta : string -> option column) (l : list string) (p : nat) : Q :=
  match l with [] => 1%Q | v :: l' => ((match meta v with Some c => nth p c 0 | None => 0 end) * product_at meta l' p)%Q end.

(** ** Lemmas *)
Lemma term_columns_arrays meta ops md cols : term_columns meta ops md = Ok cols -> bad_gene ops md = false /\ term_arrays meta ops md = Some cols.
Proof.
  revert cols. induction md as [|g md IH]; intros cols H; cbn in H; [injection H as <-; auto|].
  destruct (nth_error ops g) as [o|] eqn:E; [|discriminate]. destruct (meta o) as [c|] eqn:M; [|discriminate]. cbn in H.
  fold (term_columns meta ops md) in H. destruct (term_columns meta ops md) as [r|]; [|discriminate]. cbn in H. injection H as <-. destruct (IH r eq_refl) as [B T].
  cbn [bad_gene existsb term_arrays]. unfold bad_gene in B. rewrite B, orb_false_r, T. rewrite (nth_error_nth ops g "" E), M. split; [|reflexivity].
  apply Nat.leb_gt, nth_error_Some. congruence.
Qed.
Lemma term_columns_ok meta ops md : (forall k, In k md -> exists o, nth_error ops k = Some o /\ meta o <> None) -> exists cols, term_columns meta ops md = Ok cols.
Proof.
  induction md as [|g md IH]; intros H; [exists []; reflexivity|]. destruct (H g (or_introl eq_refl)) as (o & E & M). destruct (meta o) as [c|] eqn:Mo; [|congruence].
  destruct IH as (cols & T); [intros k I; apply H; now right|]. exists (c :: cols). unfold term_columns in *. cbn. rewrite E, Mo. cbn. rewrite T. reflexivity.
Qed.
Lemma term_columns_bad meta ops md e : term_columns meta ops md = Err e -> (e = IndexError \/ e = KeyError) /\ exists k, In k md /\ ~ exists o, nth_error ops k = Some o /\ meta o <> None.
Proof.
  induction md as [|g md IH]; intros H; [discriminate|]. unfold term_columns in H. cbn in H. destruct (nth_error ops g) as [o|] eqn:E.
  - destruct (meta o) as [c|] eqn:M.
    + cbn in H. fold (term_columns meta ops md) in H. destruct (term_columns meta ops md) as [r|]; [discriminate|]. cbn in H. injection H as <-. destruct (IH eq_refl) as (D & k & I & N).
      split; [exact D|]. exists k. split; [now right|exact N].
    + cbn in H. injection H as <-. split; [auto|]. exists g. split; [now left|]. intros (x & X & Y). congruence.
  - cbn in H. injection H as <-. split; [auto|]. exists g. split; [now left|]. intros (x & X & Y). congruence.
Qed.
Lemma product_prod cols p : product cols = Ok p -> p = prod_cols cols.
Proof. destruct cols as [|c r]; cbn; [intros [= <-]; reflexivity|]. destruct (forallb (fun d => Nat.eqb (List.length d) (List.length c)) r); [|discriminate]. intros [= <-]. reflexivity. Qed.
Lemma product_ok N cols : Forall (fun c : column => List.length c = N) cols -> product cols = Ok (prod_cols cols).
Proof.
  destruct cols as [|c r]; intros F; [reflexivity|]. inversion F as [|? ? A B]; subst. unfold product. match goal with |- (if ?b then _ else _) = _ => assert (b = true) as -> end; [|reflexivity].
  apply forallb_forall. intros d I. rewrite Forall_forall in B. apply Nat.eqb_eq, B, I.
Qed.
Lemma add_badd acc t r : add_into acc t = Ok r -> badd acc t = Some r.
Proof.
  unfold add_into, badd. destruct (List.length acc =? List.length t); [intros [= <-]; reflexivity|]. destruct t as [|x [|y t]]; try discriminate. intros [= <-]. destruct acc as [|a [|b acc]]; reflexivity.
Qed.
Lemma loop_agrees meta ops g : forall cs acc r, rhs_loop meta ops g cs acc = Ok r -> parity_loop meta ops g cs acc = Some r.
Proof.
  induction g as [|md g IH]; intros cs acc r H; cbn in H; [injection H as <-; reflexivity|].
  destruct (term_columns meta ops md) as [cols|] eqn:T; [|discriminate]. cbn in H. destruct (product cols) as [p|] eqn:P; [|discriminate]. cbn in H.
  destruct cs as [|c cs]; [discriminate|]. destruct (add_into acc (map (Qmult c) p)) as [a|] eqn:A; [|discriminate]. cbn in H.
  apply term_columns_arrays in T as [B T]. apply product_prod in P as ->. apply add_badd in A. cbn [parity_loop]. rewrite B, T, A. apply IH, H.
Qed.
Lemma loop_length meta ops g : forall cs acc r, rhs_loop meta ops g cs acc = Ok r -> List.length r = List.length acc /\ List.length g <= List.length cs.
Proof.
  induction g as [|md g IH]; intros cs acc r H; cbn in H; [injection H as <-; cbn; lia|].
  destruct (term_columns meta ops md) as [cols|]; [|discriminate]. cbn in H. destruct (product cols) as [p|]; [|discriminate]. cbn in H.
  destruct cs as [|c cs]; [discriminate|]. destruct (add_into acc (map (Qmult c) p)) as [a|] eqn:A; [|discriminate]. cbn in H.
  destruct (IH _ _ _ H) as [L1 L2]. cbn. split; [|lia]. rewrite L1. unfold add_into in A. destruct (Nat.eqb_spec (List.length acc) (List.length (map (Qmult c) p))) as [E|E].
  - injection A as <-. rewrite map_length, combine_length. lia.
  - destruct (map (Qmult c) p) as [|x [|y t]]; try discriminate. injection A as <-. apply map_length.
Qed.
Lemma loop_ok meta ops N g : (forall o col, meta o = Some col -> List.length col = N) -> Forall (fun md => md <> []) g -> all_recorded meta ops g ->
  forall cs acc, List.length acc = N -> List.length g <= List.length cs -> exists r, rhs_loop meta ops g cs acc = Ok r.
Proof.
  intros H. induction g as [|md g IH]; intros NE A cs acc L G; [exists acc; reflexivity|]. inversion NE as [|? ? N1 N2]; subst.
  destruct (term_columns_ok meta ops md) as (cols & T); [intros k I; apply (A md k (or_introl eq_refl) I)|]. cbn [rhs_loop]. rewrite T. cbn [bind].
  destruct (term_columns_arrays _ _ _ _ T) as [B TA]. pose proof (term_arrays_value meta ops _ md H B) as V. rewrite TA in V. destruct V as (F & LC & _).
  rewrite (product_ok _ _ F). cbn [bind]. destruct cs as [|c cs]; [cbn in G; lia|].
  assert (NC : cols <> []) by (intros ->; destruct md; [congruence|discriminate]). destruct (prod_cols_spec _ cols NC F) as [LP _].
  unfold add_into. rewrite map_length, LP, Nat.eqb_refl. cbn [bind]. apply IH; [exact N2|intros m k I J; apply (A m k (or_intror I) J)| |cbn in G; lia].
  rewrite map_length, combine_length, map_length. lia.
Qed.
Lemma loop_err meta ops N g : (forall o col, meta o = Some col -> List.length col = N) -> Forall (fun md => md <> []) g ->
  forall cs acc e, List.length acc = N -> rhs_loop meta ops g cs acc = Err e -> e = IndexError \/ e = KeyError.
Proof.
  intros H. induction g as [|md g IH]; intros NE cs acc e L E; [discriminate|]. inversion NE as [|? ? N1 N2]; subst. cbn [rhs_loop] in E.
  destruct (term_columns meta ops md) as [cols|x] eqn:T; [|cbn in E; injection E as <-; apply (term_columns_bad meta ops md x T)]. cbn [bind] in E.
  destruct (term_columns_arrays _ _ _ _ T) as [B TA]. pose proof (term_arrays_value meta ops _ md H B) as V. rewrite TA in V. destruct V as (F & LC & _).
  rewrite (product_ok _ _ F) in E. cbn [bind] in E. destruct cs as [|c cs]; [injection E as <-; auto|].
  assert (NC : cols <> []) by (intros ->; destruct md; [congruence|discriminate]). destruct (prod_cols_spec _ cols NC F) as [LP _].
  unfold add_into in E. rewrite map_length, LP, Nat.eqb_refl in E. cbn [bind] in E. refine (IH N2 _ _ _ _ E). rewrite map_length, combine_length, map_length. lia.
Qed.
Lemma loop_recorded meta ops g : forall cs acc r, rhs_loop meta ops g cs acc = Ok r -> all_recorded meta ops g.
Proof.
  induction g as [|md g IH]; intros cs acc r H m k I J; [destruct I|]. cbn in H. destruct (term_columns meta ops md) as [cols|] eqn:T; [|discriminate]. cbn in H.
  destruct (product cols) as [p|]; [|discriminate]. cbn in H. destruct cs as [|c cs]; [discriminate|]. destruct (add_into acc (map (Qmult c) p)) as [a|]; [|discriminate]. cbn in H.
  destruct I as [<-|I]; [|exact (IH _ _ _ H m k I J)]. clear - T J. revert cols T. induction md as [|q md IH]; intros cols T; [destruct J|].
  unfold term_columns in T. cbn in T. destruct (nth_error ops q) as [o|] eqn:E; [|discriminate]. destruct (meta o) eqn:M; [|discriminate]. cbn in T.
  fold (term_columns meta ops md) in T. destruct (term_columns meta ops md) as [r|]; [|discriminate]. destruct J as [<-|J]; [exists o; split; [exact E|congruence]|]. exact (IH J r eq_refl).
Qed.

(** ** C157 *)
(** After a fit, with recorded operators only and a coefficient for each module, the older parity figure shows each point
    at (right-hand side of the equation, left-hand side). *)
Theorem C157_points m g c n meta l : fitted m g c n meta l -> g <> [] -> l <> [] -> all_recorded meta (m_ops m) g -> List.length g <= List.length c ->
  exists P, legacy_parity m = Ok (Some (P, l)) /\ List.length P = List.length l /\ forall p, p < List.length l -> (nth p P 0 == rhs_at meta (m_ops m) p (combine g c))%Q.
Proof.
  intros F NG NL A G. destruct (C97_parity_pairs m g c n meta l F) as (P & R & E & LP & _ & V). exists P. split; [|split; [exact LP|intros p Hp; apply V, Hp]].
  pose proof (fitted_first _ _ _ _ _ _ F) as FI. destruct F as (F1 & F2 & F3 & F4 & F5 & F6 & F7 & F8).
  destruct (loop_ok meta (m_ops m) _ g F7 F8 A c (map (fun _ => 0%Q) l)) as (r & Er); [apply map_length|exact G|].
  unfold parity_data in E. rewrite FI, (loop_agrees _ _ _ _ _ _ Er) in E. destruct (parity_from (vector l) (vector r)) as [[[x y] z]| | |] eqn:Q; try discriminate. injection E as -> -> ->.
  destruct (C79_parity _ _ _ _ _ Q) as (_ & EP & _). rewrite ravel_vector in EP. subst P. unfold legacy_parity.
  destruct (m_chrom m) as [|g' gs]; [discriminate|]. injection F1 as ->. destruct g as [|md g]; [congruence|]. destruct (m_coef m) as [|c' cs]; [discriminate|]. injection F2 as ->.
  destruct (m_name m) as [|n' ns]; [discriminate|]. injection F3 as ->. rewrite F4, F6, Er. cbn [bind]. destruct l; [congruence|reflexivity].
Qed.
(** Whatever the model, when the older figure is drawn the new one shows the same points. *)
Theorem C157_same_points m P l : legacy_parity m = Ok (Some (P, l)) -> m_ops m <> [] ->
  exists R, parity_data m = VOk (Some (l, P, R)) /\ forall p, p < List.length l -> nth p R 0%Q = (nth p l 0 - nth p P 0)%Q.
Proof.
  intros H NO. unfold legacy_parity in H. destruct (m_chrom m) as [|[|md g] gs] eqn:E1; try discriminate. destruct (m_coef m) as [|c cs] eqn:E2; [discriminate|].
  destruct (m_name m) as [|n ns] eqn:E3; [discriminate|]. destruct (m_meta m) as [meta|] eqn:E4; [|discriminate]. destruct (meta n) as [l'|] eqn:E5; [|discriminate].
  destruct (rhs_loop meta (m_ops m) (md :: g) c (map (fun _ => 0%Q) l')) as [r|] eqn:Er; [|discriminate]. cbn [bind] in H.
  assert (r = P /\ l' = l) as [-> ->] by (destruct l'; [discriminate|injection H as <- <-; auto]).
  destruct (loop_length _ _ _ _ _ _ Er) as [LP _]. rewrite map_length in LP.
  unfold parity_data, first_individual. rewrite E1, E2, E3, E4. destruct (m_ops m) as [|o os] eqn:E6; [congruence|]. rewrite E5, (loop_agrees _ _ _ _ _ _ Er).
  destruct (proj1 (C79_parity_accepts (vector l) (vector P)) ltac:(cbn; congruence)) as (x & y & z & Ex). rewrite Ex. destruct (C79_parity _ _ _ _ _ Ex) as (-> & -> & L & ->). rewrite !ravel_vector.
  eexists. split; [reflexivity|]. intros p Hp. rewrite (nth_indep _ 0%Q ((fun q => (fst q - snd q)%Q) (0%Q, 0%Q))) by (rewrite map_length, combine_length; lia).
  rewrite (map_nth (fun q => (fst q - snd q)%Q)), combine_nth by congruence. reflexivity.
Qed.
(** After a fit it fails exactly if a gene names nothing recorded or a coefficient is missing. *)
Theorem C157_fails m g c n meta l : fitted m g c n meta l -> g <> [] -> l <> [] ->
  (~ all_recorded meta (m_ops m) g \/ List.length c < List.length g <-> exists e, legacy_parity m = Err e) /\
  (forall e, legacy_parity m = Err e -> e = IndexError \/ e = KeyError).
Proof.
  intros F NG NL. destruct F as (F1 & F2 & F3 & F4 & F5 & F6 & F7 & F8).
  assert (S : legacy_parity m = do p <- rhs_loop meta (m_ops m) g c (map (fun _ => 0%Q) l) ; Ok (Some (p, l))).
  { unfold legacy_parity. destruct (m_chrom m) as [|g' gs]; [discriminate|]. injection F1 as ->. destruct g as [|md g]; [congruence|]. destruct (m_coef m) as [|c' cs]; [discriminate|]. injection F2 as ->.
    destruct (m_name m) as [|n' ns]; [discriminate|]. injection F3 as ->. rewrite F4, F6. destruct l; [congruence|reflexivity]. }
  rewrite S. destruct (rhs_loop meta (m_ops m) g c (map (fun _ => 0%Q) l)) as [r|e] eqn:E; cbn [bind].
  - split; [|discriminate]. split; [|intros (e & X); discriminate]. intros [N|N]; [destruct (N (loop_recorded _ _ _ _ _ _ E))|destruct (loop_length _ _ _ _ _ _ E); lia].
  - split; [|intros e' [= <-]; refine (loop_err _ _ _ _ F7 F8 _ _ _ _ E); apply map_length]. split; [eauto|]. intros _.
    destruct (Nat.lt_ge_cases (List.length c) (List.length g)) as [H|H]; [now right|]. left. intros A.
    destruct (loop_ok meta (m_ops m) _ g F7 F8 A c (map (fun _ => 0%Q) l)) as (r & Er); [apply map_length|exact H|]. congruence.
Qed.
(** Without a fitted model, or when the left side was not recorded, only a warning is logged. *)
Theorem C157_warning m : (m_chrom m = [] \/ hd_error (m_chrom m) = Some [] \/
    (exists c n meta, hd_error (m_coef m) = Some c /\ hd_error (m_name m) = Some n /\ m_meta m = Some meta /\ meta n = None)) -> legacy_parity m = Ok None.
Proof.
  intros H. unfold legacy_parity. destruct (m_chrom m) as [|[|md g] gs]; [reflexivity|reflexivity|]. destruct H as [H|[H|(c & n & meta & A & B & C & D)]]; try discriminate.
  destruct (m_coef m); [discriminate|]. destruct (m_name m); [discriminate|]. injection B as ->. rewrite C, D. reflexivity.
Qed.
(** Conversely the new figure is drawn for models the older one rejects: it leaves out the terms it cannot evaluate. *)
Theorem C157_converse_refuted : exists m l R, parity_data m = VOk (Some (l, map (fun _ => 0%Q) l, R)) /\ legacy_parity m = Err KeyError /\ 0 < List.length l.
Proof.
  exists (mkM [[[1]]] [[3%Q]] ["u_t"] ["u"; "u_y"] (Some (fun s => if String.eqb s "u_t" then Some [4; 5]%Q else None))), [4; 5]%Q. eexists. split; [vm_compute; reflexivity|]. split; [reflexivity|cbn; lia].
Qed.
Example C157_case : legacy_parity demo = Ok (Some ([(0 + -1 * (1 * 3)) + (1 # 2) * 3; (0 + -1 * (2 * 4)) + (1 # 2) * 4]%Q, [-2; -8]%Q)) /\
  fitted demo [[0; 1]; [1]] [-1; 1 # 2]%Q "u_t" demo_meta [-2; -8]%Q /\ all_recorded demo_meta (m_ops demo) [[0; 1]; [1]].
Proof.
  split; [vm_compute; reflexivity|]. split.
  - repeat split; try discriminate; [|repeat constructor; discriminate]. intros o col. unfold demo_meta.
    destruct (String.eqb o "u"); [intros [= <-]; reflexivity|]. destruct (String.eqb o "u_x"); [intros [= <-]; reflexivity|]. destruct (String.eqb o "u_t"); [intros [= <-]; reflexivity|discriminate].
  - intros md k I J. cbn in I. destruct I as [<-|[<-|[]]]; cbn in J; repeat (destruct J as [<-|J]; [eexists; split; [reflexivity|vm_compute; discriminate]|]); destruct J.
Qed.

(** ** C158 *)
Lemma get_all_recorded meta l : Forall (fun v => meta v <> None) l -> Forall2 (fun v c => meta v = Some c) l (get_all meta l).
Proof.
  induction 1 as [|v l H F IH]; [constructor|]. unfold get_all in *. cbn [flat_map]. destruct (meta v) as [c|] eqn:E; [|congruence]. constructor; [exact E|exact IH].
Qed.
Lemma product_names meta N l : (forall v c, meta v = Some c -> List.length c = N) -> Forall (fun v => meta v <> None) l -> l <> [] ->
  exists P, product (get_all meta l) = Ok P /\ List.length P = N /\ forall p, (nth p P 0 == product_at meta l p)%Q.
Proof.
  intros H F NE. pose proof (get_all_recorded meta l F) as G. assert (FL : Forall (fun c : column => List.length c = N) (get_all meta l)).
  { clear NE F. induction G as [|v c l cs E G IH]; constructor; [eapply H, E|exact IH]. }
  assert (NC : get_all meta l <> []) by (destruct G; [congruence|discriminate]). destruct (prod_cols_spec N _ NC FL) as [L V].
  exists (prod_cols (get_all meta l)). split; [exact (product_ok N _ FL)|]. split; [exact L|]. intros p. rewrite V. clear - G.
  induction G as [|v c l cs E G IH]; [reflexivity|]. cbn [fold_right product_at]. rewrite E, IH. reflexivity.
Qed.
Lemma all_recorded_names meta l : forallb (recorded meta) l = true <-> Forall (fun v => meta v <> None) l.
Proof.
  rewrite forallb_forall, Forall_forall. unfold recorded. split; intros H v I; specialize (H v I); destruct (meta v); congruence.
Qed.
Definition coloured (color : option string) : list string := match color with Some c => if String.eqb c "" then [] else [c] | None => [] end.
(** When every variable asked for is recorded (all columns of one length), a figure is drawn: each point at the two
    products, coloured by the colour variable, whose values make the histogram. *)
Theorem C158_chart meta N x y color : (forall v c, meta v = Some c -> List.length c = N) -> vars x <> [] -> vars y <> [] ->
  Forall (fun v => meta v <> None) (vars x ++ vars y ++ coloured color) ->
  exists d, equation_terms meta x y color = Ok (Some d) /\ List.length (ch_x d) = N /\ List.length (ch_y d) = N /\
    (forall p, (nth p (ch_x d) 0 == product_at meta (vars x) p)%Q /\ (nth p (ch_y d) 0 == product_at meta (vars y) p)%Q) /\
    ch_color d = ch_hist d /\ (forall c, color = Some c -> ch_color d = meta c) /\ (color = None -> ch_color d = None).
Proof.
  intros H NX NY F. pose proof F as F'. apply Forall_app in F' as [FX F']. apply Forall_app in F' as [FY _].
  destruct (product_names meta N _ H FX NX) as (PX & EX & LX & VX). destruct (product_names meta N _ H FY NY) as (PY & EY & LY & VY).
  unfold equation_terms. destruct x as [xs xl], y as [ys yl]. cbn [vars label] in *. destruct xs as [|x xs]; [congruence|]. destruct ys as [|y ys]; [congruence|].
  apply all_recorded_names in F. unfold coloured in F. rewrite F, EX, EY. cbn [bind]. rewrite LX, LY, Nat.eqb_refl. cbn [negb].
  destruct color as [c|]; [destruct (meta c) as [col|] eqn:Ec|].
  - rewrite (H c col Ec), Nat.eqb_refl. eexists. split; [reflexivity|]. cbn. repeat (split; [assumption || reflexivity || (intros; split; [apply VX|apply VY]) || (intros ? [= <-]; congruence)|]). discriminate.
  - eexists. split; [reflexivity|]. cbn. repeat (split; [assumption || reflexivity || (intros; split; [apply VX|apply VY]) || (intros ? [= <-]; congruence)|]). discriminate.
  - eexists. split; [reflexivity|]. cbn. repeat (split; [assumption || reflexivity || (intros; split; [apply VX|apply VY]) || discriminate|]). reflexivity.
Qed.
(** A figure is left out, with a warning, exactly if an axis names no variable or some variable is not recorded. *)
Theorem C158_warning meta N x y color : (forall v c, meta v = Some c -> List.length c = N) ->
  (equation_terms meta x y color = Ok None <-> vars x = [] \/ vars y = [] \/ exists v, In v (vars x ++ vars y ++ coloured color) /\ meta v = None).
Proof.
  intros H. destruct (vars x) as [|a xs] eqn:EX; [unfold equation_terms; rewrite EX; split; auto|].
  destruct (vars y) as [|b ys] eqn:EY; [unfold equation_terms; rewrite EX, EY; split; auto|].
  destruct (forallb (recorded meta) (vars x ++ vars y ++ coloured color)) eqn:B.
  - assert (F := B). apply all_recorded_names in F. destruct (C158_chart meta N x y color H ltac:(congruence) ltac:(congruence) F) as (d & E & _). rewrite E. split; [discriminate|].
    rewrite EX, EY in F. intros [X|[X|(v & I & M)]]; try discriminate. rewrite Forall_forall in F. destruct (F v I M).
  - unfold equation_terms. rewrite EX, EY in *. unfold coloured in B. rewrite B. split; [|reflexivity]. intros _. right. right.
    apply not_true_iff_false in B. assert (X : exists v, In v ((a :: xs) ++ (b :: ys) ++ coloured color) /\ recorded meta v = false).
    { unfold coloured. revert B. generalize ((a :: xs) ++ (b :: ys) ++ match color with Some c => if String.eqb c "" then [] else [c] | None => [] end). clear.
      intros l. induction l as [|v l IH]; cbn; [congruence|]. intros B. destruct (recorded meta v) eqn:R; [|exists v; auto]. destruct IH as (w & I & W); [exact B|]. exists w. auto. }
    destruct X as (v & I & R). exists v. split; [exact I|]. unfold recorded in R. destruct (meta v); [discriminate|reflexivity].
Qed.
(** An axis is labelled as the caller says. *)
Theorem C158_labels meta x y color d : equation_terms meta x y color = Ok (Some d) ->
  (forall s, label x = Some s -> ch_xlabel d = s) /\ (forall s, label y = Some s -> ch_ylabel d = s).
Proof.
  unfold equation_terms. destruct (vars x); [discriminate|]. destruct (vars y); [discriminate|]. destruct (forallb _ _); [|discriminate].
  destruct (product _); [|discriminate]. cbn [bind]. destruct (product _); [|discriminate]. cbn [bind]. destruct (negb _); [discriminate|]. intros E.
  assert (X : forall s, label x = Some s -> ch_xlabel d = s).
  { intros lab0 Elab; rewrite Elab in *. destruct color as [c|]; [destruct (meta c); [destruct (_ =? _); [|discriminate]|]|]; injection E as <-; reflexivity. }
  split; [exact X|]. intros lab0 Elab; rewrite Elab in *. destruct color as [c|]; [destruct (meta c); [destruct (_ =? _); [|discriminate]|]|]; injection E as <-; reflexivity.
Qed.
(** The default label of a product reads as a difference. *)
Theorem C158_default_label_refuted : exists meta d, equation_terms meta (mkTerm ["u"; "u_x"] None) (mkTerm ["u_t"] None) (Some "u_t") = Ok (Some d) /\
  ch_xlabel d = "u-u_x" /\ ch_x d = [1 * 3; 2 * 4]%Q.
Proof. exists demo_meta. eexists. split; [vm_compute; reflexivity|]. split; reflexivity. Qed.
Example C158_case : exists d, equation_terms demo_meta (mkTerm ["u"; "u_x"] (Some "uu_x")) (mkTerm ["u"] None) None = Ok (Some d) /\ ch_xlabel d = "uu_x" /\ ch_ylabel d = "u" /\ ch_hist d = None /\
  equation_terms demo_meta (mkTerm ["u"; "u_xx"] None) (mkTerm ["u"] None) None = Ok None.
Proof. eexists. split; [vm_compute; reflexivity|]. repeat split. Qed.

(** ** C159 *)
Lemma field_ok {A} (f : generation -> option A) h l : field f h = Ok l <-> Forall2 (fun e v => f e = Some v) h l.
Proof.
  revert l. induction h as [|e h IH]; intros l; unfold field in *; cbn [mapM].
  - split; [intros [= <-]; constructor|]. intros H. inversion H. reflexivity.
  - destruct (f e) as [v|] eqn:E; cbn [bind].
    + destruct (mapM _ h) as [r|x] eqn:R; cbn [bind].
      * split; [intros [= <-]; constructor; [exact E|apply IH; reflexivity]|]. intros H. inversion H as [|? w ? r' X Y]; subst. apply IH in Y. rewrite E in X. injection X as ->. injection Y as ->. reflexivity.
      * split; [discriminate|]. intros H. inversion H as [|? w ? r' X Y]; subst. apply IH in Y. discriminate.
    + split; [discriminate|]. intros H. inversion H as [|? w ? r' X Y]; subst. congruence.
Qed.
Lemma field_err {A} (f : generation -> option A) h x : field f h = Err x -> x = KeyError /\ exists e, In e h /\ f e = None.
Proof.
  revert x. induction h as [|e h IH]; intros x H; unfold field in *; cbn [mapM] in H; [discriminate|]. destruct (f e) as [v|] eqn:E; cbn [bind] in H.
  - destruct (mapM _ h) as [r|y]; [discriminate|]. cbn [bind] in H. injection H as <-. destruct (IH y eq_refl) as [X (w & I & W)]. split; [exact X|]. exists w. split; [now right|exact W].
  - injection H as <-. split; [reflexivity|]. exists e. split; [now left|exact E].
Qed.
(** The curves are the recorded fitness and complexity of each generation; the summary names those of the first and the
    last one, and the improvement as the relative change in percent. *)
Theorem C159_curves h f c s : plot_evolution h = Ok (f, c, s) ->
  Forall2 (fun e v => g_fitness e = Some v) h f /\ Forall2 (fun e v => g_complexity e = Some v) h c /\
  (exists e, hd_error h = Some e /\ g_fitness e = Some (s_first s) /\ g_complexity e = Some (s_cfirst s)) /\
  (exists h' e, h = h' ++ [e] /\ g_fitness e = Some (s_last s) /\ g_complexity e = Some (s_clast s)) /\
  (~ s_first s == 0 -> exists i, s_improvement s = Some i /\ i * s_first s == 100 * (s_first s - s_last s))%Q /\ (s_first s == 0 -> s_improvement s = None)%Q.
Proof.
  intros H. unfold plot_evolution in H. destruct h as [|e h]; [discriminate|]. destruct (field g_fitness (e :: h)) as [f'|] eqn:F; [|discriminate]. cbn [bind] in H.
  destruct (field g_complexity (e :: h)) as [c'|] eqn:C; [|discriminate]. cbn [bind] in H. injection H as <- <- <-. apply field_ok in F, C. split; [exact F|]. split; [exact C|]. cbn [s_first s_last s_cfirst s_clast s_improvement].
  assert (LST : forall A (g : generation -> option A) d h l, Forall2 (fun e v => g e = Some v) h l -> h <> [] -> g (last h e) = Some (last l d)).
  { intros A g d h0 l F0. induction F0 as [|x v h0 l X F0 IH]; [congruence|]. intros _. destruct F0 as [|x' v' h1 l1 X' F1]; [exact X|]. apply IH. discriminate. }
  split; [|split; [|split]].
  - exists e. split; [reflexivity|]. inversion F; inversion C; subst. cbn. auto.
  - exists (removelast (e :: h)), (last (e :: h) e). split; [apply app_removelast_last; discriminate|]. split; [apply LST; [exact F|discriminate]|apply LST; [exact C|discriminate]].
  - intros N. destruct (Qeq_bool (hd 0%Q f') 0) eqn:B; [apply Qeq_bool_iff in B; contradiction|]. eexists. split; [reflexivity|]. field. exact N.
  - intros Z. destruct (Qeq_bool (hd 0%Q f') 0) eqn:B; [reflexivity|]. apply Qeq_bool_neq in B. contradiction.
Qed.
(** For a fitness that starts positive (smaller is better) the improvement is positive exactly if the fitness became
    smaller, and at most 100 if it stays nonnegative. *)
Theorem C159_improvement h f c s : plot_evolution h = Ok (f, c, s) -> (0 < s_first s)%Q ->
  exists i, s_improvement s = Some i /\ ((0 < i <-> s_last s < s_first s) /\ (0 <= s_last s -> i <= 100))%Q.
Proof.
  intros H P. destruct (C159_curves h f c s H) as (_ & _ & _ & _ & I & _). destruct I as (i & E & Q); [lra|]. exists i. split; [exact E|]. split; [split; intros L; nra|intros L; nra].
Qed.
(** Without a history it is refused with ValueError, with an incomplete entry with KeyError; otherwise it is drawn. *)
Theorem C159_refused h : (h = [] <-> plot_evolution h = Err ValueError) /\
  (plot_evolution h = Err KeyError <-> exists e, In e h /\ (g_fitness e = None \/ g_complexity e = None)) /\
  (h <> [] -> Forall (fun e => g_fitness e <> None /\ g_complexity e <> None) h -> exists r, plot_evolution h = Ok r).
Proof.
  unfold plot_evolution. destruct h as [|e h]; [split; [split; reflexivity|split; [split; [discriminate|intros (x & [] & _)]|congruence]]|].
  destruct (field g_fitness (e :: h)) as [f|x] eqn:F; cbn [bind].
  - destruct (field g_complexity (e :: h)) as [c|x] eqn:C; cbn [bind].
    + split; [split; discriminate|]. split; [|eauto]. split; [discriminate|]. apply field_ok in F, C. intros (w & I & D). exfalso.
      assert (X : forall A (g : generation -> option A) h l, Forall2 (fun e v => g e = Some v) h l -> In w h -> g w <> None).
      { intros A g h0 l F0. induction F0 as [|? ? ? ? X F0 IH]; [intros []|]. intros [<-|I0]; [congruence|auto]. }
      destruct D as [D|D]; [apply (X _ _ _ _ F I D)|apply (X _ _ _ _ C I D)].
    + apply field_err in C as [-> (w & I & D)]. split; [split; discriminate|]. split; [split; [intros _; exists w; auto|reflexivity]|].
      intros _ A. rewrite Forall_forall in A. destruct (A w I). contradiction.
  - apply field_err in F as [-> (w & I & D)]. split; [split; discriminate|]. split; [split; [intros _; exists w; auto|reflexivity]|].
    intros _ A. rewrite Forall_forall in A. destruct (A w I). contradiction.
Qed.
(** A fitness that gets worse from a negative start is reported as an improvement. *)
Theorem C159_negative_refuted : exists h f c s i, plot_evolution h = Ok (f, c, s) /\ s_improvement s = Some i /\ (0 < i)%Q /\ (s_first s < s_last s)%Q.
Proof. exists [mkGen (Some (-1)%Q) (Some 2); mkGen (Some 1%Q) (Some 2)]. do 4 eexists. split; [vm_compute; reflexivity|]. split; [reflexivity|]. split; reflexivity. Qed.
Example C159_case : exists f c s, plot_evolution [mkGen (Some 4%Q) (Some 3); mkGen (Some 2%Q) (Some 5); mkGen (Some 1%Q) (Some 2)] = Ok (f, c, s) /\ (0 < s_first s)%Q /\ (exists i, s_improvement s = Some i /\ i == 75)%Q /\ s_clast s = 2.
Proof. do 3 eexists. split; [vm_compute; reflexivity|]. split; [reflexivity|]. split; [eexists; split; reflexivity|reflexivity]. Qed.

(** ** C160 *)
(** The largest size of an entry of [l]. *)
Definition largest (l : list Q) (m : Q) : Prop := (forall x, In x l -> (Qabs x <= m)%Q) /\ exists x, In x l /\ m = Qabs x.
Lemma count_pos (l : list Q) : l <> [] -> ~ (inject_Z (Z.of_nat (List.length l)) == 0)%Q.
Proof. destruct l; [congruence|]. intros _ H. unfold Qeq in H. cbn in H. lia. Qed.
Lemma summarize_spec r : r <> [] -> let s := summarize r in rs_count s = List.length r /\ largest r (rs_max s) /\
  (rs_mean s * inject_Z (Z.of_nat (List.length r)) == sum r)%Q /\ (rs_var s * inject_Z (Z.of_nat (List.length r)) == sum (map (fun x => (x - rs_mean s) * (x - rs_mean s)) r))%Q.
Proof.
  intros NE s. pose proof (count_pos r NE) as Z. pose proof (C97_summary r NE) as C. cbn in C. destruct C as (M & A & B & _).
  split; [reflexivity|]. split; [split; [exact A|exact B]|]. split; [exact M|]. unfold s, summarize, rs_var, rs_mean. unfold mean at 1. rewrite map_length. unfold sum. field. exact Z.
Qed.
Lemma sum_ext {A} (f g : A -> Q) l : (forall x, In x l -> f x == g x)%Q -> (sum (map f l) == sum (map g l))%Q.
Proof. induction l as [|a l IH]; intros H; [reflexivity|]. unfold sum in *. cbn. rewrite (H a (or_introl eq_refl)), IH; [reflexivity|]. intros x I. apply H. now right. Qed.
Lemma sum_sub {A} (f g : A -> Q) l : (sum (map (fun x => f x - g x) l) == sum (map f l) - sum (map g l))%Q.
Proof. induction l as [|a l IH]; [reflexivity|]. unfold sum in *. cbn. rewrite IH. ring. Qed.
(** Without residuals of the caller's, the report is about actual - predicted at each entry: their mean, the square of
    their standard deviation, their largest size and their number. *)
Theorem C160_report a p av pv : shape a = shape p -> 0 < size a ->
  exists s, residual_report (Some a) av (Some p) pv None = VOk (Some s) /\
    let r := map (fun i => (at_ a i - at_ p i)%Q) (indices (shape a)) in
    rs_count s = size a /\ largest r (rs_max s) /\ (rs_mean s * inject_Z (Z.of_nat (size a)) == sum (ravel a) - sum (ravel p))%Q /\
    (rs_var s * inject_Z (Z.of_nat (size a)) == sum (map (fun x => (x - rs_mean s) * (x - rs_mean s)) r))%Q.
Proof.
  intros S P. unfold residual_report, build_residual. cbn [prefer]. destruct (C79_residuals a p) as [_ H]. destruct (H S) as (d & -> & _ & _ & Sd & V).
  assert (R : ravel (r_residuals d) = map (fun i => (at_ a i - at_ p i)%Q) (indices (shape a))).
  { unfold ravel. rewrite Sd. apply map_ext_in. intros i I. apply V. apply indices_valid. exact I. }
  rewrite R. set (r := map (fun i => (at_ a i - at_ p i)%Q) (indices (shape a))). assert (L : List.length r = size a) by (unfold r; rewrite map_length; apply indices_length).
  destruct (summarize_spec r) as (C & M & A & W); [intros E; rewrite E in L; cbn in L; lia|]. rewrite L in C, A, W.
  assert (E : forall l, l <> [] -> match l with [] => VValueError | x :: l' => VOk (Some (summarize (x :: l'))) end = VOk (Some (summarize l))) by (intros [|x l]; [congruence|reflexivity]).
  rewrite E by (intros E'; rewrite E' in L; cbn in L; lia). exists (summarize r). split; [reflexivity|]. split; [exact C|]. split; [exact M|]. split; [|exact W]. rewrite A. unfold r. rewrite sum_sub. unfold ravel. rewrite S. reflexivity.
Qed.
(** The first of the two spellings that is given counts; without both fields the answer is a warning; fields of
    different shapes are refused, as are residuals of another shape. *)
Theorem C160_options a av p pv r : (residual_report None av p pv r = residual_report av None p pv r) /\ (residual_report a av None pv r = residual_report a av pv None r) /\
  (residual_report a av p pv r = VOk None <-> (a = None /\ av = None) \/ (p = None /\ pv = None)).
Proof.
  split; [destruct av; reflexivity|]. split; [destruct pv; reflexivity|]. unfold residual_report, build_residual.
  assert (E1 : prefer a av = None <-> a = None /\ av = None) by (destruct a; cbn; intuition congruence).
  assert (E2 : prefer p pv = None <-> p = None /\ pv = None) by (destruct p; cbn; intuition congruence).
  rewrite <- E1, <- E2. destruct (prefer a av) as [x|]; [|tauto]. destruct (prefer p pv) as [y|]; [|tauto]. split; [|intros [H|H]; discriminate].
  destruct (match r with None => _ | Some r => _ end); try discriminate. destruct (ravel _); discriminate.
Qed.
Theorem C160_refused a p av pv : (shape a <> shape p -> forall r, r = None \/ (exists x, r = Some x) -> residual_report (Some a) av (Some p) pv r = VValueError) /\
  (forall r, shape r <> shape a -> residual_report (Some a) av (Some p) pv (Some r) = VValueError).
Proof.
  unfold residual_report, build_residual. cbn [prefer]. split.
  - intros N r [->|(x & ->)]; [destruct (C79_residuals a p) as [H _]; rewrite (H N); reflexivity|]. unfold residual_init.
    destruct (shape_eqb (shape a) (shape p)) eqn:E; [apply shape_eqb_eq in E; contradiction|reflexivity].
  - intros r N. unfold residual_init. destruct (shape_eqb (shape a) (shape p)); [|reflexivity]. cbn [negb].
    destruct (shape_eqb (shape a) (shape r)) eqn:E; [apply shape_eqb_eq in E; congruence|reflexivity].
Qed.
(** Residuals given by the caller are reported whether or not they are the difference of the fields. *)
Theorem C160_given_refuted : exists a p r s, residual_report (Some a) None (Some p) None (Some r) = VOk (Some s) /\ shape a = shape p /\ (rs_max s == 0)%Q /\ (at_ a [0%nat] - at_ p [0%nat] == 5)%Q.
Proof. exists (vector [7]%Q), (vector [2]%Q), (vector [0]%Q). eexists. split; [vm_compute; reflexivity|]. split; [reflexivity|]. split; reflexivity. Qed.
Example C160_case : exists s, residual_report None (Some (vector [7; 2]%Q)) (Some (vector [2; 3]%Q)) None None = VOk (Some s) /\ (rs_mean s == 2)%Q /\ (rs_var s == 9)%Q /\ (rs_max s == 5)%Q /\ rs_count s = 2.
Proof. eexists. split; [vm_compute; reflexivity|]. repeat split. Qed.
Print Assumptions C157_points.
Print Assumptions C157_same_points.
Print Assumptions C157_fails.
Print Assumptions C157_warning.
Print Assumptions C157_converse_refuted.
Print Assumptions C158_chart.
Print Assumptions C158_warning.
Print Assumptions C158_labels.
Print Assumptions C158_default_label_refuted.
Print Assumptions C159_curves.
Print Assumptions C159_improvement.
Print Assumptions C159_refused.
Print Assumptions C159_negative_refuted.
Print Assumptions C160_report.
Print Assumptions C160_options.
Print Assumptions C160_refused.
Print Assumptions C160_given_refuted.
