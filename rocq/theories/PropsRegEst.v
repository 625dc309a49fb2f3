(** Properties of KD_Discover_Regression: C83 (estimator state), C84 (predictions), C85 (other
    estimators in the process), C86 (reward). *)
From Coq Require Import QArith Lqa.
From Verif Require Import Base Trees TreeFacts Library Execute ExecuteSpec ExecuteFacts TorchExec RegEst.

(** ** C83 *)
(** A fit is accepted when X is a matrix with as many rows as y has values and there are as many
    names, if any, as columns. *)
Definition well_shaped (f : fitcall) : Prop :=
  f_conv f = None /\ f_ndim f = 2 /\ f_rows f = f_ny f /\ (forall k, f_names f = Some k -> k = f_cols f).
(** The training of a fit finished with program [p]. *)
Definition trained (f : fitcall) (p : list token) : Prop := well_shaped f /\ f_setup f = None /\ f_train f = Ok p.
(** The fit returned. *)
Definition completed (f : fitcall) (p : list token) : Prop := trained f p /\ f_valid f = true.
(** [f] is the last event of the history with property [P]. *)
Definition last_fit (P : fitcall -> Prop) (evs : list event) (f : fitcall) : Prop :=
  exists evs1 evs2, evs = evs1 ++ EFit f :: evs2 /\ P f /\ forall g, In (EFit g) evs2 -> ~ P g.

Lemma validate_spec f : (validate f = Ok tt /\ well_shaped f) \/ (~ well_shaped f /\ exists e, validate f = Err e /\ (f_conv f = None -> e = ValueError)).
Proof.
  unfold validate, well_shaped. destruct (f_conv f) as [e|] eqn:Ec.
  { right. split; [intros [H _]; discriminate|]. exists e. split; [reflexivity|discriminate]. }
  destruct (Nat.eqb_spec (f_ndim f) 2) as [E1|E1]; cbn [negb]; [|right; split; [tauto|eauto]].
  destruct (Nat.eqb_spec (f_rows f) (f_ny f)) as [E2|E2]; cbn [negb]; [|right; split; [tauto|eauto]].
  destruct (f_names f) as [k|] eqn:E3; [|left; repeat split; auto; discriminate].
  destruct (Nat.eqb_spec k (f_cols f)) as [E4|E4]; cbn [negb].
  - left. repeat split; auto. intros k' H. injection H as <-. exact E4.
  - right. split; [|eauto]. intros (_ & _ & _ & H). apply E4. auto.
Qed.

(** A fit with wrongly shaped data raises ValueError and leaves the estimator as it was. *)
Theorem C83_rejected f e : ~ well_shaped f -> snd (fit f e) = e /\ exists x, fst (fit f e) = Err x /\ (f_conv f = None -> x = ValueError).
Proof.
  intros H. destruct (validate_spec f) as [[_ W]|(_ & x & E & Ex)]; [contradiction|].
  unfold fit. rewrite E. split; [reflexivity|]. exists x. auto.
Qed.
(** A well shaped fit returns its program exactly when setup, training and evaluation succeed. *)
Theorem C83_returns f e p : fst (fit f e) = Ok p <-> completed f p.
Proof.
  unfold completed, trained, fit. destruct (validate_spec f) as [[-> W]|(W & x & -> & Ex)].
  - destruct (f_setup f); [split; [discriminate|intros ((_ & H & _) & _); discriminate]|].
    destruct (f_train f) as [q|]; [|split; [discriminate|intros ((_ & _ & H) & _); discriminate]].
    destruct (f_valid f); cbn [fst].
    + split; [intros H; injection H as ->; auto|]. intros ((_ & _ & H) & _). exact H.
    + split; [discriminate|intros [_ H]; discriminate].
  - split; [discriminate|]. intros ((H & _) & _). contradiction.
Qed.

Lemma run_snoc w evs ev : run w (evs ++ [ev]) = step (run w evs) ev.
Proof. unfold run. rewrite fold_left_app. reflexivity. Qed.
Lemma last_fit_other P evs f t : last_fit P (evs ++ [EOther t]) f <-> last_fit P evs f.
Proof.
  split.
  - intros (a & b & E & Hp & Hn). destruct b as [|x b] using rev_ind.
    + apply app_inj_tail in E as [_ E]. discriminate.
    + clear IHb. rewrite app_comm_cons, app_assoc in E. apply app_inj_tail in E as [-> _]. exists a, b. repeat split; auto.
      intros g Hg. apply Hn. apply in_or_app. auto.
  - intros (a & b & -> & Hp & Hn). exists a, (b ++ [EOther t]). split; [rewrite <- app_assoc; reflexivity|]. split; [exact Hp|].
    intros g Hg. apply in_app_or in Hg as [Hg|[Hg|[]]]; [auto|discriminate].
Qed.
Lemma last_fit_snoc (P : fitcall -> Prop) evs f g : last_fit P (evs ++ [EFit g]) f <-> (P g /\ f = g) \/ (~ P g /\ last_fit P evs f).
Proof.
  split.
  - intros (a & b & E & Hp & Hn). destruct b as [|x b] using rev_ind.
    + apply app_inj_tail in E as [_ E]. injection E as ->. left. auto.
    + clear IHb. rewrite app_comm_cons, app_assoc in E. apply app_inj_tail in E as [-> <-]. right. split.
      * apply Hn. apply in_or_app. right. left. reflexivity.
      * exists a, b. repeat split; auto. intros h Hh. apply Hn. apply in_or_app. auto.
  - intros [[Hp ->]|[Hg (a & b & -> & Hp & Hn)]].
    + exists evs, []. split; [reflexivity|]. split; [exact Hp|]. intros h [].
    + exists a, (b ++ [EFit g]). split; [rewrite <- app_assoc; reflexivity|]. split; [exact Hp|].
      intros h Hh. apply in_app_or in Hh as [Hh|[Hh|[]]]; [auto|]. injection Hh as <-. exact Hg.
Qed.
Lemma last_fit_nil P f : ~ last_fit P [] f.
Proof. intros (a & b & E & _). destruct a; discriminate. Qed.

(** After any history the program used by predict is that of the last fit whose training finished, the
    number of columns demanded is that of the last accepted fit, and result_ is that of the last fit
    that returned. *)
Theorem C83_history ops torch evs :
  let e := w_est (run (mkW (est_init ops) torch) evs) in
  (forall p, e_best e = Some p <-> exists f, last_fit (fun f => exists q, trained f q) evs f /\ f_train f = Ok p) /\
  (forall d, e_width e = Some d <-> exists f, last_fit well_shaped evs f /\ f_cols f = d) /\
  (forall p, e_result e = Some p <-> exists f, last_fit (fun f => exists q, completed f q) evs f /\ f_train f = Ok p).
Proof.
  cbn zeta. induction evs as [|ev evs IH] using rev_ind.
  - cbn. repeat split; try discriminate; intros (f & H & _); destruct (last_fit_nil _ _ H).
  - rewrite run_snoc. set (w := run (mkW (est_init ops) torch) evs) in *. destruct IH as (I1 & I2 & I3). destruct ev as [g|t]; cbn [step w_est].
    + assert (Snoc : forall (P e0 : fitcall -> Prop), (exists f, last_fit P (evs ++ [EFit g]) f /\ e0 f) <-> ((P g /\ e0 g) \/ (~ P g /\ exists f, last_fit P evs f /\ e0 f))).
      { intros P e0. split.
        - intros (f & H & H0). apply last_fit_snoc in H as [[H ->]|[H H1]]; [left; auto|right; split; [exact H|eauto]].
        - intros [[H H0]|[H (f & H1 & H0)]]; [exists g|exists f]; (split; [apply last_fit_snoc; auto|exact H0]). }
      unfold fit. destruct (validate_spec g) as [[-> W]|(W & x & -> & Ex)]; cbn [snd].
      * destruct (f_setup g) as [x|] eqn:Es; [|destruct (f_train g) as [q|x] eqn:Et]; cbn [snd].
        -- assert (forall q, ~ trained g q) as NT by (intros q (_ & H & _); congruence).
           assert (forall q, ~ completed g q) as NC by (intros q (H & _); eapply NT; eauto).
           cbn [e_best e_width e_result]. split; [|split].
           ++ intros p. rewrite Snoc, I1. split; [intros H; right; split; [intros [q Hq]; eapply NT; eauto|exact H]|intros [[[q Hq] _]|[_ H]]; [destruct (NT _ Hq)|exact H]].
           ++ intros d. rewrite Snoc. split; [intros H; left; split; [exact W|congruence]|intros [[_ H]|[H _]]; [congruence|contradiction]].
           ++ intros p. rewrite Snoc, I3. split; [intros H; right; split; [intros [q Hq]; eapply NC; eauto|exact H]|intros [[[q Hq] _]|[_ H]]; [destruct (NC _ Hq)|exact H]].
        -- assert (trained g q) as HT by (repeat split; auto; apply W).
           destruct (f_valid g) eqn:Ev; cbn [snd e_best e_width e_result].
           ++ assert (completed g q) as HC by (split; auto). split; [|split].
              ** intros p. rewrite Snoc, Et. split; [intros H; left; split; [eauto|congruence]|intros [[_ H]|[H _]]; [congruence|destruct H; eauto]].
              ** intros d. rewrite Snoc. split; [intros H; left; split; [exact W|congruence]|intros [[_ H]|[H _]]; [congruence|contradiction]].
              ** intros p. rewrite Snoc, Et. split; [intros H; left; split; [eauto|congruence]|intros [[_ H]|[H _]]; [congruence|destruct H; eauto]].
           ++ assert (forall q, ~ completed g q) as NC by (intros q' [_ H]; congruence). split; [|split].
              ** intros p. rewrite Snoc, Et. split; [intros H; left; split; [eauto|congruence]|intros [[_ H]|[H _]]; [congruence|destruct H; eauto]].
              ** intros d. rewrite Snoc. split; [intros H; left; split; [exact W|congruence]|intros [[_ H]|[H _]]; [congruence|contradiction]].
              ** intros p. rewrite Snoc, I3. split; [intros H; right; split; [intros [q' Hq]; eapply NC; eauto|exact H]|intros [[[q' Hq] _]|[_ H]]; [destruct (NC _ Hq)|exact H]].
        -- assert (forall q, ~ trained g q) as NT by (intros q (_ & _ & H); congruence).
           assert (forall q, ~ completed g q) as NC by (intros q (H & _); eapply NT; eauto).
           cbn [e_best e_width e_result]. split; [|split].
           ++ intros p. rewrite Snoc, I1. split; [intros H; right; split; [intros [q Hq]; eapply NT; eauto|exact H]|intros [[[q Hq] _]|[_ H]]; [destruct (NT _ Hq)|exact H]].
           ++ intros d. rewrite Snoc. split; [intros H; left; split; [exact W|congruence]|intros [[_ H]|[H _]]; [congruence|contradiction]].
           ++ intros p. rewrite Snoc, I3. split; [intros H; right; split; [intros [q Hq]; eapply NC; eauto|exact H]|intros [[[q Hq] _]|[_ H]]; [destruct (NC _ Hq)|exact H]].
      * assert (forall q, ~ trained g q) as NT by (intros q (H & _); contradiction).
        assert (forall q, ~ completed g q) as NC by (intros q (H & _); eapply NT; eauto). split; [|split].
        -- intros p. rewrite Snoc, I1. split; [intros H; right; split; [intros [q Hq]; eapply NT; eauto|exact H]|intros [[[q Hq] _]|[_ H]]; [destruct (NT _ Hq)|exact H]].
        -- intros d. rewrite Snoc, I2. split; [intros H; right; auto|intros [[H _]|[_ H]]; [contradiction|exact H]].
        -- intros p. rewrite Snoc, I3. split; [intros H; right; split; [intros [q Hq]; eapply NC; eauto|exact H]|intros [[[q Hq] _]|[_ H]]; [destruct (NC _ Hq)|exact H]].
    + assert (O : forall (P e0 : fitcall -> Prop), (exists f, last_fit P (evs ++ [EOther t]) f /\ e0 f) <-> (exists f, last_fit P evs f /\ e0 f)).
      { intros P e0. split; intros (f & H & H0); exists f; (split; [|exact H0]); apply (last_fit_other P evs f t); exact H. }
      split; [|split]; intros p.
      * rewrite O. apply I1.
      * rewrite O. apply I2.
      * rewrite O. apply I3.
Qed.

(** If every accepted fit of the history returned, the three belong to one fit: predict uses the
    program of result_ and demands the columns that program was trained on. *)
Theorem C83_consistent ops torch evs :
  (forall f, In (EFit f) evs -> well_shaped f -> exists p, completed f p) ->
  let e := w_est (run (mkW (est_init ops) torch) evs) in
  forall d, e_width e = Some d ->
  exists f p, In (EFit f) evs /\ completed f p /\ f_cols f = d /\ e_best e = Some p /\ e_result e = Some p.
Proof.
  intros HC. cbn zeta. intros d Hd. destruct (C83_history ops torch evs) as (I1 & I2 & I3).
  apply I2 in Hd as (f & (a & b & E & W & N) & Hd). assert (In (EFit f) evs) as Hin by (rewrite E; apply in_or_app; right; left; reflexivity).
  destruct (HC f Hin W) as [p Hp]. exists f, p. split; [exact Hin|]. split; [exact Hp|]. split; [exact Hd|]. split.
  - apply I1. exists f. split; [|apply Hp]. exists a, b. split; [exact E|]. split; [exists p; apply Hp|].
    intros g Hg [q (Wg & _)]. exact (N g Hg Wg).
  - apply I3. exists f. split; [|apply Hp]. exists a, b. split; [exact E|]. split; [exists p; exact Hp|].
    intros g Hg [q ((Wg & _) & _)]. exact (N g Hg Wg).
Qed.

(** The operators: as given by the user, followed by one "const" when they do not contain it; an empty
    list stays empty (the configured function set is used). *)
Theorem C83_operators ops torch evs :
  let ops' := e_ops (w_est (run (mkW (est_init ops) torch) evs)) in
  ops' = if existsb (fun ev => match ev with EFit f => reaches_setup f | EOther _ => false end) evs
         then (match ops with [] => [] | _ => if in_dec string_dec "const"%string ops then ops else ops ++ ["const"%string] end)
         else ops.
Proof.
  cbn zeta. assert (WC : forall l, with_const l = match l with [] => [] | _ => if in_dec string_dec "const"%string l then l else l ++ ["const"%string] end).
  { intros [|a l]; [reflexivity|]. unfold with_const. destruct (existsb (String.eqb "const") (a :: l)) eqn:E.
    - apply existsb_exists in E as (x & Hx & E). apply String.eqb_eq in E as <-. destruct (in_dec string_dec "const"%string (a :: l)); [reflexivity|contradiction].
    - destruct (in_dec string_dec "const"%string (a :: l)) as [i|_]; [|reflexivity]. exfalso.
      apply not_true_iff_false in E. apply E. apply existsb_exists. exists "const"%string. split; [exact i|reflexivity]. }
  assert (ID : forall l, with_const (with_const l) = with_const l).
  { intros l. rewrite !WC. destruct l as [|a l]; [reflexivity|]. destruct (in_dec string_dec "const"%string (a :: l)) as [i|n].
    - destruct (in_dec string_dec "const"%string (a :: l)); [reflexivity|contradiction].
    - cbn [app]. destruct (in_dec string_dec "const"%string (a :: l ++ ["const"%string])) as [_|n']; [reflexivity|].
      exfalso. apply n'. right. apply in_or_app. right. left. reflexivity. }
  rewrite <- WC. induction evs as [|ev evs IH] using rev_ind; [reflexivity|]. rewrite run_snoc, existsb_app. cbn [existsb]. rewrite orb_false_r.
  set (w := run (mkW (est_init ops) torch) evs) in *. destruct ev as [f|t]; cbn [step w_est]; [|rewrite orb_false_r; exact IH].
  unfold reaches_setup, fit. destruct (validate f) as [u|x]; cbn [snd]; [|rewrite orb_false_r; exact IH]. rewrite orb_true_r.
  assert (with_const (e_ops (w_est w)) = with_const ops) as <-.
  { rewrite IH. destruct (existsb _ evs); [apply ID|reflexivity]. }
  destruct (f_setup f); [reflexivity|]. destruct (f_train f); [|reflexivity]. destruct (f_valid f); reflexivity.
Qed.

(** A later fit that fails while training leaves the earlier program behind with the new number of
    columns: predict then rejects the data the program was trained on and accepts other data. *)
Definition x_tok (i : nat) : token := mkTok "x" 0 (Some i) None None.
Definition add_tok : token := mkTok "add" 2 None None None.
Definition c83_first : fitcall := mkFit None 2 3 2 3 None None (Ok [add_tok; x_tok 0; x_tok 1]) true.
Definition c83_second : fitcall := mkFit None 2 3 4 3 None None (Err RuntimeError) true.
Theorem C83_failed_refit_refuted :
  exists e, e = w_est (run (mkW (est_init []) false) [EFit c83_first; EFit c83_second]) /\
    e_best e = Some [add_tok; x_tok 0; x_tok 1] /\ e_result e = Some [add_tok; x_tok 0; x_tok 1] /\
    predict (fun _ es => fold_right Z.add 0%Z es) (fun _ => None) 0%Z false e 2 2 [[1; 2]; [3; 4]]%Z = Err ValueError /\
    predict (fun _ es => fold_right Z.add 0%Z es) (fun _ => None) 0%Z false e 2 4 [[1; 2; 0; 0]; [3; 4; 0; 0]]%Z = Ok [3; 7]%Z.
Proof. eexists. split; [reflexivity|]. vm_compute. repeat split; reflexivity. Qed.

Example C83_case : completed c83_first [add_tok; x_tok 0; x_tok 1] /\ well_shaped c83_second /\ ~ well_shaped (mkFit None 2 3 4 5 None None (Err RuntimeError) true).
Proof.
  repeat split; try discriminate. intros (_ & _ & H & _). discriminate.
Qed.

(** ** C84 *)
Lemma Forall2_nth {A B} (R : A -> B -> Prop) l ys : Forall2 R l ys -> forall k a, nth_error l k = Some a -> exists y, nth_error ys k = Some y /\ R a y.
Proof.
  induction 1 as [|a y l ys Ha _ IH]; intros k b Hk; [destruct k; discriminate|].
  destruct k as [|k]; cbn in Hk |- *; [injection Hk as <-; eauto|auto].
Qed.
Section Rows.
Context {E : Type}.
Variables (op : token -> list E -> E) (const : token -> option E) (zero : E).
(** The value of an expression at one data row: input variables are the entries of the row. *)
Definition seqo (f : tree token -> option E) : list (tree token) -> option (list E) :=
  fix go l := match l with
              | [] => Some []
              | t :: l' => match f t, go l' with Some v, Some vs => Some (v :: vs) | _, _ => None end
              end.
Fixpoint value_at (row : list E) (t : tree token) : option E :=
  match t with
  | Nd tok cs =>
      match tinput tok with
      | Some i => nth_error row i
      | None => match cs with
                | [] => const tok
                | _ => option_map (op tok) (seqo (value_at row) cs)
                end
      end
  end.
(** An expression over [d] input variables built from elementwise operators and constants. *)
Inductive regression_tree (d : nat) : tree token -> Prop :=
| rt_var tok i : tinput tok = Some i -> i < d -> regression_tree d (Nd tok [])
| rt_const tok : tinput tok = None -> tparam tok = None -> tstate tok = None -> has_diff (tname tok) = false -> regression_tree d (Nd tok [])
| rt_op tok cs : tinput tok = None -> tparam tok = None -> tstate tok = None -> has_diff (tname tok) = false -> is_lap (tname tok) = false ->
    cs <> [] -> Forall (regression_tree d) cs -> regression_tree d (Nd tok cs).
(** All constants of the expression have values. *)
Inductive constants_set : tree token -> Prop :=
| cs_nd tok cs : (cs = [] -> tinput tok = None -> const tok <> None) -> Forall constants_set cs -> constants_set (Nd tok cs).

Section Proof.
Variables (d : nat) (rows : list (list E)).
Hypothesis width : Forall (fun r => List.length r = d) rows.
Let n := List.length rows.
Let x := columns zero d rows.
Definition good (a : arr E) (t : tree token) : Prop :=
  (match a with Col l => List.length l = n | One _ => True | Scal _ => False end) /\
  forall k row, nth_error rows k = Some row -> exists y, entry a k = Some y /\ value_at row t = Some y.

Lemma entries_good args cs : Forall2 good args cs -> forall k row, nth_error rows k = Some row ->
  exists es, entries args k = Some es /\ seqo (value_at row) cs = Some es.
Proof.
  induction 1 as [|a t args cs [_ G] _ IH]; intros k row Hk; [exists []; auto|].
  destruct (G k row Hk) as (y & E1 & E2). destruct (IH k row Hk) as (es & E3 & E4).
  exists (y :: es). cbn [entries]. rewrite E1, E3. split; [reflexivity|]. cbn [seqo]. rewrite E2. fold (seqo (value_at row)). rewrite E4. reflexivity.
Qed.
Lemma all_some_map {A B} (f : A -> option B) l : (forall k, In k l -> f k <> None) ->
  exists ys, all_some (map f l) = Some ys /\ Forall2 (fun k y => f k = Some y) l ys.
Proof.
  induction l as [|k l IH]; intros H; [exists []; split; [reflexivity|constructor]|].
  destruct (f k) as [y|] eqn:Ek; [|destruct (H k (or_introl eq_refl) Ek)].
  destruct IH as (ys & E1 & E2); [intros j Hj; apply H; right; exact Hj|]. exists (y :: ys). cbn [map all_some]. rewrite Ek, E1. split; [reflexivity|constructor; assumption].
Qed.
Lemma rows_of_cases args cs : Forall2 good args cs ->
  (rows_of args = Some n /\ forallb (same_rows n) args = true) \/
  (rows_of args = None /\ forall k, entries args k = entries args 0) .
Proof.
  assert (SR : forall args cs, Forall2 good args cs -> forallb (same_rows n) args = true).
  { induction 1 as [|a t args' cs' [G _] _ IH]; [reflexivity|]. cbn [forallb]. rewrite IH, andb_true_r.
    destruct a; cbn; [apply Nat.eqb_eq; exact G|reflexivity|reflexivity]. }
  intros H. pose proof (SR _ _ H) as S0. clear SR. induction H as [|a t args cs [G _] H IH]; [right; auto|].
  cbn [forallb] in S0. apply andb_true_iff in S0 as [Sa Sr]. destruct a as [l|e|e]; cbn [rows_of] in *.
  - left. rewrite G. split; [reflexivity|]. cbn [forallb]. rewrite Sa, Sr. reflexivity.
  - destruct (IH Sr) as [[I1 _]|[I1 I2]]; [left; split; [exact I1|cbn [forallb]; rewrite Sr; reflexivity]|right; split; [exact I1|]].
    intros k. cbn [entries entry]. rewrite I2. reflexivity.
  - destruct G.
Qed.
Lemma one_entries args cs : Forall2 good args cs -> rows_of args = None -> exists es, entries args 0 = Some es.
Proof.
  induction 1 as [|a t args cs [G _] H IH]; intros R; [exists []; reflexivity|]. destruct a as [l|e|e]; cbn [rows_of] in R; [discriminate| |destruct G].
  destruct (IH R) as [es Es]. exists (e :: es). cbn [entries entry]. rewrite Es. reflexivity.
Qed.
Lemma lift_good tok args cs : cs <> [] -> tinput tok = None -> Forall2 good args cs -> exists a, lift (op tok) args = Some a /\ good a (Nd tok cs).
Proof.
  intros H0 Ht H. unfold lift.
  assert (V : forall k row, nth_error rows k = Some row -> exists es, entries args k = Some es /\ value_at row (Nd tok cs) = Some (op tok es)).
  { intros k row Hk. destruct (entries_good _ _ H k row Hk) as (es & E1 & E2). exists es. split; [exact E1|].
    cbn [value_at]. rewrite Ht. destruct cs; [congruence|]. fold (value_at row). change (option_map (op tok) (seqo (value_at row) (t :: cs)) = Some (op tok es)). rewrite E2. reflexivity. }
  destruct (rows_of_cases _ _ H) as [[-> ->]|[R I]].
  - destruct (all_some_map (fun k => option_map (op tok) (entries args k)) (seq 0 n)) as (ys & E1 & E2).
    { intros k Hk. apply in_seq in Hk. destruct (nth_error rows k) as [row|] eqn:Er; [|apply nth_error_None in Er; unfold n in Hk; lia].
      destruct (V k row Er) as (es & -> & _). discriminate. }
    rewrite E1. eexists. split; [reflexivity|]. split; [rewrite <- (seq_length n 0); clear - E2; induction E2; cbn; congruence|].
    intros k row Hk. destruct (V k row Hk) as (es & Ee & Ev). exists (op tok es). split; [|exact Ev]. cbn [entry].
    assert (Hkn : k < n) by (unfold n; apply nth_error_Some; congruence).
    assert (nth_error (seq 0 n) k = Some k) as Hs.
    { rewrite (nth_error_nth' _ 0) by (rewrite seq_length; exact Hkn). rewrite seq_nth by exact Hkn. reflexivity. }
    destruct (Forall2_nth _ _ _ E2 _ _ Hs) as (y & Ey & Hy). rewrite Ee in Hy. cbn in Hy. rewrite Ey. symmetry. exact Hy.
  - rewrite R. destruct (one_entries _ _ H R) as [es Es]. rewrite Es. cbn [option_map].
    assert (forallb is_scal args = false) as ->.
    { destruct H as [|a t args cs [G _] _]; [congruence|]. destruct a; [reflexivity|reflexivity|destruct G]. }
    eexists. split; [reflexivity|]. split; [constructor|]. intros k row Hk. destruct (V k row Hk) as (es' & Ee & Ev). rewrite I, Es in Ee.
    injection Ee as <-. exists (op tok es). split; [reflexivity|exact Ev].
Qed.

Lemma sem_rows t : regression_tree d t ->
  match sem [] x (no_param zero) (call op const) t with
  | OVal a => good a t /\ constants_set t | ONone => ~ constants_set t | ORaise _ => False
  end.
Proof.
  induction t as [tok cs IH] using tree_ind'. intros HT. inversion HT as [tok' i Hi Hd|tok' Hi Hp Hs Hf|tok' cs' Hi Hp Hs Hf Hl H0 HC]; subst.
  - cbn [sem seqv]. rewrite Hi. unfold x, columns. rewrite nth_error_map.
    rewrite (nth_error_nth' _ 0) by (rewrite seq_length; exact Hd). rewrite seq_nth by exact Hd. cbn [option_map]. rewrite Nat.add_0_l. split.
    + split; [unfold column; rewrite map_length; reflexivity|].
      intros k row Hk. cbn [value_at]. rewrite Hi. assert (List.length row = d) as Lr.
      { rewrite Forall_forall in width. apply width. eapply nth_error_In. exact Hk. }
      exists (nth i row zero). split; [|apply nth_error_nth'; lia]. unfold column, entry. rewrite nth_error_map, Hk. reflexivity.
    + constructor; [intros _; congruence|constructor].
  - cbn [sem seqv]. rewrite Hi, Hp, Hs. cbn [call]. destruct (const tok) as [e|] eqn:Ec; cbn [option_map].
    + split; [split; [exact I|]|constructor; [intros _ _; congruence|constructor]].
      intros k row Hk. exists e. split; [reflexivity|]. cbn [value_at]. rewrite Hi. exact Ec.
    + intros F. inversion F as [? ? Hc _]; subst. apply Hc; auto.
  - assert (SV : match seqv (sem [] x (no_param zero) (call op const)) cs with
                 | inl args => Forall2 good args cs /\ Forall constants_set cs
                 | inr ONone => ~ Forall constants_set cs
                 | inr _ => False end).
    { clear HT H0. induction cs as [|t cs IHcs]; [cbn; split; constructor|]. inversion IH as [|? ? It Ics]; inversion HC as [|? ? Ht Hcs]; subst. cbn [seqv].
      specialize (It Ht). destruct (sem _ _ _ _ t) as [a| |]; [| |destruct It].
      - fold (seqv (sem [] x (no_param zero) (call op const))). specialize (IHcs Ics Hcs). destruct (seqv _ cs) as [args|o].
        + destruct It, IHcs. split; constructor; assumption.
        + destruct o; [destruct IHcs| |destruct IHcs]. intros F. inversion F; subst. contradiction.
      - intros F. inversion F; subst. contradiction. }
    cbn [sem]. destruct (seqv _ cs) as [args|o].
    + rewrite Hi, Hp, Hs, Hf, Hl. destruct SV as [G1 G2]. destruct (lift_good tok args cs H0 Hi G1) as (a & E1 & E2).
      assert (call op const tok args NoExtra = Some a) as ->.
      { unfold call. destruct G1; [congruence|exact E1]. }
      split; [exact E2|]. constructor; [intros; congruence|exact G2].
    + destruct o; [destruct SV| |destruct SV]. intros F. inversion F; subst. contradiction.
Qed.
End Proof.
End Rows.

Lemma regression_diff_ok d t : regression_tree d t -> diff_ok t.
Proof.
  induction t as [tok cs IH] using tree_ind'. intros HT. inversion HT as [tok' i Hi Hd|tok' Hi Hp Hs Hf|tok' cs' Hi Hp Hs Hf Hl H0 HC]; subst.
  - constructor; [intros _; congruence|constructor].
  - constructor; [intros; congruence|constructor].
  - constructor; [intros; congruence|]. rewrite Forall_forall in *. auto.
Qed.

(** The estimator holds the program [p] and was fitted on [d] columns. *)
Definition holds (e : est) (p : list token) (d : nat) : Prop := e_best e = Some p /\ e_width e = Some d.

(** The prediction for each row is the value of the expression at that row, and nothing else of the
    matrix enters; the prediction exists when every constant has a value. *)
Theorem C84_rowwise {E} (op : token -> list E -> E) const zero e t d rows ys :
  holds e (preorder t) d -> respects tarity t -> regression_tree d t -> Forall (fun r => List.length r = d) rows ->
  predict op const zero false e 2 d rows = Ok ys -> Forall2 (fun r y => value_at op const r t = Some y) rows ys.
Proof.
  intros [H1 H2] HR HT HW. unfold predict. rewrite H1, H2, !Nat.eqb_refl. cbn [negb].
  unfold execute_direct, execute_function. cbv zeta. rewrite <- (app_nil_r (preorder t)). rewrite python_execute_sem; [|exact HR|eapply regression_diff_ok; exact HT].
  pose proof (sem_rows op const zero d rows HW t HT) as S0. destruct (sem _ _ _ _ t) as [a| |]; [|discriminate|destruct S0].
  destruct S0 as [[G V] _].
  assert (F : forall ys', List.length ys' = List.length rows -> (forall k row, nth_error rows k = Some row -> nth_error ys' k = entry a k) ->
              Forall2 (fun r y => value_at op const r t = Some y) rows ys').
  { clear - V. intros ys' L N. revert ys' L N. assert (V' : forall k row, nth_error rows k = Some row -> exists y, entry a k = Some y /\ value_at op const row t = Some y) by exact V.
    clear V. revert V'. generalize (entry a) as g. clear a. induction rows as [|r rows IH]; intros g V ys' L N; destruct ys' as [|y ys']; try discriminate; constructor.
    - destruct (V 0 r eq_refl) as (y' & E1 & E2). specialize (N 0 r eq_refl). cbn in N. congruence.
    - apply (IH (fun k => g (S k))); [intros k row Hk; exact (V (S k) row Hk)|cbn in L; lia|]. intros k row Hk. exact (N (S k) row Hk). }
  destruct a as [l|v|v]; [| |destruct G].
  - intros H. injection H as <-. apply F; [exact G|reflexivity].
  - destruct (columns zero d rows) as [|c cs] eqn:Ec; [discriminate|]. cbn [spread].
    assert (c = column zero rows 0) as ->.
    { unfold columns in Ec. destruct d; [discriminate|]. cbn in Ec. congruence. }
    unfold column at 1. cbn [spread]. intros H. assert (ys = map (fun _ => v) rows) as -> by (rewrite map_map in H; congruence). apply F; [rewrite !map_length; reflexivity|].
    intros k row Hk. rewrite nth_error_map, Hk. reflexivity.
Qed.
Theorem C84_exists {E} (op : token -> list E -> E) const zero e t d rows :
  holds e (preorder t) d -> respects tarity t -> regression_tree d t -> Forall (fun r => List.length r = d) rows -> 0 < d ->
  (constants_set const t <-> exists ys, predict op const zero false e 2 d rows = Ok ys) /\
  (~ constants_set const t -> predict op const zero false e 2 d rows = Err RuntimeError).
Proof.
  intros [H1 H2] HR HT HW Hd. unfold predict. rewrite H1, H2, !Nat.eqb_refl. cbn [negb].
  unfold execute_direct, execute_function. cbv zeta. rewrite <- (app_nil_r (preorder t)). rewrite python_execute_sem; [|exact HR|eapply regression_diff_ok; exact HT].
  pose proof (sem_rows op const zero d rows HW t HT) as S0. destruct (sem _ _ _ _ t) as [a| |]; [| |destruct S0].
  - destruct S0 as [[G V] C]. split; [|tauto]. split; [intros _|intros _; exact C].
    destruct a as [l|v|v]; [eauto| |destruct G]. unfold columns. destruct d; [lia|]. cbn. eauto.
  - split; [split; [tauto|intros [ys H]; discriminate]|reflexivity].
Qed.
(** So predicting two matrices together is predicting them one after the other. *)
Theorem C84_concatenation {E} (op : token -> list E -> E) const zero e t d rows1 rows2 ys1 ys2 ys :
  holds e (preorder t) d -> respects tarity t -> regression_tree d t ->
  Forall (fun r => List.length r = d) rows1 -> Forall (fun r => List.length r = d) rows2 ->
  predict op const zero false e 2 d rows1 = Ok ys1 -> predict op const zero false e 2 d rows2 = Ok ys2 ->
  predict op const zero false e 2 d (rows1 ++ rows2) = Ok ys -> ys = ys1 ++ ys2.
Proof.
  intros H HR HT W1 W2 P1 P2 P. apply C84_rowwise with (t := t) in P1, P2, P; auto; [|apply Forall_app; auto].
  assert (Forall2 (fun r y => value_at op const r t = Some y) (rows1 ++ rows2) (ys1 ++ ys2)) as Q by (apply Forall2_app; assumption).
  clear - P Q. revert ys P. remember (ys1 ++ ys2) as zs eqn:Ez. clear Ez. induction Q as [|r z rs zs Hz _ IH]; intros ys P; inversion P; subst; [reflexivity|].
  f_equal; [congruence|auto].
Qed.

(** The data must be a matrix with the number of columns of the fit; before a fit there is nothing to predict. *)
Theorem C84_guards {E} (op : token -> list E -> E) const zero torch e ndim d rows :
  (e_best e = None -> predict op const zero torch e ndim d rows = Err RuntimeError) /\
  (forall p w, holds e p w -> ndim <> 2 \/ d <> w -> predict op const zero torch e ndim d rows = Err ValueError).
Proof.
  unfold predict. split; [intros ->; reflexivity|]. intros p w [-> ->] H.
  destruct (Nat.eqb_spec ndim 2) as [H2|H2]; cbn [negb]; [|reflexivity]. destruct (Nat.eqb_spec d w) as [H3|H3]; cbn [negb]; [tauto|reflexivity].
Qed.

Definition c84_op (tok : token) (es : list Z) : Z := if String.eqb (tname tok) "add" then fold_right Z.add 0%Z es else fold_right Z.mul 1%Z es.
Definition c84_tree : tree token := Nd add_tok [Nd (mkTok "mul" 2 None None None) [Nd (x_tok 0) []; Nd (x_tok 1) []]; Nd (mkTok "const" 0 None None None) []].
Example C84_case : regression_tree 2 c84_tree /\ respects tarity c84_tree /\ constants_set (fun _ => Some 7%Z) c84_tree /\
  predict c84_op (fun _ => Some 7%Z) 0%Z false (mkEst (Some (preorder c84_tree)) (Some 2) None []) 2 2 [[2; 3]; [4; 5]; [0; 9]]%Z = Ok [13; 27; 7]%Z.
Proof.
  split; [|split; [|split]].
  - apply rt_op; try reflexivity; [discriminate|]. constructor; [|constructor; [|constructor]].
    + apply rt_op; try reflexivity; [discriminate|]. constructor; [|constructor; [|constructor]]; (eapply rt_var; [reflexivity|lia]).
    + apply rt_const; reflexivity.
  - repeat constructor.
  - repeat (constructor; try discriminate).
  - vm_compute. reflexivity.
Qed.

(** ** C85 *)
(** With the numpy executor selected (the last set-up in the process did not ask for torch) a history of
    other estimators has no effect on the predictions. *)
Theorem C85_other_numpy_estimators {E} (op : token -> list E -> E) const zero w evs ndim d rows :
  Forall (fun ev => ev = EOther false) evs -> w_torch w = false ->
  let w' := run w evs in predict op const zero (w_torch w') (w_est w') ndim d rows = predict op const zero (w_torch w) (w_est w) ndim d rows.
Proof.
  intros H Hw. cbn zeta. assert (w_torch (run w evs) = false /\ w_est (run w evs) = w_est w) as [-> ->]; [|rewrite Hw; reflexivity].
  revert w Hw. induction H as [|ev evs -> _ IH]; intros w Hw; [auto|]. change (run w (EOther false :: evs)) with (run (mkW (w_est w) false) evs).
  exact (IH (mkW (w_est w) false) eq_refl).
Qed.
(** Right after an accepted fit the numpy executor is selected. *)
Theorem C85_after_fit w f : well_shaped f -> w_torch (step w (EFit f)) = false.
Proof. intros H. cbn [step w_torch]. unfold reaches_setup. destruct (validate_spec f) as [[-> _]|[N _]]; [reflexivity|contradiction]. Qed.

Fixpoint first_leaf (t : tree token) : token := match t with Nd tok cs => match cs with [] => tok | c :: _ => first_leaf c end end.
Lemma reduce_unfold {V F} (app : token -> list V -> F -> (V * F) + out V) tok args rest flag :
  reduce app tok args rest flag =
  if Nat.eqb (List.length args) (tarity tok) then
    match app tok args flag with
    | inr o => inr o
    | inl (v, flag') => match rest with [] => inr (OVal v) | (tok', args') :: rest' => reduce app tok' (args' ++ [v]) rest' flag' end
    end
  else inl ((tok, args) :: rest, flag).
Proof. destruct rest; reflexivity. Qed.
Lemma torch_first {E} (op : token -> list E -> E) const zero d rows t rest stack flag :
  respects tarity t -> (regression_tree d t) -> const (first_leaf t) <> None \/ tinput (first_leaf t) <> None ->
  exec_loop (app_torch (fun _ => None) (columns zero d rows) (no_param zero) (call_torch op const) (fun _ => None)) (preorder t ++ rest) stack flag = ONone.
Proof.
  revert rest stack flag. induction t as [tok cs IH] using tree_ind'. intros rest stack flag HR HT HL.
  inversion HR as [? ? Har HRc]; subst. cbn [preorder app exec_loop].
  destruct cs as [|c cs].
  - rewrite reduce_unfold. cbn [List.length]. cbn in Har. rewrite <- Har. cbn [Nat.eqb]. unfold app_torch.
    inversion HT as [tok' i Hi Hd|tok' Hi Hp Hs Hf|tok' cs' Hi Hp Hs Hf Hl H0 HC]; subst; [| |congruence].
    + rewrite Hi. unfold columns. rewrite nth_error_map, (nth_error_nth' _ 0) by (rewrite seq_length; exact Hd). reflexivity.
    + rewrite Hi, Hp, Hs, Hf. cbn [first_leaf] in HL. destruct HL as [HL|HL]; [|congruence]. unfold call_torch, call. destruct (const tok) as [v|]; [|congruence].
      cbn [option_map]. destruct (contains "lap" (tname tok)); reflexivity.
  - rewrite reduce_unfold. cbn [List.length]. replace (Nat.eqb 0 (tarity tok)) with false by (symmetry; apply Nat.eqb_neq; cbn in Har; lia).
    cbn [flat_map]. rewrite <- app_assoc. inversion IH as [|? ? Ic _]; subst. inversion HRc; subst.
    apply Ic; [assumption| |exact HL]. inversion HT as [| |? ? ? ? ? ? ? ? HC]; subst. inversion HC; assumption.
Qed.
(** After another estimator has been set up for torch (KD_Discover_SPR), every prediction of a fitted
    regression model is zero, without an error. *)
Theorem C85_torch_estimator_refuted {E} (op : token -> list E -> E) const zero w t d rows :
  holds (w_est w) (preorder t) d -> respects tarity t -> regression_tree d t -> 0 < d ->
  const (first_leaf t) <> None \/ tinput (first_leaf t) <> None ->
  let w' := step w (EOther true) in predict op const zero (w_torch w') (w_est w') 2 d rows = Ok (map (fun _ => zero) rows).
Proof.
  intros [H1 H2] HR HT Hd HL. cbn [step w_torch w_est]. unfold predict. rewrite H1, H2, !Nat.eqb_refl. cbn [negb].
  unfold execute_direct, execute_function, python_execute_torch. rewrite <- (app_nil_r (preorder t)). rewrite torch_first by assumption.
  destruct d; [lia|]. unfold columns. cbn [seq map spread column]. rewrite map_map. reflexivity.
Qed.
Example C85_case : let w := mkW (mkEst (Some (preorder c84_tree)) (Some 2) None []) false in
  predict c84_op (fun _ => Some 7%Z) 0%Z (w_torch w) (w_est w) 2 2 [[2; 3]; [4; 5]]%Z = Ok [13; 27]%Z /\
  predict c84_op (fun _ => Some 7%Z) 0%Z (w_torch (step w (EOther true))) (w_est w) 2 2 [[2; 3]; [4; 5]]%Z = Ok [0; 0]%Z.
Proof. vm_compute. split; reflexivity. Qed.

(** ** C86 *)
Section Reward.
Local Open Scope Q_scope.
(** All that is used of the square root. *)
Definition sqrt_like (sqrt : Q -> Q) : Prop :=
  (forall a b, 0 <= a -> a <= b -> sqrt a <= sqrt b) /\ (forall a, 0 <= a -> 0 <= sqrt a) /\ (forall a, 0 <= a -> (sqrt a == 0 <-> a == 0)).
Lemma qmax_l a b : a <= qmax a b.
Proof. unfold qmax. destruct (Qle_bool a b) eqn:F; [apply Qle_bool_iff; exact F|lra]. Qed.
Lemma qmax_r a b : b <= qmax a b.
Proof. unfold qmax. destruct (Qle_bool a b) eqn:F; [lra|]. apply not_true_iff_false in F. rewrite Qle_bool_iff in F. lra. Qed.
Lemma qmax_lub a b c : a <= c -> b <= c -> qmax a b <= c.
Proof. unfold qmax. destruct (Qle_bool a b); auto. Qed.
Lemma sum_nonneg {A} (f : A -> Q) l : (forall a, 0 <= f a) -> 0 <= fold_right Qplus 0 (map f l).
Proof. intros H. induction l as [|a l IH]; cbn [map fold_right]; [lra|]. specialize (H a). lra. Qed.
Lemma sq_nonneg (a : Q) : 0 <= a * a.
Proof. destruct (Qlt_le_dec a 0); nra. Qed.
Lemma mse_nonneg y yh : 0 <= mse y yh.
Proof.
  unfold mse, qmean. set (l := combine y yh). rewrite map_length. destruct l as [|p l'] eqn:El.
  - vm_compute. discriminate.
  - rewrite <- El. apply Qle_shift_div_l.
    + rewrite El. cbn [List.length]. change 0 with (inject_Z 0). rewrite <- Zlt_Qlt. lia.
    + rewrite Qmult_0_l. apply sum_nonneg. intros a. apply sq_nonneg.
Qed.
(** The spread of the target used for scaling: never below 1e-12, so always positive. *)
Definition scale (y : list Q) : Q := qmax (variance y) (1 # 1000000000000).
Lemma scale_pos y : 0 < scale y.
Proof. unfold scale. pose proof (qmax_r (variance y) (1 # 1000000000000)). lra. Qed.
Lemma ratio_nonneg y yh : 0 <= mse y yh / scale y.
Proof. apply Qle_shift_div_l; [apply scale_pos|]. rewrite Qmult_0_l. apply mse_nonneg. Qed.
Lemma inv_le a b : 0 < a -> a <= b -> 1 / b <= 1 / a.
Proof.
  intros Ha Hb. apply Qle_shift_div_r; [lra|]. apply Qle_trans with (1 / a * a); [|].
  - assert (1 / a * a == 1) as -> by (field; lra). lra.
  - apply Qmult_le_l; [|exact Hb]. apply Qlt_shift_div_l; lra.
Qed.
Variable sqrt : Q -> Q.
Hypothesis Hs : sqrt_like sqrt.
Lemma accuracy_bounds y yh : 0 < accuracy sqrt y yh /\ accuracy sqrt y yh <= 1.
Proof.
  unfold accuracy. fold (scale y). destruct Hs as (_ & H & _). specialize (H _ (ratio_nonneg y yh)). split.
  - apply Qlt_shift_div_l; lra.
  - apply Qle_shift_div_r; lra.
Qed.
Lemma penalty_bounds c n : 0 < c -> 0 <= qmax 0 (1 - c * inject_Z (Z.of_nat n)) /\ qmax 0 (1 - c * inject_Z (Z.of_nat n)) <= 1.
Proof.
  intros Hc. split; [apply qmax_l|]. apply qmax_lub; [lra|].
  assert (0 <= inject_Z (Z.of_nat n)) by (change 0 with (inject_Z 0); rewrite <- Zle_Qle; lia). nra.
Qed.
Lemma reward_bounds c y yh n : 0 <= reward sqrt c y yh n /\ reward sqrt c y yh n <= 1.
Proof.
  unfold reward. destruct (accuracy_bounds y yh) as [A B].
  destruct (Qle_bool c 0) eqn:Ec; cbn [negb andb]; [lra|]. destruct (Nat.eqb n 0); cbn [negb]; [lra|].
  apply not_true_iff_false in Ec. rewrite Qle_bool_iff in Ec. destruct (penalty_bounds c n ltac:(lra)) as [C D]. nra.
Qed.
Lemma reward_accuracy c y yh1 yh2 n : mse y yh1 <= mse y yh2 -> reward sqrt c y yh2 n <= reward sqrt c y yh1 n.
Proof.
  intros H. assert (A : accuracy sqrt y yh2 <= accuracy sqrt y yh1).
  { unfold accuracy. fold (scale y). destruct Hs as (M & N & _). apply inv_le; [specialize (N _ (ratio_nonneg y yh1)); lra|].
    assert (sqrt (mse y yh1 / scale y) <= sqrt (mse y yh2 / scale y)); [|lra]. apply M; [apply ratio_nonneg|].
    apply Qle_shift_div_l; [apply scale_pos|]. assert (mse y yh1 / scale y * scale y == mse y yh1) as -> by (field; pose proof (scale_pos y); lra). exact H. }
  unfold reward. destruct (Qle_bool c 0) eqn:Ec; cbn [negb andb]; [exact A|]. destruct (Nat.eqb n 0); cbn [negb]; [exact A|].
  apply not_true_iff_false in Ec. rewrite Qle_bool_iff in Ec. destruct (penalty_bounds c n ltac:(lra)) as [C D]. apply Qmult_le_compat_r; assumption.
Qed.
Lemma reward_length c y yh n m : (n <= m)%nat -> reward sqrt c y yh m <= reward sqrt c y yh n.
Proof.
  intros H. unfold reward. destruct (accuracy_bounds y yh) as [A B].
  destruct (Qle_bool c 0) eqn:Ec; cbn [negb andb]; [lra|]. apply not_true_iff_false in Ec. rewrite Qle_bool_iff in Ec.
  destruct (Nat.eqb_spec n 0) as [->|Hn]; destruct (Nat.eqb_spec m 0) as [Hm|Hm]; cbn [negb]; try lra; try lia.
  - destruct (penalty_bounds c m ltac:(lra)) as [C D]. nra.
  - assert (inject_Z (Z.of_nat n) <= inject_Z (Z.of_nat m)) as L by (rewrite <- Zle_Qle; lia).
    assert (P : qmax 0 (1 - c * inject_Z (Z.of_nat m)) <= qmax 0 (1 - c * inject_Z (Z.of_nat n))).
    { apply qmax_lub; [apply qmax_l|]. apply Qle_trans with (1 - c * inject_Z (Z.of_nat n)); [nra|apply qmax_r]. }
    nra.
Qed.
Lemma reward_one c y yh : c <= 0 -> (reward sqrt c y yh 1 == 1 <-> mse y yh == 0).
Proof.
  intros Hc. unfold reward. apply Qle_bool_iff in Hc. rewrite Hc. cbn [negb andb]. unfold accuracy. fold (scale y).
  destruct Hs as (_ & N & Z). specialize (N _ (ratio_nonneg y yh)). specialize (Z _ (ratio_nonneg y yh)). pose proof (scale_pos y) as Sp.
  set (s := sqrt (mse y yh / scale y)) in *.
  assert (mse y yh / scale y == 0 <-> mse y yh == 0) as R.
  { split; intros H.
    - assert (mse y yh == mse y yh / scale y * scale y) as -> by (field; lra). rewrite H. ring.
    - rewrite H. field. lra. }
  rewrite <- R, <- Z. split; intros H.
  - assert (1 == 1 / (1 + s) * (1 + s)) as Q1 by (field; lra). rewrite H in Q1. lra.
  - rewrite H. reflexivity.
Qed.
End Reward.
(** The reward lies between 0 and 1, never prefers a larger error or a longer expression, and without
    penalty is 1 exactly for an exact fit. *)
Theorem C86_reward sqrt : sqrt_like sqrt -> forall c y yh n, y <> [] -> List.length yh = List.length y ->
  (0 <= reward sqrt c y yh n /\ reward sqrt c y yh n <= 1)%Q /\
  (forall yh', (mse y yh <= mse y yh')%Q -> (reward sqrt c y yh' n <= reward sqrt c y yh n)%Q) /\
  (forall m, n <= m -> (reward sqrt c y yh m <= reward sqrt c y yh n)%Q) /\
  ((c <= 0)%Q -> (reward sqrt c y yh 1 == 1 <-> mse y yh == 0)%Q).
Proof.
  intros Hs c y yh n _ _. split; [apply reward_bounds; exact Hs|]. split; [intros yh' H; apply reward_accuracy; assumption|].
  split; [intros m H; apply reward_length; assumption|apply reward_one; exact Hs].
Qed.
(** An expression of 1/coeff tokens or more has reward zero, however well it fits. *)
Theorem C86_long_expressions sqrt c y yh n : sqrt_like sqrt -> (0 < c)%Q -> (1 <= c * inject_Z (Z.of_nat n))%Q -> (reward sqrt c y yh n == 0)%Q.
Proof.
  intros Hs Hc Hn. unfold reward. destruct (Qle_bool c 0) eqn:Ec; [apply Qle_bool_iff in Ec; lra|].
  destruct (Nat.eqb_spec n 0) as [->|_]; [change (inject_Z (Z.of_nat 0)) with 0%Q in Hn; lra|]. cbn [negb andb].
  assert (qmax 0 (1 - c * inject_Z (Z.of_nat n)) == 0)%Q as ->; [|ring]. apply Qle_antisym; [apply qmax_lub; lra|apply qmax_l].
Qed.
Example C86_hyp : sqrt_like (fun a => a).
Proof. repeat split; auto; tauto. Qed.
Example C86_case : (reward (fun a => a) (1 # 10) [1; 3] [1; 4] 3 == 7 # 15)%Q.
Proof. vm_compute. reflexivity. Qed.
Print Assumptions C83_rejected.
Print Assumptions C83_returns.
Print Assumptions C83_history.
Print Assumptions C83_consistent.
Print Assumptions C83_operators.
Print Assumptions C83_failed_refit_refuted.
Print Assumptions C84_rowwise.
Print Assumptions C84_exists.
Print Assumptions C84_concatenation.
Print Assumptions C84_guards.
Print Assumptions C85_other_numpy_estimators.
Print Assumptions C85_after_fit.
Print Assumptions C85_torch_estimator_refuted.
Print Assumptions C86_reward.
Print Assumptions C86_long_expressions.
