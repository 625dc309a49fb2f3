(** C88-C92: the PySR estimator, its LaTeX text, its plots and the equation renderer. *)
From Coq Require Import QArith Ascii Lqa.
From Verif Require Import Base Info VizData VizCore Pysr.
Local Open Scope string_scope.
Local Open Scope list_scope.
Local Open Scope nat_scope.

(** ** Specification vocabulary *)
(** The data of a call are acceptable: X is a matrix with as many rows as y has values. *)
Definition acceptable (f : fitcall) : Prop :=
  f_conv f = None /\ exists n d, shape (f_X f) = [n; d] /\ size (f_y f) = n.
Definition fitted_by (s : est) (f : fitcall) (v : view) : Prop :=
  (forall X, predict s X = v_predict v X) /\
  p_X s = Some (f_X f) /\ p_y s = Some (flat (f_y f)) /\
  p_best s = equation_text v /\ p_sympy s = sympy_of v.

Lemma validate_ok f : validate f = Ok tt <-> acceptable f.
Proof.
  unfold validate, acceptable. destruct (f_conv f); [split; [discriminate|intros [H _]; discriminate]|].
  destruct (shape (f_X f)) as [|n [|d [|e r]]] eqn:E; try (split; [discriminate|intros (_ & n' & d' & H & _); discriminate]).
  destruct (Nat.eqb_spec n (size (f_y f))) as [->|N].
  - split; [intros _|reflexivity]. split; [reflexivity|]. eauto.
  - split; [discriminate|]. intros (_ & n' & d' & H & H'). injection H as -> ->. congruence.
Qed.

(** ** C88 *)
(** A call succeeds exactly when the data are acceptable, pysr is there and the back end neither
    refuses its arguments nor fails in training. *)
Theorem C88_succeeds_iff : forall w f,
  result w f = Ok tt <->
  acceptable f /\ (w_imp w = true \/ f_importable f = true) /\
  f_ctor f (build_kwargs (w_est w)) = None /\
  fst (f_train f (build_kwargs (w_est w)) (f_X f) (flat (f_y f))) = None.
Proof.
  intros w f. rewrite <- validate_ok. unfold result, fit. destruct (validate f) as [[]|e]; cbn [fst snd].
  - rewrite <- orb_true_iff. destruct (w_imp w || f_importable f); cbn [negb fst snd].
    + change (build_kwargs (mkP _ _ _ _ _ _ _ _ _)) with (build_kwargs (w_est w)).
      destruct (f_ctor f (build_kwargs (w_est w))); cbn [fst snd]; [split; [discriminate|intros (_ & _ & H & _); discriminate]|].
      destruct (f_train f (build_kwargs (w_est w)) (f_X f) (flat (f_y f))) as [[e|] v]; cbn [fst snd]; intuition discriminate.
    + split; [discriminate|intros (_ & H & _); discriminate].
  - split; [discriminate|intros (H & _); discriminate].
Qed.
Example C88_succeeds_meets : exists w f, result w f = Ok tt /\ p_model (w_est w) = None.
Proof.
  exists (mkW false (est_init 3 None None None)),
    (mkFit None {| shape := [1; 1]; at_ := fun _ => 0%Q |} {| shape := [1]; at_ := fun _ => 0%Q |} true
       (fun _ => None) (fun _ _ _ => (None, mkView NoAttr NoAttr (Ok "m") NoAttr (fun _ => Err ValueError)))).
  split; reflexivity.
Qed.

(** After a successful call everything comes from that call. *)
Theorem C88_success : forall w f, result w f = Ok tt ->
  exists v, f_train f (build_kwargs (w_est w)) (f_X f) (flat (f_y f)) = (None, v) /\
            fitted_by (w_est (step w f)) f v.
Proof.
  intros w f. unfold result, step, fit. destruct (validate f) as [[]|e]; cbn [fst snd]; [|discriminate].
  destruct (negb _); cbn [fst snd]; [discriminate|].
  change (build_kwargs (mkP _ _ _ _ _ _ _ _ _)) with (build_kwargs (w_est w)).
  destruct (f_ctor f (build_kwargs (w_est w))); cbn [fst snd]; [discriminate|].
  destruct (f_train f (build_kwargs (w_est w)) (f_X f) (flat (f_y f))) as [[e|] v]; cbn [fst snd]; [discriminate|].
  intros _. exists v. split; [reflexivity|]. repeat split.
Qed.

(** A call with unacceptable data raises and changes nothing. *)
Theorem C88_rejected : forall w f, ~ acceptable f ->
  (exists e, result w f = Err e /\ (f_conv f = None -> e = ValueError)) /\ step w f = w.
Proof.
  intros w f H. assert (V : exists e, validate f = Err e /\ (f_conv f = None -> e = ValueError)).
  { rewrite <- validate_ok in H. unfold validate in *. destruct (f_conv f) as [e|]; [exists e; split; [reflexivity|discriminate]|].
    destruct (shape (f_X f)) as [|n [|d [|e r]]]; try (exists ValueError; split; reflexivity).
    destruct (Nat.eqb _ _); [elim H; reflexivity|exists ValueError; split; reflexivity]. }
  destruct V as (e & V & HV). unfold result, step, fit. rewrite V. cbn [fst snd]. split; [exists e; split; [reflexivity|exact HV]|].
  destruct w; reflexivity.
Qed.

Lemma run_app w a b : run w (a ++ b) = run (run w a) b.
Proof. unfold run. apply fold_left_app. Qed.

(** After any history: if the last acceptable call succeeded, the estimator is that of this call,
    whatever was called before and however many calls were rejected since. *)
Theorem C88_history : forall w h f h',
  result (run w h) f = Ok tt -> (forall g, In g h' -> ~ acceptable g) ->
  exists v, f_train f (build_kwargs (w_est (run w h))) (f_X f) (flat (f_y f)) = (None, v) /\
            fitted_by (w_est (run w (h ++ f :: h'))) f v.
Proof.
  intros w h f h' R N. destruct (C88_success _ _ R) as (v & T & F). exists v. split; [exact T|].
  rewrite run_app. change (f :: h') with ([f] ++ h'). rewrite run_app.
  change (run (run w h) [f]) with (step (run w h) f).
  replace (run (step (run w h) f) h') with (step (run w h) f); [exact F|].
  clear R T F v. generalize (step (run w h) f) as u. induction h' as [|g h' IH]; intros u; [reflexivity|].
  change (run u (g :: h')) with (run (step u g) h').
  rewrite (proj2 (C88_rejected u g (N g (or_introl eq_refl)))). apply IH. intros g' I. apply N. right; exact I.
Qed.
Example C88_history_meets : exists w h f h',
  result (run w h) f = Ok tt /\ (forall g, In g h' -> ~ acceptable g) /\ h <> [] /\ h' <> [].
Proof.
  set (ok := mkFit None {| shape := [1; 1]; at_ := fun _ => 0%Q |} {| shape := [1]; at_ := fun _ => 0%Q |} true
       (fun _ => None) (fun _ _ _ => (None, mkView NoAttr NoAttr (Ok "m") NoAttr (fun _ => Err ValueError)))).
  set (bad := mkFit None {| shape := [1]; at_ := fun _ => 0%Q |} {| shape := [1]; at_ := fun _ => 0%Q |} true
       (fun _ => None) (fun _ _ _ => (None, mkView NoAttr NoAttr (Ok "m") NoAttr (fun _ => Err ValueError)))).
  exists (mkW false (est_init 3 None None None)), [ok], ok, [bad].
  split; [reflexivity|]. split; [|split; discriminate].
  intros g [<-|[]]. intros (_ & n & d & H & _). discriminate.
Qed.

(** The parameters never change, whatever the history. *)
Theorem C88_parameters_kept : forall w h,
  p_niter (w_est (run w h)) = p_niter (w_est w) /\ p_bin (w_est (run w h)) = p_bin (w_est w) /\
  p_un (w_est (run w h)) = p_un (w_est w) /\ p_extra (w_est (run w h)) = p_extra (w_est w) /\
  build_kwargs (w_est (run w h)) = build_kwargs (w_est w).
Proof.
  assert (S : forall w f, let s := w_est w in let s' := w_est (step w f) in
     p_niter s' = p_niter s /\ p_bin s' = p_bin s /\ p_un s' = p_un s /\ p_extra s' = p_extra s).
  { intros w f. unfold step, fit. destruct (validate f) as [[]|e]; [|repeat split].
    destruct (negb _); [repeat split|]. destruct (f_ctor f _); [repeat split|].
    destruct (f_train f _ _ _) as [[e|] v]; repeat split. }
  intros w h. assert (K : p_niter (w_est (run w h)) = p_niter (w_est w) /\ p_bin (w_est (run w h)) = p_bin (w_est w) /\
    p_un (w_est (run w h)) = p_un (w_est w) /\ p_extra (w_est (run w h)) = p_extra (w_est w)).
  { revert w. induction h as [|f h IH]; intros w; [repeat split|]. change (run w (f :: h)) with (run (step w f) h).
    destruct (IH (step w f)) as (A & B & C & D). destruct (S w f) as (A' & B' & C' & D'). repeat split; congruence. }
  destruct K as (A & B & C & D). split; [exact A|split; [exact B|split; [exact C|split; [exact D|]]]].
  unfold build_kwargs. rewrite A, B, C, D. reflexivity.
Qed.

(** predict and equation_latex raise RuntimeError as long as no back end was built. *)
Theorem C88_not_fitted : forall n b u extra h X lhs,
  (forall f, In f h -> acceptable f -> forall k, f_ctor f k <> None) \/ (forall f, In f h -> f_importable f = false) ->
  let s := w_est (run (mkW false (est_init n b u extra)) h) in
  predict s X = Err RuntimeError /\ equation_latex s lhs = Err RuntimeError.
Proof.
  intros n b u extra h X lhs H. cbv zeta.
  enough (E : p_model (w_est (run (mkW false (est_init n b u extra)) h)) = None).
  { unfold predict, equation_latex. rewrite E. split; reflexivity. }
  destruct H as [H|H].
  - generalize false as i. intros i. set (s := est_init n b u extra). assert (E : p_model s = None) by reflexivity. clearbody s. revert i s E.
    induction h as [|f h IH]; intros i s E; [exact E|]. change (run (mkW i s) (f :: h)) with (run (step (mkW i s) f) h).
    assert (E' : p_model (w_est (step (mkW i s) f)) = None).
    { unfold step, fit. cbn [w_imp w_est]. destruct (validate f) as [[]|e] eqn:V; [|exact E].
      destruct (negb _); [exact E|]. apply validate_ok in V. pose proof (H f (or_introl eq_refl) V) as C.
      destruct (f_ctor f _) eqn:F; [exact E|]. elim (C _ F). }
    destruct (step (mkW i s) f) as [i' s']. apply IH; [|exact E']. intros g I. apply H. right; exact I.
  - set (s := est_init n b u extra). assert (E : p_model s = None) by reflexivity. clearbody s. revert s E.
    induction h as [|f h IH]; intros s E; [exact E|]. change (run (mkW false s) (f :: h)) with (run (step (mkW false s) f) h).
    assert (E' : exists s', step (mkW false s) f = mkW false s' /\ p_model s' = None).
    { unfold step, fit. cbn [w_imp w_est]. destruct (validate f) as [[]|e]; [|exists s; split; [reflexivity|exact E]].
      rewrite (H f (or_introl eq_refl)). cbn [orb negb]. eexists; split; [reflexivity|exact E]. }
    destruct E' as (s' & -> & E'). apply IH; [|exact E']. intros g I. apply H. right; exact I.
Qed.
Example C88_not_fitted_meets : exists f, acceptable f /\ f_importable f = false.
Proof.
  exists (mkFit None {| shape := [1; 1]; at_ := fun _ => 0%Q |} {| shape := [1]; at_ := fun _ => 0%Q |} false
       (fun _ => None) (fun _ _ _ => (None, mkView NoAttr NoAttr (Ok "m") NoAttr (fun _ => Err ValueError)))).
  split; [|reflexivity]. split; [reflexivity|]. exists 1, 1. split; reflexivity.
Qed.

(** Refuted: "a failed call leaves the fitted model in place".  After a training error, predictions
    come from the new untrained back end, the cached data are the new ones, and the equation is still
    the one of the old model. *)
Theorem C88_failed_training_refuted : exists w f1 f2 X,
  result w f1 = Ok tt /\ result (step w f1) f2 = Err RuntimeError /\
  (exists y, predict (w_est (step w f1)) X = Ok y) /\
  predict (w_est (run w [f1; f2])) X = Err ValueError /\
  p_X (w_est (run w [f1; f2])) = Some (f_X f2) /\ f_X f2 <> f_X f1 /\
  equation_latex (w_est (run w [f1; f2])) "y" = Ok "y = x_{0}".
Proof.
  set (y0 := {| shape := [1]; at_ := fun _ => 0%Q |}).
  set (v1 := mkView (Call (Ok (mkRow (Ok "x0") (Ok "row")))) (Call (Ok (Some (Ok "x_{0}")))) (Ok "m") NoAttr (fun _ => Ok y0)).
  set (v2 := mkView (Call (Err ValueError)) (Call (Err ValueError)) (Ok "m") (Call (Err ValueError)) (fun _ => Err ValueError)).
  exists (mkW false (est_init 3 None None None)),
    (mkFit None {| shape := [1; 1]; at_ := fun _ => 0%Q |} y0 true (fun _ => None) (fun _ _ _ => (None, v1))),
    (mkFit None {| shape := [1; 2]; at_ := fun _ => 1%Q |} y0 true (fun _ => None) (fun _ _ _ => (Some RuntimeError, v2))), y0.
  split; [reflexivity|]. split; [reflexivity|]. split; [exists y0; reflexivity|].
  split; [reflexivity|]. split; [reflexivity|]. split; [|reflexivity].
  cbn [f_X]. intros E. apply (f_equal shape) in E. discriminate.
Qed.

(** Refuted: "the cached training data are those of the model": a call whose back end cannot be built
    replaces the data but not the model. *)
Theorem C88_cached_data_refuted : exists w f1 f2 v,
  result w f1 = Ok tt /\ result (step w f1) f2 = Err TypeError /\
  fitted_by (w_est (step w f1)) f1 v /\
  (forall X, predict (w_est (run w [f1; f2])) X = v_predict v X) /\
  p_X (w_est (run w [f1; f2])) = Some (f_X f2) /\ f_X f2 <> f_X f1.
Proof.
  set (y0 := {| shape := [1]; at_ := fun _ => 0%Q |}).
  set (v1 := mkView (Call (Ok (mkRow (Ok "x0") (Ok "row")))) (Call (Ok (Some (Ok "x_{0}")))) (Ok "m") NoAttr (fun _ => Ok y0)).
  exists (mkW false (est_init 3 None None None)),
    (mkFit None {| shape := [1; 1]; at_ := fun _ => 0%Q |} y0 true (fun _ => None) (fun _ _ _ => (None, v1))),
    (mkFit None {| shape := [1; 2]; at_ := fun _ => 1%Q |} y0 true (fun _ => Some TypeError) (fun _ _ _ => (None, v1))), v1.
  split; [reflexivity|]. split; [reflexivity|]. split; [repeat split|].
  split; [reflexivity|]. split; [reflexivity|].
  cbn [f_X]. intros E. apply (f_equal shape) in E. discriminate.
Qed.

(** ** C89: the arguments of the back end *)
Lemma kget_kset k k' v d : kget k (kset k' v d) = if String.eqb k k' then Some v else kget k d.
Proof.
  induction d as [|[a w] d IH]; cbn [kset kget]; [reflexivity|].
  destruct (String.eqb_spec k' a) as [->|N]; cbn [kget]; [destruct (String.eqb k a); reflexivity|].
  rewrite IH. destruct (String.eqb_spec k a) as [->|]; [|reflexivity].
  destruct (String.eqb_spec a k'); [congruence|reflexivity].
Qed.
Lemma kget_none k d : kget k d = None <-> ~ In k (map fst d).
Proof.
  induction d as [|[a w] d IH]; cbn [kget map fst In]; [intuition discriminate|].
  destruct (String.eqb_spec k a) as [->|N]; [intuition discriminate|]. rewrite IH. intuition congruence.
Qed.
Lemma kget_kupdate k e : NoDup (map fst e) -> forall d,
  kget k (kupdate d e) = match kget k e with Some v => Some v | None => kget k d end.
Proof.
  induction e as [|[a v] e IH]; intros N d; [reflexivity|].
  cbn [map fst] in N. inversion_clear N as [|? ? Ha Hn].
  change (kupdate d ((a, v) :: e)) with (kupdate (kset a v d) e). rewrite (IH Hn). cbn [kget].
  destruct (String.eqb_spec k a) as [->|Na].
  - apply kget_none in Ha. rewrite Ha, kget_kset, String.eqb_refl. reflexivity.
  - destruct (kget k e); [reflexivity|]. rewrite kget_kset. destruct (String.eqb_spec k a); [congruence|reflexivity].
Qed.

(** The back end receives an entry of extra_model_kwargs for every name in it, even "niterations" and
    the operator lists; the estimator's own parameters for these three names otherwise; nothing else. *)
Theorem C89_arguments : forall s k, NoDup (map fst (p_extra s)) ->
  kget k (build_kwargs s) =
  match kget k (p_extra s) with
  | Some v => Some v
  | None =>
      if String.eqb k "niterations" then Some (KInt (p_niter s))
      else if String.eqb k "binary_operators" then option_map KOps (p_bin s)
      else if String.eqb k "unary_operators" then option_map KOps (p_un s)
      else None
  end.
Proof.
  intros s k N. unfold build_kwargs. rewrite (kget_kupdate k _ N). destruct (kget k (p_extra s)); [reflexivity|].
  assert (B : kget k (match p_bin s with Some l => kset "binary_operators" (KOps l) [("niterations", KInt (p_niter s))] | None => [("niterations", KInt (p_niter s))] end)
     = if String.eqb k "niterations" then Some (KInt (p_niter s)) else if String.eqb k "binary_operators" then option_map KOps (p_bin s) else None).
  { destruct (p_bin s); cbn [option_map].
    - rewrite kget_kset. cbn [kget]. destruct (String.eqb_spec k "binary_operators") as [->|]; [reflexivity|]. destruct (String.eqb k "niterations"); reflexivity.
    - cbn [kget]. destruct (String.eqb k "niterations"); [reflexivity|]. destruct (String.eqb k "binary_operators"); reflexivity. }
  destruct (p_un s); cbn [option_map].
  - rewrite kget_kset, B. destruct (String.eqb_spec k "unary_operators") as [->|]; [reflexivity|]. reflexivity.
  - rewrite B. destruct (String.eqb k "niterations"); [reflexivity|]. destruct (String.eqb k "binary_operators"); [reflexivity|].
    destruct (String.eqb k "unary_operators"); reflexivity.
Qed.
Example C89_arguments_meets :
  build_kwargs (est_init 5 (Some ["+"]) None (Some [("niterations", KInt 7); ("maxsize", KInt 20)]))
  = [("niterations", KInt 7); ("binary_operators", KOps ["+"]); ("maxsize", KInt 20)].
Proof. reflexivity. Qed.

(** Refuted: "the niterations attribute is the number of iterations run". *)
Theorem C89_niterations_refuted : exists s, NoDup (map fst (p_extra s)) /\
  kget "niterations" (build_kwargs s) <> Some (KInt (p_niter s)).
Proof.
  exists (est_init 5 None None (Some [("niterations", KInt 7)])). split; [repeat constructor; intros []|].
  discriminate.
Qed.

(** ** C90: the LaTeX text *)
(** PySR's own text, when it is a string with a visible character. *)
Definition own_text (v : view) (c : string) : Prop := v_latex v = Call (Ok (PStr c)) /\ strip c <> "".

(** The sources are tried in the documented order, and the answer is exactly the first one there is. *)
Theorem C90_order : forall s v lhs, p_model s = Some v ->
  (forall c, own_text v c -> equation_latex s lhs = Ok c) /\
  ((forall c, ~ own_text v c) -> forall rhs, p_sympy s = Some (Ok rhs) -> equation_latex s lhs = Ok (lhs ++ " = " ++ rhs)%string) /\
  ((forall c, ~ own_text v c) -> (forall rhs, p_sympy s <> Some (Ok rhs)) ->
     (forall b, p_best s = Some b -> b <> "" -> equation_latex s lhs = Ok b) /\
     (p_best s = None \/ p_best s = Some "" -> equation_latex s lhs = v_str v)).
Proof.
  intros s v lhs M. unfold equation_latex. rewrite M.
  assert (NO : (forall c, ~ own_text v c) ->
     match v_latex v with Call (Ok (PStr c)) => if String.eqb (strip c) "" then None else Some c | _ => None end = None).
  { intros H. destruct (v_latex v) as [|[[c|]|]] eqn:E; try reflexivity. destruct (String.eqb_spec (strip c) "") as [|N]; [reflexivity|].
    elim (H c). split; assumption. }
  split; [|split].
  - intros c (E & N). rewrite E. apply String.eqb_neq in N. rewrite N. reflexivity.
  - intros H rhs R. rewrite (NO H), R. reflexivity.
  - intros H R. rewrite (NO H). destruct (p_sympy s) as [[rhs|e]|] eqn:P.
    + elim (R rhs). reflexivity.
    + split; [intros b -> N; apply String.eqb_neq in N; rewrite N; reflexivity|intros [->| ->]; reflexivity].
    + split; [intros b -> N; apply String.eqb_neq in N; rewrite N; reflexivity|intros [->| ->]; reflexivity].
Qed.
Example C90_order_meets : equation_latex
  (mkP 1 None None [] (Some (mkView NoAttr NoAttr (Ok "m") (Call (Ok (PStr "  "))) (fun _ => Err ValueError))) (Some "x0*2") (Some (Ok "2 x_{0}")) None None) "z"
  = Ok "z = 2 x_{0}".
Proof. reflexivity. Qed.

(** A text is returned whenever a back end is there and can be printed. *)
Theorem C90_total : forall s v lhs t, p_model s = Some v -> v_str v = Ok t -> exists c, equation_latex s lhs = Ok c.
Proof.
  intros s v lhs t M E. unfold equation_latex. rewrite M, E.
  destruct (match v_latex v with Call (Ok (PStr c)) => _ | _ => _ end); [eauto|].
  destruct (p_sympy s) as [[?|]|]; [eauto| |]; (destruct (p_best s) as [b|]; [destruct (String.eqb b "")|]; eauto).
Qed.

(** The text recorded at fit: the equation of the best row; if that cannot be read, the row's own text; without a
    usable row, the text of the back end; nothing only when all of these fail. *)
Definition row_says (v : view) (t : string) : Prop :=
  exists row, v_best v = Call (Ok row) /\ (row_eq row = Ok t \/ (exists e, row_eq row = Err e) /\ row_str row = Ok t).
Theorem C90_recorded_text : forall v,
  (forall t, row_says v t -> equation_text v = Some t) /\
  ((forall t, ~ row_says v t) -> forall t, v_str v = Ok t -> equation_text v = Some t) /\
  ((forall t, ~ row_says v t) -> forall e, v_str v = Err e -> equation_text v = None) /\
  (forall e, sympy_of v = Some e <-> v_sympy v = Call (Ok (Some e))).
Proof.
  intros v. unfold equation_text, best_text, row_says, sympy_of. split; [|split; [|split]].
  - intros t (row & -> & [->|[[e ->] ->]]); reflexivity.
  - intros N t E. destruct (v_best v) as [|[row|x]]; try (rewrite E; reflexivity).
    destruct (row_eq row) as [q|e] eqn:Q; [elim (N q); eauto|]. destruct (row_str row) as [q|e'] eqn:R; [elim (N q); eauto 6|]. rewrite E. reflexivity.
  - intros N t E. destruct (v_best v) as [|[row|x]]; try (rewrite E; reflexivity).
    destruct (row_eq row) as [q|e] eqn:Q; [elim (N q); eauto|]. destruct (row_str row) as [q|e'] eqn:R; [elim (N q); eauto 6|]. rewrite E. reflexivity.
  - intros e. destruct (v_sympy v) as [|[[x|]|x]]; split; intros H; congruence.
Qed.
Example C90_recorded_meets : equation_text (mkView (Call (Ok (mkRow (Err KeyError) (Ok "row")))) NoAttr (Ok "m") NoAttr (fun _ => Err ValueError)) = Some "row".
Proof. reflexivity. Qed.

(** The lhs argument matters only in the SymPy case. *)
Theorem C90_lhs_matters_iff : forall s v, p_model s = Some v ->
  ((exists l1 l2, equation_latex s l1 <> equation_latex s l2) <->
   (forall c, ~ own_text v c) /\ exists rhs, p_sympy s = Some (Ok rhs)).
Proof.
  intros s v M. split.
  - intros (l1 & l2 & D). unfold equation_latex in D. rewrite M in D.
    destruct (v_latex v) as [|[[c|]|]] eqn:E; try (
      split; [intros c' (H & _); rewrite E in H; discriminate|];
      destruct (p_sympy s) as [[rhs|]|]; [eauto|elim D; reflexivity|elim D; reflexivity]).
    destruct (String.eqb_spec (strip c) "") as [B|B]; [|elim D; reflexivity].
    split; [intros c' (H & N); rewrite E in H; injection H as <-; contradiction|].
    destruct (p_sympy s) as [[rhs|]|]; [eauto|elim D; reflexivity|elim D; reflexivity].
  - intros (H & rhs & R). exists "a", "b". destruct (C90_order s v "a" M) as (_ & A & _). destruct (C90_order s v "b" M) as (_ & B & _).
    rewrite (A H _ R), (B H _ R). cbn [append]. congruence.
Qed.
(** Refuted: "equation_latex(lhs) shows the left-hand side asked for": with PySR's own latex() it does not. *)
Theorem C90_lhs_shown_refuted : exists s, (forall lhs, equation_latex s lhs = Ok "x_{0} + 1") /\ contains "y" "x_{0} + 1" = false.
Proof.
  exists (mkP 1 None None [] (Some (mkView NoAttr NoAttr (Ok "m") (Call (Ok (PStr "x_{0} + 1"))) (fun _ => Err ValueError))) (Some "x0+1") (Some (Ok "x_{0} + 1")) None None).
  split; reflexivity.
Qed.

(** ** C91: the plots *)
From Verif Require Import VizDataFacts PropsVizData.

Lemma ravel_vector l : ravel (vector l) = l.
Proof.
  unfold ravel, vector. cbn [shape at_ indices].
  assert (E : forall n b (l : list Q), map (fun i => nth (hd 0 i) l 0%Q) (flat_map (fun i => map (cons i) [[]]) (seq b n)) = map (fun i => nth i l 0%Q) (seq b n)).
  { intros n. induction n as [|n IH]; intros b l'; [reflexivity|]. cbn [seq flat_map map app hd]. rewrite IH. reflexivity. }
  rewrite E. clear E. induction l as [|a l IH]; [reflexivity|]. cbn [List.length seq map nth]. f_equal.
  rewrite <- seq_shift, map_map. exact IH.
Qed.
Lemma ravel_flat a : ravel (flat a) = ravel a.
Proof. apply ravel_vector. Qed.
Lemma shape_flat a : shape (flat a) = [size a].
Proof. unfold flat, vector. cbn [shape]. rewrite ravel_length. reflexivity. Qed.
Lemma size_flat a : size (flat a) = size a.
Proof. unfold size at 1. rewrite shape_flat. cbn. lia. Qed.

(** The data drawn: those of the options when both are given, else those of the last accepted fit. *)
Definition drawn_data (s : est) (o : options) : option (arr * arr) :=
  match o_X o, o_y o with
  | Some X, Some y => Some (X, y)
  | _, _ => match p_X s, p_y s with Some X, Some y => Some (X, y) | _, _ => None end
  end.
(** The three places a plot can go to. *)
Definition in_directory (o : options) (file : string) : string :=
  match o_out o with
  | Some b => (b ++ "/pysr/" ++ file)%string
  | None => ((match o_save o with Some d => d | None => o_cwd o end) ++ "/pysr/" ++ file)%string
  end.
Lemma sapp_assoc a b c : ((a ++ b) ++ c)%string = (a ++ (b ++ c))%string.
Proof. induction a as [|x a IH]; [reflexivity|]. cbn [append]. now rewrite IH. Qed.
Lemma plot_path_in o c file : Ascii.eqb c "/" = false ->
  plot_path (o_cwd o) (o_out o) (o_save o) (String c file) = in_directory o (String c file).
Proof.
  intros H. unfold plot_path, in_directory. destruct (o_out o) as [b|].
  - unfold join at 1. rewrite H. change (join b "pysr") with (b ++ "/pysr")%string. rewrite !sapp_assoc. reflexivity.
  - reflexivity.
Qed.
Lemma parity_in o : plot_path (o_cwd o) (o_out o) (o_save o) "parity.png" = in_directory o "parity.png".
Proof. exact (plot_path_in o "p" "arity.png" eq_refl). Qed.
Lemma residual_in o : plot_path (o_cwd o) (o_out o) (o_save o) "residual.png" = in_directory o "residual.png".
Proof. exact (plot_path_in o "r" "esidual.png" eq_refl). Qed.
Lemma equation_in o : plot_path (o_cwd o) (o_out o) (o_save o) "equation.png" = in_directory o "equation.png".
Proof. exact (plot_path_in o "e" "quation.png" eq_refl). Qed.

Lemma training_data_spec s o X y : training_data s o = Ok (Some (X, y)) ->
  exists y0, drawn_data s o = Some (X, y0) /\ y = flat y0 /\ exists n r, shape X = n :: r /\ n = size y0.
Proof.
  unfold training_data, drawn_data. intros H.
  assert (G : forall a b, match shape a with [] => Err IndexError | n :: _ => if Nat.eqb n (size b) then Ok (Some (a, flat b)) else Ok None end = Ok (Some (X, y)) ->
     a = X /\ y = flat b /\ exists n r, shape X = n :: r /\ n = size b).
  { intros a b E. destruct (shape a) as [|n r] eqn:S; [discriminate|]. destruct (Nat.eqb_spec n (size b)); [|discriminate].
    injection E as <- <-. repeat split. eauto. }
  destruct (o_X o) as [a|]; [destruct (o_y o) as [b|]|]; try (apply G in H as (-> & -> & K); eauto);
   destruct (p_X s) as [a'|]; destruct (p_y s) as [b'|]; try discriminate; apply G in H as (-> & -> & K); eauto.
Qed.

(** A parity plot that is made shows, sample by sample, the true value against the model's prediction
    for the drawn data, is in the file reported and touches no other file; otherwise the caller gets a
    warning and no file is written. *)
Theorem C91_parity : forall save s o d r d', plot_parity save s o d = (Ok r, d') ->
  (r_warned r = true /\ r_paths r = [] /\ d' = d) \/
  (exists X y p, drawn_data s o = Some (X, y) /\ predict s X = Ok p /\ List.length (ravel y) = List.length (ravel p) /\
     r_warned r = false /\ r_paths r = [in_directory o "parity.png"] /\
     file_at (in_directory o "parity.png") d' = Some (PicPoints (combine (ravel y) (ravel p))) /\
     (forall q, q <> in_directory o "parity.png" -> file_at q d' = file_at q d)).
Proof.
  intros save s o d r d' H. unfold plot_parity in H.
  destruct (training_data s o) as [[[X y]|]|e] eqn:T; [| |discriminate].
  2: { injection H as <- <-. left. repeat split. }
  destruct (training_data_spec _ _ _ _ T) as (y0 & D & -> & _).
  destruct (predict s X) as [p|e] eqn:P; [|injection H as <- <-; left; repeat split].
  destruct (parity_from (flat y0) (flat p)) as [[[a q] rr]| | |] eqn:F; try (injection H as <- <-; left; repeat split).
  destruct (C79_parity _ _ _ _ _ F) as (-> & -> & L & _). rewrite !ravel_flat in *. rewrite parity_in in H. cbv zeta in H.
  assert (K : match save with Some e => (Err e, d)
     | None => (Ok (mkR [in_directory o "parity.png"] false None None), (in_directory o "parity.png", PicPoints (combine (ravel y0) (ravel p))) :: d) end = (Ok r, d')).
  { destruct (ravel y0); [discriminate|exact H]. }
  clear H. destruct save; [discriminate|]. injection K as <- <-. right. exists X, y0, p.
  repeat split; try assumption; cbn [file_at].
  - rewrite String.eqb_refl. reflexivity.
  - intros q N. apply String.eqb_neq in N. rewrite N. reflexivity.
Qed.

(** When the plot is made at all: data there, as many X rows as y values, at least one, a prediction
    with as many values, and a writable file. *)
Theorem C91_parity_made : forall s o d X y p n r,
  drawn_data s o = Some (X, y) -> shape X = n :: r -> n = size y -> 0 < n -> predict s X = Ok p -> size p = n ->
  exists R d', plot_parity None s o d = (Ok R, d') /\ r_paths R = [in_directory o "parity.png"].
Proof.
  intros s o d X y p n r D SX E Pos P L. unfold plot_parity.
  assert (T : training_data s o = Ok (Some (X, flat y))).
  { unfold training_data, drawn_data in *. assert (G : match shape X with [] => Err IndexError | n :: _ => if Nat.eqb n (size y) then Ok (Some (X, flat y)) else Ok None end = Ok (Some (X, flat y))).
    { rewrite SX, E, Nat.eqb_refl. reflexivity. }
    destruct (o_X o) as [a|]; [destruct (o_y o) as [b|]|]; [injection D as -> ->; exact G| |];
    destruct (p_X s) as [a'|]; try discriminate; destruct (p_y s) as [b'|]; try discriminate; injection D as -> ->; exact G. }
  rewrite T, P. destruct (proj1 (C79_parity_accepts (flat y) (flat p))) as (x & q & rr & F).
  { rewrite !shape_flat. congruence. }
  rewrite F. destruct (C79_parity _ _ _ _ _ F) as (-> & -> & LL & _). rewrite parity_in.
  assert (N : ravel (flat y) <> []).
  { intros Z. apply (f_equal (@List.length Q)) in Z. rewrite ravel_length, size_flat in Z. cbn in Z. lia. }
  destruct (ravel (flat y)); [contradiction|]. do 2 eexists. split; reflexivity.
Qed.

(** The reported mean: times the number of values it is their sum. *)
Theorem C91_mean : forall l m, mean l = Some m -> l <> [] /\ (m * inject_Z (Z.of_nat (List.length l)) == fold_right Qplus 0%Q l)%Q.
Proof.
  intros l m H. unfold mean in H. destruct l as [|x l]; [discriminate|]. split; [discriminate|]. injection H as <-. 
  set (q := fold_right Qplus 0%Q (x :: l)). set (n := inject_Z _). assert (~ n == 0)%Q. { unfold n, Qeq. cbn. lia. }
  change (q / n * n == q)%Q. field. assumption.
Qed.
(** The residual histogram: exactly the differences true minus predicted, and their mean. *)
Theorem C91_residual : forall save s o d r d', plot_residual save s o d = (Ok r, d') ->
  (r_warned r = true /\ r_paths r = [] /\ d' = d) \/
  (exists X y p l, drawn_data s o = Some (X, y) /\ predict s X = Ok p /\
     List.length l = List.length (ravel y) /\ List.length l = List.length (ravel p) /\
     (forall i, nth_error l i = match nth_error (ravel y) i, nth_error (ravel p) i with Some a, Some b => Some (a - b)%Q | _, _ => None end) /\
     r_paths r = [in_directory o "residual.png"] /\
     file_at (in_directory o "residual.png") d' = Some (PicHist l) /\
     r_mean r = mean l /\
     (forall q, q <> in_directory o "residual.png" -> file_at q d' = file_at q d)).
Proof.
  intros save s o d r d' H. unfold plot_residual in H.
  destruct (training_data s o) as [[[X y]|]|e] eqn:T; [| |discriminate].
  2: { injection H as <- <-. left. repeat split. }
  destruct (training_data_spec _ _ _ _ T) as (y0 & D & -> & _).
  destruct (predict s X) as [p|e] eqn:P; [|injection H as <- <-; left; repeat split].
  destruct (residual_from (flat y0) (flat p) None) as [rd| | |] eqn:F; try (injection H as <- <-; left; repeat split).
  rewrite residual_in in H. cbv zeta in H. destruct save; [discriminate|].
  destruct (list_eq_dec Nat.eq_dec (shape (flat y0)) (shape (flat p))) as [E|E].
  2: { rewrite (proj1 (C79_residuals _ _) E) in F. discriminate. }
  destruct (proj2 (C79_residuals _ _) E) as (rd' & F' & _ & _ & Sh & V). rewrite F in F'. injection F' as <-.
  rewrite !shape_flat in *. assert (EE : size y0 = size p) by congruence.
  assert (R : ravel (r_residuals rd) = map (fun q => (fst q - snd q)%Q) (combine (ravel y0) (ravel p))).
  { transitivity (map (fun i => (nth i (ravel y0) 0 - nth i (ravel p) 0)%Q) (seq 0 (size y0))).
    - unfold ravel at 1. rewrite Sh. cbn [indices].
      assert (G : forall n b, (forall i, b <= i < b + n -> at_ (r_residuals rd) [i] = (nth i (ravel y0) 0 - nth i (ravel p) 0)%Q) ->
         map (at_ (r_residuals rd)) (flat_map (fun i => map (cons i) [[]]) (seq b n)) = map (fun i => (nth i (ravel y0) 0 - nth i (ravel p) 0)%Q) (seq b n)).
      { induction n as [|n IH]; intros b HH; [reflexivity|]. cbn [seq flat_map map app]. rewrite (HH b) by lia. f_equal. apply IH. intros i Hi. apply HH. lia. }
      apply G. intros i Hi. rewrite V by (constructor; [lia|constructor]). reflexivity.
    - assert (L : List.length (ravel y0) = List.length (ravel p)) by (rewrite !ravel_length; exact EE).
      rewrite <- (ravel_length y0). revert L. generalize (ravel y0) (ravel p). clear. induction l as [|a l IH]; intros [|b m] L; try discriminate; [reflexivity|].
      cbn [List.length seq map combine nth fst snd]. f_equal. rewrite <- seq_shift, map_map. cbn [nth]. apply IH. now injection L. }
  injection H as <- <-. right. exists X, y0, p, (ravel (r_residuals rd)).
  assert (L : List.length (ravel y0) = List.length (ravel p)) by (rewrite !ravel_length; exact EE).
  rewrite R. split; [exact D|]. split; [exact P|]. split; [rewrite map_length, combine_length; lia|]. split; [rewrite map_length, combine_length; lia|].
  split; [|split; [reflexivity|split; [cbn [file_at]; rewrite String.eqb_refl; reflexivity|split; [reflexivity|]]]].
  - clear - L. revert L. generalize (ravel y0) (ravel p). induction l as [|a l IH]; intros [|b m] L [|i]; try discriminate; try reflexivity.
    cbn [combine map nth_error]. apply IH. now injection L.
  - intros q N. cbn [file_at]. apply String.eqb_neq in N. rewrite N. reflexivity.
Qed.
Example C91_plots_meet :
  let v := mkView NoAttr NoAttr (Ok "m") NoAttr (fun _ => Ok (vector [1; 5]%Q)) in
  let s := mkP 1 None None [] (Some v) None None (Some {| shape := [2; 1]; at_ := fun _ => 0%Q |}) (Some (vector [3; 4]%Q)) in
  plot_parity None s (mkO None None None None "/w") [] = (Ok (mkR ["/w/pysr/parity.png"] false None None), [("/w/pysr/parity.png", PicPoints [(3, 1); (4, 5)]%Q)]) /\
  snd (plot_residual None s (mkO None None (Some "out") None "/w") []) = [("out/pysr/residual.png", PicHist [3 - 1; 4 - 5]%Q)].
Proof. split; reflexivity. Qed.

(** The equation picture: when matplotlib accepts the text, the file reported shows it. *)
Theorem C91_equation : forall draw s o d,
  (forall latex, equation_latex s "y" = Ok latex -> draw (ensure_math_mode latex) = None ->
     exists r d', plot_equation draw s o d = (Ok r, d') /\ r_warned r = false /\ r_paths r = [in_directory o "equation.png"] /\
       r_latex r = Some latex /\ file_at (in_directory o "equation.png") d' = Some (PicText (ensure_math_mode latex)) /\
       (forall q, q <> in_directory o "equation.png" -> file_at q d' = file_at q d)) /\
  (forall e, equation_latex s "y" = Err e -> exists r, plot_equation draw s o d = (Ok r, d) /\ r_warned r = true /\ r_paths r = []).
Proof.
  intros draw s o d. unfold plot_equation. rewrite equation_in. split.
  - intros latex -> A. do 2 eexists. split; [reflexivity|]. unfold render_latex_to_image. rewrite A. cbn [r_warned r_paths r_latex file_at].
    rewrite String.eqb_refl. repeat split. intros q N. apply String.eqb_neq in N. rewrite N. reflexivity.
  - intros e ->. eexists. split; [reflexivity|]. split; reflexivity.
Qed.

(** Refuted: "the files reported exist": an equation matplotlib cannot draw is reported as drawn, without a warning. *)
Theorem C91_equation_file_refuted : exists draw s o r d',
  plot_equation draw s o [] = (Ok r, d') /\ r_paths r = ["/w/pysr/equation.png"] /\ r_warned r = false /\ file_at "/w/pysr/equation.png" d' = None.
Proof.
  exists (fun _ => Some ValueError),
    (mkP 1 None None [] (Some (mkView NoAttr NoAttr (Ok "m") (Call (Ok (PStr "\bad"))) (fun _ => Err ValueError))) None None None None),
    (mkO None None None None "/w"). do 2 eexists. split; [reflexivity|]. split; [reflexivity|]. split; reflexivity.
Qed.
(** ... or an older picture is left in place and passed off as the new one. *)
Theorem C91_stale_equation_refuted : exists draw s o r d',
  plot_equation draw s o [("/w/pysr/equation.png", PicText "$old$")] = (Ok r, d') /\ r_latex r = Some "\bad" /\ r_warned r = false /\
  r_paths r = ["/w/pysr/equation.png"] /\ file_at "/w/pysr/equation.png" d' = Some (PicText "$old$").
Proof.
  exists (fun _ => Some ValueError),
    (mkP 1 None None [] (Some (mkView NoAttr NoAttr (Ok "m") (Call (Ok (PStr "\bad"))) (fun _ => Err ValueError))) None None None None),
    (mkO None None None None "/w"). do 2 eexists. split; [reflexivity|]. repeat split.
Qed.

(** Refuted: "data given with the request are drawn": X alone (or y alone) is silently ignored. *)
Theorem C91_options_refuted : forall save s o d X,
  o_X o = Some X -> o_y o = None ->
  plot_parity save s o d = plot_parity save s (mkO None None (o_out o) (o_save o) (o_cwd o)) d.
Proof. intros save s o d X EX Ey. unfold plot_parity, training_data. rewrite EX, Ey. cbn [o_X o_y o_out o_save o_cwd]. reflexivity. Qed.
Example C91_options_refuted_meets :
  let v := mkView NoAttr NoAttr (Ok "m") NoAttr (fun X => Ok X) in
  let s := mkP 1 None None [] (Some v) None None (Some {| shape := [1; 1]; at_ := fun _ => 9%Q |}) (Some (vector [3]%Q)) in
  snd (plot_parity None s (mkO (Some {| shape := [1; 1]; at_ := fun _ => 8%Q |}) None None None "/w") []) = [("/w/pysr/parity.png", PicPoints [(3, 9)]%Q)].
Proof. reflexivity. Qed.

(** Refuted: "a request always comes back with a result or a warning": without samples the parity plot raises. *)
Theorem C91_no_samples_refuted : forall save s o d X y p r,
  drawn_data s o = Some (X, y) -> shape X = 0 :: r -> size y = 0 -> predict s X = Ok p -> size p = 0 ->
  plot_parity save s o d = (Err ValueError, d).
Proof.
  intros save s o d X y p r D SX E P L. unfold plot_parity.
  assert (T : training_data s o = Ok (Some (X, flat y))).
  { unfold training_data, drawn_data in *. assert (G : match shape X with [] => Err IndexError | n :: _ => if Nat.eqb n (size y) then Ok (Some (X, flat y)) else Ok None end = Ok (Some (X, flat y))).
    { rewrite SX, E, Nat.eqb_refl. reflexivity. }
    destruct (o_X o) as [a|]; [destruct (o_y o) as [b|]|]; [injection D as -> ->; exact G| |];
    destruct (p_X s) as [a'|]; try discriminate; destruct (p_y s) as [b'|]; try discriminate; injection D as -> ->; exact G. }
  rewrite T, P. destruct (proj1 (C79_parity_accepts (flat y) (flat p))) as (x & q & rr & F); [rewrite !shape_flat; congruence|].
  rewrite F. destruct (C79_parity _ _ _ _ _ F) as (-> & -> & _ & _). rewrite ravel_flat.
  assert (ravel y = []) as ->; [|reflexivity]. apply length_zero_iff_nil. rewrite ravel_length. exact E.
Qed.
Example C91_no_samples_meets : drawn_data (est_init 1 None None None) (mkO (Some {| shape := [0; 2]; at_ := fun _ => 0%Q |}) (Some (vector [])) None None "") <> None /\ size (vector []) = 0.
Proof. split; [discriminate|reflexivity]. Qed.

(** ** C92: math mode and figure width *)
Lemma ends_snoc s c : ends_dollar (s ++ String c "") = Ascii.eqb c "$".
Proof.
  induction s as [|a s IH]; [reflexivity|]. cbn [append ends_dollar]. rewrite IH. destruct s; reflexivity.
Qed.
Lemma snoc_of s : s <> "" -> exists t c, s = (t ++ String c "")%string.
Proof.
  induction s as [|a s IH]; [contradiction|]. intros _. destruct s as [|b s]; [exists "", a; reflexivity|].
  destruct IH as (t & c & E); [discriminate|]. exists (String a t), c. rewrite E. reflexivity.
Qed.
Lemma delimited_iff t : (starts_dollar t && ends_dollar t && Nat.leb 2 (String.length t))%bool = true <-> exists m, t = ("$" ++ m ++ "$")%string.
Proof.
  split.
  - intros H. apply andb_prop in H as (H & L). apply andb_prop in H as (S & E). apply Nat.leb_le in L.
    destruct t as [|c t]; [discriminate|]. cbn [starts_dollar] in S. apply Ascii.eqb_eq in S as ->.
    cbn [String.length] in L. destruct (snoc_of t) as (m & c & ->); [intros ->; cbn in L; lia|].
    change (String "$" (m ++ String c "")) with (String "$" m ++ String c "")%string in E. rewrite ends_snoc in E. apply Ascii.eqb_eq in E as ->.
    exists m. reflexivity.
  - intros (m & ->). change ("$" ++ m ++ "$")%string with (String "$" m ++ String "$" "")%string. rewrite ends_snoc. cbn [starts_dollar append].
    cbn [Ascii.eqb]. assert (L : forall s, String.length (s ++ "$") = S (String.length s)) by (induction s as [|x s IH]; [reflexivity|cbn [append String.length]; now rewrite IH]).
    cbn [String.length]. rewrite L. reflexivity.
Qed.
Lemma blank_snoc m c : is_space c = false -> blank (m ++ String c "") = false.
Proof. intros H. induction m as [|a m IH]; cbn [append blank]; [rewrite H; reflexivity|rewrite IH, andb_false_r; reflexivity]. Qed.
Lemma rstrip_snoc m c : is_space c = false -> rstrip (m ++ String c "") = (m ++ String c "")%string.
Proof.
  intros H. induction m as [|a m IH].
  - cbn [append rstrip blank]. rewrite H. reflexivity.
  - change (String a m ++ String c "")%string with (String a (m ++ String c ""))%string. cbn [rstrip].
    change (blank (String a (m ++ String c ""))) with (blank (String a m ++ String c "")). rewrite (blank_snoc _ _ H), IH. reflexivity.
Qed.
Lemma strip_dollars m : strip ("$" ++ m ++ "$") = ("$" ++ m ++ "$")%string.
Proof. unfold strip. cbn [append lstrip]. change (is_space "$") with false. cbn [rstrip]. exact (rstrip_snoc (String "$" m) "$" eq_refl). Qed.

(** The text drawn is a formula between dollar signs (up to white space around it): the text itself if
    it already is one, otherwise the text put between dollar signs. *)
Theorem C92_math_mode : forall s,
  ((exists m, strip s = ("$" ++ m ++ "$")%string) -> ensure_math_mode s = s) /\
  (~ (exists m, strip s = ("$" ++ m ++ "$")%string) -> ensure_math_mode s = ("$" ++ s ++ "$")%string) /\
  (exists m, strip (ensure_math_mode s) = ("$" ++ m ++ "$")%string) /\
  ensure_math_mode (ensure_math_mode s) = ensure_math_mode s.
Proof.
  assert (Y : forall s, (exists m, strip s = ("$" ++ m ++ "$")%string) -> ensure_math_mode s = s).
  { intros s H. unfold ensure_math_mode. rewrite (proj2 (delimited_iff _) H). reflexivity. }
  assert (N : forall s, ~ (exists m, strip s = ("$" ++ m ++ "$")%string) -> ensure_math_mode s = ("$" ++ s ++ "$")%string).
  { intros s H. unfold ensure_math_mode. cbv zeta. rewrite <- delimited_iff in H. apply not_true_is_false in H. rewrite H. reflexivity. }
  intros s. split; [apply Y|]. split; [apply N|].
  assert (D : exists m, strip (ensure_math_mode s) = ("$" ++ m ++ "$")%string).
  { destruct (starts_dollar (strip s) && ends_dollar (strip s) && Nat.leb 2 (String.length (strip s)))%bool eqn:B.
    - apply delimited_iff in B. rewrite (Y s B). exact B.
    - rewrite N; [exists s; apply strip_dollars|]. rewrite <- delimited_iff, B. discriminate. }
  split; [exact D|]. apply Y, D.
Qed.
Example C92_math_mode_ex : ensure_math_mode "x" = "$x$" /\ ensure_math_mode " $x$ " = " $x$ " /\ ensure_math_mode "$" = "$$$" /\ ensure_math_mode "" = "$$".
Proof. repeat split. Qed.

(** Refuted: "the text drawn is one formula": two formulas with plain text between are left alone, and
    a stray dollar sign at one end is doubled. *)
Theorem C92_single_formula_refuted : ensure_math_mode "$a$ and $b$" = "$a$ and $b$" /\ ensure_math_mode "a$" = "$a$$".
Proof. split; reflexivity. Qed.

(** The figure is never narrower than asked for, never wider than 40 inches unless asked for, and
    never narrower for a longer text. *)
Theorem C92_width : forall base n m, n <= m ->
  (base <= figure_width base n)%Q /\ (figure_width base n <= base \/ figure_width base n <= 40)%Q /\
  (figure_width base n <= figure_width base m)%Q.
Proof.
  assert (Mx : forall b x, (b <= (if Qle_bool b x then x else b))%Q).
  { intros b x. destruct (Qle_bool b x) eqn:E; [apply Qle_bool_iff in E; exact E|apply Qle_refl]. }
  assert (G : forall n m, n <= m -> (inject_Z (Z.of_nat (n - 50)) / 15 <= inject_Z (Z.of_nat (m - 50)) / 15)%Q).
  { intros n m H. apply Qmult_le_compat_r; [|discriminate]. rewrite <- Zle_Qle. lia. }
  intros base n m H. specialize (G n m H). unfold figure_width.
  set (a := (inject_Z (Z.of_nat (n - 50)) / 15)%Q) in *. set (b := (inject_Z (Z.of_nat (m - 50)) / 15)%Q) in *.
  assert (T : forall x y, Qle_bool x y = false -> (y < x)%Q). { intros x y E. apply Qnot_le_lt. intros L. apply Qle_bool_iff in L. congruence. }
  split; [apply Mx|]. split.
  - destruct (Qle_bool (base + a) 40) eqn:E1; [apply Qle_bool_iff in E1|apply T in E1];
      match goal with |- context [Qle_bool base ?x] => destruct (Qle_bool base x) eqn:E2; [apply Qle_bool_iff in E2|apply T in E2] end; [right|left|right|left]; lra.
  - destruct (Qle_bool (base + a) 40) eqn:E1; [apply Qle_bool_iff in E1|apply T in E1];
    (destruct (Qle_bool (base + b) 40) eqn:E3; [apply Qle_bool_iff in E3|apply T in E3]);
     repeat match goal with |- context [Qle_bool base ?x] => let E := fresh in destruct (Qle_bool base x) eqn:E; [apply Qle_bool_iff in E|apply T in E] end; lra.
Qed.
Example C92_width_ex : (figure_width 8 50 == 8)%Q /\ (figure_width 8 80 == 10)%Q /\ (figure_width 8 5000 == 40)%Q.
Proof. repeat split; reflexivity. Qed.
Print Assumptions C88_succeeds_iff.
Print Assumptions C88_success.
Print Assumptions C88_rejected.
Print Assumptions C88_history.
Print Assumptions C88_parameters_kept.
Print Assumptions C88_not_fitted.
Print Assumptions C88_failed_training_refuted.
Print Assumptions C88_cached_data_refuted.
Print Assumptions C89_arguments.
Print Assumptions C89_niterations_refuted.
Print Assumptions C90_order.
Print Assumptions C90_total.
Print Assumptions C90_lhs_matters_iff.
Print Assumptions C90_lhs_shown_refuted.
Print Assumptions C91_parity.
Print Assumptions C91_parity_made.
Print Assumptions C91_residual.
Print Assumptions C91_equation.
Print Assumptions C91_equation_file_refuted.
Print Assumptions C91_stale_equation_refuted.
Print Assumptions C91_options_refuted.
Print Assumptions C91_no_samples_refuted.
Print Assumptions C92_math_mode.
Print Assumptions C92_single_formula_refuted.
Print Assumptions C92_width.
Print Assumptions C90_recorded_text.
Print Assumptions C91_mean.
