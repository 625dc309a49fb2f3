(** Properties of the package's import graph: C78. *)
From Coq Require Import List Bool Arith Lia.
From Verif Require Import Imports ImportsFacts.
Import ListNotations.

(** *** Specification vocabulary *)

(** The first import of the session that concerns kd.viz or the DLGA model:
    [Some true] if it is of kd.viz, [Some false] if it is of DLGA. *)
Fixpoint first_of (h : list entry) : option bool :=
  match h with [] => None | e :: r => match kind e with Some b => Some b | None => first_of r end end.
(** [from kd import viz] (or [import kd; kd.viz]) *)
Definition kd_dot_viz (e : entry) : Prop := e = EFrom Kd n_viz.
(** Third-party packages an entry needs. *)
Definition needs_discover (e : entry) : bool :=
  match e with
  | EImport (KdDiscover | KdDiscoverReg) => true
  | EFrom KdDiscover _ => true
  | EFrom (Kd | KdModel) (c_KD_Discover | c_KD_Discover_SPR | c_KD_Discover_Regression) => true
  | _ => false
  end.
Definition needs_sga (e : entry) : bool :=
  match e with EImport KdSga | EFrom KdSga _ | EFrom KdModel c_KD_SGA => true | _ => false end.

Lemma track_first : forall h t, fold_left track h t = match t with Some b => Some b | None => first_of h end.
Proof.
  induction h as [|e h IH]; intros t; cbn; [destruct t; reflexivity|]. rewrite IH. destruct t; cbn; [reflexivity|]. destruct (kind e); reflexivity.
Qed.
Lemma tsession_track av h : snd (tsession av h) = first_of h.
Proof.
  transitivity (fold_left track h None); [|apply track_first].
  refine (fold_proj (tstep av) track snd _ h (fresh, None)). intros x e. unfold tstep. generalize (do_entry av (fst x) e). intros y. reflexivity.
Qed.

(** State checks, evaluated on every reachable state. *)
Definition regd (c : nm) (x : tstate) : bool := existsb (nm_eqb c) (registered (fst x)).
Definition is_true_first (o : option bool) : bool := match o with Some true => true | _ => false end.
Definition is_some (o : option bool) : bool := match o with Some _ => true | _ => false end.
Definition state_ok (p d g : bool) (x : tstate) : bool :=
  eqb (regd c_KD_DLGA x) (p && is_true_first (snd x))
  && eqb (regd c_KD_Discover x) (p && d && is_some (snd x))
  && eqb (regd c_KD_SGA x) (p && g && is_some (snd x))
  && eqb (lazy_pysr (fst x)) (p && is_some (snd x))
  && eqb (has (fst x) Kd n_viz) (p && is_some (snd x))
  && loaded (do_entry (av_of p d g) (fst x) (EImport Kd)) Kd
  && eqb (has (do_entry (av_of p d g) (fst x) (EImport Kd)) Kd n_viz) (p && is_some (snd x)).
Definition out_is_done (o : out) : bool := match o with Done => true | _ => false end.
Definition entry_eqb_viz (e : entry) : bool := match e with EFrom Kd n_viz => true | _ => false end.
Definition outcome_ok (d g : bool) (x : tstate) (e : entry) : bool :=
  if entry_eqb_viz e then true else
  match snd (exec (av_of true d g) budget (job_of e) (fst x)) with
  | NoFuel => false
  | Done => (if needs_discover e then d else true) && (if needs_sga e then g else true)
  | Exc => negb ((if needs_discover e then d else true) && (if needs_sga e then g else true))
  end.
Lemma all_states_ok : forallb (fun c => match c with (p, d, g) => forallb (state_ok p d g) (reach p d g) end) cfgs = true.
Proof. vm_compute. reflexivity. Qed.
Lemma all_outcomes_ok : forallb (fun c => match c with (d, g) => forallb (fun x => forallb (outcome_ok d g x) entries) (reach true d g) end)
  [(true,true);(true,false);(false,true);(false,false)] = true.
Proof. vm_compute. reflexivity. Qed.
Lemma in_cfgs p d g : In (p, d, g) cfgs. Proof. destruct p, d, g; cbn; tauto. Qed.
Lemma nm_eqb_eq a b : nm_eqb a b = true <-> a = b. Proof. unfold nm_eqb. destruct (nm_eq_dec a b); split; congruence. Qed.
Lemma regd_In c x : regd c x = true <-> In c (registered (fst x)).
Proof. unfold regd. rewrite existsb_exists. split; [intros (y & H & E); apply nm_eqb_eq in E; now subst|intros H; exists c; split; [exact H|now apply nm_eqb_eq]]. Qed.
Lemma reach_ok p d g h : Forall (fun e => In e entries) h -> state_ok p d g (tsession (av_of p d g) h) = true.
Proof.
  intros H. pose proof all_states_ok as A. rewrite forallb_forall in A. specialize (A _ (in_cfgs p d g)). cbv beta iota in A. rewrite forallb_forall in A.
  apply A. now apply session_reach.
Qed.
Lemma outc_ok d g h e : Forall (fun e => In e entries) h -> In e entries -> outcome_ok d g (tsession (av_of true d g) h) e = true.
Proof.
  intros H He. pose proof all_outcomes_ok as A. rewrite forallb_forall in A. specialize (A (d, g) ltac:(destruct d, g; cbn; tauto)). cbv beta iota in A. rewrite forallb_forall in A.
  specialize (A _ (session_reach true d g h H)). rewrite forallb_forall in A. now apply A.
Qed.

(** *** C78 theorems.  [p], [d], [g]: whether the third-party packages of the
    three groups are installed. *)

(** KD_DLGA has a visualization adapter exactly when kd.viz was imported
    before anything of the DLGA model. *)
Theorem C78_dlga_adapter_iff_viz_first : forall d g h,
  Forall (fun e => In e entries) h ->
  (In c_KD_DLGA (registered (session (av_of true d g) h)) <-> first_of h = Some true).
Proof.
  intros d g h H. pose proof (reach_ok true d g h H) as A. unfold state_ok in A. rewrite !andb_true_iff in A. destruct A as [[[[[[A _] _] _] _] _] _].
  apply eqb_prop in A. rewrite <- tsession_proc, <- regd_In, A, tsession_track. destruct (first_of h) as [[|]|]; cbn; split; congruence.
Qed.
Example C78_dlga_adapter_iff_viz_first_ex :
  In c_KD_DLGA (registered (session (av_of true true true) [EImport KdDataset; EFrom KdModel c_KD_SGA; EFrom Viz render; EFrom KdDlga c_KD_DLGA]))
  /\ registered (session (av_of true true true) [EImport KdDataset; EFrom KdDlga c_KD_DLGA; EFrom Viz render]) = [c_KD_Discover; c_KD_SGA].
Proof. split; [|vm_compute; reflexivity]. vm_compute. tauto. Qed.

(** KD_Discover, KD_SGA and the lazy KD_PySR entry are registered as soon as
    kd.viz has been imported, directly or through the DLGA model, in any
    order, exactly when their packages are installed. *)
Theorem C78_other_adapters : forall p d g h,
  Forall (fun e => In e entries) h ->
  (In c_KD_Discover (registered (session (av_of p d g) h)) <-> (p = true /\ d = true /\ exists e, In e h /\ kind e <> None)) /\
  (In c_KD_SGA (registered (session (av_of p d g) h)) <-> (p = true /\ g = true /\ exists e, In e h /\ kind e <> None)) /\
  (lazy_pysr (session (av_of p d g) h) = true <-> (p = true /\ exists e, In e h /\ kind e <> None)).
Proof.
  intros p d g h H. assert (is_some (first_of h) = true <-> exists e, In e h /\ kind e <> None) as F.
  { clear. induction h as [|e h IH]; cbn.
    - split; [discriminate|intros (e & [] & _)].
    - destruct (kind e) as [b|] eqn:K; cbn.
      + split; [|reflexivity]. intros _. exists e. split; [now left|congruence].
      + rewrite IH. split; [intros (x & I & N); exists x; auto|intros (x & [->|I] & N); [congruence|exists x; auto]]. }
  pose proof (reach_ok p d g h H) as A. unfold state_ok in A. rewrite !andb_true_iff in A. destruct A as [[[[[[_ A1] A2] A3] _] _] _].
  apply eqb_prop in A1, A2, A3. rewrite <- tsession_proc, <- !regd_In, A1, A2, A3, tsession_track, !andb_true_iff, F. tauto.
Qed.

(** Import order never breaks an import (base packages installed): after any
    session, any entry other than [from kd import viz] succeeds if and only
    if the packages it needs are installed, whatever the recursion limit
    above a fixed budget. *)
Theorem C78_imports_succeed : forall d g h e n,
  Forall (fun e => In e entries) h -> In e entries -> ~ kd_dot_viz e -> budget <= n ->
  snd (exec (av_of true d g) n (job_of e) (session (av_of true d g) h)) =
    if (needs_discover e && negb d) || (needs_sga e && negb g) then Exc else Done.
Proof.
  intros d g h e n H He Hv Hn. pose proof (outc_ok d g h e H He) as A. unfold outcome_ok in A.
  assert (entry_eqb_viz e = false) as V. { destruct (entry_eqb_viz e) eqn:V; [|reflexivity]. exfalso. apply Hv. unfold kd_dot_viz. destruct e as [m|m k]; [discriminate|]. destruct m, k; try discriminate. reflexivity. }
  rewrite V in A. rewrite tsession_proc in A.
  assert (snd (exec (av_of true d g) budget (job_of e) (session (av_of true d g) h)) <> NoFuel) as N by (intros X; rewrite X in A; discriminate A).
  rewrite (exec_ge _ budget n _ _ Hn N).
  destruct (snd (exec _ _ _ _)); [| |congruence]; destruct (needs_discover e), (needs_sga e), d, g; cbn in *; congruence.
Qed.
Example C78_imports_succeed_ex : In (EFrom Kd c_KD_DLGA) entries /\ ~ kd_dot_viz (EFrom Kd c_KD_DLGA)
  /\ needs_discover (EFrom Kd c_KD_DLGA) = false /\ kind (EFrom Kd c_KD_DLGA) = Some false.
Proof. split; [cbn; tauto|]. split; [discriminate|]. split; reflexivity. Qed.

(** Adapters are never lost by further imports. *)
Theorem C78_adapters_kept : forall p d g h1 h2 c,
  Forall (fun e => In e entries) (h1 ++ h2) -> In c [c_KD_DLGA; c_KD_Discover; c_KD_SGA] ->
  In c (registered (session (av_of p d g) h1)) -> In c (registered (session (av_of p d g) (h1 ++ h2))).
Proof.
  intros p d g h1 h2 c H Hc I. pose proof H as H0. apply Forall_app in H0 as [H1 _].
  pose proof (reach_ok p d g h1 H1) as A. pose proof (reach_ok p d g (h1 ++ h2) H) as B. unfold state_ok in A, B. rewrite !andb_true_iff in A, B.
  destruct A as [[[[[[A1 A2] A3] _] _] _] _], B as [[[[[[B1 B2] B3] _] _] _] _]. apply eqb_prop in A1, A2, A3, B1, B2, B3.
  rewrite <- tsession_proc in *. rewrite <- regd_In in *. rewrite !tsession_track in *.
  assert (forall b, first_of h1 = Some b -> first_of (h1 ++ h2) = Some b) as F.
  { clear. induction h1 as [|e h IH]; cbn; [discriminate|]. destruct (kind e); [auto|exact IH]. }
  destruct (first_of h1) as [b|] eqn:E.
  - rewrite (F b eq_refl) in *. destruct Hc as [<-|[<-|[<-|[]]]]; congruence.
  - exfalso. destruct Hc as [<-|[<-|[<-|[]]]]; rewrite I in *; cbn in *; rewrite ?andb_false_r in *; discriminate.
Qed.

(** "[import kd; kd.viz] (or [from kd import viz]) gives the visualization
    package" is false in every session that has not imported kd.viz yet: the
    request re-enters itself at every recursion limit. *)
Theorem C78_kd_dot_viz_refuted : forall p d g h n,
  Forall (fun e => In e entries) h -> first_of h = None ->
  snd (exec (av_of p d g) n (job_of (EFrom Kd n_viz)) (do_entry (av_of p d g) (session (av_of p d g) h) (EImport Kd))) = NoFuel.
Proof.
  intros p d g h n H F. pose proof (reach_ok p d g h H) as A. unfold state_ok in A. rewrite !andb_true_iff in A. destruct A as [[_ A1] A2]. apply eqb_prop in A2.
  rewrite tsession_proc, tsession_track, F in *. cbn [is_some] in A2. rewrite andb_false_r in A2. cbn [job_of].
  destruct (kd_viz_diverges (av_of p d g) n None _ A2) as [E|E]; [exact E|congruence].
Qed.
Example C78_kd_dot_viz_refuted_ex : first_of [EImport KdDataset; EFrom KdModel c_KD_Discover] = None
  /\ snd (exec (av_of true true true) budget (job_of (EFrom Kd n_viz)) (session (av_of true true true) [EImport Viz])) = Done.
Proof. split; [reflexivity|vm_compute; reflexivity]. Qed.

(** "Once the model class and kd.viz are both imported, the model has its
    adapter" is false for the import order of examples/dlga_example.py:10-12:
    no later sequence of imports ever gives KD_DLGA an adapter. *)
Theorem C78_dlga_example_refuted : forall d g h,
  Forall (fun e => In e entries) h ->
  ~ In c_KD_DLGA (registered (session (av_of true d g) (EImport KdDataset :: EFrom KdDlga c_KD_DLGA :: EFrom Viz render :: h))).
Proof.
  intros d g h H I. apply C78_dlga_adapter_iff_viz_first in I; [discriminate I|]. repeat (constructor; [cbn; tauto|]). exact H.
Qed.

(** "An import that fails for a missing package keeps failing" is false: with
    torch/seaborn/... missing, [import kd.viz.core] raises the first time and
    succeeds the second (the submodule stays in sys.modules). *)
Theorem C78_failed_import_repeats_refuted : forall d g,
  snd (exec (av_of false d g) budget (job_of (EImport VizCoreM)) fresh) = Exc /\
  snd (exec (av_of false d g) budget (job_of (EImport VizCoreM)) (session (av_of false d g) [EImport VizCoreM])) = Done /\
  snd (exec (av_of false d g) budget (job_of (EImport Viz)) (session (av_of false d g) [EImport VizCoreM])) = Exc.
Proof. intros d g. destruct d, g; vm_compute; repeat split. Qed.
Print Assumptions C78_dlga_adapter_iff_viz_first.
Print Assumptions C78_other_adapters.
Print Assumptions C78_imports_succeed.
Print Assumptions C78_adapters_kept.
Print Assumptions C78_kd_dot_viz_refuted.
Print Assumptions C78_dlga_example_refuted.
Print Assumptions C78_failed_import_repeats_refuted.
