(** Properties of the sparse regression: C26. *)
From Coq Require Import QArith Qabs FinFun.
From Verif Require Import Base Num SparseReg SparseRegFacts.
Local Open Scope nat_scope.

(** *** C26 *)
(** The tolerance search (both copies).  [str] is STRidge on the data, [w0] the plain least
    squares coefficients, [crit k mse] the criterion of a vector with k nonzero coefficients. *)
Section C26.
Variables (str : Q -> res (list Q)) (err mse : list Q -> num) (crit : nat -> num -> num) (w0 : list Q).
Local Notation criterion w := (crit (nonzeros w) (mse w)).
Local Notation train := (train str (measure_with err mse crit) w0).
(** The result is least squares or what STRidge gave at one of the [maxit] tolerances tried (all
    positive), it comes with its own errors, and no vector tried, least squares included, has
    a smaller criterion.  (The criterion of least squares must be a number: see below.) *)
Theorem C26_best_of_tried maxit d_tol f tried : (0 < d_tol)%Q -> is_nan (criterion w0) = false ->
  train maxit d_tol = Ok (f, tried) ->
  List.length tried = maxit /\ Forall (fun t => 0 < t)%Q tried /\
  (f_w f = w0 \/ exists t, In t tried /\ str t = Ok (f_w f)) /\
  f_err f = err (f_w f) /\ f_mse f = mse (f_w f) /\ f_crit f = criterion (f_w f) /\
  nle (criterion (f_w f)) (criterion w0) = true /\
  forall t, In t tried -> exists w, str t = Ok w /\ (is_nan (criterion w) = false -> nle (criterion (f_w f)) (criterion w) = true).
Proof.
  intros Hd Hn H. unfold SparseReg.train in H.
  destruct (search_spec str (measure_with err mse crit) maxit d_tol d_tol (measure_with err mse crit w0) [] f tried Hd Hd Hn H) as (new & E & L & P & B & F & M).
  cbn in E. subst new. destruct F as [->|(t & w & I & Es & ->)]; cbn in *.
  - repeat (split; [auto|]). exact M.
  - repeat (split; [eauto|]). exact M.
Qed.
(** The search never fails when STRidge does not. *)
Theorem C26_total maxit d_tol : (forall t, exists w, str t = Ok w) -> exists r, train maxit d_tol = Ok r.
Proof. intros H. apply search_total. exact H. Qed.
(** A criterion that is NaN for least squares is kept whatever the candidates score. *)
Theorem C26_nan_kept_refuted maxit d_tol f tried : criterion w0 = NaN ->
  train maxit d_tol = Ok (f, tried) -> f_w f = w0 /\ f_crit f = NaN.
Proof.
  intros Hn H. assert (f = measure_with err mse crit w0) as ->; [|split; [reflexivity|exact Hn]].
  eapply search_nan; [|exact H]. cbn. rewrite Hn. reflexivity.
Qed.
(** The Lasso option returns the least squares coefficients with the errors of other ones. *)
Theorem C26_lasso_refuted lasso : let f := train_lasso (measure_with err mse crit) w0 lasso in
  f_w f = w0 /\ f_mse f = mse lasso.
Proof. split; reflexivity. Qed.
End C26.
(** The number of terms in the criterion is the number of non-zero coefficients. *)
Theorem C26_counts w : exists S, NoDup S /\ (forall i, In i S <-> i < List.length w /\ ~ (nth i w 0 == 0)%Q) /\ nonzeros w = List.length S.
Proof.
  induction w as [|q w (S & N & I & L)].
  - exists []. split; [constructor|]. split; [|reflexivity]. intros i. cbn. split; [tauto|lia].
  - assert (M : forall i, In i (map Datatypes.S S) <-> exists j, i = Datatypes.S j /\ j < List.length w /\ ~ (nth j w 0 == 0)%Q).
    { intros i. rewrite in_map_iff. split; [intros (j & <- & H); exists j; rewrite <- I; auto|intros (j & -> & H); exists j; split; [reflexivity|now apply I]]. }
    assert (N' : NoDup (map Datatypes.S S)) by (apply FinFun.Injective_map_NoDup; [intros a b E0; congruence|exact N]).
    unfold nonzeros in *. cbn [filter]. destruct (Qeq_bool q 0) eqn:E; cbn [negb].
    + exists (map Datatypes.S S). split; [exact N'|]. split; [|now rewrite map_length]. intros i. rewrite M. apply Qeq_bool_iff in E.
      destruct i as [|i]; cbn [nth List.length]; [split; [intros (j & X & _); discriminate|tauto]|]. split; [intros (j & X & H); injection X as ->; intuition lia|intros [H1 H2]; exists i; intuition lia].
    + exists (0 :: map Datatypes.S S). split; [constructor; [intros X; apply M in X; destruct X as (j & X & _); discriminate|exact N']|]. split; [|cbn [List.length]; now rewrite map_length, L].
      intros i. cbn [In]. rewrite M. destruct i as [|i]; cbn [nth List.length].
      * split; [intros _; split; [lia|intros X; apply Qeq_bool_iff in X; congruence]|auto].
      * split; [intros [X|(j & X & H)]; [discriminate|injection X as ->; intuition lia]|intros [H1 H2]; right; exists i; intuition lia].
Qed.
Print Assumptions C26_counts.
Print Assumptions C26_best_of_tried.
Print Assumptions C26_total.
Print Assumptions C26_nan_kept_refuted.
Print Assumptions C26_lasso_refuted.

(** STRidge.  The data: [d] columns, rows [X0], target [y], scale factors [m] (normalize = 2);
    [ridge] and [lsq] work on the scaled columns. *)
Section STR.
Variables (d : nat) (X0 : list (list Q)) (y : list Q) (ridge lsq : list nat -> list Q) (m : list Q) (tol : Q).
Hypothesis Hridge : forall S, List.length (ridge S) = List.length S.
Hypothesis Hlsq : forall S, List.length (lsq S) = List.length S.
Hypothesis Hbest : least_squares (map (times m) X0) y d lsq.
Hypothesis Hm : List.length m = d /\ Forall (fun q => ~ (q == 0)%Q) m.
Hypothesis Htol : (0 < tol)%Q.
Local Notation surv := (survivors d ridge tol).
Local Notation first := (ridge (seq 0 d)).
(** Cutting coefficients below the tolerance and refitting, at most [maxit] times and until
    nothing changes, leaves a set S of columns; the result vanishes outside S and no vector
    vanishing outside S fits the original data better.  Hypotheses: not all coefficients are
    below the tolerance at once, none equals it, and (DISCOVER's copy) something is cut at all. *)
Theorem C26_stridge c maxit : 0 < maxit ->
  (exists i, i < d /\ (tol <= Qabs (nth i first 0))%Q) ->
  (forall i, i < d -> ~ (Qabs (nth i first 0) == tol)%Q) ->
  (c = Sga \/ exists i, i < d /\ (Qabs (nth i first 0) < tol)%Q) ->
  exists k w, k <= maxit /\ surv k <> [] /\ (k = maxit \/ surv (S k) = surv k \/ surv (S k) = []) /\
    stridge d ridge lsq (Some m) tol c maxit = Ok w /\ List.length w = d /\
    (forall i, i < d -> ~ In i (surv k) -> (nth i w 0 == 0)%Q) /\
    (forall u, List.length u = d -> (forall i, i < d -> ~ In i (surv k) -> (nth i u 0 == 0)%Q) -> (rss X0 y w <= rss X0 y u)%Q).
Proof.
  intros Hit (i0 & Hi0 & Hbig) Htie Hc.
  assert (IN : forall i, In i (surv 1) <-> i < d /\ (tol <= Qabs (nth i first 0))%Q).
  { intros i. rewrite <- (new_big_surv d ridge tol Htol 0), new_big, filter_In, in_seq, Qle_bool_iff, (W0 d ridge tol Hridge). intuition lia. }
  destruct (stridge_spec d ridge lsq (Some m) tol Hridge Hlsq Htol c maxit Hit) as (k & Hk & Hne & Hend & E).
  - intros E. assert (In i0 (surv 1)) as X by (apply IN; auto). rewrite E in X. destruct X.
  - exact Htie.
  - destruct Hc as [->|(i & Hi & Hs)]; [left; reflexivity|right]. intros E.
    assert (In i (surv 1)) as X by (rewrite E; apply in_seq; lia). apply IN in X as [_ X]. apply (Qlt_irrefl tol). eapply Qle_lt_trans; eauto.
  - cbn [rescale] in E. destruct Hm as [Lm Nz]. eexists k, _. split; [exact Hk|]. split; [exact Hne|]. split; [exact Hend|]. split; [exact E|].
    split; [rewrite times_length; rewrite embed_length; auto|]. split.
    + intros i Hi Hn. rewrite nth_times, nth_embed by exact Hi. rewrite lookup_out by exact Hn. ring.
    + intros u Lu Hu. apply refit_optimal; auto; [eapply surv_NoDup; eauto|intros i; eapply surv_lt; eauto].
Qed.
(** When every coefficient is below the tolerance at once, the coefficients of the scaled
    problem are returned as they are: neither cut nor scaled back. *)
Theorem C26_all_small_refuted c maxit : 0 < maxit -> 0 < d ->
  (forall i, i < d -> (Qabs (nth i first 0) < tol)%Q) ->
  stridge d ridge lsq (Some m) tol c maxit = Ok first.
Proof.
  intros Hit Hd Hs. unfold stridge. destruct maxit as [|n]; [lia|]. cbn [thresh].
  assert (N : new_biginds d tol first = []).
  { rewrite new_big. apply filter_none. intros i Hi. apply in_seq in Hi. specialize (Hs i ltac:(lia)).
    destruct (Qle_bool tol _) eqn:E; [|reflexivity]. apply Qle_bool_iff in E. exfalso. apply (Qlt_irrefl tol). eapply Qle_lt_trans; eauto. }
  rewrite N. cbn [List.length]. destruct (Nat.eqb_spec d 0); [lia|]. reflexivity.
Qed.
(** DISCOVER's copy with numpy 1.25 or later raises whenever two or more columns all exceed the
    tolerance at once (an index array is compared with the empty list). *)
Theorem C26_discover_raises_refuted maxit : 0 < maxit -> 2 <= d ->
  (forall i, i < d -> (tol < Qabs (nth i first 0))%Q) ->
  stridge d ridge lsq (Some m) tol (Discover true) maxit = Err ValueError.
Proof.
  intros Hit Hd Hs. unfold stridge. destruct maxit as [|n]; [lia|]. cbn [thresh].
  assert (N : new_biginds d tol first = seq 0 d).
  { rewrite new_big. apply filter_all. intros i Hi. apply in_seq in Hi. specialize (Hs i ltac:(lia)). apply Qle_bool_iff. apply Qlt_le_weak. exact Hs. }
  assert (B : biginds0 d tol first = seq 0 d).
  { apply filter_all. intros i Hi. apply in_seq in Hi. specialize (Hs i ltac:(lia)). unfold Qltb.
    destruct (Qle_bool (Qabs _) tol) eqn:E; [|reflexivity]. apply Qle_bool_iff in E. exfalso. apply (Qlt_irrefl tol). eapply Qlt_le_trans; eauto. }
  rewrite N, B, seq_length, Nat.eqb_refl. destruct d as [|[|d']]; try lia. reflexivity.
Qed.
(** ... and with a single column above the tolerance returns the ridge estimate, not refitted. *)
Theorem C26_discover_single_refuted strict maxit : d = 1 -> 0 < maxit -> (tol < Qabs (nth 0 first 0))%Q ->
  stridge d ridge lsq (Some m) tol (Discover strict) maxit = Ok (times m first).
Proof.
  intros -> Hit Hs. unfold stridge. destruct maxit as [|n]; [lia|]. cbn [thresh].
  assert (N : new_biginds 1 tol (ridge (seq 0 1)) = [0]).
  { rewrite new_big. cbn [seq filter]. rewrite (proj2 (Qle_bool_iff _ _)); [reflexivity|]. apply Qlt_le_weak. exact Hs. }
  assert (B : biginds0 1 tol (ridge (seq 0 1)) = [0]).
  { unfold biginds0. cbn [seq filter]. unfold Qltb. destruct (Qle_bool (Qabs _) tol) eqn:E; [|reflexivity]. apply Qle_bool_iff in E. exfalso. apply (Qlt_irrefl tol). eapply Qlt_le_trans; eauto. }
  rewrite N, B. reflexivity.
Qed.
End STR.
(** A first estimate equal to the tolerance is neither cut nor refitted (nothing smaller being
    there): the result is not the least squares solution on any set of columns. *)
Theorem C26_tie_refuted : exists ridge lsq m tol w, 
  (forall S, List.length (ridge S) = List.length S) /\ lsq = ridge /\ (0 < tol)%Q /\
  stridge 2 ridge lsq (Some m) tol Sga 10 = Ok w /\ forall S, NoDup S -> (forall i, In i S -> i < 2) -> ~ Forall2 Qeq w (times m (embed 2 S (lsq S))).
Proof.
  (* y = (1, 3), X = ((1, 1), (0, 2)): w = (-1/2, 3/2) on both columns; on column 1 alone 7/5. *)
  set (r := fun S : list nat => map (fun i => if Nat.eqb (List.length S) 2 then (if Nat.eqb i 0 then (-1 # 2) else (3 # 2))%Q else if Nat.eqb i 0 then 1%Q else (7 # 5)%Q) S).
  exists r, r, [1%Q; 1%Q], (1 # 2)%Q, [(-1 # 2); (7 # 5)]%Q.
  split; [intros S; apply map_length|]. split; [reflexivity|]. split; [reflexivity|]. split; [vm_compute; reflexivity|].
  intros S N B F. assert (L : List.length S <= 2) by (apply (NoDup_incl_length (l' := seq 0 2) N); intros i Hi; apply in_seq; specialize (B i Hi); lia).
  destruct S as [|a [|b [|c S]]]; cbn in L; try lia.
  - vm_compute in F. inversion_clear F. discriminate.
  - pose proof (B a (or_introl eq_refl)). destruct a as [|[|a]]; try lia; vm_compute in F; inversion_clear F as [|? ? ? ? F1 F2]; inversion_clear F2; try discriminate.
  - pose proof (B a (or_introl eq_refl)). pose proof (B b (or_intror (or_introl eq_refl))). apply NoDup_cons_iff in N as [N _].
    assert (a <> b) by (intros ->; apply N; left; reflexivity).
    destruct a as [|[|a]], b as [|[|b]]; try lia; vm_compute in F; inversion_clear F as [|? ? ? ? F1 F2]; inversion_clear F2; try discriminate.
Qed.
Print Assumptions C26_stridge.
Print Assumptions C26_all_small_refuted.
Print Assumptions C26_discover_raises_refuted.
Print Assumptions C26_discover_single_refuted.
Print Assumptions C26_tie_refuted.
(** Non-vacuity: orthogonal columns, so that least squares is the projection.  The third
    coefficient 1/10 is cut; the search keeps the sparser vector. *)
Definition ex_X : list (list Q) := [[1; 0; 0]; [0; 1; 0]; [0; 0; 1]]%Q.
Definition ex_y : list Q := [3; 2; 1 # 10]%Q.
Definition ex_lsq (S : list nat) : list Q := map (fun i => nth i ex_y 0%Q) S.
Definition ex_mse (w : list Q) : num := Fin (rss ex_X ex_y w / 3).
Example C26_example : (forall S, List.length (ex_lsq S) = List.length S) /\
  stridge 3 ex_lsq ex_lsq (Some [1; 1; 1]%Q) (1 # 2) Sga 10 = Ok (times [1; 1; 1]%Q [3; 2; 0]%Q) /\
  survivors 3 ex_lsq (1 # 2) 1 = [0; 1] /\
  exists f tried, train (fun t => stridge 3 ex_lsq ex_lsq (Some [1; 1; 1]%Q) t Sga 10)
     (measure_with (fun _ => Fin 0) ex_mse (fun k e => match e with Fin q => Fin (q + inject_Z (Z.of_nat k)) | x => x end)) ex_y 4 1 = Ok (f, tried) /\
     f_w f = times [1; 1; 1]%Q [3; 2; 0]%Q.
Proof. split; [intros S; apply map_length|]. split; [vm_compute; reflexivity|]. split; [vm_compute; reflexivity|]. eexists _, _. split; [vm_compute; reflexivity|]. reflexivity. Qed.
Lemma ex_least_squares : least_squares (map (times [1; 1; 1]%Q) ex_X) ex_y 3 ex_lsq.
Proof.
  intros S v N B L. rewrite !rss_scale.
  assert (X : forall a b c, (rss ex_X ex_y (times [1; 1; 1]%Q [a; b; c]) == (3 - a) * (3 - a) + ((2 - b) * (2 - b) + ((1 # 10) - c) * ((1 # 10) - c)))%Q).
  { intros. unfold rss, dot, times, ex_X, ex_y. cbn [map combine fold_right fst snd]. ring. }
  change (embed 3 S (ex_lsq S)) with [lookup 0 (combine S (ex_lsq S)); lookup 1 (combine S (ex_lsq S)); lookup 2 (combine S (ex_lsq S))].
  change (embed 3 S v) with [lookup 0 (combine S v); lookup 1 (combine S v); lookup 2 (combine S v)]. rewrite !X.
  assert (Y : forall i, ((nth i ex_y 0 - lookup i (combine S (ex_lsq S))) * (nth i ex_y 0 - lookup i (combine S (ex_lsq S))) <=
                        (nth i ex_y 0 - lookup i (combine S v)) * (nth i ex_y 0 - lookup i (combine S v)))%Q).
  { intros i. destruct (in_dec Nat.eq_dec i S) as [H|H].
    - unfold ex_lsq. rewrite (lookup_map (fun i => nth i ex_y 0%Q) S i H).
      setoid_replace ((nth i ex_y 0 - nth i ex_y 0) * (nth i ex_y 0 - nth i ex_y 0))%Q with 0%Q by ring.
      generalize (nth i ex_y 0 - lookup i (combine S v))%Q. intros q. destruct q as [n p]. unfold Qle; cbn. nia.
    - rewrite !lookup_out by exact H. apply Qle_refl. }
  pose proof (Y 0) as Y0. pose proof (Y 1) as Y1. pose proof (Y 2) as Y2. cbn [nth ex_y] in Y0, Y1, Y2. repeat apply Qplus_le_compat; assumption.
Qed.
