(** C135: cropped values stay on their grid points; with a positive noise level regular data
    cannot be fitted. *)
From Coq Require Import QArith Qround Qabs Lqa.
From Verif Require Import Base Trees TreeFacts Library Execute ExecuteSpec ExecuteFacts Stridge StridgeFacts StridgeFit RegressLemmas Crop.
Local Open Scope nat_scope.

(** *** Specification *)
(** a grid point survives when along every axis it is at least [low] and below [up] *)
Definition survives (b : bounds) (shape p : list nat) : bool :=
  forallb (fun q => Nat.leb (low b (fst q)) (snd q) && Nat.ltb (snd q) (up b (fst q))) (combine shape p).
(** the surviving points, in the order of the whole grid *)
Definition inner_points (b : bounds) (shape : list nat) : list (list nat) := filter (survives b shape) (points shape).
Definition cuttable (shape : list nat) : Prop := 2 <= List.length shape <= 4.
(** np.linalg.lstsq raises when the numbers of rows differ *)
Definition lstsq_rows (lstsq : list (list Q) -> list Q -> option (list Q)) : Prop :=
  forall cols y c, In c cols -> List.length c <> List.length y -> lstsq cols y = None.

(** *** Cutting *)
Lemma filter_map_comm {A B} (f : A -> B) (g : B -> bool) l : filter g (map f l) = map f (filter (fun x => g (f x)) l).
Proof. induction l as [|x l IH]; [reflexivity|]. cbn. destruct (g (f x)); cbn; rewrite IH; reflexivity. Qed.
Lemma filter_flat {A B} (f : A -> list B) (g : B -> bool) l : filter g (flat_map f l) = flat_map (fun x => filter g (f x)) l.
Proof. induction l as [|x l IH]; [reflexivity|]. cbn. rewrite filter_app, IH. reflexivity. Qed.
Lemma flat_map_if {A B} (c : A -> bool) (f : A -> list B) l : flat_map (fun x => if c x then f x else []) l = flat_map f (filter c l).
Proof. induction l as [|x l IH]; [reflexivity|]. cbn. destruct (c x); cbn; rewrite IH; reflexivity. Qed.
Lemma filter_range l u n : filter (fun i => Nat.leb l i && Nat.ltb i u) (seq 0 n) = map (fun i => l + i) (seq 0 (Nat.min u n - l)).
Proof.
  assert (forall n s, filter (fun i => Nat.leb l i && Nat.ltb i u) (seq s n) = seq (Nat.max s l) (Nat.min u (s + n) - Nat.max s l)) as G.
  { clear n. induction n as [|n IH]; intros s; cbn [seq filter].
    - replace (Nat.min u (s + 0) - Nat.max s l) with 0 by lia. reflexivity.
    - rewrite IH. destruct (Nat.leb_spec l s); destruct (Nat.ltb_spec s u); cbn [andb].
      + replace (Nat.min u (s + S n) - Nat.max s l) with (S (Nat.min u (S s + n) - Nat.max (S s) l)) by lia.
        replace (Nat.max s l) with s by lia. replace (Nat.max (S s) l) with (S s) by lia. reflexivity.
      + replace (Nat.min u (S s + n) - Nat.max (S s) l) with 0 by lia. replace (Nat.min u (s + S n) - Nat.max s l) with 0 by lia. reflexivity.
      + replace (Nat.max (S s) l) with (Nat.max s l) by lia. f_equal. lia.
      + replace (Nat.max (S s) l) with (Nat.max s l) by lia. f_equal. lia. }
  rewrite G. cbn [Nat.max]. rewrite Nat.add_0_l. generalize (Nat.min u n - l) as k.
  clear. revert l. assert (forall k l s, seq (l + s) k = map (fun i => l + i) (seq s k)) as H.
  { induction k as [|k IH]; intros l s; [reflexivity|]. cbn [seq map]. f_equal. rewrite <- Nat.add_succ_r. apply IH. }
  intros l k. rewrite <- (Nat.add_0_r l) at 1. apply H.
Qed.
Lemma inner_cut b : forall shape, inner_points b shape =
  map (fun ix => map (fun p => low b (fst p) + snd p) (combine shape ix)) (points (map (kept b) shape)).
Proof.
  unfold inner_points. induction shape as [|n s IH]; [reflexivity|]. cbn [points map]. rewrite filter_flat.
  rewrite (flat_map_ext _ (fun i => if Nat.leb (low b n) i && Nat.ltb i (up b n) then map (cons i) (filter (survives b s) (points s)) else [])).
  2:{ intros i. rewrite filter_map_comm. unfold survives. cbn [combine forallb fst snd]. destruct (Nat.leb (low b n) i && Nat.ltb i (up b n)); [reflexivity|].
      cbn [andb]. assert (forall l : list (list nat), filter (fun _ => false) l = []) as F by (induction l; auto). rewrite F. reflexivity. }
  rewrite flat_map_if, filter_range. fold (kept b n). rewrite IH. generalize (points (map (kept b) s)) as pts. intros pts.
  induction (seq 0 (kept b n)) as [|i l IHl]; [reflexivity|]. cbn [map flat_map]. rewrite map_app, IHl. f_equal. rewrite !map_map. apply map_ext. reflexivity.
Qed.
Lemma flat_cut b a : cuttable (a_shape a) -> flat (cut_bound b a) = map (a_at a) (inner_points b (a_shape a)).
Proof.
  unfold cuttable, cut_bound, flat. intros H. destruct a as [sh f]; cbn [a_shape a_at] in *.
  assert (List.length sh = 2 \/ List.length sh = 3 \/ List.length sh = 4) as C by lia.
  rewrite inner_cut, map_map. destruct C as [->|[->| ->]]; reflexivity.
Qed.

(** *** C135 *)
(** A cut column holds exactly the values at the surviving grid points, in grid order, so columns
    of the same shape (all terms, and the target of the finite-difference mode) stay aligned. *)
Theorem C135_columns_on_inner_points b a ut : cuttable (a_shape a) -> a_shape ut = a_shape a ->
  term_column b true false a = map (a_at a) (inner_points b (a_shape a)) /\
  fd_target b ut = map (a_at ut) (inner_points b (a_shape a)).
Proof.
  intros H E. split; [exact (flat_cut b a H)|]. unfold fd_target. rewrite <- E. apply flat_cut. rewrite E. exact H.
Qed.
(** Without noise, and for automatic differentiation, nothing is cut. *)
Theorem C135_uncut b noise tensor a : noise = false \/ tensor = true ->
  term_column b noise tensor a = map (a_at a) (points (a_shape a)) /\ regular_target a = map (a_at a) (points (a_shape a)).
Proof. intros [->| ->]; split; try reflexivity; destruct tensor; reflexivity. Qed.
(** In exact arithmetic the same number of points is cut at both ends of an axis, and with a
    ratio below one half some are kept. *)
Theorem C135_both_ends p n : (0 <= p)%Q -> (p <= 1)%Q ->
  up (exact p) n = n - low (exact p) n /\ ((p < 1 # 2)%Q -> 0 < n -> 0 < kept (exact p) n).
Proof.
  intros H0 H1. cbn [exact low up]. unfold kept. cbn [exact low up]. unfold low_exact, up_exact.
  set (N := inject_Z (Z.of_nat n)). assert (0 <= N)%Q as HN by (unfold N; change 0%Q with (inject_Z 0); rewrite <- Zle_Qle; lia).
  assert (0 <= Qfloor (p * N))%Z as F0 by (change 0%Z with (Qfloor 0); apply Qfloor_resp_le; apply Qmult_le_0_compat; assumption).
  assert (Qfloor (p * N) <= Z.of_nat n)%Z as F1.
  { rewrite <- (Qfloor_Z (Z.of_nat n)). apply Qfloor_resp_le. fold N. rewrite <- (Qmult_1_l N) at 2. apply Qmult_le_compat_r; assumption. }
  assert (Qceiling ((1 - p) * N) = Z.of_nat n - Qfloor (p * N))%Z as E.
  { unfold Qceiling. assert (- ((1 - p) * N) == p * N + inject_Z (- Z.of_nat n))%Q as EE by (rewrite inject_Z_opp; fold N; ring).
    rewrite (Qfloor_comp _ _ EE). 
    assert (forall q z, Qfloor (q + inject_Z z) = (Qfloor q + z)%Z) as FA.
    { intros q z. pose proof (Qfloor_le q) as G1. pose proof (Qlt_floor q) as G2. pose proof (Qfloor_le (q + inject_Z z)) as G3. pose proof (Qlt_floor (q + inject_Z z)) as G4.
      rewrite inject_Z_plus in G2, G4.
      apply Z.le_antisymm.
      - apply Z.lt_succ_r. rewrite Zlt_Qlt. unfold Z.succ. rewrite !inject_Z_plus. lra.
      - apply Z.lt_succ_r. rewrite Zlt_Qlt. unfold Z.succ. rewrite !inject_Z_plus. lra. }
    rewrite FA. lia. }
  rewrite E. split; [lia|]. intros Hp Hn.
  assert (2 * Qfloor (p * N) < Z.of_nat n)%Z as L.
  { rewrite Zlt_Qlt, inject_Z_mult. fold N. pose proof (Qfloor_le (p * N)).
    assert (0 < N)%Q as PN by (unfold N; change 0%Q with (inject_Z 0); rewrite <- Zlt_Qlt; lia).
    assert (p * N < (1 # 2) * N)%Q by (apply Qmult_lt_r; assumption). change (inject_Z 2) with 2%Q. lra. }
  lia.
Qed.
(** Regular data with a positive noise level: the terms are cut, the target is not.  As soon as
    the cut removes a point, no expression whatever can be fitted. *)
Lemma valid_row lstsq exec ac rg sp y w cols : lstsq_rows lstsq -> wf_split sp ->
  calculate exec lstsq ac rg sp y = Valid w cols ->
  exists vs, Forall2 (fun l v => exec l = TVal v) (sp_tokens sp) vs /\ vs <> [] /\ Forall (fun v => List.length v = List.length y) vs.
Proof.
  intros HL HW E. unfold calculate in E. destruct (evaluate_terms exec rg sp) as [vs|] eqn:Ev; [|discriminate].
  destruct (evaluate_terms_ok exec rg sp vs HW Ev) as (A1 & A2 & _). exists vs. split; [exact A1|]. split; [exact A2|].
  apply Forall_forall. intros v Hv. destruct (Nat.eq_dec (List.length v) (List.length y)) as [X|X]; [exact X|exfalso].
  unfold coef_calculate in E. rewrite (HL _ y v) in E; [discriminate| |exact X]. destruct ac; [apply in_or_app; left|]; exact Hv.
Qed.
Theorem C135_regular_noise_refuted b run lstsq ac rg trav ds sp ut : lstsq_rows lstsq -> split_forest trav ds = Ok sp ->
  cuttable (a_shape ut) -> List.length (inner_points b (a_shape ut)) < List.length (points (a_shape ut)) ->
  (forall l a, run l = inl a -> a_shape a = a_shape ut) ->
  forall w cols, regular_fit b true run lstsq ac rg sp ut <> Valid w cols.
Proof.
  intros HL ES HC HI HS w cols E. unfold regular_fit in E.
  destruct (valid_row _ _ _ _ _ _ _ _ HL (wf_split_forest _ _ _ ES) E) as (vs & F & NE & FL).
  destruct F as [|l v ls vs' H F]; [congruence|]. inversion FL as [|? ? LV _]; subst.
  destruct (run l) as [a|] eqn:Er; [|discriminate]. assert (v = term_column b true false a) as -> by congruence. pose proof (HS l a Er) as Sh.
  rewrite (proj1 (C135_columns_on_inner_points b a a ltac:(rewrite Sh; exact HC) eq_refl)) in LV.
  unfold regular_target, flat in LV. rewrite !map_length, Sh in LV. lia.
Qed.
(** With noise level zero the same fit has every row of the grid. *)
Theorem C135_regular_rows b run lstsq ac rg trav ds sp ut w cols : lstsq_rows lstsq -> split_forest trav ds = Ok sp ->
  regular_fit b false run lstsq ac rg sp ut = Valid w cols ->
  exists vs, Forall2 (fun l v => exists a, run l = inl a /\ v = map (a_at a) (points (a_shape a))) (sp_tokens sp) vs /\ vs <> [] /\
    Forall (fun v => List.length v = List.length (points (a_shape ut))) vs.
Proof.
  intros HL ES E. unfold regular_fit in E.
  destruct (valid_row _ _ _ _ _ _ _ _ HL (wf_split_forest _ _ _ ES) E) as (vs & F & NE & FL).
  exists vs. split; [|split; [exact NE|]].
  - clear - F. induction F as [|l v ls vs H _ IH]; [constructor|]. constructor; [|exact IH].
    destruct (run l) as [a|]; [|discriminate]. injection H as <-. exists a. split; reflexivity.
  - unfold regular_target, flat in FL. rewrite map_length in FL. exact FL.
Qed.

(** a 3 by 4 grid, one third cut: one row and one column at each end *)
Definition c135_a := mkArr [3; 4] (fun ix => match ix with [i; j] => inject_Z (Z.of_nat (10 * i + j)) | _ => 0%Q end).
Example C135_case : cuttable (a_shape c135_a) /\ inner_points (exact (1 # 3)) [3; 4] = [[1; 1]; [1; 2]] /\
  term_column (exact (1 # 3)) true false c135_a = [11; 12]%Q /\ List.length (points [3; 4]) = 12 /\ low (exact (1 # 3)) 4 = 1 /\ up (exact (1 # 3)) 4 = 3.
Proof. split; [unfold cuttable; cbn; lia|]. vm_compute. repeat split. Qed.
Definition strict_lsq (cols : list (list Q)) (y : list Q) : option (list Q) :=
  if forallb (fun c => Nat.eqb (List.length c) (List.length y)) cols then lsq cols y else None.
Definition c135_u := mkTok "u1" 0 None (Some 0) None.
Example C135_fit_case : lstsq_rows strict_lsq /\ exists sp w cols, split_forest [c135_u] [] = Ok sp /\
  regular_fit (exact (1 # 3)) false (fun _ => inl c135_a) strict_lsq false (mkRegs 4 (Some 1)) sp c135_a = Valid w cols /\
  regular_fit (exact (1 # 3)) true (fun _ => inl c135_a) strict_lsq false (mkRegs 4 (Some 1)) sp c135_a = Invalid "bad_str".
Proof.
  split.
  - intros cols y c Hc Hn. unfold strict_lsq. destruct (forallb _ cols) eqn:E; [|reflexivity]. rewrite forallb_forall in E. apply E in Hc. apply Nat.eqb_eq in Hc. contradiction.
  - eexists. eexists. eexists. split; [reflexivity|]. split; vm_compute; reflexivity.
Qed.
Print Assumptions C135_columns_on_inner_points.
Print Assumptions C135_uncut.
Print Assumptions C135_both_ends.
Print Assumptions C135_regular_noise_refuted.
Print Assumptions C135_regular_rows.
