(** Property theorems: the search loop and its helpers (C18, C19, C33, C49-C51). *)
From Coq Require Import QArith Qround Qabs Lqa.
From Verif Require Import Base Num Searcher SearcherFacts Utils UtilsFacts.
Local Open Scope nat_scope.

(** *** C19 *)
(** Specification: [q] is the element of rank ceil((n-1)(1-eps)) of the rewards. *)
Definition upper_quantile (eps : Q) (rs : list num) (q : num) : Prop :=
  let k := Z.to_nat (Qceiling (inject_Z (Z.of_nat (List.length rs) - 1) * (1 - eps))) in
  In q rs /\ count (fun a => nlt a q) rs <= k < count (fun a => nle a q) rs.
(** A batch is a list of rows; NaN rewards count as zero ([rr]). *)
Theorem C19_selects_the_elite {A B C} (rows : list (A * B * C * prog)) eps e :
  quantile_select (map ra rows) (map rb rows) (map rc rows) (map rp rows) (map p_r (map rp rows)) eps = Ok (Some e) ->
  upper_quantile eps (map rr rows) (e_quantile e) /\
  let el := filter (fun x => negb (p_invalid (rp x)) && nle (e_quantile e) (rr x)) rows in
  el <> [] /\ e_programs e = map rp el /\ e_actions e = map ra el /\ e_obs e = map rb el /\ e_priors e = map rc el /\
  e_on e = map p_on (map rp el) /\ e_r e = map (nclip (-(1000000)) 1000000) (map rr el) /\
  e_full_valid e = map (nclip (-(1000000)) 1000000) (map rr (filter (fun x => negb (p_invalid (rp x)) && nlt (Fin 0) (rr x)) rows)).
Proof.
  rewrite select_eq. destruct (np_quantile (map rr rows) (1 - eps)) as [q|] eqn:EQ; [|discriminate].
  cbv zeta. destruct (Nat.ltb (List.length (filter (elite q) rows)) 1) eqn:EL; [discriminate|]. intros H. injection H as <-. cbn [e_quantile e_programs e_actions e_obs e_priors e_on e_r e_full_valid].
  assert (Forall (fun a => is_nan a = false) (map rr rows)) as HN by (apply Forall_forall; intros a Ha; apply in_map_iff in Ha as (x & <- & _); apply nan0_notnan).
  destruct (quantile_spec _ _ _ HN EQ) as (_ & H1 & H2 & H3). split; [repeat split; assumption|].
  split; [|repeat split]. fold (elite (A:=A) (B:=B) (C:=C) q). intros E. change (filter (elite q) rows = []) in E. rewrite E in EL. discriminate.
Qed.
Print Assumptions C19_selects_the_elite.
(** Nothing is selected exactly when no program reaching the quantile is valid. *)
Theorem C19_nothing_selected {A B C} (rows : list (A * B * C * prog)) eps :
  quantile_select (map ra rows) (map rb rows) (map rc rows) (map rp rows) (map p_r (map rp rows)) eps = Ok None ->
  exists q, upper_quantile eps (map rr rows) q /\ forall x, In x rows -> nle q (rr x) = true -> p_invalid (rp x) = true.
Proof.
  rewrite select_eq. destruct (np_quantile (map rr rows) (1 - eps)) as [q|] eqn:EQ; [|discriminate].
  cbv zeta. destruct (Nat.ltb (List.length (filter (elite q) rows)) 1) eqn:EL; [|discriminate]. intros _.
  assert (Forall (fun a => is_nan a = false) (map rr rows)) as HN by (apply Forall_forall; intros a Ha; apply in_map_iff in Ha as (x & <- & _); apply nan0_notnan).
  destruct (quantile_spec _ _ _ HN EQ) as (_ & H1 & H2 & H3). exists q. split; [repeat split; assumption|].
  intros x Hx Hq. destruct (p_invalid (rp x)) eqn:I; [reflexivity|]. exfalso. apply Nat.ltb_lt in EL.
  assert (In x (filter (elite q) rows)) as K by (apply filter_In; split; [exact Hx|unfold elite; rewrite I, Hq; reflexivity]).
  destruct (filter (elite q) rows); [destruct K|cbn in EL; lia].
Qed.
Print Assumptions C19_nothing_selected.
(** It never fails on a non-empty batch with 0 <= epsilon <= 1. *)
Theorem C19_total {A B C} (rows : list (A * B * C * prog)) eps : rows <> [] -> (0 <= eps <= 1)%Q ->
  exists o, quantile_select (map ra rows) (map rb rows) (map rc rows) (map rp rows) (map p_r (map rp rows)) eps = Ok o.
Proof.
  intros HR HE. rewrite select_eq. destruct (quantile_total (map rr rows) eps) as (q & ->); [destruct rows; [congruence|discriminate]|exact HE|].
  cbv zeta. destruct (Nat.ltb (List.length (filter (elite q) rows)) 1); eauto.
Qed.
Print Assumptions C19_total.
(** At least n - ceil((n-1)(1-eps)) programs reach the quantile. *)
Theorem C19_share eps rs q : Forall (fun a => is_nan a = false) rs -> upper_quantile eps rs q ->
  List.length rs - Z.to_nat (Qceiling (inject_Z (Z.of_nat (List.length rs) - 1) * (1 - eps))) <= count (nle q) rs.
Proof.
  intros HN (H1 & H2 & _). rewrite Forall_forall in HN. pose proof (count_split rs q (HN q H1) ltac:(apply Forall_forall; exact HN)). lia.
Qed.
Print Assumptions C19_share.
Definition c19_rows : list (nat * nat * nat * prog) :=
  [(10, 20, 30, mkProg 0 (Fin (1 # 2)) false true); (11, 21, 31, mkProg 1 NaN false true);
   (12, 22, 32, mkProg 2 (Fin (9 # 10)) true true); (13, 23, 33, mkProg 3 (Fin (1 # 4)) false true); (14, 24, 34, mkProg 4 (Fin (1 # 2)) false false)].
Example C19_example : exists e,
  quantile_select (map ra c19_rows) (map rb c19_rows) (map rc c19_rows) (map rp c19_rows) (map p_r (map rp c19_rows)) (1 # 2) = Ok (Some e) /\
  map p_id (e_programs e) = [0; 4] /\ e_actions e = [10; 14] /\ e_obs e = [20; 24] /\ e_priors e = [30; 34] /\ e_on e = [true; false] /\
  e_full_valid e = [Fin (1 # 2); Fin (1 # 4); Fin (1 # 2)].
Proof. eexists. split; [vm_compute; reflexivity|]. repeat split. Qed.

(** *** C18 *)
(** [reached eps last P s]: some history from a fresh searcher leads to state [s], having
    evaluated the programs [P]; rewards are numbers of at most 10^6 or (sampled programs)
    NaN, and invalid sampled programs have reward at most 0 -- as with every metric. *)
Theorem C18_best_program {A B C} eps last P s : sorts_last last -> @reached A B C eps last P s ->
  (forall p, In p P -> nlt (Fin 0) (p_r p) = true -> nle (p_r p) (s_rbest s) = true) /\
  (forall p, s_best s = Some p -> In p P /\ neq (p_r p) (s_rbest s)) /\
  (s_best s = None -> s_rbest s = NInf).
Proof.
  intros HL R. destruct (reached_inv eps last P s HL R) as [I1 I2 I3 I4 I5]. repeat split; auto; [apply I3; assumption|apply (I3 p); assumption|apply (I3 p); assumption|].
  intros H. apply I4. exact H.
Qed.
Print Assumptions C18_best_program.
(** Further epochs never lower the best reward, and all their programs are accounted for. *)
Theorem C18_never_gets_worse {A B C} eps last h P s s' : sorts_last last -> @fair_hist A B C h -> @reached A B C eps last P s ->
  epochs eps last (batches h) s = Ok s' ->
  nle (s_rbest s) (s_rbest s') = true /\
  exists P', @reached A B C eps last (P ++ P') s' /\ (forall x r, In x h -> In r (fst x) -> In (rp r) P').
Proof. intros HL HF R E. destruct (epochs_ok eps last HL h P s s' HF R E) as (P' & R' & H & _ & M). eauto. Qed.
Print Assumptions C18_never_gets_worse.
(** What search reports (without stability selection): the best program's own reward. *)
Theorem C18_reported {A B C} eps last h s' r p : sorts_last last -> @fair_hist A B C h ->
  search eps last false None (batches h) set_up = Ok (s', (r, p)) ->
  neq r (s_rbest s') /\ forall x y, In x h -> In y (fst x) -> nlt (Fin 0) (p_r (rp y)) = true -> nle (p_r (rp y)) r = true.
Proof.
  intros HL HF. unfold search. cbn [negb andb s_queued set_up]. destruct (epochs eps last (batches h) set_up) as [s1|] eqn:E; [|discriminate]. cbn [bind].
  destruct (s_best s1) as [b|] eqn:EB; [|discriminate]. intros H. injection H as <- <- <-.
  destruct (epochs_ok eps last HL h [] set_up s1 HF (r_start eps last) E) as (P' & R' & H1 & _ & _). cbn [app] in R'.
  destruct (reached_inv eps last _ _ HL R') as [I1 I2 I3 I4 I5]. destruct (I3 b EB) as [K1 K2]. split; [exact K2|].
  intros x y Hx Hy Hpos. apply nle_trans with (s_rbest s1); [|exact (proj2 K2)]. apply I2; eauto.
Qed.
Print Assumptions C18_reported.
Definition c18_row (i : nat) (r : num) (inv : bool) : (unit * unit * unit * prog) := (tt, tt, tt, mkProg i r inv true).
Definition c18_hist : list (list (unit * unit * unit * prog) * option (list prog)) :=
  [([c18_row 0 (Fin 0) true; c18_row 1 (Fin 0) true], None);
   ([c18_row 2 (Fin (1 # 2)) false; c18_row 3 NaN false], Some [mkProg 4 (Fin (3 # 4)) false false]);
   ([c18_row 5 (Fin (1 # 3)) false; c18_row 6 (Fin 0) true], None)].
Example C18_example : sorts_last lastmax /\ fair_hist c18_hist /\
  exists s, search (1 # 2) lastmax false None (batches c18_hist) set_up = Ok (s, (Fin (3 # 4), mkProg 4 (Fin (3 # 4)) false false)).
Proof.
  split; [exact lastmax_ok|]. split.
  - apply fair_histb_ok. reflexivity.
  - eexists. vm_compute. reflexivity.
Qed.
(** Without those conditions: a batch whose only valid programs have NaN or non-positive
    reward stops the whole search with ValueError. *)
Theorem C18_no_positive_reward_refuted :
  epochs (1 # 2) lastmax (batches [([c18_row 0 NaN false; c18_row 1 (Fin 0) true], None)]) set_up = Err ValueError.
Proof. reflexivity. Qed.
Print Assumptions C18_no_positive_reward_refuted.
(** A NaN reward in an aggregated program replaces the best reward, and the next epoch
    lowers it. *)
Theorem C18_nan_forgets_best_refuted :
  let h1 := [([c18_row 0 (Fin (9 # 10)) false], None)] in
  let h2 := h1 ++ [([c18_row 1 (Fin (1 # 2)) false], Some [mkProg 2 NaN false false])] in
  let h3 := h2 ++ [([c18_row 3 (Fin (1 # 4)) false], None)] in
  exists s1 s2 s3, epochs (1 # 2) lastmax (batches h1) set_up = Ok s1 /\ s_rbest s1 = Fin (9 # 10) /\
    epochs (1 # 2) lastmax (batches h2) set_up = Ok s2 /\ s_rbest s2 = NaN /\
    epochs (1 # 2) lastmax (batches h3) set_up = Ok s3 /\ s_rbest s3 = Fin (1 # 4).
Proof. do 3 eexists. repeat split; vm_compute; reflexivity. Qed.
Print Assumptions C18_nan_forgets_best_refuted.
(** An invalid program with a positive reward: the best program is replaced by a worse one
    while the best reward stays. *)
Theorem C18_invalid_positive_refuted :
  exists s, epochs (1 # 2) lastmax (batches [([c18_row 0 (Fin (9 # 10)) true], None); ([c18_row 1 (Fin (1 # 2)) false], None)]) set_up = Ok s /\
    s_rbest s = Fin (9 # 10) /\ option_map p_r (s_best s) = Some (Fin (1 # 2)).
Proof. eexists. repeat split; vm_compute; reflexivity. Qed.
Print Assumptions C18_invalid_positive_refuted.
(** Stability selection reports any queued candidate, whatever its reward. *)
Theorem C18_stability_refuted : exists s, let p := mkProg 1 (Fin (1 # 4)) false true in
  search (1 # 2) lastmax false (Some p) (batches [([c18_row 0 (Fin (9 # 10)) false; c18_row 1 (Fin (1 # 4)) false], None)]) set_up = Ok (s, (Fin (1 # 4), p)) /\
  s_rbest s = Fin (9 # 10).
Proof. eexists. split; vm_compute; reflexivity. Qed.
Print Assumptions C18_stability_refuted.
(** With keep_history (or before anything was queued) a later search still knows the
    programs of the earlier ones: the reported reward is at least theirs. *)
Theorem C18_history_kept {A B C} eps last h keep P s s' r p : sorts_last last -> @fair_hist A B C h -> @reached A B C eps last P s ->
  keep = true \/ s_queued s = false -> search eps last keep None (batches h) s = Ok (s', (r, p)) ->
  nle (s_rbest s) r = true /\ forall q, In q P -> nlt (Fin 0) (p_r q) = true -> nle (p_r q) r = true.
Proof.
  intros HL HF R HK. unfold search. assert (negb keep && s_queued s = false) as -> by (destruct HK as [-> | ->]; [reflexivity|apply andb_false_r]).
  destruct (epochs eps last (batches h) s) as [s1|] eqn:E; [|discriminate]. cbn [bind].
  destruct (s_best s1) as [b|] eqn:EB; [|discriminate]. intros H. injection H as <- <- <-.
  destruct (epochs_ok eps last HL h P s s1 HF R E) as (P' & R' & H1 & _ & M).
  destruct (reached_inv eps last _ _ HL R') as [I1 I2 I3 I4 I5]. destruct (I3 b EB) as [K1 K2]. split.
  - apply nle_trans with (s_rbest s1); [exact M|exact (proj2 K2)].
  - intros q Hq Hpos. apply nle_trans with (s_rbest s1); [|exact (proj2 K2)]. apply I2; [apply in_app_iff; now left|exact Hpos].
Qed.
Print Assumptions C18_history_kept.
(** Without keep_history a search after a finished one is a fresh search. *)
Theorem C18_history_dropped {A B C} eps last stable (bs : list (batch A B C)) s : s_queued s = true ->
  search eps last false stable bs s = search eps last false stable bs set_up.
Proof. intros H. unfold search. rewrite H. reflexivity. Qed.
Print Assumptions C18_history_dropped.
Example C18_history_example : exists s s' p,
  search (1 # 2) lastmax true None (batches [([c18_row 0 (Fin (9 # 10)) false], None)]) set_up = Ok (s, (Fin (9 # 10), p)) /\
  search (1 # 2) lastmax true None (batches [([c18_row 1 (Fin (1 # 4)) false], None)]) s = Ok (s', (Fin (9 # 10), p)).
Proof. do 3 eexists. split; vm_compute; reflexivity. Qed.
(** A search all of whose rewards are NaN or infinite ends in AttributeError. *)
Theorem C18_no_best_program_refuted :
  search (1 # 2) lastmax false None (batches [([c18_row 0 NaN true], None)]) set_up = Err AttributeError.
Proof. reflexivity. Qed.
Print Assumptions C18_no_best_program_refuted.

(** *** C33 *)
Theorem C33_pareto_front w costs i c : table w costs -> nth_error costs i = Some c ->
  (nth_error (is_pareto_efficient costs) i = Some true <->
     (forall j d, nth_error costs j = Some d -> ~ dominates d c) /\
     (forall j d, nth_error costs j = Some d -> j < i -> ~ (le_cost d c /\ le_cost c d))).
Proof. intros HT. exact (proj2 (pareto_spec w costs HT) i c). Qed.
Print Assumptions C33_pareto_front.
(** Without repeated rows it is exactly the set of non-dominated points. *)
Theorem C33_pareto_front_distinct w costs i c : table w costs ->
  (forall j k d e, nth_error costs j = Some d -> nth_error costs k = Some e -> le_cost d e -> le_cost e d -> j = k) ->
  nth_error costs i = Some c ->
  (nth_error (is_pareto_efficient costs) i = Some true <-> forall j d, nth_error costs j = Some d -> ~ dominates d c).
Proof.
  intros HT HD E. rewrite (proj2 (pareto_spec w costs HT) i c E). split; [tauto|]. intros H. split; [exact H|].
  intros j d Ej Hj [A B]. pose proof (HD j i d c Ej E A B). lia.
Qed.
Print Assumptions C33_pareto_front_distinct.
(** Of several equal points only the first is reported. *)
Theorem C33_duplicates_refuted : is_pareto_efficient [[Fin 1; Fin 2]; [Fin 1; Fin 2]; [Fin 3; Fin 3]] = [true; false; false].
Proof. reflexivity. Qed.
Print Assumptions C33_duplicates_refuted.
(** A NaN row removes every other point. *)
Theorem C33_nan_refuted : is_pareto_efficient [[NaN; NaN]; [Fin 1; Fin 2]] = [true; false].
Proof. reflexivity. Qed.
Print Assumptions C33_nan_refuted.
Example C33_example : table 2 [[Fin 3; Fin 3]; [Fin 1; Fin 4]; [Fin 2; Fin 2]] /\
  is_pareto_efficient [[Fin 3; Fin 3]; [Fin 1; Fin 4]; [Fin 2; Fin 2]] = [false; true; true].
Proof. split; [repeat constructor|reflexivity]. Qed.

(** *** C49 *)
(** [s] is the square root of the normalised error, [n] the number of terms. *)
Theorem C49_reward_bounds a n s : (0 <= a)%Q -> (0 <= s)%Q -> (pde_reward a n s <= 1)%Q /\
  (forall s', (s < s')%Q -> (a * inject_Z (Z.of_nat n) < 1)%Q -> (pde_reward a n s' < pde_reward a n s)%Q).
Proof. intros Ha Hs. split; [exact (pde_reward_le a n s Ha Hs)|]. intros s' H1 H2. exact (pde_reward_antitone a n s s' Hs H1 H2). Qed.
Print Assumptions C49_reward_bounds.
Theorem C49_more_terms_cost a n m s : (0 < a)%Q -> (0 <= s)%Q -> n < m -> (pde_reward a m s < pde_reward a n s)%Q.
Proof.
  intros Ha Hs H. unfold pde_reward, Qdiv. rewrite !(Qmult_comm _ (/ (1 + s))). apply Qmult_lt_l; [apply Qinv_lt_0_compat; lra|].
  assert (a * inject_Z (Z.of_nat n) < a * inject_Z (Z.of_nat m))%Q as K; [|lra].
  apply Qmult_lt_l; [exact Ha|]. rewrite <- Zlt_Qlt. lia.
Qed.
Print Assumptions C49_more_terms_cost.
(** Of the four names the metric factory accepts, two can be used with the parameter count
    it demands. *)
Theorem C49_usable_metrics nargs name : call_metric name nargs = Ok tt <-> (name = "pde_reward" \/ name = "correlation")%string /\ nargs = 1.
Proof.
  unfold call_metric, make_pde_metric. cbn [lookup all_metrics].
  destruct (String.eqb name "inv_nrmse") eqn:E1.
  { apply String.eqb_eq in E1. subst. cbn. destruct (Nat.eqb nargs 1); cbn; split; try discriminate; intros [[H|H] _]; discriminate. }
  destruct (String.eqb name "pde_reward") eqn:E2.
  { apply String.eqb_eq in E2. subst. cbn. destruct (Nat.eqb nargs 1) eqn:E; cbn; split; try discriminate; try tauto.
    - intros _. apply Nat.eqb_eq in E. auto.
    - intros [_ ->]. discriminate. }
  destruct (String.eqb name "correlation") eqn:E3.
  { apply String.eqb_eq in E3. subst. cbn. destruct (Nat.eqb nargs 1) eqn:E; cbn; split; try discriminate; try tauto.
    - intros _. apply Nat.eqb_eq in E. auto.
    - intros [_ ->]. discriminate. }
  destruct (String.eqb name "R2"); cbn; split; try discriminate; intros [[->| ->] _]; discriminate.
Qed.
Print Assumptions C49_usable_metrics.
Theorem C49_inv_nrmse_refuted : make_pde_metric "inv_nrmse" 1 = Ok 2 /\ call_metric "inv_nrmse" 1 = Err TypeError.
Proof. split; reflexivity. Qed.
Print Assumptions C49_inv_nrmse_refuted.
Theorem C49_R2_refuted nargs : make_pde_metric "R2" nargs = Err TypeError.
Proof. reflexivity. Qed.
Print Assumptions C49_R2_refuted.
Example C49_example : (pde_reward (1 # 100) 3 0 == 97 # 100)%Q /\ (pde_reward (1 # 100) 3 1 == 97 # 200)%Q.
Proof. split; reflexivity. Qed.

(** *** C50 *)
Theorem C50_weighted_quantile l q : (forall p, In p l -> (0 <= snd p)%Q) -> (0 < q)%Q -> (q <= weight (fun _ => true) l)%Q ->
  exists v, weighted_quantile l q = Ok v /\ In v (map fst l) /\
    (q <= weight (fun x => Qle_bool x v) l)%Q /\ (weight (fun x => qlt x v) l < q)%Q.
Proof. exact (weighted_quantile_ok l q). Qed.
Print Assumptions C50_weighted_quantile.
(** If rounding makes the weights sum to less than q the smallest value is returned. *)
Theorem C50_rounding_refuted : weighted_quantile [(5, 1 # 3); (7, 1 # 3); (9, 333 # 1000)]%Q 1 = Ok 5%Q.
Proof. reflexivity. Qed.
Print Assumptions C50_rounding_refuted.
Example C50_example : weighted_quantile [(7, 1 # 4); (5, 1 # 4); (9, 1 # 2)]%Q (1 # 2) = Ok 7%Q.
Proof. reflexivity. Qed.

(** *** C51 *)
Theorem C51_filter_same {P} (r : P -> Q) l :
  (forall i j p q, i <> j -> nth_error (filter_same r l) i = Some p -> nth_error (filter_same r l) j = Some q -> (1 # 100000 <= Qabs (r p - r q))%Q) /\
  (forall p, In p (filter_same r l) -> In p l) /\
  (forall p, In p l -> exists k, In k (filter_same r l) /\ (Qabs (r p - r k) < 1 # 100000)%Q).
Proof.
  destruct (filter_same_loop_ok r l []) as (A & _ & C & D); [intros i j p q _ H; destruct i; discriminate|].
  split; [|split].
  - intros i j p q Hij Hi Hj. pose proof (A i j p q Hij Hi Hj) as N. unfold near in N. apply negb_false_iff in N. apply Qle_bool_iff. exact N.
  - intros p Hp. destruct (C p Hp) as [[]|H]; exact H.
  - intros p Hp. destruct (D p Hp) as (k & Hk & N). exists k. split; [exact Hk|]. unfold near in N. apply negb_true_iff in N.
    apply Qnot_le_lt. intros K. apply Qle_bool_iff in K. congruence.
Qed.
Print Assumptions C51_filter_same.
Example C51_example : filter_same (fun x : Q => x) [1; 1000001 # 1000000; 2; 1]%Q = [1; 2]%Q.
Proof. reflexivity. Qed.
