(** C111: the plots of a DISCOVER run's history.  C113: the time bins of the SPR field comparison. *)
From Coq Require Import QArith Qabs Sorted.
From Coq Require Import Lqa.
From Verif Require Import Base Num DiscoverViz.
Local Open Scope nat_scope.
Local Open Scope list_scope.

(** ** Rewards *)
(** [m] is the largest of the rewards [l] *)
Definition largest (l : list num) (m : num) : Prop := In m l /\ forall a, In a l -> nle a m = true.
Lemma evolve_spec mean rs : forall best pre, Forall (fun b => b <> [] /\ Forall (fun a => is_nan a = false) b) rs ->
  is_nan best = false -> (pre = [] /\ best = NInf \/ largest pre best) ->
  exists bs ms, evolve mean best rs = Ok (bs, ms, map mean rs) /\ List.length bs = List.length rs /\ List.length ms = List.length rs /\
    forall k b, nth_error rs k = Some b -> (exists m, nth_error ms k = Some m /\ largest b m) /\
      exists m, nth_error bs k = Some m /\ largest (pre ++ List.concat (firstn (S k) rs)) m.
Proof.
  induction rs as [|b rs IH]; intros best pre F NB HB; cbn [evolve].
  - exists [], []. split; [reflexivity|]. split; [reflexivity|]. split; [reflexivity|]. intros [|k] b0 H; discriminate.
  - apply Forall_cons_iff in F as [[NE NN] F]. destruct b as [|a b]; [congruence|]. destruct (npmax (a :: b)) as [m|e] eqn:E; [|cbn in E; discriminate].
    destruct (npmax_spec _ _ NN E) as (Nm & MI & MU). cbn [bind].
    assert (L' : largest (pre ++ a :: b) (pymax best m)).
    { destruct HB as [[-> ->]|[BI BU]].
      - cbn [app]. assert (pymax NInf m = m \/ (pymax NInf m = NInf /\ nle m NInf = true)) as [->|[Q1 Q2]].
        { unfold pymax. destruct (nlt NInf m) eqn:C; [now left|right]. split; [reflexivity|]. apply not_nlt_nle; auto. }
        + split; [exact MI|exact MU].
        + rewrite Q1. assert (m = NInf) as -> by (destruct m; cbn in Q2; try discriminate; reflexivity). split; [exact MI|exact MU].
      - split.
        + apply in_app_iff. destruct (pymax_cases best m) as [->| ->]; [now left|now right].
        + intros x Hx. apply in_app_iff in Hx as [Hx|Hx]; [eapply nle_trans; [apply BU; exact Hx|apply pymax_l; assumption]|eapply nle_trans; [apply MU; exact Hx|apply pymax_r; assumption]]. }
    destruct (IH (pymax best m) (pre ++ a :: b) F) as (bs & ms & Q & L1 & L2 & H); [apply pymax_notnan; assumption|right; exact L'|].
    rewrite Q. cbn [bind]. exists (pymax best m :: bs), (m :: ms). split; [reflexivity|]. split; [cbn; congruence|]. split; [cbn; congruence|].
    intros [|k] b' Hk; cbn [nth_error] in Hk.
    + injection Hk as <-. split; [exists m; split; [reflexivity|split; [exact MI|exact MU]]|]. exists (pymax best m). split; [reflexivity|]. cbn [firstn List.concat]. rewrite app_nil_r. exact L'.
    + destruct (H k b' Hk) as [A (m' & B & C)]. split; [exact A|]. exists m'. split; [exact B|]. cbn [firstn List.concat]. rewrite app_assoc. exact C.
Qed.
(** One point per recorded batch, numbered from 1: the largest reward of the batch, its mean, and the best reward of all batches so far. *)
Theorem C111_reward_evolution mean rs : rs <> [] -> Forall (fun b => b <> [] /\ Forall (fun a => is_nan a = false) b) rs ->
  exists e, reward_evolution mean rs = Ok (Some e) /\ ev_steps e = seq 1 (List.length rs) /\ List.length (ev_best e) = List.length rs /\ List.length (ev_max e) = List.length rs /\ List.length (ev_mean e) = List.length rs /\
  forall k b, nth_error rs k = Some b ->
    (exists m, nth_error (ev_max e) k = Some m /\ largest b m) /\ nth_error (ev_mean e) k = Some (mean b) /\
    exists m, nth_error (ev_best e) k = Some m /\ largest (List.concat (firstn (S k) rs)) m.
Proof.
  intros NE F. destruct (evolve_spec mean rs NInf [] F eq_refl (or_introl (conj eq_refl eq_refl))) as (bs & ms & Q & L1 & L2 & H).
  unfold reward_evolution. destruct rs as [|b0 rs]; [congruence|]. rewrite Q. cbn [bind]. eexists. split; [reflexivity|]. cbn [ev_steps ev_best ev_max ev_mean]. split; [reflexivity|]. split; [exact L1|]. split; [exact L2|]. split; [apply map_length|].
  intros k b Hk. destruct (H k b Hk) as [A B]. split; [exact A|]. split; [rewrite nth_error_map, Hk; reflexivity|exact B].
Qed.
(** The best reward shown never falls. *)
Theorem C111_best_never_falls mean rs e i j a b : rs <> [] -> Forall (fun b => b <> [] /\ Forall (fun a => is_nan a = false) b) rs -> reward_evolution mean rs = Ok (Some e) ->
  i <= j -> nth_error (ev_best e) i = Some a -> nth_error (ev_best e) j = Some b -> nle a b = true.
Proof.
  intros NE F Q Hij Ha Hb. destruct (C111_reward_evolution mean rs NE F) as (e' & Q' & _ & L & _ & _ & H). rewrite Q in Q'. injection Q' as <-.
  assert (Hi : i < List.length rs) by (rewrite <- L; apply nth_error_Some; congruence). assert (Hj : j < List.length rs) by (rewrite <- L; apply nth_error_Some; congruence).
  destruct (nth_error rs i) as [bi|] eqn:Ei; [|apply nth_error_None in Ei; lia]. destruct (nth_error rs j) as [bj|] eqn:Ej; [|apply nth_error_None in Ej; lia].
  destruct (H _ _ Ei) as (_ & _ & m & M & [I _]). destruct (H _ _ Ej) as (_ & _ & m' & M' & [_ U]). rewrite Ha in M. injection M as <-. rewrite Hb in M'. injection M' as <-.
  apply U. replace (firstn (S j) rs) with (firstn (S i) rs ++ firstn (j - i) (skipn (S i) rs)); [rewrite concat_app; apply in_app_iff; now left|].
  rewrite <- (firstn_skipn (S i) rs) at 3. rewrite firstn_app, firstn_firstn, firstn_length. f_equal; f_equal; lia.
Qed.
(** No history: a warning; a batch without rewards: ValueError. *)
Theorem C111_no_history mean : reward_evolution mean [] = Ok None /\ forall rs, In [] rs -> reward_evolution mean rs = Err ValueError.
Proof.
  split; [reflexivity|]. intros rs I. unfold reward_evolution. assert (E : forall rs best, In [] rs -> evolve mean best rs = Err ValueError).
  { clear. induction rs as [|b rs IH]; intros best I; [destruct I|]; cbn [evolve]. destruct I as [->|I]; [reflexivity|]. destruct b; [reflexivity|]. cbn [npmax bind]. rewrite IH by exact I. reflexivity. }
  rewrite (E rs) by exact I. destruct rs; [destruct I|reflexivity].
Qed.

(** ** Density curves *)
Lemma py_get_ok {A} (l : list A) (i : nat) : i < List.length l -> exists x, nth_error l i = Some x /\ py_get l (Z.of_nat i) = Ok x.
Proof.
  intros H. destruct (nth_error l i) as [x|] eqn:E; [|apply nth_error_None in E; lia]. exists x. split; [reflexivity|]. unfold py_get.
  replace (Z.of_nat i <? 0)%Z with false by (symmetry; apply Z.ltb_ge; lia). rewrite Nat2Z.id, E. replace (Z.of_nat i <? 0)%Z with false by (symmetry; apply Z.ltb_ge; lia). reflexivity.
Qed.
Lemma get_all {A} (l : list A) (es : list Z) : Forall (fun e => (0 <= e < Z.of_nat (List.length l))%Z) es ->
  exists data, mapM (py_get l) es = Ok data /\ Forall2 (fun e x => nth_error l (Z.to_nat e) = Some x) es data.
Proof.
  induction 1 as [|e es He F IH]; [exists []; split; [reflexivity|constructor]|]. destruct IH as (d & Q & G). destruct (py_get_ok l (Z.to_nat e)) as (x & E & P); [lia|]. rewrite Z2Nat.id in P by lia.
  exists (x :: d). cbn [mapM]. rewrite P, Q. split; [reflexivity|constructor; assumption].
Qed.
Lemma combine_nth_label {A} (es : list Z) (data : list A) : List.length es = List.length data -> combine (map (fun k => nth k es 0%Z) (seq 0 (List.length data))) data = combine es data.
Proof.
  intros L. f_equal. rewrite <- L. clear L. induction es as [|e es IH]; [reflexivity|]. cbn [List.length seq map nth]. f_equal. rewrite <- seq_shift, map_map. exact IH.
Qed.
Lemma F2_combine {A B} (R : A -> B -> Prop) a b x y : Forall2 R a b -> In (x, y) (combine a b) -> R x y.
Proof. induction 1; cbn; [tauto|]. intros [[= <- <-]|I]; auto. Qed.
Lemma F2_length {A B} (R : A -> B -> Prop) a b : Forall2 R a b -> List.length a = List.length b.
Proof. induction 1; cbn; congruence. Qed.
(** Requested epochs that exist: one curve per request, labelled with its epoch and showing the rewards of that epoch. *)
Theorem C111_density_requested {A} (history : list A) es mc : es <> [] -> history <> [] -> Forall (fun e => (0 <= e < Z.of_nat (List.length history))%Z) es ->
  exists d, density history (Some es) mc = Ok (Some d) /\ map fst (curves d) = es /\ reported d = es /\ forall e x, In (e, x) (curves d) -> nth_error history (Z.to_nat e) = Some x.
Proof.
  intros NE NH F. unfold density. destruct (List.length history =? 0) eqn:Z0; [apply Nat.eqb_eq in Z0; destruct history; [congruence|discriminate]|].
  assert (FE : filter (fun i => (i <? Z.of_nat (List.length history))%Z) es = es). { clear NE. induction F as [|e es He F IH]; cbn [filter]; [reflexivity|]. replace (e <? _)%Z with true by (symmetry; apply Z.ltb_lt; lia). congruence. }
  rewrite FE. destruct (get_all history es F) as (data & Q & G). rewrite Q. cbn [bind]. pose proof (F2_length _ _ _ G) as L. destruct es as [|e es]; [congruence|]. destruct data as [|x data]; [discriminate|].
  eexists. split; [reflexivity|]. cbn [curves reported]. rewrite (combine_nth_label (e :: es) (x :: data) L). split; [|split; [reflexivity|]].
  - clear - L. revert L. generalize (e :: es) (x :: data). induction l as [|a l IH]; intros [|b k]; cbn; try discriminate; [reflexivity|]. intros [= L]. f_equal. apply IH. exact L.
  - intros e' x' I. exact (F2_combine _ _ _ _ _ G I).
Qed.
Lemma range_in n step e : 1 <= step -> 1 <= n -> In e (range_step n step) <-> exists k, e = Z.of_nat (k * step) /\ k * step < n.
Proof.
  intros S1 N1. unfold range_step. rewrite in_map_iff. split.
  - intros (k & <- & I). apply in_seq in I. exists k. split; [reflexivity|]. pose proof (Nat.div_mod (n + step - 1) step ltac:(lia)). pose proof (Nat.mod_upper_bound (n + step - 1) step ltac:(lia)). nia.
  - intros (k & -> & H). exists k. split; [reflexivity|]. apply in_seq. split; [lia|]. cbn. apply Nat.div_le_lower_bound; nia.
Qed.
Definition increasing : list Z -> Prop := StronglySorted Z.lt.
Lemma range_sorted n step : 1 <= step -> increasing (range_step n step).
Proof.
  intros S1. unfold range_step, increasing. generalize ((n + step - 1) / step). intros k. generalize 0. induction k as [|k IH]; intros s; cbn [seq map]; constructor; [apply IH|]. apply Forall_forall. intros z Hz. apply in_map_iff in Hz as (j & <- & I). apply in_seq in I. nia.
Qed.
Lemma sorted_app l e : increasing l -> Forall (fun x => (x < e)%Z) l -> increasing (l ++ [e]).
Proof.
  intros So F. induction So as [|a l So IH Fa]; cbn; [repeat constructor|]. apply Forall_cons_iff in F as [Ha F]. constructor; [apply IH; exact F|]. apply Forall_app. split; [exact Fa|repeat constructor; exact Ha].
Qed.
(** No epochs requested: every epoch when there are at most max_curves of them; otherwise a selection in order, with the first and the last
    epoch, of at most twice max_curves curves; each curve shows the epoch of its label. *)
Theorem C111_density_default {A} (history : list A) mc : history <> [] ->
  exists d, density history None mc = Ok (Some d) /\ reported d = map fst (curves d) /\ (forall e x, In (e, x) (curves d) -> (0 <= e)%Z /\ nth_error history (Z.to_nat e) = Some x) /\ increasing (map fst (curves d)) /\
  In 0%Z (map fst (curves d)) /\ In (Z.of_nat (List.length history) - 1)%Z (map fst (curves d)) /\
  ((Z.of_nat (List.length history) <= Z.max 1 mc)%Z -> map snd (curves d) = history) /\
  (Z.of_nat (List.length (curves d)) <= 2 * Z.max 1 mc)%Z.
Proof.
  intros NH. set (n := List.length history). assert (N1 : 1 <= n) by (destruct history; [congruence|cbn in n; lia]). unfold density. fold n. replace (n =? 0) with false by (symmetry; apply Nat.eqb_neq; lia).
  set (m := Z.to_nat (Z.max 1 mc)). assert (M1 : 1 <= m) by lia. destruct (m <? n) eqn:E.
  - apply Nat.ltb_lt in E. set (q := n / m). assert (Q1 : 1 <= q) by (apply Nat.div_le_lower_bound; lia). set (es := sampled_epochs n m).
    assert (ES : es = (if existsb (Z.eqb (Z.of_nat n - 1)) (range_step n q) then range_step n q else range_step n q ++ [(Z.of_nat n - 1)%Z])) by (unfold es, sampled_epochs; fold q; rewrite Nat.max_r by exact Q1; reflexivity).
    assert (RB : forall e, In e (range_step n q) -> (0 <= e < Z.of_nat n)%Z) by (intros e He; apply range_in in He as (k & -> & Hk); [lia|exact Q1|exact N1]).
    assert (R0 : In 0%Z (range_step n q)) by (apply range_in; [exact Q1|exact N1|exists 0; split; [reflexivity|cbn; lia]]).
    assert (IN : forall e, In e es <-> In e (range_step n q) \/ e = (Z.of_nat n - 1)%Z).
    { intros e. rewrite ES. destruct (existsb _ _) eqn:X; [|rewrite in_app_iff; cbn; intuition congruence]. apply existsb_exists in X as (z & I & Y). apply Z.eqb_eq in Y. subst z. intuition congruence. }
    assert (FB : Forall (fun e => (0 <= e < Z.of_nat n)%Z) es) by (apply Forall_forall; intros e He; apply IN in He as [He| ->]; [apply RB; exact He|lia]).
    assert (SO : increasing es).
    { rewrite ES. destruct (existsb _ _) eqn:X; [apply range_sorted; exact Q1|]. apply sorted_app; [apply range_sorted; exact Q1|]. apply Forall_forall. intros e He. pose proof (RB e He). assert (e <> Z.of_nat n - 1)%Z; [|lia].
      intros ->. assert (existsb (Z.eqb (Z.of_nat n - 1)) (range_step n q) = true); [|congruence]. apply existsb_exists. eexists. split; [exact He|apply Z.eqb_refl]. }
    assert (LEN : List.length es <= 2 * m).
    { assert (D : n = m * q + n mod m) by (apply Nat.div_mod; lia). pose proof (Nat.mod_upper_bound n m ltac:(lia)) as UB.
      assert (LR : List.length (range_step n q) = (n + q - 1) / q) by (unfold range_step; rewrite map_length; apply seq_length).
      rewrite ES. destruct (existsb _ _) eqn:X.
      - rewrite LR. apply Nat.lt_succ_r, Nat.div_lt_upper_bound; [lia|]. nia.
      - rewrite app_length, LR. cbn [List.length]. assert (Q2 : 2 <= q).
        { destruct (Nat.eq_dec q 1) as [Q|Q]; [|lia]. exfalso. assert (existsb (Z.eqb (Z.of_nat n - 1)) (range_step n q) = true); [|congruence]. apply existsb_exists. exists (Z.of_nat n - 1)%Z. split; [|apply Z.eqb_refl]. apply range_in; [exact Q1|exact N1|]. exists (n - 1). rewrite Q. split; lia. }
        assert ((n + q - 1) / q < 2 * m); [|lia]. apply Nat.div_lt_upper_bound; [lia|]. destruct (Nat.eq_dec m 1) as [->|?]; [rewrite Nat.mod_1_r in *; nia|]. nia. }
    assert (FE : filter (fun i => (i <? Z.of_nat n)%Z) es = es). { clear - FB. induction FB as [|e l He F IH]; cbn [filter]; [reflexivity|]. replace (e <? _)%Z with true by (symmetry; apply Z.ltb_lt; lia). congruence. }
    rewrite FE. destruct (get_all history es FB) as (data & Q & G). rewrite Q. cbn [bind]. pose proof (F2_length _ _ _ G) as L. assert (NE : es <> []) by (intros X; assert (In 0%Z es) as Y by (apply IN; left; exact R0); rewrite X in Y; destruct Y).
    clearbody es. destruct es as [|e es]; [congruence|]. destruct data as [|x data]; [discriminate|].
    assert (FC : forall (l : list Z) (k : list A), List.length l = List.length k -> map fst (combine l k) = l). { induction l as [|a l IH]; intros [|b k]; cbn; try discriminate; [reflexivity|]. intros [= X]. f_equal. apply IH. exact X. }
    eexists. split; [reflexivity|]. cbn [curves reported]. rewrite (combine_nth_label (e :: es) (x :: data) L). rewrite FC by exact L. split; [reflexivity|]. split; [|split; [exact SO|split; [apply IN; left; exact R0|split; [apply IN; now right|split]]]].
    + intros e' x' I. split; [|exact (F2_combine _ _ _ _ _ G I)]. apply in_combine_l in I. rewrite Forall_forall in FB. apply FB in I. lia.
    + intros H. lia.
    + rewrite combine_length, <- L, Nat.min_id. lia.
  - apply Nat.ltb_ge in E. cbn [bind]. assert (HM : exists d, (match history with [] => Ok None | _ :: _ => Ok (Some {| curves := combine (map (fun k : nat => Z.of_nat k) (seq 0 n)) history; reported := map (fun k : nat => Z.of_nat k) (seq 0 n) |}) end) = Ok (Some d) /\ curves d = combine (map (fun k : nat => Z.of_nat k) (seq 0 n)) history /\ reported d = map (fun k : nat => Z.of_nat k) (seq 0 n)) by (destruct history; [congruence|eexists; repeat split]).
    destruct HM as (d & HM & HC & HR). exists d. split; [unfold n in *; exact HM|]. rewrite HC, HR.
    assert (FC : map fst (combine (map (fun k : nat => Z.of_nat k) (seq 0 n)) history) = map (fun k : nat => Z.of_nat k) (seq 0 n)).
    { assert (L : List.length (map (fun k : nat => Z.of_nat k) (seq 0 n)) = List.length history) by (rewrite map_length; apply seq_length). revert L. generalize (map (fun k : nat => Z.of_nat k) (seq 0 n)) history. clear. induction l as [|a l IH]; intros [|b k]; cbn; try discriminate; [reflexivity|]. intros [= X]. f_equal. apply IH. exact X. }
    rewrite FC. split; [reflexivity|]. split; [|split; [|split; [|split; [|split]]]].
    + intros e x I. apply In_nth_error in I as [k I]. assert (K : k < n). { assert (k < List.length (combine (map (fun k : nat => Z.of_nat k) (seq 0 n)) history)) by (apply nth_error_Some; congruence). rewrite combine_length, map_length, seq_length in H. unfold n in *. lia. }
      assert (CN : forall (l : list Z) (h : list A) k e x, nth_error (combine l h) k = Some (e, x) -> nth_error l k = Some e /\ nth_error h k = Some x). { clear. induction l as [|a l IH]; intros [|b h] [|k] e x; cbn; try discriminate; [intros [= <- <-]; auto|apply IH]. }
      apply CN in I as [I1 I2]. rewrite nth_error_map in I1. rewrite (nth_error_nth' _ 0) in I1 by (rewrite seq_length; exact K). rewrite seq_nth in I1 by exact K. cbn in I1. injection I1 as <-. rewrite Nat2Z.id. split; [lia|exact I2].
    + assert (SI : forall k s, increasing (map (fun k : nat => Z.of_nat k) (seq s k))). { induction k as [|k IH]; intros s; cbn [seq map]; constructor; [apply IH|]. apply Forall_forall. intros z Hz. apply in_map_iff in Hz as (j & <- & I). apply in_seq in I. lia. } apply SI.
    + apply in_map_iff. exists 0. split; [reflexivity|apply in_seq; lia].
    + apply in_map_iff. exists (n - 1). split; [lia|apply in_seq; lia].
    + intros _. assert (L : List.length (map (fun k : nat => Z.of_nat k) (seq 0 n)) = List.length history) by (rewrite map_length; apply seq_length). revert L. generalize (map (fun k : nat => Z.of_nat k) (seq 0 n)) history. clear. induction l as [|a l IH]; intros [|b k]; cbn; try discriminate; [reflexivity|]. intros [= X]. f_equal. apply IH. exact X.
    + rewrite combine_length, map_length, seq_length. unfold m in E. lia.
Qed.
(** "The label of a curve is the epoch it shows" is false as soon as a requested epoch does not exist: the labels of the following curves are
    those of other epochs.  "At most max_curves curves" is false: 19 epochs with max_curves = 10 give 19 curves. *)
Theorem C111_density_labels_refuted : exists d, density [100; 101; 102]%nat (Some [5; 1; 2]%Z) 10 = Ok (Some d) /\ curves d = [(5%Z, 101); (1%Z, 102)] /\ reported d = [5; 1; 2]%Z.
Proof. eexists. repeat split; vm_compute; reflexivity. Qed.
Theorem C111_max_curves_refuted : exists d, density (seq 0 19) None 10 = Ok (Some d) /\ List.length (curves d) = 19.
Proof. eexists. split; vm_compute; reflexivity. Qed.
(** A negative epoch counts from the end, but keeps its negative label; too far back is an IndexError for the whole plot. *)
Theorem C111_negative_epochs_refuted : (exists d, density [100; 101]%nat (Some [-1]%Z) 10 = Ok (Some d) /\ curves d = [((-1)%Z, 101)]) /\ density [100; 101]%nat (Some [0; -3]%Z) 10 = Err IndexError.
Proof. split; [eexists; split; vm_compute; reflexivity|vm_compute; reflexivity]. Qed.
(** The program drawn: the model's own if it has one (the first of a list), else the searcher's. *)
Theorem C111_best_program {P} (m s : holder P) p : best_program m s = Some p <->
  (m = One p \/ exists r, m = Many (Some p :: r)) \/
  ((m = Nothing \/ m = Many [] \/ exists r, m = Many (None :: r)) /\ (s = One p \/ exists r, s = Many (Some p :: r))).
Proof.
  assert (U : forall h : holder P, unwrap h = Some p <-> h = One p \/ exists r, h = Many (Some p :: r)).
  { intros [|q|[|[q|] r]]; cbn; split; try discriminate; try (intros [H|[r' H]]; congruence); try (intros [= ->]; eauto). }
  assert (V : forall h : holder P, unwrap h = None <-> h = Nothing \/ h = Many [] \/ exists r, h = Many (None :: r)).
  { intros [|q|[|[q|] r]]; cbn; split; try discriminate; eauto; intros [H|[H|[r' H]]]; congruence. }
  unfold best_program. destruct (unwrap m) as [q|] eqn:E.
  - split; [intros [= ->]; left; apply U; exact E|]. intros [H|[H _]]; [apply U in H; congruence|apply V in H; congruence].
  - rewrite U. split; [intros H; right; split; [apply V; exact E|exact H]|]. intros [H|[_ H]]; [apply U in H; congruence|exact H].
Qed.
Example C111_case : exists e, reward_evolution (fun _ => Fin 0) [[Fin 1; Fin (1#2)]; [Fin 0]; [Fin 2; NInf]] = Ok (Some e) /\ ev_best e = [Fin 1; Fin 1; Fin 2] /\ ev_max e = [Fin 1; Fin 0; Fin 2] /\
  sampled_epochs 25 10 = [0; 2; 4; 6; 8; 10; 12; 14; 16; 18; 20; 22; 24]%Z /\ sampled_epochs 7 2 = [0; 3; 6]%Z /\ sampled_epochs 6 2 = [0; 3; 5]%Z.
Proof. eexists. repeat split; vm_compute; reflexivity. Qed.

(** ** C113: time bins *)
Lemma qle_b a b : Qle_bool a b = true <-> (a <= b)%Q. Proof. apply Qle_bool_iff. Qed.
Lemma qle_nb a b : negb (Qle_bool a b) = true <-> (b < a)%Q.
Proof. destruct (Qle_bool a b) eqn:E; cbn; [apply qle_b in E; split; [discriminate|lra]|]. split; [|reflexivity]. intros _. destruct (Qlt_le_dec b a) as [H|H]; [exact H|]. apply qle_b in H. congruence. Qed.
Lemma edges lo hi : (edge lo hi 0 == lo)%Q /\ (edge lo hi 5 == hi)%Q /\ forall i, (edge lo hi (S i) == edge lo hi i + (hi - lo) / 5)%Q.
Proof.
  unfold edge. split; [cbn; field|]. split; [cbn; field|]. intros i. rewrite Nat2Z.inj_succ, <- Z.add_1_r, inject_Z_plus. field.
Qed.
Definition bins := [0; 1; 2; 3; 4].
(** Every measured time lies in a bin; in exactly one if a fifth of the time range is more than the comparison tolerance. *)
Theorem C113_every_point_in_a_bin lo hi t : (lo <= t)%Q -> (t <= hi)%Q -> exists i, In i bins /\ in_bin lo hi i t = true.
Proof.
  intros L H. destruct (edges lo hi) as (E0 & E5 & ES). pose proof (ES 0) as S0. pose proof (ES 1) as S1. pose proof (ES 2) as S2. pose proof (ES 3) as S3. pose proof (ES 4) as S4.
  assert (B : forall i, (edge lo hi i <= t)%Q -> (t < edge lo hi (S i))%Q -> in_bin lo hi i t = true) by (intros i A C; unfold in_bin; apply qle_b in A; apply qle_nb in C; rewrite A, C; reflexivity).
  destruct (Qlt_le_dec t (edge lo hi 1)) as [C|C1]; [exists 0; split; [cbn; tauto|apply B; [rewrite E0; exact L|exact C]]|].
  destruct (Qlt_le_dec t (edge lo hi 2)) as [C|C2]; [exists 1; split; [cbn; tauto|apply B; assumption]|].
  destruct (Qlt_le_dec t (edge lo hi 3)) as [C|C3]; [exists 2; split; [cbn; tauto|apply B; assumption]|].
  destruct (Qlt_le_dec t (edge lo hi 4)) as [C|C4]; [exists 3; split; [cbn; tauto|apply B; assumption]|].
  exists 4. split; [cbn; tauto|]. destruct (Qlt_le_dec t (edge lo hi 5)) as [C|C5]; [apply B; assumption|].
  unfold in_bin. apply orb_true_iff. right. cbn [Nat.eqb andb]. unfold near. apply qle_b. assert (T : (t - edge lo hi 5 == 0)%Q) by lra. rewrite T. change (Qabs 0) with 0%Q. pose proof (Qabs_nonneg (edge lo hi 5)). lra.
Qed.
Lemma abs_bound a b : (Qabs a <= b)%Q -> (- b <= a)%Q.
Proof. intros H. apply Qabs_Qle_condition in H. tauto. Qed.
Theorem C113_bins_disjoint lo hi t i j : ((1 # 100000000) + (1 # 100000) * Qabs hi < (hi - lo) / 5)%Q -> In i bins -> In j bins -> in_bin lo hi i t = true -> in_bin lo hi j t = true -> i = j.
Proof.
  intros W. destruct (edges lo hi) as (E0 & E5 & ES). pose proof (Qabs_nonneg hi) as AH.
  assert (P : (0 < (hi - lo) / 5)%Q) by lra.
  assert (B : forall i, In i bins -> in_bin lo hi i t = true -> (edge lo hi i <= t)%Q /\ (i < 4 -> (t < edge lo hi (S i))%Q)).
  { intros k I H. unfold in_bin in H. apply orb_true_iff in H as [H|H].
    - apply andb_true_iff in H as [A C]. apply qle_b in A. apply qle_nb in C. split; [exact A|intros _; exact C].
    - apply andb_true_iff in H as [A C]. apply Nat.eqb_eq in A. subst k. unfold near in C. apply qle_b in C. apply abs_bound in C. split; [|lia]. pose proof (ES 4) as S4. assert (Q5 : (Qabs (edge lo hi 5) == Qabs hi)%Q) by (rewrite E5; reflexivity). rewrite Q5 in C. lra. }
  intros I J HI HJ. destruct (B i I HI) as [A1 A2]. destruct (B j J HJ) as [B1 B2]. pose proof (ES 0) as S0. pose proof (ES 1) as S1. pose proof (ES 2) as S2. pose proof (ES 3) as S3.
  assert (OR : forall a b, a < b -> b < 5 -> a < 4 -> (edge lo hi b <= t)%Q -> (t < edge lo hi (S a))%Q -> False).
  { intros a b H1 H2 H3 X Y. assert (M : (edge lo hi (S a) <= edge lo hi b)%Q). { clear - H1 ES P. assert (exists k, b = S a + k) as [k ->] by (exists (b - S a); lia). clear H1. induction k as [|k IH]; [rewrite Nat.add_0_r; apply Qle_refl|]. rewrite Nat.add_succ_r. pose proof (ES (S a + k)). lra. } lra. }
  destruct (Nat.lt_trichotomy i j) as [H|[H|H]]; [exfalso|exact H|exfalso].
  - assert (j < 5) by (cbn in J; lia). eapply (OR i j); eauto; [lia|apply A2; lia].
  - assert (i < 5) by (cbn in I; lia). eapply (OR j i); eauto; [lia|apply B2; lia].
Qed.
(** What is interpolated for a bin are exactly the rows of that bin; fewer than 4 rows: nothing. *)
Theorem C113_bin_rows {A} lo hi (rows : list (Q * A)) i : match bin_rows lo hi rows i with
  | Some r => 4 <= List.length r /\ forall p, In p r <-> In p rows /\ in_bin lo hi i (fst p) = true
  | None => List.length (filter (fun p => in_bin lo hi i (fst p)) rows) < 4
  end.
Proof.
  unfold bin_rows. destruct (_ <? 4) eqn:E; [apply Nat.ltb_lt in E; exact E|]. apply Nat.ltb_ge in E. split; [exact E|]. intros p. apply filter_In.
Qed.
(** The title of a bin is the time in its middle. *)
Theorem C113_center lo hi i : (center lo hi i == lo + (2 * inject_Z (Z.of_nat i) + 1) * ((hi - lo) / 10))%Q.
Proof. unfold center, edge. rewrite Nat2Z.inj_succ, <- Z.add_1_r, inject_Z_plus. field. Qed.
(** "A measurement is used for one bin only" is false for times far from 0 compared with their range: then all of them also count for the
    last bin. *)
Theorem C113_shared_rows_refuted : exists lo hi t, (lo < t)%Q /\ (t < hi)%Q /\ in_bin lo hi 0 t = true /\ in_bin lo hi 4 t = true.
Proof. exists 10000%Q, (10000 + (1#20))%Q, (10000 + (1#1000))%Q. repeat split; vm_compute; reflexivity. Qed.
Example C113_case : ((1 # 100000000) + (1 # 100000) * Qabs 1 < (1 - 0) / 5)%Q /\ in_bin 0 1 0 0 = true /\ in_bin 0 1 4 1 = true /\ in_bin 0 1 0 (1#5) = false /\ in_bin 0 1 1 (1#5) = true /\
  bin_rows 0 1 [(0, 1); (1#10, 2); (1#5, 3); (0, 4); (0, 5)]%Q 0 = Some [(0, 1); (1#10, 2); (0, 4); (0, 5)]%Q /\ bin_rows 0 1 [(0, 1); (1#10, 2); (1#5, 3); (0, 4)]%Q 0 = None /\ (center 0 1 2 == 1#2)%Q.
Proof. repeat split; vm_compute; reflexivity. Qed.

Print Assumptions C111_reward_evolution.
Print Assumptions C111_best_never_falls.
Print Assumptions C111_no_history.
Print Assumptions C111_density_requested.
Print Assumptions C111_density_default.
Print Assumptions C111_density_labels_refuted.
Print Assumptions C111_max_curves_refuted.
Print Assumptions C111_negative_epochs_refuted.
Print Assumptions C111_best_program.
Print Assumptions C113_every_point_in_a_bin.
Print Assumptions C113_bins_disjoint.
Print Assumptions C113_bin_rows.
Print Assumptions C113_center.
Print Assumptions C113_shared_rows_refuted.
