(** Facts about Searcher.v. *)
From Coq Require Import QArith Qround Lqa.
From Verif Require Import Base Num Searcher.
Local Open Scope nat_scope.

(** A batch as a list of rows (actions, observations, priors, program). *)
Section Rows.
Context {A B C : Type}.
Notation row := (A * B * C * prog)%type.
Definition ra (x : row) : A := fst (fst (fst x)).
Definition rb (x : row) : B := snd (fst (fst x)).
Definition rc (x : row) : C := snd (fst x).
Definition rp (x : row) : prog := snd x.
Definition rr (x : row) : num := nan0 (p_r (rp x)).
Definition cl := nclip (-(1000000)) 1000000.

Definition elite (q : num) (x : row) : bool := negb (p_invalid (rp x)) && nle q (rr x).

Lemma map_filter_and {X} (f g : X -> bool) l : filter f (filter g l) = filter (fun x => f x && g x) l.
Proof. induction l as [|x l IH]; cbn; [reflexivity|]. destruct (g x); cbn; [destruct (f x); cbn; congruence|]. rewrite andb_false_r. exact IH. Qed.
Lemma combine_map {X Y Z} (f : X -> Y) (g : X -> Z) l : combine (map f l) (map g l) = map (fun x => (f x, g x)) l.
Proof. induction l; cbn; congruence. Qed.

Lemma select_eq (rows : list row) eps :
  quantile_select (map ra rows) (map rb rows) (map rc rows) (map rp rows) (map p_r (map rp rows)) eps =
  match np_quantile (map rr rows) (1 - eps) with
  | Err e => Err e
  | Ok q => let el := filter (elite q) rows in
      if Nat.ltb (List.length el) 1 then Ok None
      else Ok (Some (mkSel (map rp el) (map cl (map rr el))
                 (map cl (map rr (filter (fun x => negb (p_invalid (rp x)) && nlt (Fin 0) (rr x)) rows)))
                 (map rc el) (map p_on (map rp el)) (map rb el) (map ra el) q))
  end.
Proof.
  unfold quantile_select. rewrite !map_map, combine_map, map_map. cbn [fst snd].
  rewrite (bindex_map (fun x => negb (p_invalid (rp x)) && nlt (Fin 0) (nan0 (p_r (rp x)))) (fun x => nan0 (p_r (rp x)))). cbn [bind].
  change (map (fun x => nan0 (p_r (rp x))) rows) with (map rr rows).
  destruct (np_quantile (map rr rows) (1 - eps)) as [q|e]; [|reflexivity]. cbn [bind].
  rewrite (map_map rr (nle q)).
  rewrite !(bindex_map (fun x => nle q (rr x))). cbn [bind]. rewrite (compress_map (fun x => nle q (rr x)) rp).
  set (k := filter (fun x => nle q (rr x)) rows). rewrite map_map.
  rewrite !(bindex_map (fun x => negb (p_invalid (rp x)))). cbn [bind]. rewrite compress_map. unfold k. rewrite map_filter_and.
  change (filter (fun x => negb (p_invalid (rp x)) && nle q (rr x)) rows) with (filter (elite q) rows).
  rewrite map_length. destruct (Nat.ltb _ 1); [reflexivity|]. rewrite !map_map. reflexivity.
Qed.
End Rows.

Lemma quantile_spec r eps q : Forall (fun a => is_nan a = false) r -> np_quantile r (1 - eps) = Ok q ->
  (0 <= eps <= 1)%Q /\
  let k := Z.to_nat (Qceiling (inject_Z (Z.of_nat (List.length r) - 1) * (1 - eps))) in
  In q r /\ count (fun a => nlt a q) r <= k /\ k < count (fun a => nle a q) r.
Proof.
  unfold np_quantile. destruct (Qle_bool 0 (1 - eps)) eqn:E1; [|discriminate]. destruct (Qle_bool (1 - eps) 1) eqn:E2; [|discriminate]. cbn [andb].
  apply Qle_bool_iff in E1, E2.
  destruct (nth_error _ _) as [x|] eqn:E; [|discriminate]. intros HN H. injection H as ->. split.
  { lra. }
  exact (order_statistic r _ q HN E).
Qed.
(** It succeeds on every non-empty batch and every epsilon in [0, 1]. *)
Lemma quantile_total r eps : r <> [] -> (0 <= eps <= 1)%Q -> exists q, np_quantile r (1 - eps) = Ok q.
Proof.
  intros HR [H0 H1]. unfold np_quantile.
  assert (0 <= 1 - eps)%Q as A by lra. assert (1 - eps <= 1)%Q as B by lra.
  rewrite (proj2 (Qle_bool_iff _ _) A), (proj2 (Qle_bool_iff _ _) B). cbn [andb].
  destruct (nth_error _ _) as [x|] eqn:E; [eauto|]. exfalso. apply nth_error_None in E. rewrite nsort_length in E.
  destruct r as [|y r]; [congruence|]. set (n := List.length (y :: r)) in *.
  assert (Qceiling (inject_Z (Z.of_nat n - 1) * (1 - eps)) <= Z.of_nat n - 1)%Z as C.
  { rewrite <- (Qceiling_Z (Z.of_nat n - 1)) at 2. apply Qceiling_resp_le.
    setoid_replace (inject_Z (Z.of_nat n - 1)) with (inject_Z (Z.of_nat n - 1) * 1)%Q at 2 by ring.
    rewrite (Qmult_comm _ (1 - eps)), (Qmult_comm _ 1). apply Qmult_le_compat_r; [exact B|].
    change 0%Q with (inject_Z 0). rewrite <- Zle_Qle. subst n. cbn [List.length]. lia. }
  subst n. cbn [List.length] in *. lia.
Qed.

(** How many reach the quantile: at least 1 + floor(eps (n-1)). *)
Lemma count_split r q : is_nan q = false -> Forall (fun a => is_nan a = false) r ->
  count (fun a => nlt a q) r + count (nle q) r = List.length r.
Proof.
  intros Nq H. induction H as [|x l Nx H IH]; [reflexivity|]. unfold count in *. cbn. destruct (nlt x q) eqn:E.
  - rewrite (nlt_not_nle _ _ E). cbn. lia.
  - rewrite (not_nlt_nle _ _ Nx Nq E). cbn. lia.
Qed.

(** ** The best program *)
(** argmax points at a maximum. *)
Lemma argmax_from_spec l : forall i best b (pre : list num),
  List.length pre = i -> nth_error pre best = Some b -> is_nan b = false -> Forall (fun a => is_nan a = false) l ->
  (forall y, In y pre -> nle y b = true) ->
  exists m, nth_error (pre ++ l) (argmax_from i best b l) = Some m /\ forall y, In y (pre ++ l) -> nle y m = true.
Proof.
  induction l as [|x l IH]; intros i best b pre Hi Hb Nb Hl Hm; cbn.
  - exists b. rewrite app_nil_r. auto.
  - inversion Hl as [|? ? Nx Hl']; subst. replace (pre ++ x :: l) with ((pre ++ [x]) ++ l) by (rewrite <- app_assoc; reflexivity).
    destruct (nlt b x) eqn:E.
    + apply IH; auto; [rewrite app_length; cbn; lia|rewrite nth_error_app2 by lia; rewrite Nat.sub_diag; reflexivity|].
      intros y Hy. apply in_app_or in Hy as [Hy|[<-|[]]]; [|apply nle_refl; exact Nx]. exact (nle_trans _ _ _ (Hm y Hy) (nlt_nle _ _ E)).
    + apply IH; auto; [rewrite app_length; cbn; lia|rewrite nth_error_app1; [exact Hb|apply nth_error_Some; congruence]|].
      intros y Hy. apply in_app_or in Hy as [Hy|[<-|[]]]; [auto|]. apply not_nlt_nle; auto.
Qed.
Lemma argmax_spec l : l <> [] -> Forall (fun a => is_nan a = false) l ->
  exists m, nth_error l (argmax l) = Some m /\ forall y, In y l -> nle y m = true.
Proof.
  destruct l as [|x l]; [congruence|]. intros _ H. inversion H; subst.
  destruct (argmax_from_spec l 1 0 x [x] eq_refl eq_refl) as (m & A & B); auto.
  { intros y [<-|[]]. apply nle_refl. assumption. }
  exists m. auto.
Qed.

(** np.argsort(r)[-1]: some position of a maximum in sorting order (NaN last). *)
Definition sorts_last (last : list num -> nat) : Prop :=
  forall r, r <> [] -> exists x, nth_error r (last r) = Some x /\ forall y, In y r -> sle y x = true.
(** Rewards as the metrics give them: finite or NaN, at most 10^6, an invalid program not
    above 0. *)
Definition fair (p : prog) : Prop :=
  p_r p = NaN \/ exists q, p_r p = Fin q /\ (q <= 1000000)%Q /\ (p_invalid p = true -> (q <= 0)%Q).
(** The aggregator's programs have a reward that is a number. *)
Definition fair_agg (p : prog) : Prop := exists q, p_r p = Fin q /\ (q <= 1000000)%Q.

Section Steps.
Context {A B C : Type}.
Notation row := (A * B * C * prog)%type.
Definition mk_batch (rows : list row) (agg : option (list prog)) : batch A B C :=
  mkBatch (map ra rows) (map rb rows) (map rc rows) (map rp rows) agg.
Definition seen_of (x : list row * option (list prog)) : list prog :=
  map rp (fst x) ++ match snd x with Some l => l | None => [] end.

(** Invariant of the history: [P] the programs seen so far. *)
Record inv (P : list prog) (s : sstate) : Prop := mkInv {
  i_notnan : is_nan (s_rbest s) = false;
  i_bound : forall p, In p P -> nlt (Fin 0) (p_r p) = true -> nle (p_r p) (s_rbest s) = true;
  i_best : forall p, s_best s = Some p -> In p P /\ neq (p_r p) (s_rbest s);
  i_none : s_best s = None -> s_rbest s = NInf /\ s_prev s = None;
  i_prev : match s_prev s with None => nle (s_rbest s) (Fin 0) = true | Some x => x = s_rbest s /\ nlt (Fin 0) x = true end }.

Lemma inv_set_up : inv [] set_up.
Proof. constructor; cbn; try reflexivity; try tauto; try discriminate; auto. Qed.

Lemma rr_fair (x : row) : fair (rp x) -> exists q, rr x = Fin q /\ (q <= 1000000)%Q.
Proof.
  unfold rr. intros [E|(q & E & H & _)]; rewrite E; cbn; [exists 0%Q|exists q]; split; auto; discriminate.
Qed.
Lemma rr_pos (x : row) : nlt (Fin 0) (rr x) = true -> p_r (rp x) = rr x.
Proof. unfold rr, nan0. destruct (is_nan (p_r (rp x))) eqn:E; [discriminate|reflexivity]. Qed.
Lemma cl_pos a : nlt (Fin 0) a = true -> nle a (Fin 1000000) = true -> cl a = a.
Proof. intros H1 H2. apply nclip_id; [|exact H2]. apply nle_trans with (Fin 0); [reflexivity|apply nlt_nle; exact H1]. Qed.
Lemma cl_nonpos a : is_nan a = false -> nlt (Fin 0) a = false -> nle (cl a) (Fin 0) = true.
Proof.
  intros N H. apply nle_trans with (cl (Fin 0)); [|reflexivity]. apply nclip_mono; [discriminate|]. apply not_nlt_nle; auto.
Qed.


(** The histories of a searcher: the programs it has seen, and its state.  The aggregator
    is called only when some sample was selected. *)
Inductive reached (eps : Q) (last : list num -> nat) : list prog -> sstate -> Prop :=
| r_start : reached eps last [] set_up
| r_skip P s rows agg s' : reached eps last P s -> Forall fair (map rp rows) ->
    search_one_step eps last (mk_batch rows agg) s = Ok (s', None) -> reached eps last (P ++ map rp rows) s'
| r_step P s rows agg s' cur : reached eps last P s -> Forall fair (map rp rows) -> Forall fair_agg agg ->
    search_one_step eps last (mk_batch rows (Some agg)) s = Ok (s', Some cur) -> reached eps last (P ++ map rp rows ++ agg) s'
| r_step_noagg P s rows s' cur : reached eps last P s -> Forall fair (map rp rows) ->
    search_one_step eps last (mk_batch rows None) s = Ok (s', Some cur) -> reached eps last (P ++ map rp rows) s'.

Lemma skip_ok eps last rows agg s s' P : Forall fair (map rp rows) -> inv P s ->
  search_one_step eps last (mk_batch rows agg) s = Ok (s', None) ->
  inv (P ++ map rp rows) s' /\ nle (s_rbest s) (s_rbest s') = true.
Proof.
  intros HF I. unfold search_one_step, mk_batch. cbn [b_actions b_obs b_priors b_programs b_agg]. rewrite select_eq.
  destruct (np_quantile (map rr rows) (1 - eps)) as [q|e] eqn:EQ; [|discriminate]. cbn [bind].
  destruct (Nat.ltb (List.length (filter (elite q) rows)) 1) eqn:EL.
  2:{ cbn [bind]. destruct (npmax _); [|discriminate]. cbn [bind].
      set (X := match agg with Some (_ :: _ as a) => _ | _ => _ end). destruct X as [[[[? ?] ?] ?]|]; [|discriminate]. cbn [bind].
      destruct (nth_error _ _); discriminate. }
  apply Nat.ltb_lt in EL. assert (filter (elite q) rows = []) as EE by (destruct (filter (elite q) rows); [reflexivity|cbn in EL; lia]).
  clear EL. cbn [bind].
  rewrite Forall_forall in HF.
  assert (forall x, In x rows -> is_nan (rr x) = false) as HN by (intros; apply nan0_notnan).
  assert (forall x, In x rows -> nlt (Fin 0) (rr x) = false) as NP.
  { assert (Forall (fun a => is_nan a = false) (map rr rows)) as HNl by (apply Forall_forall; intros a Ha; apply in_map_iff in Ha as (x & <- & Hx); auto).
    destruct (quantile_spec _ _ _ HNl EQ) as (_ & Hq & _). apply in_map_iff in Hq as (y & Ey & Hy).
    assert (nle q (Fin 0) = true) as Q0.
    { rewrite <- Ey. destruct (p_invalid (rp y)) eqn:Iy.
      - destruct (HF (rp y) (in_map rp _ _ Hy)) as [F|(qy & F & _ & G)]; unfold rr; rewrite F; cbn; [reflexivity|].
        apply Qle_bool_iff. auto.
      - exfalso. assert (In y (filter (elite q) rows)) as K; [|rewrite EE in K; exact K].
        apply filter_In. split; [exact Hy|]. unfold elite. rewrite Iy, Ey. cbn. apply nle_refl. rewrite <- Ey. auto. }
    intros x Hx. destruct (p_invalid (rp x)) eqn:Ix.
    - destruct (HF (rp x) (in_map rp _ _ Hx)) as [F|(qy & F & _ & G)]; unfold rr; rewrite F; [reflexivity|].
      apply nle_not_nlt. cbn. apply Qle_bool_iff. auto.
    - destruct (nlt (Fin 0) (rr x)) eqn:E; [|reflexivity]. exfalso.
      assert (In x (filter (elite q) rows)) as K; [|rewrite EE in K; exact K].
      apply filter_In. split; [exact Hx|]. unfold elite. rewrite Ix. cbn. apply nle_trans with (Fin 0); [exact Q0|apply nlt_nle; exact E]. }
  assert (forall p, In p (map rp rows) -> nlt (Fin 0) (p_r p) = false) as NP'.
  { intros p Hp. apply in_map_iff in Hp as (x & <- & Hx). specialize (NP x Hx). unfold rr, nan0 in NP. destruct (is_nan (p_r (rp x))) eqn:E; [|exact NP].
    destruct (p_r (rp x)); try discriminate. reflexivity. }
  destruct I as [I1 I2 I3 I4 I5].
  assert (inv (P ++ map rp rows) s /\ nle (s_rbest s) (s_rbest s) = true) as Same.
  { split; [|apply nle_refl; exact I1]. constructor; auto.
    - intros p Hp Hpos. apply in_app_or in Hp as [Hp|Hp]; [auto|]. rewrite (NP' p Hp) in Hpos. discriminate.
    - intros p Hb. destruct (I3 p Hb) as [K1 K2]. split; [apply in_or_app; auto|exact K2]. }
  destruct (map rp rows) as [|p0 ps] eqn:EP; [intros H; injection H as <-; exact Same|]. rewrite <- EP in *.
  destruct (nth_error (map p_r (map rp rows)) _) as [rb0|] eqn:E1; [|discriminate].
  destruct (nth_error (map rp rows) _) as [p|] eqn:E2; [|discriminate].
  rewrite nth_error_map, E2 in E1. cbn in E1. injection E1 as <-. apply nth_error_In in E2.
  destruct (is_fin (p_r p)) eqn:EF; [|intros H; injection H as <-; exact Same]. cbn [andb].
  destruct (match s_best s with None => true | Some _ => _ end) eqn:EC; [|intros H; injection H as <-; exact Same].
  intros H. injection H as <-. assert (is_nan (p_r p) = false) as Np by (destruct (p_r p); [reflexivity|reflexivity|reflexivity|discriminate]).
  assert (nle (p_r p) (Fin 0) = true) as P0 by (apply not_nlt_nle; auto).
  assert (nle (s_rbest s) (p_r p) = true) as LE.
  { destruct (s_best s); [apply nlt_nle; exact EC|]. rewrite (proj1 (I4 eq_refl)). destruct (p_r p); try reflexivity. discriminate. }
  split; [|exact LE]. constructor; cbn [s_rbest s_prev s_best].
  - exact Np.
  - intros p' Hp Hpos. apply in_app_or in Hp as [Hp|Hp]; [exact (nle_trans _ _ _ (I2 p' Hp Hpos) LE)|]. rewrite (NP' p' Hp) in Hpos. discriminate.
  - intros p' Hb. injection Hb as <-. split; [apply in_or_app; auto|apply neq_refl; exact Np].
  - discriminate.
  - destruct (s_prev s) as [x|] eqn:EX; [|exact P0]. destruct I5 as [-> K]. exfalso.
    pose proof (nlt_nle_trans _ _ _ K LE) as F. rewrite (nle_not_nlt _ _ P0) in F. discriminate.
Qed.

Lemma finish P s S M R cur : inv P s -> In cur S -> neq (p_r cur) M -> nlt (Fin 0) M = true ->
  (forall p, In p S -> nlt (Fin 0) (p_r p) = true -> nle (p_r p) M = true) ->
  nle (s_rbest s) R = true -> nle M R = true -> (R = M \/ R = s_rbest s) ->
  inv (P ++ S) (mkS R (Some R) (if match s_prev s with None => true | Some p => nlt p M end then Some cur else s_best s) true).
Proof.
  intros [I1 I2 I3 I4 I5] Hc Ec HM HB H1 H2 HR.
  destruct (nle_notnan _ _ H2) as [NM NR].
  constructor; cbn [s_rbest s_prev s_best].
  - exact NR.
  - intros p Hp Hpos. apply in_app_or in Hp as [Hp|Hp]; [exact (nle_trans _ _ _ (I2 p Hp Hpos) H1)|exact (nle_trans _ _ _ (HB p Hp Hpos) H2)].
  - intros p Hb. assert (match s_prev s with None => true | Some p => nlt p M end = true -> neq M R) as EM.
    { intros E. split; [exact H2|]. destruct HR as [->|HR]; [apply nle_refl; exact NM|]. destruct (s_prev s) as [x|].
      - destruct I5 as [-> _]. rewrite HR. apply nlt_nle. exact E.
      - rewrite HR. apply nle_trans with (Fin 0); [exact I5|apply nlt_nle; exact HM]. }
    destruct (match s_prev s with None => true | Some p => nlt p M end) eqn:E.
    + injection Hb as <-. split; [apply in_or_app; auto|]. exact (neq_trans _ _ _ Ec (EM eq_refl)).
    + destruct (I3 p Hb) as [K1 K2]. split; [apply in_or_app; auto|]. apply (neq_trans _ _ _ K2). split; [exact H1|].
      destruct HR as [->|HR]; [|rewrite HR; apply nle_refl; exact I1]. destruct (s_prev s) as [x|]; [|discriminate].
      destruct I5 as [-> K]. apply not_nlt_nle; auto.
  - intros Hn. destruct (s_prev s) as [x|] eqn:EP; [|discriminate]. destruct (nlt x M); [discriminate|]. destruct (I4 Hn); congruence.
  - split; [reflexivity|]. exact (nlt_nle_trans _ _ _ HM H2).
Qed.

Lemma sle_nle a b : is_nan b = false -> sle a b = true -> nle a b = true.
Proof. unfold sle. intros ->. auto. Qed.

Lemma elite_max eps (rows : list row) q m : Forall fair (map rp rows) -> np_quantile (map rr rows) (1 - eps) = Ok q ->
  filter (elite q) rows <> [] ->
  npmax (map cl (map rr (filter (fun x => negb (p_invalid (rp x)) && nlt (Fin 0) (rr x)) rows))) = Ok m ->
  nlt (Fin 0) m = true /\
  (forall p, In p (map rp rows) -> nlt (Fin 0) (p_r p) = true -> nle (p_r p) m = true) /\
  In m (map cl (map rr (filter (elite q) rows))) /\ (forall a, In a (map cl (map rr (filter (elite q) rows))) -> nle a m = true).
Proof.
  intros HF EQ HE EM. rewrite Forall_forall in HF.
  assert (forall x : row, is_nan (rr x) = false) as HN by (intros; apply nan0_notnan).
  assert (forall x, In x rows -> nle (rr x) (Fin 1000000) = true) as HB.
  { intros x Hx. destruct (rr_fair x (HF _ (in_map rp _ _ Hx))) as (a & -> & Ha). cbn. apply Qle_bool_iff. exact Ha. }
  apply npmax_spec in EM as (Nm & Hm & Mm).
  2:{ apply Forall_forall. intros a Ha. apply in_map_iff in Ha as (b & <- & Hb). apply in_map_iff in Hb as (x & <- & _). apply nclip_notnan. apply HN. }
  apply in_map_iff in Hm as (b & Eb & Hb). apply in_map_iff in Hb as (x & <- & Hx). apply filter_In in Hx as [Hx Vx].
  apply andb_prop in Vx as [Vx Px]. rewrite (cl_pos _ Px (HB x Hx)) in Eb. subst m.
  assert (forall y, In y rows -> p_invalid (rp y) = false -> nlt (Fin 0) (rr y) = true -> nle (rr y) (rr x) = true) as Top.
  { intros y Hy Vy Py. apply Mm. rewrite <- (cl_pos (rr y) Py (HB y Hy)). apply in_map, in_map. apply filter_In. split; [exact Hy|]. rewrite Vy, Py. reflexivity. }
  split; [exact Px|]. split.
  { intros p Hp Hpos. apply in_map_iff in Hp as (y & <- & Hy).
    assert (rr y = p_r (rp y)) as Ey by (unfold rr, nan0; destruct (is_nan (p_r (rp y))) eqn:E; [destruct (p_r (rp y)); discriminate|reflexivity]).
    rewrite <- Ey in *. apply Top; auto. destruct (p_invalid (rp y)) eqn:Iy; [|reflexivity]. exfalso.
    destruct (HF (rp y) (in_map rp _ _ Hy)) as [F|(qy & F & _ & G)]; rewrite Ey, F in Hpos; [discriminate|].
    rewrite (nle_not_nlt (Fin qy) (Fin 0)) in Hpos; [discriminate|]. cbn. apply Qle_bool_iff. auto. }
  assert (In x (filter (elite q) rows)) as Ex.
  { apply filter_In. split; [exact Hx|]. unfold elite. rewrite Vx. cbn.
    destruct (filter (elite q) rows) as [|y l] eqn:El; [congruence|].
    assert (In y (filter (elite q) rows)) as Hy by (rewrite El; left; reflexivity). apply filter_In in Hy as [Hy Vy]. apply andb_prop in Vy as [Vy Qy].
    apply nle_trans with (rr y); [exact Qy|]. destruct (nlt (Fin 0) (rr y)) eqn:E.
    - apply Top; auto. destruct (p_invalid (rp y)); [discriminate|reflexivity].
    - apply nle_trans with (Fin 0); [apply not_nlt_nle; auto|apply nlt_nle; exact Px]. }
  split.
  - rewrite <- (cl_pos (rr x) Px (HB x Hx)). apply in_map, in_map. exact Ex.
  - intros a Ha. apply in_map_iff in Ha as (b & <- & Hb). apply in_map_iff in Hb as (y & <- & Hy). apply filter_In in Hy as [Hy Vy]. apply andb_prop in Vy as [Vy Qy].
    destruct (nlt (Fin 0) (rr y)) eqn:E.
    + rewrite (cl_pos _ E (HB y Hy)). apply Top; auto. destruct (p_invalid (rp y)); [discriminate|reflexivity].
    + apply nle_trans with (Fin 0); [apply cl_nonpos; auto|apply nlt_nle; exact Px].
Qed.

Lemma elite_at (rows : list row) q i r p : Forall fair (map rp rows) ->
  nth_error (map cl (map rr (filter (elite q) rows))) i = Some r -> nth_error (map rp (filter (elite q) rows)) i = Some p ->
  nlt (Fin 0) r = true -> p_r p = r.
Proof.
  intros HF E1 E2 Hpos. rewrite !nth_error_map in E1. rewrite nth_error_map in E2. destruct (nth_error (filter _ _) i) as [x|] eqn:E; [|discriminate].
  cbn in E1, E2. injection E1 as <-. injection E2 as <-. apply nth_error_In in E. apply filter_In in E as [Hx _].
  rewrite Forall_forall in HF. destruct (rr_fair x (HF _ (in_map rp _ _ Hx))) as (a & Ea & Ha).
  assert (nlt (Fin 0) (rr x) = true) as P.
  { destruct (nlt (Fin 0) (rr x)) eqn:P; [reflexivity|]. pose proof (cl_nonpos (rr x) (nan0_notnan _) P) as K. rewrite (nle_not_nlt _ _ K) in Hpos. discriminate. }
  rewrite cl_pos; [apply rr_pos; exact P|exact P|]. rewrite Ea. cbn. apply Qle_bool_iff. exact Ha.
Qed.

Lemma step_ok eps last rows agg s s' cur P :
  sorts_last last -> Forall fair (map rp rows) -> Forall fair_agg (match agg with Some l => l | None => [] end) -> inv P s ->
  search_one_step eps last (mk_batch rows agg) s = Ok (s', Some cur) ->
  inv (P ++ map rp rows ++ match agg with Some l => l | None => [] end) s' /\ nle (s_rbest s) (s_rbest s') = true /\ In cur (map rp rows ++ match agg with Some l => l | None => [] end).
Proof.
  intros HL HF HA I. unfold search_one_step, mk_batch. cbn [b_actions b_obs b_priors b_programs b_agg]. rewrite select_eq.
  destruct (np_quantile (map rr rows) (1 - eps)) as [q|e] eqn:EQ; [|discriminate]. cbn [bind].
  destruct (Nat.ltb (List.length (filter (elite q) rows)) 1) eqn:EL.
  { cbn [bind]. destruct (map rp rows); [discriminate|]. destruct (nth_error _ _); [|discriminate]. destruct (nth_error _ _); [|discriminate].
    destruct (is_fin _ && _); discriminate. }
  apply Nat.ltb_ge in EL. assert (filter (elite q) rows <> []) as EE by (destruct (filter (elite q) rows); cbn in EL; [lia|discriminate]).
  clear EL. cbn [bind e_full_valid e_r e_programs]. destruct (npmax _) as [m|] eqn:Em; [|discriminate]. cbn [bind].
  destruct (elite_max eps rows q m HF EQ EE Em) as (Pm & Bm & Im & Tm). destruct (nlt_notnan _ _ Pm) as [_ Nm].
  pose proof (i_notnan _ _ I) as Nb.
  assert (forall a, In a (map cl (map rr (filter (elite q) rows))) -> is_nan a = false) as Nel.
  { intros a Ha. exact (proj1 (nle_notnan _ _ (Tm a Ha))). }
  (* the common part: programs, rewards, their maximum *)
  assert (forall progs rs M R l, nth_error progs (last rs) = Some cur -> M = M ->
            inv P s -> In M rs -> (forall a, In a rs -> nle a M = true) -> nlt (Fin 0) M = true -> Forall fair_agg l ->
            progs = map rp (filter (elite q) rows) ++ l -> rs = map cl (map rr (filter (elite q) rows)) ++ map p_r l -> nle m M = true ->
            nle (s_rbest s) R = true -> nle M R = true -> (R = M \/ R = s_rbest s) ->
            inv (P ++ map rp rows ++ l) (mkS R (Some R) (if match s_prev s with None => true | Some p => nlt p M end then Some cur else s_best s) true)
            /\ In cur (map rp rows ++ l)) as Common.
  { intros progs rs M R l Ec _ I' IM TM PM HAl Eprogs Ers LM H1 H2 H3.
    assert (rs <> []) as Nrs by (intros ->; destruct IM).
    destruct (HL rs Nrs) as (x & Ex & Tx).
    assert (In x rs) as Hx by (eapply nth_error_In; eauto).
    assert (is_nan x = false) as Nx by (exact (proj1 (nle_notnan _ _ (TM x Hx)))).
    assert (neq x M) as ExM by (split; [exact (TM x Hx)|apply sle_nle; auto]).
    assert (nlt (Fin 0) x = true) as Px by exact (nlt_nle_trans _ _ _ PM (proj2 ExM)).
    assert (p_r cur = x /\ In cur (map rp rows ++ l)) as [Ecur Hcur].
    { subst progs rs. set (k := last _) in *. destruct (Nat.lt_ge_cases k (List.length (filter (elite q) rows))) as [Hk|Hk].
      - rewrite nth_error_app1 in Ec, Ex by (rewrite ?map_length; exact Hk). split; [exact (elite_at rows q k x cur HF Ex Ec Px)|].
        apply in_or_app. left. rewrite nth_error_map in Ec. destruct (nth_error (filter _ _) k) as [y|] eqn:Ey; [|discriminate].
        cbn in Ec. injection Ec as <-. apply in_map. apply nth_error_In in Ey. apply filter_In in Ey. tauto.
      - rewrite nth_error_app2 in Ec, Ex by (rewrite ?map_length; exact Hk). rewrite !map_length in Ec. rewrite !map_length in Ex. rewrite nth_error_map, Ec in Ex. cbn in Ex. injection Ex as <-.
        split; [reflexivity|]. apply in_or_app. right. eapply nth_error_In; eauto. }
    split; [|exact Hcur]. apply finish; auto; [rewrite Ecur; exact ExM|].
    intros p Hp Hpos. apply in_app_or in Hp as [Hp|Hp]; [exact (nle_trans _ _ _ (Bm p Hp Hpos) LM)|].
    apply TM. subst rs. apply in_or_app. right. apply in_map. exact Hp. }
  assert (nle (s_rbest s) (pymax m (s_rbest s)) = true /\ nle m (pymax m (s_rbest s)) = true /\ is_nan (pymax m (s_rbest s)) = false) as (L1 & L2 & L3)
    by (split; [apply pymax_r; auto|split; [apply pymax_l; auto|apply pymax_notnan; auto]]).
  destruct agg as [[|a agg]|]; cbn [bind] in *.
  1: { destruct (nth_error (map rp (filter (elite q) rows)) _) as [c|] eqn:Ec; [|discriminate]. intros H. injection H as <- <-.
    assert (nth_error (map rp (filter (elite q) rows)) (last (map cl (map rr (filter (elite q) rows)))) = Some c) as Ec' by exact Ec.
    destruct (Common _ _ m (pymax m (s_rbest s)) [] Ec' eq_refl I Im Tm Pm (Forall_nil _) (eq_sym (app_nil_r _)) (eq_sym (app_nil_r _)) (nle_refl m Nm) L1 L2 (pymax_cases m (s_rbest s))) as [F1 F2].
    cbn [s_rbest]. auto. }
  2: { destruct (nth_error (map rp (filter (elite q) rows)) _) as [c|] eqn:Ec; [|discriminate]. intros H. injection H as <- <-.
    assert (nth_error (map rp (filter (elite q) rows)) (last (map cl (map rr (filter (elite q) rows)))) = Some c) as Ec' by exact Ec.
    destruct (Common _ _ m (pymax m (s_rbest s)) [] Ec' eq_refl I Im Tm Pm (Forall_nil _) (eq_sym (app_nil_r _)) (eq_sym (app_nil_r _)) (nle_refl m Nm) L1 L2 (pymax_cases m (s_rbest s))) as [F1 F2].
    cbn [s_rbest]. auto. }
  destruct (npmax (map cl (map rr (filter (elite q) rows)) ++ map p_r (a :: agg))) as [M|] eqn:EM; [|discriminate]. cbn [bind].
  destruct (nth_error _ _) as [c|] eqn:Ec; [|discriminate]. intros H. injection H as <- <-.
  apply npmax_spec in EM as (NM & IM & TM).
  2:{ apply Forall_app. split; [apply Forall_forall; exact Nel|]. apply Forall_forall. intros x Hx. apply in_map_iff in Hx as (p & <- & Hp).
      rewrite Forall_forall in HA. destruct (HA p Hp) as (z & -> & _). reflexivity. }
  assert (nle m M = true) as LM by (apply TM; apply in_or_app; left; exact Im).
  assert (nle (s_rbest s) (pymax M (pymax m (s_rbest s))) = true) as L4 by exact (nle_trans _ _ _ L1 (pymax_r _ _ NM L3)).
  destruct (Common (map rp (filter (elite q) rows) ++ a :: agg) (map cl (map rr (filter (elite q) rows)) ++ map p_r (a :: agg)) M (pymax M (pymax m (s_rbest s))) (a :: agg)) as [F1 F2]; auto.
  - exact (nlt_nle_trans _ _ _ Pm LM).
  - apply pymax_l; auto.
  - destruct (pymax_cases M (pymax m (s_rbest s))) as [E|E]; [auto|]. rewrite E. destruct (pymax_cases m (s_rbest s)) as [E'|E']; [|auto]. rewrite E' in *.
    (* the value is m, and M <= m *) 
    left. unfold pymax in E. destruct (nlt M m) eqn:K; [|congruence]. rewrite (nle_not_nlt _ _ LM) in K. discriminate.
Qed.

Lemma reached_inv eps last P s : sorts_last last -> reached eps last P s -> inv P s.
Proof.
  intros HL H. induction H.
  - exact inv_set_up.
  - exact (proj1 (skip_ok _ _ _ _ _ _ _ H0 IHreached H1)).
  - exact (proj1 (step_ok _ _ _ (Some agg) _ _ _ _ HL H0 H1 IHreached H2)).
  - pose proof (proj1 (step_ok _ _ _ None _ _ _ _ HL H0 (Forall_nil _) IHreached H1)) as K. cbn in K. rewrite app_nil_r in K. exact K.
Qed.
End Steps.

(** Such a function exists. *)
Definition lastmax (r : list num) : nat :=
  match find (fun i => match nth_error r i with Some x => forallb (fun y => sle y x) r | None => false end) (seq 0 (List.length r)) with
  | Some i => i | None => 0 end.
Lemma max_exists r : r <> [] -> exists i x, i < List.length r /\ nth_error r i = Some x /\ forall y, In y r -> sle y x = true.
Proof.
  induction r as [|a r IH]; [congruence|]. intros _. destruct r as [|b r].
  - exists 0, a. split; [cbn; lia|]. split; [reflexivity|]. intros y [<-|[]]. apply sle_refl.
  - destruct (IH ltac:(discriminate)) as (i & x & Hi & Ex & Hx). destruct (sle a x) eqn:E.
    + exists (S i), x. split; [cbn in *; lia|]. split; [exact Ex|]. intros y [<-|Hy]; auto.
    + exists 0, a. split; [cbn; lia|]. split; [reflexivity|]. intros y [<-|Hy]; [apply sle_refl|].
      destruct (sle_total a x) as [K|K]; [congruence|]. exact (sle_trans _ _ _ (Hx y Hy) K).
Qed.
Lemma lastmax_ok : sorts_last lastmax.
Proof.
  intros r Hr. unfold lastmax. destruct (find _ _) as [i|] eqn:E.
  - apply find_some in E as [_ E]. destruct (nth_error r i) as [x|]; [|discriminate]. exists x. split; [reflexivity|].
    rewrite forallb_forall in E. exact E.
  - exfalso. destruct (max_exists r Hr) as (i & x & Hi & Ex & Hx). pose proof (find_none _ _ E i) as K. rewrite in_seq in K. specialize (K ltac:(lia)).
    cbn in K. rewrite Ex in K. assert (forallb (fun y => sle y x) r = true) by (apply forallb_forall; exact Hx). congruence.
Qed.

(** pde_reward *)
Lemma pde_reward_le a n s : (0 <= a)%Q -> (0 <= s)%Q -> (pde_reward a n s <= 1)%Q.
Proof.
  intros Ha Hs. unfold pde_reward. apply Qle_shift_div_r; [lra|].
  assert (0 <= a * inject_Z (Z.of_nat n))%Q by (apply Qmult_le_0_compat; [exact Ha|change 0%Q with (inject_Z 0); rewrite <- Zle_Qle; lia]). lra.
Qed.
Lemma pde_reward_antitone a n s s' : (0 <= s)%Q -> (s < s')%Q -> (a * inject_Z (Z.of_nat n) < 1)%Q -> (pde_reward a n s' < pde_reward a n s)%Q.
Proof.
  intros Hs Hss Ha. unfold pde_reward. set (k := (1 - a * inject_Z (Z.of_nat n))%Q). assert (0 < k)%Q as Hk by (unfold k; lra).
  apply Qlt_shift_div_r; [lra|]. unfold Qdiv. rewrite <- Qmult_assoc, (Qmult_comm (/ (1 + s))), Qmult_assoc.
  apply Qlt_shift_div_l; [lra|]. apply Qmult_lt_l; lra.
Qed.

Section Epochs.
Context {A B C : Type}.
Notation row := (A * B * C * prog)%type.
Definition batches (h : list (list row * option (list prog))) : list (batch A B C) := map (fun x => mk_batch (fst x) (snd x)) h.
Definition fair_hist (h : list (list row * option (list prog))) : Prop :=
  Forall (fun x => Forall fair (map rp (fst x)) /\ forall l, snd x = Some l -> Forall fair_agg l) h.
Lemma epochs_ok eps last : sorts_last last -> forall h P s s', fair_hist h -> @reached A B C eps last P s ->
  epochs eps last (batches h) s = Ok s' ->
  exists P', @reached A B C eps last (P ++ P') s' /\ (forall x r, In x h -> In r (fst x) -> In (rp r) P') /\
    (forall p, In p P' -> exists x, In x h /\ (In p (map rp (fst x)) \/ exists l, snd x = Some l /\ In p l)) /\
    nle (s_rbest s) (s_rbest s') = true.
Proof.
  intros HL. induction h as [|[rows agg] h IH]; intros P s s' HF R E; cbn in E.
  - injection E as <-. exists []. rewrite app_nil_r. split; [exact R|]. split; [intros ? ? []|]. split; [intros ? []|].
    apply nle_refl. exact (i_notnan _ _ (reached_inv eps last P s HL R)).
  - destruct (search_one_step eps last (mk_batch rows agg) s) as [[s1 cur]|e] eqn:E1; [|discriminate]. cbn in E.
    inversion HF as [|? ? [F1 F2] HF']; subst. cbn [fst snd] in *. pose proof (reached_inv eps last P s HL R) as I.
    assert (exists Q, @reached A B C eps last (P ++ Q) s1 /\ (forall r, In r rows -> In (rp r) Q) /\
              (forall p, In p Q -> In p (map rp rows) \/ exists l, agg = Some l /\ In p l) /\ nle (s_rbest s) (s_rbest s1) = true) as (Q & R1 & H1 & H2 & H3).
    { destruct cur as [c|].
      - destruct agg as [l|].
        + exists (map rp rows ++ l). split; [eapply r_step; eauto|]. split; [intros r Hr; apply in_or_app; left; apply in_map; exact Hr|].
          split; [intros p Hp; apply in_app_or in Hp as [Hp|Hp]; eauto|]. exact (proj1 (proj2 (step_ok eps last rows (Some l) s s1 c P HL F1 (F2 l eq_refl) I E1))).
        + exists (map rp rows). split; [eapply r_step_noagg; eauto|]. split; [intros r Hr; apply in_map; exact Hr|].
          split; [auto|]. exact (proj1 (proj2 (step_ok eps last rows None s s1 c P HL F1 (Forall_nil _) I E1))).
      - exists (map rp rows). split; [eapply r_skip; eauto|]. split; [intros r Hr; apply in_map; exact Hr|].
        split; [auto|]. exact (proj2 (skip_ok eps last rows agg s s1 P F1 I E1)). }
    destruct (IH (P ++ Q) s1 s' HF' R1 E) as (P' & R2 & K1 & K2 & K3). exists (Q ++ P'). rewrite app_assoc. split; [exact R2|]. split.
    + intros x r [<-|Hx] Hr; apply in_or_app; [left; auto|right; eauto].
    + split; [|eapply nle_trans; eauto]. intros p Hp. apply in_app_or in Hp as [Hp|Hp].
      * exists (rows, agg). split; [left; reflexivity|]. exact (H2 p Hp).
      * destruct (K2 p Hp) as (x & Hx & Kx). exists x. split; [right; exact Hx|exact Kx].
Qed.
End Epochs.
(** Decision procedures, for examples. *)
Definition fairb (p : prog) : bool :=
  match p_r p with NaN => true | Fin q => Qle_bool q 1000000 && (negb (p_invalid p) || Qle_bool q 0) | _ => false end.
Definition fair_aggb (p : prog) : bool := match p_r p with Fin q => Qle_bool q 1000000 | _ => false end.
Definition fair_histb {A B C} (h : list (list (A * B * C * prog) * option (list prog))) : bool :=
  forallb (fun x => forallb fairb (map rp (fst x)) && match snd x with Some l => forallb fair_aggb l | None => true end) h.
Lemma fairb_ok p : fairb p = true -> fair p.
Proof.
  unfold fairb, fair. destruct (p_r p) as [|q| |]; try discriminate; [|auto]. intros H. apply andb_prop in H as [H1 H2]. right. exists q.
  split; [reflexivity|]. split; [apply Qle_bool_iff; exact H1|]. intros I. rewrite I in H2. cbn in H2. apply Qle_bool_iff. exact H2.
Qed.
Lemma fair_histb_ok {A B C} (h : list (list (A * B * C * prog) * option (list prog))) : fair_histb h = true -> fair_hist h.
Proof.
  intros H. apply Forall_forall. intros [rows agg] Hx. unfold fair_histb in H. rewrite forallb_forall in H. specialize (H _ Hx). cbn [fst snd] in *.
  apply andb_prop in H as [H1 H2]. rewrite forallb_forall in H1. split.
  - apply Forall_forall. intros p Hp. apply fairb_ok. auto.
  - intros l ->. rewrite forallb_forall in H2. apply Forall_forall. intros p Hp. specialize (H2 p Hp). unfold fair_aggb, fair_agg in *.
    destruct (p_r p) as [|q| |]; try discriminate. exists q. split; [reflexivity|]. apply Qle_bool_iff. exact H2.
Qed.
