(** Sharper statements for C30, C31, C32, C47, C74, C109, C121, C122, C136 and C137, added after automatic edits of the model. *)
From Coq Require Import QArith Lqa Ascii.
From Verif Require Import Base Num Arrays Dataset Adapter PropsAdapter.
Local Open Scope nat_scope.
Local Open Scope list_scope.

(** ** C30: the declared number of dimensions is checked, and only checked. *)
Theorem C30_declared_dimension uniform g res : regular_nd uniform None g = Ok res -> g_dim res = List.length (spatial_axes g) /\
  (forall d, d = List.length (spatial_axes g) -> regular_nd uniform (Some d) g = Ok res) /\
  (forall d, d <> List.length (spatial_axes g) -> regular_nd uniform (Some d) g = Err ValueError).
Proof.
  unfold regular_nd. destruct (negb _); [discriminate|]. destruct (negb _); [discriminate|]. destruct (_ || _); [discriminate|]. destruct (existsb _ _); [discriminate|].
  destruct (time_step _ _) as [dt|]; [|discriminate]. cbn [bind]. destruct (ut_columns _ _ _ _) as [ut|]; [|discriminate]. cbn [bind]. intros [= <-]. split; [reflexivity|].
  split; intros d E; [rewrite (proj2 (Nat.eqb_eq _ _) E)|rewrite (proj2 (Nat.eqb_neq _ _) E)]; reflexivity.
Qed.
Theorem C30_declared_dimension_legacy uniform x t u params res : regular_legacy uniform None x t u params = Ok res -> g_dim res = 1 /\
  regular_legacy uniform (Some 1) x t u params = Ok res /\ (forall d, d <> 1 -> regular_legacy uniform (Some d) x t u params = Err ValueError).
Proof.
  unfold regular_legacy. destruct (negb _); [discriminate|]. destruct (negb _); [discriminate|].
  destruct (time_step _ _) as [dt|]; [|discriminate]. cbn [bind]. destruct (ut_rows _ _ _ _) as [ut|]; [|discriminate]. cbn [bind]. intros [= <-]. split; [reflexivity|]. split; [reflexivity|].
  intros d E. rewrite (proj2 (Nat.eqb_neq _ _) E). reflexivity.
Qed.
Example C30_declared_case : exists res, regular_nd true None g_case = Ok res /\ regular_nd true (Some 2) g_case = Ok res /\ regular_nd true (Some 1) g_case = Err ValueError.
Proof. eexists. split; [vm_compute; reflexivity|]. split; vm_compute; reflexivity. Qed.

(** ** C109: the rows a surrogate is evaluated at, and those it is trained on. *)
From Verif Require Import EqGptSurrogate PropsEqGptSurrogate.
Theorem C109_evaluation_rows tp lam ts xs i j : i < List.length ts -> j < List.length xs ->
  nth_error (database tp lam ts xs) (i * List.length xs + j) = Some (nth i ts 0 / tp, (nth j xs 0 - (817 # 100)) / lam)%Q.
Proof. intros A B. exact (proj2 (C109_grid tp lam ts xs i j A B)). Qed.
Theorem C109_training_rows_refuted tp lam t x : ~ (tp == 0)%Q -> ~ (tp == 1)%Q -> ~ (t == 0)%Q -> train_point t x = (t, (x - 8)%Q) /\ database tp lam [t] [x] = [(t / tp, (x - (817 # 100)) / lam)%Q] /\ ~ (t / tp == t)%Q.
Proof. intros A B C. split; [reflexivity|]. split; [reflexivity|]. exact (C109_coordinates_refuted tp lam t x A B C). Qed.

(** ** C32: the text shown for every status code. *)
From Verif Require Job PropsJob.
Theorem C32_status_table :
  map (fun c => Job.status_text (Z.of_nat c)) (seq 0 14) = map Job.Known ["Pending"; "Running"; "Packaging"; "Submitted"; "Running"; "Running"; "Running"; "Running"; "Running"; "DownloadOutput"; "Finished"; "Finished"; "Failed"; "Error"]%string /\
  (forall c, (c < 0 \/ 13 < c)%Z -> Job.status_text c = Job.Unknown c).
Proof.
  split; [reflexivity|]. intros c H. unfold Job.status_text. destruct c as [|p|p]; [lia| |reflexivity].
  destruct p as [[[[p|p|]|[p|p|]|]|[[p|p|]|[p|p|]|]|]|[[[p|p|]|[p|p|]|]|[[p|p|]|[p|p|]|]|]|]; try reflexivity; exfalso; lia.
Qed.

(** ** C31: what the printed form of an object lists. *)
From Verif Require Params.
Lemma dset_new {B} (d : list (string * B)) k v : ~ In k (map fst d) -> Params.dset d k v = d ++ [(k, v)].
Proof. induction d as [|[x w] d IH]; cbn; intros N; [reflexivity|]. destruct (String.eqb_spec x k); [tauto|]. f_equal. apply IH. tauto. Qed.
Lemma params_shallow names n (h : Params.heap) o ks : names o = Ok ks -> NoDup ks -> (forall k, In k ks -> Params.dget (h o) k <> None) ->
  Params.get_params names (S n) h o false = Ok (map (fun k => (k, match Params.dget (h o) k with Some v => v | None => Params.Atom 0 end)) ks).
Proof.
  intros E N H. cbn [Params.get_params]. rewrite E. cbn [bind].
  set (f := fun (acc : res (list (string * Params.value))) key => _). set (g := fun k => (k, match Params.dget (h o) k with Some v => v | None => Params.Atom 0 end)).
  assert (G : forall l out, NoDup (map fst out ++ l) -> (forall k, In k l -> Params.dget (h o) k <> None) -> fold_left f l (Ok out) = Ok (out ++ map g l)).
  { induction l as [|k l IH]; intros out ND HH; cbn [fold_left map]; [now rewrite app_nil_r|].
    unfold f at 2. cbn [bind]. destruct (Params.dget (h o) k) as [v|] eqn:Ek; [|exfalso; apply (HH k (or_introl eq_refl) Ek)].
    assert ((match v with Params.Ref _ => Ok out | Params.Atom _ => Ok out end) = Ok out) as -> by (destruct v; reflexivity). cbn [bind].
    rewrite dset_new by (intros X; apply NoDup_remove_2 in ND; apply ND, in_app_iff; now left). rewrite IH.
    - rewrite <- app_assoc. cbn. unfold g at 2. rewrite Ek. reflexivity.
    - rewrite map_app, <- app_assoc. cbn. exact ND.
    - intros k' Hk. apply HH. now right. }
  rewrite G; [reflexivity|exact N|exact H].
Qed.
(** The parameters of the object itself, in the order of their names, and not those of the estimators it contains; an attribute that
    was never stored makes it fail. *)
Theorem C31_printed names (h : Params.heap) o ks : names o = Ok ks -> NoDup ks ->
  ((forall k, In k ks -> Params.dget (h o) k <> None) -> exists d, Params.repr names h o = Ok d /\ map fst d = ks /\ (forall k v, In (k, v) d -> Params.dget (h o) k = Some v)) /\
  (forall k, In k ks -> Params.dget (h o) k = None -> Params.repr names h o = Err AttributeError).
Proof.
  intros E N. split.
  - intros H. unfold Params.repr. rewrite (params_shallow names 0 h o ks E N H). eexists. split; [reflexivity|]. split; [rewrite map_map; cbn; apply map_id|].
    intros k v X. apply in_map_iff in X as (k' & [= <- <-] & X). specialize (H _ X). destruct (Params.dget (h o) k'); [reflexivity|contradiction].
  - intros k I Z. unfold Params.repr. cbn [Params.get_params]. rewrite E. cbn [bind]. set (f := fun (acc : res (list (string * Params.value))) key => _).
    assert (FE : forall l e, fold_left f l (Err e) = Err e) by (induction l; intros; cbn; auto).
    assert (G : forall l out, In k l -> fold_left f l (Ok out) = Err AttributeError).
    { induction l as [|k' l IH]; intros out X; [destruct X|]. cbn [fold_left]. unfold f at 2. cbn [bind]. destruct (Params.dget (h o) k') as [v|] eqn:Ek'; [|apply FE].
      destruct X as [->|X]; [congruence|]. assert ((match v with Params.Ref _ => Ok out | Params.Atom _ => Ok out end) = Ok out) as -> by (destruct v; reflexivity). cbn [bind]. apply IH, X. }
    apply G, I.
Qed.

(** ** C47: an offspring enters only if it beats some program of the batch. *)
From Verif Require Import Aggregator DedupFacts.
Lemma qminl_in l q : qminl l = Ok q -> In q l /\ forall y, In y l -> (q <= y)%Q.
Proof.
  destruct l as [|x l]; [discriminate|]. cbn [qminl]. intros [= <-]. revert x. induction l as [|y l IH]; intros x; cbn [fold_left].
  - split; [now left|]. intros y [<-|[]]. apply Qle_refl.
  - destruct (Qle_bool x y) eqn:E.
    + apply Qle_bool_iff in E. destruct (IH x) as [A B]. split; [cbn in *; tauto|]. intros z [<-|[<-|Hz]]; [apply B; now left|apply (Qle_trans _ x); [apply B; now left|exact E]|apply B; now right].
    + assert (~ (x <= y)%Q) as NE by (intros X; apply Qle_bool_iff in X; congruence). destruct (IH y) as [A B]. split; [cbn in *; tauto|].
      intros z [<-|[<-|Hz]]; [specialize (B y (or_introl eq_refl)); lra|apply B; now left|apply B; now right].
Qed.
Theorem C47_offspring_threshold mutation best best_r rp gp last b : agg_best mutation best best_r rp gp last = Ok b -> rp <> [] /\
  (b = best_r \/ last = Some b \/ (exists n, best = Some (b, n)) \/ In b (map fst rp) \/ (mutation = true /\ In b (map fst gp) /\ exists r, In r (map fst rp) /\ (r < b)%Q)).
Proof.
  intros E. split; [intros ->; discriminate|].
  assert (R : agg_best mutation best best_r rp (filter (fun p => match qminl (map fst rp) with Ok rq => negb (Qle_bool (fst p) rq) | Err _ => true end) gp) last = Ok b).
  { revert E. unfold agg_best. destruct (qminl (map fst rp)) as [rq|]; [|discriminate]. cbn [bind].
    set (F := filter (fun p => negb (Qle_bool (fst p) rq)) gp).
    assert (filter (fun p => negb (Qle_bool (fst p) rq)) F = F) as ->; [|auto].
    unfold F. clear. induction gp as [|p l IH]; [reflexivity|]. cbn [filter]. destruct (negb (Qle_bool (fst p) rq)) eqn:Q; [|exact IH]. cbn [filter]. rewrite Q. f_equal. exact IH. }
  destruct (agg_best_monotone _ _ _ _ _ _ _ R) as (_ & _ & H). destruct H as [H|[H|[H|[H|(M & H)]]]]; auto 6. right; right; right; right. split; [exact M|].
  destruct (qminl (map fst rp)) as [rq|] eqn:Eq; [|unfold agg_best in E; rewrite Eq in E; discriminate].
  apply in_map_iff in H as ((q & n) & Hq & H). cbn in Hq. subst q. apply filter_In in H as [H L]. cbn in L. split; [apply in_map_iff; exists (b, n); auto|].
  exists rq. split; [apply (qminl_in _ _ Eq)|]. apply negb_true_iff in L. apply Qnot_le_lt. intros X. apply Qle_bool_iff in X. congruence.
Qed.

(** ** C74: derivative subscripts. *)
From Verif Require Import SgaEq.
Local Open Scope string_scope.
Definition plain (bad : list ascii) (s : string) : Prop := has_char (fun c => existsb (Ascii.eqb c) bad) s = false.
Lemma plain_cons bad c s : plain bad (String c s) -> (forall x, In x bad -> Ascii.eqb c x = false) /\ plain bad s.
Proof.
  unfold plain. cbn [has_char]. intros H. apply orb_false_iff in H as [A B]. split; [|exact B]. intros x X. destruct (Ascii.eqb c x) eqn:E; [|reflexivity].
  rewrite <- A. symmetry. apply existsb_exists. eauto.
Qed.
Lemma last_sub_none s : plain ["_"%char] s -> last_sub s = None.
Proof.
  induction s as [|c s IH]; [reflexivity|]. intros H. apply plain_cons in H as [A B]. cbn [last_sub]. rewrite (IH B). destruct s as [|d s]; [reflexivity|].
  rewrite (A "_"%char (or_introl eq_refl)). reflexivity.
Qed.
Lemma last_sub_some b r : plain ["_"%char] r -> last_sub (b ++ "_{" ++ r) = Some (b, r).
Proof.
  intros H. induction b as [|c b IH]; cbn [String.append].
  - cbn [last_sub]. rewrite (last_sub_none r H). destruct r; reflexivity.
  - cbn [last_sub]. cbn [String.append] in IH. rewrite IH. reflexivity.
Qed.
Lemma plain_app bad a b : plain bad a -> plain bad b -> plain bad (a ++ b).
Proof. unfold plain. induction a as [|c a IH]; [auto|]. cbn. intros H K. apply orb_false_iff in H as [A B]. rewrite A. cbn. auto. Qed.
Lemma plain_sub bad bad' s : (forall x, In x bad' -> In x bad) -> plain bad s -> plain bad' s.
Proof.
  intros I. induction s as [|c s IH]; [auto|]. intros H. apply plain_cons in H as [A B]. unfold plain in *. cbn [has_char]. rewrite (IH B), orb_false_r.
  destruct (existsb _ bad') eqn:E; [|reflexivity]. apply existsb_exists in E as (x & X & Y). rewrite (A x (I x X)) in Y. discriminate.
Qed.
Lemma to_close_flat old tail : plain ["{"%char; "}"%char] old -> to_close 1 (old ++ String "}" tail) = match tail with "" => Some old | _ => None end.
Proof.
  induction old as [|c old IH]; intros H; cbn [String.append to_close].
  - cbn. destruct tail; reflexivity.
  - apply plain_cons in H as [A B]. rewrite (A "{"%char (or_introl eq_refl)), (A "}"%char (or_intror (or_introl eq_refl))), (IH B). destruct tail; reflexivity.
Qed.
(** A derivative of something already written with a subscript at its end extends that subscript; otherwise it gets one of its own. *)
Theorem C74_subscripts b old v : plain ["{"%char; "}"%char; "_"%char] old -> subscript (b ++ "_{" ++ old ++ "}") v = b ++ "_{" ++ old ++ v ++ "}" /\
  (forall operand, plain ["_"%char] operand -> subscript operand v = operand ++ "_{" ++ v ++ "}") /\
  (forall tail, tail <> "" -> plain ["_"%char] tail -> subscript (b ++ "_{" ++ old ++ "}" ++ tail) v = (b ++ "_{" ++ old ++ "}" ++ tail) ++ "_{" ++ v ++ "}").
Proof.
  intros P. assert (P1 : plain ["_"%char] old) by (apply (plain_sub ["{"%char; "}"%char; "_"%char]); [cbn; tauto|exact P]).
  assert (P2 : plain ["{"%char; "}"%char] old) by (apply (plain_sub ["{"%char; "}"%char; "_"%char]); [cbn; tauto|exact P]).
  unfold subscript, merge_subscript. split; [|split].
  - rewrite last_sub_some by (apply plain_app; [exact P1|reflexivity]). rewrite (to_close_flat old "" P2). reflexivity.
  - intros o Ho. rewrite (last_sub_none o Ho). reflexivity.
  - intros tail N T. rewrite last_sub_some by (apply plain_app; [exact P1|apply plain_app; [reflexivity|exact T]]).
    change ("}" ++ tail) with (String "}" tail) at 1. rewrite (to_close_flat old tail P2). destruct tail; [contradiction|reflexivity].
Qed.
Example C74_subscript_case : subscript "u_{x}" "x" = "u_{xx}" /\ subscript "u" "t" = "u_{t}" /\ subscript "u_{x} \cdot v" "x" = "u_{x} \cdot v_{x}" /\ subscript "a_{\nu{k}}" "x" = "a_{\nu{k}x}".
Proof. repeat split. Qed.

(** ** C136: the optimizer named in the configuration, and constants that have not been set. *)
From Verif Require Const.
Theorem C136_optimizer_named minimize :
  Const.make_const_optimizer minimize None = Ok Const.Dummy /\ Const.make_const_optimizer minimize (Some "dummy") = Ok Const.Dummy /\
  (exists o, Const.make_const_optimizer minimize (Some "scipy") = Ok o /\ forall f x0, Const.call_optimizer o f x0 = minimize f x0) /\
  (forall f x0, Const.call_optimizer Const.Dummy f x0 = x0) /\
  (forall n, n <> "dummy" -> n <> "scipy" -> Const.make_const_optimizer minimize (Some n) = Err KeyError).
Proof.
  split; [reflexivity|]. split; [reflexivity|]. split; [eexists; split; [reflexivity|reflexivity]|]. split; [reflexivity|]. intros n A B. cbn.
  destruct (String.eqb_spec n "dummy"); [contradiction|]. destruct (String.eqb_spec n "scipy"); [contradiction|]. reflexivity.
Qed.
Theorem C136_unset_constants toks : (exists k, In k toks /\ Library.tname k = "const") -> Const.get_constants (Const.new_program toks) = Err TypeError.
Proof.
  intros (k & I & E). unfold Const.get_constants. cbn [Const.new_program Const.p_trav]. induction toks as [|t l IH]; [destruct I|]. cbn [map Const.get_constants_of].
  destruct (Const.is_const t) eqn:C; unfold Const.from_library at 1; rewrite C; [reflexivity|]. destruct I as [->|I]; [unfold Const.is_const in C; rewrite E in C; discriminate|]. apply IH, I.
Qed.

(** ** C35: terms of fewer than three tokens are never mutated, longer ones token by token. *)
Theorem C35_short_terms lib only choices term : (List.length term < 3 -> mutate_term lib only choices term = Ok (Some term)) /\
  (3 <= List.length term -> mutate_term lib only choices term = mutate_tokens lib only choices term).
Proof. unfold mutate_term. split; intros H; [rewrite (proj2 (Nat.leb_gt _ _) H)|rewrite (proj2 (Nat.leb_le _ _) H)]; reflexivity. Qed.

(** ** C77: the settings plots start from; C122: the modules there are. *)
From Verif Require VizCore Web.
Theorem C77_initial_settings : VizCore.default_style = [("font.size", "12"); ("figure.titlesize", "14"); ("axes.labelsize", "12"); ("xtick.labelsize", "10"); ("ytick.labelsize", "10"); ("savefig.dpi", "300"); ("savefig.bbox", "tight")]%list /\
  VizCore.style VizCore.initial_config = VizCore.default_style /\ VizCore.save_dir VizCore.initial_config = None /\ VizCore.cfg_backend VizCore.initial_config = None.
Proof. repeat split. Qed.
Theorem C122_modules n : In n Web.shipped <-> In n ["kd.model.dlga"; "kd.model.kd_discover"; "kd.model.kd_discover_regression"; "kd.model.kd_dlga"; "kd.model.kd_eqgpt"; "kd.model.kd_pysr"; "kd.model.kd_sga"]%list.
Proof. cbn. tauto. Qed.
Theorem C76_capabilities_listed (a : option VizCore.adapter) : (a = None -> VizCore.list_capabilities a = []%list) /\ (forall x, a = Some x -> VizCore.list_capabilities a = VizCore.capabilities x).
Proof. split; [intros ->; reflexivity|intros x ->; reflexivity]. Qed.

Print Assumptions C30_declared_dimension.
Print Assumptions C30_declared_dimension_legacy.
Print Assumptions C109_evaluation_rows.
Print Assumptions C109_training_rows_refuted.
Print Assumptions C32_status_table.
Print Assumptions C31_printed.
Print Assumptions C47_offspring_threshold.
Print Assumptions C74_subscripts.
Print Assumptions C136_optimizer_named.
Print Assumptions C136_unset_constants.
Print Assumptions C35_short_terms.
Print Assumptions C77_initial_settings.
Print Assumptions C122_modules.
Print Assumptions C76_capabilities_listed.
