(** C137: the derivatives SGA takes of a neural network (use_autograd). *)
From Coq Require Import QArith Qabs Qround Lqa Permutation.
From Verif Require Import Base SgaNaming SgaNamingFacts PropsNaming SgaRegistry PropsRegistry Arrays SgaAuto SgaAutoFacts SgaAutoLoop.
Local Open Scope nat_scope.

(** ** Specification *)
(** [w] holds, at every cell of the grid, the partial derivative of [f] along coordinate number [j] there *)
Definition holds_derivative (w : arr Q) (f : list Q -> Q) (coords : list (pystr * list Q)) (axes : list pystr) (j : nat) : Prop :=
  shape w = grid_shape_of coords axes /\
  forall idx, inb (grid_shape_of coords axes) idx -> exists v, get w idx = Some v /\
    is_derivative (fun x => f (upd (cell coords axes idx) j x)) (nth j (cell coords axes idx) 0%Q) v.
(** [w] holds the values of [f] at the cells *)
Definition holds (w : arr Q) (f : list Q -> Q) (coords : list (pystr * list Q)) (axes : list pystr) : Prop :=
  shape w = grid_shape_of coords axes /\ forall idx, inb (grid_shape_of coords axes) idx -> get w idx = Some (f (cell coords axes idx)).
(** [g] is the partial derivative of [f] along input [j], on points with [d] coordinates *)
Definition partial_derivative (d j : nat) (f g : list Q -> Q) : Prop :=
  forall p, List.length p = d -> is_derivative (fun x => f (upd p j x)) (nth j p 0%Q) (g p).

Section P.
Context {M : Type}.
Variables (sd : list Q -> Q) (D : M -> list nat -> list Q -> Q) (in_dim : M -> option nat) (runs : M -> nat -> bool) (one_output : M -> bool)
  (file : pystr -> option M) (fitnet : list (list Q * Q) -> M) (shuffle : nat -> list nat) (fd : arr Q -> Q -> nat -> res (arr Q)).
Local Notation options := (options M).
Local Notation config := (@config (arr Q)).
Local Notation prepare := (prepare sd).
Local Notation build_context := (build_context sd M D in_dim runs one_output file fitnet shuffle fd).
Local Notation load_data := (load_data sd M D file).
Local Notation by_autograd := (by_autograd sd M D in_dim runs one_output file fitnet shuffle fd).
Local Notation train_metanet := (train_metanet sd M fitnet shuffle).
Local Notation check_model := (check_model M in_dim runs one_output).
Local Notation differentiable := (differentiable D).

(** ** Training data *)
(** Row number k of the training table belongs to cell number k of the array: scaled back, its entries
    are the coordinates of that cell and its target the value there.  No deviation is zero. *)
Theorem C137_training_pairs coords field order normalize X y st :
  prepare coords field order normalize = Ok (X, y, st) ->
  let axes := match order with [] => keys coords | l => l end in
  wfa field -> List.length X = prod (shape field) /\ List.length y = prod (shape field) /\
  (forall j, j < List.length axes -> ~ (nth j (x_std st) 0 == 0)%Q) /\ ~ (y_std st == 0)%Q /\
  forall idx, inb (shape field) idx -> exists r v u,
    nth_error X (ravel (shape field) idx) = Some r /\ nth_error y (ravel (shape field) idx) = Some v /\ get field idx = Some u /\ List.length r = List.length axes /\
    (forall j, j < List.length axes -> let c := nth (nth j idx 0) (coord_of coords (nth j axes [])) 0%Q in
       if normalize then (nth j (x_mean st) 0 + nth j (x_std st) 0 * nth j r 0 == c)%Q else nth j r 0%Q = c) /\
    (if normalize then (y_mean st + y_std st * v == u)%Q else v = u).
Proof.
  unfold SgaAuto.prepare. set (axes := match order with [] => keys coords | l => l end). clearbody axes. intros H. cbn zeta. intros Wf.
  destruct (negb (distinctb axes)); [discriminate|]. destruct (negb (_ && _)); [discriminate|]. destruct (list_eqb (shape field) (grid_shape_of coords axes)) eqn:E; [|discriminate]. cbn [negb] in H.
  apply list_eqb_eq in E. cbn zeta in H. set (st' := stats_of sd (List.length axes) (grid_rows coords axes) (flat field)) in H.
  assert (NZ : forall j, j < List.length axes -> ~ (nth j (x_std st') 0 == 0)%Q) by (intros j Hj; apply stats_nz, Hj).
  assert (NY : ~ (y_std st' == 0)%Q) by apply safe_nz. assert (Dm : dim st' (List.length axes)) by apply stats_dim. clearbody st'. injection H as <- <- <-. rename st' into st.
  split; [destruct normalize; [rewrite map_length|]; rewrite grid_rows_length, E; reflexivity|]. split; [destruct normalize; [rewrite map_length|]; exact Wf|].
  split; [exact NZ|]. split; [exact NY|]. intros idx Hi. destruct (get_some field idx Wf Hi) as (u & Hu). pose proof (inb_length _ _ Hi) as Li.
  rewrite E in Hi. assert (Li' : List.length idx = List.length axes) by (rewrite Li, E; unfold grid_shape_of; apply map_length).
  pose proof (grid_rows_nth coords axes idx Hi) as GR. pose proof (ravel_lt _ _ Hi) as RL. set (k := ravel (grid_shape_of coords axes) idx) in *.
  assert (NE : nth_error (grid_rows coords axes) k = Some (cell coords axes idx)) by (rewrite <- GR; apply nth_error_nth'; rewrite grid_rows_length; exact RL).
  assert (NU : nth_error (flat field) k = Some u) by (unfold get in Hu; rewrite E in Hu; exact Hu). rewrite E. fold k.
  pose proof (cell_length coords axes idx Li') as CL.
  destruct normalize.
  - exists (norm_row st (cell coords axes idx)), ((u - y_mean st) / y_std st)%Q, u. rewrite (map_nth_error _ _ _ NE), (map_nth_error _ _ _ NU). split; [reflexivity|]. split; [reflexivity|]. split; [exact Hu|].
    split; [apply norm_row_length; auto|]. split; [|field; exact NY]. intros j Hj. cbn zeta. rewrite (nth_norm_row st (List.length axes)) by auto. rewrite nth_cell by auto. field. apply NZ, Hj.
  - exists (cell coords axes idx), u, u. split; [exact NE|]. split; [exact NU|]. split; [exact Hu|]. split; [exact CL|]. split; [|reflexivity]. intros j Hj. cbn zeta. apply nth_cell; auto.
Qed.
(** The table is made exactly when the axes are different, are the coordinates' names and give the shape of the field. *)
Theorem C137_training_checked coords field order normalize :
  let axes := match order with [] => keys coords | l => l end in
  (exists p, prepare coords field order normalize = Ok p) <->
  NoDup axes /\ (forall a, In a axes <-> In a (keys coords)) /\ shape field = map (fun a => List.length (coord_of coords a)) axes.
Proof.
  unfold SgaAuto.prepare. set (axes := match order with [] => keys coords | l => l end). clearbody axes. cbn zeta.
  destruct (distinctb axes) eqn:D1; cbn [negb].
  2: { split; [intros [p H]; discriminate|]. intros (N & _). apply distinctb_NoDup in N. congruence. }
  apply distinctb_NoDup in D1. destruct (subset axes (keys coords) && subset (keys coords) axes) eqn:S1; cbn [negb].
  - apply andb_prop in S1. destruct S1 as [S1 S2]. unfold subset in S1, S2. rewrite forallb_forall in S1, S2.
    destruct (list_eqb (shape field) (grid_shape_of coords axes)) eqn:L; cbn [negb].
    + apply list_eqb_eq in L. split; [|intros _; eauto]. intros _. split; [exact D1|]. split; [|exact L]. intros a. split; intros Ha; apply inl_In; auto.
    + split; [intros [p H]; discriminate|]. intros (_ & _ & X). apply list_eqb_eq in X. unfold grid_shape_of in L. congruence.
  - split; [intros [p H]; discriminate|]. intros (_ & I & _). exfalso. apply andb_false_iff in S1. unfold subset in S1.
    assert (X : forall l l' : list pystr, (forall a, In a l -> In a l') -> forallb (fun x => inl x l') l = true) by (intros l l' HH; apply forallb_forall; intros a Ha; apply inl_In, HH, Ha).
    destruct S1 as [S1|S1]; rewrite X in S1; try discriminate; intros a Ha; apply I, Ha.
Qed.
(** The network is trained on the integer part of ratio * N different rows of the table, none of them
    changed; a ratio outside (0, 1] is a ValueError. *)
Theorem C137_training_rows ratio order (X : list (list Q)) (y : list Q) : List.length y = List.length X -> Permutation order (seq 0 (List.length X)) ->
  if Qle_bool ratio 0 || negb (Qle_bool ratio 1) then training_set ratio order X y = Err ValueError
  else exists rows rest, training_set ratio order X y = Ok rows /\ Permutation (rows ++ rest) (combine X y) /\
    Z.of_nat (List.length rows) = Qfloor (inject_Z (Z.of_nat (List.length X)) * ratio).
Proof.
  intros Ly Pe. unfold training_set. destruct (Qle_bool ratio 0 || negb (Qle_bool ratio 1)) eqn:R; [reflexivity|].
  apply orb_false_iff in R. destruct R as [R1 R2]. apply negb_false_iff, Qle_bool_iff in R2.
  assert (R1' : (0 <= ratio)%Q) by (destruct (Qlt_le_dec 0 ratio) as [Hr|Hr]; [lra|apply Qle_bool_iff in Hr; congruence]).
  set (n := List.length X) in *. set (sp := Qfloor (inject_Z (Z.of_nat n) * ratio)). set (F := fun i => (nth i X [], nth i y 0%Q)).
  assert (N0 : (0 <= inject_Z (Z.of_nat n))%Q) by (change 0%Q with (inject_Z 0); rewrite <- Zle_Qle; lia).
  assert (S0 : (0 <= sp)%Z). { unfold sp. change 0%Z with (Qfloor 0). apply Qfloor_resp_le. rewrite <- (Qmult_0_r (inject_Z (Z.of_nat n))). rewrite !(Qmult_comm (inject_Z _)). apply Qmult_le_compat_r; assumption. }
  assert (S1 : (sp <= Z.of_nat n)%Z).
  { assert (X1 : (inject_Z (Z.of_nat n) * ratio <= inject_Z (Z.of_nat n))%Q) by (setoid_replace (inject_Z (Z.of_nat n)) with (1 * inject_Z (Z.of_nat n))%Q at 2 by ring; rewrite (Qmult_comm _ ratio); apply Qmult_le_compat_r; assumption).
    apply Qfloor_resp_le in X1. rewrite Qfloor_Z in X1. exact X1. }
  exists (map F (firstn (Z.to_nat sp) order)), (map F (skipn (Z.to_nat sp) order)). split; [reflexivity|]. split.
  - rewrite <- map_app, firstn_skipn. transitivity (map F (seq 0 n)); [apply Permutation_map, Pe|]. replace (map F (seq 0 n)) with (combine X y); [apply Permutation_refl|].
    apply (nth_ext _ _ ([], 0%Q) ([], 0%Q)).
    + rewrite map_length, seq_length, combine_length. fold n. lia.
    + intros i Hi. rewrite combine_length in Hi. fold n in Hi. rewrite nth_combine by lia. rewrite (nth_map_seq F) by lia. reflexivity.
  - rewrite map_length, firstn_length. apply Permutation_length in Pe. rewrite seq_length in Pe. rewrite Pe. lia.
Qed.
(** The function the network stands for, y_mean + y_std * net((p - x_mean)/x_std), differs from the data at a
    cell by y_std times the network's own error on the row of that cell. *)
Theorem C137_error coords field order normalize X y st m :
  prepare coords field order normalize = Ok (X, y, st) -> wfa field ->
  let axes := match order with [] => keys coords | l => l end in
  forall idx, inb (shape field) idx -> exists u r v, get field idx = Some u /\
    nth_error X (ravel (shape field) idx) = Some r /\ nth_error y (ravel (shape field) idx) = Some v /\
    (surrogate D normalize st m (cell coords axes idx) - u == (if normalize then y_std st else 1) * (D m [] r - v))%Q.
Proof.
  unfold SgaAuto.prepare. set (axes := match order with [] => keys coords | l => l end). clearbody axes. intros H Wf. cbn zeta. intros idx Hi.
  destruct (negb (distinctb axes)); [discriminate|]. destruct (negb (_ && _)); [discriminate|]. destruct (list_eqb (shape field) (grid_shape_of coords axes)) eqn:E; [|discriminate]. cbn [negb] in H.
  apply list_eqb_eq in E. cbn zeta in H. set (st' := stats_of sd (List.length axes) (grid_rows coords axes) (flat field)) in H.
  assert (NY : ~ (y_std st' == 0)%Q) by apply safe_nz. clearbody st'. injection H as <- <- <-. rename st' into st. destruct (get_some field idx Wf Hi) as (u & Hu). rewrite E in Hi.
  pose proof (grid_rows_nth coords axes idx Hi) as GR. pose proof (ravel_lt _ _ Hi) as RL. set (k := ravel (grid_shape_of coords axes) idx) in *.
  assert (NE : nth_error (grid_rows coords axes) k = Some (cell coords axes idx)) by (rewrite <- GR; apply nth_error_nth'; rewrite grid_rows_length; exact RL).
  assert (NU : nth_error (flat field) k = Some u) by (unfold get in Hu; rewrite E in Hu; exact Hu). rewrite E. fold k. exists u. unfold surrogate.
  destruct normalize.
  - exists (norm_row st (cell coords axes idx)), ((u - y_mean st) / y_std st)%Q. rewrite (map_nth_error _ _ _ NE), (map_nth_error _ _ _ NU). split; [exact Hu|]. split; [reflexivity|]. split; [reflexivity|]. field. exact NY.
  - exists (cell coords axes idx), u. split; [exact Hu|]. split; [exact NE|]. split; [exact NU|]. ring.
Qed.

(** ** Derivative arrays *)
Lemma derivative_get (o : options) m coords axes y js idx : inb (grid_shape_of coords axes) idx ->
  get (mkArr (grid_shape_of coords axes) (derivative sd M D o m (List.length axes) (grid_rows coords axes) y js)) idx =
  Some (sder D (o_normal M o) (stats_of sd (List.length axes) (grid_rows coords axes) y) m js (cell coords axes idx)).
Proof.
  intros Hi. unfold get, derivative. cbn [shape flat]. pose proof (grid_rows_nth coords axes idx Hi) as GR. pose proof (ravel_lt _ _ Hi) as RL.
  assert (NE : nth_error (grid_rows coords axes) (ravel (grid_shape_of coords axes) idx) = Some (cell coords axes idx)) by (rewrite <- GR; apply nth_error_nth'; rewrite grid_rows_length; exact RL).
  rewrite (map_nth_error _ _ _ NE). reflexivity.
Qed.
Lemma in_range coords axes idx : inb (grid_shape_of coords axes) idx -> List.length (cell coords axes idx) = List.length axes.
Proof. intros H. apply cell_length. rewrite (inb_length _ _ H). unfold grid_shape_of. apply map_length. Qed.
Lemma grad_holds (o : options) m coords axes y j : differentiable m -> j < List.length axes ->
  holds_derivative (mkArr (grid_shape_of coords axes) (derivative sd M D o m (List.length axes) (grid_rows coords axes) y [j]))
    (surrogate D (o_normal M o) (stats_of sd (List.length axes) (grid_rows coords axes) y) m) coords axes j.
Proof.
  intros Df Hj. split; [reflexivity|]. intros idx Hi. eexists. split; [apply derivative_get, Hi|].
  apply (sder_first sd D _ _ (List.length axes)); [exact Df|apply stats_dim|apply in_range, Hi|exact Hj|apply stats_nz, Hj].
Qed.
Lemma arr_holds (o : options) m coords axes y js :
  holds (mkArr (grid_shape_of coords axes) (derivative sd M D o m (List.length axes) (grid_rows coords axes) y js))
    (sder D (o_normal M o) (stats_of sd (List.length axes) (grid_rows coords axes) y) m js) coords axes.
Proof. split; [reflexivity|]. intros idx Hi. apply derivative_get, Hi. Qed.
Lemma sder_partial normal m coords axes y j js : differentiable m -> j < List.length axes ->
  partial_derivative (List.length axes) j (sder D normal (stats_of sd (List.length axes) (grid_rows coords axes) y) m js) (sder D normal (stats_of sd (List.length axes) (grid_rows coords axes) y) m (j :: js)).
Proof. intros Df Hj p Hp. apply (sder_next sd D _ _ (List.length axes)); [exact Df|apply stats_dim|exact Hp|exact Hj|apply stats_nz, Hj]. Qed.
Lemma surrogate_partial normal m coords axes y j : differentiable m -> j < List.length axes ->
  partial_derivative (List.length axes) j (surrogate D normal (stats_of sd (List.length axes) (grid_rows coords axes) y) m) (sder D normal (stats_of sd (List.length axes) (grid_rows coords axes) y) m [j]).
Proof. intros Df Hj p Hp. apply (sder_first sd D _ _ (List.length axes)); [exact Df|apply stats_dim|exact Hp|exact Hj|apply stats_nz, Hj]. Qed.

(** ** The context *)
(** the fields a network is used for *)
Definition net_fields (o : options) (cf : config) : list pystr := match o_fields M o with None => keys (c_fields cf) | Some l => l end.
(** the networks given by the user: autograd_models, with autograd_model for the target when there is no entry for it *)
Definition given (o : options) (cf : config) (f : pystr) : option M :=
  match dget (o_models M o) f with Some m => Some m | None => if streq f (c_target cf) then o_model M o else None end.
(** the checkpoint path of a field: autograd_model_paths, with model_path for the target when there is no entry for it *)
Definition path_for (o : options) (cf : config) (f : pystr) : option pystr :=
  match dget (o_paths M o) f with Some p => Some p | None => if streq f (c_target cf) then match o_path M o with [] => None | p => Some p end else None end.
Lemma given_models (o : options) (cf : config) f :
  dget (match o_model M o with Some m => if inl (c_target cf) (keys (o_models M o)) then o_models M o else dset (o_models M o) (c_target cf) m | None => o_models M o end) f = given o cf f.
Proof.
  unfold given. destruct (o_model M o) as [m|].
  - destruct (inl (c_target cf) (keys (o_models M o))) eqn:I.
    + apply inl_In in I. destruct (dget (o_models M o) f) eqn:E; [reflexivity|]. destruct (streq f (c_target cf)) eqn:T; [|reflexivity]. apply streq_eq in T. subst f. apply dget_key in I. destruct I as (v & I). congruence.
    + apply inl_nIn in I. rewrite dset_get. destruct (streq (c_target cf) f) eqn:T.
      * apply streq_eq in T. subst f. rewrite (proj2 (dget_none _ _) I). rewrite streq_refl. reflexivity.
      * destruct (dget (o_models M o) f); [reflexivity|]. destruct (streq f (c_target cf)) eqn:T'; [apply streq_eq in T'; subst f; rewrite streq_refl in T; discriminate|reflexivity].
  - destruct (dget (o_models M o) f); [reflexivity|]. destruct (streq f (c_target cf)); reflexivity.
Qed.
Lemma given_paths (o : options) (cf : config) f :
  dget (match o_path M o with [] => o_paths M o | p => if inl (c_target cf) (keys (o_paths M o)) then o_paths M o else dset (o_paths M o) (c_target cf) p end) f = path_for o cf f.
Proof.
  unfold path_for. destruct (o_path M o) as [|c p].
  - destruct (dget (o_paths M o) f); [reflexivity|]. destruct (streq f (c_target cf)); reflexivity.
  - destruct (inl (c_target cf) (keys (o_paths M o))) eqn:I.
    + apply inl_In in I. destruct (dget (o_paths M o) f) eqn:E; [reflexivity|]. destruct (streq f (c_target cf)) eqn:T; [|reflexivity]. apply streq_eq in T. subst f. apply dget_key in I. destruct I as (v & I). congruence.
    + apply inl_nIn in I. rewrite dset_get. destruct (streq (c_target cf) f) eqn:T.
      * apply streq_eq in T. subst f. rewrite (proj2 (dget_none _ _) I). rewrite streq_refl. reflexivity.
      * destruct (dget (o_paths M o) f); [reflexivity|]. destruct (streq f (c_target cf)) eqn:T'; [apply streq_eq in T'; subst f; rewrite streq_refl in T; discriminate|reflexivity].
Qed.
(** where the network of a field may come from: given; or the checkpoint file if there is one; or trained on the data at hand *)
Definition source (o : options) (cf : config) (coords : list (pystr * list Q)) (axes : list pystr) (f : pystr) (v : arr Q) (m : M) : Prop :=
  match given o cf f with
  | Some m' => m = m'
  | None => match (match path_for o cf f with Some [] => None | Some p => file p | None => None end) with
            | Some m' => m = m'
            | None => train_metanet o coords v axes = Ok m
            end
  end.
Lemma fresh_source o cf paths coords axes f v m : (forall g, dget paths g = path_for o cf g) -> given o cf f = None -> fresh sd file fitnet shuffle o paths coords axes f v m -> source o cf coords axes f v m.
Proof.
  intros Hp Hg. unfold fresh, source. rewrite Hg, Hp. destruct (path_for o cf f) as [[|c p]|]; auto.
Qed.
Lemma two_axes (axes : list pystr) a b : NoDup axes -> List.length axes = 2 -> In a axes -> In b axes -> a <> b -> forall c, In c axes -> c = a \/ c = b.
Proof.
  intros N L Ha Hb Nab c Hc. destruct axes as [|p [|q [|r l]]]; try discriminate. cbn in Ha, Hb, Hc.
  destruct Ha as [<-|[<-|[]]], Hb as [<-|[<-|[]]], Hc as [<-|[<-|[]]]; auto; congruence.
Qed.
(** everything the network branch has done *)
Lemma by_autograd_ok o L u dv g0 ms : by_autograd o L u = Ok (dv, g0, ms) ->
  let cf := l_cf L in let axes := l_axes L in let coords := c_coords cf in let fs := net_fields o cf in
  NoDup axes -> (forall a, In a axes -> ~ In underscore a) -> dget (c_fields cf) (c_target cf) = Some u -> In (l_primary L) axes -> l_primary L <> c_lhs cf ->
  In (c_lhs cf) axes /\ incl fs (keys (c_fields cf)) /\ In (c_target cf) fs /\
  (exists m, dget ms (c_target cf) = Some m /\ d_ut dv = grad_arr sd D o m coords axes u (index_of (c_lhs cf) axes) /\ d_ux dv = grad_arr sd D o m coords axes u (index_of (l_primary L) axes)) /\
  (forall f v, In f fs -> dget (c_fields cf) f = Some v -> exists m, dget ms f = Some m /\ check_model m (List.length axes) = Ok tt /\ source o cf coords axes f v m /\
     forall a, In a axes -> a <> c_lhs cf -> dget g0 (dkey f a) = Some (grad_arr sd D o m coords axes v (index_of a axes)) \/ g0 = [] /\ f = c_target cf /\ a = l_primary L) /\
  (forall k, In k (keys g0) -> exists f a, In f fs /\ In a axes /\ a <> c_lhs cf /\ k = dkey f a) /\ NoDup (keys g0).
Proof.
  unfold SgaAuto.by_autograd. set (cf := l_cf L). set (axes := l_axes L). intros H. cbn zeta. intros Na Us U Pi Pl. unfold net_fields in *. set (fs := match o_fields M o with None => keys (c_fields cf) | Some l => l end) in *. cbn zeta in H.
  destruct (existsb (fun f => negb (inl f (keys (c_fields cf)))) fs) eqn:Ex; [discriminate|]. destruct (inl (c_target cf) fs) eqn:It; [|discriminate]. cbn [negb] in H. apply inl_In in It.
  assert (Inc : incl fs (keys (c_fields cf))).
  { intros f Hf. apply inl_In. destruct (inl f (keys (c_fields cf))) eqn:I; [reflexivity|]. exfalso. assert (X : existsb (fun f => negb (inl f (keys (c_fields cf)))) fs = true) by (apply existsb_exists; exists f; split; [exact Hf|rewrite I; reflexivity]). congruence. }
  pose proof (given_models o cf) as GM. pose proof (given_paths o cf) as GP.
  set (models := match o_model M o with Some m => if inl (c_target cf) (keys (o_models M o)) then o_models M o else dset (o_models M o) (c_target cf) m | None => o_models M o end) in *.
  set (paths := match o_path M o with [] => o_paths M o | _ => _ end) in H, GP. clearbody models paths.
  destruct (Nat.eqb (List.length axes) 2 && inl x_name axes && inl t_name axes && streq (c_lhs cf) t_name && Nat.eqb (List.length fs) 1) eqn:Leg.
  - apply andb_prop in Leg. destruct Leg as [Leg L5]. apply andb_prop in Leg. destruct Leg as [Leg L4]. apply andb_prop in Leg. destruct Leg as [Leg L3]. apply andb_prop in Leg. destruct Leg as [L1 L2].
    apply Nat.eqb_eq in L1, L5. apply inl_In in L2, L3. apply streq_eq in L4.
    destruct (resolve sd M file fitnet shuffle o paths (c_coords cf) axes models (c_target cf) u) as [[m models']|] eqn:R; [|discriminate]. cbn [bind fst snd] in H.
    destruct (check_model m (List.length axes)) as [[]|] eqn:C; [|discriminate]. cbn [bind] in H. injection H as <- <- <-.
    apply resolve_ok in R. destruct R as (R1 & R2 & R3 & R4). cbn [d_ut d_ux]. rewrite L4 in *.
    assert (Px : l_primary L = x_name) by (destruct (two_axes axes x_name t_name Na L1 L2 L3 ltac:(discriminate) _ Pi); [assumption|contradiction]). rewrite Px.
    split; [exact L3|]. split; [exact Inc|]. split; [exact It|]. split; [exists m; auto|]. split.
    + intros f v Hf Hv. assert (f = c_target cf). { destruct fs as [|g [|]]; try discriminate. destruct Hf as [<-|[]], It as [<-|[]]. reflexivity. } subst f. assert (v = u) by congruence. subst v. exists m. split; [exact R1|]. split; [exact C|]. split.
      * destruct (given o cf (c_target cf)) as [m'|] eqn:G; [unfold source; rewrite G; rewrite GM in R3; destruct (R3 _ G); assumption|]. eapply fresh_source; [exact GP|exact G|]. apply R4. rewrite GM. exact G.
      * intros a Ha Nl. right. split; [reflexivity|]. split; [reflexivity|]. destruct (two_axes axes x_name t_name Na L1 L2 L3 ltac:(discriminate) _ Ha); [assumption|contradiction].
    + split; [intros k []|constructor].
  - clear Leg. destruct (nd_loop sd M D in_dim runs one_output file fitnet shuffle o paths cf axes fs models [] None) as [[[ms' gr] tg]|] eqn:N; [|discriminate]. cbn [bind fst snd] in H.
    destruct tg as [gs|]; [|discriminate]. pose proof (nd_loop_ok sd D in_dim runs one_output file fitnet shuffle o paths cf axes models Na Us fs [] models [] None ms' gr (Some gs) (inv_start _ _ _ _ _ _ _ _ _ _ _ _ _) N) as [I1 I2 I3 I4 I5 I6]. cbn [app] in *.
    destruct (I4 gs eq_refl) as (v0 & m & Hv0 & Hm & ->). assert (v0 = u) by congruence. subst v0.
    destruct (dget (axis_grads sd M D o m (c_coords cf) axes u) (c_lhs cf)) as [ut|] eqn:E1; [|discriminate]. destruct (dget _ (l_primary L)) as [ux|] eqn:E2; [|discriminate].
    destruct (fd ux _ _) as [uxx|] eqn:F1; [|discriminate]. cbn [bind] in H. destruct (fd uxx _ _) as [uxxx|] eqn:F2; [|discriminate]. cbn [bind] in H. injection H as <- <- <-. cbn [d_ut d_ux].
    assert (Lh : In (c_lhs cf) axes) by (rewrite <- (axis_grads_keys sd D o m (c_coords cf) axes u); apply dget_key; eauto).
    rewrite axis_grads_get in E1, E2 by assumption. injection E1 as <-. injection E2 as <-.
    split; [exact Lh|]. split; [exact Inc|]. split; [exact It|]. split; [exists m; auto|]. split; [|split; [exact I2|exact I3]].
    intros f v Hf Hv. destruct (I1 f v Hf Hv) as (m' & J1 & J2 & J3). exists m'. split; [exact J1|]. split; [exact J2|]. split; [|intros a Ha Nl; left; apply J3; assumption].
    destruct (I5 f m' J1) as [X|(X & w & X1 & X2)].
    + rewrite GM in X. unfold source. rewrite X. reflexivity.
    + rewrite GM in X. assert (w = v) by congruence. subst w. eapply fresh_source; eassumption.
Qed.

Lemma grid_shape_same (c : config) axes : grid_shape c axes = grid_shape_of (c_coords c) axes.
Proof. unfold grid_shape, grid_shape_of, coord_of. apply map_ext. intros a. destruct (dget (c_coords c) a); reflexivity. Qed.
Lemma built o cf k : build_context o cf = Ok k -> NoDup (keys (c_fields (l_cf (k_loaded M k)))) ->
  let L := k_loaded M k in let cur := l_cf L in let axes := l_axes L in
  NoDup axes /\ (forall a, In a axes -> ~ In underscore a) /\ (forall a, In a axes <-> In a (keys (c_coords cur))) /\ In (l_primary L) axes /\ l_primary L <> c_lhs cur /\ validate_names cur axes = Ok tt /\
  (forall f v, In (f, v) (c_fields cur) -> shape v = grid_shape_of (c_coords cur) axes).
Proof.
  intros H _. destruct (build_ok sd D in_dim runs one_output file fitnet shuffle fd o cf k H) as (u & dv & g0 & grad & EL & _). cbn zeta.
  destruct (load_ok sd D file o cf _ EL) as (_ & R & _ & P & _). apply registry_ok in R. destruct R as (V & G & _). apply primary_ok in P. destruct P as [P1 P2].
  apply grid_ok in G. destruct G as (G1 & G2 & G3 & _). destruct (names_ok _ _ V) as (AA & _).
  split; [exact G1|]. split; [intros b Hb; apply (proj1 (Forall_forall _ _) AA) in Hb; apply validate_axis_ok in Hb; tauto|]. split; [exact G2|]. split; [exact P1|]. split; [exact P2|]. split; [exact V|]. intros f v Hf. rewrite <- grid_shape_same. eapply G3, Hf.
Qed.

(** The left-hand side of the search is the derivative, along the left-hand axis, of the function the
    target's network stands for; and for every field in autograd_fields and every other axis the terminal
    field_axis is the derivative of that field's function.  Both hold in the two-dimensional x/t
    path and in the general path, in any axis order, after metadata and edge deletion.  Means and
    deviations are those of the grid and field the search works on. *)
Theorem C137_autograd o cf k : build_context o cf = Ok k -> o_autograd M o = true ->
  let cur := l_cf (k_loaded M k) in let axes := t_axes (k_tables M k) in let coords := c_coords cur in
  NoDup (keys (c_fields cur)) -> (forall f m, dget (k_models M k) f = Some m -> differentiable m) ->
  forall f v, In f (net_fields o cur) -> dget (c_fields cur) f = Some v ->
  exists m, dget (k_models M k) f = Some m /\ source o cur coords axes f v m /\
    let fn := surrogate D (o_normal M o) (stats_of sd (List.length axes) (grid_rows coords axes) (flat v)) m in
    (f = c_target cur -> holds_derivative (t_ut (k_tables M k)) fn coords axes (index_of (c_lhs cur) axes)) /\
    (forall a, In a axes -> a <> c_lhs cur -> exists w, In (dkey f a, w) (t_vars (k_tables M k)) /\ holds_derivative w fn coords axes (index_of a axes)).
Proof.
  intros H Ha. cbn zeta. intros Nf Df f v Hf Hv. destruct (built o cf k H Nf) as (N & Us & I & Pi & Pl & V & _).
  destruct (build_ok sd D in_dim runs one_output file fitnet shuffle fd o cf k H) as (u & dv & g0 & grad & EL & U & BA & G & _ & Ax & _ & _ & _ & Ut & Ev & _). rewrite Ha in BA.
  destruct (by_autograd_ok o _ u dv g0 _ BA N Us U Pi Pl) as (Lh & Inc & It & (mt & T1 & T2 & T3) & S4 & S5 & S6).
  destruct (S4 f v Hf Hv) as (m & M1 & M2 & M3 & M4). rewrite Ax. exists m. split; [exact M1|]. split; [exact M3|]. pose proof (Df _ _ M1) as Dm. split.
  - intros ->. assert (m = mt) by congruence. subst mt. assert (v = u) by congruence. subst v. rewrite Ut, T2. apply grad_holds; [exact Dm|]. apply index_of_nth, Lh.
  - intros a Hax Nl. exists (grad_arr sd D o m (c_coords (l_cf (k_loaded M k))) (l_axes (k_loaded M k)) v (index_of a (l_axes (k_loaded M k)))). split; [|apply grad_holds; [exact Dm|apply index_of_nth, Hax]].
    rewrite Ev. unfold build_vars. rewrite !in_app_iff. do 4 right.
    destruct (grad_loop_gen fd _ _ _ _ _ _ g0 grad S6 G) as (NG & GI & GS & GC).
    destruct (M4 a Hax Nl) as [X|(-> & -> & ->)]; [apply GI, dget_In, X|].
    assert (X : In (dkey (c_target (l_cf (k_loaded M k))) (l_primary (k_loaded M k))) (keys grad)) by (apply (GC _ u _); [apply in_prod; [apply dget_In, U|exact Hax]|exact Nl]).
    apply in_map_iff in X. destruct X as ([key w] & E & X). cbn in E. subst key. destruct (GS _ _ X) as [[]|(_ & g & w' & a' & Y1 & Y2 & Y3 & Y4)]. apply in_prod_iff in Y1. destruct Y1 as [Y1 Y1'].
    destruct (dkey_inj _ _ _ _ (Us _ Hax) (Us _ Y1') Y3) as [<- <-]. rewrite !streq_refl in Y4. cbn [andb] in Y4. injection Y4 as <-. assert (m = mt) by congruence. subst mt. assert (v = u) by congruence. subst v. rewrite T3 in X. exact X.
Qed.
(** A field that is not in autograd_fields gets finite differences. *)
Theorem C137_other_fields o cf k : build_context o cf = Ok k ->
  let cur := l_cf (k_loaded M k) in let axes := t_axes (k_tables M k) in
  NoDup (keys (c_fields cur)) -> forall f v a d, In (f, v) (c_fields cur) -> In a axes -> a <> c_lhs cur -> dget (t_delta (k_tables M k)) a = Some d ->
  (o_autograd M o = true -> ~ In f (net_fields o cur)) -> (o_autograd M o = false) \/ f <> c_target cur ->
  exists w, fd v d (index_of a axes) = Ok w /\ In (dkey f a, w) (t_vars (k_tables M k)).
Proof.
  intros H. cbn zeta. intros Nf f v a d Hf Hax Nl Hd Hno Hcase. destruct (built o cf k H Nf) as (N & Us & I & Pi & Pl & V & _).
  destruct (build_ok sd D in_dim runs one_output file fitnet shuffle fd o cf k H) as (u & dv & g0 & grad & EL & U & BA & G & _ & Ax & Dl & _ & _ & Ut & Ev & _). rewrite Ax in *. rewrite Dl in Hd.
  assert (K : NoDup (keys g0) /\ ~ In (dkey f a) (keys g0) /\ (o_autograd M o = false -> exists d0, d0 = (match dget (l_delta (k_loaded M k)) (l_primary (k_loaded M k)) with Some d => d | None => 0%Q end) /\ fd u d0 (index_of (l_primary (k_loaded M k)) (l_axes (k_loaded M k))) = Ok (d_ux dv))).
  { destruct (o_autograd M o).
    - destruct (by_autograd_ok o _ u dv g0 _ BA N Us U Pi Pl) as (_ & _ & It & _ & _ & S5 & S6). split; [exact S6|]. split; [|discriminate]. intros X. destruct (S5 _ X) as (g & b & Y1 & Y2 & _ & Y3).
      destruct (dkey_inj _ _ _ _ (Us _ Hax) (Us _ Y2) Y3) as [<- <-]. exact (Hno eq_refl Y1).
    - destruct (by_difference fd (k_loaded M k) u) as [dv'|] eqn:BD; [|discriminate]. cbn [bind] in BA. injection BA as <- <- _. split; [constructor|]. split; [intros []|]. intros _. eexists. split; [reflexivity|].
      revert BD. unfold by_difference. destruct (negb _); [discriminate|]. destruct (negb _); [discriminate|]. unfold dl. destruct (fd u _ (index_of (c_lhs _) _)); [|discriminate]. cbn [bind].
      destruct (fd u _ (index_of (l_primary _) _)) as [ux|]; [|discriminate]. cbn [bind]. destruct (fd ux _ _) as [uxx|]; [|discriminate]. cbn [bind]. destruct (fd uxx _ _) as [uxxx|]; [|discriminate]. cbn [bind].
      destruct (fd _ _ _); [|discriminate]. cbn [bind]. destruct (fd _ _ _); [|discriminate]. cbn [bind]. destruct (fd _ _ _); [|discriminate]. cbn [bind]. destruct (fd _ _ _); [|discriminate]. cbn [bind]. intros [= <-]. reflexivity. }
  destruct K as (K1 & K2 & K3). destruct (grad_loop_gen fd _ _ _ _ _ _ g0 grad K1 G) as (NG & GI & GS & GC).
  assert (X : In (dkey f a) (keys grad)) by (apply (GC _ v _); [apply in_prod; [exact Hf|exact Hax]|exact Nl]). apply in_map_iff in X. destruct X as ([key w] & E & X). cbn in E. subst key.
  destruct (GS _ _ X) as [Y|(_ & g & w' & a' & Y1 & Y2 & Y3 & Y4)]; [exfalso; apply K2, in_map_iff; exists (dkey f a, w); auto|]. apply in_prod_iff in Y1. destruct Y1 as [Y1 Y1'].
  destruct (dkey_inj _ _ _ _ (Us _ Hax) (Us _ Y1') Y3) as [<- <-]. assert (w' = v) by (pose proof (dget_some _ _ _ Nf Hf); pose proof (dget_some _ _ _ Nf Y1); congruence). subst w'.
  exists w. split; [|rewrite Ev; unfold build_vars; rewrite !in_app_iff; auto 6]. rewrite Hd in Y4.
  destruct (streq f (c_target (l_cf (k_loaded M k))) && streq a (l_primary (k_loaded M k))) eqn:B; [|exact Y4]. injection Y4 as <-.
  apply andb_prop in B. destruct B as [B1 B2]. apply streq_eq in B1, B2. subst f a. destruct Hcase as [Hc|Hc]; [|congruence]. destruct (K3 Hc) as (d0 & E0 & F0). rewrite Hd in E0. subst d0. assert (v = u) by (pose proof (dget_some _ _ _ Nf Hf); congruence). subst v. exact F0.
Qed.
(** In the x/t path ux, uxx and uxxx are the first, second and third derivative of one function. *)
Theorem C137_high_order o cf k : build_context o cf = Ok k -> o_autograd M o = true ->
  let cur := l_cf (k_loaded M k) in let axes := l_axes (k_loaded M k) in let coords := c_coords cur in let ix := index_of x_name axes in
  NoDup (keys (c_fields cur)) -> List.length axes = 2 -> In x_name axes -> In t_name axes -> c_lhs cur = t_name -> net_fields o cur = [c_target cur] ->
  (forall f m, dget (k_models M k) f = Some m -> differentiable m) ->
  exists u m U1 U2 U3, dget (c_fields cur) (c_target cur) = Some u /\ dget (k_models M k) (c_target cur) = Some m /\
    let fn := surrogate D (o_normal M o) (stats_of sd 2 (grid_rows coords axes) (flat u)) m in
    partial_derivative 2 ix fn U1 /\ partial_derivative 2 ix U1 U2 /\ partial_derivative 2 ix U2 U3 /\
    holds (d_ux (k_derivs M k)) U1 coords axes /\ holds (d_uxx (k_derivs M k)) U2 coords axes /\ holds (d_uxxx (k_derivs M k)) U3 coords axes.
Proof.
  intros H Ha. cbn zeta. intros Nf L2 Lx Lt Ll Nn Df. destruct (built o cf k H Nf) as (N & Us & I & Pi & Pl & V & _).
  destruct (build_ok sd D in_dim runs one_output file fitnet shuffle fd o cf k H) as (u & dv & g0 & grad & EL & U & BA & G & Ek & Ax & Dl & _ & _ & Ut & Ev & _). rewrite Ha in BA. rewrite Ek.
  revert BA. unfold SgaAuto.by_autograd. unfold net_fields in Nn. rewrite Nn. cbn zeta. destruct (existsb _ [_]); [discriminate|]. destruct (negb _); [discriminate|].
  rewrite L2, (proj2 (inl_In _ _) Lx), (proj2 (inl_In _ _) Lt), Ll. change (streq t_name t_name) with true. cbn [Nat.eqb List.length andb].
  match goal with |- bind ?r _ = _ -> _ => destruct r as [[m models']|] eqn:R; [|discriminate] end. cbn [bind fst snd].
  match goal with |- bind ?r _ = _ -> _ => destruct r as [[]|] eqn:C; [|discriminate] end. cbn [bind]. intros HH. injection HH as Ed _ Em.
  apply resolve_ok in R. destruct R as (R1 & _). rewrite Em in R1. pose proof (Df _ _ R1) as Dm. rewrite <- Ed. cbn [d_ux d_uxx d_uxxx].
  set (axes := l_axes (k_loaded M k)) in *. set (coords := c_coords (l_cf (k_loaded M k))) in *. set (ix := index_of x_name axes).
  assert (Hx : ix < List.length axes) by apply index_of_nth, Lx.
  exists u, m, (sder D (o_normal M o) (stats_of sd (List.length axes) (grid_rows coords axes) (flat u)) m [ix]), (sder D (o_normal M o) (stats_of sd (List.length axes) (grid_rows coords axes) (flat u)) m [ix; ix]), (sder D (o_normal M o) (stats_of sd (List.length axes) (grid_rows coords axes) (flat u)) m [ix; ix; ix]).
  split; [exact U|]. split; [exact R1|]. rewrite <- L2. split; [apply surrogate_partial; assumption|]. split; [apply sder_partial; assumption|]. split; [apply sder_partial; assumption|].
  split; [apply arr_holds|]. split; apply arr_holds.
Qed.
(** An accepted configuration names existing fields and the target among them, its left-hand axis is an
    axis, and every network used takes as many inputs as there are axes and returns one column. *)
Theorem C137_accepted o cf k : build_context o cf = Ok k -> o_autograd M o = true ->
  let cur := l_cf (k_loaded M k) in let axes := t_axes (k_tables M k) in NoDup (keys (c_fields cur)) ->
  In (c_lhs cur) axes /\ In (c_target cur) (net_fields o cur) /\ incl (net_fields o cur) (keys (c_fields cur)) /\
  forall f, In f (net_fields o cur) -> exists m, dget (k_models M k) f = Some m /\ one_output m = true /\
    (in_dim m = Some (List.length axes) \/ in_dim m = None /\ runs m (List.length axes) = true).
Proof.
  intros H Ha. cbn zeta. intros Nf. destruct (built o cf k H Nf) as (N & Us & I & Pi & Pl & V & _).
  destruct (build_ok sd D in_dim runs one_output file fitnet shuffle fd o cf k H) as (u & dv & g0 & grad & EL & U & BA & G & _ & Ax & _). rewrite Ha in BA. rewrite Ax.
  destruct (by_autograd_ok o _ u dv g0 _ BA N Us U Pi Pl) as (Lh & Inc & It & _ & S4 & _). split; [exact Lh|]. split; [exact It|]. split; [exact Inc|].
  intros f Hf. pose proof (Inc f Hf) as X. apply dget_key in X. destruct X as (v & X). destruct (S4 f v Hf X) as (m & M1 & M2 & _). exists m. split; [exact M1|]. revert M2. unfold SgaAuto.check_model.
  destruct (in_dim m) as [n|].
  - destruct (Nat.eqb n _) eqn:E; [|discriminate]. apply Nat.eqb_eq in E. subst n. destruct (one_output m); [auto|discriminate].
  - destruct (runs m _); [|discriminate]. destruct (one_output m); [auto|discriminate].
Qed.
(** the target survives loading *)
Lemma dget_map {B C} (g : B -> C) (l : list (pystr * B)) key : dget (map (fun f => (fst f, g (snd f))) l) key = option_map g (dget l key).
Proof. induction l as [|[x v] l IH]; cbn [map dget fst snd]; [reflexivity|]. destruct (streq x key); [reflexivity|exact IH]. Qed.
Lemma load_target o cf L : load_data o cf = Ok L -> exists u, dget (c_fields (l_cf L)) (c_target (l_cf L)) = Some u.
Proof.
  unfold SgaAuto.load_data. set (axes := match c_axis_order cf with [] => keys (c_coords cf) | l => l end).
  clearbody axes. intros H0. assert (NE : axes <> []) by (intros ->; discriminate H0). rewrite nonempty_match in H0 by exact NE. revert H0.
  destruct (registry cf axes) as [dl0|] eqn:R; [|discriminate]. cbn [bind]. destruct (dget (c_fields cf) (c_target cf)) as [u|] eqn:U; [|discriminate].
  destruct (resolve_primary cf axes) as [pr|] eqn:P; [|discriminate]. cbn [bind].
  match goal with |- bind ?X _ = _ -> _ => set (MD := X) end.
  assert (HM : forall L1, MD = Ok L1 -> exists u, dget (c_fields (l_cf L1)) (c_target (l_cf L1)) = Some u).
  { intros L1. unfold MD. destruct (o_metadata M o).
    - destruct axes as [|a [|b [|c axes']]]; try discriminate. destruct (streq a x_name && streq b t_name); [|discriminate]. destruct (Nat.eqb _ 1); [|discriminate].
      destruct (metadata _ _ _ _ _ _ _ _) as [md|]; [|discriminate]. cbn [bind]. cbn zeta. destruct (registry (with_data _ _ _) [a; b]) as [dl'|] eqn:R'; [|discriminate]. cbn [bind]. intros HL. injection HL as <-. cbn [l_cf with_data c_fields c_target].
      eexists. cbn [dget]. rewrite streq_refl. reflexivity.
    - intros [= <-]. eauto. }
  clearbody MD. destruct MD as [L1|]; [|discriminate]. cbn [bind]. destruct (HM L1 eq_refl) as (u1 & U1).
  destruct (o_edges M o).
  - destruct (negb (Nat.eqb _ 2)); [discriminate|]. destruct (negb (inl x_name axes)); [discriminate|].
    cbn zeta. match goal with |- context [registry ?C axes] => set (cf' := C) end. destruct (registry cf' axes) as [dl'|] eqn:R'; [|discriminate]. cbn [bind].
    destruct (resolve_primary cf' axes) as [p'|] eqn:P'; [|discriminate]. cbn [bind]. intros HL. injection HL as <-. cbn [l_cf]. unfold cf', with_data. cbn [c_fields c_target]. rewrite dget_map, U1. cbn. eauto.
  - intros [= <-]. eauto.
Qed.
(** Names of fields that do not exist, and a list without the target, are refused. *)
Theorem C137_refused o cf L : load_data o cf = Ok L -> o_autograd M o = true ->
  (exists f, In f (net_fields o (l_cf L)) /\ ~ In f (keys (c_fields (l_cf L)))) \/ ~ In (c_target (l_cf L)) (net_fields o (l_cf L)) ->
  build_context o cf = Err ValueError.
Proof.
  intros EL Ha Bad. unfold SgaAuto.build_context. rewrite EL. cbn [bind]. destruct (load_target o cf L EL) as (u & U). rewrite U.
  destruct (coord_entries _ _ _ _); [reflexivity|]. rewrite Ha. unfold SgaAuto.by_autograd. unfold net_fields in Bad. cbn zeta.
  destruct (existsb _ _) eqn:E; [reflexivity|]. destruct Bad as [(f & F1 & F2)|T].
  - exfalso. enough (X : existsb (fun f => negb (inl f (keys (c_fields (l_cf L))))) (match o_fields M o with None => keys (c_fields (l_cf L)) | Some l => l end) = true) by congruence.
    apply existsb_exists. exists f. split; [exact F1|]. apply negb_true_iff, inl_nIn, F2.
  - apply inl_nIn in T. rewrite T. reflexivity.
Qed.
(** Without parameter fields all terminals have different names, and none is a derivative along the left-hand axis. *)
Theorem C137_names o cf k : build_context o cf = Ok k ->
  let cur := l_cf (k_loaded M k) in NoDup (keys (c_fields cur)) -> c_params cur = [] ->
  NoDup (keys (t_vars (k_tables M k))) /\ ~ In (c_lhs cur) (keys (t_vars (k_tables M k))).
Proof.
  intros H. cbn zeta. intros Nf Hp. destruct (built o cf k H Nf) as (N & Us & I & Pi & Pl & V & _).
  destruct (build_ok sd D in_dim runs one_output file fitnet shuffle fd o cf k H) as (u & dv & g0 & grad & EL & U & BA & G & _ & Ax & _ & _ & _ & Ut & Ev & _ & NL & _). split; [|exact NL].
  destruct (names_ok _ _ V) as (AA & AC & AF & D1 & D2 & _).
  assert (K : NoDup (keys g0) /\ forall key, In key (keys g0) -> exists f a, In f (keys (c_fields (l_cf (k_loaded M k)))) /\ In a (l_axes (k_loaded M k)) /\ a <> c_lhs (l_cf (k_loaded M k)) /\ key = dkey f a).
  { destruct (o_autograd M o).
    - destruct (by_autograd_ok o _ u dv g0 _ BA N Us U Pi Pl) as (_ & Inc & _ & _ & _ & S5 & S6). split; [exact S6|]. intros key Hk. destruct (S5 _ Hk) as (f & a & X1 & X2). exists f, a. split; [apply Inc, X1|exact X2].
    - destruct (by_difference fd (k_loaded M k) u) as [dv'|]; [|discriminate]. cbn [bind] in BA. injection BA as _ <- _. split; [constructor|intros ? []]. }
  destruct K as (K1 & K2). destruct (grad_loop_gen fd _ _ _ _ _ _ g0 grad K1 G) as (NG & GI & GS & GC).
  assert (GK : forall key, In key (keys grad) -> exists f a, In f (keys (c_fields (l_cf (k_loaded M k)))) /\ In a (l_axes (k_loaded M k)) /\ a <> c_lhs (l_cf (k_loaded M k)) /\ key = dkey f a).
  { intros key Hk. apply in_map_iff in Hk. destruct Hk as ([k' v] & E & Hk). cbn in E. subst k'. destruct (GS _ _ Hk) as [X|(_ & f & w & a & Y1 & Y2 & Y3 & _)]; [apply K2, in_map_iff; exists (key, v); auto|]. apply in_prod_iff in Y1. exists f, a. split; [apply in_map_iff; exists (f, w); tauto|tauto]. }
  assert (EK : keys (t_vars (k_tables M k)) = keys (c_fields (l_cf (k_loaded M k))) ++ filter (fun a => negb (streq a (c_lhs (l_cf (k_loaded M k))))) (l_axes (k_loaded M k)) ++ zero_name :: keys grad).
  { rewrite Ev. unfold build_vars. rewrite Hp. unfold keys. rewrite !map_app. cbn [map app]. fold (keys (coord_entries coord_grid (l_cf (k_loaded M k)) (l_axes (k_loaded M k)) (grid_shape_of (c_coords (l_cf (k_loaded M k))) (l_axes (k_loaded M k))))). rewrite coord_entries_keys. reflexivity. }
  rewrite EK. assert (NDapp : forall l1 l2 : list pystr, NoDup l1 -> NoDup l2 -> (forall x, In x l1 -> ~ In x l2) -> NoDup (l1 ++ l2)).
  { clear. induction l1 as [|x l1 IH]; intros l2 N1 N2 D'; cbn; [exact N2|]. inversion N1; subst. constructor; [rewrite in_app_iff; intros [X|X]; [contradiction|]; apply (D' x); [left; reflexivity|exact X]|]. apply IH; auto. intros y Hy. apply D'. right. exact Hy. }
  apply NDapp; [exact Nf| |].
  - apply NDapp; [apply NoDup_filter, N| |].
    + constructor; [|exact NG]. intros X. destruct (GK _ X) as (f & a & _ & _ & _ & E). pose proof (dkey_us f a) as Y. rewrite <- E in Y. cbn in Y. destruct Y as [Y|[]]; discriminate.
    + intros a Hx [<-|X].
      * apply filter_In in Hx. destruct Hx as [Hx _]. apply (proj1 (Forall_forall _ _) AA) in Hx. discriminate.
      * apply filter_In in Hx. destruct Hx as [Hx _]. destruct (GK _ X) as (f & b & _ & _ & _ & ->). apply (Us _ Hx). apply dkey_us.
  - intros f Hff. rewrite in_app_iff. intros [X|[<-|X]].
    + apply filter_In in X. destruct X as [X _]. apply I in X. exact (D1 f Hff X).
    + apply (proj1 (Forall_forall _ _) AF) in Hff. discriminate.
    + destruct (GK _ X) as (g & b & Hg & Hb & _ & E). exact (D2 f g b Hff Hg Hb E).
Qed.
(** The terminal "0" is zero at every cell. *)
Theorem C137_zero_terminal o cf k : build_context o cf = Ok k -> exists z, In (lit "0"%string, z) (t_vars (k_tables M k)) /\
  shape z = t_shape (k_tables M k) /\ forall idx, inb (t_shape (k_tables M k)) idx -> get z idx = Some 0%Q.
Proof.
  intros H. destruct (build_ok sd D in_dim runs one_output file fitnet shuffle fd o cf k H) as (u & dv & g0 & grad & _ & _ & _ & _ & _ & _ & _ & Es & _ & _ & Ev & _).
  exists (zeros (t_shape (k_tables M k))). split; [|split].
  - rewrite Ev, Es. unfold build_vars. apply in_app_iff. right. apply in_app_iff. right. apply in_app_iff. right. now left.
  - reflexivity.
  - intros idx I. unfold zeros. rewrite tabulate_get by exact I. reflexivity.
Qed.
(** With the three options off the context is the one of C57: the same axes, spacings, left-hand side, terminals and denominators. *)
Theorem C137_options_off o cf k : build_context o cf = Ok k -> o_autograd M o = false -> o_metadata M o = false -> o_edges M o = false ->
  make_context shape fd coord_grid zeros cf = Ok (k_tables M k) /\ k_models M k = o_models M o /\ k_fields M k = c_fields cf /\ k_coords M k = c_coords cf.
Proof.
  intros H Ha Hm He. pose proof H as H'. destruct (build_ok sd D in_dim runs one_output file fitnet shuffle fd o cf k H) as (u & dv & g0 & grad & EL & U & BA & G & _ & _ & _ & _ & _ & _ & _ & _ & _ & _ & Kf & Kc). rewrite Ha in BA. rewrite He in Kf, Kc.
  destruct (by_difference fd (k_loaded M k) u) as [dv'|] eqn:BD; [|discriminate]. cbn [bind] in BA. injection BA as E1 E2 E3. split; [|auto]. subst dv' g0.
  destruct (load_ok sd D file o cf _ EL) as (Ea & R & _ & P & _ & _ & _ & Ecf). specialize (Ecf Hm He). rewrite Ecf in *. apply registry_ok in R. destruct R as (V & Gr & Dl).
  revert H'. unfold SgaAuto.build_context. rewrite EL. cbn [bind]. rewrite Ecf, U. unfold make_context. rewrite <- Ea. intros H'.
  assert (NE : l_axes (k_loaded M k) <> []) by (apply primary_ok in P; destruct P as [P _]; intros E; rewrite E in P; exact P). rewrite nonempty_match by exact NE.
  rewrite V. cbn [bind]. rewrite Gr. cbn [bind]. unfold coord_of in Dl. rewrite Dl. cbn [bind]. rewrite U, P. cbn [bind]. rewrite (grid_shape_same cf).
  destruct (coord_entries coord_grid cf _ _) as [|c0 cl] eqn:Ce; [discriminate|]. rewrite <- Ce in *. rewrite Ha in H'. rewrite BD in H'. cbn [bind fst snd] in H'.
  revert BD. unfold by_difference. rewrite Ecf. destruct (inl (c_lhs cf) (l_axes (k_loaded M k))); [|discriminate]. cbn [negb]. destruct (negb (inl (l_primary _) _)); [discriminate|]. unfold dl.
  destruct (fd u _ (index_of (c_lhs cf) _)) as [ut|]; [|discriminate]. cbn [bind]. destruct (fd u _ (index_of (l_primary _) _)) as [ux|]; [|discriminate]. cbn [bind].
  destruct (fd ux _ _) as [uxx|]; [|discriminate]. cbn [bind]. destruct (fd uxx _ _) as [uxxx|]; [|discriminate]. cbn [bind].
  destruct (fd _ _ _); [|discriminate]. cbn [bind]. destruct (fd _ _ _); [|discriminate]. cbn [bind]. destruct (fd _ _ _); [|discriminate]. cbn [bind]. destruct (fd _ _ _); [|discriminate]. cbn [bind]. intros [= <-]. cbn [d_ux d_ut] in *.
  destruct (grad_loop fd cf _ _ _ ux _ []) as [gr|]; [|discriminate]. cbn [bind] in *. destruct (mapM _ (c_fields cf)); [|discriminate]. cbn [bind] in *. destruct (existsb _ _); [discriminate|].
  destruct (inl (c_lhs cf) _); [discriminate|]. injection H' as H'. rewrite <- H'. reflexivity.
Qed.
End P.

(** ** A concrete run *)
(** the deviation, exact when the variance is the square of a rational *)
Definition sdQ (l : list Q) : Q := let q := Qred (varQ l) in (Z.sqrt (Qnum q) # Pos.sqrt (Qden q))%Q.
(** a network that returns its second input *)
Definition netD (m : unit) (js : list nat) (p : list Q) : Q :=
  match js with [] => nth 1 p 0%Q | [j] => if Nat.eqb j 1 then 1%Q else 0%Q | _ => 0%Q end.
Lemma netD_differentiable : differentiable netD tt.
Proof.
  intros js p j Hj eps He. exists 1%Q. split; [reflexivity|]. intros y Ny _. assert (N0 : ~ (y - nth j p 0 == 0)%Q) by (intros E; apply Ny; lra). pose proof (upd_same p j Hj) as US.
  destruct js as [|i [|i' js]]; cbn [netD].
  - rewrite US. destruct (Nat.eqb_spec j 1) as [->|N1].
    + rewrite nth_upd by exact Hj. setoid_replace ((y - nth 1 p 0) / (y - nth 1 p 0) - 1)%Q with 0%Q by (field; exact N0). exact He.
    + destruct (nth_upd_other p j 1 y ltac:(congruence)) as [E|E]; [|lia]. rewrite E. setoid_replace ((nth 1 p 0 - nth 1 p 0) / (y - nth j p 0) - 0)%Q with 0%Q by (field; exact N0). exact He.
  - setoid_replace (((if Nat.eqb i 1 then 1 else 0) - (if Nat.eqb i 1 then 1 else 0)) / (y - nth j p 0) - 0)%Q with 0%Q by (field; exact N0). exact He.
  - setoid_replace ((0 - 0) / (y - nth j p 0) - 0)%Q with 0%Q by (field; exact N0). exact He.
Qed.
(** five points x, two times; u = t in the first four rows *)
Definition u_name := lit "u"%string.
Definition demo_x : list Q := [-7; -1; 1; 7; 10]%Q.
Definition demo_cf : config (A := arr Q) :=
  mkConfig [(u_name, mkArr [5; 2] [0; 1; 0; 1; 0; 1; 0; 1; 0; 3]%Q)] [(x_name, demo_x); (t_name, [0; 1]%Q)] [x_name; t_name] u_name t_name None [] false.
Definition demo_options (edges : bool) : options unit := mkOptions unit false edges true true 1 1 [] None [] None [].
Definition demo_build (edges : bool) := build_context sdQ unit netD (fun _ => Some 2) (fun _ _ => true) (fun _ => true) (fun _ => None) (fun _ => tt) (fun n => seq 0 n) (fun a _ _ => Ok a) (demo_options edges) demo_cf.
(** The hypotheses of C137_autograd and C137_high_order hold of this run (a network is trained on all rows). *)
Theorem C137_witness : exists k, demo_build true = Ok k /\ k_models unit k = [(u_name, tt)] /\ NoDup (keys (c_fields (l_cf (k_loaded unit k)))) /\
  shape (t_ut (k_tables unit k)) = [4; 2] /\ Forall (fun v => v == 1)%Q (flat (t_ut (k_tables unit k))) /\
  keys (t_vars (k_tables unit k)) = map lit ["u"; "x"; "0"; "u_x"]%string /\ net_fields (demo_options true) (l_cf (k_loaded unit k)) = [u_name].
Proof.
  eexists. split; [vm_compute; reflexivity|]. split; [vm_compute; reflexivity|]. split; [vm_compute; constructor; [intros []|constructor]|]. split; [vm_compute; reflexivity|]. split; [vm_compute; repeat constructor|].
  split; vm_compute; reflexivity.
Qed.
(** The derivatives on the original grid (ut_origin and so on) are scaled by the deviations of the original
    data, while the network was trained on the cropped ones.  Here the network fits the cropped data exactly,
    all four deviations are exact, and ut_origin is 9/5 at cells where u = t. *)
Theorem C137_origin_refuted : exists k, demo_build true = Ok k /\
  let cur := l_cf (k_loaded unit k) in let axes := [x_name; t_name] in
  (forall u, dget (c_fields cur) u_name = Some u -> forall idx, In idx (list_prod [0; 1; 2; 3] [0; 1]) -> exists v, get u [fst idx; snd idx] = Some v /\
     (surrogate netD true (stats_of sdQ 2 (grid_rows (c_coords cur) axes) (flat u)) tt (cell (c_coords cur) axes [fst idx; snd idx]) == v)%Q) /\
  (forall c, In c (columns 2 (grid_rows (c_coords cur) axes) ++ columns 2 (grid_rows (c_coords demo_cf) axes)) -> (sdQ c * sdQ c == varQ c)%Q) /\
  (forall f v, In (f, v) (c_fields cur ++ c_fields demo_cf) -> (sdQ (flat v) * sdQ (flat v) == varQ (flat v))%Q) /\
  Forall (fun v => v == 1)%Q (flat (d_ut (k_derivs unit k))) /\ Forall (fun v => v == 9 # 5)%Q (flat (d_ut0 (k_derivs unit k))).
Proof.
  eexists. split; [vm_compute; reflexivity|]. cbn zeta. split; [|split; [|split; [|split]]].
  - cbn [k_loaded l_cf c_fields dget]. change (streq _ u_name) with true. cbn iota. intros u [= <-] idx Hi. cbn in Hi. repeat (destruct Hi as [<-|Hi]; [eexists; split; [vm_compute; reflexivity|vm_compute; reflexivity]|]). destruct Hi.
  - intros c Hc. vm_compute in Hc. repeat (destruct Hc as [<-|Hc]; [vm_compute; reflexivity|]). destruct Hc.
  - intros f v Hc. vm_compute in Hc. repeat (destruct Hc as [[= <- <-]|Hc]; [vm_compute; reflexivity|]). destruct Hc.
  - vm_compute. repeat constructor.
  - vm_compute. repeat constructor.
Qed.
Print Assumptions C137_training_pairs.
Print Assumptions C137_training_checked.
Print Assumptions C137_training_rows.
Print Assumptions C137_error.
Print Assumptions C137_autograd.
Print Assumptions C137_other_fields.
Print Assumptions C137_high_order.
Print Assumptions C137_accepted.
Print Assumptions C137_refused.
Print Assumptions C137_names.
Print Assumptions C137_options_off.
Print Assumptions C137_witness.
Print Assumptions C137_origin_refuted.
