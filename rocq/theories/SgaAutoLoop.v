(** Lemmas about the network loop and the constructor of SgaAuto.v. *)
From Coq Require Import QArith Qabs Lqa.
From Verif Require Import Base SgaNaming SgaNamingFacts PropsNaming SgaRegistry PropsRegistry Arrays SgaAuto SgaAutoFacts.
Local Open Scope nat_scope.

Section Loop.
Context {M : Type}.
Variables (sd : list Q -> Q) (D : M -> list nat -> list Q -> Q) (in_dim : M -> option nat) (runs : M -> nat -> bool) (one_output : M -> bool)
  (file : pystr -> option M) (fitnet : list (list Q * Q) -> M) (shuffle : nat -> list nat) (fd : arr Q -> Q -> nat -> res (arr Q)).
Local Notation options := (options M).
Local Notation config := (@config (arr Q)).
Local Notation axis_grads := (axis_grads sd M D).
Local Notation resolve := (resolve sd M file fitnet shuffle).
Local Notation train_metanet := (train_metanet sd M fitnet shuffle).
Local Notation nd_loop := (nd_loop sd M D in_dim runs one_output file fitnet shuffle).
Local Notation check_model := (check_model M in_dim runs one_output).
Local Notation build_context := (build_context sd M D in_dim runs one_output file fitnet shuffle fd).
Local Notation load_data := (load_data sd M D file).
Local Notation by_autograd := (by_autograd sd M D in_dim runs one_output file fitnet shuffle fd).

Lemma add_grads_ok lhs f : forall gs acc acc', NoDup (keys gs) -> (forall a, In a (keys gs) -> ~ In underscore a) -> add_grads lhs f gs acc = Ok acc' ->
  (forall a v, In (a, v) gs -> a <> lhs -> dget acc' (dkey f a) = Some v) /\
  (forall k, (forall a, In a (keys gs) -> a <> lhs -> k <> dkey f a) -> dget acc' k = dget acc k) /\
  (forall k, In k (keys acc') -> In k (keys acc) \/ exists a, In a (keys gs) /\ a <> lhs /\ k = dkey f a) /\
  (NoDup (keys acc) -> NoDup (keys acc')).
Proof.
  induction gs as [|[a v] gs IH]; intros acc acc' N Us; cbn [add_grads].
  - intros [= <-]. split; [intros ? ? []|]. split; [reflexivity|]. split; [auto|auto].
  - inversion N as [|? ? N1 N2]; subst. destruct (streq a lhs) eqn:E.
    + apply streq_eq in E. intros H. destruct (IH _ _ N2 (fun b Hb => Us b (or_intror Hb)) H) as (A1 & A2 & A3 & A4). split; [|split; [|split]].
      * intros b w [[= <- <-]|X] Nb; [congruence|eapply A1; eassumption].
      * intros k Hk. apply A2. intros b Hb. apply Hk. right. exact Hb.
      * intros k Hk. destruct (A3 k Hk) as [X|(b & X & Y)]; [auto|]. right. exists b. split; [right; exact X|exact Y].
      * exact A4.
    + apply streq_ne in E. destruct (build_key f a 1) as [key|] eqn:B; [|discriminate]. cbn [bind]. apply build_dkey in B. subst key. intros H.
      destruct (IH _ _ N2 (fun b Hb => Us b (or_intror Hb)) H) as (A1 & A2 & A3 & A4). split; [|split; [|split]].
      * intros b w [[= <- <-]|X] Nb; [|eapply A1; eassumption]. rewrite A2.
        -- rewrite dset_get, streq_refl. reflexivity.
        -- intros c Hc _ X. apply dkey_inj in X; [|apply Us; left; reflexivity|apply Us; right; exact Hc]. destruct X as [_ ->]. exact (N1 Hc).
      * intros k Hk. rewrite A2 by (intros b Hb; apply Hk; right; exact Hb). rewrite dset_get. destruct (streq (dkey f a) k) eqn:X; [|reflexivity].
        apply streq_eq in X. exfalso. apply (Hk a (or_introl eq_refl) E). auto.
      * intros k Hk. destruct (A3 k Hk) as [X|(b & X & Y)]; [|right; exists b; split; [right; exact X|exact Y]]. apply dset_keys in X. destruct X as [->|X]; [|auto]. right. exists a. split; [left; reflexivity|auto].
      * intros Hn. apply A4, dset_nodup, Hn.
Qed.

(** where a network comes from when none is given *)
Definition fresh (o : options) (paths : list (pystr * pystr)) (coords : list (pystr * list Q)) (axes : list pystr) (f : pystr) (v : arr Q) (m : M) : Prop :=
  match dget paths f with
  | Some (c :: p) => match file (c :: p) with Some m' => m = m' | None => train_metanet o coords v axes = Ok m end
  | _ => train_metanet o coords v axes = Ok m
  end.
Lemma resolve_ok o paths coords axes models f v m models' : resolve o paths coords axes models f v = Ok (m, models') ->
  dget models' f = Some m /\ (forall g, g <> f -> dget models' g = dget models g) /\ (forall m', dget models f = Some m' -> m = m' /\ models' = models) /\
  (dget models f = None -> fresh o paths coords axes f v m).
Proof.
  unfold SgaAuto.resolve. destruct (dget models f) as [m0|] eqn:E.
  - intros [= <- <-]. split; [exact E|]. split; [reflexivity|]. split; [intros m' [= ->]; auto|discriminate].
  - assert (X : forall r : res M, (do m <- r; Ok (m, dset models f m)) = Ok (m, models') -> r = Ok m /\ models' = dset models f m) by (intros [m1|] H; cbn in H; [injection H as -> ->; auto|discriminate]).
    intros H. apply X in H. destruct H as [H ->]. split; [rewrite dset_get, streq_refl; reflexivity|]. split.
    + intros g Hg. rewrite dset_get. destruct (streq f g) eqn:Y; [apply streq_eq in Y; congruence|reflexivity].
    + split; [discriminate|]. intros _. unfold fresh. destruct (dget paths f) as [[|c p]|]; [exact H| |exact H]. destruct (file (c :: p)); [injection H as ->; reflexivity|exact H].
Qed.
Lemma axis_grads_keys o m coords axes v : keys (axis_grads o m coords axes v) = axes.
Proof.
  unfold SgaAuto.axis_grads, keys. rewrite map_map. cbn [fst]. apply (nth_ext _ _ [] []); [now rewrite map_length, seq_length|]. intros i Hi. rewrite map_length, seq_length in Hi. now rewrite (nth_map_seq (fun x => nth x axes [])).
Qed.
(** the gradient array of one field along one axis *)
Definition grad_arr (o : options) (m : M) (coords : list (pystr * list Q)) (axes : list pystr) (v : arr Q) (j : nat) : arr Q :=
  mkArr (grid_shape_of coords axes) (derivative sd M D o m (List.length axes) (grid_rows coords axes) (flat v) [j]).
Lemma axis_grads_get o m coords axes v a : NoDup axes -> In a axes -> dget (axis_grads o m coords axes v) a = Some (grad_arr o m coords axes v (index_of a axes)).
Proof. intros N H. apply (dget_seq axes (grad_arr o m coords axes v) a N H). Qed.

Record inv (o : options) (paths : list (pystr * pystr)) (cf : config) (axes : list pystr) (models0 : list (pystr * M)) (P : list pystr)
    (models : list (pystr * M)) (grads : list (pystr * arr Q)) (tgt : option (list (pystr * arr Q))) : Prop := mkInv {
  i_net : forall f v, In f P -> dget (c_fields cf) f = Some v -> exists m, dget models f = Some m /\ check_model m (List.length axes) = Ok tt /\
      forall a, In a axes -> a <> c_lhs cf -> dget grads (dkey f a) = Some (grad_arr o m (c_coords cf) axes v (index_of a axes));
  i_keys : forall k, In k (keys grads) -> exists f a, In f P /\ In a axes /\ a <> c_lhs cf /\ k = dkey f a;
  i_nodup : NoDup (keys grads);
  i_tgt : forall gs, tgt = Some gs -> exists v m, dget (c_fields cf) (c_target cf) = Some v /\ dget models (c_target cf) = Some m /\ gs = axis_grads o m (c_coords cf) axes v;
  i_src : forall f m, dget models f = Some m -> dget models0 f = Some m \/ dget models0 f = None /\ exists v, dget (c_fields cf) f = Some v /\ fresh o paths (c_coords cf) axes f v m;
  i_old : forall f m, dget models0 f = Some m -> dget models f = Some m }.
Lemma nd_loop_ok o paths cf axes models0 : NoDup axes -> (forall a, In a axes -> ~ In underscore a) ->
  forall fs P models grads tgt models' grads' tgt', inv o paths cf axes models0 P models grads tgt ->
  nd_loop o paths cf axes fs models grads tgt = Ok (models', grads', tgt') -> inv o paths cf axes models0 (P ++ fs) models' grads' tgt'.
Proof.
  intros Na Us. induction fs as [|f fs IH]; intros P models grads tgt models' grads' tgt' I; cbn [SgaAuto.nd_loop].
  - intros [= <- <- <-]. rewrite app_nil_r. exact I.
  - destruct (dget (c_fields cf) f) as [v|] eqn:Fv; [|discriminate]. destruct (resolve o paths (c_coords cf) axes models f v) as [[m models1]|] eqn:R; [|discriminate]. cbn [bind fst snd].
    destruct (check_model m (List.length axes)) as [[]|] eqn:C; [|discriminate]. cbn [bind].
    destruct (add_grads (c_lhs cf) f (axis_grads o m (c_coords cf) axes v) grads) as [grads1|] eqn:G; [|discriminate]. cbn [bind]. intros H.
    apply resolve_ok in R. destruct R as (R1 & R2 & R3 & R4).
    apply add_grads_ok in G; [|rewrite axis_grads_keys; exact Na|rewrite axis_grads_keys; exact Us]. destruct G as (A1 & A2 & A3 & A4). rewrite axis_grads_keys in A2, A3.
    assert (Mono : forall g m', dget models g = Some m' -> dget models1 g = Some m').
    { intros g m' Hg. destruct (streq g f) eqn:E; [apply streq_eq in E; subst g; destruct (R3 _ Hg) as [_ ->]; exact Hg|apply streq_ne in E; rewrite R2; auto]. }
    replace (P ++ f :: fs) with ((P ++ [f]) ++ fs) by (rewrite <- app_assoc; reflexivity). eapply IH; [|exact H]. destruct I as [I1 I2 I3 I4 I5 I6]. constructor.
    + intros g w Hg Hw. apply in_app_iff in Hg.
      destruct (streq g f) eqn:E.
      * apply streq_eq in E. subst g. rewrite Fv in Hw. injection Hw as <-. exists m. split; [exact R1|]. split; [exact C|]. intros a Ha Nl. apply A1; [|exact Nl].
        pose proof (axis_grads_get o m (c_coords cf) axes v a Na Ha) as X. apply dget_In in X. exact X.
      * apply streq_ne in E. destruct Hg as [Hg|[Hg|[]]]; [|congruence]. destruct (I1 g w Hg Hw) as (m' & B1 & B2 & B3). exists m'. split; [apply Mono, B1|]. split; [exact B2|].
        intros a Ha Nl. rewrite A2; [apply B3; assumption|]. intros b Hb _ X. apply dkey_inj in X; [|apply Us; assumption|apply Us; assumption]. destruct X as [X _]. congruence.
    + intros k Hk. destruct (A3 k Hk) as [X|(a & X1 & X2 & X3)]; [|exists f, a; rewrite in_app_iff; cbn; auto 6]. destruct (I2 k X) as (g & a & Y1 & Y2). exists g, a. rewrite in_app_iff. auto.
    + apply A4, I3.
    + intros gs Hgs. destruct (streq f (c_target cf)) eqn:E.
      * apply streq_eq in E. injection Hgs as <-. exists v, m. rewrite <- E. auto.
      * destruct (I4 gs Hgs) as (w & m' & Y1 & Y2 & Y3). exists w, m'. auto.
    + intros g m' Hg. destruct (streq g f) eqn:E.
      * apply streq_eq in E. subst g. assert (m' = m) by congruence. subst m'. destruct (dget models f) as [m0|] eqn:Mf; [destruct (R3 _ eq_refl) as [-> _]; apply I5, Mf|].
        destruct (dget models0 f) as [m0|] eqn:M0; [rewrite (I6 _ _ M0) in Mf; discriminate|]. right. split; [reflexivity|]. exists v. split; [exact Fv|]. apply R4. reflexivity.
      * apply streq_ne in E. rewrite R2 in Hg by exact E. apply I5, Hg.
    + intros g m' Hg. apply Mono, I6, Hg.
Qed.
Lemma inv_start o paths cf axes models0 : inv o paths cf axes models0 [] models0 [] None.
Proof. constructor; [intros ? ? []|intros ? []|constructor|discriminate|auto|auto]. Qed.
Lemma nd_tgt o paths cf axes : forall fs models grads tgt r, nd_loop o paths cf axes fs models grads tgt = Ok r -> In (c_target cf) fs \/ (exists gs, tgt = Some gs) -> exists gs, snd r = Some gs.
Proof.
  induction fs as [|f fs IH]; intros models grads tgt r; cbn [SgaAuto.nd_loop].
  - intros [= <-] [[]|X]. exact X.
  - destruct (dget (c_fields cf) f) as [v|]; [|discriminate]. destruct (resolve o paths (c_coords cf) axes models f v) as [[m models1]|]; [|discriminate]. cbn [bind fst snd].
    destruct (check_model m (List.length axes)); [|discriminate]. cbn [bind]. destruct (add_grads _ _ _ _) as [grads1|]; [|discriminate]. cbn [bind]. intros H X. apply (IH _ _ _ _ H).
    destruct (streq f (c_target cf)) eqn:E; [eauto|]. apply streq_ne in E. destruct X as [[X|X]|X]; [congruence|auto|auto].
Qed.

(** ** The constructor *)
Lemma primary_ok (cf : config) axes p : resolve_primary cf axes = Ok p -> In p axes /\ p <> c_lhs cf.
Proof.
  unfold resolve_primary. set (sp := filter _ axes). destruct sp as [|s0 sp'] eqn:E; [discriminate|]. rewrite <- E.
  destruct (c_primary cf) as [q|].
  - destruct (inl q axes) eqn:I; [|discriminate]. destruct (streq q (c_lhs cf)) eqn:L; [discriminate|]. intros [= <-]. apply inl_In in I. apply streq_ne in L. auto.
  - intros [= <-]. assert (X : forall b, In b sp -> In b axes /\ b <> c_lhs cf) by (intros b Hb; unfold sp in Hb; apply filter_In in Hb; destruct Hb as [H1 H2]; apply negb_true_iff, streq_ne in H2; auto).
    destruct (inl x_name sp) eqn:I; apply X; [apply inl_In, I|rewrite E; left; reflexivity].
Qed.
(** what does not change when the data are replaced *)
Record same (a b : config) : Prop := mkSame { s_target : c_target a = c_target b; s_lhs : c_lhs a = c_lhs b; s_primary : c_primary a = c_primary b; s_params : c_params a = c_params b; s_uniform : c_uniform a = c_uniform b }.
Lemma resolve_primary_same a b axes : same a b -> resolve_primary a axes = resolve_primary b axes.
Proof. intros [_ H2 H3 _ _]. unfold resolve_primary. rewrite H2, H3. reflexivity. Qed.
Lemma nonempty_match {A B} (l : list A) (x y : B) : l <> [] -> match l with [] => x | _ => y end = y.
Proof. destruct l; [congruence|reflexivity]. Qed.
Lemma load_ok o cf L : load_data o cf = Ok L ->
  l_axes L = (match c_axis_order cf with [] => keys (c_coords cf) | l => l end) /\
  registry (l_cf L) (l_axes L) = Ok (l_delta L) /\ registry cf (l_axes L) = Ok (l_delta0 L) /\ resolve_primary (l_cf L) (l_axes L) = Ok (l_primary L) /\
  same (l_cf L) cf /\ l_coords0 L = c_coords cf /\ dget (c_fields cf) (c_target cf) = Some (l_u0 L) /\
  (o_metadata M o = false -> o_edges M o = false -> l_cf L = cf).
Proof.
  unfold SgaAuto.load_data. set (axes := match c_axis_order cf with [] => keys (c_coords cf) | l => l end).
  clearbody axes. intros H0. assert (NE : axes <> []) by (intros ->; discriminate H0). rewrite nonempty_match in H0 by exact NE. revert H0.
  destruct (registry cf axes) as [dl0|] eqn:R; [|discriminate]. cbn [bind]. destruct (dget (c_fields cf) (c_target cf)) as [u|] eqn:U; [|discriminate].
  destruct (resolve_primary cf axes) as [pr|] eqn:P; [|discriminate]. cbn [bind].
  match goal with |- bind ?X _ = _ -> _ => set (MD := X) end.
  assert (HM : forall L1, MD = Ok L1 -> l_axes L1 = axes /\ registry (l_cf L1) axes = Ok (l_delta L1) /\ l_delta0 L1 = dl0 /\ l_primary L1 = pr /\ same (l_cf L1) cf /\ l_coords0 L1 = c_coords cf /\ l_u0 L1 = u /\
     (o_metadata M o = false -> L1 = mkLoaded cf axes dl0 pr u (c_coords cf) dl0)).
  { intros L1. unfold MD. destruct (o_metadata M o).
    - destruct axes as [|a [|b [|c axes']]]; try discriminate. destruct (streq a x_name && streq b t_name); [|discriminate]. destruct (Nat.eqb _ 1); [|discriminate].
      destruct (metadata _ _ _ _ _ _ _ _) as [md|]; [|discriminate]. cbn [bind]. cbn zeta. destruct (registry (with_data _ _ _) [a; b]) as [dl'|] eqn:R'; [|discriminate]. cbn [bind]. intros HL. injection HL as <-. cbn.
      repeat (split; [first [reflexivity|exact R'|constructor; reflexivity]|]). discriminate.
    - intros [= <-]. cbn. repeat (split; [first [reflexivity|exact R|constructor; reflexivity]|]). reflexivity. }
  destruct MD as [L1|] eqn:EM; [|discriminate]. cbn [bind]. destruct (HM L1 eq_refl) as (H1 & H2 & H3 & H4 & H5 & H6 & H7 & H8).
  destruct (o_edges M o) eqn:Ed.
  - destruct (negb (Nat.eqb _ 2)); [discriminate|]. destruct (negb (inl x_name axes)); [discriminate|].
    cbn zeta. match goal with |- context [registry ?C axes] => set (cf' := C) end. destruct (registry cf' axes) as [dl'|] eqn:R'; [|discriminate]. cbn [bind].
    destruct (resolve_primary cf' axes) as [p'|] eqn:P'; [|discriminate]. cbn [bind]. intros [= <-]. cbn.
    assert (Sm : same cf' cf) by (unfold cf', with_data; destruct H5; constructor; cbn; assumption).
    rewrite H6, H7, H3. repeat (split; [first [reflexivity|exact R'|exact R|exact P'|exact Sm]|]). discriminate.
  - intros [= <-]. rewrite H1. rewrite H3, H4, H6, H7, (resolve_primary_same _ _ axes H5). repeat (split; [first [reflexivity|assumption|exact R]|]).
    intros Em _. rewrite (H8 Em). reflexivity.
Qed.
Lemma registry_ok (cf : config) axes dls : registry cf axes = Ok dls -> validate_names cf axes = Ok tt /\ validate_grid shape cf axes = Ok tt /\
  mapM (fun a => do d <- compute_delta (coord_of (c_coords cf) a) ; Ok (a, d)) axes = Ok dls.
Proof.
  unfold registry. destruct (validate_names cf axes) as [[]|]; [|discriminate]. cbn [bind]. destruct (validate_grid shape cf axes) as [[]|]; [|discriminate]. cbn [bind]. auto.
Qed.
(** everything the constructor has done *)
Lemma build_ok o cf k : build_context o cf = Ok k ->
  exists u dv g0 grad, let L := k_loaded M k in let cur := l_cf L in let axes := l_axes L in let s := grid_shape_of (c_coords cur) axes in
  load_data o cf = Ok L /\ dget (c_fields cur) (c_target cur) = Some u /\
  (if o_autograd M o then by_autograd o L u else do d <- by_difference fd L u ; Ok (d, [], o_models M o)) = Ok (dv, g0, k_models M k) /\
  grad_loop fd cur axes (l_delta L) (l_primary L) (d_ux dv) (list_prod (c_fields cur) axes) g0 = Ok grad /\
  k_derivs M k = dv /\ t_axes (k_tables M k) = axes /\ t_delta (k_tables M k) = l_delta L /\ t_shape (k_tables M k) = s /\ t_primary (k_tables M k) = l_primary L /\
  t_ut (k_tables M k) = d_ut dv /\ t_vars (k_tables M k) = build_vars coord_grid zeros cur axes s grad /\ t_den (k_tables M k) = coord_entries coord_grid cur axes s /\
  ~ In (c_lhs cur) (keys (t_vars (k_tables M k))) /\
  (forall f, In f (keys (c_fields cur)) -> ~ In (dkey f (c_lhs cur)) (keys grad)) /\
  k_fields M k = (if o_edges M o then c_fields cur else c_fields cf) /\ k_coords M k = (if o_edges M o then c_coords cur else c_coords cf).
Proof.
  unfold SgaAuto.build_context. destruct (load_data o cf) as [L|] eqn:EL; [|discriminate]. cbn [bind].
  destruct (dget (c_fields (l_cf L)) (c_target (l_cf L))) as [u|] eqn:U; [|discriminate].
  destruct (coord_entries coord_grid (l_cf L) (l_axes L) _) as [|c0 cl] eqn:Ce; [discriminate|]. rewrite <- Ce. clear Ce c0 cl.
  destruct (if o_autograd M o then _ else _) as [[[dv g0] ms]|] eqn:DV; [|discriminate]. cbn [bind fst snd].
  destruct (grad_loop fd _ _ _ _ _ _ g0) as [grad|] eqn:G; [|discriminate]. cbn [bind].
  destruct (mapM _ (c_fields (l_cf L))) as [forb|] eqn:Fo; [|discriminate]. cbn [bind]. destruct (existsb _ forb) eqn:Ex; [discriminate|].
  destruct (inl (c_lhs (l_cf L)) (keys _)) eqn:LV; [discriminate|]. intros [= <-]. apply inl_nIn in LV.
  exists u, dv, g0, grad. cbn. repeat (split; [first [reflexivity|assumption]|]). split; [|split; reflexivity].
  intros f Hf Hk. assert (X : In (dkey f (c_lhs (l_cf L))) forb).
  { apply in_map_iff in Hf. destruct Hf as ([f' v] & E & Hf). cbn in E. subst f'. revert Fo Hf. generalize (c_fields (l_cf L)). clear. intros l. revert forb. induction l as [|[g w] l IH]; intros forb; cbn [mapM fst]; [intros _ []|].
    destruct (build_key g (c_lhs (l_cf L)) 1) as [key|] eqn:B; [|discriminate]. cbn [bind]. destruct (mapM _ l) as [ks|]; [|discriminate]. cbn [bind]. intros [= <-] [[= -> ->]|H]; [left; apply build_dkey in B; auto|right; apply (IH _ eq_refl H)]. }
  assert (Y : existsb (fun k => inl k (keys grad)) forb = true) by (apply existsb_exists; eexists; split; [exact X|apply inl_In, Hk]). congruence.
Qed.
End Loop.
