(** *** C27, C28: datasets *)
From Coq Require Import QArith Qround.
From Verif Require Import Base Num Arrays Dataset.
Local Open Scope nat_scope.
Local Open Scope string_scope.

Lemma natlist_eqb_eq a : forall b, natlist_eqb a b = true <-> a = b.
Proof.
  induction a as [|x a IH]; intros [|y b]; cbn; split; try reflexivity; try discriminate.
  - rewrite andb_true_iff, Nat.eqb_eq, IH. intros [-> ->]. reflexivity.
  - intros [= -> ->]. rewrite Nat.eqb_refl. cbn. now apply IH.
Qed.
Lemma smem_In s l : smem s l = true <-> In s l.
Proof. unfold smem. rewrite existsb_exists. split; [intros (x & H & E); apply String.eqb_eq in E; congruence|intros H; exists s; split; [exact H|apply String.eqb_refl]]. Qed.
Lemma snodup_NoDup l : snodup l = true <-> NoDup l.
Proof.
  induction l as [|s l IH]; cbn; [split; [constructor|reflexivity]|]. rewrite andb_true_iff, negb_true_iff, IH. split.
  - intros [H1 H2]. constructor; [|exact H2]. rewrite <- smem_In. congruence.
  - intros H. inversion H as [|? ? H1 H2]; subst. split; [|exact H2]. destruct (smem s l) eqn:E; [|reflexivity]. apply smem_In in E. contradiction.
Qed.
Lemma sget_In {B} (d : list (string * B)) k v : sget d k = Some v -> In (k, v) d.
Proof. induction d as [|[x w] d IH]; cbn; [discriminate|]. destruct (String.eqb_spec x k) as [->|N]; [intros [= ->]; auto|auto]. Qed.
Lemma sget_key {B} (d : list (string * B)) k : In k (skeys d) -> exists v, sget d k = Some v.
Proof.
  induction d as [|[x w] d IH]; cbn; [tauto|]. destruct (String.eqb_spec x k) as [->|N]; [eauto|]. intros [H|H]; [contradiction|auto].
Qed.
Lemma sget_of_In {B} (d : list (string * B)) k v : NoDup (skeys d) -> In (k, v) d -> sget d k = Some v.
Proof.
  induction d as [|[x w] d IH]; cbn; [tauto|]. intros N [H|H].
  - injection H as -> ->. now rewrite String.eqb_refl.
  - inversion N as [|? ? N1 N2]; subst. destruct (String.eqb_spec x k) as [->|E]; [|auto]. exfalso. apply N1. apply in_map_iff. exists (k, v). auto.
Qed.
Lemma check_params_ok s ps : check_params s ps = Ok tt <-> forall n p, In (n, p) ps -> shape p = s /\ Forall (fun v => is_fin v = true) (flat p).
Proof.
  induction ps as [|[n p] ps IH]; cbn [check_params]; [split; [intros _ n p []|reflexivity]|].
  destruct (natlist_eqb (shape p) s) eqn:E; cbn [negb].
  - apply natlist_eqb_eq in E. destruct (forallb is_fin (flat p)) eqn:F; cbn [negb].
    + rewrite IH. split; [|intros H; intros; apply H with n0; right; assumption]. intros H n' p' [I|I]; [|eauto]. injection I as <- <-. split; [exact E|]. apply Forall_forall. apply forallb_forall. exact F.
    + split; [discriminate|]. intros H. destruct (H n p ltac:(now left)) as [_ H2]. rewrite Forall_forall in H2. apply forallb_forall in H2. congruence.
  - split; [discriminate|]. intros H. destruct (H n p ltac:(now left)) as [H1 _]. apply natlist_eqb_eq in H1. congruence.
Qed.
Lemma check_params_err s ps e : check_params s ps = Err e -> e = ValueError.
Proof. induction ps as [|[n p] ps IH]; cbn; [discriminate|]. destruct (negb _); [now intros [= <-]|]. destruct (negb _); [now intros [= <-]|exact IH]. Qed.
Lemma same_shapes (shapes : list (list nat)) : existsb (fun s => negb (natlist_eqb s (hd [] shapes))) shapes = false -> forall s, In s shapes -> s = hd [] shapes.
Proof.
  intros H s I. destruct (natlist_eqb s (hd [] shapes)) eqn:E; [now apply natlist_eqb_eq|]. exfalso.
  assert (X : existsb (fun s => negb (natlist_eqb s (hd [] shapes))) shapes = true) by (apply existsb_exists; exists s; rewrite E; auto). congruence.
Qed.
Lemma fits_expected coords axes u : (forall a, In a axes -> In a (skeys coords)) ->
  fits coords axes u <-> shape u = map (fun x => match sget coords x with Some c => List.length c | None => 0 end) axes.
Proof.
  intros H. unfold fits. split.
  - induction 1 as [|a n axes s (c & E & L) F IH]; cbn; [reflexivity|]. rewrite E, L, IH; [reflexivity|]. intros b I. apply H. now right.
  - intros E. rewrite E. clear E. induction axes as [|a axes IH]; cbn; constructor; [|apply IH; intros b I; apply H; now right].
    destruct (sget_key coords a (H a ltac:(now left))) as [c E]. rewrite E. eauto.
Qed.
(** everything a constructed N-D dataset satisfies *)
Lemma init_nd_ok a n u : init_nd a = Ok (n, u) <->
  a_fields a = Some (n_fields n) /\ a_coords a = Some (n_coords n) /\ a_axis a = Some (n_axis n) /\ n_target n = a_target a /\ n_lhs n = a_lhs a /\
  n_axis n <> [] /\ NoDup (n_axis n) /\ (forall x, In x (n_axis n) <-> In x (skeys (n_coords n))) /\
  sget (n_fields n) (n_target n) = Some u /\ In (n_lhs n) (n_axis n) /\ (forall f v, In (f, v) (n_fields n) -> fits (n_coords n) (n_axis n) v).
Proof.
  unfold init_nd. split.
  - destruct (a_fields a) as [fields|]; [|discriminate]. destruct (a_coords a) as [coords|]; [|discriminate]. destruct (a_axis a) as [axes|]; [|discriminate].
    destruct (Nat.eqb_spec (List.length fields) 0) as [|Lf]; [discriminate|]. destruct (Nat.eqb_spec (List.length axes) 0) as [|La]; [discriminate|].
    destruct (snodup axes) eqn:ND; [|discriminate]. cbn [negb]. destruct (forallb _ axes && forallb _ (skeys coords)) eqn:K; [|discriminate]. cbn [negb].
    apply andb_true_iff in K. destruct K as [K1 K2]. rewrite forallb_forall in K1, K2.
    destruct (sget fields (a_target a)) as [usol|] eqn:T; [|discriminate]. destruct (smem (a_lhs a) axes) eqn:L; [|discriminate]. cbn [negb]. cbv zeta.
    destruct (existsb _ _) eqn:S; [discriminate|]. destruct (natlist_eqb _ _) eqn:E; [|discriminate]. cbn [negb]. intros [= <- <-]. cbn.
    apply natlist_eqb_eq in E. assert (I : forall x, In x axes -> In x (skeys coords)) by (intros x Hx; apply smem_In; auto).
    repeat split; auto.
    + intros ->. cbn in La. lia.
    + now apply snodup_NoDup.
    + intros Hx. apply smem_In. auto.
    + now apply smem_In.
    + intros f v Hf. apply fits_expected; [exact I|]. rewrite <- E. apply (same_shapes _ S). apply (in_map (fun f => shape (snd f)) _ _ Hf).
  - intros (-> & -> & -> & T & L & Hx & ND & K & U & IL & F). destruct n as [fields coords axes target lhs]; cbn [n_fields n_coords n_axis n_target n_lhs] in *. subst target lhs.
    destruct (Nat.eqb_spec (List.length fields) 0) as [Z|Z]; [destruct fields; [discriminate|discriminate]|].
    destruct (Nat.eqb_spec (List.length axes) 0) as [Z'|Z']; [destruct axes; [congruence|discriminate]|].
    apply snodup_NoDup in ND. rewrite ND. cbn [negb].
    assert (K1 : forallb (fun x => smem x (skeys coords)) axes = true) by (apply forallb_forall; intros x Hx'; apply smem_In, K, Hx').
    assert (K2 : forallb (fun x => smem x axes) (skeys coords) = true) by (apply forallb_forall; intros x Hx'; apply smem_In, K, Hx').
    rewrite K1, K2, U. cbn [andb negb]. apply smem_In in IL. rewrite IL. cbn [negb].
    set (E := map (fun x => match sget coords x with Some c => List.length c | None => 0 end) axes).
    assert (FS : forall s, In s (map (fun f : string * array => shape (snd f)) fields) -> s = E).
    { intros s I. apply in_map_iff in I. destruct I as ((f & v) & <- & I). cbn. apply fits_expected; [intros x Hx'; now apply K|]. eapply F. exact I. }
    assert (HD : hd [] (map (fun f : string * array => shape (snd f)) fields) = E) by (destruct fields as [|f fs]; [cbn in Z; lia|]; apply FS; now left).
    cbv zeta. rewrite HD. destruct (existsb _ _) eqn:X.
    + apply existsb_exists in X. destruct X as (s & I & N). rewrite (FS s I) in N. rewrite (proj2 (natlist_eqb_eq E E) eq_refl) in N. discriminate.
    + rewrite (proj2 (natlist_eqb_eq E E) eq_refl). reflexivity.
Qed.
Lemma init_nd_err a e : init_nd a = Err e -> e = ValueError.
Proof.
  unfold init_nd. destruct (a_fields a); [|now intros [= <-]]. destruct (a_coords a); [|now intros [= <-]]. destruct (a_axis a); [|now intros [= <-]].
  repeat (match goal with |- (if ?b then _ else _) = _ -> _ => destruct b; [now intros [= <-]|] end).
  destruct (sget _ _); [|now intros [= <-]]. repeat (match goal with |- (if ?b then _ else _) = _ -> _ => destruct b; [now intros [= <-]|] end). cbv zeta.
  repeat (match goal with |- (if ?b then _ else _) = _ -> _ => destruct b; [now intros [= <-]|] end). discriminate.
Qed.
Lemma init_legacy_ok x t u r : init_legacy x t u = Ok r <-> r = (x, t, u) /\ shape u = [List.length x; List.length t].
Proof.
  unfold init_legacy. destruct (natlist_eqb _ _) eqn:E; [|split; [discriminate|]].
  - apply natlist_eqb_eq in E. split; [intros [= <-]; auto|intros [-> _]; reflexivity].
  - intros [_ H]. apply natlist_eqb_eq in H. congruence.
Qed.
(** A dataset that constructs is consistent. *)
Theorem C27_consistent a d : construct a = Ok d -> consistent d.
Proof.
  unfold construct. destruct (match a_fields a, a_coords a with None, None => false | _, _ => true end).
  - destruct (init_nd a) as [[n u]|] eqn:E; [|discriminate]. cbn [bind fst snd]. destruct (check_params (shape u) (a_params a)) as [[]|] eqn:P; [|discriminate]. cbn [bind]. intros [= <-].
    apply init_nd_ok in E. destruct E as (_ & _ & _ & _ & _ & _ & ND & K & U & IL & F). split; [now apply check_params_ok|]. cbn.
    split; [exact ND|]. split; [exact K|]. split; [exact IL|]. split; [apply sget_In; exact U|]. auto.
  - assert (G : forall x t u, (do l <- init_legacy x t u ; Ok (Some (fst (fst l)), Some (snd (fst l)), snd l, None)) =
                 match init_legacy x t u with Ok _ => Ok (Some x, Some t, u, @None nd) | Err e => Err e end).
    { intros x t u. unfold init_legacy. destruct (natlist_eqb _ _); reflexivity. }
    assert (H : forall x t u, (do r <- match init_legacy x t u with Ok _ => Ok (Some x, Some t, u, @None nd) | Err e => Err e end ;
        let '(x, t, u, n) := r in do _ <- check_params (shape u) (a_params a) ; Ok (mkDs x t u n (a_params a))) = Ok d -> consistent d).
    { intros x t u. destruct (init_legacy x t u) eqn:E; [|discriminate]. apply init_legacy_ok in E. cbn [bind]. destruct (check_params (shape u) (a_params a)) as [[]|] eqn:P; [|discriminate]. cbn [bind]. intros [= <-].
      split; [now apply check_params_ok|]. cbn. exists x, t. tauto. }
    destruct (a_pde a) as [p|]; [rewrite G; apply H|]. destruct (a_x a) as [x|]; [|discriminate]. destruct (a_t a) as [t|]; [|discriminate]. destruct (a_usol a) as [u|]; [|discriminate]. rewrite G. apply H.
Qed.
(** Whatever is wrong with the arguments is reported as ValueError. *)
Theorem C27_errors a e : construct a = Err e -> e = ValueError.
Proof.
  unfold construct. destruct (match a_fields a, a_coords a with None, None => false | _, _ => true end).
  - destruct (init_nd a) as [[n u]|] eqn:E; cbn [bind fst snd]; [|intros [= <-]; eapply init_nd_err; eauto]. destruct (check_params _ _) eqn:P; [discriminate|]. cbn [bind]. intros [= <-]. eapply check_params_err; eauto.
  - assert (L : forall x t u e, init_legacy x t u = Err e -> e = ValueError) by (intros x t u e'; unfold init_legacy; destruct (natlist_eqb _ _); [discriminate|now intros [= <-]]).
    destruct (a_pde a) as [p|].
    + destruct (init_legacy _ _ _) eqn:E; cbn [bind fst snd]; [|intros [= <-]; eauto]. destruct (check_params _ _) eqn:P; [discriminate|]. cbn [bind]. intros [= <-]. eapply check_params_err; eauto.
    + destruct (a_x a) as [x|]; [|now intros [= <-]]. destruct (a_t a) as [t|]; [|now intros [= <-]]. destruct (a_usol a) as [u|]; [|now intros [= <-]].
      destruct (init_legacy _ _ _) eqn:E; cbn [bind fst snd]; [|intros [= <-]; eauto]. destruct (check_params _ _) eqn:P; [discriminate|]. cbn [bind]. intros [= <-]. eapply check_params_err; eauto.
Qed.
(** Consistent arguments are accepted, in both forms, and stored as given. *)
Theorem C27_accepts_nd a fields coords axes u : a_fields a = Some fields -> a_coords a = Some coords -> a_axis a = Some axes ->
  axes <> [] -> NoDup axes -> (forall x, In x axes <-> In x (skeys coords)) -> NoDup (skeys fields) -> In (a_target a, u) fields -> In (a_lhs a) axes ->
  (forall f v, In (f, v) fields -> fits coords axes v) ->
  (forall n p, In (n, p) (a_params a) -> shape p = shape u /\ Forall (fun v => is_fin v = true) (flat p)) ->
  construct a = Ok (mkDs (sget coords "x") (sget coords "t") u (Some (mkNd fields coords axes (a_target a) (a_lhs a))) (a_params a)).
Proof.
  intros F C A NE ND K NF U L S P. unfold construct. rewrite F.
  assert (E : init_nd a = Ok (mkNd fields coords axes (a_target a) (a_lhs a), u)).
  { apply init_nd_ok. cbn. repeat split; auto; try apply K. apply sget_of_In; assumption. }
  rewrite E. cbn [bind fst snd n_coords]. rewrite (proj2 (check_params_ok (shape u) (a_params a)) P). reflexivity.
Qed.
Theorem C27_accepts_legacy a x t u : a_fields a = None -> a_coords a = None -> a_pde a = None -> a_x a = Some x -> a_t a = Some t -> a_usol a = Some u ->
  shape u = [List.length x; List.length t] -> (forall n p, In (n, p) (a_params a) -> shape p = shape u /\ Forall (fun v => is_fin v = true) (flat p)) ->
  construct a = Ok (mkDs (Some x) (Some t) u None (a_params a)).
Proof.
  intros F C P X T U S Q. unfold construct. rewrite F, C, P, X, T, U. rewrite (proj2 (init_legacy_ok x t u _) (conj eq_refl S)). cbn [bind fst snd].
  rewrite (proj2 (check_params_ok (shape u) (a_params a)) Q). reflexivity.
Qed.
(** N-D arguments win: legacy arrays given as well are ignored without notice. *)
Theorem C27_nd_wins a p x t u : a_fields a <> None \/ a_coords a <> None ->
  construct a = construct (mkArgs p x t u (a_fields a) (a_coords a) (a_axis a) (a_target a) (a_lhs a) (a_params a)).
Proof. intros H. unfold construct. cbn. destruct (a_fields a) eqn:F, (a_coords a) eqn:C; unfold init_nd; cbn; rewrite ?F, ?C; try reflexivity. destruct H; congruence. Qed.
(** A dictionary without coordinates is accepted when the field happens to have one row: the
    coordinate is NaN. *)
Theorem C27_missing_key_refuted : exists a d, construct a = Ok d /\ (exists p, a_pde a = Some p /\ k_x p = None) /\ d_x d = Some [NaN].
Proof.
  exists (mkArgs (Some (mkPdeDict None (Some [Fin 0; Fin 1]) (Some (mkArr [1; 2] [Fin 3; Fin 4])))) None None None None None None "u" "t" []). eexists. split; [reflexivity|].
  split; [eexists; split; reflexivity|reflexivity].
Qed.
Definition demo_nd := mkArgs None None None None (Some [("u", mkArr [2; 3] (map Fin [1; 2; 3; 4; 5; 6]%Q))]) (Some [("x", map Fin [0; 1; 2]%Q); ("t", map Fin [0; 1]%Q)]) (Some ["t"; "x"]) "u" "t"
  [("p", mkArr [2; 3] (repeat (Fin 1) 6))].
Example C27_example : (exists d, construct demo_nd = Ok d /\ d_x d = Some (map Fin [0; 1; 2]%Q)) /\
  construct (mkArgs None None None None (a_fields demo_nd) (a_coords demo_nd) (Some ["x"; "t"]) "u" "t" []) = Err ValueError.
Proof. split; [eexists; split; reflexivity|reflexivity]. Qed.

(** ** C28 *)
(** legacy datasets, and N-D datasets on the axes x, t in this order *)
Definition plain (d : dataset) : Prop := wfa (d_usol d) /\ exists x t, d_x d = Some x /\ d_t d = Some t /\ shape (d_usol d) = [List.length x; List.length t] /\
  match d_nd d with None => True | Some n => n_axis n = ["x"; "t"] end.
Lemma plain_field d i j : plain d -> field_at d i j = get (d_usol d) [i; j].
Proof. intros (_ & x & t & _ & _ & _ & H). unfold field_at. destruct (d_nd d) as [n|]; [|reflexivity]. rewrite H. reflexivity. Qed.
Lemma legacy_plain a d : construct a = Ok d -> wfa (d_usol d) -> (d_nd d = None \/ exists n, d_nd d = Some n /\ n_axis n = ["x"; "t"]) -> plain d.
Proof.
  intros H W C. split; [exact W|]. apply C27_consistent in H. destruct H as [_ H]. destruct C as [E|(n & E & A)]; rewrite E in *.
  - destruct H as (x & t & -> & -> & S). exists x, t. auto.
  - destruct H as (_ & _ & _ & U & F & -> & ->). specialize (F _ _ U). unfold fits in F. rewrite A in F. inversion F as [|? ? ? ? (cx & E1 & L1) F2 EA ES]; subst. inversion F2 as [|? ? ? ? (ct & E2 & L2) F3 ES2]; subst. inversion F3; subst.
    exists cx, ct. repeat split; auto.
Qed.
Lemma index2_plain u n m i j : shape u = [n; m] -> wfa u -> i < n -> j < m -> exists v, index2 u i j = Ok (mkArr [] [v]) /\ get u [i; j] = Some v.
Proof.
  intros S W Hi Hj. unfold index2, get. rewrite S. destruct (Nat.ltb_spec i n); [|lia]. destruct (Nat.ltb_spec j m); [|lia]. cbn [andb map].
  assert (B : inb [n; m] [i; j]) by (repeat constructor; assumption). pose proof (ravel_lt _ _ B) as L. unfold wfa in W. rewrite S in W. rewrite <- W in L.
  destruct (nth_error (flat u) (ravel [n; m] [i; j])) as [v|] eqn:E; [|apply nth_error_None in E; lia]. exists v. split; [|reflexivity]. do 2 f_equal. change (prod []) with 1.
  revert E. generalize (ravel [n; m] [i; j]) as k. generalize (flat u) as l. clear. induction l as [|a l IH]; intros [|k] E; cbn in *; try discriminate; [now injection E as ->|auto].
Qed.
Lemma pick2_plain d x t i j : plain d -> d_x d = Some x -> d_t d = Some t -> i < List.length x -> j < List.length t ->
  exists p, pick2 d x t (i, j) = Ok p /\ nth_error x i = Some (fst (fst p)) /\ nth_error t j = Some (snd (fst p)) /\ field_at d i j = Some (snd p).
Proof.
  intros P X T Hi Hj. pose proof (plain_field d i j P) as FA. destruct P as (W & x' & t' & X' & T' & S & _). rewrite X in X'. rewrite T in T'. injection X' as <-. injection T' as <-.
  unfold pick2. cbn [fst snd]. unfold at1. destruct (nth_error x i) as [xv|] eqn:Ex; [|apply nth_error_None in Ex; lia]. destruct (nth_error t j) as [tv|] eqn:Et; [|apply nth_error_None in Et; lia].
  destruct (index2_plain _ _ _ i j S W Hi Hj) as (v & E & G). cbn [bind]. rewrite E. cbn [bind flat]. exists (xv, tv, v). cbn. rewrite FA, G. auto.
Qed.
Lemma pick2_grid d x t ij p : plain d -> d_x d = Some x -> d_t d = Some t -> pick2 d x t ij = Ok p -> grid_point d p.
Proof.
  intros P X T H. destruct ij as [i j]. destruct (Nat.ltb_spec i (List.length x)) as [Hi|Hi]; [destruct (Nat.ltb_spec j (List.length t)) as [Hj|Hj]|].
  - destruct (pick2_plain d x t i j P X T Hi Hj) as (q & E & A & B & C). rewrite E in H. injection H as <-. exists x, t, i, j. auto.
  - unfold pick2, at1 in H. cbn [fst snd] in H. destruct (nth_error x i); [|discriminate]. cbn [bind] in H. rewrite (proj2 (nth_error_None t j) Hj) in H. discriminate.
  - unfold pick2, at1 in H. cbn [fst snd] in H. rewrite (proj2 (nth_error_None x i) Hi) in H. discriminate.
Qed.
Lemma mapM_Forall {A B} (f : A -> res B) l r : mapM f l = Ok r -> Forall2 (fun a b => f a = Ok b) l r.
Proof.
  revert r. induction l as [|a l IH]; cbn; intros r H; [injection H as <-; constructor|]. destruct (f a) eqn:E; [|discriminate]. cbn [bind] in H. destruct (mapM f l) eqn:E2; [|discriminate]. injection H as <-. constructor; auto.
Qed.
(** get_datapoint: the coordinates and the value of the requested grid point, IndexError outside. *)
Theorem C28_datapoint d i j : plain d -> exists x t, d_x d = Some x /\ d_t d = Some t /\
  ((0 <= i < Z.of_nat (List.length x))%Z /\ (0 <= j < Z.of_nat (List.length t))%Z ->
    exists xv tv v, get_datapoint d i j = Ok (xv, tv, mkArr [] [v]) /\ nth_error x (Z.to_nat i) = Some xv /\ nth_error t (Z.to_nat j) = Some tv /\ field_at d (Z.to_nat i) (Z.to_nat j) = Some v) /\
  (~ ((0 <= i < Z.of_nat (List.length x))%Z /\ (0 <= j < Z.of_nat (List.length t))%Z) -> get_datapoint d i j = Err IndexError).
Proof.
  intros P. pose proof P as (W & x & t & X & T & S & _). exists x, t. split; [exact X|]. split; [exact T|]. unfold get_datapoint. rewrite X, T. split.
  - intros [[I1 I2] [J1 J2]]. destruct (Z.ltb_spec i 0); [lia|]. destruct (Z.leb_spec (Z.of_nat (List.length x)) i); [lia|]. destruct (Z.ltb_spec j 0); [lia|]. destruct (Z.leb_spec (Z.of_nat (List.length t)) j); [lia|]. cbn [orb].
    assert (Hi : Z.to_nat i < List.length x) by lia. assert (Hj : Z.to_nat j < List.length t) by lia.
    unfold at1. destruct (nth_error x (Z.to_nat i)) as [xv|] eqn:Ex; [|apply nth_error_None in Ex; lia]. destruct (nth_error t (Z.to_nat j)) as [tv|] eqn:Et; [|apply nth_error_None in Et; lia]. cbn [bind].
    destruct (index2_plain _ _ _ _ _ S W Hi Hj) as (v & E & G). rewrite E. cbn [bind]. exists xv, tv, v. rewrite (plain_field d _ _ P), G. auto.
  - intros H. match goal with |- (if ?b then _ else _) = _ => destruct b eqn:C; [reflexivity|] end. exfalso. apply H. lia.
Qed.
(** Random sampling: every returned row is a grid point with its own value; with distinct
    indices drawn, it is the point of the drawn flattened index. *)
Theorem C28_random d n choice r : plain d -> sample_random d n choice = Ok r -> Forall (grid_point d) r.
Proof.
  intros P. pose proof P as (W & x & t & X & T & S & _). unfold sample_random. rewrite X, T, S. destruct (n_samples _ n) as [k|]; [|discriminate]. cbn [bind]. intros H. apply mapM_Forall in H.
  induction H as [|a b l r E H IH]; constructor; auto. destruct (Nat.ltb a _); [|discriminate]. eapply pick2_grid; eauto.
Qed.
(** ... and it returns as many rows as asked for (a fraction is rounded down), when the draw is
    without replacement from all points. *)
Theorem C28_random_total d n choice k : plain d -> (forall x t, d_x d = Some x -> d_t d = Some t -> n_samples (List.length x * List.length t) n = Ok k /\
    List.length (choice k) = k /\ Forall (fun i => i < List.length x * List.length t) (choice k)) ->
  exists r, sample_random d n choice = Ok r /\ List.length r = k.
Proof.
  intros P H. pose proof P as (W & x & t & X & T & S & _). destruct (H x t X T) as (N & L & F). unfold sample_random. rewrite X, T, S, N. cbn [bind]. clear N H. revert L F. generalize (choice k) as l. intros l <- F.
  induction F as [|i l Hi F IH]; cbn [mapM]; [eexists; split; reflexivity|]. destruct (Nat.ltb_spec i (List.length x * List.length t)); [|lia].
  assert (T0 : List.length t <> 0) by (intros E; rewrite E in Hi; lia).
  destruct (pick2_plain d x t (i / List.length t) (i mod List.length t) P X T) as (p & E & _); [apply Nat.div_lt_upper_bound; lia|now apply Nat.mod_upper_bound|].
  rewrite E. cbn [bind]. destruct IH as (r & E2 & L2). rewrite E2. cbn [bind]. eexists. split; [reflexivity|]. cbn. now rewrite L2.
Qed.
Theorem C28_amount total n k : n_samples total n = Ok k -> k <= total /\
  match n with Count z => Z.of_nat k = z | Ratio q => (0 < q < 1)%Q /\ (inject_Z (Z.of_nat k) <= inject_Z (Z.of_nat total) * q < inject_Z (Z.of_nat k) + 1)%Q end.
Proof.
  unfold n_samples. destruct n as [z|q].
  - destruct (Z.ltb_spec (Z.of_nat total) z); [discriminate|]. destruct (Z.ltb_spec z 0); [discriminate|]. intros [= <-]. lia.
  - destruct (Qle_bool q 0 || Qle_bool 1 q) eqn:E; [intros X; match type of X with (if ?b then _ else _) = _ => destruct b; discriminate X end|]. apply orb_false_iff in E. destruct E as [E1 E2].
    assert (Q1 : (0 < q)%Q) by (apply Qnot_le_lt; intros X; apply Qle_bool_iff in X; congruence). assert (Q2 : (q < 1)%Q) by (apply Qnot_le_lt; intros X; apply Qle_bool_iff in X; congruence).
    set (p := (inject_Z (Z.of_nat total) * q)%Q). intros XE. assert (KE : k = Z.to_nat (Qfloor p)) by congruence. clear XE. rewrite KE. clear KE. assert (T0 : (0 <= inject_Z (Z.of_nat total))%Q) by (change 0%Q with (inject_Z 0); rewrite <- Zle_Qle; lia).
    assert (P0 : (0 <= p)%Q) by (apply Qmult_le_0_compat; [exact T0|now apply Qlt_le_weak]).
    assert (F0 : (0 <= Qfloor p)%Z) by (change 0%Z with (Qfloor 0); now apply Qfloor_resp_le).
    rewrite Z2Nat.id by exact F0. split.
    + assert (Le : (inject_Z (Qfloor p) <= inject_Z (Z.of_nat total))%Q).
      { eapply Qle_trans; [apply Qfloor_le|]. unfold p. setoid_replace (inject_Z (Z.of_nat total)) with (inject_Z (Z.of_nat total) * 1)%Q at 2 by ring. rewrite !(Qmult_comm (inject_Z _)). apply Qmult_le_compat_r; [now apply Qlt_le_weak|exact T0]. }
      rewrite <- Zle_Qle in Le. apply Nat2Z.inj_le. rewrite Z2Nat.id by exact F0. exact Le.
    + split; [split; assumption|]. split; [apply Qfloor_le|]. pose proof (Qlt_floor p) as F. rewrite inject_Z_plus in F. exact F.
Qed.
(** Uniform sampling: grid points with their own values, the square of the integer root of the
    number asked for. *)
Theorem C28_uniform d n lin : plain d -> (forall len g, List.length (lin len g) = g /\ Forall (fun i => i < len) (lin len g)) ->
  (forall x t, d_x d = Some x -> d_t d = Some t -> n <= List.length x * List.length t) ->
  exists r, sample_uniform d n lin = Ok r /\ Forall (grid_point d) r /\ List.length r = Nat.sqrt n * Nat.sqrt n.
Proof.
  intros P HL Hn. pose proof P as (W & x & t & X & T & S & _). unfold sample_uniform. rewrite X, T. specialize (Hn x t X T). destruct (Nat.ltb_spec (List.length x * List.length t) n); [lia|]. cbv zeta.
  destruct (HL (List.length x) (Nat.sqrt n)) as [Lx Fx]. destruct (HL (List.length t) (Nat.sqrt n)) as [Lt Ft].
  set (ps := flat_map _ _). assert (Fp : Forall (fun ij => fst ij < List.length x /\ snd ij < List.length t) ps).
  { apply Forall_forall. intros [i j] I. apply in_flat_map in I. destruct I as (j' & Ij & I). apply in_map_iff in I. destruct I as (i' & [= <- <-] & I). rewrite Forall_forall in Fx, Ft. cbn. auto. }
  assert (Lp : List.length ps = Nat.sqrt n * Nat.sqrt n).
  { unfold ps. transitivity (List.length (lin (List.length t) (Nat.sqrt n)) * Nat.sqrt n); [|now rewrite Lt]. clear -Lx. induction (lin (List.length t) (Nat.sqrt n)) as [|j l IH]; [reflexivity|]. cbn [flat_map List.length]. rewrite app_length, map_length, IH, Lx, Nat.mul_succ_l. lia. }
  rewrite <- Lp. clear Lp. induction Fp as [|[i j] ps' [Hi Hj] Fp IH]; cbn [mapM]; [exists []; repeat split; constructor|]. cbn in Hi, Hj.
  destruct (pick2_plain d x t i j P X T Hi Hj) as (p & E & _). rewrite E. cbn [bind]. destruct IH as (r & E2 & G & L). rewrite E2. cbn [bind]. exists (p :: r). split; [reflexivity|]. split; [|cbn; now rewrite L].
  constructor; [eapply pick2_grid; eauto|exact G].
Qed.
(** More points than the grid has are refused. *)
Theorem C28_uniform_too_many d x t n lin : d_x d = Some x -> d_t d = Some t -> List.length x * List.length t < n -> sample_uniform d n lin = Err ValueError.
Proof. intros X T H. unfold sample_uniform. rewrite X, T. destruct (Nat.ltb_spec (List.length x * List.length t) n); [reflexivity|lia]. Qed.
(** np.linspace(0, len - 1, g, dtype=int), exact *)
Definition linspace (len g : nat) : list nat := map (fun i => i * (len - 1) / (g - 1)) (seq 0 g).
(** The points need not be distinct, even when few of the grid's points are asked for: with 2
    positions and 8 times, the first two of 9 samples are the same point. *)
Theorem C28_uniform_repeats_refuted : exists d x t r, d_x d = Some x /\ d_t d = Some t /\ plain d /\ sample_uniform d 9 linspace = Ok r /\
  9 <= List.length x * List.length t /\ List.length r = 9 /\ nth_error r 0 = nth_error r 1 /\ nth_error r 0 <> None.
Proof.
  set (x := [Fin 0; Fin 1]). set (t := map (fun k => Fin (inject_Z (Z.of_nat k))) (seq 0 8)). set (u := mkArr [2; 8] (map (fun k => Fin (inject_Z (Z.of_nat k))) (seq 0 16))).
  exists (mkDs (Some x) (Some t) u None []), x, t. eexists. split; [reflexivity|]. split; [reflexivity|]. split; [|split; [vm_compute; reflexivity|]; split; [vm_compute; lia|]; split; [reflexivity|]; split; [reflexivity|discriminate]].
  split; [reflexivity|]. exists x, t. repeat split; reflexivity.
Qed.
(** The mesh lists the points in the order of the flattened field. *)
Lemma flat_map_nth {A B} (f : A -> list B) m : forall (l : list A) k, (forall a, In a l -> List.length (f a) = m) -> m <> 0 -> k < List.length l * m ->
  exists a, nth_error l (k / m) = Some a /\ nth_error (flat_map f l) k = nth_error (f a) (k mod m).
Proof.
  induction l as [|a l IH]; intros k H M L; [cbn in L; lia|]. cbn [List.length] in L. rewrite Nat.mul_succ_l in L. cbn [flat_map]. pose proof (H a ltac:(now left)) as La.
  destruct (Nat.ltb_spec k m) as [K|K].
  - exists a. rewrite Nat.div_small, Nat.mod_small by exact K. split; [reflexivity|]. rewrite nth_error_app1 by lia. reflexivity.
  - destruct (IH (k - m)) as (b & E1 & E2); [intros; apply H; now right|exact M|lia|]. exists b. replace k with ((k - m) + 1 * m) by lia. rewrite Nat.div_add, Nat.mod_add by exact M. rewrite Nat.add_1_r. cbn [nth_error]. split; [exact E1|].
    rewrite nth_error_app2 by lia. rewrite La. replace (k - m + 1 * m - m) with (k - m) by lia. exact E2.
Qed.
Theorem C28_mesh d x t : plain d -> d_x d = Some x -> d_t d = Some t -> List.length (mesh true x t) = List.length (flat (d_usol d)) /\
  forall k p v, nth_error (mesh true x t) k = Some p -> nth_error (flat (d_usol d)) k = Some v -> grid_point d (fst p, snd p, v).
Proof.
  intros P X T. pose proof P as (W & x' & t' & X' & T' & S & _). rewrite X in X'. rewrite T in T'. injection X' as <-. injection T' as <-.
  assert (LM : List.length (mesh true x t) = List.length x * List.length t).
  { unfold mesh. clear. induction x as [|a x IH]; cbn [flat_map List.length]; [reflexivity|]. rewrite app_length, map_length, IH, Nat.mul_succ_l. lia. }
  assert (LU : List.length (flat (d_usol d)) = List.length x * List.length t) by (unfold wfa in W; rewrite W, S; cbn; lia). split; [congruence|].
  intros k p v Ep Ev. assert (K : k < List.length x * List.length t) by (rewrite <- LM; apply nth_error_Some; congruence). assert (T0 : List.length t <> 0) by (intros E; rewrite E in K; lia).
  unfold mesh in Ep. destruct (flat_map_nth (fun a => map (fun b => (a, b)) t) (List.length t) x k) as (a & E1 & E2); [intros; apply map_length|exact T0|exact K|].
  rewrite E2, nth_error_map in Ep. destruct (nth_error t (k mod List.length t)) as [b|] eqn:E3; [|discriminate]. injection Ep as <-. cbn [fst snd].
  exists x, t, (k / List.length t), (k mod List.length t). rewrite (plain_field _ _ _ P). repeat split; auto. cbn [fst snd].
  rewrite <- Ev. rewrite (flat_nth _ _ W) by (rewrite S; cbn; lia). rewrite S. cbn [unravel]. change (prod [List.length t]) with (List.length t * 1). change (prod []) with 1. rewrite Nat.mul_1_r, Nat.div_1_r. reflexivity.
Qed.
(** Range queries on increasing coordinates: exactly the coordinates lo <= c < hi, in order, and
    the field at those points. *)
Lemma firstn_nth {A} (l : list A) : forall n k, k < n -> nth_error (firstn n l) k = nth_error l k.
Proof. induction l as [|a l IH]; intros [|n] [|k] H; cbn; try lia; auto. apply IH. lia. Qed.
Lemma skipn_nth {A} (l : list A) : forall n k, nth_error (skipn n l) k = nth_error l (n + k).
Proof. induction l as [|a l IH]; intros [|n] k; cbn; auto. destruct k; reflexivity. Qed.
Lemma slice_nth {A} (l : list A) i j k : nth_error (slice l i j) k = if Nat.ltb (i + k) j then nth_error l (i + k) else None.
Proof.
  unfold slice. destruct (Nat.ltb_spec (i + k) j) as [H|H].
  - rewrite firstn_nth by lia. apply skipn_nth.
  - apply nth_error_None. rewrite firstn_length. lia.
Qed.

Lemma filter_slice {A} (P : A -> bool) : forall c i j, (forall k a, nth_error c k = Some a -> (P a = true <-> i <= k < j)) -> filter P c = slice c i j.
Proof.
  induction c as [|a c IH]; intros i j H; [unfold slice; rewrite skipn_nil, firstn_nil; reflexivity|]. pose proof (H 0 a eq_refl) as H0. cbn [filter].
  assert (HT : forall i' j', (forall k, i' <= k < j' <-> i <= Datatypes.S k < j) -> filter P c = slice c i' j') by (intros i' j' E; apply IH; intros k b Hk; rewrite E; apply (H (Datatypes.S k)); exact Hk).
  destruct i as [|i].
  - destruct j as [|j].
    + destruct (P a); [destruct H0 as [H0 _]; specialize (H0 eq_refl); lia|]. rewrite (HT 0 0) by (intros; lia). reflexivity.
    + destruct (P a); [|destruct H0 as [_ H0]; specialize (H0 ltac:(lia)); discriminate]. rewrite (HT 0 j) by (intros; lia). unfold slice. cbn [skipn]. rewrite !Nat.sub_0_r. reflexivity.
  - destruct (P a); [destruct H0 as [H0 _]; specialize (H0 eq_refl); lia|]. rewrite (HT i (pred j)) by (intros; lia). unfold slice. cbn [skipn]. f_equal. lia.
Qed.
Definition in_range (lo hi c : num) : bool := nle lo c && nlt c hi.
Lemma range_slice ss c lo hi : searches ss -> increasing c -> is_nan lo = false -> is_nan hi = false -> slice c (ss c lo) (ss c hi) = filter (in_range lo hi) c.
Proof.
  intros SS I L H. symmetry. apply filter_slice. intros k a E. destruct (SS c lo I L) as [_ SL]. destruct (SS c hi I H) as [_ SH]. specialize (SL k a E). specialize (SH k a E). unfold in_range. rewrite andb_true_iff. split.
  - intros [H1 H2]. split; [|now apply SH]. destruct (Nat.le_gt_cases (ss c lo) k) as [|G]; [assumption|]. apply SL in G. apply nlt_not_nle in G. congruence.
  - intros [H1 H2]. apply SH in H2. split; [|exact H2]. destruct (nlt_notnan _ _ H2) as [N _]. destruct (nle_total lo a L N) as [|T]; [assumption|]. destruct (nle lo a) eqn:Q; [reflexivity|].
    assert (nlt a lo = true) by (unfold nlt; rewrite N, L, Q; reflexivity). apply SL in H0. lia.
Qed.
Lemma slice_length {A} (l : list A) i j : List.length (slice l i j) = min (j - i) (List.length l - i).
Proof. unfold slice. rewrite firstn_length, skipn_length. reflexivity. Qed.
Theorem C28_range ss d x t x0 x1 t0 t1 : searches ss -> plain d -> d_x d = Some x -> d_t d = Some t -> increasing x -> increasing t ->
  is_nan x0 = false -> is_nan x1 = false -> is_nan t0 = false -> is_nan t1 = false ->
  exists rows, get_range ss d x0 x1 t0 t1 = Ok (filter (in_range x0 x1) x, filter (in_range t0 t1) t, rows) /\
    List.length rows = List.length (filter (in_range x0 x1) x) /\ Forall (fun r => List.length r = List.length (filter (in_range t0 t1) t)) rows /\
    forall a b r v xv tv, nth_error rows a = Some r -> nth_error r b = Some v -> nth_error (filter (in_range x0 x1) x) a = Some xv -> nth_error (filter (in_range t0 t1) t) b = Some tv ->
      grid_point d (xv, tv, v).
Proof.
  intros SS P X T IX IT N0 N1 N2 N3. pose proof P as (W & x' & t' & X' & T' & Sh & _). rewrite X in X'. rewrite T in T'. injection X' as <-. injection T' as <-.
  rewrite <- !(range_slice ss) by assumption. unfold get_range. rewrite X, T. unfold slice2. rewrite Sh. cbn [bind].
  set (i1 := ss x x0). set (i2 := ss x x1). set (j1 := ss t t0). set (j2 := ss t t1). set (m := List.length t).
  eexists. split; [reflexivity|]. split; [rewrite map_length, !slice_length, seq_length; reflexivity|].
  assert (LF : List.length (flat (d_usol d)) = List.length x * m) by (unfold wfa in W; rewrite W, Sh; cbn; unfold m; lia).
  assert (RN : forall i, i < List.length x -> forall k, k < m -> nth_error (slice (flat (d_usol d)) (i * m) (i * m + m)) k = get (d_usol d) [i; k]).
  { intros i Hi k Hk. rewrite slice_nth. destruct (Nat.ltb_spec (i * m + k) (i * m + m)); [|lia]. unfold get. rewrite Sh. cbn [ravel]. f_equal. fold m. cbn [prod fold_right]. lia. }
  split.
  - apply Forall_forall. intros r I. apply in_map_iff in I. destruct I as (i & <- & I). apply In_nth_error in I. destruct I as (k & E). rewrite slice_nth in E. destruct (i1 + k <? i2)%nat; [|discriminate].
    assert (K : i1 + k < List.length x) by (rewrite <- (seq_length (List.length x) 0); apply nth_error_Some; congruence). rewrite nth_error_seq in E by exact K. injection E as <-.
    rewrite !slice_length, LF. fold m. assert (M : i1 * m + k * m + m <= List.length x * m) by nia. rewrite Nat.mul_add_distr_r. lia.
  - intros a b r v xv tv E1 E2 E3 E4. rewrite nth_error_map in E1. destruct (nth_error (slice (seq 0 (List.length x)) i1 i2) a) as [i|] eqn:E0; [|discriminate]. injection E1 as <-.
    rewrite slice_nth in E0. rewrite slice_nth in E3. rewrite slice_nth in E4. destruct (Nat.ltb_spec (i1 + a) i2) as [A|]; [|discriminate]. destruct (Nat.ltb_spec (j1 + b) j2) as [B|]; [|discriminate].
    assert (KA : i1 + a < List.length x) by (apply nth_error_Some; congruence). assert (KB : j1 + b < m) by (apply nth_error_Some; congruence).
    rewrite nth_error_seq in E0 by exact KA. injection E0 as <-. rewrite slice_nth in E2. destruct (Nat.ltb_spec (j1 + b) j2); [|lia]. rewrite RN in E2 by assumption.
    exists x, t, (i1 + a), (j1 + b). cbn [fst snd]. rewrite (plain_field _ _ _ P). auto.
Qed.
(** np.searchsorted on an increasing array counts the entries below the value. *)
Definition ss_count (c : list num) (v : num) : nat := List.length (filter (fun a => nlt a v) c).
Lemma increasing_tl a c : increasing (a :: c) -> increasing c.
Proof. intros H i j x y L E1 E2. apply (H (Datatypes.S i) (Datatypes.S j)); auto. lia. Qed.
Lemma ss_count_searches : searches ss_count.
Proof.
  intros c v I N. split; [unfold ss_count; induction c as [|a c IH]; cbn; [lia|]; destruct (nlt a v); cbn; specialize (IH (increasing_tl _ _ I)); lia|].
  unfold ss_count. induction c as [|a c IH]; intros i b E; [destruct i; discriminate|]. cbn [filter]. destruct i as [|i].
  - injection E as <-. destruct (nlt a v) eqn:A; [cbn; split; [auto|lia]|]. split; [|discriminate]. intros H. exfalso.
    destruct (filter _ c) as [|b l] eqn:F; [cbn in H; lia|]. assert (In b (filter (fun a => nlt a v) c)) by (rewrite F; now left). apply filter_In in H0. destruct H0 as [Ib Vb]. apply In_nth_error in Ib. destruct Ib as [k Ek].
    assert (nlt a b = true) by (apply (I 0 (Datatypes.S k)); [lia|reflexivity|exact Ek]). rewrite (nlt_nle_trans a b v H0 (nlt_nle _ _ Vb)) in A. discriminate.
  - cbn in E. specialize (IH (increasing_tl _ _ I) i b E). destruct (nlt a v) eqn:A; [cbn; rewrite <- IH; lia|]. split; [|intros B].
    + intros H. apply IH. lia.
    + exfalso. assert (nlt a b = true) by (apply (I 0 (Datatypes.S i)); [lia|reflexivity|exact E]). rewrite (nlt_nle_trans a b v H (nlt_nle _ _ B)) in A. discriminate.
Qed.
Definition demo_legacy : dataset := mkDs (Some (map Fin [0; 1; 2]%Q)) (Some (map Fin [0; 5]%Q)) (mkArr [3; 2] (map Fin [10; 11; 12; 13; 14; 15]%Q)) None [].
Lemma demo_legacy_ok : construct (mkArgs None (d_x demo_legacy) (d_t demo_legacy) (Some (d_usol demo_legacy)) None None None "u" "t" []) = Ok demo_legacy.
Proof. reflexivity. Qed.
Lemma demo_plain : plain demo_legacy.
Proof. split; [reflexivity|]. exists (map Fin [0; 1; 2]%Q), (map Fin [0; 5]%Q). repeat split. Qed.
(** The dataset's own boundaries, given as the range, lose the last row and column: the upper
    bound is exclusive, although "within the range" reads as inclusive. *)
Theorem C28_range_end_refuted : exists d, plain d /\ d_x d = Some (map Fin [0; 1; 2]%Q) /\ d_t d = Some (map Fin [0; 5]%Q) /\
  forall ss, searches ss -> get_range ss d (Fin 0) (Fin 2) (Fin 0) (Fin 5) = Ok (map Fin [0; 1]%Q, map Fin [0]%Q, [[Fin 10]; [Fin 12]]).
Proof.
  exists demo_legacy. split; [exact demo_plain|]. split; [reflexivity|]. split; [reflexivity|]. intros ss SS.
  assert (IX : increasing (map Fin [0; 1; 2]%Q)).
  { intros i j a b L E1 E2. destruct i as [|[|[|i]]]; destruct j as [|[|[|j]]]; try lia; try (cbn in E1; destruct i; discriminate); try (cbn in E2; destruct j; discriminate); cbn in E1, E2; injection E1 as <-; injection E2 as <-; reflexivity. }
  assert (IT : increasing (map Fin [0; 5]%Q)).
  { intros i j a b L E1 E2. destruct i as [|[|i]]; destruct j as [|[|j]]; try lia; try (cbn in E1; destruct i; discriminate); try (cbn in E2; destruct j; discriminate); cbn in E1, E2; injection E1 as <-; injection E2 as <-; reflexivity. }
  assert (U : forall c v, increasing c -> is_nan v = false -> ss c v = ss_count c v).
  { intros c v I N. destruct (SS c v I N) as [B1 S1]. destruct (ss_count_searches c v I N) as [B2 S2]. destruct (Nat.lt_trichotomy (ss c v) (ss_count c v)) as [H|[H|H]]; [exfalso| |exfalso]; try assumption.
    - destruct (nth_error c (ss c v)) as [a|] eqn:E; [|apply nth_error_None in E; lia]. apply (S2 _ _ E), (S1 _ _ E) in H. lia.
    - destruct (nth_error c (ss_count c v)) as [a|] eqn:E; [|apply nth_error_None in E; lia]. apply (S1 _ _ E), (S2 _ _ E) in H. lia. }
  unfold get_range. cbn [d_x d_t demo_legacy]. rewrite !U by (assumption || reflexivity). reflexivity.
Qed.
(** Spline sampling lists the points with t varying slowest but the values with x varying
    slowest: even with the exact function as the interpolant, a value is returned at a point
    where it is not the value of the function. *)
Theorem C28_spline_refuted : exists xs ts f p v, In (p, v) (sample_spline xs ts f) /\ v <> f (fst p) (snd p) /\ List.length xs = List.length ts.
Proof.
  exists (map Fin [0; 1]%Q), (map Fin [0; 5]%Q), (fun x t => x), (Fin 1, Fin 0), (Fin 0). split; [right; left; reflexivity|]. split; [cbn; congruence|reflexivity].
Qed.
(** It is right exactly when the interpolant does not depend on which argument comes first on
    the grid: the i-th point with the i-th value pairs (x_b, t_a) with f(x_a, t_b). *)
Theorem C28_spline xs ts f n : List.length xs = n -> List.length ts = n -> forall k p v, nth_error (sample_spline xs ts f) k = Some (p, v) ->
  exists a b xa xb ta tb, k = a * n + b /\ nth_error xs a = Some xa /\ nth_error xs b = Some xb /\ nth_error ts a = Some ta /\ nth_error ts b = Some tb /\ p = (xb, ta) /\ v = f xa tb.
Proof.
  intros Lx Lt k p v H. unfold sample_spline in H.
  assert (CN : forall {A B} (l : list A) (m : list B) k a b, nth_error (combine l m) k = Some (a, b) -> nth_error l k = Some a /\ nth_error m k = Some b).
  { intros A B l. induction l as [|x l IH]; intros [|y m] [|k'] a b E; try discriminate; [injection E as <- <-; auto|cbn [nth_error]; apply IH; exact E]. }
  apply CN in H. destruct H as [H1 H2].
  assert (LP : k < n * n).
  { assert (K : k < List.length (flat_map (fun t : num => map (fun x : num => (x, t)) xs) ts)) by (apply nth_error_Some; congruence). rewrite <- Lt at 1. clear -K Lx. revert K.
    assert (G : List.length (flat_map (fun t : num => map (fun x : num => (x, t)) xs) ts) = List.length ts * n) by (induction ts as [|u ts IH]; [reflexivity|]; cbn [flat_map List.length]; rewrite app_length, map_length, IH, Lx; lia).
    rewrite G. auto. }
  assert (N0 : n <> 0) by (intros ->; lia).
  destruct (flat_map_nth (fun t : num => map (fun x : num => (x, t)) xs) n ts k) as (ta & A1 & A2); [intros; rewrite map_length; exact Lx|exact N0|lia|].
  destruct (flat_map_nth (fun x : num => map (fun t : num => f x t) ts) n xs k) as (xa & B1 & B2); [intros; rewrite map_length; exact Lt|exact N0|lia|].
  rewrite A2, nth_error_map in H1. rewrite B2, nth_error_map in H2. destruct (nth_error xs (k mod n)) as [xb|] eqn:E1; [|discriminate]. destruct (nth_error ts (k mod n)) as [tb|] eqn:E2; [|discriminate].
  injection H1 as <-. injection H2 as <-. exists (k / n), (k mod n), xa, xb, ta, tb. repeat split; auto. pose proof (Nat.div_mod k n N0). lia.
Qed.
(** An N-D dataset whose axes are in the order t, x is read as if they were x, t. *)
Theorem C28_nd_order_refuted : exists a d, construct a = Ok d /\ a_axis a = Some ["t"; "x"] /\
  (exists xv tv v, get_datapoint d 0 1 = Ok (xv, tv, mkArr [] [v]) /\ nth_error (coord_or_nan (d_x d)) 0 = Some xv /\ nth_error (coord_or_nan (d_t d)) 1 = Some tv /\ field_at d 0 1 <> Some v) /\
  (exists choice p, sample_random d (Count 1) choice = Ok [p] /\ NoDup (choice 1) /\ Forall (fun i => i < 6) (choice 1) /\ ~ grid_point d p).
Proof.
  exists demo_nd. eexists. split; [reflexivity|]. split; [reflexivity|]. split.
  - exists (Fin 0), (Fin 1), (Fin 2). repeat split; try reflexivity. vm_compute. intros H. discriminate.
  - exists (fun _ => [1]), (Fin 0, Fin 1, Fin 2). split; [reflexivity|]. split; [repeat constructor; intros []|]. split; [repeat constructor|].
    intros (x & t & i & j & X & T & E1 & E2 & E3). cbn in X, T. injection X as <-. injection T as <-.
    destruct i as [|[|[|i]]]; try discriminate; try (destruct i; discriminate). destruct j as [|[|j]]; try discriminate; try (destruct j; discriminate).
Qed.
(** ... and without an x axis, or with a third axis, reading fails with an error that does not
    mention it. *)
Theorem C28_nd_dims_refuted :
  (exists a d, construct a = Ok d /\ a_axis a = Some ["t"; "y"] /\ get_datapoint d 0 0 = Err TypeError /\ forall n c, sample_random d n c = Err TypeError) /\
  (exists a d, construct a = Ok d /\ a_axis a = Some ["x"; "t"; "y"] /\ exists u, get_datapoint d 0 0 = Ok (Fin 0, Fin 0, u) /\ shape u = [2] /\
     forall c, sample_random d (Count 1) c = Err ValueError).
Proof.
  split.
  - exists (mkArgs None None None None (Some [("u", mkArr [2; 3] (map Fin [1; 2; 3; 4; 5; 6]%Q))]) (Some [("y", map Fin [0; 1; 2]%Q); ("t", map Fin [0; 1]%Q)]) (Some ["t"; "y"]) "u" "t" []).
    eexists. split; [reflexivity|]. repeat split; reflexivity.
  - exists (mkArgs None None None None (Some [("u", mkArr [1; 1; 2] (map Fin [1; 2]%Q))]) (Some [("x", [Fin 0]); ("y", map Fin [0; 1]%Q); ("t", [Fin 0])]) (Some ["x"; "t"; "y"]) "u" "t" []).
    eexists. split; [reflexivity|]. split; [reflexivity|]. eexists. split; [reflexivity|]. split; reflexivity.
Qed.
Example C28_example : sample_random demo_legacy (Count 2) (fun _ => [5; 0]) = Ok [(Fin 2, Fin 5, Fin 15); (Fin 0, Fin 0, Fin 10)] /\
  n_samples 6 (Ratio (1 # 2)) = Ok 3 /\ get_datapoint demo_legacy 2 0 = Ok (Fin 2, Fin 0, mkArr [] [Fin 14]) /\ get_datapoint demo_legacy (-1) 0 = Err IndexError /\
  mesh true (map Fin [0; 1]%Q) [Fin 5] = [(Fin 0, Fin 5); (Fin 1, Fin 5)] /\
  sample_uniform demo_legacy 4 (fun len g => match g with 0 => [] | 1 => [0] | _ => map (fun i => i * (len - 1) / (g - 1)) (seq 0 g) end) = Ok [(Fin 0, Fin 0, Fin 10); (Fin 2, Fin 0, Fin 14); (Fin 0, Fin 5, Fin 11); (Fin 2, Fin 5, Fin 15)].
Proof. repeat split; reflexivity. Qed.
Print Assumptions C27_consistent.
Print Assumptions C27_errors.
Print Assumptions C27_accepts_nd.
Print Assumptions C27_accepts_legacy.
Print Assumptions C27_nd_wins.
Print Assumptions C27_missing_key_refuted.
Print Assumptions C28_datapoint.
Print Assumptions C28_random.
Print Assumptions C28_random_total.
Print Assumptions C28_amount.
Print Assumptions C28_uniform.
Print Assumptions C28_mesh.
Print Assumptions C28_range.
Print Assumptions C28_range_end_refuted.
Print Assumptions C28_spline_refuted.
Print Assumptions C28_spline.
Print Assumptions C28_nd_order_refuted.
Print Assumptions C28_nd_dims_refuted.

(** *** C60: get_derivative *)
(** On data linear along an axis with spacing h the result is the slope times h: it is a
    derivative per index, not per unit of the coordinate. *)
Lemma gradient1_linear n f a b i : 2 <= n -> i < n -> (forall k, k < n -> (f k == a * inject_Z (Z.of_nat k) + b)%Q) -> (gradient1 n f i == a)%Q.
Proof.
  intros N I H. unfold gradient1. destruct (Nat.eqb_spec i 0) as [->|Z].
  - rewrite (H 1), (H 0) by lia. change (inject_Z (Z.of_nat 1)) with 1%Q. change (inject_Z (Z.of_nat 0)) with 0%Q. ring.
  - destruct (Nat.eqb_spec (S i) n) as [E|E].
    + rewrite (H i), (H (i - 1)) by lia. replace (Z.of_nat i) with (Z.of_nat (i - 1) + 1)%Z by lia. rewrite inject_Z_plus. change (inject_Z 1) with 1%Q. ring.
    + rewrite (H (S i)), (H (i - 1)) by lia. replace (Z.of_nat (S i)) with (Z.of_nat (i - 1) + 2)%Z by lia. rewrite inject_Z_plus. change (inject_Z 2) with 2%Q. field.
Qed.
Theorem C60_derivative_x u n m x0 h a (b : nat -> Q) : 2 <= n -> (forall i j, i < n -> j < m -> (u i j == a * (x0 + inject_Z (Z.of_nat i) * h) + b j)%Q) ->
  exists g, get_derivative "x" n m u = Ok g /\ forall i j, i < n -> j < m -> (g i j == a * h)%Q.
Proof.
  intros N H. unfold get_derivative. cbn [String.eqb Ascii.eqb Bool.eqb]. destruct (Nat.ltb_spec n 2); [lia|]. eexists. split; [reflexivity|]. intros i j Hi Hj. cbn beta.
  apply gradient1_linear with (b := (a * x0 + b j)%Q); auto. intros k Hk. rewrite H by assumption. ring.
Qed.
Theorem C60_derivative_t u n m t0 h a (b : nat -> Q) : 2 <= m -> (forall i j, i < n -> j < m -> (u i j == a * (t0 + inject_Z (Z.of_nat j) * h) + b i)%Q) ->
  exists g, get_derivative "t" n m u = Ok g /\ forall i j, i < n -> j < m -> (g i j == a * h)%Q.
Proof.
  intros N H. unfold get_derivative. cbn [String.eqb Ascii.eqb Bool.eqb]. destruct (Nat.ltb_spec m 2); [lia|]. eexists. split; [reflexivity|]. intros i j Hi Hj. cbn beta.
  apply gradient1_linear with (b := (a * t0 + b i)%Q); auto. intros k Hk. rewrite H by assumption. ring.
Qed.
(** Unequal sizes do not mix up the axes: constant along the other axis gives zero. *)
Theorem C60_derivative_const u n m (b : nat -> Q) : 2 <= n -> (forall i j, i < n -> j < m -> (u i j == b j)%Q) ->
  exists g, get_derivative "x" n m u = Ok g /\ forall i j, i < n -> j < m -> (g i j == 0)%Q.
Proof.
  intros N H. destruct (C60_derivative_x u n m 0%Q 0%Q 0%Q b N) as (g & E & G); [intros; rewrite H by assumption; ring|]. exists g. split; [exact E|]. intros i j Hi Hj. rewrite G by assumption. ring.
Qed.
Theorem C60_axis axis n m u : axis <> "x" -> axis <> "t" -> get_derivative axis n m u = Err ValueError.
Proof. intros A B. unfold get_derivative. apply String.eqb_neq in A, B. now rewrite A, B. Qed.
(** So on a grid with spacing 1/10 the derivative of u = x comes out as 1/10. *)
Theorem C60_spacing_refuted : exists n m u x (dx : Q), 2 <= n /\ (forall i, (x (S i) == x i + dx)%Q) /\ (forall i j, (u i j == x i)%Q) /\
  forall g, get_derivative "x" n m u = Ok g -> forall i j, i < n -> j < m -> ~ (g i j == 1)%Q.
Proof.
  exists 5, 3, (fun i _ => inject_Z (Z.of_nat i) * (1 # 10))%Q, (fun i => inject_Z (Z.of_nat i) * (1 # 10))%Q, (1 # 10). split; [lia|]. split; [|split].
  - intros i. rewrite Nat2Z.inj_succ. unfold Z.succ. rewrite inject_Z_plus. change (inject_Z 1) with 1%Q. ring.
  - intros; reflexivity.
  - intros g E i j Hi Hj. destruct (C60_derivative_x (fun i _ => inject_Z (Z.of_nat i) * (1 # 10))%Q 5 3 0%Q (1 # 10) 1%Q (fun _ => 0)%Q) as (g' & E' & G); [lia|intros; ring|].
    rewrite E' in E. injection E as <-. rewrite (G i j) by assumption. vm_compute. discriminate.
Qed.
Print Assumptions C60_derivative_x.
Print Assumptions C60_derivative_t.
Print Assumptions C60_derivative_const.
Print Assumptions C60_axis.
Print Assumptions C60_spacing_refuted.
Print Assumptions C28_uniform_too_many.
Print Assumptions C28_uniform_repeats_refuted.
