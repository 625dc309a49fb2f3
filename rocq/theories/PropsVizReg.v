(** Properties of the visualization adapter registry: C76. *)
From Coq Require Import List String Bool Arith Lia.
From Verif Require Import VizReg.
Import ListNotations.

(** *** Specification vocabulary *)

(** A call that leaves the registration of class [c] alone: it is not a
    (re-)registration or removal of [c], not a [clear_registry], and if it is
    a lookup, no resolver it could run answers with class [c]. *)
Definition leaves_alone (c : cls) (e : ev) : Prop :=
  match e with
  | ERegister c' _ => c' <> c
  | EUnregister c' => c' <> c
  | EClear => False
  | ELazy _ _ => True
  | EIter => True
  | ELookup env _ => forall r a, env r <> RPair (Some c) a
  end.

(** What [get_adapter] answers after history [h]. *)
Definition answer (w : world) (h : list ev) (env : nat -> routcome) (t : option cls) : lookup_result :=
  snd (get_adapter w env t (run w h)).

(** *** Dict lemmas *)
Lemma aget_aset c a l : aget c (aset c a l) = Some a.
Proof. induction l as [|[c' a'] l IH]; cbn; [now rewrite Nat.eqb_refl|]. destruct (Nat.eqb c c') eqn:E; cbn; rewrite E; auto. Qed.
Lemma aget_aset_ne c d a l : d <> c -> aget c (aset d a l) = aget c l.
Proof.
  intros H. induction l as [|[c' a'] l IH]; cbn.
  - destruct (Nat.eqb c d) eqn:E; [apply Nat.eqb_eq in E; congruence|reflexivity].
  - destruct (Nat.eqb d c') eqn:E; cbn; [|destruct (Nat.eqb c c'); auto].
    apply Nat.eqb_eq in E. subst. destruct (Nat.eqb c c') eqn:E; [apply Nat.eqb_eq in E; congruence|reflexivity].
Qed.
Lemma aget_adel_ne c d l : d <> c -> aget c (adel d l) = aget c l.
Proof.
  intros H. induction l as [|[c' a'] l IH]; cbn; [reflexivity|].
  destruct (Nat.eqb d c') eqn:E; cbn.
  - apply Nat.eqb_eq in E. subst. destruct (Nat.eqb c c') eqn:E; [apply Nat.eqb_eq in E; congruence|exact IH].
  - destruct (Nat.eqb c c'); auto.
Qed.
Lemma aget_adel c l : aget c (adel c l) = None.
Proof. induction l as [|[c' a'] l IH]; cbn; [reflexivity|]. destruct (Nat.eqb c c') eqn:E; cbn; [exact IH|now rewrite E]. Qed.
Lemma aget_none c l : aget c l = None <-> ~ In c (map fst l).
Proof.
  induction l as [|[c' a'] l IH]; cbn; [tauto|]. destruct (Nat.eqb c c') eqn:E.
  - apply Nat.eqb_eq in E. subst. split; [discriminate|]. intros H. exfalso. apply H. now left.
  - apply Nat.eqb_neq in E. rewrite IH. split; [intros H [F|F]; [congruence|tauto]|tauto].
Qed.
Lemma aget_in c a l : aget c l = Some a -> In (c, a) l.
Proof. induction l as [|[c' a'] l IH]; cbn; [discriminate|]. destruct (Nat.eqb c c') eqn:E; [apply Nat.eqb_eq in E; intros F; inversion F; subst; now left|auto]. Qed.
Lemma aset_keys c a l : map fst (aset c a l) = if existsb (Nat.eqb c) (map fst l) then map fst l else map fst l ++ [c].
Proof.
  induction l as [|[c' a'] l IH]; cbn; [reflexivity|]. destruct (Nat.eqb c c') eqn:E; cbn; [reflexivity|].
  rewrite IH. destruct (existsb _ _); reflexivity.
Qed.
Lemma lget_ldel n l : lget n (ldel n l) = None.
Proof. induction l as [|[c' a'] l IH]; cbn; [reflexivity|]. destruct (String.eqb n c') eqn:E; cbn; [exact IH|now rewrite E]. Qed.
Lemma aset_nodup c a l : NoDup (map fst l) -> NoDup (map fst (aset c a l)).
Proof.
  intros H. rewrite aset_keys. destruct (existsb (Nat.eqb c) (map fst l)) eqn:E; [exact H|].
  rewrite <- (rev_involutive (map fst l ++ [c])). apply NoDup_rev. rewrite rev_app_distr. cbn. constructor; [|now apply NoDup_rev].
  intros F. apply in_rev in F. assert (existsb (Nat.eqb c) (map fst l) = true) by (apply existsb_exists; exists c; split; [exact F|apply Nat.eqb_refl]). congruence.
Qed.
Lemma adel_nodup c l : NoDup (map fst l) -> NoDup (map fst (adel c l)).
Proof.
  induction l as [|[c' a'] l IH]; cbn; [auto|]. intros H. inversion H; subst. destruct (negb (Nat.eqb c c')); cbn; [|auto].
  constructor; [|auto]. intros F. apply H2. apply in_map_iff in F as ([x y] & E & I). apply filter_In in I as [I _]. cbn in E. subst. apply in_map_iff. now exists (c', y).
Qed.

(** shape of a lookup's effect on the state *)
Lemma lookup_effect w env t s :
  let s' := fst (get_adapter w env t s) in
  s' = s \/ (exists c, t = Some c /\ lazies s' = ldel (cname w c) (lazies s) /\
             (adapters s' = adapters s \/ exists r d a, lget (cname w c) (lazies s) = Some r /\ env r = RPair (Some d) (Some a) /\ adapters s' = aset d (Some a) (adapters s))).
Proof.
  unfold get_adapter. destruct t as [c|]; [|now left].
  assert (forall X, (match aget c (adapters s) with Some (Some a) => (s, Found (Some a)) | _ => X end) = (s, Found match aget c (adapters s) with Some a => a | None => None end) \/ (match aget c (adapters s) with Some (Some a) => (s, Found (Some a)) | _ => X end) = X) as D.
  { intros X. destruct (aget c (adapters s)) as [[a|]|]; auto. }
  destruct (D (match lget (cname w c) (lazies s) with
          | None => (s, Found (walk w c (adapters s)))
          | Some _ =>
              let '(s', ok) := resolve_lazy env (cname w c) s in
              if ok then
                match aget c (adapters s') with
                | Some (Some a) => (s', Found (Some a))
                | _ => (s', Found (walk w c (adapters s')))
                end
              else (s', Raised)
          end)) as [E|E]; rewrite E; clear D E; [now left|].
  destruct (lget (cname w c) (lazies s)) as [r|] eqn:L; [|now left]. right. exists c. split; [reflexivity|].
  unfold resolve_lazy. rewrite L. destruct (env r) as [[d|] [a|]|] eqn:R; cbn.
  - destruct (aget c _) as [[x|]|]; cbn; (split; [reflexivity|right; exists r, d, a; auto]).
  - destruct (aget c _) as [[x|]|]; cbn; (split; [reflexivity|now left]).
  - destruct (aget c _) as [[x|]|]; cbn; (split; [reflexivity|now left]).
  - destruct (aget c _) as [[x|]|]; cbn; (split; [reflexivity|now left]).
  - split; [reflexivity|now left].
Qed.

Lemma step_alone w c e s : leaves_alone c e -> aget c (adapters (step w s e)) = aget c (adapters s).
Proof.
  destruct e as [d a|n r|d| |env t|]; cbn [leaves_alone step]; intros H; try reflexivity.
  - now apply aget_aset_ne.
  - now apply aget_adel_ne.
  - destruct H.
  - destruct (lookup_effect w env t s) as [E|(d & _ & _ & [E|(r & d' & a & _ & E & F)])]; [now rewrite E|now rewrite E|].
    rewrite F. apply aget_aset_ne. intros ->. eapply H; eassumption.
Qed.
Lemma fold_alone w c h : Forall (leaves_alone c) h -> forall s, aget c (adapters (fold_left (step w) h s)) = aget c (adapters s).
Proof. induction 1 as [|e h He H IH]; cbn; intros s; [reflexivity|]. rewrite IH. now apply step_alone. Qed.
Lemma run_app w h1 h2 : run w (h1 ++ h2) = fold_left (step w) h2 (run w h1).
Proof. unfold run. apply fold_left_app. Qed.

(** *** C76 theorems *)

(** The adapter last registered for the exact class of the target wins, over
    ancestors and over lazy entries, whatever happened before and whatever
    else happens afterwards; and such a lookup changes nothing. *)
Theorem C76_latest_registration_wins : forall w h1 h2 c a env,
  Forall (leaves_alone c) h2 ->
  get_adapter w env (Some c) (run w (h1 ++ ERegister c (Some a) :: h2))
  = (run w (h1 ++ ERegister c (Some a) :: h2), Found (Some a)).
Proof.
  intros w h1 h2 c a env H. unfold get_adapter. replace (aget c (adapters (run w (h1 ++ ERegister c (Some a) :: h2)))) with (Some (Some a)); [reflexivity|].
  rewrite run_app. cbn [fold_left step]. rewrite (fold_alone w c h2 H). symmetry. apply aget_aset.
Qed.
Example C76_latest_registration_wins_ex :
  answer {| issub := fun _ _ => Some true; cname := fun _ => ""%string |}
    [ERegister 5 (Some 1); ERegister 7 (Some 2); ERegister 7 (Some 3); ERegister 9 None; EUnregister 5; EIter]
    (fun _ => RRaise) (Some 7) = Found (Some 3).
Proof. reflexivity. Qed.

(** No exact registration and no lazy entry: the answer is the adapter of the
    FIRST class in [iter_registered] order that is an ancestor of the target,
    and None exactly when there is none. *)
Theorem C76_first_registered_ancestor : forall w h c env,
  let s := run w h in
  ~ In c (map fst (iter_registered s)) -> lget (cname w c) (lazies s) = None ->
  (exists l1 d a l2, iter_registered s = l1 ++ (d, a) :: l2 /\ issub w c d = Some true /\
     Forall (fun p => issub w c (fst p) <> Some true) l1 /\ get_adapter w env (Some c) s = (s, Found a))
  \/ (Forall (fun p => issub w c (fst p) <> Some true) (iter_registered s) /\ get_adapter w env (Some c) s = (s, Found None)).
Proof.
  intros w h c env s Hn Hl. apply aget_none in Hn. unfold get_adapter, iter_registered in *. rewrite Hn, Hl.
  assert (forall l, (exists l1 d a l2, l = l1 ++ (d, a) :: l2 /\ issub w c d = Some true /\ Forall (fun p => issub w c (fst p) <> Some true) l1 /\ walk w c l = a)
    \/ (Forall (fun p => issub w c (fst p) <> Some true) l /\ walk w c l = None)) as G.
  { induction l as [|[d a] l IH]; [right; split; [constructor|reflexivity]|]. cbn [walk].
    destruct (issub w c d) as [[|]|] eqn:E.
    - left. exists [], d, a, l. repeat split; auto.
    - destruct IH as [(l1 & d' & a' & l2 & -> & I & F & W)|[F W]].
      + left. exists ((d, a) :: l1), d', a', l2. split; [reflexivity|]. split; [exact I|]. split; [constructor; [cbn; congruence|exact F]|exact W].
      + right. split; [constructor; [cbn; congruence|exact F]|exact W].
    - destruct IH as [(l1 & d' & a' & l2 & -> & I & F & W)|[F W]].
      + left. exists ((d, a) :: l1), d', a', l2. split; [reflexivity|]. split; [exact I|]. split; [constructor; [cbn; congruence|exact F]|exact W].
      + right. split; [constructor; [cbn; congruence|exact F]|exact W]. }
  destruct (G (adapters s)) as [(l1 & d & a & l2 & A & I & F & W)|[F W]].
  - left. exists l1, d, a, l2. repeat split; auto. now rewrite W.
  - right. split; [exact F|now rewrite W].
Qed.
Example C76_first_registered_ancestor_ex :
  let w := {| issub := fun a b => Some (Nat.leb b a); cname := fun _ => ""%string |} in
  answer w [ERegister 9 (Some 9); ERegister 2 (Some 2); ERegister 1 (Some 1)] (fun _ => RRaise) (Some 4) = Found (Some 2)
  /\ answer w [ERegister 9 (Some 9)] (fun _ => RRaise) (Some 4) = Found None.
Proof. split; reflexivity. Qed.

(** [iter_registered] never lists a class twice; registering an already
    listed class keeps its place, a new class goes last. *)
Theorem C76_registration_order : forall w h,
  NoDup (map fst (iter_registered (run w h))) /\
  (forall c a, map fst (iter_registered (run w (h ++ [ERegister c a])))
     = if existsb (Nat.eqb c) (map fst (iter_registered (run w h)))
       then map fst (iter_registered (run w h)) else map fst (iter_registered (run w h)) ++ [c]) /\
  (forall c, iter_registered (run w (h ++ [EUnregister c])) = filter (fun p => negb (Nat.eqb c (fst p))) (iter_registered (run w h))).
Proof.
  intros w h. split.
  - unfold run, iter_registered. assert (forall s, NoDup (map fst (adapters s)) -> NoDup (map fst (adapters (fold_left (step w) h s)))) as G; [|apply G; constructor].
    induction h as [|e h IH]; cbn; [auto|]. intros s H. apply IH. destruct e as [d a|n r|d| |env t|]; cbn; auto.
    + now apply aset_nodup.
    + now apply adel_nodup.
    + constructor.
    + destruct (lookup_effect w env t s) as [E|(d & _ & _ & [E|(r & d' & a & _ & _ & F)])]; [now rewrite E|now rewrite E|]. rewrite F. now apply aset_nodup.
  - split; intros; rewrite run_app; cbn; [apply aset_keys|reflexivity].
Qed.

(** A lookup that does not raise is repeatable: the next lookup of the same
    target gives the same answer and changes nothing. *)
Theorem C76_lookup_repeatable : forall w h env env2 t a,
  snd (get_adapter w env t (run w h)) = Found a ->
  get_adapter w env2 t (run w (h ++ [ELookup env t])) = (run w (h ++ [ELookup env t]), Found a).
Proof.
  intros w h env env2 t a H. rewrite run_app. cbn [fold_left step]. set (s := run w h) in *. clearbody s.
  destruct t as [c|]; [|cbn in *; now inversion H].
  unfold get_adapter in *. destruct (aget c (adapters s)) as [[x|]|] eqn:A.
  - cbn in *. rewrite A. now inversion H.
  - destruct (lget (cname w c) (lazies s)) as [r|] eqn:L.
    + unfold resolve_lazy in *. rewrite L in *. destruct (env r) as [[d|] [v|]|] eqn:R; cbn in H |- *; try discriminate H;
      ((rewrite A in H |- *; cbn in H |- *; rewrite ?A, ?lget_ldel; cbn; rewrite ?A; congruence) || (destruct (aget c (aset d (Some v) (adapters s))) as [[y|]|] eqn:A2; cbn in H |- *; rewrite ?A2, ?lget_ldel; congruence)).
    + cbn in *. rewrite A, L. now inversion H.
  - destruct (lget (cname w c) (lazies s)) as [r|] eqn:L.
    + unfold resolve_lazy in *. rewrite L in *. destruct (env r) as [[d|] [v|]|] eqn:R; cbn in H |- *; try discriminate H;
      ((rewrite A in H |- *; cbn in H |- *; rewrite ?A, ?lget_ldel; cbn; rewrite ?A; congruence) || (destruct (aget c (aset d (Some v) (adapters s))) as [[y|]|] eqn:A2; cbn in H |- *; rewrite ?A2, ?lget_ldel; congruence)).
    + cbn in *. rewrite A, L. now inversion H.
Qed.

(** [None] has no adapter; after [clear_registry] nothing has one, lazy
    entries included; a removed class has no registration of its own. *)
Theorem C76_removal : forall w h env,
  answer w h env None = Found None /\
  (forall t, get_adapter w env t (run w (h ++ [EClear])) = (empty_reg, Found None)) /\
  (forall c h2, Forall (leaves_alone c) h2 -> ~ In c (map fst (iter_registered (run w (h ++ EUnregister c :: h2))))).
Proof.
  intros w h env. split; [reflexivity|]. split.
  - intros t. rewrite run_app. cbn. destruct t; reflexivity.
  - intros c h2 H. apply aget_none. rewrite run_app. cbn [fold_left step]. rewrite (fold_alone w c h2 H). apply aget_adel.
Qed.
Example C76_removal_ex : iter_registered (run {| issub := fun _ _ => Some false; cname := fun _ => ""%string |} [ERegister 1 (Some 1); ERegister 2 (Some 2); EUnregister 1; EIter]) = [(2, Some 2)].
Proof. reflexivity. Qed.

(** Resolution of a lazy entry: the first lookup of a class of that name runs
    the resolver; if it answers with the class itself, its adapter is used;
    and that entry is gone afterwards, whatever the resolver did. *)
Theorem C76_lazy_resolved_once : forall w h c r env,
  let s := run w h in
  ~ In c (map fst (iter_registered s)) -> lget (cname w c) (lazies s) = Some r ->
  lget (cname w c) (lazies (run w (h ++ [ELookup env (Some c)]))) = None /\
  (forall a, env r = RPair (Some c) (Some a) -> answer w h env (Some c) = Found (Some a)) /\
  (env r = RPair None None -> answer w h env (Some c) = Found (walk w c (iter_registered s))) /\
  (env r = RRaise -> answer w h env (Some c) = Raised).
Proof.
  intros w h c r env s Hn L. apply aget_none in Hn. unfold iter_registered in *. subst s. split; [|split; [|split]].
  - rewrite run_app. cbn [fold_left step].  unfold get_adapter. rewrite Hn, L. unfold resolve_lazy. rewrite L.
    destruct (env r) as [[d|] [v|]|]; cbn; try (match goal with |- context [match ?X with Some _ => _ | None => _ end] => destruct X as [[y|]|] end; cbn); apply lget_ldel.
  - intros a E. unfold answer.  unfold get_adapter. rewrite Hn, L. unfold resolve_lazy. rewrite L, E. cbn. now rewrite aget_aset.
  - intros E. unfold answer.  unfold get_adapter. rewrite Hn, L. unfold resolve_lazy. rewrite L, E. cbn. now rewrite Hn.
  - intros E. unfold answer.  unfold get_adapter. rewrite Hn, L. unfold resolve_lazy. rewrite L, E. reflexivity.
Qed.
(** Shipped configuration: KD_PySR (class 3). *)
Definition kd_world : world :=
  {| issub := fun a b => Some (Nat.eqb a b || (Nat.eqb a 4 && Nat.eqb b 3));
     cname := fun c => nth c ["KD_DLGA"; "KD_Discover"; "KD_SGA"; "KD_PySR"; "MyPySR"]%string ""%string |}.
Example C76_lazy_resolved_once_ex :
  answer kd_world default_history (resolve_pysr true) (Some 3) = Found (Some 3)
  /\ answer kd_world default_history (resolve_pysr false) (Some 3) = Found None
  /\ map (fun c => answer kd_world default_history (resolve_pysr true) (Some c)) [0; 1; 2] = [Found (Some 0); Found (Some 1); Found (Some 2)].
Proof. repeat split. Qed.

(** "A subclass gets the adapter of its nearest registered ancestor" is
    false: classes 0 <- 1 <- 2 with the root registered first. *)
Theorem C76_nearest_ancestor_refuted : exists w h env c near far,
  issub w c near = Some true /\ issub w near far = Some true /\ near <> far /\ c <> near /\
  In (near, Some 1) (iter_registered (run w h)) /\ answer w h env (Some c) = Found (Some 0).
Proof.
  exists {| issub := fun a b => Some (Nat.leb b a); cname := fun _ => ""%string |}, [ERegister 0 (Some 0); ERegister 1 (Some 1)], (fun _ => RRaise), 2, 1, 0.
  repeat split; try discriminate. cbn. auto.
Qed.

(** "Looking one class up does not change what another class gets" is false
    in the shipped configuration: a subclass of KD_PySR has no adapter until
    KD_PySR itself has been looked up. *)
Theorem C76_lookups_independent_refuted :
  answer kd_world default_history (resolve_pysr true) (Some 4) = Found None /\
  answer kd_world (default_history ++ [ELookup (resolve_pysr true) (Some 3)]) (resolve_pysr true) (Some 4) = Found (Some 3).
Proof. split; reflexivity. Qed.

(** "An adapter that could not be resolved is retried" is false: once the
    lazy import has failed, every later sequence of lookups, even with the
    module importable, still finds no adapter for KD_PySR. *)
Theorem C76_failed_resolution_retried_refuted : forall h2 env,
  Forall (fun e => match e with ELookup _ _ | EIter => True | _ => False end) h2 ->
  answer kd_world (default_history ++ ELookup (resolve_pysr false) (Some 3) :: h2) env (Some 3) = Found None.
Proof.
  intros h2 env H. unfold answer. rewrite run_app. cbn [fold_left].
  replace (step kd_world (run kd_world default_history) (ELookup (resolve_pysr false) (Some 3)))
    with {| adapters := [(0, Some 0); (1, Some 1); (2, Some 2)]; lazies := [] |} by reflexivity.
  set (s := {| adapters := _; lazies := [] |}).
  assert (fold_left (step kd_world) h2 s = s) as ->; [|reflexivity].
  induction H as [|e h He H IH]; cbn [fold_left]; [reflexivity|].
  replace (step kd_world s e) with s; [exact IH|]. destruct e as [d a|n r|d| |env' t|]; try destruct He; [|reflexivity].
  cbn [step]. destruct (lookup_effect kd_world env' t s) as [E|(c & -> & L & [E|(r & d & a & F & _)])]; [now rewrite E| |discriminate F].
  destruct (fst (get_adapter kd_world env' (Some c) s)) as [aa ll]. cbn in *. now subst.
Qed.

(** "unregister_adapter(cls) leaves cls without an adapter" is false while a
    lazy entry for it is pending. *)
Theorem C76_unregister_lazy_refuted :
  answer kd_world (default_history ++ [EUnregister 3]) (resolve_pysr true) (Some 3) = Found (Some 3).
Proof. reflexivity. Qed.
Print Assumptions C76_latest_registration_wins.
Print Assumptions C76_first_registered_ancestor.
Print Assumptions C76_registration_order.
Print Assumptions C76_lookup_repeatable.
Print Assumptions C76_removal.
Print Assumptions C76_lazy_resolved_once.
Print Assumptions C76_nearest_ancestor_refuted.
Print Assumptions C76_lookups_independent_refuted.
Print Assumptions C76_failed_resolution_retried_refuted.
Print Assumptions C76_unregister_lazy_refuted.
