(** *** C31: estimator parameters *)
From Coq Require Import Ascii FinFun.
From Verif Require Import Base Params.
Local Open Scope string_scope.
Local Open Scope list_scope.

(** ** Dictionaries *)
Lemma dget_dset_same {B} (d : list (string * B)) k v : dget (dset d k v) k = Some v.
Proof. induction d as [|[x w] d IH]; cbn; [now rewrite String.eqb_refl|]. destruct (String.eqb x k) eqn:E; cbn; rewrite E; auto. Qed.
Lemma dget_dset_other {B} (d : list (string * B)) k k' v : k <> k' -> dget (dset d k v) k' = dget d k'.
Proof.
  intros N. induction d as [|[x w] d IH]; cbn; [destruct (String.eqb_spec k k'); congruence|]. destruct (String.eqb_spec x k); cbn; [|destruct (String.eqb x k'); auto].
  subst x. destruct (String.eqb_spec k k'); congruence.
Qed.
Lemma dset_keys {B} (d : list (string * B)) k v x : In x (map fst (dset d k v)) <-> x = k \/ In x (map fst d).
Proof.
  induction d as [|[y w] d IH]; cbn; [intuition|]. destruct (String.eqb_spec y k); cbn; [subst; intuition|]. rewrite IH. intuition.
Qed.
Lemma dset_nodup {B} (d : list (string * B)) k v : NoDup (map fst d) -> NoDup (map fst (dset d k v)).
Proof.
  induction d as [|[y w] d IH]; cbn; intros N; [constructor; [intros []|constructor]|]. inversion N as [|? ? Ny Nd]; subst. destruct (String.eqb_spec y k) as [E|E]; cbn; [now constructor|].
  constructor; [|auto]. rewrite dset_keys. intros [H|H]; [congruence|contradiction].
Qed.
Lemma dget_in {B} (d : list (string * B)) k v : dget d k = Some v -> In (k, v) d.
Proof. induction d as [|[x w] d IH]; cbn; [discriminate|]. destruct (String.eqb_spec x k); [intros [= <-]; subst; now left|right; auto]. Qed.
Lemma dget_none {B} (d : list (string * B)) k : dget d k = None <-> ~ In k (map fst d).
Proof.
  induction d as [|[x w] d IH]; cbn; [intuition|]. destruct (String.eqb_spec x k); [split; [discriminate|intros H; exfalso; auto]|]. rewrite IH. intuition.
Qed.
Lemma in_dget {B} (d : list (string * B)) k v : NoDup (map fst d) -> In (k, v) d -> dget d k = Some v.
Proof.
  induction d as [|[x w] d IH]; cbn; intros N H; [contradiction|]. inversion N as [|? ? Ny Nd]; subst. destruct H as [[= -> ->]|H]; [now rewrite String.eqb_refl|].
  destruct (String.eqb_spec x k); [subst; exfalso; apply Ny; apply (in_map fst) in H; exact H|auto].
Qed.
Lemma dget_dupdate {B} (items : list (string * B)) : forall d k, NoDup (map fst items) -> dget (dupdate d items) k = match dget items k with Some v => Some v | None => dget d k end.
Proof.
  unfold dupdate. induction items as [|[x w] items IH]; intros d k N; cbn [fold_left dget fst snd]; [reflexivity|]. inversion N as [|? ? Nx Ni]; subst. rewrite IH by assumption.
  destruct (String.eqb_spec x k) as [->|E].
  - rewrite (proj2 (dget_none items k) Nx). now rewrite dget_dset_same.
  - destruct (dget items k); [reflexivity|]. now rewrite dget_dset_other.
Qed.
Lemma dupdate_keys {B} (items : list (string * B)) : forall d x, In x (map fst (dupdate d items)) <-> In x (map fst items) \/ In x (map fst d).
Proof.
  unfold dupdate. induction items as [|[y w] items IH]; intros d x; cbn; [tauto|]. rewrite IH, dset_keys. intuition.
Qed.
Lemma dupdate_nodup {B} (items : list (string * B)) : forall d, NoDup (map fst d) -> NoDup (map fst (dupdate d items)).
Proof. unfold dupdate. induction items as [|[y w] items IH]; intros d N; cbn; [exact N|]. apply IH. now apply dset_nodup. Qed.

(** ** Names *)
Lemma clean_partition k : clean k = true -> partition k = (k, None).
Proof.
  induction k as [|c k IH]; [discriminate|]. cbn [clean partition]. destruct k as [|d k']; [reflexivity|]. intros H. apply andb_true_iff in H. destruct H as [A B]. apply negb_true_iff in A. rewrite A. now rewrite (IH B).
Qed.
Lemma clean_partition_app k s : clean k = true -> partition (k ++ "__" ++ s)%string = (k, Some s).
Proof.
  induction k as [|c k IH]; [discriminate|]. intros H. cbn [clean] in H. destruct k as [|d k'].
  - cbn. apply negb_true_iff in H. rewrite H. reflexivity.
  - apply andb_true_iff in H. destruct H as [A B]. apply negb_true_iff in A. specialize (IH B). cbn [append] in *. cbn [partition] in *. rewrite A. rewrite IH. reflexivity.
Qed.
Lemma partition_join k p : clean k = true -> partition (join (k :: p)) = (k, match p with [] => None | _ => Some (join p) end).
Proof. intros C. destruct p as [|a p]; [now apply clean_partition|]. change (join (k :: a :: p)) with (k ++ "__" ++ join (a :: p))%string. now apply clean_partition_app. Qed.
Definition cleanp (p : list string) : Prop := p <> [] /\ Forall (fun k => clean k = true) p.
Lemma join_inj p q : cleanp p -> cleanp q -> join p = join q -> p = q.
Proof.
  intros [Np Cp] [Nq Cq]. clear Np Nq. revert q Cq. induction Cp as [|k p Ck Cp IH]; intros [|k' q] Cq E.
  - reflexivity.
  - exfalso. pose proof (partition_join k' q (Forall_inv Cq)) as P. rewrite <- E in P. cbn in P. injection P as P _. pose proof (Forall_inv Cq) as X. cbv beta in X. rewrite <- P in X. discriminate.
  - exfalso. pose proof (partition_join k p Ck) as P. rewrite E in P. cbn in P. injection P as P _. rewrite <- P in Ck. discriminate.
  - pose proof (partition_join k p Ck) as P1. pose proof (partition_join k' q (Forall_inv Cq)) as P2. rewrite E, P2 in P1. injection P1 as -> P. f_equal. destruct p as [|a p], q as [|b q]; try discriminate; [reflexivity|]. apply IH; [exact (Forall_inv_tail Cq)|]. congruence.
Qed.
Lemma append_inj_l k a b : (k ++ a = k ++ b)%string -> a = b.
Proof. induction k as [|c k IH]; cbn; [auto|]. intros [= E]. auto. Qed.

Section Facts.
Variable names : nat -> res (list string).
Notation lookup := (lookup names). Notation child := (child names). Notation reach := (reach names).
Notation unshared := (unshared names). Notation well_named := (well_named names).

Lemma reach_child h o k x y : child h o k x -> reach h x y -> reach h o y.
Proof. intros; econstructor; eauto. Qed.
Lemma reach_trans h x y z : reach h x y -> reach h y z -> reach h x z.
Proof. induction 1; auto. intros. econstructor; eauto. Qed.
Lemma existsb_in k ks : existsb (String.eqb k) ks = true <-> In k ks.
Proof. rewrite existsb_exists. split; [intros (x & I & E); apply String.eqb_eq in E; congruence|intros; exists k; split; [assumption|apply String.eqb_refl]]. Qed.
(** what one parameter contributes *)
Definition look (h : heap) (o : nat) (k : string) (p : list string) : option value :=
  match dget (h o) k, p with Some v, [] => Some v | Some (Ref x), _ => lookup h x p | _, _ => None end.
Lemma lookup_cons h o ks k p : names o = Ok ks -> lookup h o (k :: p) = if existsb (String.eqb k) ks then look h o k p else None.
Proof. intros E. cbn [Params.lookup]. rewrite E. reflexivity. Qed.

Definition gstep n h o (acc : res (list (string * value))) key :=
        do out <- acc ;
        match dget (h o) key with
        | None => Err AttributeError
        | Some v =>
            do out' <- match v with
                       | Ref x => if true then do items <- get_params names n h x true ; Ok (dupdate out (map (fun p => ((key ++ "__" ++ fst p)%string, snd p)) items)) else Ok out
                       | Atom _ => Ok out
                       end ;
            Ok (dset out' key v)
        end.
Lemma gstep_err n h o e ks : fold_left (gstep n h o) ks (Err e) = Err e.
Proof. induction ks; cbn; auto. Qed.
Lemma get_params_S n h o : get_params names (S n) h o true = (do ks <- names o ; fold_left (gstep n h o) ks (Ok [])).
Proof. reflexivity. Qed.
Definition gspec h o (done : list string) (out : list (string * value)) : Prop :=
  NoDup (map fst out) /\ (forall k, In k (map fst out) -> exists p, cleanp p /\ k = join p) /\
  forall k p, cleanp (k :: p) -> dget out (join (k :: p)) = if existsb (String.eqb k) done then look h o k p else None.
Definition good (d : list (string * value)) h o : Prop :=
  NoDup (map fst d) /\ (forall k, In k (map fst d) -> exists p, cleanp p /\ k = join p) /\ forall p, cleanp p -> dget d (join p) = lookup h o p.
Lemma prefix_get (items : list (string * value)) k s : dget (map (fun p => ((k ++ "__" ++ fst p)%string, snd p)) items) (k ++ "__" ++ s)%string = dget items s.
Proof.
  induction items as [|[x v] items IH]; cbn [map dget fst snd]; [reflexivity|]. rewrite IH. destruct (String.eqb_spec x s) as [->|N]; [now rewrite String.eqb_refl|]. destruct (String.eqb_spec (k ++ "__" ++ x) (k ++ "__" ++ s)) as [E|]; [|reflexivity]. apply append_inj_l in E. apply (append_inj_l "__") in E. contradiction.
Qed.
Lemma prefix_nodup (items : list (string * value)) k : NoDup (map fst items) -> NoDup (map fst (map (fun p => ((k ++ "__" ++ fst p)%string, snd p)) items)).
Proof.
  rewrite map_map. cbn. intros N. apply FinFun.Injective_map_NoDup with (f := fun s => (k ++ String "_" (String "_" s))%string) in N; [|intros a b E; apply append_inj_l in E; congruence]. rewrite map_map in N. exact N.
Qed.
Lemma gstep_ok n h o done out k out' : (forall x d, get_params names n h x true = Ok d -> child h o k x -> good d h x) -> (forall ks, names o = Ok ks -> In k ks) -> (exists ks, names o = Ok ks) ->
  clean k = true -> ~ In k done -> gspec h o done out -> gstep n h o (Ok out) k = Ok out' -> gspec h o (k :: done) out'.
Proof.
  intros IH INK (ks & EK) C ND (N & KS & G). unfold gstep. cbn [bind]. destruct (dget (h o) k) as [v|] eqn:EV; [|discriminate].
  assert (PN : forall p, cleanp (k :: p) -> dget out (join (k :: p)) = None). { intros p Cp. rewrite G by exact Cp. destruct (existsb (String.eqb k) done) eqn:E; [apply existsb_in in E; contradiction|reflexivity]. }
  assert (CK : cleanp [k]) by (split; [discriminate|constructor; auto]).
  destruct v as [a|x].
  - cbn [bind]. intros E. assert (out' = dset out k (Atom a)) by congruence. subst out'. split; [now apply dset_nodup|]. split.
    + intros y Hy. apply dset_keys in Hy. destruct Hy as [->|Hy]; [exists [k]; auto|auto].
    + intros k0 p Cp. cbn [existsb]. destruct (String.eqb_spec k0 k) as [->|NE]; cbn [orb].
      * unfold look. rewrite EV. destruct p as [|b p]; [apply dget_dset_same|]. rewrite dget_dset_other; [now apply PN|]. intros E2. apply (join_inj [k] (k :: b :: p)) in E2; auto; [discriminate].
      * rewrite dget_dset_other; [now apply G|]. intros E2. apply (join_inj [k] (k0 :: p)) in E2; auto. congruence.
  - destruct (get_params names n h x true) as [items|] eqn:GP; [|discriminate]. cbn [bind]. set (out1 := dupdate out _). intros E. assert (out' = dset out1 k (Ref x)) by congruence. subst out'. clear E.
    assert (CH : child h o k x) by (exists ks; auto). destruct (IH x items GP CH) as (NI & KI & GI). pose proof (prefix_nodup items k NI) as NP.
    split; [apply dset_nodup; now apply dupdate_nodup|]. split.
    + intros y Hy. apply dset_keys in Hy. destruct Hy as [->|Hy]; [exists [k]; auto|]. apply dupdate_keys in Hy. destruct Hy as [Hy|Hy]; [|auto]. rewrite map_map in Hy. cbn in Hy. apply in_map_iff in Hy. destruct Hy as ([s w] & <- & Is). cbn [fst].
      destruct (KI s) as (p & Cp & ->); [apply (in_map fst) in Is; exact Is|]. exists (k :: p). split; [split; [discriminate|constructor; [assumption|apply Cp]]|]. destruct p as [|b p]; [destruct Cp; congruence|]. reflexivity.
    + intros k0 p Cp. cbn [existsb]. destruct (String.eqb_spec k0 k) as [->|NE]; cbn [orb].
      * unfold look. rewrite EV. destruct p as [|b p]; [apply dget_dset_same|]. rewrite dget_dset_other.
        2:{ intros E2. apply (join_inj [k] (k :: b :: p)) in E2; auto. discriminate. }
        unfold out1. rewrite dget_dupdate by exact NP. change (join (k :: b :: p)) with (k ++ "__" ++ join (b :: p))%string at 1. rewrite prefix_get. rewrite GI; [|split; [discriminate|exact (Forall_inv_tail (proj2 Cp))]]. destruct (lookup h x (b :: p)) eqn:L; [reflexivity|]. rewrite (PN (b :: p) Cp). reflexivity.
      * rewrite dget_dset_other; [|intros E2; apply (join_inj [k] (k0 :: p)) in E2; auto; congruence].
        unfold out1. rewrite dget_dupdate by exact NP. destruct (dget (map _ items) (join (k0 :: p))) as [w|] eqn:E; [|now apply G]. exfalso. apply dget_in in E. apply in_map_iff in E. destruct E as ([s w'] & E & Is). cbn [fst snd] in E. assert (E2 : (k ++ "__" ++ s)%string = join (k0 :: p)) by congruence.
        pose proof (clean_partition_app k s C) as P1. rewrite E2, partition_join in P1 by exact (Forall_inv (proj2 Cp)). congruence.
Qed.
(** get_params(deep=True) lists exactly the parameters at the ends of paths, under their nested
    names. *)
Lemma get_params_good : forall n h o d, well_named h o -> get_params names n h o true = Ok d -> good d h o.
Proof.
  induction n as [|n IH]; [discriminate|]. intros h o d WN H. rewrite get_params_S in H. destruct (names o) as [ks|] eqn:EK; [|discriminate]. cbn [bind] in H.
  destruct (WN o ks (reach_self _ _ _) EK) as [ND CL].
  assert (G : forall l done out, (exists pre, ks = pre ++ l /\ forall k, In k done <-> In k pre) -> gspec h o done out -> fold_left (gstep n h o) l (Ok out) = Ok d -> exists done', gspec h o done' d /\ forall k, In k done' <-> In k ks).
  { induction l as [|k l IHl]; intros done out (pre & EQ & DN) GS F.
    - cbn in F. injection F as <-. exists done. split; [exact GS|]. intros k. rewrite DN, EQ, app_nil_r. tauto.
    - cbn [fold_left] in F. destruct (gstep n h o (Ok out) k) as [out1|e] eqn:E; [|rewrite gstep_err in F; discriminate].
      assert (KIN : In k ks) by (rewrite EQ; apply in_or_app; right; now left). assert (KND : ~ In k done).
      { rewrite DN. intros I. rewrite EQ in ND. apply NoDup_remove_2 in ND. apply ND. apply in_or_app. now left. }
      rewrite Forall_forall in CL. apply (IHl (k :: done) out1); [| |exact F].
      + exists (pre ++ [k]). split; [rewrite <- app_assoc; exact EQ|]. intros y. cbn. rewrite in_app_iff, DN. cbn. tauto.
      + eapply gstep_ok; eauto; [|intros ks' E'; congruence]. intros x d0 GP CH. apply (IH h x d0); [|exact GP]. intros y ks' R EY. apply (WN y ks'); [eapply reach_child; eauto|exact EY]. }
  destruct (G ks [] [] ) as (done & (N & KS & GD) & DN); [exists []; split; [reflexivity|tauto]| |exact H|].
  - split; [constructor|]. split; [intros k []|]. reflexivity.
  - split; [exact N|]. split; [exact KS|]. intros [|k p] Cp; [destruct Cp; congruence|]. rewrite GD by exact Cp. rewrite (lookup_cons h o ks) by exact EK.
    replace (existsb (String.eqb k) ks) with (existsb (String.eqb k) done); [reflexivity|]. apply eq_true_iff_eq. now rewrite !existsb_in.
Qed.

(** ** Frames *)
Lemma lookup_frame h h' : forall p o, (forall z, reach h o z -> h' z = h z) -> lookup h' o p = lookup h o p.
Proof.
  induction p as [|k p IH]; intros o F; [reflexivity|]. cbn [Params.lookup]. destruct (names o) as [ks|] eqn:EK; [|reflexivity]. destruct (existsb (String.eqb k) ks) eqn:I; [|reflexivity].
  rewrite (F o (reach_self _ _ _)). destruct (dget (h o) k) as [[a|x]|] eqn:E; [reflexivity| |reflexivity]. destruct p as [|b p]; [reflexivity|]. apply IH. intros z R. apply F. apply (reach_child h o k x); [|exact R]. exists ks. repeat split; auto. now apply existsb_in.
Qed.
Definition shrinks (h h' : heap) : Prop := forall y k x, child h' y k x -> child h y k x.
Lemma shrinks_reach h h' o z : shrinks h h' -> reach h' o z -> reach h o z.
Proof. intros S. induction 1; [constructor|]. econstructor; eauto. Qed.
Lemma shrinks_unshared h h' o : shrinks h h' -> unshared h o -> unshared h' o.
Proof.
  intros S U y k x R C. destruct (U y k x) as [A B]; [eapply shrinks_reach; eauto|auto|]. split; [intros Q; apply A; eapply shrinks_reach; eauto|].
  intros k2 x2 z C2 NE R1 R2. apply (B k2 x2 z); auto; eapply shrinks_reach; eauto.
Qed.
Lemma shrinks_named h h' o : shrinks h h' -> well_named h o -> well_named h' o.
Proof. intros S W y ks R E. apply (W y ks); [eapply shrinks_reach; eauto|exact E]. Qed.
Lemma shrinks_trans h h1 h2 : shrinks h h1 -> shrinks h1 h2 -> shrinks h h2.
Proof. unfold shrinks. auto. Qed.
Lemma unshared_child h o k x : unshared h o -> child h o k x -> unshared h x.
Proof. intros U C y k' x' R. apply U. eapply reach_child; eauto. Qed.
Lemma named_child h o k x : well_named h o -> child h o k x -> well_named h x.
Proof. intros W C y ks R. apply (W y ks). eapply reach_child; eauto. Qed.

(** ** The first loop *)
Definition J (pv : list string * value) : string * value := (join (fst pv), snd pv).
Definition JN (kl : string * list (list string * value)) : string * list (string * value) := (fst kl, map J (snd kl)).
Definition is_atom (v : value) : Prop := match v with Atom _ => True | Ref _ => False end.
Record ainv (o : nat) (h : heap) (valid : list (string * value)) (done : list (list string * value)) (h1 : heap) (valid1 : list (string * value)) (nl : list (string * list (list string * value))) : Prop := {
  ai_keys : NoDup (map fst nl);
  ai_sub : forall k l, In (k, l) nl -> l <> [] /\ NoDup (map fst l) /\ forall p v, In (p, v) l <-> p <> [] /\ In (k :: p, v) done;
  ai_all : forall k p v, p <> [] -> In (k :: p, v) done -> exists l, In (k, l) nl;
  ai_set : forall k v, In ([k], v) done -> dget (h1 o) k = Some v /\ dget valid1 k = Some v;
  ai_keep : forall k, (forall v, ~ In ([k], v) done) -> dget (h1 o) k = dget (h o) k /\ dget valid1 k = dget valid k;
  ai_frame : forall x, x <> o -> h1 x = h x;
  ai_known : forall k p v, In (k :: p, v) done -> exists w, dget valid k = Some w }.
Lemma dset_J nl k l : NoDup (map fst nl) -> exists nl', dset (map JN nl) k (map J l) = map JN nl' /\ NoDup (map fst nl') /\ forall k' l', In (k', l') nl' <-> (k' = k /\ l' = l) \/ (k' <> k /\ In (k', l') nl).
Proof.
  induction nl as [|[y m] nl IH]; intros N.
  - exists [(k, l)]. split; [reflexivity|]. split; [constructor; [intros []|constructor]|]. intros k' l'. cbn. split; [intros [E|[]]; left; split; congruence|intros [[-> ->]|[_ []]]; auto].
  - inversion N as [|? ? Ny Nd]; subst. cbn [map]. unfold JN at 1. cbn [fst snd dset]. destruct (String.eqb_spec y k) as [->|NE].
    + exists ((k, l) :: nl). split; [reflexivity|]. split; [exact N|]. intros k' l'. cbn. split.
      * intros [E|I]; [left; split; congruence|]. right. split; [|now right]. intros ->. apply Ny. apply (in_map fst) in I. exact I.
      * intros [[-> ->]|[NE [E|I]]]; auto. congruence.
    + destruct (IH Nd) as (nl' & E & N' & I'). exists ((y, m) :: nl'). rewrite E. split; [reflexivity|]. split.
      * cbn. constructor; [|exact N']. intros I. apply in_map_iff in I. destruct I as ([k' l'] & E2 & I). cbn in E2. subst k'. apply I' in I. destruct I as [[-> _]|[_ I]]; [congruence|]. apply Ny. apply (in_map fst) in I. exact I.
      * intros k' l'. cbn. rewrite I'. split; [intros [E2|[[-> ->]|[NE2 I]]]; auto; right; split; [congruence|auto]|intros [[-> ->]|[NE2 [E2|I]]]; auto].
Qed.
Lemma dget_JN nl k : dget (map JN nl) k = option_map (map J) (dget nl k).
Proof. induction nl as [|[y m] nl IH]; cbn; [reflexivity|]. destruct (String.eqb y k); auto. Qed.
Lemma dset_fresh {B} (d : list (string * B)) k v : ~ In k (map fst d) -> dset d k v = d ++ [(k, v)].
Proof. induction d as [|[x w] d IH]; cbn; intros H; [reflexivity|]. destruct (String.eqb_spec x k); [exfalso; auto|]. rewrite IH; auto. Qed.
Lemma assign_ok o h valid : forall pvs done h1 valid1 nl, (forall p v, In (p, v) pvs -> cleanp p) -> NoDup (map fst (done ++ pvs)) -> (forall p v, In (p, v) done -> cleanp p) ->
  ainv o h valid done h1 valid1 nl ->
  match assign h1 o valid1 (map JN nl) (map J pvs) with (h', Ok (valid', nested)) => exists nl', nested = map JN nl' /\ ainv o h valid (done ++ pvs) h' valid' nl' | (_, Err e) => e = ValueError end.
Proof.
  induction pvs as [|[p v] pvs IH]; intros done h1 valid1 nl CP ND CD AI.
  - cbn. exists nl. rewrite app_nil_r. auto.
  - pose proof (CP p v (or_introl eq_refl)) as Cp. destruct p as [|k p]; [destruct Cp; congruence|]. pose proof (Forall_inv (proj2 Cp)) as Ck. cbv beta in Ck.
    cbn [map]. unfold J at 1. cbn [fst snd assign]. rewrite partition_join by exact Ck.
    assert (NIN : forall w, ~ In (k :: p, w) done). { intros w I. rewrite map_app in ND. cbn [map fst] in ND. apply NoDup_remove_2 in ND. apply ND. apply in_or_app. left. apply (in_map fst) in I. exact I. }
    assert (ND' : NoDup (map fst ((done ++ [(k :: p, v)]) ++ pvs))) by (rewrite <- app_assoc; exact ND).
    assert (CD' : forall p0 v0, In (p0, v0) (done ++ [(k :: p, v)]) -> cleanp p0) by (intros p0 v0 I; apply in_app_iff in I; destruct I as [I|[E|[]]]; [eauto|congruence]).
    destruct (dget valid1 k) as [w|] eqn:EV; [|reflexivity].
    assert (KN : exists w, dget valid k = Some w).
    { destruct AI as [_ _ _ _ K _ KW]. destruct (dget valid k) as [w0|] eqn:E0; [eauto|]. exfalso. assert (X : exists w, In ([k], w) done).
      { destruct (in_dec (list_eq_dec string_dec) [k] (map fst done)) as [I|I]; [apply in_map_iff in I; destruct I as ([q w1] & E & I); cbn in E; subst q; eauto|]. destruct (K k) as [_ K2]; [intros v0 I0; apply I; apply (in_map fst) in I0; exact I0|]. congruence. }
      destruct X as (w1 & I1). destruct (KW k [] w1 I1). congruence. }
    destruct AI as [AK AS AA AT AP AF AW]. destruct p as [|b p].
    + (* a direct parameter *)
      specialize (IH (done ++ [([k], v)]) (hset h1 o k v) (dset valid1 k v) nl (fun p0 v0 I => CP p0 v0 (or_intror I)) ND' CD'). rewrite <- app_assoc in IH. cbn [app] in IH. apply IH. clear IH. constructor; auto.
      * intros k0 l I. destruct (AS k0 l I) as (A1 & A2 & A3). split; [exact A1|]. split; [exact A2|]. intros q u. rewrite A3, in_app_iff. cbn. split; [tauto|]. intros [Q [I1|[E|[]]]]; [auto|]. congruence.
      * intros k0 q u Q I. apply in_app_iff in I. destruct I as [I|[E|[]]]; [eauto|]. congruence.
      * intros k0 u I. unfold hset. rewrite Nat.eqb_refl. destruct (string_dec k k0) as [->|NE].
        -- rewrite !dget_dset_same. apply in_app_iff in I. destruct I as [I|[E|[]]]; [exfalso; apply (NIN u I)|]. assert (u = v) by congruence. subst. auto.
        -- rewrite !dget_dset_other by exact NE. apply in_app_iff in I. destruct I as [I|[E|[]]]; [auto|]. congruence.
      * intros k0 H. unfold hset. rewrite Nat.eqb_refl. destruct (string_dec k k0) as [->|NE]; [exfalso; apply (H v); apply in_or_app; right; now left|]. rewrite !dget_dset_other by exact NE. apply AP. intros u I. apply (H u). apply in_or_app. now left.
      * intros x NX. unfold hset. destruct (Nat.eqb_spec x o); [contradiction|]. auto.
      * intros k0 q u I. apply in_app_iff in I. destruct I as [I|[E|[]]]; [eauto|]. assert (k0 = k) by congruence. subst. exact KN.
    + (* a nested parameter *)
      set (q := b :: p) in *. assert (Q0 : q <> []) by discriminate.
      set (old := match dget nl k with Some l => l | None => [] end).
      assert (OLD : match dget (map JN nl) k with Some d => d | None => [] end = map J old) by (rewrite dget_JN; unfold old; destruct (dget nl k); reflexivity). rewrite OLD.
      assert (OIN : forall q0 u, In (q0, u) old <-> q0 <> [] /\ In (k :: q0, u) done).
      { intros q0 u. unfold old. destruct (dget nl k) as [l|] eqn:EL; [apply dget_in in EL; apply (AS k l EL)|]. cbn. split; [tauto|]. intros [Q I]. destruct (AA k q0 u Q I) as (l & IL). apply dget_none in EL. apply EL. apply (in_map fst) in IL. exact IL. }
      assert (OND : NoDup (map fst old)) by (unfold old; destruct (dget nl k) as [l|] eqn:EL; [apply dget_in in EL; apply (AS k l EL)|constructor]).
      assert (FR : dset (map J old) (join q) v = map J (old ++ [(q, v)])).
      { rewrite map_app. cbn [map]. unfold J at 2. cbn [fst snd]. apply dset_fresh. rewrite map_map. intros I. apply in_map_iff in I. destruct I as ([q0 u] & E & I). change (join q0 = join q) in E. apply OIN in I. destruct I as [Q I]. apply join_inj in E.
        - subst q0. apply (NIN u I).
        - split; [exact Q|]. pose proof (CD _ _ I) as [_ F]. exact (Forall_inv_tail F).
        - split; [discriminate|]. exact (Forall_inv_tail (proj2 Cp)). }
      rewrite FR. destruct (dset_J nl k (old ++ [(q, v)]) AK) as (nl' & EN & NN & IN'). rewrite EN.
      specialize (IH (done ++ [(k :: q, v)]) h1 valid1 nl' (fun p0 v0 I => CP p0 v0 (or_intror I)) ND' CD'). rewrite <- app_assoc in IH. cbn [app] in IH. apply IH. clear IH. constructor; auto.
      * intros k0 l I. apply IN' in I. destruct I as [[-> ->]|[NE I]].
        -- split; [destruct old; discriminate|]. split.
           ++ rewrite map_app. cbn [map fst]. apply NoDup_rev in OND. rewrite <- (rev_involutive (map fst old ++ [q])). apply NoDup_rev. rewrite rev_app_distr. cbn. constructor; [|exact OND]. rewrite <- in_rev. intros I. apply in_map_iff in I. destruct I as ([q0 u] & E & I). cbn in E. subst q0. apply OIN in I. apply (NIN u). apply I.
           ++ intros q0 u. rewrite !in_app_iff, OIN. cbn. split; [intros [[Q I]|[E|[]]]; [auto|]; assert (q0 = q) by congruence; subst q0; split; [exact Q0|right; left; congruence]|intros [Q [I|[E|[]]]]; [auto|]; right; left; congruence].
        -- destruct (AS k0 l I) as (A1 & A2 & A3). split; [exact A1|]. split; [exact A2|]. intros q0 u. rewrite A3, in_app_iff. cbn. split; [tauto|]. intros [Q [I1|[E|[]]]]; [auto|]. congruence.
      * intros k0 q0 u Q I. destruct (string_dec k0 k) as [->|NE]; [exists (old ++ [(q, v)]); apply IN'; auto|]. apply in_app_iff in I. destruct I as [I|[E|[]]]; [|congruence]. destruct (AA k0 q0 u Q I) as (l & IL). exists l. apply IN'. auto.
      * intros k0 u I. apply in_app_iff in I. destruct I as [I|[E|[]]]; [auto|]. discriminate E.
      * intros k0 H. apply AP. intros u I. apply (H u). apply in_or_app. now left.
      * intros k0 q0 u I. apply in_app_iff in I. destruct I as [I|[E|[]]]; [eauto|]. assert (k0 = k) by congruence. subst. exact KN.
Qed.
(** ** Nested parameters *)
Definition nstep n (valid' : list (string * value)) (acc : heap * res unit) (kd : string * list (string * value)) : heap * res unit :=
  match acc with
  | (h1, Err e) => (h1, Err e)
  | (h1, Ok _) => match dget valid' (fst kd) with Some (Ref x) => set_params names n h1 x (snd kd) | Some (Atom _) => (h1, Err AttributeError) | None => (h1, Err KeyError) end
  end.
Lemma nstep_err n valid' h1 e l : fold_left (nstep n valid') l (h1, Err e) = (h1, Err e).
Proof. induction l; cbn; auto. Qed.
Lemma set_params_ok : forall n h o pvs h', unshared h o -> well_named h o -> (forall p v, In (p, v) pvs -> cleanp p /\ is_atom v) -> NoDup (map fst pvs) ->
  set_params names n h o (map J pvs) = (h', Ok tt) ->
  shrinks h h' /\ (forall z, ~ reach h o z -> h' z = h z) /\ (forall p v, In (p, v) pvs -> lookup h' o p = Some v) /\
  (forall p, (forall q v, In (q, v) pvs -> ~ extends q p) -> lookup h' o p = lookup h o p).
Proof.
  induction n as [|n IH]; intros h o pvs h' U W CP ND H.
  { destruct pvs as [|pv pvs]; [|discriminate]. cbn in H. assert (h' = h) by congruence. subst. repeat split; auto; [unfold shrinks; auto|intros p v []]. }
  destruct (map J pvs) as [|kv ps] eqn:EP.
  { destruct pvs; [|discriminate]. cbn in H. assert (h' = h) by congruence. subst. repeat split; auto; [unfold shrinks; auto|intros p v []]. }
  cbn [set_params] in H. rewrite <- EP in *. clear kv ps EP. destruct (get_params names n h o true) as [valid|] eqn:GP; [|discriminate].
  assert (EKS : exists ks, names o = Ok ks). { destruct n; [discriminate|]. rewrite get_params_S in GP. destruct (names o) as [ks|]; [eauto|discriminate]. } destruct EKS as (ks & EK).
  destruct (get_params_good n h o valid W GP) as (NV & KV & GV).
  pose proof (assign_ok o h valid pvs [] h valid []) as A. cbn [map app] in A. specialize (A (fun p v I => proj1 (CP p v I)) ND (fun p v I => match I with end)).
  assert (A0 : ainv o h valid [] h valid []) by (constructor; cbn; try tauto; auto; [constructor]).
  specialize (A A0). destruct (assign h o valid [] (map J pvs)) as [h1 [[valid1 nested]|e]]; [|discriminate]. destruct A as (nl & -> & AI). clear A0.
  assert (CK : forall k q v, In (k :: q, v) pvs -> clean k = true) by (intros k q v I; exact (Forall_inv (proj2 (proj1 (CP _ _ I))))).
  assert (VK : forall k, clean k = true -> dget valid k = if existsb (String.eqb k) ks then dget (h o) k else None).
  { intros k C. assert (Ck : cleanp [k]) by (split; [discriminate|constructor; [exact C|constructor]]). change k with (join [k]) at 1. rewrite (GV [k] Ck). rewrite (lookup_cons h o ks) by exact EK. destruct (existsb _ ks); [|reflexivity]. unfold look. destruct (dget (h o) k) as [[a|x]|]; reflexivity. }
  destruct AI as [AK AS AA AT AP AF AW].
  assert (KIN : forall k q v, In (k :: q, v) pvs -> existsb (String.eqb k) ks = true).
  { intros k q v I. destruct (AW k q v I) as (w & E). rewrite VK in E by eauto. destruct (existsb _ ks); [reflexivity|discriminate]. }
  assert (S1 : shrinks h h1).
  { intros y k x (ks' & E1 & I1 & E2). exists ks'. split; [exact E1|]. split; [exact I1|]. destruct (Nat.eq_dec y o) as [->|NE]; [|now rewrite <- AF]. destruct (in_dec (list_eq_dec string_dec) [k] (map fst pvs)) as [I|I].
    - apply in_map_iff in I. destruct I as ([q v] & E & I). cbn in E. subst q. destruct (AT k v I) as [E3 _]. rewrite E3 in E2. injection E2 as ->. destruct (CP _ _ I) as [_ []].
    - destruct (AP k) as [E3 _]; [intros v Iv; apply I; apply (in_map fst) in Iv; exact Iv|]. congruence. }
  assert (C1 : forall k x, dget valid1 k = Some (Ref x) -> (exists l, In (k, l) nl) -> child h o k x /\ dget (h1 o) k = Some (Ref x)).
  { intros k x E (l & IL). destruct (AS k l IL) as (NE & _ & IL'). destruct l as [|[q v] l]; [congruence|]. destruct (proj1 (IL' q v) (or_introl eq_refl)) as [Q I].
    assert (NS : forall u, ~ In ([k], u) pvs). { intros u Iu. destruct (AT k u Iu) as [_ E2]. rewrite E2 in E. injection E as ->. destruct (CP _ _ Iu) as [_ []]. }
    destruct (AP k NS) as [E1 E2]. rewrite E2 in E. rewrite VK in E by eauto. rewrite (KIN k q v I) in E. split; [|congruence]. exists ks. split; [exact EK|]. split; [apply existsb_in; eauto|exact E]. }
  assert (CHO : forall k x z, child h o k x -> ~ (reach h x z /\ z = o)) by (intros k x z C [R ->]; destruct (U o k x (reach_self _ _ _) C) as [A _]; contradiction).
  assert (G : forall todo dn hc, nl = dn ++ todo ->
    hc o = h1 o -> shrinks h hc -> (forall k x z, child h1 o k x -> ~ In k (map fst dn) -> reach h x z -> hc z = h z) ->
    (forall k l x, In (k, l) dn -> dget (h1 o) k = Some (Ref x) -> (forall p v, In (p, v) l -> lookup hc x p = Some v) /\ (forall p, (forall q v, In (q, v) l -> ~ extends q p) -> lookup hc x p = lookup h x p)) ->
    (forall k l, In (k, l) dn -> exists x, child h o k x /\ dget (h1 o) k = Some (Ref x)) ->
    (forall z, ~ reach h o z -> hc z = h z) ->
    fold_left (nstep n valid1) (map JN todo) (hc, Ok tt) = (h', Ok tt) ->
    h' o = h1 o /\ shrinks h h' /\ (forall k x z, child h1 o k x -> ~ In k (map fst nl) -> reach h x z -> h' z = h z) /\
    (forall k l x, In (k, l) nl -> dget (h1 o) k = Some (Ref x) -> (forall p v, In (p, v) l -> lookup h' x p = Some v) /\ (forall p, (forall q v, In (q, v) l -> ~ extends q p) -> lookup h' x p = lookup h x p)) /\
    (forall k l, In (k, l) nl -> exists x, child h o k x /\ dget (h1 o) k = Some (Ref x)) /\
    (forall z, ~ reach h o z -> h' z = h z)).
  { induction todo as [|[k l] todo IHt]; intros dn hc EN I1 I2 I3 I4 I6 I5 F.
    - cbn in F. assert (hc = h') by congruence. subst hc. rewrite app_nil_r in EN. subst dn. repeat split; auto; try (eapply I4; eauto).
    - cbn [map fold_left] in F. unfold nstep at 2 in F. cbn [fst snd JN] in F.
      assert (KL : In (k, l) nl) by (rewrite EN; apply in_or_app; right; now left).
      destruct (dget valid1 k) as [[a|x]|] eqn:EV; [rewrite nstep_err in F; congruence| |rewrite nstep_err in F; congruence].
      destruct (C1 k x EV (ex_intro _ l KL)) as [CH E1].
      destruct (set_params names n hc x (map J l)) as [hn [[]|e]] eqn:SP; [|rewrite nstep_err in F; congruence].
      assert (CH1 : child h1 o k x) by (destruct CH as (ks' & A1 & A2 & A3); exists ks'; auto).
      assert (KND : ~ In k (map fst dn)). { rewrite EN, map_app in AK. cbn [map fst] in AK. apply NoDup_remove_2 in AK. intros I. apply AK. apply in_or_app. now left. }
      destruct (IH hc x l hn) as (J1 & J2 & J3 & J4); auto.
      { eapply shrinks_unshared; [exact I2|]. eapply unshared_child; eauto. }
      { eapply shrinks_named; [exact I2|]. eapply named_child; eauto. }
      { intros p v I. destruct (AS k l KL) as (_ & _ & IL). apply IL in I. destruct I as [Q I]. destruct (CP _ _ I) as [[_ F1] At]. split; [split; [exact Q|exact (Forall_inv_tail F1)]|exact At]. }
      { apply (AS k l KL). }
      assert (FX : forall p, lookup hc x p = lookup h x p) by (intros p; apply lookup_frame; intros z R; apply (I3 k x z); auto).
      assert (RX : forall z, reach hc x z -> reach h x z) by (intros z R; eapply shrinks_reach; eauto).
      assert (UO : hn o = hc o) by (apply J2; intros R; apply (CHO k x o CH); split; [apply RX; exact R|reflexivity]).
      apply (IHt (dn ++ [(k, l)]) hn); auto.
      + now rewrite <- app_assoc.
      + congruence.
      + eapply shrinks_trans; eauto.
      + intros k2 x2 z C2 N2 R2. rewrite map_app, in_app_iff in N2. cbn in N2. rewrite J2; [apply (I3 k2 x2 z); auto|]. intros R. destruct (U o k x (reach_self _ _ _) CH) as [_ B]. apply (B k2 x2 z); auto.
      + intros k2 l2 x2 IN E2. apply in_app_iff in IN. destruct IN as [IN|[E|[]]].
        * destruct (I4 k2 l2 x2 IN E2) as [B1 B2]. destruct (I6 k2 l2 IN) as (x2' & C2 & E2'). assert (x2' = x2) by congruence. subst x2'.
          assert (NK : k <> k2) by (intros ->; apply KND; apply (in_map fst) in IN; exact IN).
          assert (FR : forall p, lookup hn x2 p = lookup hc x2 p). { intros p. apply lookup_frame. intros z R. apply J2. intros R'. destruct (U o k x (reach_self _ _ _) CH) as [_ B]. apply (B k2 x2 z); auto. eapply shrinks_reach; eauto. }
          split; intros; rewrite FR; auto.
        * assert (k2 = k /\ l2 = l) as [-> ->] by (split; congruence). assert (x2 = x) by congruence. subst x2. split; [exact J3|]. intros p HP. rewrite J4 by exact HP. apply FX.
      + intros k2 l2 IN. apply in_app_iff in IN. destruct IN as [IN|[E|[]]]; [eauto|]. assert (k2 = k) by congruence. subst. eauto.
      + intros z NR. rewrite J2; [auto|]. intros R. apply NR. eapply reach_child; eauto. }
  destruct (G nl [] h1) as (R1 & R2 & R3 & R4 & R5 & R6); auto.
  { intros k x z C _ R. apply AF. intros ->. apply (CHO k x o); [apply S1; exact C|]. split; [exact R|reflexivity]. }
  { intros k l x []. } { intros k l []. }
  { intros z NR. apply AF. intros ->. apply NR. constructor. }
  clear G. split; [exact R2|]. split; [exact R6|]. split.
  - intros p v I. destruct p as [|k p]; [destruct (CP _ _ I) as [[] _]; congruence|]. rewrite (lookup_cons h' o ks) by exact EK. rewrite (KIN k p v I). unfold look. rewrite R1. destruct p as [|b p].
    + destruct (AT k v I) as [-> _]. destruct v; reflexivity.
    + destruct (AA k (b :: p) v) as (l & IL); [discriminate|exact I|]. destruct (R5 k l IL) as (x & C & E). rewrite E. apply (R4 k l x IL E). apply (AS k l IL). split; [discriminate|exact I].
  - intros p NX. destruct p as [|k p]; [reflexivity|]. rewrite !(lookup_cons _ o ks) by exact EK. destruct (existsb (String.eqb k) ks) eqn:KI; [|reflexivity].
    destruct (AP k) as [E _]; [intros v I; apply (NX [k] v I); exists p; reflexivity|]. unfold look. rewrite R1, E. destruct (dget (h o) k) as [[a|x]|] eqn:EX; [reflexivity| |reflexivity]. destruct p as [|b p]; [reflexivity|].
    assert (E1 : dget (h1 o) k = Some (Ref x)) by congruence. assert (CH1 : child h1 o k x) by (exists ks; split; [exact EK|]; split; [now apply existsb_in|exact E1]).
    destruct (in_dec string_dec k (map fst nl)) as [I|I].
    + apply in_map_iff in I. destruct I as ([k' l] & E2 & IL). cbn in E2. subst k'. apply (R4 k l x IL E1). intros q v Iq (r & EQ). destruct (AS k l IL) as (_ & _ & IL'). apply IL' in Iq. destruct Iq as [Q Iq]. apply (NX (k :: q) v Iq). exists r. cbn. congruence.
    + apply lookup_frame. intros z R. apply (R3 k x z); auto.
Qed.

(** ** Any keys *)
Lemma set_params_S n h o kv ps : set_params names (Datatypes.S n) h o (kv :: ps) =
  match get_params names n h o true with
  | Err e => (h, Err e)
  | Ok valid => match assign h o valid [] (kv :: ps) with (h', Err e) => (h', Err e) | (h', Ok (valid', nested)) => fold_left (nstep n valid') nested (h', Ok tt) end
  end.
Proof. reflexivity. Qed.
Definition atoms (d : list (string * value)) : Prop := forall k v, In (k, v) d -> is_atom v.
Lemma dset_in {B} (d : list (string * B)) k v k' v' : In (k', v') (dset d k v) -> (k' = k /\ v' = v) \/ In (k', v') d.
Proof.
  induction d as [|[x w] d IH]; cbn; [intros [E|[]]; left; split; congruence|]. destruct (String.eqb_spec x k) as [->|NE]; cbn.
  - intros [E|I]; [left; split; congruence|auto].
  - intros [E|I]; [auto|]. destruct (IH I); auto.
Qed.
(** attributes of h are attributes of h' *)
Definition kept (h h' : heap) : Prop := forall y k, dget (h y) k <> None -> dget (h' y) k <> None.
Lemma kept_trans h h1 h2 : kept h h1 -> kept h1 h2 -> kept h h2. Proof. unfold kept. auto. Qed.
Lemma hset_kept h o k v : kept h (hset h o k v).
Proof. intros y k0 H. unfold hset. destruct (Nat.eqb_spec y o) as [->|]; [|exact H]. destruct (string_dec k k0) as [->|NE]; [rewrite dget_dset_same; discriminate|]. now rewrite dget_dset_other. Qed.
Lemma hset_shrinks h o k v : is_atom v -> shrinks h (hset h o k v).
Proof.
  intros A y k0 x (ks & E1 & I & E2). exists ks. split; [exact E1|]. split; [exact I|]. unfold hset in E2. destruct (Nat.eqb_spec y o) as [->|]; [|exact E2]. destruct (string_dec k k0) as [->|NE]; [rewrite dget_dset_same in E2; assert (v = Ref x) by congruence; subst v; destruct A|]. now rewrite dget_dset_other in E2.
Qed.
Lemma assign_raw o : forall ps h valid nested, atoms ps -> (forall k d, In (k, d) nested -> atoms d) -> 
  let r := assign h o valid nested ps in shrinks h (fst r) /\ kept h (fst r) /\
  match snd r with
  | Ok (valid', nested') => (forall k d, In (k, d) nested' -> atoms d) /\ (forall k v, In (k, v) ps -> dget valid (fst (partition k)) <> None) /\
      (forall k x, dget valid' k = Some (Ref x) -> dget valid k = Some (Ref x)) /\
      (forall a, In a (map fst nested') -> In a (map fst nested) \/ exists k v, In (k, v) ps /\ fst (partition k) = a) /\
      (forall a s, (exists d, dget nested a = Some d /\ In s (map fst d)) \/ (exists k v, In (k, v) ps /\ partition k = (a, Some s)) -> exists d, dget nested' a = Some d /\ In s (map fst d))
  | Err e => e = ValueError
  end.
Proof.
  induction ps as [|[k v] ps IH]; intros h valid nested A AN r.
  - subst r. cbn. split; [unfold shrinks; auto|]. split; [unfold kept; auto|]. split; [exact AN|]. split; [intros ? ? []|]. split; [auto|]. split; [auto|]. intros a s [H|(k & v & [] & _)]; exact H.
  - subst r. cbn [assign]. assert (Av : is_atom v) by (apply (A k v); now left). assert (A' : atoms ps) by (intros k0 v0 I; apply (A k0 v0); now right).
    destruct (partition k) as [key [s|]] eqn:EP; (destruct (dget valid key) as [w|] eqn:EV; [|cbn; split; [unfold shrinks; auto|]; split; [unfold kept; auto|reflexivity]]).
    + set (nested1 := dset nested key _). destruct (IH h valid nested1 A') as (S1 & K1 & R).
      { intros k0 d I. apply dset_in in I. destruct I as [[-> ->]|I]; [|eauto]. intros k1 v1 I. apply dset_in in I. destruct I as [[-> ->]|I]; [exact Av|]. destruct (dget nested key) as [d0|] eqn:E0; [|destruct I]. apply dget_in in E0. exact (AN key d0 E0 k1 v1 I). }
      split; [exact S1|]. split; [exact K1|]. destruct (snd _) as [[valid' nested']|]; [|exact R]. destruct R as (R1 & R2 & R4 & R5 & R3). split; [exact R1|]. split; [|split; [|split]].
      * intros k0 v0 [E|I]; [|eauto]. assert (k0 = k) by congruence. subst k0. rewrite EP. cbn. congruence.
      * exact R4.
      * intros a Ia. destruct (R5 a Ia) as [I|(k0 & v0 & I & E)]; [|right; exists k0, v0; split; [now right|exact E]]. unfold nested1 in I. apply dset_keys in I. destruct I as [->|I]; [|auto]. right. exists k, v. split; [now left|]. now rewrite EP.
      * intros a s0 H. apply R3. unfold nested1. destruct H as [(d & E & I)|(k0 & v0 & [E|I] & E2)].
        -- left. destruct (string_dec key a) as [->|NE]; [|exists d; rewrite dget_dset_other by exact NE; auto]. rewrite dget_dset_same, E. eexists. split; [reflexivity|]. apply dset_keys. now right.
        -- assert (k0 = k) by congruence. subst k0. rewrite EP in E2. assert (key = a /\ s = s0) as [-> ->] by (split; congruence). left. rewrite dget_dset_same. eexists. split; [reflexivity|]. apply dset_keys. now left.
        -- right. eauto.
    + destruct (IH (hset h o key v) (dset valid key v) nested A' AN) as (S1 & K1 & R). split; [eapply shrinks_trans; [exact (hset_shrinks h o key v Av)|exact S1]|]. split; [eapply kept_trans; [exact (hset_kept h o key v)|exact K1]|].
      destruct (snd _) as [[valid' nested']|]; [|exact R]. destruct R as (R1 & R2 & R4 & R5 & R3). split; [exact R1|]. split; [|split; [|split]].
      * intros k0 v0 [E|I]; [assert (k0 = k) by congruence; subst k0; rewrite EP; cbn; congruence|]. specialize (R2 k0 v0 I). destruct (string_dec key (fst (partition k0))) as [E|NE]; [rewrite <- E; congruence|]. now rewrite dget_dset_other in R2.
      * intros k0 x E. apply R4 in E. destruct (string_dec key k0) as [->|NE]; [|now rewrite dget_dset_other in E]. rewrite dget_dset_same in E. assert (v = Ref x) by congruence. subst v. destruct Av.
      * intros a Ia. destruct (R5 a Ia) as [I|(k0 & v0 & I & E)]; [auto|right; exists k0, v0; split; [now right|exact E]].
      * intros a s0 H. apply R3. destruct H as [H|(k0 & v0 & [E|I] & E2)]; [auto| |right; eauto]. assert (k0 = k) by congruence. subst k0. congruence.
Qed.
Lemma set_params_frame : forall n h o ps, atoms ps -> shrinks h (fst (set_params names n h o ps)) /\ kept h (fst (set_params names n h o ps)).
Proof.
  induction n as [|n IH]; intros h o [|kv ps] A; try (cbn; split; [unfold shrinks|unfold kept]; solve [auto]).
  rewrite set_params_S. destruct (get_params names n h o true) as [valid|]; [|cbn; split; [unfold shrinks|unfold kept]; auto].
  destruct (assign_raw o (kv :: ps) h valid [] A) as (S1 & K1 & R); [intros ? ? []|]. destruct (assign h o valid [] (kv :: ps)) as [h1 [[valid1 nested]|e]]; cbn [fst snd] in *; [|split; [exact S1|exact K1]].
  destruct R as (R1 & _). assert (G : forall l (acc : heap * res unit), (forall k d, In (k, d) l -> atoms d) -> shrinks (fst acc) (fst (fold_left (nstep n valid1) l acc)) /\ kept (fst acc) (fst (fold_left (nstep n valid1) l acc))).
  { induction l as [|[k d] l IHl]; intros acc AL; [cbn; split; [unfold shrinks|unfold kept]; auto|]. cbn [fold_left]. specialize (IHl (nstep n valid1 acc (k, d)) (fun k0 d0 I => AL k0 d0 (or_intror I))).
    assert (X : shrinks (fst acc) (fst (nstep n valid1 acc (k, d))) /\ kept (fst acc) (fst (nstep n valid1 acc (k, d)))).
    { destruct acc as [hc [[]|e]]; cbn [nstep fst snd]; [|split; [unfold shrinks|unfold kept]; auto]. destruct (dget valid1 k) as [[a|x]|]; try (split; [unfold shrinks|unfold kept]; solve [auto]). apply IH. apply (AL k d). now left. }
    destruct X, IHl. split; [eapply shrinks_trans; eauto|eapply kept_trans; eauto]. }
  destruct (G nested (h1, Ok tt) R1) as [G1 G2]. cbn [fst] in G1, G2. split; [eapply shrinks_trans; eauto|eapply kept_trans; eauto].
Qed.
Lemma partition_parts s a r : partition s = (a, r) -> (r = None -> s = a) /\ forall t, r = Some t -> s = (a ++ "__" ++ t)%string.
Proof.
  revert a r. induction s as [|c s IH]; intros a r; cbn [partition]; [intros [= <- <-]; split; [auto|discriminate]|]. destruct s as [|d s']; [intros [= <- <-]; split; [auto|discriminate]|].
  destruct (Ascii.eqb_spec c "_"%char) as [->|Nc]; cbn [andb].
  - destruct (Ascii.eqb_spec d "_"%char) as [->|Nd].
    + intros E. assert (a = "" /\ r = Some s') as [-> ->] by (split; congruence). split; [discriminate|]. intros t [= <-]. reflexivity.
    + destruct (partition (String d s')) as [a0 r0] eqn:EP. intros E. assert (a = String "_" a0 /\ r = r0) as [-> ->] by (split; congruence). destruct (IH a0 r0 eq_refl) as [I1 I2]. split; [intros ->; f_equal; auto|]. intros t ->. cbn. f_equal. now apply I2.
  - destruct (partition (String d s')) as [a0 r0] eqn:EP. intros E. assert (a = String c a0 /\ r = r0) as [-> ->] by (split; congruence). destruct (IH a0 r0 eq_refl) as [I1 I2]. split; [intros ->; f_equal; auto|]. intros t ->. cbn. f_equal. now apply I2.
Qed.
(** the first component contains no '__' *)
Fixpoint nodd (s : string) : bool :=
  match s with String c ((String d _) as s') => negb (Ascii.eqb c "_"%char && Ascii.eqb d "_"%char) && nodd s' | _ => true end.
Lemma nodd_partition s : nodd (fst (partition s)) = true.
Proof.
  induction s as [|c s IH]; [reflexivity|]. cbn [partition]. destruct s as [|d s']; [reflexivity|]. destruct (Ascii.eqb c "_"%char && Ascii.eqb d "_"%char) eqn:E; [reflexivity|].
  destruct (partition (String d s')) as [a r] eqn:EP. cbn [fst] in *. destruct a as [|d0 a']; [reflexivity|]. change (nodd (String c (String d0 a'))) with (negb (Ascii.eqb c "_"%char && Ascii.eqb d0 "_"%char) && nodd (String d0 a')). rewrite IH, andb_true_r.
  destruct (partition_parts _ _ _ EP) as [P1 P2]. assert (d0 = d). { destruct r as [t|]; [specialize (P2 t eq_refl)|specialize (P1 eq_refl)]; cbn in *; congruence. } subst d0. now rewrite E.
Qed.
Lemma nodd_app_not k s : nodd (k ++ "__" ++ s)%string = false.
Proof.
  induction k as [|c k IH]; [reflexivity|]. change ((String c k ++ "__" ++ s)%string) with (String c (k ++ "__" ++ s)%string). destruct (k ++ "__" ++ s)%string as [|d r] eqn:E; [destruct k; discriminate|].
  change (nodd (String c (String d r))) with (negb (Ascii.eqb c "_"%char && Ascii.eqb d "_"%char) && nodd (String d r)). rewrite IH. apply andb_false_r.
Qed.
Lemma nodd_join p : cleanp p -> nodd (join p) = true -> exists k, p = [k].
Proof.
  intros [N _] H. destruct p as [|k [|b p]]; [congruence|eauto|]. change (join (k :: b :: p)) with (k ++ "__" ++ join (b :: p))%string in H. rewrite nodd_app_not in H. discriminate.
Qed.
(** the keys of a successful call are the nested names of paths of parameter names *)
Lemma set_params_keys : forall n h o ps h', well_named h o -> atoms ps -> set_params names n h o ps = (h', Ok tt) -> forall k v, In (k, v) ps -> exists p, cleanp p /\ k = join p.
Proof.
  induction n as [|n IH]; intros h o ps h' W A H k v I; (destruct ps as [|kv ps]; [destruct I|]); [discriminate|].
  rewrite set_params_S in H. destruct (get_params names n h o true) as [valid|] eqn:GP; [|discriminate].
  assert (EKS : exists ks, names o = Ok ks). { destruct n; [discriminate|]. rewrite get_params_S in GP. destruct (names o) as [ks|]; [eauto|discriminate]. } destruct EKS as (ks & EK).
  destruct (get_params_good n h o valid W GP) as (NV & KV & GV).
  destruct (assign_raw o (kv :: ps) h valid [] A) as (S1 & K1 & R); [intros ? ? []|].
  destruct (assign h o valid [] (kv :: ps)) as [h1 [[valid1 nested]|e]]; cbn [fst snd] in *; [|discriminate]. destruct R as (R1 & R2 & R4 & R5 & R3).
  assert (CA : forall k v, In (k, v) (kv :: ps) -> clean (fst (partition k)) = true).
  { intros k0 v0 I0. pose proof (R2 k0 v0 I0) as X. destruct (dget valid (fst (partition k0))) as [w|] eqn:EW; [|congruence]. apply dget_in in EW. apply (in_map fst) in EW. destruct (KV _ EW) as (p & Cp & EP). cbn [fst] in EP. destruct (nodd_join p Cp) as (a & ->); [rewrite <- EP; apply nodd_partition|]. cbn [join] in EP. rewrite EP. exact (Forall_inv (proj2 Cp)). }
  pose proof (CA k v I) as Ck. destruct (partition k) as [a [s|]] eqn:EP; cbn [fst] in Ck; destruct (partition_parts _ _ _ EP) as [P1 P2].
  2:{ exists [a]. split; [split; [discriminate|constructor; [exact Ck|constructor]]|exact (P1 eq_refl)]. }
  rewrite (P2 s eq_refl). destruct (R3 a s) as (d & ED & IS); [right; eauto|].
  assert (G : forall l hc, (forall k0 d0, In (k0, d0) l -> In (k0, d0) nested) -> shrinks h hc -> fold_left (nstep n valid1) l (hc, Ok tt) = (h', Ok tt) -> In (a, d) l -> exists p, cleanp p /\ s = join p).
  { induction l as [|[k0 d0] l IHl]; intros hc SUB Sc F IN; [destruct IN|]. cbn [fold_left] in F. unfold nstep at 2 in F. cbn [fst snd] in F.
    destruct (dget valid1 k0) as [[?|x]|] eqn:E0; [rewrite nstep_err in F; congruence| |rewrite nstep_err in F; congruence].
    destruct (set_params names n hc x d0) as [hn [[]|e]] eqn:SP; [|rewrite nstep_err in F; congruence].
    assert (A0 : atoms d0) by (apply (R1 k0 d0); apply SUB; now left).
    destruct IN as [E|IN].
    - assert (k0 = a /\ d0 = d) as [-> ->] by (split; congruence). apply in_map_iff in IS. destruct IS as ([s' w] & E2 & IS). cbn in E2. subst s'. apply (IH hc x d hn) with (v := w); auto.
      apply R4 in E0. assert (Ca : cleanp [a]) by (split; [discriminate|constructor; [exact Ck|constructor]]). change a with (join [a]) in E0. rewrite (GV [a] Ca), (lookup_cons h o ks) in E0 by exact EK. destruct (existsb (String.eqb a) ks) eqn:EX; [|discriminate].
      assert (CH : child h o a x). { exists ks. split; [exact EK|]. split; [now apply existsb_in|]. unfold look in E0. destruct (dget (h o) a) as [[?|y]|]; congruence. }
      eapply shrinks_named; [exact Sc|]. eapply named_child; eauto.
    - apply (IHl hn); [intros; apply SUB; now right| |exact F|exact IN]. pose proof (set_params_frame n hc x d0 A0) as [X _]. rewrite SP in X. eapply shrinks_trans; eauto. }
  destruct (G nested h1) as (p & Cp & ->); auto; [now apply dget_in|]. exists (a :: p). split; [split; [discriminate|constructor; [exact Ck|apply Cp]]|]. destruct p; [destruct Cp; congruence|reflexivity].
Qed.
Lemma keys_paths (ps : list (string * value)) : (forall k v, In (k, v) ps -> exists p, cleanp p /\ k = join p) -> exists pvs, ps = map J pvs /\ forall p v, In (p, v) pvs -> cleanp p.
Proof.
  induction ps as [|[k v] ps IH]; intros H; [exists []; split; [reflexivity|intros ? ? []]|]. destruct (H k v (or_introl eq_refl)) as (p & Cp & ->). destruct IH as (pvs & -> & C); [intros; eapply H; right; eauto|].
  exists ((p, v) :: pvs). split; [reflexivity|]. intros p0 v0 [E|I]; [congruence|eauto].
Qed.

(** ** Success *)
Lemma get_params_kept : forall n h h' o d, shrinks h h' -> kept h h' -> get_params names n h o true = Ok d -> exists d', get_params names n h' o true = Ok d'.
Proof.
  induction n as [|n IH]; intros h h' o d S K H; [discriminate|]. rewrite get_params_S in *. destruct (names o) as [ks|] eqn:EK; [|discriminate]. cbn [bind] in *.
  assert (G : forall l, incl l ks -> forall a a' d1, fold_left (gstep n h o) l (Ok a) = Ok d1 -> exists d2, fold_left (gstep n h' o) l (Ok a') = Ok d2).
  { induction l as [|k l IHl]; intros IN a a' d1 F; [exists a'; reflexivity|]. cbn [fold_left] in *. destruct (gstep n h o (Ok a) k) as [o1|e] eqn:E1; [|rewrite gstep_err in F; discriminate].
    assert (IN' : incl l ks) by (intros z Iz; apply IN; now right). assert (Ik : In k ks) by (apply IN; now left).
    assert (X : exists o2, gstep n h' o (Ok a') k = Ok o2); [|destruct X as (o2 & ->); eapply IHl; eauto].
    unfold gstep in E1 |- *. cbn [bind] in *. destruct (dget (h o) k) as [v|] eqn:EV; [|discriminate]. destruct (dget (h' o) k) as [v'|] eqn:EV'; [|exfalso; apply (K o k); congruence].
    destruct v' as [b|x]; [cbn; eauto|]. assert (C : child h' o k x) by (exists ks; auto). apply S in C. destruct C as (_ & _ & _ & C). assert (v = Ref x) by congruence. subst v.
    destruct (get_params names n h x true) as [items|] eqn:GP; [|discriminate]. destruct (IH h h' x items S K GP) as (items' & ->). cbn. eauto. }
  eapply G; [intros z Iz; exact Iz|exact H].
Qed.
Lemma get_params_child n h o d k x : get_params names (Datatypes.S n) h o true = Ok d -> child h o k x -> exists d', get_params names n h x true = Ok d'.
Proof.
  rewrite get_params_S. intros H (ks & EK & IK & EV). rewrite EK in H. cbn [bind] in H. revert IK H. generalize (@nil (string * value)). clear EK. induction ks as [|k0 ks IH]; intros a IK H; [destruct IK|]. cbn [fold_left] in H.
  destruct (gstep n h o (Ok a) k0) as [o1|e] eqn:E1; [|rewrite gstep_err in H; discriminate]. destruct IK as [->|IK]; [|eapply IH; eauto].
  unfold gstep in E1. cbn [bind] in E1. rewrite EV in E1. destruct (get_params names n h x true) as [items|] eqn:GP; [eauto|discriminate].
Qed.
Lemma get_params_mono : forall n m h o d, n <= m -> get_params names n h o true = Ok d -> get_params names m h o true = Ok d.
Proof.
  induction n as [|n IH]; intros m h o d L H; [discriminate|]. destruct m as [|m]; [lia|]. rewrite get_params_S in *. destruct (names o) as [ks|] eqn:EK; [|discriminate]. cbn [bind] in *. revert H. generalize (@nil (string * value)). clear EK. induction ks as [|k ks IHk]; intros a H; [exact H|]. cbn [fold_left] in *.
  destruct (gstep n h o (Ok a) k) as [o1|e] eqn:E1; [|rewrite gstep_err in H; discriminate].
  replace (gstep m h o (Ok a) k) with (@Ok (list (string * value)) o1); [now apply IHk|]. symmetry. unfold gstep in *. cbn [bind] in *. destruct (dget (h o) k) as [[b|x]|]; [exact E1| |discriminate]. destruct (get_params names n h x true) as [items|] eqn:GP; [|discriminate]. rewrite (IH m h x items) by (lia || exact GP). exact E1.
Qed.
(** no path of the list is a proper prefix of another *)
Definition antichain (pvs : list (list string * value)) : Prop := forall p q v w, In (p, v) pvs -> In (q, w) pvs -> extends p q -> p = q.
Lemma assign_total o : forall ps h valid nested, (forall k v, In (k, v) ps -> dget valid (fst (partition k)) <> None) -> exists h' r, assign h o valid nested ps = (h', Ok r).
Proof.
  induction ps as [|[k v] ps IH]; intros h valid nested H; [cbn; eauto|]. cbn [assign]. pose proof (H k v (or_introl eq_refl)) as X. destruct (partition k) as [key [s|]] eqn:EP; cbn [fst] in X; (destruct (dget valid key) as [w|] eqn:EV; [|congruence]); apply IH.
  - intros k0 v0 I. apply (H k0 v0). now right.
  - intros k0 v0 I. destruct (string_dec key (fst (partition k0))) as [<-|NE]; [rewrite dget_dset_same; discriminate|]. rewrite dget_dset_other by exact NE. apply (H k0 v0). now right.
Qed.
Lemma set_params_total : forall n h o pvs d, unshared h o -> well_named h o -> (forall p v, In (p, v) pvs -> cleanp p /\ is_atom v) -> NoDup (map fst pvs) -> antichain pvs ->
  get_params names n h o true = Ok d -> (forall p v, In (p, v) pvs -> lookup h o p <> None) -> exists h', set_params names (Datatypes.S n) h o (map J pvs) = (h', Ok tt).
Proof.
  induction n as [|n IH]; intros h o pvs d U W CP ND AC GP LK; [discriminate|].
  destruct (map J pvs) as [|kv ps] eqn:EP; [eexists; reflexivity|]. rewrite set_params_S, GP, <- EP. clear kv ps EP.
  assert (EKS : exists ks, names o = Ok ks). { rewrite get_params_S in GP. destruct (names o) as [ks|]; [eauto|discriminate]. } destruct EKS as (ks & EK).
  destruct (get_params_good (Datatypes.S n) h o d W GP) as (NV & KV & GV).
  assert (LK1 : forall k q v, In (k :: q, v) pvs -> clean k = true /\ existsb (String.eqb k) ks = true /\ look h o k q <> None).
  { intros k q v I. destruct (CP _ _ I) as [[_ C] _]. split; [exact (Forall_inv C)|]. specialize (LK _ _ I). rewrite (lookup_cons h o ks) in LK by exact EK. destruct (existsb _ ks); [auto|congruence]. }
  assert (VK : forall k q v, In (k :: q, v) pvs -> dget d k = dget (h o) k /\ dget (h o) k <> None).
  { intros k q v I. destruct (LK1 k q v I) as (C & X & L). assert (Ck : cleanp [k]) by (split; [discriminate|constructor; [exact C|constructor]]). change k with (join [k]) at 1. rewrite (GV [k] Ck), (lookup_cons h o ks), X by exact EK. unfold look in *. destruct (dget (h o) k) as [[a|x]|]; auto; split; congruence. }
  pose proof (assign_ok o h d pvs [] h d []) as A. cbn [map app] in A. specialize (A (fun p v I => proj1 (CP p v I)) ND (fun p v I => match I with end)).
  assert (A0 : ainv o h d [] h d []) by (constructor; cbn; try tauto; auto; [constructor]). specialize (A A0). clear A0.
  destruct (assign_total o (map J pvs) h d []) as (h1 & [valid1 nested] & EA).
  { intros k v I. apply in_map_iff in I. destruct I as ([p w] & E & I). unfold J in E. cbn [fst snd] in E. assert (k = join p) by congruence. subst k. destruct p as [|k q]; [destruct (CP _ _ I) as [[] _]; congruence|]. destruct (LK1 k q w I) as (C & _). rewrite partition_join by exact C. cbn [fst]. destruct (VK k q w I) as [-> ?]. assumption. }
  rewrite EA in *. destruct A as (nl & -> & AI). destruct AI as [AK AS AA AT AP AF AW].
  assert (SR : shrinks h h1 /\ kept h h1). { pose proof (assign_raw o (map J pvs) h d []) as X. cbv zeta in X. rewrite EA in X. cbn [fst snd] in X. destruct X as (X1 & X2 & _); auto; [|intros ? ? []]. intros k v I. apply in_map_iff in I. destruct I as ([p w] & E & I). unfold J in E. cbn [fst snd] in E. assert (v = w) by congruence. subst v. apply (CP _ _ I). }
  destruct SR as [S1 K1].
  assert (C1 : forall k l, In (k, l) nl -> exists x, child h o k x /\ dget valid1 k = Some (Ref x)).
  { intros k l IL. destruct (AS k l IL) as (NE & _ & IL'). destruct l as [|[q v] l]; [congruence|]. destruct (proj1 (IL' q v) (or_introl eq_refl)) as [Q I]. destruct (LK1 k q v I) as (C & X & L). destruct (VK k q v I) as [V1 V2].
    unfold look in L. destruct (dget (h o) k) as [[a|x]|] eqn:EV; [destruct q; congruence| |congruence]. exists x. split; [exists ks; split; [exact EK|]; split; [now apply existsb_in|exact EV]|].
    destruct (AP k) as [_ ->]; [|exact V1]. intros u Iu. specialize (AC [k] (k :: q) u v Iu I (ex_intro _ q eq_refl)). assert (q = []) by congruence. congruence. }
  assert (CHO : forall k x z, child h o k x -> ~ (reach h x z /\ z = o)) by (intros k x z C [R ->]; destruct (U o k x (reach_self _ _ _) C) as [A _]; contradiction).
  assert (G : forall todo dn hc, nl = dn ++ todo -> shrinks h hc -> kept h hc -> (forall k x z, child h o k x -> ~ In k (map fst dn) -> reach h x z -> hc z = h z) -> exists h', fold_left (nstep (Datatypes.S n) valid1) (map JN todo) (hc, Ok tt) = (h', Ok tt)).
  { induction todo as [|[k l] todo IHt]; intros dn hc EN I2 I7 I3; [cbn; eauto|]. cbn [map fold_left]. unfold nstep at 2. cbn [fst snd JN].
    assert (KL : In (k, l) nl) by (rewrite EN; apply in_or_app; right; now left). destruct (C1 k l KL) as (x & CH & ->).
    assert (KND : ~ In k (map fst dn)). { rewrite EN, map_app in AK. cbn [map fst] in AK. apply NoDup_remove_2 in AK. intros I. apply AK. apply in_or_app. now left. }
    destruct (get_params_child n h o d k x GP CH) as (dx & GPX). destruct (get_params_kept n h hc x dx I2 I7 GPX) as (dx' & GPX').
    assert (UX : unshared hc x) by (eapply shrinks_unshared; [exact I2|]; eapply unshared_child; eauto). assert (WX : well_named hc x) by (eapply shrinks_named; [exact I2|]; eapply named_child; eauto).
    destruct (AS k l KL) as (NE & NDL & IL').
    assert (CPL : forall p v, In (p, v) l -> cleanp p /\ is_atom v). { intros p v I. apply IL' in I. destruct I as [Q I]. destruct (CP _ _ I) as [[_ F1] At]. split; [split; [exact Q|exact (Forall_inv_tail F1)]|exact At]. }
    assert (FX : forall p, lookup hc x p = lookup h x p) by (intros p; apply lookup_frame; intros z R; apply (I3 k x z); auto).
    destruct (IH hc x l dx' UX WX CPL NDL) as (hn & SP); [|exact GPX'| |].
    - intros p q v w Ip Iq (r & ->). apply IL' in Ip. apply IL' in Iq. assert (k :: p = k :: p ++ r) by (apply (AC _ _ v w); [apply Ip|apply Iq|exists r; reflexivity]). congruence.
    - intros p v I. rewrite FX. apply IL' in I. destruct I as [Q I]. destruct (LK1 k p v I) as (_ & _ & L). unfold look in L. destruct CH as (_ & _ & _ & CH). rewrite CH in L. destruct p; [congruence|exact L].
    - rewrite SP. destruct (set_params_frame (Datatypes.S n) hc x (map J l)) as [F1 F2]; [intros k0 v0 I; apply in_map_iff in I; destruct I as ([p w] & E & I); unfold J in E; cbn [fst snd] in E; assert (v0 = w) by congruence; subst v0; apply (CPL _ _ I)|]. rewrite SP in F1, F2. cbn [fst] in F1, F2.
      destruct (set_params_ok (Datatypes.S n) hc x l hn UX WX CPL NDL SP) as (_ & J2 & _ & _).
      apply (IHt (dn ++ [(k, l)]) hn); [now rewrite <- app_assoc|eapply shrinks_trans; eauto|eapply kept_trans; eauto|].
      intros k2 x2 z C2 N2 R2. rewrite map_app, in_app_iff in N2. cbn in N2. rewrite J2; [apply (I3 k2 x2 z); auto|]. intros R. destruct (U o k x (reach_self _ _ _) CH) as [_ B]. apply (B k2 x2 z); auto. eapply shrinks_reach; eauto. }
  apply (G nl [] h1); auto. intros k x z C _ R. apply AF. intros ->. apply (CHO k x o C). split; [exact R|reflexivity].
Qed.

(** ** Setting what is already there *)
Lemma dset_same {B} (d : list (string * B)) k v : dget d k = Some v -> dset d k v = d.
Proof. induction d as [|[x w] d IH]; cbn; [discriminate|]. destruct (String.eqb x k); [intros [= ->]; reflexivity|]. intros H. now rewrite IH. Qed.
Lemma assign_same o : forall ps h h0 valid nested, (forall y, h0 y = h y) ->
  (forall a d, In (a, d) nested -> d <> []) -> (forall k v a, In (k, v) ps -> partition k = (a, None) -> dget (h o) a = Some v /\ dget valid a = Some v) -> (forall k v a s, In (k, v) ps -> partition k = (a, Some s) -> dget valid a <> None) ->
  exists h' nested', assign h0 o valid nested ps = (h', Ok (valid, nested')) /\ (forall y, h' y = h y) /\ (forall a d, In (a, d) nested' -> d <> []) /\
    forall a d s v, In (a, d) nested' -> In (s, v) d -> (exists d0, In (a, d0) nested /\ In (s, v) d0) \/ exists k, In (k, v) ps /\ partition k = (a, Some s).
Proof.
  induction ps as [|[k v] ps IH]; intros h h0 valid nested E NN H1 H2.
  - exists h0, nested. cbn. split; [reflexivity|]. split; [exact E|]. split; [exact NN|]. intros a d s v I J. left. eauto.
  - cbn [assign]. destruct (partition k) as [a [s|]] eqn:EP.
    + destruct (dget valid a) as [w|] eqn:EV; [|exfalso; apply (H2 k v a s (or_introl eq_refl) EP EV)].
      destruct (IH h h0 valid (dset nested a (dset (match dget nested a with Some d => d | None => [] end) s v)) E) as (h' & nested' & -> & E' & NN' & N'); [intros b d I; apply dset_in in I; destruct I as [[-> ->]|I]; [|eauto]; destruct (dget nested a) as [[|[? ?] ?]|]; cbn; try destruct (String.eqb _ _); discriminate|intros; eapply H1; [right|]; eauto|intros; eapply H2; [right|]; eauto|].
      exists h', nested'. split; [reflexivity|]. split; [exact E'|]. split; [exact NN'|]. intros b d s0 v0 I J. destruct (N' b d s0 v0 I J) as [(d0 & I0 & J0)|(k0 & I0 & P0)]; [|right; exists k0; split; [now right|exact P0]].
      apply dset_in in I0. destruct I0 as [[-> ->]|I0]; [|left; eauto]. apply dset_in in J0. destruct J0 as [[-> ->]|J0]; [right; exists k; split; [now left|exact EP]|]. destruct (dget nested a) as [d1|] eqn:E1; [|destruct J0]. left. exists d1. split; [now apply dget_in|exact J0].
    + destruct (H1 k v a (or_introl eq_refl) EP) as [E1 E2]. rewrite E2, (dset_same valid a v E2). destruct (IH h (hset h0 o a v) valid nested) as (h' & nested' & -> & E' & NN' & N').
      * intros y. unfold hset. destruct (Nat.eqb_spec y o) as [->|]; [|apply E]. rewrite E. now apply dset_same.
      * exact NN.
      * intros; eapply H1; [right|]; eauto.
      * intros; eapply H2; [right|]; eauto.
      * exists h', nested'. split; [reflexivity|]. split; [exact E'|]. split; [exact NN'|]. intros b d s0 v0 I J. destruct (N' b d s0 v0 I J) as [X|(k0 & I0 & P0)]; [auto|right; exists k0; split; [now right|exact P0]].
Qed.
Lemma set_params_same : forall n h o ps d, well_named h o -> get_params names n h o true = Ok d ->
  (forall k v, In (k, v) ps -> exists p, cleanp p /\ k = join p /\ lookup h o p = Some v) -> exists h', set_params names (Datatypes.S n) h o ps = (h', Ok tt) /\ forall y, h' y = h y.
Proof.
  induction n as [|n IH]; intros h o ps d W GP H; [discriminate|]. destruct ps as [|kv ps]; [exists h; split; reflexivity|]. rewrite set_params_S, GP. set (l := kv :: ps) in *. clearbody l. clear kv ps.
  assert (EKS : exists ks, names o = Ok ks). { rewrite get_params_S in GP. destruct (names o) as [ks|]; [eauto|discriminate]. } destruct EKS as (ks & EK).
  destruct (get_params_good (Datatypes.S n) h o d W GP) as (NV & KV & GV).
  assert (PT : forall k v a r, In (k, v) l -> partition k = (a, r) -> dget d a = dget (h o) a /\ In a ks /\ match r with None => dget (h o) a = Some v | Some s => exists q x, cleanp q /\ s = join q /\ dget (h o) a = Some (Ref x) /\ lookup h x q = Some v end).
  { intros k v a r I EP. destruct (H k v I) as (p & Cp & -> & L). destruct p as [|b q]; [destruct Cp; congruence|]. pose proof (Forall_inv (proj2 Cp)) as Cb. cbv beta in Cb. rewrite partition_join in EP by exact Cb. assert (b = a) by congruence. subst b.
    rewrite (lookup_cons h o ks) in L by exact EK. destruct (existsb (String.eqb a) ks) eqn:EX; [|discriminate]. assert (Ca : cleanp [a]) by (split; [discriminate|constructor; [exact Cb|constructor]]).
    split; [|split; [now apply existsb_in|]].
    - change a with (join [a]) at 1. rewrite (GV [a] Ca), (lookup_cons h o ks), EX by exact EK. unfold look. destruct (dget (h o) a) as [[?|?]|]; reflexivity.
    - unfold look in L. destruct q as [|b q]; [assert (r = None) by congruence; subst r; destruct (dget (h o) a) as [[?|?]|]; congruence|]. assert (r = Some (join (b :: q))) by congruence. subst r. destruct (dget (h o) a) as [[?|x]|]; try discriminate. exists (b :: q), x. split; [split; [discriminate|exact (Forall_inv_tail (proj2 Cp))]|]. auto. }
  destruct (assign_same o l h h d []) as (h1 & nested & -> & E1 & NN & N1); [reflexivity|intros ? ? []| | |].
  { intros k v a I EP. destruct (PT k v a None I EP) as (P1 & _ & P2). rewrite P1. auto. }
  { intros k v a s I EP. destruct (PT k v a (Some s) I EP) as (P1 & _ & q & x & _ & _ & P2 & _). congruence. }
  assert (G : forall todo hc, (forall a dd, In (a, dd) todo -> In (a, dd) nested) -> (forall y, hc y = h y) -> exists h', fold_left (nstep (Datatypes.S n) d) todo (hc, Ok tt) = (h', Ok tt) /\ forall y, h' y = h y).
  { induction todo as [|[a dd] todo IHt]; intros hc SUB EC; [exists hc; split; [reflexivity|exact EC]|]. cbn [fold_left]. unfold nstep at 2. cbn [fst snd].
    assert (IA : In (a, dd) nested) by (apply SUB; now left). assert (SUB' : forall a0 d0, In (a0, d0) todo -> In (a0, d0) nested) by (intros; apply SUB; now right).
    assert (PA : exists s v k, In (s, v) dd /\ In (k, v) l /\ partition k = (a, Some s)).
    { destruct dd as [|[s v] dd0]; [exfalso; exact (NN a [] IA eq_refl)|]. destruct (N1 a _ s v IA (or_introl eq_refl)) as [(d0 & [] & _)|(k & IK & PK)]. exists s, v, k. split; [now left|]. auto. }
    destruct PA as (s & v & k & _ & IK & PK). destruct (PT k v a (Some s) IK PK) as (P1 & P2 & q & x & _ & _ & P3 & _). rewrite P1, P3.
    assert (CH : child h o a x) by (exists ks; auto). destruct (get_params_child n h o d a x GP CH) as (dx & GPX).
    assert (SC : shrinks h hc) by (intros y k0 z (ks0 & A1 & A2 & A3); exists ks0; rewrite EC in A3; auto). assert (KC : kept h hc) by (intros y k0; now rewrite EC).
    destruct (get_params_kept n h hc x dx SC KC GPX) as (dx' & GPX').
    destruct (IH hc x dd dx') as (hn & SP & EN); [eapply shrinks_named; [exact SC|]; eapply named_child; eauto|exact GPX'| |].
    - intros s1 v1 I1. destruct (N1 a dd s1 v1 IA I1) as [(d0 & [] & _)|(k1 & IK1 & PK1)]. destruct (PT k1 v1 a (Some s1) IK1 PK1) as (_ & _ & q1 & x1 & Q1 & Q2 & Q3 & Q4). assert (x1 = x) by congruence. subst x1. exists q1. split; [exact Q1|]. split; [exact Q2|]. rewrite <- Q4. apply lookup_frame. intros z _. apply EC.
    - rewrite SP. apply (IHt hn SUB'). intros y. rewrite EN. apply EC. }
  apply (G nested h1); auto.
Qed.
End Facts.

(** ** C31 *)
(** get_params(): the nested name of a path is listed, with the value at its end, exactly when the
    path leads to a parameter; nothing else is listed and no name twice. *)
Theorem C31_get names n h o d : well_named names h o -> get_params names n h o true = Ok d ->
  NoDup (map fst d) /\ (forall p v, p <> [] -> Forall (fun k => clean k = true) p -> (In (join p, v) d <-> lookup names h o p = Some v)) /\
  forall k v, In (k, v) d -> exists p, Forall (fun x => clean x = true) p /\ k = join p /\ lookup names h o p = Some v.
Proof.
  intros W H. destruct (get_params_good names n h o d W H) as (N & K & G). split; [exact N|]. split.
  - intros p v Np Cp. rewrite <- (G p (conj Np Cp)). split; [now apply in_dget|apply dget_in].
  - intros k v I. destruct (K k) as (p & Cp & ->); [apply (in_map fst) in I; exact I|]. exists p. split; [apply Cp|]. split; [reflexivity|]. rewrite <- (G p Cp). now apply in_dget.
Qed.
(** set_params with plain values on estimators that form a tree: after it succeeds, get_params
    returns the value given for every given name, and what it returned before for every name that
    is neither given nor nested below a given one. *)
Theorem C31_set names n h o ps h' m d d' : unshared names h o -> well_named names h o -> NoDup (map fst ps) -> (forall k v, In (k, v) ps -> exists a, v = Atom a) ->
  set_params names n h o ps = (h', Ok tt) -> get_params names m h o true = Ok d -> get_params names m h' o true = Ok d' ->
  (forall k v, In (k, v) ps -> In (k, v) d') /\
  (forall k v, (forall g, In g (map fst ps) -> k <> g /\ forall s, k <> (g ++ "__" ++ s)%string) -> (In (k, v) d' <-> In (k, v) d)).
Proof.
  intros U W ND AT H G1 G2. assert (A : atoms ps) by (intros k v I; destruct (AT k v I) as (a & ->); exact Logic.I).
  destruct (keys_paths ps) as (pvs & -> & CP); [intros k v; exact (set_params_keys names n h o ps h' W A H k v)|].
  assert (CA : forall p v, In (p, v) pvs -> cleanp p /\ is_atom v) by (intros p v I; split; [eauto|]; apply (A (join p) v); apply (in_map J) in I; exact I).
  assert (NP : NoDup (map fst pvs)) by (rewrite map_map in ND; apply (NoDup_map_inv join); rewrite map_map; exact ND).
  destruct (set_params_ok names n h o pvs h' U W CA NP H) as (S1 & _ & SET & KEEP).
  pose proof (shrinks_named names h h' o S1 W) as W'. destruct (get_params_good names m h o d W G1) as (N1 & K1 & E1). destruct (get_params_good names m h' o d' W' G2) as (N2 & K2 & E2). split.
  - intros k v I. apply in_map_iff in I. destruct I as ([p w] & E & I). unfold J in E. cbn [fst snd] in E. assert (k = join p /\ w = v) as [-> ->] by (split; congruence). apply dget_in. rewrite E2 by eauto. auto.
  - intros k v NG. assert (X : forall p, cleanp p -> k = join p -> lookup names h' o p = lookup names h o p).
    { intros p Cp ->. apply KEEP. intros q w I (r & E). assert (IG : In (join q) (map fst (map J pvs))) by (apply in_map_iff; exists (J (q, w)); split; [reflexivity|now apply in_map]). destruct (NG _ IG) as [G3 G4].
      pose proof (CP _ _ I) as [Nq _]. assert (JA : forall q r : list string, q <> [] -> r <> [] -> join (q ++ r) = (join q ++ "__" ++ join r)%string).
      { clear. intros q r Nq Nr. induction q as [|a q IH]; [congruence|]. destruct q as [|b q]; [destruct r; [congruence|reflexivity]|]. change (join ((a :: b :: q) ++ r)) with (a ++ "__" ++ join ((b :: q) ++ r))%string. rewrite IH by discriminate. change (join (a :: b :: q)) with (a ++ "__" ++ join (b :: q))%string.
        assert (AS : forall x y z : string, ((x ++ y) ++ z = x ++ (y ++ z))%string) by (intros x y z; induction x as [|c x IHx]; cbn; [reflexivity|now rewrite IHx]). rewrite !AS. reflexivity. }
      destruct r as [|b r]; [rewrite app_nil_r in E; congruence|]. apply (G4 (join (b :: r))). rewrite E. apply JA; [exact Nq|discriminate]. }
    split; intros I.
    + destruct (K2 k) as (p & Cp & ->); [apply (in_map fst) in I; exact I|]. apply dget_in. rewrite E1 by exact Cp. rewrite <- (X p Cp eq_refl), <- E2 by exact Cp. now apply in_dget.
    + destruct (K1 k) as (p & Cp & ->); [apply (in_map fst) in I; exact I|]. apply dget_in. rewrite E2 by exact Cp. rewrite (X p Cp eq_refl), <- E1 by exact Cp. now apply in_dget.
Qed.
(** ... and get_params keeps working afterwards. *)
Theorem C31_get_after_set names n h o ps h' m d : (forall k v, In (k, v) ps -> exists a, v = Atom a) -> set_params names n h o ps = (h', Ok tt) -> get_params names m h o true = Ok d -> exists d', get_params names m h' o true = Ok d'.
Proof.
  intros AT H G. assert (A : atoms ps) by (intros k v I; destruct (AT k v I) as (a & ->); exact Logic.I). destruct (set_params_frame names n h o ps A) as [S1 K1]. rewrite H in S1, K1. eapply get_params_kept; eauto.
Qed.
(** set_params succeeds whenever every name is one get_params lists, and no name is nested below
    another one of the same call. *)
Theorem C31_set_succeeds names n h o ps d : unshared names h o -> well_named names h o -> NoDup (map fst ps) -> (forall k v, In (k, v) ps -> exists a, v = Atom a) ->
  get_params names n h o true = Ok d -> (forall k, In k (map fst ps) -> In k (map fst d)) -> (forall k g s, In k (map fst ps) -> In g (map fst ps) -> k <> (g ++ "__" ++ s)%string) ->
  exists h', set_params names (S n) h o ps = (h', Ok tt).
Proof.
  intros U W ND AT G IN AC. destruct (get_params_good names n h o d W G) as (N1 & K1 & E1).
  assert (A : atoms ps) by (intros k v I; destruct (AT k v I) as (a & ->); exact Logic.I).
  destruct (keys_paths ps) as (pvs & -> & CP); [intros k v I; apply K1; apply IN; apply (in_map fst) in I; exact I|].
  assert (MF : forall p v, In (p, v) pvs -> In (join p) (map fst (map J pvs))) by (intros p v I; apply in_map_iff; exists (J (p, v)); split; [reflexivity|now apply in_map]).
  apply (set_params_total names n h o pvs d); auto.
  - intros p v I. split; [eauto|]. apply (A (join p) v). apply (in_map J) in I. exact I.
  - rewrite map_map in ND; apply (NoDup_map_inv join); rewrite map_map; exact ND.
  - intros p q v w Ip Iq (r & ->). destruct r as [|b r]; [now rewrite app_nil_r|]. exfalso. pose proof (CP _ _ Ip) as [Np _]. apply (AC (join (p ++ b :: r)) (join p) (join (b :: r)) (MF _ _ Iq) (MF _ _ Ip)). clear -Np. induction p as [|a p IH]; [congruence|]. destruct p as [|c p]; [reflexivity|]. change (join ((a :: c :: p) ++ b :: r)) with (a ++ "__" ++ join ((c :: p) ++ b :: r))%string. rewrite IH by discriminate. change (join (a :: c :: p)) with (a ++ "__" ++ join (c :: p))%string.
    assert (AS : forall x y z : string, ((x ++ y) ++ z = x ++ (y ++ z))%string) by (intros x y z; induction x as [|c0 x IHx]; cbn; [reflexivity|now rewrite IHx]). rewrite !AS. reflexivity.
  - intros p v I. rewrite <- E1 by eauto. intros C. apply dget_none in C. apply C. apply IN. eauto.
Qed.
(** set_params with the dictionary get_params returns succeeds and changes nothing, shared estimators or not. *)
Theorem C31_roundtrip names n h o d : well_named names h o -> get_params names n h o true = Ok d -> exists h', set_params names (S n) h o d = (h', Ok tt) /\ forall y, h' y = h y.
Proof.
  intros W G. destruct (get_params_good names n h o d W G) as (N1 & K1 & E1). apply (set_params_same names n h o d d W G). intros k v I. destruct (K1 k) as (p & Cp & ->); [apply (in_map fst) in I; exact I|]. exists p. split; [exact Cp|]. split; [reflexivity|]. rewrite <- E1 by exact Cp. now apply in_dget.
Qed.
(** A name whose part before the first '__' is no parameter of the estimator: ValueError, for any
    values and wherever it stands in the call. *)
Theorem C31_unknown names n h o ps ks d k v : well_named names h o -> names o = Ok ks -> get_params names n h o true = Ok d -> In (k, v) ps -> ~ In (fst (partition k)) ks ->
  exists h', set_params names (S n) h o ps = (h', Err ValueError).
Proof.
  intros W EK G I NK. destruct (get_params_good names n h o d W G) as (N1 & K1 & E1). destruct ps as [|kv ps]; [destruct I|]. rewrite set_params_S, G. set (l := kv :: ps) in *. clearbody l.
  assert (ND : dget d (fst (partition k)) = None).
  { apply dget_none. intros X. destruct (K1 _ X) as (p & Cp & EP). destruct (nodd_join p Cp) as (a & ->); [rewrite <- EP; apply nodd_partition|]. cbn [join] in EP. assert (Y := E1 [a] Cp). rewrite (lookup_cons names h o ks) in Y by exact EK. destruct (existsb (String.eqb a) ks) eqn:EX; [apply existsb_in in EX; congruence|]. apply dget_none in Y. apply Y. cbn [join]. rewrite <- EP. exact X. }
  assert (Z : forall l h0 valid nested, In (k, v) l -> dget valid (fst (partition k)) = None -> exists h', assign h0 o valid nested l = (h', Err ValueError)).
  { clear. induction l as [|[k0 v0] l IH]; intros h0 valid nested I ND; [destruct I|]. cbn [assign]. destruct (partition k0) as [a r] eqn:EP. destruct (dget valid a) as [w|] eqn:EV; [|eauto].
    destruct I as [E|I]; [assert (k0 = k) by congruence; subst k0; rewrite EP in ND; cbn in ND; congruence|]. destruct r as [s|]; apply IH; auto. rewrite dget_dset_other; [exact ND|]. intros ->. congruence. }
  destruct (Z l h d [] I ND) as (h' & ->). eauto.
Qed.
(** Plain parameters of the estimator itself, any values, shared or not: the attributes are the
    given ones and no other attribute of any object changes. *)
Theorem C31_set_direct names n h o ps d : well_named names h o -> get_params names n h o true = Ok d -> NoDup (map fst ps) -> (forall k, In k (map fst ps) -> clean k = true /\ In k (map fst d)) ->
  exists h', set_params names (S n) h o ps = (h', Ok tt) /\ (forall k v, In (k, v) ps -> dget (h' o) k = Some v) /\ (forall k, ~ In k (map fst ps) -> dget (h' o) k = dget (h o) k) /\ forall y, y <> o -> h' y = h y.
Proof.
  intros W G ND H. destruct ps as [|kv ps]; [exists h; repeat split; auto; intros ? ? []|]. rewrite set_params_S, G. set (l := kv :: ps) in *. clearbody l. clear kv ps.
  assert (Z : forall l h0 valid, NoDup (map fst l) -> (forall k, In k (map fst l) -> clean k = true /\ dget valid k <> None) -> exists h' valid', assign h0 o valid [] l = (h', Ok (valid', [])) /\ (forall k v, In (k, v) l -> dget (h' o) k = Some v) /\ (forall k, ~ In k (map fst l) -> dget (h' o) k = dget (h0 o) k) /\ forall y, y <> o -> h' y = h0 y).
  { clear. induction l as [|[k v] l IH]; intros h0 valid ND H; [exists h0, valid; cbn; repeat split; auto; intros ? ? []|]. inversion ND as [|? ? Nk Nl]; subst. cbn [assign]. destruct (H k (or_introl eq_refl)) as [C V]. rewrite clean_partition by exact C. destruct (dget valid k) as [w|] eqn:EV; [|congruence].
    destruct (IH (hset h0 o k v) (dset valid k v) Nl) as (h' & valid' & -> & P1 & P2 & P3). { intros k0 I. destruct (H k0 (or_intror I)) as [C0 V0]. split; [exact C0|]. destruct (string_dec k k0) as [->|NE]; [rewrite dget_dset_same; discriminate|now rewrite dget_dset_other]. }
    exists h', valid'. split; [reflexivity|]. assert (HS : forall k0, dget (hset h0 o k v o) k0 = if String.eqb k k0 then Some v else dget (h0 o) k0). { intros k0. unfold hset. rewrite Nat.eqb_refl. destruct (String.eqb_spec k k0) as [->|NE]; [apply dget_dset_same|now apply dget_dset_other]. }
    split; [|split].
    - intros k0 v0 [E|I]; [|auto]. assert (k0 = k /\ v0 = v) as [-> ->] by (split; congruence). rewrite P2 by exact Nk. rewrite HS, String.eqb_refl. reflexivity.
    - intros k0 I. cbn in I. rewrite P2 by tauto. rewrite HS. destruct (String.eqb_spec k k0); [exfalso; tauto|reflexivity].
    - intros y NE. rewrite P3 by exact NE. unfold hset. destruct (Nat.eqb_spec y o); [contradiction|reflexivity]. }
  destruct (Z l h d ND) as (h' & valid' & -> & P); [|exists h'; split; [reflexivity|exact P]]. intros k I. destruct (H k I) as [C X]. split; [exact C|]. intros E. apply dget_none in E. contradiction.
Qed.
(** the empty call does nothing *)
Theorem C31_empty names n h o : set_params names n h o [] = (h, Ok tt). Proof. destruct n; reflexivity. Qed.

(** ** Examples and refutations *)
(** object 0 holds parameters "est" (object 1) and "alpha"; object 1 has "depth" and "width". *)
Definition ex_names (o : nat) : res (list string) := match o with 0 => Ok ["alpha"; "est"] | 1 => Ok ["depth"; "width"] | 2 => Ok ["depth"; "width"] | 3 => Ok ["a"; "b"] | 4 => Ok ["w_"] | 5 => Ok ["v"] | _ => Ok [] end.
Definition ex_heap : heap := fun o => match o with 0 => [("alpha", Atom 1); ("est", Ref 1); ("other", Atom 9)] | 1 => [("depth", Atom 4); ("width", Atom 5)] | 2 => [("depth", Atom 6); ("width", Atom 7)] | 3 => [("a", Ref 1); ("b", Ref 1)] | 4 => [("w_", Ref 5)] | 5 => [("v", Atom 3)] | _ => [] end.
Lemma ex_child y k x : child ex_names ex_heap y k x -> (y = 0 /\ k = "est" /\ x = 1) \/ (y = 3 /\ x = 1) \/ (y = 4 /\ x = 5).
Proof.
  intros (ks & E1 & I & E2). destruct y as [|[|[|[|[|[|y]]]]]]; cbn [ex_names ex_heap] in *; try (assert (ks = ["depth"; "width"]) by congruence; subst ks).
  - assert (ks = ["alpha"; "est"]) by congruence. subst ks. destruct I as [<-|[<-|[]]]; cbn in E2; [discriminate|]. left. split; [reflexivity|]. split; [reflexivity|congruence].
  - destruct I as [<-|[<-|[]]]; discriminate.
  - destruct I as [<-|[<-|[]]]; discriminate.
  - assert (ks = ["a"; "b"]) by congruence. subst ks. right. left. destruct I as [<-|[<-|[]]]; cbn in E2; split; congruence.
  - assert (ks = ["w_"]) by congruence. subst ks. right. right. destruct I as [<-|[]]; cbn in E2; split; congruence.
  - assert (ks = ["v"]) by congruence. subst ks. destruct I as [<-|[]]; discriminate.
  - discriminate E2.
Qed.
Lemma ex_reach o z : reach ex_names ex_heap o z -> o = 0 \/ o = 1 -> z = o \/ (o = 0 /\ z = 1).
Proof.
  induction 1 as [o|o k x y C R IH]; intros H; [auto|]. apply ex_child in C. destruct C as [(-> & _ & ->)|[(-> & _)|(-> & _)]]; [|lia|lia]. destruct IH as [->|[? _]]; auto; discriminate.
Qed.
Lemma ex_unshared : unshared ex_names ex_heap 0.
Proof.
  intros y k x R C. apply ex_reach in R; [|auto]. pose proof C as C0. apply ex_child in C. destruct C as [(-> & -> & ->)|[(-> & _)|(-> & _)]]; [|lia|lia]. split.
  - intros R'. apply ex_reach in R'; [|auto]. lia.
  - intros k2 x2 z C2 NE. apply ex_child in C2. destruct C2 as [(_ & -> & _)|[(E & _)|(E & _)]]; [congruence|lia|lia].
Qed.
Lemma ex_named : well_named ex_names ex_heap 0.
Proof.
  intros y ks R E. apply ex_reach in R; [|auto]. destruct R as [->|[_ ->]]; cbn in E; [assert (ks = ["alpha"; "est"]) by congruence|assert (ks = ["depth"; "width"]) by congruence]; subst ks; (split; [repeat constructor; cbn; intuition discriminate|repeat constructor]).
Qed.
Example C31_example : match set_params ex_names 3 ex_heap 0 [("est__depth", Atom 8); ("alpha", Atom 2)] with
  | (h', Ok _) => get_params ex_names 3 ex_heap 0 true = Ok [("alpha", Atom 1); ("est__depth", Atom 4); ("est__width", Atom 5); ("est", Ref 1)] /\ get_params ex_names 3 h' 0 true = Ok [("alpha", Atom 2); ("est__depth", Atom 8); ("est__width", Atom 5); ("est", Ref 1)]
  | _ => False end.
Proof. vm_compute. split; reflexivity. Qed.
(** replacing a sub-estimator and setting a parameter of it in one call changes the new one *)
Example C31_replace : match set_params ex_names 3 ex_heap 0 [("est__depth", Atom 8); ("est", Ref 2)] with (h', Ok _) => dget (h' 2) "depth" = Some (Atom 8) /\ dget (h' 1) "depth" = Some (Atom 4) | _ => False end.
Proof. vm_compute. split; reflexivity. Qed.
(** A rejected call has already set the names before the invalid one. *)
Theorem C31_rejected_call_refuted : exists names h o ps h', well_named names h o /\ unshared names h o /\ set_params names 3 h o ps = (h', Err ValueError) /\ dget (h' o) "alpha" <> dget (h o) "alpha".
Proof.
  exists ex_names, ex_heap, 0, [("alpha", Atom 2); ("beta", Atom 3)]. eexists. split; [apply ex_named|]. split; [apply ex_unshared|]. split; [reflexivity|]. vm_compute. discriminate.
Qed.
(** One estimator under two parameter names: setting it through one name changes it under the other. *)
Theorem C31_shared_refuted : exists names h o k g v h' d d', g <> k /\ (forall s, g <> (k ++ "__" ++ s)%string) /\ set_params names 3 h o [(k, Atom v)] = (h', Ok tt) /\ get_params names 3 h o true = Ok d /\ get_params names 3 h' o true = Ok d' /\ dget d' g <> dget d g.
Proof.
  exists ex_names, ex_heap, 3, "a__depth", "b__depth", 8. do 3 eexists. split; [discriminate|]. split; [discriminate|]. split; [vm_compute; reflexivity|]. split; [vm_compute; reflexivity|]. split; [vm_compute; reflexivity|]. vm_compute. discriminate.
Qed.
(** A parameter name ending in '_': get_params lists a nested name that set_params rejects. *)
Theorem C31_trailing_underscore_refuted : exists names h o d k v h', get_params names 3 h o true = Ok d /\ In (k, v) d /\ set_params names 4 h o [(k, v)] = (h', Err ValueError).
Proof.
  exists ex_names, ex_heap, 4. do 4 eexists. split; [vm_compute; reflexivity|]. split; [left; reflexivity|]. vm_compute. reflexivity.
Qed.
(** ** The library's estimators *)
(** For KD_SGA and KD_PySR every constructor parameter is an attribute, so get_params, set_params
    and repr work on a new object. *)
Theorem C31_new_objects : (forall h names, h 0 = fresh sga_attrs -> names 0 = Ok sga_params -> exists d, get_params names 1 h 0 true = Ok d /\ map fst d = sga_params) /\
  (forall h names, h 0 = fresh pysr_attrs -> names 0 = Ok pysr_params -> exists d, get_params names 1 h 0 true = Ok d /\ map fst d = pysr_params).
Proof. split; intros h names E1 E2; cbn [get_params]; rewrite E1, E2; eexists; split; reflexivity. Qed.
(** KD_Discover and KD_DLGA do not store some constructor parameters: get_params, every non-empty
    set_params and repr raise AttributeError on a new object. *)
Theorem C31_unstored_refuted : forall h names n kv ps, (h 0 = fresh discover_attrs /\ names 0 = Ok discover_params) \/ (h 0 = fresh dlga_attrs /\ names 0 = Ok dlga_params) ->
  get_params names (S n) h 0 true = Err AttributeError /\ repr names h 0 = Err AttributeError /\ set_params names (S (S n)) h 0 (kv :: ps) = (h, Err AttributeError).
Proof. intros h names n kv ps H. assert (G : get_params names (S n) h 0 true = Err AttributeError) by (cbn [get_params]; destruct H as [[E1 E2]|[E1 E2]]; rewrite E1, E2; reflexivity). split; [exact G|]. split; [|rewrite set_params_S, G; reflexivity]. unfold repr. cbn [get_params]. destruct H as [[E1 E2]|[E1 E2]]; rewrite E1, E2; reflexivity. Qed.
(** A constructor with *args (KD_Discover_Regression): get_params, set_params and repr raise its error. *)
Theorem C31_varargs h names n o kv ps e : names o = Err e -> get_params names (S n) h o true = Err e /\ repr names h o = Err e /\ set_params names (S (S n)) h o (kv :: ps) = (h, Err e).
Proof. intros E. assert (G : get_params names (S n) h o true = Err e) by (cbn [get_params]; rewrite E; reflexivity). split; [exact G|]. split; [unfold repr; cbn [get_params]; rewrite E; reflexivity|rewrite set_params_S, G; reflexivity]. Qed.
Print Assumptions C31_get.
Print Assumptions C31_set.
Print Assumptions C31_get_after_set.
Print Assumptions C31_set_succeeds.
Print Assumptions C31_roundtrip.
Print Assumptions C31_unknown.
Print Assumptions C31_set_direct.
Print Assumptions C31_empty.
Print Assumptions C31_rejected_call_refuted.
Print Assumptions C31_shared_refuted.
Print Assumptions C31_trailing_underscore_refuted.
Print Assumptions C31_new_objects.
Print Assumptions C31_unstored_refuted.
Print Assumptions C31_varargs.
