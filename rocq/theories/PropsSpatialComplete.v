(** C164: completing terms over the space axes. *)
From Coq Require Import QArith.
From Verif Require Import Base SpatialComplete.
Local Open Scope nat_scope.
Local Open Scope list_scope.

(** ** Specification *)
(** [k] different elements of [l] in some order *)
Definition arrangement (k : nat) (l p : list nat) : Prop := List.length p = k /\ NoDup p /\ forall a, In a p -> In a l.
(** the tokens of [t'] at the places where [t] has a token of the sort [k] *)
Definition at_sort (sort : nat -> sort_of) (k : sort_of) (t t' : list nat) : list nat :=
  map snd (filter (fun ab => match sort (fst ab), k with Axis, Axis | State, State | Other, Other => true | _, _ => false end) (combine t t')).
(** [t'] is [t] with the axes [ax] and the state variables [st] in the places of its own *)
Definition variant (sort : nat -> sort_of) (t ax st t' : list nat) : Prop :=
  List.length t' = List.length t /\ at_sort sort Axis t t' = ax /\ at_sort sort State t t' = st /\ at_sort sort Other t t' = at_sort sort Other t t.

(** *** Arrangements *)
Lemma picks_In {A} (l : list A) x r : In (x, r) (picks l) <-> exists a b, l = a ++ x :: b /\ r = a ++ b.
Proof.
  revert x r. induction l as [|y l IH]; intros x r; cbn.
  - split; [tauto|]. intros (a & b & E & _). destruct a; discriminate.
  - split.
    + intros [[= <- <-]|I]; [exists [], l; auto|]. apply in_map_iff in I as ((x' & r') & [= <- <-] & I). apply IH in I as (a & b & -> & ->). exists (y :: a), b. auto.
    + intros (a & b & E & ->). destruct a as [|z a].
      * injection E as -> ->. left. reflexivity.
      * injection E as -> ->. right. apply in_map_iff. exists (x, a ++ b). split; [reflexivity|]. apply IH. eauto.
Qed.
Lemma arrangements_spec k l p : NoDup l -> (In p (arrangements k l) <-> arrangement k l p).
Proof.
  revert l p. induction k as [|k IH]; intros l p ND; cbn [arrangements].
  - split; [intros [<-|[]]; split; [reflexivity|split; [constructor|intros a []]]|]. intros (L & _). destruct p; [left; reflexivity|discriminate].
  - rewrite in_flat_map. split.
    + intros ((x & r) & I & J). apply in_map_iff in J as (q & <- & J). cbn [fst snd] in *. apply picks_In in I as (a & b & -> & ->).
      pose proof (NoDup_remove_1 _ _ _ ND) as ND1. pose proof (NoDup_remove_2 _ _ _ ND) as N2. apply IH in J as (L & N & S); [|exact ND1]. split; [cbn; congruence|]. split.
      * constructor; [|exact N]. intros I. apply N2, S, I.
      * intros c [<-|I]; [apply in_elt|]. apply S in I. apply in_app_iff in I. apply in_app_iff. cbn. tauto.
    + intros (L & N & S). destruct p as [|x q]; [discriminate|]. inversion N as [|? ? NX NQ]; subst. destruct (in_split x l) as (a & b & ->); [apply S; left; reflexivity|].
      exists (x, a ++ b). split; [apply picks_In; eauto|]. apply in_map. cbn [snd]. apply IH; [apply NoDup_remove_1 in ND; exact ND|]. split; [cbn in L; congruence|]. split; [exact NQ|].
      intros c I. specialize (S c (or_intror I)). apply in_app_iff in S. apply in_app_iff. destruct S as [S|[S|S]]; [auto| |auto]. subst. tauto.
Qed.

Section Spatial.
Context {V : Type} (sort : nat -> sort_of) (axes states : list nat) (eval : list nat -> V) (close : V -> V -> bool).
Context (NA : NoDup axes) (NS : NoDup states).
Notation complete := (complete sort axes states).
Notation spatial_complete := (spatial_complete sort axes states eval close).
Notation of_axes := (filter (is_axis sort)).
Notation of_states := (filter (is_state sort)).
Lemma replaced_variant t : forall ax st t', List.length ax = List.length (of_axes t) -> List.length st = List.length (of_states t) -> (variant sort t ax st t' <-> t' = replaced sort t ax st).
Proof.
  unfold variant, at_sort. induction t as [|a t IH]; intros ax st t' LA LS.
  - cbn in LA, LS. destruct ax, st; try discriminate. cbn. destruct t'; split; intros H; try tauto; try discriminate; try (destruct H; discriminate).
  - cbn [filter] in LA, LS. unfold is_axis at 1 in LA. unfold is_state at 1 in LS. destruct t' as [|b t']; [split; [intros (H & _); discriminate|cbn; destruct (sort a); discriminate]|].
    cbn [combine filter map fst replaced]. destruct (sort a) eqn:K.
    + destruct ax as [|x ax]; [discriminate|]. cbn in LA. specialize (IH ax st t' ltac:(congruence) LS). cbn [hd tl map snd]. split.
      * intros (L & [= -> E1] & E2 & E3). f_equal. apply IH. cbn in L. auto.
      * intros [= -> E]. apply IH in E as (L & E1 & E2 & E3). cbn. rewrite L, E1. auto.
    + destruct st as [|x st]; [discriminate|]. cbn in LS. specialize (IH ax st t' LA ltac:(congruence)). cbn [hd tl map snd]. split.
      * intros (L & E1 & [= -> E2] & E3). f_equal. apply IH. cbn in L. auto.
      * intros [= -> E]. apply IH in E as (L & E1 & E2 & E3). cbn. rewrite L, E2. auto.
    + specialize (IH ax st t' LA LS). cbn [map snd]. split.
      * intros (L & E1 & E2 & [= -> E3]). f_equal. apply IH. cbn in L. auto.
      * intros [= -> E]. apply IH in E as (L & E1 & E2 & E3). cbn. rewrite L, E3. auto.
Qed.
Lemma list_eqb_spec a b : list_eqb a b = true <-> a = b.
Proof. unfold list_eqb. destruct (list_eq_dec Nat.eq_dec a b); split; congruence. Qed.

(** The completions of a term are the terms with as many different axes, not its own in the same order, in the places of its
    axes, and in the places of its state variables either its own or, if it has several, any arrangement of different
    ones. *)
Theorem C164_completions t t' : In t' (complete t) <->
  exists ax st, arrangement (List.length (of_axes t)) axes ax /\ ax <> of_axes t /\
    (st = of_states t \/ (2 <= List.length (of_states t) /\ arrangement (List.length (of_states t)) states st)) /\ variant sort t ax st t'.
Proof.
  unfold SpatialComplete.complete. rewrite in_flat_map. split.
  - intros (st & IS & I). apply in_flat_map in I as (ax & IA & I). destruct (list_eqb _ ax) eqn:E; [destruct I|]. destruct I as [<-|[]].
    assert (NE : ax <> of_axes t) by (intros ->; apply not_true_iff_false in E; apply E, list_eqb_spec; reflexivity).
    apply arrangements_spec in IA; [|exact NA]. assert (ST : st = of_states t \/ (2 <= List.length (of_states t) /\ arrangement (List.length (of_states t)) states st)).
    { destruct IS as [<-|IS]; [auto|]. destruct (Nat.ltb_spec 1 (List.length (of_states t))); [|destruct IS]. right. split; [lia|]. apply arrangements_spec in IS; assumption. }
    exists ax, st. split; [exact IA|]. split; [exact NE|]. split; [exact ST|]. apply replaced_variant; [apply IA| |reflexivity]. destruct ST as [->|(_ & S & _)]; [reflexivity|exact S].
  - intros (ax & st & IA & NE & ST & W). exists st. split.
    + destruct ST as [->|(L & S)]; [left; reflexivity|]. right. destruct (Nat.ltb_spec 1 (List.length (of_states t))); [|lia]. apply arrangements_spec; assumption.
    + apply in_flat_map. exists ax. split; [apply arrangements_spec; assumption|]. destruct (list_eqb _ ax) eqn:E; [apply list_eqb_spec in E; congruence|]. left. symmetry. apply replaced_variant; [apply IA| |exact W].
      destruct ST as [->|(_ & S & _)]; [reflexivity|exact S].
Qed.
(** So a term with one axis is completed by the same term in every other axis. *)
Theorem C164_other_axes l x r y : (forall a, In a (l ++ r) -> sort a <> Axis) -> sort x = Axis -> In y axes -> y <> x -> In (l ++ y :: r) (complete (l ++ x :: r)).
Proof.
  assert (is_state_eq : forall a, is_state sort a = match sort a with State => true | _ => false end) by reflexivity.
  intros H K I N. assert (F : forall q, (forall a, In a q -> sort a <> Axis) -> of_axes q = []).
  { intros q. induction q as [|a q IH]; intros Hq; [reflexivity|]. cbn [filter]. unfold is_axis at 1. pose proof (Hq a (or_introl eq_refl)). destruct (sort a); [congruence| |]; apply IH; intros b J; apply Hq; right; exact J. }
  assert (OA : of_axes (l ++ x :: r) = [x]).
  { rewrite filter_app. cbn [filter]. unfold is_axis at 2. rewrite K. rewrite !F; [reflexivity| |]; intros a J; apply H, in_app_iff; auto. }
  apply C164_completions. exists [y], (of_states (l ++ x :: r)). rewrite OA. split; [split; [reflexivity|]; split; [repeat constructor; auto|intros a [<-|[]]; exact I]|]. split; [congruence|]. split; [auto|].
  apply replaced_variant; [rewrite OA; reflexivity|reflexivity|].
  assert (R : forall q ax, (forall a, In a q -> sort a <> Axis) -> replaced sort q ax (of_states q) = q).
  { intros q ax. induction q as [|a q IH]; intros Hq; [reflexivity|]. cbn [replaced filter]. rewrite (is_state_eq a). pose proof (Hq a (or_introl eq_refl)).
    assert (Hq' : forall b, In b q -> sort b <> Axis) by (intros b J; apply Hq; right; exact J). destruct (sort a); [congruence| |]; cbn [hd tl]; f_equal; apply IH, Hq'. }
  assert (RA : forall q st0, (forall a, In a q -> sort a <> Axis) -> replaced sort (q ++ x :: r) [y] (of_states q ++ st0) = q ++ y :: replaced sort r [] st0).
  { intros q st0. induction q as [|a q IH]; intros Hq; [cbn; rewrite K; reflexivity|]. cbn [replaced filter app]. rewrite (is_state_eq a). pose proof (Hq a (or_introl eq_refl)).
    assert (Hq' : forall b, In b q -> sort b <> Axis) by (intros b J; apply Hq; right; exact J). destruct (sort a); [congruence| |]; cbn [hd tl app]; f_equal; apply IH, Hq'. }
  rewrite filter_app. cbn [filter]. rewrite (is_state_eq x). rewrite K. rewrite RA by (intros a J; apply H, in_app_iff; auto). rewrite R by (intros a J; apply H, in_app_iff; auto). reflexivity.
Qed.

(** On one axis nothing changes. *)
Theorem C164_one_axis p p_del supp lib x : axes = [x] -> spatial_complete p p_del supp lib = lib.
Proof. intros E. unfold SpatialComplete.spatial_complete. rewrite E. reflexivity. Qed.
(** Unless the random number exceeds the threshold (1 by default, which it never does), the library is kept, and followed by
    all completions of the terms of some first part of it; the rest is left out only once there are more than ten new
    ones.  Terms without an axis have no part in it. *)
Theorem C164_only_adds p p_del supp lib : List.length axes <> 1 -> supp = true \/ (p <= p_del)%Q -> exists first rest,
  map fst lib = first ++ rest /\ spatial_complete p p_del supp lib = lib ++ map (fun t => (t, eval t)) (flat_map complete (filter (has_axis sort) first)) /\
  (rest = [] \/ (10 < List.length (flat_map complete (filter (has_axis sort) first)) /\
     exists f t, first = f ++ [t] /\ List.length (flat_map complete (filter (has_axis sort) f)) <= 10)).
Proof.
  intros LA H. unfold SpatialComplete.spatial_complete. apply Nat.eqb_neq in LA. rewrite LA.
  match goal with |- context [if ?c then _ else _] => assert (C : c = false) end.
  { destruct H as [->|H]; [rewrite andb_false_r; reflexivity|]. apply Qle_bool_iff in H. rewrite H. reflexivity. }
  rewrite C. clear C LA H.
  assert (G : forall ts done, List.length (flat_map complete (filter (has_axis sort) done)) <= 10 -> exists first rest, ts = first ++ rest /\
     supplement sort axes states ts (flat_map complete (filter (has_axis sort) done)) = flat_map complete (filter (has_axis sort) (done ++ first)) /\
     (rest = [] \/ (10 < List.length (flat_map complete (filter (has_axis sort) (done ++ first))) /\ exists f t, done ++ first = f ++ [t] /\ List.length (flat_map complete (filter (has_axis sort) f)) <= 10))).
  { induction ts as [|t ts IH]; intros done L; cbn [supplement].
    - exists [], []. split; [reflexivity|]. split; [rewrite app_nil_r; reflexivity|auto].
    - assert (X : flat_map complete (filter (has_axis sort) (done ++ [t])) = flat_map complete (filter (has_axis sort) done) ++ (if has_axis sort t then complete t else [])).
      { rewrite filter_app, flat_map_app. cbn [filter]. destruct (has_axis sort t); cbn; [rewrite app_nil_r|]; reflexivity. }
      destruct (has_axis sort t) eqn:HA.
      + rewrite <- X. destruct (Nat.ltb_spec 10 (List.length (flat_map complete (filter (has_axis sort) (done ++ [t]))))) as [B|B].
        * exists [t], ts. split; [reflexivity|]. split; [reflexivity|]. right. split; [exact B|]. exists done, t. auto.
        * destruct (IH (done ++ [t]) B) as (first & rest & E & S & R). exists (t :: first), rest. rewrite <- app_assoc in S, R. split; [cbn; congruence|]. split; [exact S|exact R].
      + rewrite app_nil_r in X. rewrite <- X. destruct (IH (done ++ [t])) as (first & rest & E & S & R); [rewrite X; exact L|]. exists (t :: first), rest. rewrite <- app_assoc in S, R. split; [cbn; congruence|]. split; [exact S|exact R]. }
  destruct (G (map fst lib) [] ltac:(cbn; lia)) as (first & rest & E & S & R). cbn [filter flat_map app] in S, R. exists first, rest. split; [exact E|]. split; [rewrite S; reflexivity|exact R].
Qed.
(** Above the threshold the library is cut to the terms without an axis and those with a completion whose value is close to
    a value of the library, unless none is left, in which case it is completed as before. *)
Theorem C164_cut p p_del lib : List.length axes <> 1 -> (p_del < p)%Q ->
  let good tv := has_axis sort (fst tv) = false \/ exists c v, In c (complete (fst tv)) /\ In v (map snd lib) /\ close (eval c) v = true in
  ((forall tv, In tv lib -> ~ good tv) -> spatial_complete p p_del false lib = spatial_complete p p_del true lib) /\
  ((exists tv, In tv lib /\ good tv) -> exists keep, spatial_complete p p_del false lib = filter keep lib /\ forall tv, In tv lib -> (keep tv = true <-> good tv)).
Proof.
  intros LA H good. unfold SpatialComplete.spatial_complete. apply Nat.eqb_neq in LA. rewrite LA.
  assert (P : Qle_bool p p_del = false) by (apply not_true_iff_false; intros E; apply Qle_bool_iff in E; apply (Qlt_not_le _ _ H E)). rewrite P. cbn [negb andb].
  set (keep := fun tv : list nat * V => negb (has_axis sort (fst tv)) || include_term close (map eval (complete (fst tv))) (map snd lib)).
  assert (K : forall tv, keep tv = true <-> good tv).
  { intros tv. unfold keep, good, include_term. rewrite orb_true_iff, negb_true_iff, existsb_exists. split; (intros [A|A]; [auto|right]).
    - destruct A as (g & I & A). apply in_map_iff in I as (c & <- & I). apply existsb_exists in A as (v & J & A). exists c, v. auto.
    - destruct A as (c & v & I & J & A). exists (eval c). split; [apply in_map, I|]. apply existsb_exists. eauto. }
  change (fun tv : list nat * V => negb (has_axis sort (fst tv)) || include_term close (map eval (complete (fst tv))) (map snd lib)) with keep. split.
  - intros N. replace (filter keep lib) with (@nil (list nat * V)); [reflexivity|]. symmetry. clear -N K. assert (N' : forall tv, In tv lib -> keep tv = false) by (intros tv I; apply not_true_iff_false; rewrite K; apply N, I).
    clearbody keep. clear -N'. induction lib as [|a l IH]; [reflexivity|]. cbn. rewrite (N' a (or_introl eq_refl)). apply IH. intros b I. apply N'. right. exact I.
  - intros (tv & I & G). exists keep. split; [|intros tv' _; apply K]. assert (J : In tv (filter keep lib)) by (apply filter_In; split; [exact I|apply K, G]). destruct (filter keep lib); [destruct J|reflexivity].
Qed.
End Spatial.
(** What the words above mean: a term has an axis when one of its tokens stands for one, and its axes and state variables are
    its tokens of these sorts, in their order. *)
Theorem C164_parts (sort : nat -> sort_of) t : (has_axis sort t = true <-> exists a, In a t /\ sort a = Axis) /\
  filter (is_axis sort) t = at_sort sort Axis t t /\ filter (is_state sort) t = at_sort sort State t t.
Proof.
  split; [|split].
  - unfold has_axis. rewrite existsb_exists. split; intros (a & I & H); exists a; (split; [exact I|]); unfold is_axis in *; destruct (sort a); congruence.
  - unfold at_sort. induction t as [|a t IH]; [reflexivity|]. cbn [combine filter fst]. rewrite IH. unfold is_axis. destruct (sort a); reflexivity.
  - unfold at_sort. induction t as [|a t IH]; [reflexivity|]. cbn [combine filter fst]. rewrite IH. unfold is_state. destruct (sort a); reflexivity.
Qed.
(** Tokens: axes x1 = 0 and x2 = 1, state variable u = 2, diff = 3. *)
Definition demo_sort (a : nat) : sort_of := match a with 0 | 1 => Axis | 2 => State | _ => Other end.
(** The second derivative diff(diff(u, x1), x1) is not completed by the one in x2, but by the mixed ones. *)
Theorem C164_second_derivative_refuted : ~ In [3; 3; 2; 1; 1] (complete demo_sort [0; 1] [2] [3; 3; 2; 0; 0]) /\ complete demo_sort [0; 1] [2] [3; 3; 2; 0; 0] = [[3; 3; 2; 0; 1]; [3; 3; 2; 1; 0]].
Proof. split; [|reflexivity]. intros [H|[H|[]]]; discriminate. Qed.
Example C164_case : spatial_complete demo_sort [0; 1] [2] (fun t => List.length t) Nat.eqb (1 # 2) 1 false [([2], 1); ([3; 2; 0], 3)] = [([2], 1); ([3; 2; 0], 3); ([3; 2; 1], 3)] /\
  spatial_complete demo_sort [0; 1] [2] (fun t => List.length t) Nat.eqb (1 # 2) (1 # 4) false [([2], 1); ([3; 2; 0], 2)] = [([2], 1)].
Proof. split; reflexivity. Qed.
Print Assumptions C164_completions.
Print Assumptions C164_other_axes.
Print Assumptions C164_one_axis.
Print Assumptions C164_only_adds.
Print Assumptions C164_cut.
Print Assumptions C164_second_derivative_refuted.
Print Assumptions C164_parts.
