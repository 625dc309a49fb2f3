(** Floating point numbers as the models need them: rationals plus the two infinities
    and NaN, with numpy's comparison rules (every comparison with NaN is false).
    Rounding is not modelled.  Nothing here models the code base. *)
From Coq Require Import QArith Qminmax.
From Verif Require Import Base.
Local Open Scope nat_scope.

Inductive num := NInf | Fin (q : Q) | PInf | NaN.
Definition is_nan (a : num) : bool := match a with NaN => true | _ => false end.
Definition is_fin (a : num) : bool := match a with Fin _ => true | _ => false end.
(** a <= b *)
Definition nle (a b : num) : bool :=
  match a, b with
  | NaN, _ | _, NaN => false
  | NInf, _ | _, PInf => true
  | Fin x, Fin y => Qle_bool x y
  | _, _ => false
  end.
(** a < b *)
Definition nlt (a b : num) : bool := negb (is_nan a) && negb (is_nan b) && negb (nle b a).
(** Python's max(a, b): the first unless the second is greater. *)
Definition pymax (a b : num) : num := if nlt a b then b else a.
(** np.max: NaN if there is one, error on an empty array. *)
Definition npmax2 (a b : num) : num := if is_nan a then a else if is_nan b then b else if nle a b then b else a.
Definition npmax (l : list num) : res num :=
  match l with [] => Err ValueError | x :: l' => Ok (fold_left npmax2 l' x) end.
(** Order of np.sort: NaN last. *)
Definition sle (a b : num) : bool := is_nan b || nle a b.
Fixpoint ninsert (x : num) (l : list num) : list num :=
  match l with [] => [x] | y :: l' => if sle x y then x :: l else y :: ninsert x l' end.
Fixpoint nsort (l : list num) : list num := match l with [] => [] | x :: l' => ninsert x (nsort l') end.
(** np.clip(a, lo, hi): NaN stays NaN. *)
Definition nclip (lo hi : Q) (a : num) : num :=
  if is_nan a then a else if nlt a (Fin lo) then Fin lo else if nlt (Fin hi) a then Fin hi else a.
(** r[np.isnan(r)] = 0 *)
Definition nan0 (a : num) : num := if is_nan a then Fin 0 else a.

(** numpy boolean indexing a[mask]: IndexError unless the lengths agree. *)
Fixpoint bindex {A} (mask : list bool) (l : list A) : res (list A) :=
  match mask, l with
  | [], [] => Ok []
  | b :: m, x :: l' => do r <- bindex m l' ; Ok (if b then x :: r else r)
  | _, _ => Err IndexError
  end.
(** itertools.compress: stops at the shorter. *)
Fixpoint compress {A} (l : list A) (mask : list bool) : list A :=
  match l, mask with
  | x :: l', b :: m => if b then x :: compress l' m else compress l' m
  | _, _ => []
  end.

(** Number of elements satisfying a test. *)
Definition count {A} (f : A -> bool) (l : list A) : nat := List.length (filter f l).

(** ** Facts *)
Definition neq (a b : num) : Prop := nle a b = true /\ nle b a = true.

Lemma nle_refl a : is_nan a = false -> nle a a = true.
Proof. destruct a; cbn; intros H; try reflexivity; try discriminate. apply Qle_bool_iff. apply Qle_refl. Qed.
Lemma nle_trans a b c : nle a b = true -> nle b c = true -> nle a c = true.
Proof.
  destruct a, b, c; cbn; intros H1 H2; try reflexivity; try discriminate.
  apply Qle_bool_iff in H1, H2. apply Qle_bool_iff. eapply Qle_trans; eauto.
Qed.
Lemma nle_total a b : is_nan a = false -> is_nan b = false -> nle a b = true \/ nle b a = true.
Proof.
  destruct a, b; cbn; intros H1 H2; try discriminate; auto.
  destruct (Qlt_le_dec q q0) as [H|H]; [left|right]; apply Qle_bool_iff; [apply Qlt_le_weak|]; exact H.
Qed.
Lemma nle_notnan a b : nle a b = true -> is_nan a = false /\ is_nan b = false.
Proof. destruct a, b; cbn; auto; discriminate. Qed.
Lemma nlt_notnan a b : nlt a b = true -> is_nan a = false /\ is_nan b = false.
Proof. unfold nlt. destruct (is_nan a), (is_nan b); cbn; auto; discriminate. Qed.
Lemma nlt_nle a b : nlt a b = true -> nle a b = true.
Proof.
  intros H. destruct (nlt_notnan _ _ H) as [A B]. unfold nlt in H. rewrite A, B in H. cbn in H.
  destruct (nle_total a b A B) as [C|C]; [exact C|]. rewrite C in H. discriminate.
Qed.
Lemma nlt_not_nle a b : nlt a b = true -> nle b a = false.
Proof. intros H. destruct (nlt_notnan _ _ H) as [A B]. unfold nlt in H. rewrite A, B in H. cbn in H. destruct (nle b a); [discriminate|reflexivity]. Qed.
Lemma nle_not_nlt a b : nle a b = true -> nlt b a = false.
Proof. intros H. unfold nlt. rewrite H. apply andb_false_r. Qed.
Lemma not_nlt_nle a b : is_nan a = false -> is_nan b = false -> nlt a b = false -> nle b a = true.
Proof. intros A B H. unfold nlt in H. rewrite A, B in H. cbn in H. destruct (nle b a); [reflexivity|discriminate]. Qed.
Lemma not_nle_nlt a b : is_nan a = false -> is_nan b = false -> nle a b = false -> nlt b a = true.
Proof. intros A B H. unfold nlt. rewrite A, B, H. reflexivity. Qed.
Lemma nlt_nle_trans a b c : nlt a b = true -> nle b c = true -> nlt a c = true.
Proof.
  intros H1 H2. destruct (nlt_notnan _ _ H1) as [A B]. destruct (nle_notnan _ _ H2) as [_ C]. apply not_nle_nlt; auto.
  destruct (nle c a) eqn:E; [|reflexivity]. pose proof (nle_trans b c a H2 E) as F. rewrite (nlt_not_nle _ _ H1) in F. discriminate.
Qed.
Lemma nle_nlt_trans a b c : nle a b = true -> nlt b c = true -> nlt a c = true.
Proof.
  intros H1 H2. destruct (nlt_notnan _ _ H2) as [B C]. destruct (nle_notnan _ _ H1) as [A _]. apply not_nle_nlt; auto.
  destruct (nle c a) eqn:E; [|reflexivity]. pose proof (nle_trans c a b E H1) as F. rewrite (nlt_not_nle _ _ H2) in F. discriminate.
Qed.
Lemma neq_refl a : is_nan a = false -> neq a a.
Proof. intros H. split; apply nle_refl; exact H. Qed.
Lemma neq_sym a b : neq a b -> neq b a.
Proof. intros [A B]; split; auto. Qed.
Lemma neq_trans a b c : neq a b -> neq b c -> neq a c.
Proof. intros [A B] [C D]; split; eapply nle_trans; eauto. Qed.

Lemma pymax_l a b : is_nan a = false -> is_nan b = false -> nle a (pymax a b) = true.
Proof. intros A B. unfold pymax. destruct (nlt a b) eqn:E; [apply nlt_nle; exact E|apply nle_refl; exact A]. Qed.
Lemma pymax_r a b : is_nan a = false -> is_nan b = false -> nle b (pymax a b) = true.
Proof. intros A B. unfold pymax. destruct (nlt a b) eqn:E; [apply nle_refl; exact B|apply not_nlt_nle; auto]. Qed.
Lemma pymax_cases a b : pymax a b = a \/ pymax a b = b.
Proof. unfold pymax. destruct (nlt a b); auto. Qed.
Lemma pymax_notnan a b : is_nan a = false -> is_nan b = false -> is_nan (pymax a b) = false.
Proof. intros A B. destruct (pymax_cases a b) as [-> | ->]; auto. Qed.

Lemma npmax2_spec a b : is_nan a = false -> is_nan b = false ->
  is_nan (npmax2 a b) = false /\ nle a (npmax2 a b) = true /\ nle b (npmax2 a b) = true /\ (npmax2 a b = a \/ npmax2 a b = b).
Proof.
  intros A B. unfold npmax2. rewrite A, B. destruct (nle a b) eqn:E.
  - repeat split; auto using nle_refl.
  - destruct (nle_total a b A B) as [H|H]; [congruence|]. repeat split; auto using nle_refl.
Qed.
Lemma npmax_fold l : forall x, is_nan x = false -> Forall (fun a => is_nan a = false) l ->
  let m := fold_left npmax2 l x in is_nan m = false /\ In m (x :: l) /\ forall y, In y (x :: l) -> nle y m = true.
Proof.
  induction l as [|y l IH]; intros x Hx Hl m; subst m; cbn [fold_left].
  - split; [exact Hx|]. split; [left; reflexivity|]. intros y [->|[]]. apply nle_refl. exact Hx.
  - inversion Hl as [|? ? Hy Hl']; subst. destruct (npmax2_spec x y Hx Hy) as (N & Lx & Ly & C).
    destruct (IH _ N Hl') as (A & B & D). split; [exact A|]. split.
    + destruct B as [B|B]; [|right; right; exact B]. rewrite <- B. destruct C as [C|C]; rewrite C; [left|right; left]; reflexivity.
    + pose proof (D _ (or_introl eq_refl)) as D0. intros z [<-|[<-|Hz]]; [exact (nle_trans _ _ _ Lx D0)|exact (nle_trans _ _ _ Ly D0)|].
      apply D. right. exact Hz.
Qed.
Lemma npmax_spec l m : Forall (fun a => is_nan a = false) l -> npmax l = Ok m ->
  is_nan m = false /\ In m l /\ forall y, In y l -> nle y m = true.
Proof.
  destruct l as [|x l]; cbn; [discriminate|]. intros H E. injection E as <-. inversion H; subst. apply npmax_fold; assumption.
Qed.

Lemma sle_total a b : sle a b = true \/ sle b a = true.
Proof.
  unfold sle. destruct (is_nan a) eqn:A; [right; reflexivity|]. destruct (is_nan b) eqn:B; [left; reflexivity|].
  exact (nle_total a b A B).
Qed.
Lemma sle_trans a b c : sle a b = true -> sle b c = true -> sle a c = true.
Proof.
  unfold sle. intros H1 H2. apply orb_true_iff in H1, H2. apply orb_true_iff. destruct H2 as [H2|H2]; [auto|].
  destruct H1 as [H1|H1]; [|right; eapply nle_trans; eauto]. destruct (nle_notnan _ _ H2). congruence.
Qed.

Lemma ninsert_In x l y : In y (ninsert x l) <-> y = x \/ In y l.
Proof.
  induction l as [|z l IH]; cbn; [intuition auto|]. destruct (sle x z); cbn; [intuition auto|]. rewrite IH. intuition auto.
Qed.
Lemma nsort_In l y : In y (nsort l) <-> In y l.
Proof. induction l as [|x l IH]; cbn; [tauto|]. rewrite ninsert_In, IH. intuition auto. Qed.
Lemma ninsert_length x l : List.length (ninsert x l) = S (List.length l).
Proof. induction l as [|y l IH]; cbn; [reflexivity|]. destruct (sle x y); cbn; auto. Qed.
Lemma nsort_length l : List.length (nsort l) = List.length l.
Proof. induction l as [|y l IH]; cbn; [reflexivity|]. rewrite ninsert_length, IH. reflexivity. Qed.
Lemma ninsert_count f x l : count f (ninsert x l) = count f (x :: l).
Proof.
  unfold count. induction l as [|y l IH]; [reflexivity|]. cbn [ninsert]. destruct (sle x y); [reflexivity|].
  cbn [filter] in *. destruct (f x), (f y); cbn in *; congruence.
Qed.
Lemma nsort_count f l : count f (nsort l) = count f l.
Proof.
  induction l as [|y l IH]; [reflexivity|]. cbn [nsort]. rewrite ninsert_count. unfold count in *. cbn. destruct (f y); cbn; congruence.
Qed.
(** Sorted in the sense of positions. *)
Definition nsorted (l : list num) : Prop := forall i j a b, i <= j -> nth_error l i = Some a -> nth_error l j = Some b -> sle a b = true.
Lemma sle_refl a : sle a a = true.
Proof. unfold sle. destruct (is_nan a) eqn:E; [reflexivity|]. cbn. apply nle_refl. exact E. Qed.
Lemma nsorted_cons x l : (forall y, In y l -> sle x y = true) -> nsorted l -> nsorted (x :: l).
Proof.
  intros H S i j a b Hij Ha Hb. destruct i, j; cbn in *; try lia.
  - injection Ha as <-. injection Hb as <-. apply sle_refl.
  - injection Ha as <-. apply H. eapply nth_error_In; eauto.
  - exact (S i j a b ltac:(lia) Ha Hb).
Qed.
Lemma nsorted_tail x l : nsorted (x :: l) -> nsorted l /\ forall y, In y l -> sle x y = true.
Proof.
  intros S. split.
  - intros i j a b Hij Ha Hb. exact (S (1 + i)%nat (1 + j)%nat a b ltac:(lia) Ha Hb).
  - intros y Hy. apply In_nth_error in Hy as (k & Hk). exact (S 0 (1 + k)%nat x y ltac:(lia) eq_refl Hk).
Qed.
Lemma ninsert_sorted x l : nsorted l -> nsorted (ninsert x l).
Proof.
  induction l as [|y l IH]; intros S.
  - cbn. apply nsorted_cons; [intros ? []|]. intros i j a b _ Ha. destruct i; discriminate.
  - cbn. destruct (nsorted_tail _ _ S) as [S' H]. destruct (sle x y) eqn:E.
    + apply nsorted_cons; [|exact S]. intros z [<-|Hz]; [exact E|]. eapply sle_trans; eauto.
    + apply nsorted_cons; [|auto]. intros z Hz. apply ninsert_In in Hz as [->|Hz]; [|auto].
      destruct (sle_total x y); congruence.
Qed.
Lemma nsort_sorted l : nsorted (nsort l).
Proof. induction l as [|x l IH]; [intros i j a b _ Ha; destruct i; discriminate|]. apply ninsert_sorted. exact IH. Qed.

Lemma filter_none {A} (f : A -> bool) l : (forall x, In x l -> f x = false) -> filter f l = [].
Proof. induction l as [|x l IH]; intros H; cbn; [reflexivity|]. rewrite (H x (or_introl eq_refl)). apply IH. intros y Hy. apply H. right. exact Hy. Qed.
Lemma filter_all {A} (f : A -> bool) l : (forall x, In x l -> f x = true) -> filter f l = l.
Proof. induction l as [|x l IH]; intros H; cbn; [reflexivity|]. rewrite (H x (or_introl eq_refl)). f_equal. apply IH. intros y Hy. apply H. right. exact Hy. Qed.
Lemma count_app {A} (f : A -> bool) l1 l2 : count f (l1 ++ l2) = count f l1 + count f l2.
Proof. unfold count. rewrite filter_app, app_length. reflexivity. Qed.

Lemma filter_length {A} (f : A -> bool) l : List.length (filter f l) <= List.length l.
Proof. induction l as [|x l IH]; cbn; [lia|]. destruct (f x); cbn; lia. Qed.

(** The k-th order statistic: fewer than k+1 elements are below it, more than k are at
    most it. *)
Lemma order_statistic l k q : Forall (fun a => is_nan a = false) l -> nth_error (nsort l) k = Some q ->
  In q l /\ count (fun a => nlt a q) l <= k /\ k < count (fun a => nle a q) l.
Proof.
  intros HN E. assert (In q l) as Hq by (apply nsort_In; eapply nth_error_In; eauto).
  assert (is_nan q = false) as Nq by (rewrite Forall_forall in HN; auto).
  split; [exact Hq|]. rewrite <- (nsort_count (fun a => nlt a q)), <- (nsort_count (fun a => nle a q)).
  pose proof (nsort_sorted l) as S. apply nth_error_split in E as (l1 & l2 & E & Hk). rewrite E in *. subst k.
  rewrite !count_app. split.
  - assert (count (fun a => nlt a q) (q :: l2) = 0) as ->.
    { unfold count. rewrite filter_none; [reflexivity|]. intros x Hx. apply nle_not_nlt.
      apply In_nth_error in Hx as (j & Hj).
      pose proof (S (List.length l1) (List.length l1 + j) q x ltac:(lia)) as H.
      rewrite !nth_error_app2, Nat.sub_diag in H by lia. replace (List.length l1 + j - List.length l1) with j in H by lia.
      specialize (H eq_refl Hj). unfold sle in H.
      assert (is_nan x = false) as Nx.
      { rewrite Forall_forall in HN. apply HN. apply nsort_In. rewrite E. apply in_or_app. right. eapply nth_error_In; eauto. }
      rewrite Nx in H. exact H. }
    unfold count. pose proof (filter_length (fun a => nlt a q) l1). lia.
  - assert (count (fun a => nle a q) l1 = List.length l1) as ->.
    { unfold count. rewrite filter_all; [reflexivity|]. intros x Hx. apply In_nth_error in Hx as (j & Hj).
      assert (j < List.length l1) as Hjl by (apply nth_error_Some; congruence).
      pose proof (S j (List.length l1) x q ltac:(lia)) as H. rewrite nth_error_app1 in H by exact Hjl.
      rewrite nth_error_app2, Nat.sub_diag in H by lia. specialize (H Hj eq_refl). unfold sle in H. rewrite Nq in H. exact H. }
    unfold count. cbn [filter]. rewrite (nle_refl q Nq). cbn. lia.
Qed.

Lemma nan0_notnan a : is_nan (nan0 a) = false.
Proof. unfold nan0. destruct (is_nan a) eqn:E; [reflexivity|exact E]. Qed.
Lemma nclip_id lo hi a : nle (Fin lo) a = true -> nle a (Fin hi) = true -> nclip lo hi a = a.
Proof.
  intros A B. unfold nclip. destruct (nle_notnan _ _ A) as [_ N]. rewrite N, (nle_not_nlt _ _ A), (nle_not_nlt _ _ B). reflexivity.
Qed.
Lemma nclip_notnan lo hi a : is_nan a = false -> is_nan (nclip lo hi a) = false.
Proof. intros H. unfold nclip. rewrite H. destruct (nlt a (Fin lo)); [reflexivity|]. destruct (nlt (Fin hi) a); [reflexivity|exact H]. Qed.
Lemma nclip_mono lo hi a b : (lo <= hi)%Q -> nle a b = true -> nle (nclip lo hi a) (nclip lo hi b) = true.
Proof.
  intros L H. destruct (nle_notnan _ _ H) as [A B]. unfold nclip. rewrite A, B.
  destruct (nlt a (Fin lo)) eqn:E1.
  - destruct (nlt b (Fin lo)) eqn:E2; [apply nle_refl; reflexivity|]. destruct (nlt (Fin hi) b) eqn:E3; [cbn; apply Qle_bool_iff; exact L|].
    apply not_nlt_nle; auto.
  - destruct (nlt b (Fin lo)) eqn:E2; [rewrite (nle_nlt_trans _ _ _ H E2) in E1; discriminate|].
    destruct (nlt (Fin hi) a) eqn:E3.
    + rewrite (nlt_nle_trans _ _ _ E3 H). apply nle_refl; reflexivity.
    + destruct (nlt (Fin hi) b) eqn:E4; [apply not_nlt_nle; auto|exact H].
Qed.

(** Masks. *)
Lemma bindex_map {A B} (f : A -> bool) (g : A -> B) l : bindex (map f l) (map g l) = Ok (map g (filter f l)).
Proof. induction l as [|x l IH]; cbn; [reflexivity|]. rewrite IH. cbn. destruct (f x); reflexivity. Qed.
Lemma compress_map {A B} (f : A -> bool) (g : A -> B) l : compress (map g l) (map f l) = map g (filter f l).
Proof. induction l as [|x l IH]; cbn; [reflexivity|]. rewrite IH. destruct (f x); reflexivity. Qed.
