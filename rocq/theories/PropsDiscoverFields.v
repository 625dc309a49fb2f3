(** C112: the fields drawn for a DISCOVER equation are those of the equation the search scored. *)
From Coq Require Import QArith Lqa Sorted.
From Verif Require Import Base Num FiniteDiff DiscoverViz.
Local Open Scope string_scope.
Local Open Scope nat_scope.
Local Open Scope list_scope.

(** ** Specification *)
(** The terms on which search and plot agree: the field, its sums, differences, products, powers 2 to 5, negation, sine, cosine, tangent; in
    one dimension the coordinate and the first derivative; in three dimensions the first derivatives. *)
Inductive common (d : nat) : node -> Prop :=
| c_u : common d (Nd "u1" [])
| c_x : d = 1 -> common d (Nd "x1" [])
| c_bin op a b : In op ["add"; "sub"; "mul"] -> common d a -> common d b -> common d (Nd op [a; b])
| c_un op a : In op ["n2"; "n3"; "n4"; "n5"; "neg"; "sin"; "cos"; "tan"] -> common d a -> common d (Nd op [a])
| c_diff a : d = 1 -> common d a -> common d (Nd "diff" [a; Nd "x1" []])
| c_diff3 a v : d = 3 -> In v ["x1"; "x2"; "x3"] -> common d a -> common d (Nd "Diff_3" [a; Nd v []]).
(** an axis of n points with equal steps *)
Definition uniform (n : nat) (dx : Q) (c : list Q) : Prop := List.length c = n /\ forall i, S i < n -> (nth (S i) c 0 - nth i c 0 == dx)%Q.
Definition inside (shape idx : list nat) : Prop := Forall2 lt idx shape.
(** two arrays with equal entries *)
Definition equal (shape : list nat) (v w : value) : Prop := exists f g, v = Ar f /\ w = Ar g /\ forall idx, inside shape idx -> (f idx == g idx)%Q.
(** functions of numbers, not of their representation *)
Definition proper (fn : string -> Q -> Q) : Prop := forall op a b, (a == b)%Q -> (fn op a == fn op b)%Q.

(** ** Lemmas *)
Lemma f2len {A B} (R : A -> B -> Prop) a b : Forall2 R a b -> List.length a = List.length b.
Proof. induction 1; cbn; congruence. Qed.
Lemma inside_nth shape : forall idx ax, inside shape idx -> ax < List.length shape -> nth ax idx 0 < nth ax shape 0.
Proof. intros idx ax H. revert ax. induction H as [|a b l k Hab F IH]; intros [|ax]; cbn; try lia. intros L. apply IH. lia. Qed.
Lemma put_inside shape : forall idx ax j, inside shape idx -> j < nth ax shape 0 -> inside shape (put_at idx ax j).
Proof. intros idx ax j H. revert ax. induction H as [|a b l k Hab F IH]; intros [|ax]; cbn; intros L; try constructor; auto. apply IH. exact L. Qed.
Lemma line_nth shape f ax idx k : k < nth ax shape 0 -> nth k (line shape f ax idx) 0%Q = f (put_at idx ax k).
Proof. intros H. unfold line. erewrite nth_indep by (rewrite map_length, seq_length; exact H). rewrite (map_nth (fun j => f (put_at idx ax j)) _ 0). rewrite seq_nth by exact H. reflexivity. Qed.
Lemma ends_nth n l r mid i : i < n -> nth i (ends n l r mid) 0%Q = if i =? 0 then l else if i =? n - 1 then r else mid i.
Proof.
  intros H. unfold ends. set (F := fun i => _). erewrite nth_indep by (rewrite map_length, seq_length; exact H). rewrite (map_nth F _ 0). rewrite seq_nth by exact H. reflexivity.
Qed.
(** the two first derivatives *)
Lemma same_gradient shape f f' dx dx' ax : ax < List.length shape -> 3 <= nth ax shape 0 -> (dx == dx')%Q -> ~ (dx == 0)%Q ->
  (forall idx, inside shape idx -> (f idx == f' idx)%Q) ->
  exists g, gradient shape f' dx' ax = Ok g /\ forall idx, inside shape idx -> exists q, along disc_diff shape f dx ax idx = Ok q /\ (q == g idx)%Q.
Proof.
  intros La N Ed Nd Ef. unfold gradient. set (n := nth ax shape 0) in *. replace (ax <? List.length shape) with true by (symmetry; apply Nat.ltb_lt; exact La). replace (n <? 3) with false by (symmetry; apply Nat.ltb_ge; exact N). cbn [negb].
  eexists. split; [reflexivity|]. intros idx I. unfold along. replace (ax <? List.length shape) with true by (symmetry; apply Nat.ltb_lt; exact La). unfold disc_diff.
  assert (L : List.length (line shape f ax idx) = n) by (unfold line; rewrite map_length; apply seq_length). rewrite L. replace (n <? 3) with false by (symmetry; apply Nat.ltb_ge; exact N). cbn [bind].
  eexists. split; [reflexivity|]. cbv zeta. pose proof (inside_nth shape idx ax I La) as Hi. fold n in Hi. set (i := nth ax idx 0) in *. rewrite ends_nth by exact Hi.
  assert (P : forall k, k < n -> (nth k (line shape f ax idx) 0 == nth k (line shape f' ax idx) 0)%Q) by (intros k Hk; rewrite !line_nth by exact Hk; apply Ef, put_inside; assumption).
  assert (Nd' : ~ (dx' == 0)%Q) by (rewrite <- Ed; exact Nd).
  destruct (i =? 0) eqn:E0; [|destruct (i =? n - 1) eqn:E1].
  - unfold d1_left'. rewrite (P 0), (P 1), (P 2), Ed by lia. field. exact Nd'.
  - unfold d1_right'. cbv zeta. rewrite L. rewrite (P (n - 1)), (P (n - 2)), (P (n - 3)), Ed by lia. field. exact Nd'.
  - unfold d1_mid. apply Nat.eqb_neq in E0, E1. rewrite (P (i + 1)), (P (i - 1)), Ed by lia. reflexivity.
Qed.
Section Same.
Context (shape : list nat) (u : list nat -> Q) (fn : string -> Q -> Q) (num_of : string -> option Q) (xs : list Q) (spat : option (list (list Q) * list Q)) (X : list (list Q)).
Definition agree (n : node) : Prop := exists v w, search_eval shape u fn X n = Ok v /\ plot_eval shape u fn num_of xs spat n = Ok w /\ equal shape v w.
Lemma agree_u : agree (Nd "u1" []).
Proof. exists (Ar u), (Ar u). split; [reflexivity|]. split; [reflexivity|]. exists u, u. repeat split; reflexivity. Qed.
Lemma agree_bin op a b : In op ["add"; "sub"; "mul"] -> agree a -> agree b -> agree (Nd op [a; b]).
Proof.
  intros I (v & w & Q1 & Q2 & f & g & -> & -> & E) (v' & w' & Q1' & Q2' & f' & g' & -> & -> & E'). unfold agree. cbn [In] in I.
  repeat destruct I as [<-|I]; try contradiction; cbn [search_eval plot_eval emap]; cbv [search_diff]; cbn [option_map find fst snd String.eqb Ascii.eqb Bool.eqb]; rewrite Q1, Q2, Q1', Q2'; cbn [bind];
  (do 2 eexists; split; [reflexivity|]; split; [reflexivity|]; do 2 eexists; split; [reflexivity|]; split; [reflexivity|]; intros idx Hi; cbn [entry]; rewrite (E idx Hi), (E' idx Hi); reflexivity).
Qed.
Lemma agree_un op a : proper fn -> In op ["n2"; "n3"; "n4"; "n5"; "neg"; "sin"; "cos"; "tan"] -> agree a -> agree (Nd op [a]).
Proof.
  intros PF I (v & w & Q1 & Q2 & f & g & -> & -> & E). unfold agree. cbn [In] in I.
  repeat destruct I as [<-|I]; try contradiction; cbn [search_eval plot_eval emap]; cbv [search_diff]; cbn [option_map find fst snd String.eqb Ascii.eqb Bool.eqb]; rewrite Q1, Q2; cbn [bind];
  (do 2 eexists; split; [reflexivity|]; split; [reflexivity|]; do 2 eexists; split; [reflexivity|]; split; [reflexivity|]; intros idx Hi; try (apply PF; apply E; exact Hi); unfold qpow; rewrite (E idx Hi); reflexivity).
Qed.
End Same.
(** ** Theorems *)
(** One space dimension: on a uniform axis of at least 3 points a common term is evaluated by both, to the same numbers. *)
Theorem C112_same_term_1d n u fn num_of xs dx a : 3 <= n -> uniform n dx xs -> ~ (dx == 0)%Q -> proper fn -> common 1 a ->
  exists f g, search_eval [n] u fn [xs] a = Ok (Ar f) /\ plot_eval [n] u fn num_of xs None a = Ok (Ar g) /\ forall i, i < n -> (f [i] == g [i])%Q.
Proof.
  intros N [L Un] Nd PF C. assert (A : agree [n] u fn num_of xs None [xs] a).
  { induction C as [|?|op a b I Ca IHa Cb IHb|op a I Ca IHa|a _ Ca IHa|a v ?]; try discriminate.
    - apply agree_u.
    - do 2 eexists. cbn [search_eval plot_eval]. unfold search_leaf. cbn [axis_of nth_error String.eqb Ascii.eqb Bool.eqb List.length Nat.sub nth]. rewrite L, Nat.eqb_refl. split; [reflexivity|]. split; [reflexivity|]. do 2 eexists. split; [reflexivity|]. split; [reflexivity|]. reflexivity.
    - apply agree_bin; assumption.
    - apply agree_un; assumption.
    - destruct IHa as (v & w & Q1 & Q2 & f & g & -> & -> & E). pose proof (Un 0 ltac:(lia)) as U0. pose proof (Un 1 ltac:(lia)) as U1.
      assert (Ed : (nth 2 xs 0 - nth 1 xs 0 == nth 1 xs 0 - nth 0 xs 0)%Q) by lra. assert (Nd' : ~ (nth 2 xs 0 - nth 1 xs 0 == 0)%Q) by (rewrite U1; exact Nd).
      destruct (same_gradient [n] f g _ _ 0 ltac:(cbn; lia) N Ed Nd' E) as (h & Q & H). unfold agree. cbn [search_eval plot_eval emap]. cbv [search_diff]. cbn [option_map find fst snd String.eqb Ascii.eqb Bool.eqb]. rewrite Q1, Q2. cbn [bind arg nth_error].
      change (plot_leaf [n] u num_of xs None "x1") with (@Ok value (Ar (fun idx => nth (nth 0 idx 0) xs 0%Q))). cbn [bind].
      do 2 eexists. split; [|split].
      + unfold search_along. cbn [axis_of String.eqb Ascii.eqb Bool.eqb nth_error List.length Nat.eqb Nat.ltb Nat.leb negb orb nth]. rewrite L. replace (n <? 3) with false by (symmetry; apply Nat.ltb_ge; exact N). reflexivity.
      + change (base_name "diff") with "diff". unfold plot_op. cbn [existsb String.eqb Ascii.eqb Bool.eqb orb arg nth_error bind plot_diff gradients]. rewrite Q. reflexivity.
      + do 2 eexists. split; [reflexivity|]. split; [reflexivity|]. intros idx Hi. destruct (H idx Hi) as (q & Aq & Eq). rewrite Aq. exact Eq. }
  destruct A as (v & w & Q1 & Q2 & f & g & -> & -> & E). exists f, g. split; [exact Q1|]. split; [exact Q2|]. intros i Hi. apply E. repeat constructor. exact Hi.
Qed.

(** np.unique leaves an ascending axis as it is *)
Lemma unique_ascending c : StronglySorted Qlt c -> unique c = c.
Proof.
  induction 1 as [|a l So IH F]; [reflexivity|]. cbn [unique fold_right]. change (fold_right uinsert [] l) with (unique l). rewrite IH. destruct l as [|b l]; [reflexivity|]. cbn [uinsert].
  apply Forall_cons_iff in F as [F _]. assert (Y : (a ?= b)%Q = Lt) by (apply Qlt_alt; exact F). rewrite Y. reflexivity.
Qed.
Lemma uniform_ascending : forall c n dx, uniform n dx c -> (0 < dx)%Q -> StronglySorted Qlt c.
Proof.
  assert (G : forall c dx, (forall i, S i < List.length c -> (nth (S i) c 0 - nth i c 0 == dx)%Q) -> (0 < dx)%Q -> StronglySorted Qlt c); [|intros c n dx [<- H]; apply G; exact H].
  intros c dx H P. apply Sorted_StronglySorted; [intros a b d; apply Qlt_trans|]. induction c as [|a c IH]; constructor.
  - apply IH. intros i Hi. apply (H (S i)). cbn. lia.
  - destruct c as [|b c]; constructor. specialize (H 0 ltac:(cbn; lia)). cbn [nth] in H. lra.
Qed.
(** the axes of the plot *)
Lemma spatial_uniform X dxs : Forall2 (fun c dx => 2 <= List.length c /\ uniform (List.length c) dx c /\ (0 < dx)%Q) X dxs ->
  exists ds, spatial X = Ok (X, ds) /\ Forall2 Qeq ds dxs.
Proof.
  intros F. unfold spatial. match goal with |- context [mapM ?b X] => set (body := b) end. assert (G : exists l, mapM body X = Ok l /\ map fst l = X /\ Forall2 Qeq (map snd l) dxs).
  { induction F as [|c dx X dxs (L & Un & P) F IH]; [exists []; repeat split; constructor|]. destruct IH as (l & Q & M1 & M2).
    exists ((c, (nth 1 c 0 - nth 0 c 0)%Q) :: l). cbn [mapM]. rewrite Q. split; [|split; [cbn; congruence|constructor; [|exact M2]; cbn [snd]; apply Un; lia]].
    assert (Bc : body c = Ok (c, (nth 1 c 0 - nth 0 c 0)%Q)); [|rewrite Bc; reflexivity]. unfold body. cbv zeta. rewrite (unique_ascending c) by (eapply uniform_ascending; [exact Un|exact P]). replace (List.length c <? 2) with false by (symmetry; apply Nat.ltb_ge; exact L).
    destruct (Qeq_bool _ 0) eqn:E; [|reflexivity]. apply Qeq_bool_eq in E. pose proof (proj2 Un 0 ltac:(lia)). lra. }
  destruct G as (l & -> & M1 & M2). cbn [bind]. rewrite M1. eexists. split; [reflexivity|exact M2].
Qed.
(** Three space dimensions: on ascending uniform axes of at least 3 points each, the same. *)
Theorem C112_same_term_3d n1 n2 n3 u fn num_of c1 c2 c3 d1 d2 d3 a : 3 <= n1 -> 3 <= n2 -> 3 <= n3 -> uniform n1 d1 c1 -> uniform n2 d2 c2 -> uniform n3 d3 c3 -> (0 < d1)%Q -> (0 < d2)%Q -> (0 < d3)%Q -> proper fn -> common 3 a ->
  exists sp f g, spatial [c1; c2; c3] = Ok sp /\ search_eval [n1; n2; n3] u fn [c1; c2; c3] a = Ok (Ar f) /\ plot_eval [n1; n2; n3] u fn num_of c1 (Some sp) a = Ok (Ar g) /\
    forall i j k, i < n1 -> j < n2 -> k < n3 -> (f [i; j; k] == g [i; j; k])%Q.
Proof.
  intros N1 N2 N3 U1 U2 U3 P1 P2 P3 PF C. destruct (spatial_uniform [c1; c2; c3] [d1; d2; d3]) as (ds & SP & DS).
  { repeat constructor; try (rewrite (proj1 U1)); try (rewrite (proj1 U2)); try (rewrite (proj1 U3)); auto; try lia; try (apply U1); try (apply U2); try (apply U3). }
  exists ([c1; c2; c3], ds). set (sh := [n1; n2; n3]) in *. assert (A : agree sh u fn num_of c1 (Some ([c1; c2; c3], ds)) [c1; c2; c3] a).
  { induction C as [|?|op a b I Ca IHa Cb IHb|op a I Ca IHa|a ?|a v _ I Ca IHa]; try discriminate.
    - apply agree_u.
    - apply agree_bin; assumption.
    - apply agree_un; assumption.
    - destruct IHa as (v0 & w & Q1 & Q2 & f & g & -> & -> & E). inversion DS as [|e1 ? ? ? D1 DS1]; subst. inversion DS1 as [|e2 ? ? ? D2 DS2]; subst. inversion DS2 as [|e3 ? ? ? D3 DS3]; subst. inversion DS3; subst. clear DS DS1 DS2 DS3.
      assert (K : exists ax c n d e, axis_of (Nd v []) = Ok ax /\ nth_error [c1; c2; c3] ax = Some c /\ nth_error [e1; e2; e3] ax = Some e /\ nth ax sh 0 = n /\ ax < 3 /\ 3 <= n /\ uniform n d c /\ (0 < d)%Q /\ (e == d)%Q /\
                plot_leaf sh u num_of c1 (Some ([c1; c2; c3], [e1; e2; e3])) v = broadcast sh [c1; c2; c3] ax).
      { cbn [In] in I. destruct I as [<-|[<-|[<-|[]]]]; [exists 0, c1, n1, d1, e1|exists 1, c2, n2, d2, e2|exists 2, c3, n3, d3, e3]; repeat split; auto; try lia; try apply U1; try apply U2; try apply U3. }
      destruct K as (ax & c & n & d & e & Kx & Kc & Ke & Kn & Ka & Kn3 & [Lc Un] & P & De & Kl). pose proof (Un 0 ltac:(lia)) as V0. pose proof (Un 1 ltac:(lia)) as V1.
      assert (Ed : (nth 2 c 0 - nth 1 c 0 == e)%Q) by lra. assert (Nd : ~ (nth 2 c 0 - nth 1 c 0 == 0)%Q) by lra.
      destruct (same_gradient sh f g _ _ ax Ka ltac:(lia) Ed Nd E) as (h & Q & H). unfold agree. cbn [search_eval plot_eval emap]. cbv [search_diff]. cbn [option_map find fst snd String.eqb Ascii.eqb Bool.eqb]. rewrite Q1, Q2. cbn [bind arg nth_error]. rewrite Kl. unfold broadcast. rewrite Kc, Kn, Lc, Nat.eqb_refl. cbn [bind].
      do 2 eexists. split; [|split].
      + unfold search_along. rewrite Kx, Kc, Kn, Lc. cbn [List.length sh Nat.eqb negb orb]. replace (ax <? 3) with true by (symmetry; apply Nat.ltb_lt; exact Ka). replace (n <? 3) with false by (symmetry; apply Nat.ltb_ge; exact Kn3). reflexivity.
      + change (base_name "Diff_3") with "Diff_3". unfold plot_op. cbn [existsb String.eqb Ascii.eqb Bool.eqb orb arg nth_error bind]. unfold plot_partial. rewrite Kx. cbn [bind]. unfold arg. rewrite Ke. cbn [bind gradients]. rewrite Q. reflexivity.
      + do 2 eexists. split; [reflexivity|]. split; [reflexivity|]. intros idx Hi. destruct (H idx Hi) as (q & Aq & Eq). rewrite Aq. exact Eq. }
  destruct A as (v & w & Q1 & Q2 & f & g & -> & -> & E). exists f, g. split; [exact SP|]. split; [exact Q1|]. split; [exact Q2|]. intros i j k Hi Hj Hk. apply E. repeat constructor; assumption.
Qed.

(** ** The fields *)
Definition sum (l : list Q) : Q := fold_right Qplus 0%Q l.
(** what the search has for one term at point i and time t *)
Definition search_value n u fn xs (a : node) (t i : nat) : Q :=
  match search_eval [n] (fun idx => u (nth 0 idx 0) t) fn [xs] a with Ok v => entry v [i] | Err _ => 0%Q end.
(** the right-hand side of the equation: the terms times their coefficients, plus the coefficient that is left over, if any *)
Definition equation n u fn xs (terms : list node) (w : list Q) (t i : nat) : Q :=
  (sum (map (fun p => snd p * search_value n u fn xs (fst p) t i) (combine terms w)) + nth (List.length terms) w 0)%Q.
Lemma mapM_Forall2 {A B} (f : A -> res B) (R : A -> B -> Prop) l : (forall a, In a l -> exists b, f a = Ok b /\ R a b) -> exists m, mapM f l = Ok m /\ Forall2 R l m.
Proof.
  induction l as [|a l IH]; intros H; [exists []; split; [reflexivity|constructor]|]. destruct (H a ltac:(now left)) as (b & Q & Rb). destruct IH as (m & Qm & F); [intros x Hx; apply H; now right|].
  exists (b :: m). cbn [mapM]. rewrite Q, Qm. split; [reflexivity|constructor; assumption].
Qed.
Lemma f2_nth {A B} (R : A -> B -> Prop) da db l m k : Forall2 R l m -> k < List.length l -> R (nth k l da) (nth k m db).
Proof. intros F. revert k. induction F as [|a b l m Hab F IH]; intros [|k]; cbn; try lia; auto. intros H. apply IH. lia. Qed.
Lemma dot_sum {A B} (val : A -> Q) (val' : B -> Q) (l : list A) (m : list B) : Forall2 (fun a b => (val a == val' b)%Q) l m ->
  forall w, (dot (map val' m) w == sum (map (fun p => snd p * val (fst p)) (combine l w)))%Q.
Proof.
  induction 1 as [|a b l m E F IH]; intros [|x w]; cbn [map dot combine sum fold_right fst snd]; try reflexivity. rewrite IH, <- E. unfold sum. ring.
Qed.
Lemma combine_removelast {A} (l : list A) : forall w : list Q, List.length w = S (List.length l) -> combine l (removelast w) = combine l w /\ last w 0%Q = nth (List.length l) w 0%Q.
Proof.
  induction l as [|a l IH]; intros [|x [|y w]]; cbn [List.length]; try discriminate; [split; reflexivity|]. intros [= L]. destruct (IH (y :: w)) as [H1 H2]; [cbn; congruence|].
  split; [|exact H2]. change (removelast (x :: y :: w)) with (x :: removelast (y :: w)). cbn [combine]. cbn [combine] in H1. f_equal. exact H1.
Qed.
Lemma cell {A} (F : nat * nat -> A) n m i t d : i < n -> t < m -> nth (i * m + t) (map F (list_prod (seq 0 n) (seq 0 m))) d = F (i, t).
Proof.
  intros Hi Ht. assert (P : forall n s i, i < n -> nth (i * m + t) (map F (list_prod (seq s n) (seq 0 m))) d = F (s + i, t)); [|exact (P n 0 i Hi)].
  clear n i Hi. induction n as [|n IH]; intros s i Hi; [lia|]. cbn [seq list_prod]. rewrite map_app.
  assert (L : List.length (map F (map (fun y => (s, y)) (seq 0 m))) = m) by (rewrite !map_length; apply seq_length). destruct i as [|i].
  - rewrite app_nth1 by (rewrite L; lia). cbn [Nat.mul Nat.add]. rewrite map_map. erewrite nth_indep by (rewrite map_length, seq_length; exact Ht). rewrite (map_nth (fun y => F (s, y)) _ 0). rewrite seq_nth by exact Ht. rewrite Nat.add_0_r. reflexivity.
  - rewrite app_nth2 by (rewrite L; cbn; lia). rewrite L. replace (S i * m + t - m) with (i * m + t) by (cbn; lia). rewrite IH by lia. f_equal. f_equal. lia.
Qed.
(** One space dimension: with one coefficient per term, or one more, the predicted derivative is the right-hand side of the equation, the residual
    of point i and time t is the measured derivative minus it, and its coordinates are the position of point i and the number t. *)
Theorem C112_fields_1d fn num_of n m x dx u ut terms w : 3 <= n -> uniform n dx x -> ~ (dx == 0)%Q -> proper fn -> Forall (common 1) terms ->
  List.length w = List.length terms \/ List.length w = S (List.length terms) ->
  exists r, fields_1d fn num_of n m x u ut terms w = Ok r /\ List.length (f_residual r) = n * m /\ List.length (f_coords r) = n * m /\
    forall i t, i < n -> t < m ->
      (f_yhat r t [i] == equation n u fn x terms w t i)%Q /\ (nth (i * m + t) (f_residual r) 0 == ut i t - equation n u fn x terms w t i)%Q /\
      nth (i * m + t) (f_coords r) (0, 0)%Q = (nth i x 0%Q, inject_Z (Z.of_nat t)).
Proof.
  intros N Un Nd PF Ct Lw. unfold fields_1d.
  destruct (mapM_Forall2 (fun term => mapM (fun t => plot_eval [n] (fun idx => u (nth 0 idx 0) t) fn num_of x None term) (seq 0 m))
     (fun term col => forall i t, i < n -> t < m -> (search_value n u fn x term t i == entry (nth t col (Sc 0)) [i])%Q) terms) as (Th & Q & F).
  { intros a Ha. rewrite Forall_forall in Ct. specialize (Ct a Ha).
    destruct (mapM_Forall2 (fun t => plot_eval [n] (fun idx => u (nth 0 idx 0) t) fn num_of x None a) (fun t v => forall i, i < n -> (search_value n u fn x a t i == entry v [i])%Q) (seq 0 m)) as (col & Qc & Fc).
    - intros t _. destruct (C112_same_term_1d n (fun idx => u (nth 0 idx 0) t) fn num_of x dx a N Un Nd PF Ct) as (f & g & S1 & S2 & E). exists (Ar g). split; [exact S2|]. intros i Hi. unfold search_value. rewrite S1. exact (E i Hi).
    - exists col. split; [exact Qc|]. intros i t Hi Ht. pose proof (f2_nth _ 0 (Sc 0) _ _ t Fc ltac:(rewrite seq_length; exact Ht)) as R. rewrite seq_nth in R by exact Ht. exact (R i Hi). }
  rewrite Q. cbn [bind]. assert (LT : List.length Th = List.length terms) by (symmetry; exact (f2len _ _ _ F)).
  assert (OKR : rhs_ok (List.length terms) (List.length w) = true) by (unfold rhs_ok; destruct Lw as [-> | ->]; [rewrite Nat.eqb_refl; reflexivity|rewrite (Nat.eqb_refl (S _)), orb_true_r; reflexivity]). rewrite OKR. cbn [negb].
  eexists. split; [reflexivity|]. cbn [f_residual f_coords f_yhat]. split; [rewrite map_length, prod_length, !seq_length; reflexivity|]. split; [rewrite map_length, prod_length, !seq_length; reflexivity|]. intros i t Hi Ht.
  assert (Y : (rhs (map (fun col => entry (nth t col (Sc 0)) [i]) Th) w == equation n u fn x terms w t i)%Q).
  { assert (Ft : Forall2 (fun a col => (search_value n u fn x a t i == entry (nth t col (Sc 0)) [i])%Q) terms Th) by (clear - F Hi Ht; induction F; constructor; auto).
    unfold rhs, equation. rewrite map_length, LT. destruct Lw as [E|E]; rewrite E.
    - replace (_ =? S _) with false by (symmetry; apply Nat.eqb_neq; lia). rewrite (nth_overflow w) by lia. rewrite (dot_sum (fun a => search_value n u fn x a t i) (fun col => entry (nth t col (Sc 0)) [i]) _ _ Ft). ring.
    - rewrite Nat.eqb_refl. destruct (combine_removelast terms w E) as [C1 C2]. rewrite C2. rewrite (dot_sum (fun a => search_value n u fn x a t i) (fun col => entry (nth t col (Sc 0)) [i]) _ _ Ft), C1. reflexivity. }
  split; [exact Y|]. split; [|rewrite cell by assumption; reflexivity]. rewrite (cell (fun c => (ut (fst c) (snd c) - _)%Q)) by assumption. cbn [fst snd]. rewrite Y. reflexivity.
Qed.
(** Any other number of coefficients is an error. *)
Theorem C112_coefficients fn num_of n m x u ut terms w r : fields_1d fn num_of n m x u ut terms w = Ok r -> List.length w = List.length terms \/ List.length w = S (List.length terms).
Proof.
  unfold fields_1d. destruct (mapM _ terms); cbn [bind]; [|discriminate]. destruct (rhs_ok _ _) eqn:E; cbn [negb]; [|discriminate]. intros _. unfold rhs_ok in E. apply orb_true_iff in E as [E|E]; apply Nat.eqb_eq in E; tauto.
Qed.
(** Three space dimensions: the array runs over time first, then the three space axes, the last one fastest. *)
Definition search_value3 (shape : list nat) u fn X (a : node) (t : nat) (p : list nat) : Q :=
  match search_eval shape (u t) fn X a with Ok v => entry v p | Err _ => 0%Q end.
Definition equation3 (shape : list nat) u fn X (terms : list node) (w : list Q) (t : nat) (p : list nat) : Q :=
  (sum (map (fun q => snd q * search_value3 shape u fn X (fst q) t p) (combine terms w)) + nth (List.length terms) w 0)%Q.
Lemma blocks {B} (g : nat -> list B) b d : (forall i, List.length (g i) = b) -> forall n s i k, i < n -> k < b -> nth (i * b + k) (flat_map g (seq s n)) d = nth k (g (s + i)) d.
Proof.
  intros L. induction n as [|n IH]; intros s i k Hi Hk; [lia|]. cbn [seq flat_map]. destruct i as [|i].
  - rewrite app_nth1 by (rewrite L; cbn; exact Hk). cbn [Nat.mul Nat.add]. rewrite Nat.add_0_r. reflexivity.
  - rewrite app_nth2 by (rewrite L; cbn; lia). rewrite L. replace (S i * b + k - b) with (i * b + k) by (cbn; lia). rewrite IH by lia. f_equal. f_equal. lia.
Qed.
Lemma blocks_length {B} (g : nat -> list B) b : (forall i, List.length (g i) = b) -> forall n s, List.length (flat_map g (seq s n)) = n * b.
Proof. intros L. induction n as [|n IH]; intros s; [reflexivity|]. cbn [seq flat_map]. rewrite app_length, L, IH. reflexivity. Qed.
Lemma indices_length n s : List.length (indices (n :: s)) = n * List.length (indices s).
Proof. cbn [indices]. apply blocks_length. intros i. apply map_length. Qed.
Lemma indices_nth n s i k : i < n -> k < List.length (indices s) -> nth (i * List.length (indices s) + k) (indices (n :: s)) [] = i :: nth k (indices s) [].
Proof.
  intros Hi Hk. cbn [indices]. rewrite (blocks (fun i => map (cons i) (indices s)) (List.length (indices s))) by (try assumption; intros; apply map_length). cbn [Nat.add].
  erewrite nth_indep by (rewrite map_length; exact Hk). apply (map_nth (cons i)).
Qed.
Lemma list_prod_flat {A B} (l : list A) (l' : list B) : list_prod l l' = flat_map (fun a => map (pair a) l') l.
Proof. induction l as [|a l IH]; [reflexivity|]. cbn [list_prod flat_map]. rewrite IH. reflexivity. Qed.
Lemma cell_nd {A} (F : nat * list nat -> A) m l t q d : t < m -> q < List.length l -> nth (t * List.length l + q) (map F (list_prod (seq 0 m) l)) d = F (t, nth q l []).
Proof.
  intros Ht Hq. erewrite nth_indep by (rewrite map_length, prod_length, seq_length; apply Nat.lt_le_trans with (S t * List.length l); [cbn; lia|apply Nat.mul_le_mono_r; lia]).
  rewrite (map_nth F _ (0, [])). f_equal. rewrite list_prod_flat. rewrite (blocks (fun a => map (pair a) l) (List.length l)) by (try assumption; intros; apply map_length).
  erewrite nth_indep by (rewrite map_length; exact Hq). rewrite (map_nth (pair (0 + t))). reflexivity.
Qed.
Theorem C112_fields_3d fn num_of m n1 n2 n3 c1 c2 c3 d1 d2 d3 u ut terms w :
  3 <= n1 -> 3 <= n2 -> 3 <= n3 -> uniform n1 d1 c1 -> uniform n2 d2 c2 -> uniform n3 d3 c3 -> (0 < d1)%Q -> (0 < d2)%Q -> (0 < d3)%Q -> proper fn -> Forall (common 3) terms ->
  List.length w = List.length terms \/ List.length w = S (List.length terms) ->
  let eqn := equation3 [n1; n2; n3] u fn [c1; c2; c3] terms w in
  exists r, fields_nd fn num_of m [n1; n2; n3] [c1; c2; c3] u ut terms w = Ok r /\ List.length (f_residual r) = m * (n1 * (n2 * n3)) /\ f_times r = seq 0 m /\
    forall t i j k, t < m -> i < n1 -> j < n2 -> k < n3 ->
      (f_yhat r t [i; j; k] == eqn t [i; j; k])%Q /\ (nth (t * (n1 * (n2 * n3)) + (i * (n2 * n3) + (j * n3 + k))) (f_residual r) 0 == ut t [i; j; k] - eqn t [i; j; k])%Q.
Proof.
  intros N1 N2 N3 U1 U2 U3 P1 P2 P3 PF Ct Lw eqn. unfold fields_nd. set (sh := [n1; n2; n3]) in *. set (X := [c1; c2; c3]) in *.
  assert (SP : exists sp, spatial X = Ok sp /\ hd [] (fst sp) = c1).
  { destruct (spatial_uniform X [d1; d2; d3]) as (ds & SP & DS).
    { unfold X. repeat constructor; try (rewrite (proj1 U1)); try (rewrite (proj1 U2)); try (rewrite (proj1 U3)); auto; try lia; try (apply U1); try (apply U2); try (apply U3). }
    exists (X, ds). split; [exact SP|reflexivity]. }
  destruct SP as (sp & SP & HD). rewrite SP. cbn [bind]. rewrite HD.
  destruct (mapM_Forall2 (fun term => mapM (fun t => plot_eval sh (u t) fn num_of c1 (Some sp) term) (seq 0 m))
     (fun term col => forall t i j k, t < m -> i < n1 -> j < n2 -> k < n3 -> (search_value3 sh u fn X term t [i; j; k] == entry (nth t col (Sc 0)) [i; j; k])%Q) terms) as (Th & Q & F).
  { intros a Ha. rewrite Forall_forall in Ct. specialize (Ct a Ha).
    destruct (mapM_Forall2 (fun t => plot_eval sh (u t) fn num_of c1 (Some sp) a) (fun t v => forall i j k, i < n1 -> j < n2 -> k < n3 -> (search_value3 sh u fn X a t [i; j; k] == entry v [i; j; k])%Q) (seq 0 m)) as (col & Qc & Fc).
    - intros t _. destruct (C112_same_term_3d n1 n2 n3 (u t) fn num_of c1 c2 c3 d1 d2 d3 a N1 N2 N3 U1 U2 U3 P1 P2 P3 PF Ct) as (sp' & f & g & SP' & S1 & S2 & E).
      fold X in SP'. rewrite SP in SP'. injection SP' as <-. exists (Ar g). split; [exact S2|]. intros i j k Hi Hj Hk. unfold search_value3. unfold sh, X. rewrite S1. exact (E i j k Hi Hj Hk).
    - exists col. split; [exact Qc|]. intros t i j k Ht Hi Hj Hk. pose proof (f2_nth _ 0 (Sc 0) _ _ t Fc ltac:(rewrite seq_length; exact Ht)) as R. rewrite seq_nth in R by exact Ht. exact (R i j k Hi Hj Hk). }
  rewrite Q. cbn [bind]. assert (LT : List.length Th = List.length terms) by (symmetry; exact (f2len _ _ _ F)).
  assert (OKR : rhs_ok (List.length terms) (List.length w) = true) by (unfold rhs_ok; destruct Lw as [-> | ->]; [rewrite Nat.eqb_refl; reflexivity|rewrite (Nat.eqb_refl (S _)), orb_true_r; reflexivity]). rewrite OKR. cbn [negb].
  eexists. split; [reflexivity|]. cbn [f_residual f_yhat f_times].
  assert (L3 : List.length (indices [n3]) = n3) by (rewrite indices_length; cbn; lia).
  assert (L2 : List.length (indices [n2; n3]) = n2 * n3) by (rewrite indices_length, L3; reflexivity).
  assert (L1 : List.length (indices sh) = n1 * (n2 * n3)) by (unfold sh; rewrite indices_length, L2; reflexivity).
  split; [rewrite map_length, prod_length, seq_length, L1; reflexivity|]. split; [reflexivity|]. intros t i j k Ht Hi Hj Hk.
  assert (Y : (rhs (map (fun col => entry (nth t col (Sc 0)) [i; j; k]) Th) w == eqn t [i; j; k])%Q).
  { assert (Ft : Forall2 (fun a col => (search_value3 sh u fn X a t [i; j; k] == entry (nth t col (Sc 0)) [i; j; k])%Q) terms Th) by (clear - F Ht Hi Hj Hk; induction F; constructor; auto).
    unfold rhs, eqn, equation3. rewrite map_length, LT. destruct Lw as [E|E]; rewrite E.
    - replace (_ =? S _) with false by (symmetry; apply Nat.eqb_neq; lia). rewrite (nth_overflow w) by lia. rewrite (dot_sum (fun a => search_value3 sh u fn X a t [i; j; k]) (fun col => entry (nth t col (Sc 0)) [i; j; k]) _ _ Ft). ring.
    - rewrite Nat.eqb_refl. destruct (combine_removelast terms w E) as [C1 C2]. rewrite C2. rewrite (dot_sum (fun a => search_value3 sh u fn X a t [i; j; k]) (fun col => entry (nth t col (Sc 0)) [i; j; k]) _ _ Ft), C1. reflexivity. }
  split; [exact Y|].
  assert (B2 : j * n3 + k < n2 * n3) by (apply Nat.lt_le_trans with (S j * n3); [cbn; lia|apply Nat.mul_le_mono_r; lia]).
  assert (B1 : i * (n2 * n3) + (j * n3 + k) < n1 * (n2 * n3)) by (apply Nat.lt_le_trans with (S i * (n2 * n3)); [cbn; lia|apply Nat.mul_le_mono_r; lia]).
  rewrite <- L1 at 1. rewrite (cell_nd (fun c => (ut (fst c) (snd c) - _)%Q)) by (try assumption; rewrite L1; exact B1). cbn [fst snd].
  assert (I : nth (i * (n2 * n3) + (j * n3 + k)) (indices sh) [] = [i; j; k]).
  { unfold sh. rewrite <- L2 at 1. rewrite indices_nth by (try assumption; rewrite L2; exact B2). f_equal. rewrite <- L3 at 1. rewrite indices_nth by (try assumption; rewrite L3; exact Hk). f_equal.
    replace k with (k * List.length (indices []) + 0) at 1 by (cbn; lia). rewrite indices_nth by (try assumption; cbn; lia). reflexivity. }
  rewrite I, Y. reflexivity.
Qed.
(** In any dimension: an axis with fewer than two different values, or a wrong number of coefficients, is a ValueError. *)
Theorem C112_nd_errors fn num_of m shape X u ut terms w :
  (forall r, fields_nd fn num_of m shape X u ut terms w = Ok r -> List.length w = List.length terms \/ List.length w = S (List.length terms)) /\
  (forall c, In c X -> (forall a b, In a c -> In b c -> (a == b)%Q) -> fields_nd fn num_of m shape X u ut terms w = Err ValueError) /\
  (forall sp, spatial X = Ok sp -> (forall t a, In a terms -> t < m -> exists v, plot_eval shape (u t) fn num_of (hd [] (fst sp)) (Some sp) a = Ok v) ->
     List.length w <> List.length terms -> List.length w <> S (List.length terms) -> fields_nd fn num_of m shape X u ut terms w = Err ValueError).
Proof.
  unfold fields_nd. split; [|split].
  - intros r. destruct (spatial X) as [sp|]; cbn [bind]; [|discriminate]. destruct (mapM _ terms); cbn [bind]; [|discriminate]. destruct (rhs_ok _ _) eqn:E; cbn [negb]; [|discriminate]. intros _. unfold rhs_ok in E. apply orb_true_iff in E as [E|E]; apply Nat.eqb_eq in E; tauto.
  - intros c Hc Hd. assert (E : spatial X = Err ValueError); [|rewrite E; reflexivity]. unfold spatial. match goal with |- context [mapM ?b X] => set (body := b) end.
    assert (Bc : body c = Err ValueError).
    { unfold body. cbv zeta. assert (U1 : forall l, (forall a b, In a l -> In b l -> (a == b)%Q) -> List.length (unique l) < 2 /\ forall a b, In a (unique l) -> In b l -> (a == b)%Q).
      { induction l as [|a l IH]; intros Hl; [cbn; split; [lia|intros ? ? []]|]. destruct IH as [L E]; [intros x y Hx Hy; apply Hl; right; assumption|]. unfold unique in *. cbn [fold_right].
        destruct (fold_right uinsert [] l) as [|b r] eqn:Er.
        - cbn [uinsert]. split; [cbn; lia|]. intros x y [<-|[]] Hy. apply Hl; [now left|exact Hy].
        - destruct r as [|? ?]; [|cbn in L; lia]. cbn [uinsert]. destruct l as [|z l]; [discriminate|]. assert (Eb : (b == z)%Q) by (apply E; left; reflexivity). assert (Ea : (a == z)%Q) by (apply Hl; [now left|right; now left]).
          assert (Eab : (a == b)%Q) by (rewrite Eb; exact Ea). apply Qeq_alt in Eab. rewrite Eab. split; [cbn; lia|]. intros x y [<-|[]] [<-|Hy]; [rewrite Eb; symmetry; exact Ea|]. apply E; [now left|exact Hy]. }
      destruct (U1 c Hd) as [L _]. replace (List.length (unique c) <? 2) with true by (symmetry; apply Nat.ltb_lt; exact L). reflexivity. }
    assert (All : forall x e, body x = Err e -> e = ValueError).
    { intros x e. unfold body. cbv zeta. destruct (_ <? 2); [congruence|]. destruct (Qeq_bool _ 0); congruence. }
    assert (M : mapM body X = Err ValueError); [|rewrite M; reflexivity].
    clear - Hc Bc All. induction X as [|x X IH]; [destruct Hc|]. cbn [mapM]. destruct (body x) as [y|e] eqn:E; cbn [bind]; [|rewrite (All x e E); reflexivity].
    destruct Hc as [-> |Hc]; [congruence|]. rewrite (IH Hc). reflexivity.
  - intros sp SP Ev L1 L2. rewrite SP. cbn [bind].
    destruct (mapM_Forall2 (fun term => mapM (fun t => plot_eval shape (u t) fn num_of (hd [] (fst sp)) (Some sp) term) (seq 0 m)) (fun _ _ => True) terms) as (Th & Q & _).
    { intros a Ha. destruct (mapM_Forall2 (fun t => plot_eval shape (u t) fn num_of (hd [] (fst sp)) (Some sp) a) (fun _ _ => True) (seq 0 m)) as (col & Qc & _); [|eauto].
      intros t Ht. apply in_seq in Ht. destruct (Ev t a Ha ltac:(lia)) as [v Hv]. eauto. }
    rewrite Q. cbn [bind]. unfold rhs_ok. replace (List.length w =? S (List.length terms)) with false by (symmetry; apply Nat.eqb_neq; exact L2). replace (List.length w =? List.length terms) with false by (symmetry; apply Nat.eqb_neq; exact L1).
    reflexivity.
Qed.
(** ** Where search and plot differ *)
Definition no_fn (op : string) (a : Q) : Q := a.
Definition no_num (s : string) : option Q := None.
Definition grid (n : nat) : list Q := map (fun i => inject_Z (Z.of_nat i)) (seq 0 n).
Definition got (r : res value) (idx : list nat) : option Q := match r with Ok v => Some (entry v idx) | Err _ => None end.
(** the claim "the plot shows the term the search used" for a term and data *)
Definition shown_as_searched shape u fn num_of xs spat X a : Prop := forall idx, inside shape idx ->
  exists p q, got (search_eval shape u fn X a) idx = Some p /\ got (plot_eval shape u fn num_of xs spat a) idx = Some q /\ (p == q)%Q.
Ltac differ idx := let H := fresh in let E := fresh in intros H; destruct (H idx) as (? & ? & ? & ? & E); [repeat constructor|]; cbv [got] in *; repeat match goal with Y : _ = Some _ |- _ => vm_compute in Y; injection Y as <- end; vm_compute in E; discriminate.
(** second derivatives: the search uses neighbours, the plot the gradient of the gradient *)
Theorem C112_diff2_refuted : ~ shown_as_searched [5] (fun idx => inject_Z (Z.of_nat (nth 0 idx 0) ^ 4)) no_fn no_num (grid 5) None [grid 5] (Nd "diff2" [Nd "u1" []; Nd "x1" []]).
Proof. differ [2]. Qed.
(** quotients: the plot adds 1e-8 to every divisor *)
Theorem C112_div_refuted : ~ shown_as_searched [5] (fun _ => 1%Q) no_fn no_num (grid 5) None [grid 5] (Nd "div" [Nd "u1" []; Nd "u1" []]).
Proof. differ [2]. Qed.
(** two dimensions: the search wraps around at the ends, the plot does not *)
Theorem C112_2d_edges_refuted : exists sp, spatial [grid 4; grid 4] = Ok sp /\ ~ shown_as_searched [4; 4] (fun idx => inject_Z (Z.of_nat (nth 0 idx 0))) no_fn no_num (grid 4) (Some sp) [grid 4; grid 4] (Nd "Diff" [Nd "u1" []; Nd "x1" []]).
Proof. eexists. split; [vm_compute; reflexivity|]. differ [0; 1]. Qed.
(** two dimensions: the search's second coordinate varies along the first axis, if it has the length for it *)
Theorem C112_2d_coordinate_refuted : exists sp, spatial [grid 4; grid 4] = Ok sp /\ ~ shown_as_searched [4; 4] (fun _ => 0%Q) no_fn no_num (grid 4) (Some sp) [grid 4; grid 4] (Nd "add" [Nd "u1" []; Nd "x2" []]).
Proof. eexists. split; [vm_compute; reflexivity|]. differ [0; 1]. Qed.
(** a descending axis: np.unique sorts it, the derivative of the plot has the wrong sign *)
Theorem C112_descending_refuted : exists sp, spatial [rev (grid 3); grid 3; grid 3] = Ok sp /\
  ~ shown_as_searched [3; 3; 3] (fun idx => inject_Z (Z.of_nat (nth 0 idx 0))) no_fn no_num (rev (grid 3)) (Some sp) [rev (grid 3); grid 3; grid 3] (Nd "Diff_3" [Nd "u1" []; Nd "x1" []]).
Proof. eexists. split; [vm_compute; reflexivity|]. differ [1; 1; 1]. Qed.
(** operators the search knows and the plot does not *)
Theorem C112_operators_refuted shape u fn num_of xs spat a v : In v ["exp"; "log"; "sqrt"; "abs"; "tanh"; "sigmoid"; "expneg"; "logabs"; "max"; "min"] -> exists e, plot_eval shape u fn num_of xs spat (Nd v [a]) = Err e.
Proof.
  intros I. cbn [In] in I. repeat destruct I as [<-|I]; try contradiction; cbn [plot_eval emap];
  (destruct (plot_eval shape u fn num_of xs spat a) as [x|e]; cbn [bind]; [exists ValueError|exists e]; reflexivity).
Qed.
(** a parameter field, or another state variable *)
Theorem C112_leaves_refuted shape u fn xs v : In v ["u2"; "p1"; "c"; "const"] -> plot_eval shape u fn no_num xs None (Nd v []) = Err ValueError.
Proof. intros I. cbn [In] in I. repeat destruct I as [<-|I]; try contradiction; reflexivity. Qed.
Example C112_3d_case : uniform 3 1 (grid 3) /\ common 3 (Nd "Diff_3" [Nd "u1" []; Nd "x2" []]) /\
  exists r, fields_nd no_fn no_num 2 [3; 3; 3] [grid 3; grid 3; grid 3] (fun t p => inject_Z (Z.of_nat (nth 1 p 0 * (1 + t)))) (fun _ _ => 9%Q) [Nd "Diff_3" [Nd "u1" []; Nd "x2" []]] [4; 1]%Q = Ok r /\
  (nth 30 (f_residual r) 0 == 9 - (4 * 2 + 1))%Q.
Proof.
  split; [split; [reflexivity|]; intros [|[|i]] H; try lia; vm_compute; reflexivity|]. split; [apply c_diff3; [reflexivity|vm_compute; tauto|apply c_u]|]. eexists. split; [reflexivity|]. vm_compute. reflexivity.
Qed.
Example C112_case : let u i t := (inject_Z (Z.of_nat (i * i)) + inject_Z (Z.of_nat t))%Q in let a := Nd "mul" [Nd "u1" []; Nd "diff" [Nd "u1" []; Nd "x1" []]] in
  uniform 5 1 (grid 5) /\ proper no_fn /\ common 1 a /\ common 3 (Nd "n2" [Nd "Diff_3" [Nd "u1" []; Nd "x2" []]]) /\
  exists r, fields_1d no_fn no_num 5 2 (grid 5) u (fun i t => 7%Q) [a; Nd "u1" []] [2; 1; 3]%Q = Ok r /\ (nth (2 * 2 + 1) (f_residual r) 0 == 7 - (2 * (5 * 4) + 1 * 5 + 3))%Q /\ (equation 5 u no_fn (grid 5) [a; Nd "u1" []] [2; 1; 3] 1 2 == 48)%Q.
Proof.
  cbv zeta. split; [split; [reflexivity|]; intros [|[|[|[|i]]]] H; try lia; vm_compute; reflexivity|]. split; [intros op a b H; exact H|].
  split; [apply c_bin; [vm_compute; tauto|apply c_u|apply c_diff; [reflexivity|apply c_u]]|]. split; [apply c_un; [vm_compute; tauto|apply c_diff3; [reflexivity|vm_compute; tauto|apply c_u]]|].
  eexists. split; [reflexivity|]. split; vm_compute; reflexivity.
Qed.

Print Assumptions C112_same_term_1d.
Print Assumptions C112_same_term_3d.
Print Assumptions C112_fields_1d.
Print Assumptions C112_fields_3d.
Print Assumptions C112_nd_errors.
Print Assumptions C112_coefficients.
Print Assumptions C112_diff2_refuted.
Print Assumptions C112_div_refuted.
Print Assumptions C112_2d_edges_refuted.
Print Assumptions C112_2d_coordinate_refuted.
Print Assumptions C112_descending_refuted.
Print Assumptions C112_operators_refuted.
Print Assumptions C112_leaves_refuted.
