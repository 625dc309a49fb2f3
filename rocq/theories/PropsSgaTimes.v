(** C93: the time slices of an SGA plot. *)
From Coq Require Import QArith Qabs List Bool Arith Lia ZArith Lqa Sorted.
From Verif Require Import VizData VizDataFacts TimePick TimePickFacts SgaPlot.
Import ListNotations.
Local Open Scope nat_scope.

(** What a request asks for on the grid [t]: a request before the first time asks for the first time, one
    after the last time for the last, any other for itself. *)
Definition asks (t : list Q) (r v : Q) : Prop :=
  exists lo hi, In lo t /\ In hi t /\ (forall x, In x t -> lo <= x /\ x <= hi)%Q /\
    ((r <= lo)%Q /\ (v == lo)%Q \/ (hi <= r)%Q /\ (v == hi)%Q \/ (lo <= r)%Q /\ (r <= hi)%Q /\ (v == r)%Q).

(** The requests of a plot: those of the user; every grid time for an empty list; without a list,
    [max 1 count] times spread evenly from the first to the last grid time. *)
Definition evenly (t : list Q) (n : nat) (l : list Q) : Prop :=
  exists lo hi, In lo t /\ In hi t /\ (forall x, In x t -> lo <= x /\ x <= hi)%Q /\ length l = n /\
    forall i x, nth_error l i = Some x -> (x * inject_Z (Z.of_nat (n - 1)) == lo * inject_Z (Z.of_nat (n - 1)) + inject_Z (Z.of_nat i) * (hi - lo) /\ (n = 1%nat -> x == lo))%Q.


Lemma times_case t slices count idx times raw :
  resolve_time_indices t slices count = Some (idx, times, raw) ->
  exists t0 tr, t = t0 :: tr /\ raw = raw_requests t0 tr slices count /\
    let req := unique (map (clip (qmin t0 tr) (qmax t0 tr)) raw) in
    length idx = length req /\ length times = length req /\
    forall k v, nth_error req k = Some v -> exists i x, nth_error idx k = Some i /\ nearest_index t v i /\ nth_error t i = Some x /\ nth_error times k = Some x.
Proof.
  destruct t as [|t0 tr]; cbn [resolve_time_indices]; [discriminate|]. remember (nearest (t0 :: tr)) as f eqn:Ef. intros E. injection E as <- <- <-.
  exists t0, tr. split; [reflexivity|]. split; [reflexivity|]. cbv zeta. set (req := unique _). rewrite !map_length. split; [reflexivity|]. split; [reflexivity|].
  intros k v H. destruct (nearest_some (t0 :: tr) v ltac:(discriminate)) as (i & Hi).
  exists i. pose proof Hi as Hn. apply nearest_spec in Hn. destruct Hn as (x & Hx & R). exists x.
  rewrite <- Ef in Hi. rewrite !nth_error_map, H. cbn [option_map]. rewrite Hi. split; [reflexivity|]. split; [exists x; auto|]. split; [exact Hx|]. f_equal. exact (nth_error_nth _ _ 0%Q Hx).
Qed.
Lemma lo_hi t0 tr : forall x, In x (t0 :: tr) -> (qmin t0 tr <= x /\ x <= qmax t0 tr)%Q.
Proof. intros x H. destruct (qmin_le t0 tr) as [A B], (qmax_ge t0 tr) as [C D]. destruct H as [<-|H]; auto. Qed.
Lemma lo_le_hi t0 tr : (qmin t0 tr <= qmax t0 tr)%Q.
Proof. destruct (lo_hi t0 tr t0 ltac:(now left)). lra. Qed.
Lemma asks_clip t0 tr r : asks (t0 :: tr) r (clip (qmin t0 tr) (qmax t0 tr) r).
Proof.
  exists (qmin t0 tr), (qmax t0 tr). split; [apply qmin_in|]. split; [apply qmax_in|]. split; [apply lo_hi|].
  destruct (clip_cases _ _ r (lo_le_hi t0 tr)) as [H|[H|(A & B & ->)]]; auto. right. right. repeat split; auto; reflexivity.
Qed.
Lemma asks_fun t r v w : asks t r v -> asks t r w -> (v == w)%Q.
Proof.
  intros (lo & hi & L & H & B & C) (lo' & hi' & L' & H' & B' & C').
  assert (lo == lo')%Q by (destruct (B _ L'), (B' _ L); lra). assert (hi == hi')%Q by (destruct (B _ H'), (B' _ H); lra).
  destruct (B _ H) as [X _].
  destruct C as [[? ?]|[[? ?]|(? & ? & ?)]], C' as [[? ?]|[[? ?]|(? & ? & ?)]]; lra.
Qed.

(** Every request is shown: some panel draws the grid time nearest to what the request asks for (the first
    such index when two are equally near). *)
Theorem C93_every_request_shown t slices count idx times raw r v :
  resolve_time_indices t slices count = Some (idx, times, raw) -> In r raw -> asks t r v ->
  exists k i, nth_error idx k = Some i /\ nearest_index t v i.
Proof.
  intros E I A. destruct (times_case _ _ _ _ _ _ E) as (t0 & tr & -> & _ & _ & _ & T).
  destruct (unique_has (map (clip (qmin t0 tr) (qmax t0 tr)) raw) (clip (qmin t0 tr) (qmax t0 tr) r)) as (w & Hw & Ew); [apply in_map; exact I|].
  apply In_nth_error in Hw as (k & Hk). destruct (T k w Hk) as (i & x & Hi & N & _). exists k, i. split; [exact Hi|].
  eapply nearest_index_eq; [|exact N]. rewrite Ew. eapply asks_fun; [apply asks_clip|exact A].
Qed.
(** Every panel is asked for, and carries the time it draws. *)
Theorem C93_every_panel_requested t slices count idx times raw :
  resolve_time_indices t slices count = Some (idx, times, raw) ->
  length idx = length times /\ length idx <= length raw /\
  forall k i, nth_error idx k = Some i -> exists r v x, In r raw /\ asks t r v /\ nearest_index t v i /\ nth_error t i = Some x /\ nth_error times k = Some x.
Proof.
  intros E. destruct (times_case _ _ _ _ _ _ E) as (t0 & tr & -> & _ & L1 & L2 & T). cbv zeta in *. split; [congruence|]. split.
  - rewrite L1. rewrite <- (map_length (clip (qmin t0 tr) (qmax t0 tr)) raw). clear. induction (map _ raw) as [|x l IH]; [cbn; lia|]. cbn [unique fold_right length]. fold (unique l).
    assert (U : forall x l, length (uinsert x l) <= S (length l)).
    { clear. intros x l. induction l as [|z l IH]; cbn; [lia|]. destruct (Qeq_bool x z); cbn; [lia|]. destruct (Qle_bool x z); cbn; lia. }
    specialize (U x (unique l)). lia.
  - intros k i H. assert (k < length idx) as Hk by (apply nth_error_Some; congruence). rewrite L1 in Hk.
    destruct (nth_error (unique (map (clip (qmin t0 tr) (qmax t0 tr)) raw)) k) as [v|] eqn:Ev; [|apply nth_error_None in Ev; lia].
    destruct (T k v Ev) as (i' & x & Hi & N & Hx & Ht). assert (i' = i) by congruence. subst i'.
    pose proof (nth_error_In _ _ Ev) as I. apply unique_sub in I. apply in_map_iff in I as (r & <- & I).
    exists r, (clip (qmin t0 tr) (qmax t0 tr) r), x. split; [exact I|]. split; [apply asks_clip|]. auto.
Qed.
(** The panels are in order of time. *)
Theorem C93_ordered t slices count idx times raw :
  resolve_time_indices t slices count = Some (idx, times, raw) ->
  forall k l x y, k <= l -> nth_error times k = Some x -> nth_error times l = Some y -> (x <= y)%Q.
Proof.
  intros E k l x y Hkl Hx Hy. destruct (times_case _ _ _ _ _ _ E) as (t0 & tr & -> & _ & L1 & L2 & T). cbv zeta in *.
  set (req := unique _) in *.
  assert (k < length times) by (apply nth_error_Some; congruence). assert (l < length times) by (apply nth_error_Some; congruence).
  destruct (nth_error req k) as [v|] eqn:Ev; [|apply nth_error_None in Ev; lia].
  destruct (nth_error req l) as [w|] eqn:Ew; [|apply nth_error_None in Ew; lia].
  destruct (T k v Ev) as (i & x' & _ & Ni & Tx & Hx'). destruct (T l w Ew) as (j & y' & _ & Nj & Ty & Hy').
  assert (x' = x) by congruence. assert (y' = y) by congruence. subst x' y'.
  eapply nearest_mono; [|exact Ni|exact Nj|exact Tx|exact Ty].
  assert (S : forall (q : list Q) k l v w, StronglySorted Qlt q -> k <= l -> nth_error q k = Some v -> nth_error q l = Some w -> (v <= w)%Q).
  { clear. intros q k l v w S. revert k l. induction S as [|a q S IH F]; intros k l H Hv Hw; [destruct k; discriminate|].
    destruct k as [|k], l as [|l]; cbn in *; [| |lia|].
    - injection Hv as ->. injection Hw as ->. lra.
    - injection Hv as ->. rewrite Forall_forall in F. specialize (F w (nth_error_In _ _ Hw)). lra.
    - eapply IH; [|exact Hv|exact Hw]. lia. }
  eapply S; [apply unique_sorted|exact Hkl|exact Ev|exact Ew].
Qed.
(** The requests are the user's, all grid times for an empty list, or evenly spread ones; there is always a
    panel, and the only failure is an empty grid. *)
Theorem C93_requests t slices count :
  (t = [] <-> resolve_time_indices t slices count = None) /\
  forall idx times raw, resolve_time_indices t slices count = Some (idx, times, raw) ->
    idx <> [] /\
    match slices with
    | Some [] => raw = t
    | Some l => raw = l
    | None => evenly t (Z.to_nat (Z.max 1 count)) raw
    end.
Proof.
  split; [destruct t; split; cbn; congruence|]. intros idx times raw E. destruct (times_case _ _ _ _ _ _ E) as (t0 & tr & -> & -> & L1 & L2 & T). cbv zeta in *.
  assert (R : match slices with
    | Some [] => raw_requests t0 tr slices count = t0 :: tr
    | Some l => raw_requests t0 tr slices count = l
    | None => evenly (t0 :: tr) (Z.to_nat (Z.max 1 count)) (raw_requests t0 tr slices count)
    end).
  { destruct slices as [[|s l]|]; try reflexivity. cbn [raw_requests].
    assert (Hn : 1 <= Z.to_nat (Z.max 1 count)) by lia. set (n := Z.to_nat (Z.max 1 count)) in *.
    exists (qmin t0 tr), (qmax t0 tr). split; [apply qmin_in|]. split; [apply qmax_in|]. split; [apply lo_hi|]. split; [apply linspace_length; exact Hn|].
    intros i x Hx. destruct n as [|[|n]]; [lia| |].
    - cbn in Hx. destruct i as [|i]; [injection Hx as <-|destruct i; discriminate]. split; [|intros _; reflexivity]. change (inject_Z (Z.of_nat (1 - 1))) with 0%Q. change (inject_Z (Z.of_nat 0)) with 0%Q. ring.
    - split; [|lia]. unfold linspace in Hx. rewrite nth_error_map in Hx.
      assert (Hi : i < S (S n)). { destruct (nth_error (seq 0 (S (S n))) i) eqn:Q; [|discriminate]. assert (i < length (seq 0 (S (S n)))) by (apply nth_error_Some; congruence). rewrite seq_length in *. assumption. }
      rewrite (nth_error_nth' _ 0) in Hx by (rewrite seq_length; exact Hi). rewrite seq_nth in Hx by exact Hi. cbn [option_map Nat.add] in Hx.
      injection Hx as <-. replace (Z.of_nat (S (S n)) - 1)%Z with (Z.of_nat (S n)) by lia. replace (S (S n) - 1) with (S n) by lia.
      field. intros X. unfold Qeq in X. cbn in X. lia. }
  split; [|exact R]. intros ->. cbn in L1. 
  assert (I : exists r, In r (raw_requests t0 tr slices count)).
  { destruct slices as [[|s l]|]; [exists t0; now left|exists s; now left|].
    destruct (linspace_first (qmin t0 tr) (qmax t0 tr) (Z.to_nat (Z.max 1 count)) ltac:(lia)) as (x & Hx & _). exists x. apply nth_error_In in Hx. exact Hx. }
  destruct I as (r & I). destruct (unique_has _ _ (in_map (clip (qmin t0 tr) (qmax t0 tr)) _ _ I)) as (w & W & _).
  destruct (unique (map (clip (qmin t0 tr) (qmax t0 tr)) (raw_requests t0 tr slices count))); [destruct W|discriminate].
Qed.
(** Every panel of the plot draws both fields at the time in its title, and the container never rejects the
    times: with consistent fields the plot fails only for an empty time grid. *)
Theorem C93_panels d slices count :
  shape (true_f d) = expected_shape (spatial d) (t_coords d) -> shape (pred_f d) = expected_shape (spatial d) (t_coords d) ->
  (ravel (t_coords d) = [] -> time_slices d slices count = VValueError) /\
  (ravel (t_coords d) <> [] -> exists ps s, time_slices d slices count = VOk (ps, s) /\ ps <> [] /\
     (forall p, In p ps -> nth_error (ravel (t_coords d)) (drawn p) = Some (title p)) /\
     exists idx times raw, resolve_time_indices (ravel (t_coords d)) slices count = Some (idx, times, raw) /\ map drawn ps = idx /\ map title ps = times /\
     ravel (snd s) = times).
Proof.
  intros E1 E2. unfold time_slices. destruct (resolve_time_indices (ravel (t_coords d)) slices count) as [[[idx times] raw]|] eqn:R.
  - destruct (C93_requests (ravel (t_coords d)) slices count) as [_ Q]. destruct (Q _ _ _ R) as [Ne _].
    destruct (C93_every_panel_requested _ _ _ _ _ _ R) as (L & _ & P).
    split; [intros X; rewrite X in R; discriminate|]. intros _.
    assert (A : time_slice_init (spatial d) (t_coords d) (true_f d) (pred_f d) (vector times) = VOk (spatial d, t_coords d, true_f d, pred_f d, vector times)).
    { unfold time_slice_init. rewrite E1, E2, !shape_eqb_refl. cbn [negb]. destruct (ravel (t_coords d)) as [|x r] eqn:V; [discriminate|].
      rewrite ravel_vector.
      assert (B : forall q, In q times -> In q (x :: r)).
      { intros q I. apply In_nth_error in I as (k & Hk). assert (k < length idx) as Hl by (rewrite L; apply nth_error_Some; congruence).
        destruct (nth_error idx k) as [i|] eqn:Ei; [|apply nth_error_None in Ei; lia].
        destruct (P k i Ei) as (_ & _ & y & _ & _ & _ & Hy & Hk'). assert (y = q) by congruence. subst y. apply nth_error_In in Hy. exact Hy. }
      assert (existsb (fun q => negb (Qle_bool (qmin x r) q)) times = false) as ->.
      { apply not_true_iff_false. intros X. apply existsb_exists in X as (q & I & N). apply B in I. destruct (lo_hi x r q I) as [U _]. apply Qle_bool_iff in U. rewrite U in N. discriminate. }
      assert (existsb (fun q => negb (Qle_bool q (qmax x r))) times = false) as ->; [|reflexivity].
      apply not_true_iff_false. intros X. apply existsb_exists in X as (q & I & N). apply B in I. destruct (lo_hi x r q I) as [_ U]. apply Qle_bool_iff in U. rewrite U in N. discriminate. }
    rewrite A. eexists _, _. split; [reflexivity|].
    assert (M1 : map drawn (map (fun p => mkPanel (snd p) (fst p)) (combine idx times)) = idx).
    { rewrite map_map. cbn [drawn]. clear - L. revert times L. induction idx as [|i idx IH]; intros [|x times] L; cbn in *; try lia; [reflexivity|]. f_equal. apply IH. lia. }
    assert (M2 : map title (map (fun p => mkPanel (snd p) (fst p)) (combine idx times)) = times).
    { rewrite map_map. cbn [title]. clear - L. revert times L. induction idx as [|i idx IH]; intros [|x times] L; cbn in *; try lia; [reflexivity|]. f_equal. apply IH. lia. }
    split; [intros X; rewrite X in M1; cbn in M1; congruence|]. split.
    + intros p I. apply In_nth_error in I as (k & Hk).
      assert (Hd : nth_error idx k = Some (drawn p)) by (rewrite <- M1, nth_error_map, Hk; reflexivity).
      assert (Ht : nth_error times k = Some (title p)) by (rewrite <- M2, nth_error_map, Hk; reflexivity).
      destruct (P _ _ Hd) as (_ & _ & y & _ & _ & _ & Hy & Hk'). congruence.
    + exists idx, times, raw. split; [reflexivity|]. split; [exact M1|]. split; [exact M2|]. cbn [snd]. apply ravel_vector.
  - split; [reflexivity|]. intros X. destruct (C93_requests (ravel (t_coords d)) slices count) as [[_ Q] _]. specialize (Q R). congruence.
Qed.

(** Without requests the first and the last grid time are shown. *)
Theorem C93_default_ends t count idx times raw : (2 <= count)%Z ->
  resolve_time_indices t None count = Some (idx, times, raw) ->
  exists a b, In a times /\ In b times /\ forall x, In x t -> (a <= x /\ x <= b)%Q.
Proof.
  intros Hc E. destruct (C93_requests t None count) as [_ Q]. destruct (Q _ _ _ E) as [_ _].
  destruct (times_case _ _ _ _ _ _ E) as (t0 & tr & -> & Er & _).
  cbn [raw_requests] in Er. set (n := Z.to_nat (Z.max 1 count)) in *.
  destruct (linspace_first (qmin t0 tr) (qmax t0 tr) n ltac:(subst n; lia)) as (x & Hx & Ex).
  destruct (linspace_last (qmin t0 tr) (qmax t0 tr) n ltac:(subst n; lia)) as (y & Hy & Ey).
  rewrite <- Er in Hx, Hy. apply nth_error_In in Hx, Hy.
  assert (End : forall r e, In r raw -> In e (t0 :: tr) -> (e == r)%Q -> exists a, In a times /\ (a == e)%Q).
  { intros r e I Ie Ee. pose proof (asks_clip t0 tr r) as A. destruct (C93_every_request_shown _ _ _ _ _ _ r _ E I A) as (k & i & Hi & (z & Hz & Hle & _)).
    destruct (C93_every_panel_requested _ _ _ _ _ _ E) as (_ & _ & P). destruct (P k i Hi) as (_ & _ & z' & _ & _ & _ & Hz' & Ht).
    assert (z' = z) by congruence. subst z'. exists z. split; [apply nth_error_In in Ht; exact Ht|].
    apply In_nth_error in Ie as (j & Hj). specialize (Hle j e Hj).
    assert (C : (clip (qmin t0 tr) (qmax t0 tr) r == e)%Q).
    { destruct (lo_hi t0 tr e (nth_error_In _ _ Hj)). destruct (clip_cases _ _ r (lo_le_hi t0 tr)) as [[? ->]|[[? ->]|(_ & _ & ->)]]; lra. }
    rewrite C in Hle. assert (Qabs (e - e) == 0)%Q as Z by (setoid_replace (e - e)%Q with 0%Q by ring; reflexivity). rewrite Z in Hle.
    revert Hle. apply (Qabs_case (z - e)); intros; lra. }
  destruct (End x (qmin t0 tr) Hx (qmin_in _ _) ltac:(symmetry; exact Ex)) as (a & Ha & Ea).
  destruct (End y (qmax t0 tr) Hy (qmax_in _ _) ltac:(symmetry; exact Ey)) as (b & Hb & Eb).
  exists a, b. split; [exact Ha|]. split; [exact Hb|]. intros z Hz. destruct (lo_hi t0 tr z Hz). lra.
Qed.

(** "The panels show different times" is false: two requests between the same two grid times give the same
    panel twice. *)
Theorem C93_distinct_panels_refuted :
  ~ (forall t slices count idx times raw, resolve_time_indices t slices count = Some (idx, times, raw) -> NoDup idx).
Proof.
  intros H. assert (E : resolve_time_indices [0; 1]%Q (Some [1 # 10; 2 # 10]%Q) 3 = Some ([0; 0], [0; 0]%Q, [1 # 10; 2 # 10]%Q)) by (vm_compute; reflexivity).
  specialize (H _ _ _ _ _ _ E). inversion H as [|? ? N _]. apply N. now left.
Qed.
(** "The k-th shown time belongs to the k-th request of the report" is false: the requests are reported in
    the user's order, the shown times in increasing order. *)
Theorem C93_report_aligned_refuted :
  ~ (forall t l count idx times raw, resolve_time_indices t (Some l) count = Some (idx, times, raw) ->
     length times = length raw /\ forall k r x, nth_error raw k = Some r -> nth_error times k = Some x -> exists i, nearest_index t r i /\ nth_error t i = Some x).
Proof.
  intros H. assert (E : resolve_time_indices [0; 1]%Q (Some [1; 0]%Q) 3 = Some ([0; 1], [0; 1]%Q, [1; 0]%Q)) by (vm_compute; reflexivity).
  destruct (H _ _ _ _ _ _ E) as [_ G]. destruct (G 0 1%Q 0%Q eq_refl eq_refl) as (i & N & Hi).
  destruct N as (x & Hx & Hle & _). rewrite Hi in Hx. injection Hx as <-. specialize (Hle 1 1%Q eq_refl). vm_compute in Hle. apply Hle. reflexivity.
Qed.

Example C93_meets :
  resolve_time_indices [0; 1; 2; 3; 4]%Q (Some [7; 11 # 5; 1 # 2; -3]%Q) 3 = Some ([0; 0; 2; 4], [0; 0; 2; 4]%Q, [7; 11 # 5; 1 # 2; -3]%Q) /\
  resolve_time_indices [0; 1; 2; 3; 4]%Q None 3 = Some ([0; 2; 4], [0; 2; 4]%Q, linspace 0 4 3) /\
  asks [0; 1; 2; 3; 4]%Q 7 4.
Proof.
  split; [vm_compute; reflexivity|]. split; [vm_compute; reflexivity|]. exists 0%Q, 4%Q. split; [now left|]. split; [cbn; auto 10|]. split.
  - intros x Hx. repeat destruct Hx as [<-|Hx]; [split; lra ..|destruct Hx].
  - right. left. split; lra.
Qed.
Print Assumptions C93_every_request_shown.
Print Assumptions C93_every_panel_requested.
Print Assumptions C93_ordered.
Print Assumptions C93_requests.
Print Assumptions C93_panels.
Print Assumptions C93_default_ends.
Print Assumptions C93_distinct_panels_refuted.
Print Assumptions C93_report_aligned_refuted.
