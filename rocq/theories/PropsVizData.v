(** Properties of the plotting data contracts: C79 (shapes and residuals) and
    C80 (slicing). *)
From Coq Require Import QArith List Bool Arith Lia ZArith.
From Verif Require Import VizData VizDataFacts.
Import ListNotations.
Local Open Scope nat_scope.

(** *** C79: what the containers accept, and what they then hold *)

(** ResidualPlotData.from_actual_predicted without coordinates: accepted
    exactly for equal shapes; then the residual at every index is actual
    minus predicted. *)
Theorem C79_residuals : forall a p,
  (shape a <> shape p -> residual_from a p None = VValueError) /\
  (shape a = shape p -> exists d, residual_from a p None = VOk d /\ r_actual d = a /\ r_predicted d = p /\ shape (r_residuals d) = shape a /\
     forall i, valid i (shape a) -> at_ (r_residuals d) i = (at_ a i - at_ p i)%Q).
Proof.
  intros a p. split.
  - intros N. unfold residual_from. destruct (sub a p) as [r|]; [|reflexivity]. unfold residual_init.
    destruct (shape_eqb (shape a) (shape p)) eqn:E; [apply shape_eqb_eq in E; congruence|reflexivity].
  - intros E. destruct (sub_same a p E) as (r & S & Sr & V). unfold residual_from. rewrite S. unfold residual_init. rewrite <- E, shape_eqb_refl, Sr, shape_eqb_refl. cbn.
    eexists. split; [reflexivity|]. cbn. repeat split; assumption.
Qed.
Definition ex_arr (s : list nat) (f : list nat -> Q) : arr := {| shape := s; at_ := f |}.
Example C79_residuals_ex :
  let a := ex_arr [2; 3] (fun i => inject_Z (Z.of_nat (10 * nth 0 i 0 + nth 1 i 0))) in
  let p := ex_arr [2; 3] (fun _ => 1%Q) in
  match residual_from a p None with VOk d => Qeq_bool (at_ (r_residuals d) [1; 2]) 11 = true | _ => False end
  /\ residual_from a (ex_arr [3] (fun _ => 1%Q)) None = VValueError.
Proof. split; reflexivity. Qed.

(** With coordinates: additionally one coordinate row per sample. *)
Theorem C79_residual_coordinates : forall a p c n s,
  shape a = n :: s -> shape p = n :: s ->
  (forall s', shape c = n :: s' -> exists d, residual_from a p (Some c) = VOk d /\ r_coords d = Some c) /\
  (forall m s', shape c = m :: s' -> m <> n -> residual_from a p (Some c) = VValueError) /\
  (shape c = [] -> residual_from a p (Some c) = VIndexError).
Proof.
  intros a p c n s Ea Ep. destruct (sub_same a p ltac:(congruence)) as (r & S & Sr & V). unfold residual_from. rewrite S. unfold residual_init.
  rewrite Sr, Ea, Ep, !shape_eqb_refl. cbn [negb]. split; [|split].
  - intros s' ->. rewrite Nat.eqb_refl. eexists. split; reflexivity.
  - intros m s' -> N. apply Nat.eqb_neq in N. now rewrite N.
  - intros ->. reflexivity.
Qed.

(** OptimizationHistoryData / RewardEvolutionData: accepted exactly when the
    main series and every optional series given have the shape of the steps,
    and then hold the series unchanged. *)
Theorem C79_history_series : forall steps main extra,
  series_init steps main extra = VOk (steps, main, extra) /\ shape main = shape steps /\ (forall a, In (Some a) extra -> shape a = shape steps)
  \/ series_init steps main extra = VValueError /\ (shape main <> shape steps \/ exists a, In (Some a) extra /\ shape a <> shape steps).
Proof.
  intros steps main extra. unfold series_init. destruct (shape_eqb (shape steps) (shape main)) eqn:E; cbn [negb].
  - apply shape_eqb_eq in E. destruct (forallb _ extra) eqn:F.
    + left. split; [reflexivity|]. split; [congruence|]. intros a I. rewrite forallb_forall in F. apply F in I. now apply shape_eqb_eq in I.
    + right. split; [reflexivity|]. right. rewrite <- not_true_iff_false, forallb_forall in F.
      induction extra as [|[a|] extra IH]; [exfalso; apply F; intros x []| |].
      * destruct (shape_eqb (shape a) (shape steps)) eqn:G.
        -- destruct IH as (b & I & N); [|exists b; split; [now right|exact N]]. intros X. apply F. intros x [<-|I]; [exact G|now apply X].
        -- exists a. split; [now left|]. intros X. rewrite X, shape_eqb_refl in G. discriminate.
      * destruct IH as (b & I & N); [|exists b; split; [now right|exact N]]. intros X. apply F. intros x [<-|I]; [reflexivity|now apply X].
  - right. split; [reflexivity|]. left. intros X. rewrite X, shape_eqb_refl in E. discriminate.
Qed.

(** ParityPlotData.from_actual_predicted: whatever is accepted, the three
    series are the flattened inputs and their elementwise difference, sample
    by sample. *)
Theorem C79_parity : forall a p x y r,
  parity_from a p = VOk (x, y, r) ->
  x = ravel a /\ y = ravel p /\ length x = length y /\ r = map (fun q => (fst q - snd q)%Q) (combine x y).
Proof.
  intros a p x y r H. unfold parity_from in H. destruct (sub a p) as [d|] eqn:S; [|discriminate]. unfold parity_init in H.
  destruct (Nat.eqb (length (ravel a)) (length (ravel p))) eqn:E1; [|discriminate]. destruct (Nat.eqb (length (ravel a)) (length (ravel d))) eqn:E2; [|discriminate].
  cbn [negb] in H. inversion H; subst. apply Nat.eqb_eq in E1, E2. split; [reflexivity|]. split; [reflexivity|]. split; [exact E1|].
  unfold sub in S. destruct (bshape (shape a) (shape p)) as [s|] eqn:B; [|discriminate]. inversion S; subst. clear S H.
  rewrite !ravel_length in E1, E2. unfold size in E2 at 2. cbn [shape] in E2. fold (prod s) in E2. unfold size in E1, E2. fold (prod (shape a)) (prod (shape p)) in *.
  destruct (Nat.eq_dec (prod s) 0) as [Z|Z].
  - assert (ravel a = []) as -> by (apply length_zero_iff_nil; rewrite ravel_length; unfold size; fold (prod (shape a)); lia).
    apply length_zero_iff_nil. rewrite ravel_length. exact Z.
  - assert (s = repeat 1 (length s - length (shape a)) ++ shape a) as Sa by (apply (bshape_same_size _ _ _ B); lia).
    assert (bshape (shape p) (shape a) = Some s) as B' by (unfold bshape in *; rewrite bshape_rev_comm; exact B).
    assert (s = repeat 1 (length s - length (shape p)) ++ shape p) as Sp by (apply (bshape_same_size _ _ _ B'); lia).
    unfold ravel at 1. cbn [shape at_].
    assert (map (fun i => at_ a (bidx (shape a) i)) (indices s) = ravel a) as Ra by (rewrite Sa; apply map_bidx_ones).
    assert (map (fun i => at_ p (bidx (shape p) i)) (indices s) = ravel p) as Rp by (rewrite Sp; apply map_bidx_ones).
    rewrite <- Ra, <- Rp. clear. induction (indices s) as [|i l IH]; [reflexivity|]. cbn. now rewrite IH.
Qed.
(** Equal shapes are always accepted; different numbers of values never. *)
Theorem C79_parity_accepts : forall a p,
  (shape a = shape p -> exists x y r, parity_from a p = VOk (x, y, r)) /\
  (size a <> size p -> parity_from a p = VValueError).
Proof.
  intros a p. split.
  - intros E. destruct (sub_same a p E) as (r & S & Sr & _). unfold parity_from. rewrite S. unfold parity_init. rewrite !ravel_length. unfold size. rewrite Sr, E, !Nat.eqb_refl. cbn. eauto.
  - intros N. unfold parity_from. destruct (sub a p); [|reflexivity]. unfold parity_init. rewrite !ravel_length. apply Nat.eqb_neq in N. now rewrite N.
Qed.
Example C79_parity_ex :
  let v := fun l => {| shape := [length l]; at_ := fun i => nth (hd 0 i) l 0%Q |} in
  parity_from (v [5; 7]%Q) (v [1; 2]%Q) = VOk ([5; 7]%Q, [1; 2]%Q, [5 - 1; 7 - 2]%Q)
  /\ parity_from {| shape := [1; 2]; at_ := fun i => nth (nth 1 i 0) [5; 7]%Q 0%Q |} (v [1; 2]%Q) = VOk ([5; 7]%Q, [1; 2]%Q, [5 - 1; 7 - 2]%Q).
Proof. split; reflexivity. Qed.
(** "Inputs are flattened first, so any two arrays with equally many values
    are accepted" is false: a column against a flat vector is rejected. *)
Theorem C79_parity_flattens_first_refuted : forall n a p, 2 <= n -> shape a = [n; 1] -> shape p = [n] ->
  length (ravel a) = length (ravel p) /\ parity_from a p = VValueError.
Proof.
  intros n a p H Ea Ep. split; [rewrite !ravel_length; unfold size; rewrite Ea, Ep; cbn; lia|].
  unfold parity_from, sub. rewrite Ea, Ep. unfold bshape. cbn [rev app bshape_rev]. assert (Nat.eqb 1 n = false) as -> by (apply Nat.eqb_neq; lia). cbn [Nat.eqb].
  cbn [rev app]. unfold parity_init. rewrite !ravel_length. unfold size. cbn [shape]. rewrite Ea, Ep. cbn [fold_right]. rewrite !Nat.mul_1_r, Nat.eqb_refl. cbn [negb].
  assert (Nat.eqb n (n * n) = false) as -> by (apply Nat.eqb_neq; nia). reflexivity.
Qed.

(** FieldComparisonData: accepted exactly when both fields (and a given
    residual) have the shape (sizes of the spatial axes, number of times);
    without a given residual it is true minus predicted everywhere; without
    coordinates the constructor raises TypeError. *)
Theorem C79_field_comparison : forall sp t tf pf rf md,
  let ok := shape tf = expected_shape sp t /\ shape pf = expected_shape sp t /\ (forall r, rf = Some r -> shape r = expected_shape sp t) in
  (ok -> exists d, field_init sp t tf pf rf md = VOk d /\ spatial d = sp /\ t_coords d = t /\ true_f d = tf /\ pred_f d = pf /\
     metadata d = (match md with Some m => m | None => [] end) /\ field_wf d /\
     (forall r, rf = Some r -> resid_f d = r) /\
     (rf = None -> forall i, valid i (shape tf) -> at_ (resid_f d) i = (at_ tf i - at_ pf i)%Q)) /\
  (~ ok -> field_init sp t tf pf rf md = VValueError).
Proof.
  intros sp t tf pf rf md ok. split.
  - intros (E1 & E2 & E3). unfold field_init. rewrite E1, E2, !shape_eqb_refl. cbn [negb]. destruct rf as [r|].
    + rewrite (E3 r eq_refl), shape_eqb_refl. cbn [negb]. eexists. split; [reflexivity|]. cbn. do 5 (split; [reflexivity|]).
      split; [split; [exact E1|split; [exact E2|now apply E3]]|]. split; [intros q Q; now inversion Q|discriminate].
    + destruct (sub_same tf pf ltac:(congruence)) as (r & S & Sr & V). rewrite S. eexists. split; [reflexivity|]. cbn. do 5 (split; [reflexivity|]).
      split; [split; [exact E1|split; [exact E2|cbn [resid_f]; rewrite Sr; exact E1]]|]. split; [discriminate|]. rewrite <- E1. intros _ i Hi. apply V. exact Hi.
  - intros N. unfold field_init. destruct (shape_eqb (shape tf) (shape pf)) eqn:A; [apply shape_eqb_eq in A|reflexivity]. cbn [negb].
    destruct (shape_eqb (shape tf) (expected_shape sp t)) eqn:B; [apply shape_eqb_eq in B|reflexivity]. cbn [negb].
    destruct rf as [r|]; [|exfalso; apply N; split; [exact B|split; [congruence|discriminate]]].
    destruct (shape_eqb (shape r) (expected_shape sp t)) eqn:C; [apply shape_eqb_eq in C|reflexivity].
    exfalso. apply N. split; [exact B|]. split; [congruence|]. intros q Q. now inversion Q; subst.
Qed.
(** Coordinates may be one array (one axis), a list of arrays (one axis each)
    or a flat list of numbers (one axis); [x_coords] is only used when
    [spatial_coords] is absent. *)
Theorem C79_coordinate_forms : forall t tf pf rf md,
  field_new None None t tf pf rf md = VTypeError /\
  (forall a x, field_new (Some (CArr a)) x t tf pf rf md = field_init [a] t tf pf rf md) /\
  (forall a, field_new None (Some (CArr a)) t tf pf rf md = field_init [a] t tf pf rf md) /\
  (forall a l x, field_new (Some (CList (map CSeq (a :: l)))) x t tf pf rf md = field_init (a :: l) t tf pf rf md) /\
  (forall l x, exists v, field_new (Some (CList (map CNum l))) x t tf pf rf md = field_init [v] t tf pf rf md /\ ravel v = l).
Proof.
  intros t tf pf rf md. split; [reflexivity|]. split; [reflexivity|]. split; [reflexivity|]. split.
  - intros a l x. unfold field_new, normalize_spatial_coords. cbn [map]. rewrite map_map. now rewrite map_id.
  - intros l x. exists (vector l). assert (normalize_spatial_coords (CList (map CNum l)) = VOk [vector l]) as E.
    { unfold normalize_spatial_coords. assert (numbers (map CNum l) = Some l) as N by (induction l as [|q l IH]; cbn; [reflexivity|now rewrite IH]).
      destruct l as [|q l]; [reflexivity|]. cbn [map]. change (CNum q :: map CNum l) with (map CNum (q :: l)). now rewrite N. }
    split; [unfold field_new; now rewrite E|]. unfold ravel, vector. cbn [shape indices at_].
    assert (forall s, flat_map (fun i : nat => map (cons i) [[]]) s = map (fun i => [i]) s) as M by (induction s as [|i s IH]; [reflexivity|cbn in *; now rewrite IH]).
    rewrite M, map_map. cbn [hd]. clear. 
    assert (forall (l p : list Q), map (fun x => nth x (p ++ l) 0%Q) (seq (length p) (length l)) = l) as G.
    { clear. induction l as [|q l IH]; intros p; [reflexivity|]. cbn [length seq map]. rewrite app_nth2, Nat.sub_diag by lia. cbn [nth]. f_equal.
      specialize (IH (p ++ [q])). rewrite app_length, <- app_assoc in IH. cbn in IH. rewrite Nat.add_1_r in IH. exact IH. }
    exact (G l []).
Qed.

(** TimeSliceComparisonData: with consistent shapes, accepted exactly when
    there is a time and every requested slice time lies between the smallest
    and the largest of them. *)
Lemma qmin_le x l : (qmin x l <= x)%Q /\ forall y, In y l -> (qmin x l <= y)%Q.
Proof.
  revert x. induction l as [|z l IH]; intros x; cbn; [split; [apply Qle_refl|tauto]|]. destruct (IH (if Qle_bool x z then x else z)) as [A B].
  destruct (Qle_bool x z) eqn:E.
  - apply Qle_bool_iff in E. split; [exact A|]. intros y [<-|I]; [eapply Qle_trans; eassumption|now apply B].
  - assert (z <= x)%Q by (apply Qlt_le_weak, Qnot_le_lt; intros X; apply Qle_bool_iff in X; congruence). split; [eapply Qle_trans; eassumption|]. intros y [<-|I]; [exact A|now apply B].
Qed.
Lemma qmin_in x l : In (qmin x l) (x :: l).
Proof. revert x. induction l as [|z l IH]; intros x; cbn; [now left|]. destruct (Qle_bool x z); [destruct (IH x); auto|destruct (IH z); auto]. Qed.
Lemma qmax_ge x l : (x <= qmax x l)%Q /\ forall y, In y l -> (y <= qmax x l)%Q.
Proof.
  revert x. induction l as [|z l IH]; intros x; cbn; [split; [apply Qle_refl|tauto]|]. destruct (IH (if Qle_bool x z then z else x)) as [A B].
  destruct (Qle_bool x z) eqn:E.
  - apply Qle_bool_iff in E. split; [eapply Qle_trans; eassumption|]. intros y [<-|I]; [exact A|now apply B].
  - assert (z <= x)%Q by (apply Qlt_le_weak, Qnot_le_lt; intros X; apply Qle_bool_iff in X; congruence). split; [exact A|]. intros y [<-|I]; [eapply Qle_trans; eassumption|now apply B].
Qed.
Lemma qmax_in x l : In (qmax x l) (x :: l).
Proof. revert x. induction l as [|z l IH]; intros x; cbn; [now left|]. destruct (Qle_bool x z); [destruct (IH z); auto|destruct (IH x); auto]. Qed.
Theorem C79_time_slices : forall sp t tf pf st,
  shape tf = expected_shape sp t -> shape pf = expected_shape sp t ->
  let inside := exists lo hi, In lo (ravel t) /\ In hi (ravel t) /\ forall q, In q (ravel st) -> (lo <= q)%Q /\ (q <= hi)%Q in
  (inside -> time_slice_init sp t tf pf st = VOk (sp, t, tf, pf, st)) /\
  (~ inside -> time_slice_init sp t tf pf st = VValueError).
Proof.
  intros sp t tf pf st E1 E2 inside. unfold time_slice_init. rewrite E1, E2, !shape_eqb_refl. cbn [negb].
  destruct (ravel t) as [|x r] eqn:R.
  - split; [|reflexivity]. intros (lo & hi & [] & _).
  - destruct (existsb (fun q => negb (Qle_bool (qmin x r) q)) (ravel st) || existsb (fun q => negb (Qle_bool q (qmax x r))) (ravel st)) eqn:B.
    + split; [|reflexivity]. intros (lo & hi & L & H & A). exfalso. apply orb_prop in B as [B|B]; apply existsb_exists in B as (q & I & N); apply negb_true_iff in N; rewrite <- not_true_iff_false, Qle_bool_iff in N; apply N; destruct (A q I) as [Lq Hq].
      * eapply Qle_trans; [|exact Lq]. destruct (qmin_le x r) as [M1 M2]. destruct L as [<-|L]; auto.
      * eapply Qle_trans; [exact Hq|]. destruct (qmax_ge x r) as [M1 M2]. destruct H as [<-|H]; auto.
    + split; [reflexivity|]. intros N. exfalso. apply N. exists (qmin x r), (qmax x r). split; [apply qmin_in|]. split; [apply qmax_in|].
      apply orb_false_iff in B as [B1 B2]. intros q I. split; apply Qle_bool_iff; apply not_false_iff_true; intros X.
      * apply not_true_iff_false in B1. apply B1. apply existsb_exists. exists q. split; [exact I|now rewrite X].
      * apply not_true_iff_false in B2. apply B2. apply existsb_exists. exists q. split; [exact I|now rewrite X].
Qed.
Example C79_time_slices_ex :
  let v := fun l => {| shape := [length l]; at_ := fun i => nth (hd 0 i) l 0%Q |} in
  let f := {| shape := [2; 3]; at_ := fun _ => 0%Q |} in
  time_slice_init [v [0; 1]%Q] (v [0; 1; 2]%Q) f f (v [1 # 2; 2]%Q) <> VValueError
  /\ time_slice_init [v [0; 1]%Q] (v [0; 1; 2]%Q) f f (v [3]%Q) = VValueError.
Proof. split; [discriminate|reflexivity]. Qed.

(** TermRelationshipData: accepted exactly for at least one term, all of the
    length of the left-hand side; the values held are the flattened inputs. *)
Theorem C79_term_relationship : forall lhs terms,
  ((terms <> [] /\ Forall (fun t => size t = size lhs) terms) -> term_relationship_init lhs terms = VOk (ravel lhs, map ravel terms)) /\
  (~ (terms <> [] /\ Forall (fun t => size t = size lhs) terms) -> term_relationship_init lhs terms = VValueError).
Proof.
  intros lhs terms. unfold term_relationship_init.
  assert (forallb (fun t => Nat.eqb (length (ravel t)) (length (ravel lhs))) terms = true <-> Forall (fun t => size t = size lhs) terms) as F.
  { rewrite forallb_forall, Forall_forall. setoid_rewrite Nat.eqb_eq. setoid_rewrite ravel_length. reflexivity. }
  destruct terms as [|t ts]; [split; [intros [X _]; congruence|reflexivity]|]. destruct (forallb _ (t :: ts)).
  - split; [reflexivity|]. intros N. exfalso. apply N. split; [discriminate|now apply F].
  - split; [|reflexivity]. intros [_ X]. apply F in X. discriminate.
Qed.

(** *** C80: slice_3d_to_2d *)

(** Which axis and index are used: in-range requests literally, negative axes
    from the end, everything else clamped. *)
Theorem C80_clamping : forall n sa sz i,
  0 < n -> 0 < sz ->
  ((0 <= sa < Z.of_nat n)%Z -> axis_of n sa = Z.to_nat sa) /\
  ((- Z.of_nat n <= sa < 0)%Z -> Z.of_nat (axis_of n sa) = (Z.of_nat n + sa)%Z) /\
  ((sa >= Z.of_nat n)%Z -> axis_of n sa = n - 1) /\ ((sa < - Z.of_nat n)%Z -> axis_of n sa = 0) /\
  ((0 <= i < Z.of_nat sz)%Z -> index_of sz (Some i) = Z.to_nat i) /\
  ((i < 0)%Z -> index_of sz (Some i) = 0) /\ ((i >= Z.of_nat sz)%Z -> index_of sz (Some i) = sz - 1) /\
  index_of sz None = sz / 2.
Proof.
  intros n sa sz i Hn Hs. unfold axis_of, index_of, clamp. assert (sz / 2 < sz) by (apply Nat.div_lt; lia).
  destruct (Z.ltb_spec sa 0); repeat split; intros; try lia.
Qed.

(** Three or more spatial axes, the sliced ones nonempty: the result has the
    first two axes that remain after removing the requested one, the same
    times, and every value of the true, predicted and residual fields is the
    original value at the requested index, midpoints on the other dropped
    axes.  One or two axes: unchanged. *)
Theorem C80_slice_values : forall d sa si c1 c2 extra,
  field_wf d -> let n := length (spatial d) in let ax := axis_of n sa in
  remove_at ax (spatial d) = c1 :: c2 :: extra ->
  0 < size (nth ax (spatial d) dflt) -> Forall (fun c => 0 < size c) extra ->
  exists d', slice_3d_to_2d d sa si = VOk d' /\ field_wf d' /\ spatial d' = [c1; c2] /\ t_coords d' = t_coords d /\
    forall x y t,
      let idx := insert_at ax (index_of (size (nth ax (spatial d) dflt)) si) ([x; y] ++ map (fun c => size c / 2) extra ++ [t]) in
      at_ (true_f d') [x; y; t] = at_ (true_f d) idx /\ at_ (pred_f d') [x; y; t] = at_ (pred_f d) idx /\ at_ (resid_f d') [x; y; t] = at_ (resid_f d) idx.
Proof.
  intros d sa si c1 c2 extra W n ax R Hsz F.
  assert (0 < n) as Hn0. { subst n. destruct (spatial d); [|cbn; lia]. cbn in R. destruct ax; discriminate R. }
  assert (ax < n) as Hax by (apply clamp_lt; exact Hn0).
  assert (n = S (S (S (length extra)))) as Ln. { pose proof (remove_at_length ax (spatial d) Hax) as L. rewrite R in L. cbn in L. fold n in L. lia. }
  destruct (slice_step_ok d sa si W Hn0 Hsz) as (d1 & E1 & W1 & S1 & T1 & M1 & A1). fold n in S1, A1. fold ax in S1, A1. rewrite R in S1.
  destruct (loop_tail extra (S (S (length extra))) d1 c1 c2 W1 S1 ltac:(lia) F) as (d2 & E2 & W2 & S2 & T2 & _ & _ & A2).
  exists d2. split; [|split; [exact W2|split; [exact S2|split; [congruence|]]]].
  - unfold slice_3d_to_2d. fold n. rewrite Ln. cbn [slice_loop]. fold n. rewrite Ln. cbn [Nat.leb]. rewrite E1. exact E2.
  - intros x y t. cbv zeta. specialize (A2 x y t). cbv zeta in A2. destruct A2 as (B1 & B2 & B3). rewrite B1, B2, B3. apply A1.
Qed.
Example C80_slice_values_ex :
  let v := fun n => {| shape := [n]; at_ := fun i => inject_Z (Z.of_nat (hd 0 i)) |} in
  let f := {| shape := [2; 3; 5; 4]; at_ := fun i => inject_Z (Z.of_nat (nth 0 i 0 * 1000 + nth 1 i 0 * 100 + nth 2 i 0 * 10 + nth 3 i 0)) |} in
  let d := {| spatial := [v 2; v 3; v 5]; t_coords := v 4; true_f := f; pred_f := f; resid_f := f; metadata := [(1, 2)] |} in
  field_wf d /\ axis_of 3 (-1) = 2 /\
  match slice_3d_to_2d d (-1) None with VOk r => at_ (true_f r) [1; 2; 3] = inject_Z 1223 /\ map shape (spatial r) = [[2]; [3]] | _ => False end /\
  match slice_3d_to_2d d 0 (Some 7%Z) with VOk r => at_ (true_f r) [1; 2; 3] = inject_Z 1123 /\ map shape (spatial r) = [[3]; [5]] | _ => False end.
Proof. repeat split. Qed.

(** Fewer than three axes: returned as it is. *)
Theorem C80_slice_identity : forall d sa si, length (spatial d) <= 2 -> slice_3d_to_2d d sa si = VOk d.
Proof. intros d sa si H. unfold slice_3d_to_2d. apply Nat.leb_le in H. destruct (length (spatial d)) eqn:E; cbn [slice_loop]; rewrite E in *; rewrite H; reflexivity. Qed.

(** An empty axis cannot be sliced: IndexError, whatever was asked. *)
Theorem C80_empty_axis : forall d sa si, field_wf d -> 3 <= length (spatial d) ->
  size (nth (axis_of (length (spatial d)) sa) (spatial d) dflt) = 0 -> slice_3d_to_2d d sa si = VIndexError.
Proof.
  intros d sa si (W & _) H Z. unfold slice_3d_to_2d. destruct (length (spatial d)) as [|n] eqn:E; [lia|]. cbn [slice_loop]. rewrite E. destruct (Nat.leb_spec (S n) 2); [lia|].
  unfold slice_step. rewrite E. fold (axis_of (S n) sa). set (ax := axis_of (S n) sa) in *. fold dflt. rewrite Z.
  assert (ax < length (spatial d)) as Hax by (rewrite E; apply clamp_lt; lia).
  set (ix := clamp _ _). unfold take at 1. rewrite W. unfold expected_shape. rewrite (nth_shape _ _ _ dflt Hax), Z. cbn [Nat.ltb Nat.leb]. reflexivity.
Qed.

(** "The sliced data keep the metadata" is false. *)
Theorem C80_metadata_kept_refuted : exists d d', field_wf d /\ metadata d <> [] /\ slice_3d_to_2d d (-1) None = VOk d' /\ metadata d' = [].
Proof.
  exists {| spatial := [vector [0%Q]; vector [0%Q]; vector [0%Q]]; t_coords := vector [0%Q]; true_f := {| shape := [1;1;1;1]; at_ := fun _ => 0%Q |};
    pred_f := {| shape := [1;1;1;1]; at_ := fun _ => 0%Q |}; resid_f := {| shape := [1;1;1;1]; at_ := fun _ => 0%Q |}; metadata := [(1, 2)] |}.
  eexists. split; [repeat split|]. split; [discriminate|]. split; [reflexivity|]. reflexivity.
Qed.
Print Assumptions C79_residuals.
Print Assumptions C79_residual_coordinates.
Print Assumptions C79_history_series.
Print Assumptions C79_parity.
Print Assumptions C79_parity_accepts.
Print Assumptions C79_parity_flattens_first_refuted.
Print Assumptions C79_field_comparison.
Print Assumptions C79_coordinate_forms.
Print Assumptions C79_time_slices.
Print Assumptions C79_term_relationship.
Print Assumptions C80_clamping.
Print Assumptions C80_slice_values.
Print Assumptions C80_slice_identity.
Print Assumptions C80_empty_axis.
Print Assumptions C80_metadata_kept_refuted.
