(** Finite differences: C25. *)
From Coq Require Import QArith Lqa Qfield.
From Verif Require Import Base FiniteDiff.
Local Open Scope nat_scope.

Lemma nth_mapseq (f : nat -> Q) n i : i < n -> nth i (map f (seq 0 n)) 0%Q = f i.
Proof. intros H. rewrite nth_indep with (d' := f 0) by (rewrite map_length, seq_length; exact H). rewrite map_nth, seq_nth by exact H. reflexivity. Qed.
Lemma sampled_length c x0 dx n : List.length (sampled c x0 dx n) = n.
Proof. unfold sampled. rewrite map_length, seq_length. reflexivity. Qed.
Lemma nth_sampled c x0 dx n i : i < n -> nth i (sampled c x0 dx n) 0%Q = peval c (node x0 dx i).
Proof. apply (nth_mapseq (fun i => peval c (node x0 dx i))). Qed.
Lemma ends_length n l r m : List.length (ends n l r m) = n.
Proof. unfold ends. rewrite map_length, seq_length. reflexivity. Qed.
Lemma nth_ends n l r m i : i < n -> nth i (ends n l r m) 0%Q = if Nat.eqb i 0 then l else if Nat.eqb i (n - 1) then r else m i.
Proof. apply (nth_mapseq (fun i => if Nat.eqb i 0 then l else if Nat.eqb i (n - 1) then r else m i)). Qed.
Lemma nth_inner n m i : i < n -> nth i (inner n m) 0%Q = if Nat.leb 2 i && Nat.ltb i (n - 2) then m i else 0%Q.
Proof. apply (nth_mapseq (fun i => if Nat.leb 2 i && Nat.ltb i (n - 2) then m i else 0%Q)). Qed.
Lemma peval_comp c x y : (x == y)%Q -> (peval c x == peval c y)%Q.
Proof. intros H. induction c; cbn [peval]; [reflexivity|]. apply Qplus_comp; [reflexivity|]. apply Qmult_comp; [exact H|exact IHc]. Qed.
Lemma node_shift x0 dx i k j : j = i + k -> (node x0 dx j == node x0 dx i + inject_Z (Z.of_nat k) * dx)%Q.
Proof. intros ->. unfold node. rewrite Nat2Z.inj_add, inject_Z_plus. ring. Qed.
Lemma node_back x0 dx i k j : i = j + k -> (node x0 dx j == node x0 dx i - inject_Z (Z.of_nat k) * dx)%Q.
Proof. intros ->. unfold node. rewrite Nat2Z.inj_add, inject_Z_plus. ring. Qed.
(** replace the samples around node i by the polynomial at x + k dx *)
Ltac fwd i k j := rewrite (peval_comp _ _ _ (node_shift _ _ i k j ltac:(lia))).
Ltac bwd i k j := rewrite (peval_comp _ _ _ (node_back _ _ i k j ltac:(lia))).
Lemma pos_ne (q : Q) : (0 < q)%Q -> ~ (q == 0)%Q.
Proof. intros H E. rewrite E in H. apply (Qlt_irrefl 0 H). Qed.
Ltac coefs c L := destruct c as [|?c0 [|?c1 [|?c2 [|?c3 [|?c4 [|?c5 [|?c6 ?c]]]]]]]; cbn [List.length] in L; try lia.
Ltac finish_poly X :=
  generalize X; intros x;
  repeat match goal with |- context [inject_Z (Z.of_nat ?k)] => let v := eval vm_compute in (inject_Z (Z.of_nat k)) in change (inject_Z (Z.of_nat k)) with v end;
  cbn [peval pderiv pderiv_from];
  repeat match goal with |- context [inject_Z (Z.of_nat ?k)] => let v := eval vm_compute in (inject_Z (Z.of_nat k)) in change (inject_Z (Z.of_nat k)) with v end;
  field; auto.

Section Exact.
Variables (c : list Q) (x0 dx : Q) (n : nat).
Hypothesis Hdx : ~ (dx == 0)%Q.
Local Notation u := (sampled c x0 dx n).
Local Notation X i := (node x0 dx i).

Lemma d1_mid_exact i : List.length c <= 3 -> 0 < i -> i + 1 < n -> (d1_mid u dx i == peval (pderiv c) (X i))%Q.
Proof.
  intros L H1 H2. unfold d1_mid. rewrite !nth_sampled by lia. fwd i 1 (i + 1). bwd i 1 (i - 1).
  coefs c L; finish_poly (X i).
Qed.
Lemma d1_left_exact : List.length c <= 3 -> 3 <= n -> (d1_left u dx == peval (pderiv c) (X 0))%Q.
Proof. intros L H. unfold d1_left. rewrite !nth_sampled by lia. fwd 0 1 1. fwd 0 2 2. coefs c L; finish_poly (X 0). Qed.
Lemma d1_left_same v : (d1_left' v dx == d1_left v dx)%Q.
Proof. unfold d1_left, d1_left'. field. exact Hdx. Qed.
Lemma d1_right_same v : (d1_right' v dx == d1_right v dx)%Q.
Proof. unfold d1_right, d1_right'. field. exact Hdx. Qed.
Lemma d1_right_exact : List.length c <= 3 -> 3 <= n -> (d1_right u dx == peval (pderiv c) (X (n - 1)))%Q.
Proof.
  intros L H. unfold d1_right. rewrite sampled_length. rewrite !nth_sampled by lia. bwd (n - 1) 1 (n - 2). bwd (n - 1) 2 (n - 3).
  coefs c L; finish_poly (X (n - 1)).
Qed.
Lemma d2_mid_exact i : List.length c <= 4 -> 0 < i -> i + 1 < n -> (d2_mid u dx i == peval (pderiv (pderiv c)) (X i))%Q.
Proof.
  intros L H1 H2. unfold d2_mid. rewrite !nth_sampled by lia. fwd i 1 (i + 1). bwd i 1 (i - 1). coefs c L; finish_poly (X i).
Qed.
Lemma d2_left_exact : List.length c <= 4 -> 4 <= n -> (d2_left u dx == peval (pderiv (pderiv c)) (X 0))%Q.
Proof. intros L H. unfold d2_left. rewrite !nth_sampled by lia. fwd 0 1 1. fwd 0 2 2. fwd 0 3 3. coefs c L; finish_poly (X 0). Qed.
Lemma d2_right_exact : List.length c <= 4 -> 4 <= n -> (d2_right u dx == peval (pderiv (pderiv c)) (X (n - 1)))%Q.
Proof.
  intros L H. unfold d2_right. rewrite sampled_length. rewrite !nth_sampled by lia. bwd (n - 1) 1 (n - 2). bwd (n - 1) 2 (n - 3). bwd (n - 1) 3 (n - 4).
  coefs c L; finish_poly (X (n - 1)).
Qed.
Lemma d3_mid_minus i : List.length c <= 5 -> 1 < i -> i + 2 < n -> (d3_mid u dx i == - peval (pderiv (pderiv (pderiv c))) (X i))%Q.
Proof.
  intros L H1 H2. unfold d3_mid. rewrite !nth_sampled by lia. fwd i 1 (i + 1). bwd i 1 (i - 1). fwd i 2 (i + 2). bwd i 2 (i - 2). coefs c L; finish_poly (X i).
Qed.
Lemma d4_mid_exact i : List.length c <= 6 -> 1 < i -> i + 2 < n -> (d4_mid u dx i == peval (pderiv (pderiv (pderiv (pderiv c)))) (X i))%Q.
Proof.
  intros L H1 H2. unfold d4_mid. rewrite !nth_sampled by lia. fwd i 1 (i + 1). bwd i 1 (i - 1). fwd i 2 (i + 2). bwd i 2 (i - 2). coefs c L; finish_poly (X i).
Qed.
End Exact.

Definition combo (a b : Q) (u v : list Q) : list Q := map (fun p => (a * fst p + b * snd p)%Q) (combine u v).
Lemma combo_length a b u v : List.length u = List.length v -> List.length (combo a b u v) = List.length u.
Proof. intros H. unfold combo. rewrite map_length, combine_length. lia. Qed.
Lemma nth_combo a b : forall u v i, List.length u = List.length v -> (nth i (combo a b u v) 0 == a * nth i u 0 + b * nth i v 0)%Q.
Proof.
  unfold combo. induction u as [|x u IH]; intros [|y v] i L; cbn [List.length] in L; try discriminate; destruct i as [|i]; cbn [combine map nth fst snd]; try ring.
  apply IH. lia.
Qed.

(** *** C25 *)
(** kd.utils.FiniteDiff, first derivative: exact on quadratics at every node, ends included. *)
Theorem C25_order1 c x0 dx n : List.length c <= 3 -> 3 <= n -> ~ (dx == 0)%Q ->
  exists r, finite_diff (sampled c x0 dx n) dx 1 = Ok r /\ List.length r = n /\ agrees r (pderiv c) x0 dx 0 n.
Proof.
  intros L H D. cbn. rewrite sampled_length. destruct (Nat.ltb_spec n 3); [lia|]. eexists. split; [reflexivity|]. split; [apply ends_length|].
  intros i Hi. rewrite nth_ends by lia. destruct (Nat.eqb_spec i 0) as [->|]; [apply d1_left_exact; auto|].
  destruct (Nat.eqb_spec i (n - 1)) as [->|]; [apply d1_right_exact; auto|]. apply d1_mid_exact; auto; lia.
Qed.
(** Second derivative: exact on cubics at every node. *)
Theorem C25_order2 c x0 dx n : List.length c <= 4 -> 4 <= n -> ~ (dx == 0)%Q ->
  exists r, finite_diff (sampled c x0 dx n) dx 2 = Ok r /\ List.length r = n /\ agrees r (pderiv (pderiv c)) x0 dx 0 n.
Proof.
  intros L H D. cbn. rewrite sampled_length. destruct (Nat.ltb_spec n 4); [lia|]. eexists. split; [reflexivity|]. split; [apply ends_length|].
  intros i Hi. rewrite nth_ends by lia. destruct (Nat.eqb_spec i 0) as [->|]; [apply d2_left_exact; auto|].
  destruct (Nat.eqb_spec i (n - 1)) as [->|]; [apply d2_right_exact; auto|]. apply d2_mid_exact; auto; lia.
Qed.
(** Third derivative: what comes back inside is the derivative with the wrong sign. *)
Theorem C25_order3_refuted c x0 dx n : List.length c <= 5 -> ~ (dx == 0)%Q ->
  exists r, finite_diff (sampled c x0 dx n) dx 3 = Ok r /\
  forall i, 2 <= i -> i + 2 < n -> (nth i r 0 == - peval (pderiv (pderiv (pderiv c))) (node x0 dx i))%Q.
Proof.
  intros L D. cbn. rewrite sampled_length. eexists. split; [reflexivity|]. intros i H1 H2. rewrite nth_inner by lia.
  rewrite (proj2 (Nat.leb_le 2 i)) by lia. rewrite (proj2 (Nat.ltb_lt i (n - 2))) by lia. cbn [andb]. apply d3_mid_minus; auto; lia.
Qed.
(** so the third derivative of x^3 is returned as -6 *)
Theorem C25_cube_refuted : exists r, finite_diff (sampled [0; 0; 0; 1]%Q 0 1 5) 1 3 = Ok r /\ (nth 2 r 0 == -6)%Q /\
  (peval (pderiv (pderiv (pderiv [0; 0; 0; 1]))) (node 0 1 2) == 6)%Q.
Proof. eexists. split; [reflexivity|]. split; reflexivity. Qed.
(** Fourth derivative: exact on quintics at the inner nodes; the two nodes at either end get 0. *)
Theorem C25_order4 c x0 dx n : List.length c <= 6 -> ~ (dx == 0)%Q ->
  exists r, finite_diff (sampled c x0 dx n) dx 4 = Ok r /\ List.length r = n /\
  agrees r (pderiv (pderiv (pderiv (pderiv c)))) x0 dx 2 (n - 2) /\
  forall i, i < n -> i < 2 \/ n - 2 <= i -> nth i r 0%Q = 0%Q.
Proof.
  intros L D. cbn. rewrite sampled_length. eexists. split; [reflexivity|]. split; [unfold inner; rewrite map_length, seq_length; reflexivity|]. split.
  - intros i Hi. rewrite nth_inner by lia.
    rewrite (proj2 (Nat.leb_le 2 i)) by lia. rewrite (proj2 (Nat.ltb_lt i (n - 2))) by lia. cbn [andb]. apply d4_mid_exact; auto; lia.
  - intros i Hi H. rewrite nth_inner by lia. destruct (Nat.leb_spec 2 i), (Nat.ltb_spec i (n - 2)); cbn; auto; lia.
Qed.
(** Any other order gives zeros instead of an error. *)
Theorem C25_other_orders_refuted u dx k : k = 0 \/ 5 <= k -> finite_diff u dx k = Ok (repeat 0%Q (List.length u)).
Proof. intros H. destruct k as [|[|[|[|[|k]]]]]; try lia; reflexivity. Qed.
(** Linear in the data, for every order. *)
Theorem C25_linear u v a b dx k ru rv : List.length u = List.length v -> finite_diff u dx k = Ok ru -> finite_diff v dx k = Ok rv -> ~ (dx == 0)%Q ->
  exists r, finite_diff (combo a b u v) dx k = Ok r /\ forall i, (nth i r 0 == a * nth i ru 0 + b * nth i rv 0)%Q.
Proof.
  intros L Hu Hv D. pose proof (combo_length a b u v L) as Lc.
  assert (N : forall i, (nth i (combo a b u v) 0 == a * nth i u 0 + b * nth i v 0)%Q) by (intros i; apply nth_combo; exact L).
  assert (OUT : forall i (w : list Q), List.length w <= i -> nth i w 0%Q = 0%Q) by (intros; apply nth_overflow; assumption).
  destruct k as [|[|[|[|[|k]]]]]; cbn [finite_diff] in *; rewrite Lc in *; rewrite <- L in Hv.
  all: try (injection Hu as <-; injection Hv as <-).
  1, 6: eexists; split; [reflexivity|]; intros i; destruct (Nat.lt_ge_cases i (List.length u)) as [Hi|Hi];
       [rewrite !nth_repeat|rewrite !OUT by (rewrite repeat_length; exact Hi)]; ring.
  1, 2: destruct (Nat.ltb (List.length u) _); [discriminate|]; injection Hu as <-; injection Hv as <-; eexists; split; [reflexivity|];
       intros i; destruct (Nat.lt_ge_cases i (List.length u)) as [Hi|Hi];
       [rewrite !nth_ends by exact Hi|rewrite !OUT by (rewrite ends_length; exact Hi); ring];
       destruct (Nat.eqb i 0); [unfold d1_left, d2_left; rewrite !N; field; exact D|];
       destruct (Nat.eqb i _); [unfold d1_right, d2_right; rewrite Lc, <- L, !N; field; exact D|unfold d1_mid, d2_mid; rewrite !N; field; exact D].
  all: eexists; split; [reflexivity|]; intros i; destruct (Nat.lt_ge_cases i (List.length u)) as [Hi|Hi];
       [rewrite !nth_inner by exact Hi|rewrite !OUT by (unfold inner; rewrite map_length, seq_length; exact Hi); ring];
       destruct (_ && _); [unfold d3_mid, d4_mid; rewrite !N; field; exact D|ring].
Qed.
(** Too few points raise. *)
Theorem C25_short u dx : (List.length u < 3 -> finite_diff u dx 1 = Err IndexError /\ sga_diff u dx = Err ValueError /\ disc_diff u dx = Err IndexError) /\
  (List.length u < 4 -> finite_diff u dx 2 = Err IndexError /\ sga_diff2 u dx = Err ValueError /\ disc_diff2 u dx = Err IndexError).
Proof.
  split; intros H; unfold finite_diff, sga_diff, disc_diff, sga_diff2, disc_diff2.
  - apply Nat.ltb_lt in H. rewrite H. auto.
  - apply Nat.ltb_lt in H. rewrite H. auto.
Qed.
Lemma sga_diff_exact c x0 dx n : List.length c <= 3 -> 3 <= n -> ~ (dx == 0)%Q ->
  agrees (ends n (d1_left' (sampled c x0 dx n) dx) (d1_right' (sampled c x0 dx n) dx) (d1_mid (sampled c x0 dx n) dx)) (pderiv c) x0 dx 0 n.
Proof.
  intros L H D i Hi. rewrite nth_ends by lia. destruct (Nat.eqb_spec i 0) as [->|]; [rewrite d1_left_same by exact D; apply d1_left_exact; auto|].
  destruct (Nat.eqb_spec i (n - 1)) as [->|]; [rewrite d1_right_same by exact D; apply d1_right_exact; auto|]. apply d1_mid_exact; auto; lia.
Qed.
Lemma diff2_exact c x0 dx n : List.length c <= 4 -> 4 <= n -> ~ (dx == 0)%Q ->
  agrees (ends n (d2_left (sampled c x0 dx n) dx) (d2_right (sampled c x0 dx n) dx) (d2_mid (sampled c x0 dx n) dx)) (pderiv (pderiv c)) x0 dx 0 n.
Proof.
  intros L H D i Hi. rewrite nth_ends by lia. destruct (Nat.eqb_spec i 0) as [->|]; [apply d2_left_exact; auto|].
  destruct (Nat.eqb_spec i (n - 1)) as [->|]; [apply d2_right_exact; auto|]. apply d2_mid_exact; auto; lia.
Qed.
(** Diff and Diff2 of SGA on N-dimensional arrays: if along the axis the array is a quadratic
    (cubic) whose coefficients depend on the other coordinates, the entry at every index is the
    partial derivative there. *)
Theorem C25_sga_axis shape ax idx (coef : list nat -> list Q) x0 dx u : ax < List.length shape -> nth ax idx 0 < nth ax shape 0 -> ~ (dx == 0)%Q ->
  (forall j, u (put_at idx ax j) = peval (coef idx) (node x0 dx j)) ->
  (List.length (coef idx) <= 3 -> 3 <= nth ax shape 0 ->
     exists q, along sga_diff shape u dx ax idx = Ok q /\ (q == peval (pderiv (coef idx)) (node x0 dx (nth ax idx 0%nat)))%Q) /\
  (List.length (coef idx) <= 4 -> 4 <= nth ax shape 0 ->
     exists q, along sga_diff2 shape u dx ax idx = Ok q /\ (q == peval (pderiv (pderiv (coef idx))) (node x0 dx (nth ax idx 0%nat)))%Q).
Proof.
  intros Ha Hi D Hu. unfold along. rewrite (proj2 (Nat.ltb_lt ax (List.length shape)) Ha).
  assert (E : line shape u ax idx = sampled (coef idx) x0 dx (nth ax shape 0)).
  { unfold line, sampled. apply map_ext. exact Hu. }
  rewrite E. split; intros L H.
  - unfold sga_diff. rewrite sampled_length. destruct (Nat.ltb_spec (nth ax shape 0) 3); [lia|]. cbn [bind]. eexists. split; [reflexivity|]. apply sga_diff_exact; auto. lia.
  - unfold sga_diff2. rewrite sampled_length. destruct (Nat.ltb_spec (nth ax shape 0) 4); [lia|]. cbn [bind]. eexists. split; [reflexivity|]. apply diff2_exact; auto. lia.
Qed.
(** DISCOVER: Diff and Diff2 likewise; Diff3 is exact on cubics everywhere. *)
Lemma agrees_sampled r c x0 dx n : List.length r = n -> agrees r c x0 dx 0 n -> Forall2 Qeq r (sampled c x0 dx n).
Proof.
  intros L H. assert (X : forall a b, List.length a = List.length b -> (forall i, i < List.length a -> (nth i a 0 == nth i b 0)%Q) -> Forall2 Qeq a b).
  { induction a as [|x a IH]; intros [|y b] La Ha; cbn in *; try discriminate; constructor; [apply (Ha 0); lia|]. apply IH; [lia|]. intros i Hi. apply (Ha (S i)). lia. }
  apply X; [rewrite sampled_length; exact L|]. rewrite L. intros i Hi. rewrite nth_sampled by exact Hi. apply H. lia.
Qed.
Lemma nth_F2 : forall a b, Forall2 Qeq a b -> forall i, (nth i a 0 == nth i b 0)%Q.
Proof. induction 1; intros [|i]; cbn [nth]; try reflexivity; auto. Qed.
Lemma F2_len (a b : list Q) : Forall2 Qeq a b -> List.length a = List.length b.
Proof. induction 1; cbn; congruence. Qed.
Lemma disc_diff_ext a b dx ra : Forall2 Qeq a b -> ~ (dx == 0)%Q -> disc_diff a dx = Ok ra -> exists rb, disc_diff b dx = Ok rb /\ forall i, (nth i ra 0 == nth i rb 0)%Q.
Proof.
  intros F D H. pose proof (F2_len _ _ F) as L. pose proof (nth_F2 _ _ F) as N. unfold disc_diff in *. rewrite <- L. destruct (Nat.ltb _ 3); [discriminate|]. injection H as <-.
  eexists. split; [reflexivity|]. intros i. destruct (Nat.lt_ge_cases i (List.length a)) as [Hi|Hi]; [|rewrite !nth_overflow by (rewrite ends_length; lia); reflexivity].
  rewrite !nth_ends by exact Hi. destruct (Nat.eqb i 0); [unfold d1_left'; rewrite !N; reflexivity|].
  destruct (Nat.eqb i _); [unfold d1_right'; rewrite <- L, !N; reflexivity|unfold d1_mid; rewrite !N; reflexivity].
Qed.
Lemma disc_diff2_ext a b dx ra : Forall2 Qeq a b -> ~ (dx == 0)%Q -> disc_diff2 a dx = Ok ra -> exists rb, disc_diff2 b dx = Ok rb /\ forall i, (nth i ra 0 == nth i rb 0)%Q.
Proof.
  intros F D H. pose proof (F2_len _ _ F) as L. pose proof (nth_F2 _ _ F) as N. unfold disc_diff2 in *. rewrite <- L. destruct (Nat.ltb _ 4); [discriminate|]. injection H as <-.
  eexists. split; [reflexivity|]. intros i. destruct (Nat.lt_ge_cases i (List.length a)) as [Hi|Hi]; [|rewrite !nth_overflow by (rewrite ends_length; lia); reflexivity].
  rewrite !nth_ends by exact Hi. destruct (Nat.eqb i 0); [unfold d2_left; rewrite !N; reflexivity|].
  destruct (Nat.eqb i _); [unfold d2_right; rewrite <- L, !N; reflexivity|unfold d2_mid; rewrite !N; reflexivity].
Qed.
Lemma pderiv_from_length k c : List.length (pderiv_from k c) = List.length c.
Proof. revert k. induction c; intros k; cbn; auto. Qed.
Lemma pderiv_length c : List.length (pderiv c) = List.length c - 1.
Proof. destruct c; cbn; [reflexivity|]. rewrite pderiv_from_length. lia. Qed.
Theorem C25_discover c x0 dx n : 4 <= n -> ~ (dx == 0)%Q ->
  (List.length c <= 3 -> exists r, disc_diff (sampled c x0 dx n) dx = Ok r /\ agrees r (pderiv c) x0 dx 0 n) /\
  (List.length c <= 4 -> exists r, disc_diff2 (sampled c x0 dx n) dx = Ok r /\ agrees r (pderiv (pderiv c)) x0 dx 0 n) /\
  (List.length c <= 4 -> exists r, disc_diff3 (sampled c x0 dx n) dx = Ok r /\ agrees r (pderiv (pderiv (pderiv c))) x0 dx 0 n) /\
  (List.length c <= 4 -> exists r, disc_diff4 (sampled c x0 dx n) dx = Ok r /\ agrees r (pderiv (pderiv (pderiv (pderiv c)))) x0 dx 0 n).
Proof.
  intros Hn D.
  assert (A1 : forall c, List.length c <= 3 -> exists r, disc_diff (sampled c x0 dx n) dx = Ok r /\ List.length r = n /\ agrees r (pderiv c) x0 dx 0 n).
  { intros c' L. unfold disc_diff. rewrite sampled_length. destruct (Nat.ltb_spec n 3); [lia|]. eexists. split; [reflexivity|]. split; [apply ends_length|]. apply sga_diff_exact; auto; lia. }
  assert (A2 : forall c, List.length c <= 4 -> exists r, disc_diff2 (sampled c x0 dx n) dx = Ok r /\ List.length r = n /\ agrees r (pderiv (pderiv c)) x0 dx 0 n).
  { intros c' L. unfold disc_diff2. rewrite sampled_length. destruct (Nat.ltb_spec n 4); [lia|]. eexists. split; [reflexivity|]. split; [apply ends_length|]. apply diff2_exact; auto; lia. }
  assert (SYM : forall a b, Forall2 Qeq a b -> Forall2 Qeq b a) by (induction 1; constructor; auto; symmetry; auto).
  split; [intros L; destruct (A1 c L) as (r & E & _ & A); eauto|]. split; [intros L; destruct (A2 c L) as (r & E & _ & A); eauto|]. split; intros L.
  - destruct (A2 c L) as (v & Ev & Lv & Av). unfold disc_diff3. rewrite Ev. cbn [bind].
    destruct (A1 (pderiv (pderiv c))) as (r & Er & Lr & Ar); [rewrite !pderiv_length; lia|].
    destruct (disc_diff_ext _ v dx r (SYM _ _ (agrees_sampled _ _ _ _ _ Lv Av)) D Er) as (r' & Er' & N).
    exists r'. split; [exact Er'|]. intros i Hi. rewrite <- N. apply Ar. exact Hi.
  - destruct (A2 c L) as (v & Ev & Lv & Av). unfold disc_diff4. rewrite Ev. cbn [bind].
    destruct (A2 (pderiv (pderiv c))) as (r & Er & Lr & Ar); [rewrite !pderiv_length; lia|].
    destruct (disc_diff2_ext _ v dx r (SYM _ _ (agrees_sampled _ _ _ _ _ Lv Av)) D Er) as (r' & Er' & N).
    exists r'. split; [exact Er'|]. intros i Hi. rewrite <- N. apply Ar. exact Hi.
Qed.
(** Two space dimensions: Diff_2 and Diff2_2 wrap around at the ends.  That is right exactly for
    periodic data; x itself gets the slope (1 - (n-1))/2 at the left end. *)
Theorem C25_wrap_refuted : exists u, u = sampled [0; 1]%Q 0 1 5 /\ (nth 0 (wrap_diff u 1) 0 == - (3 # 2))%Q /\ (nth 2 (wrap_diff u 1) 0 == 1)%Q.
Proof. eexists. split; [reflexivity|]. split; reflexivity. Qed.
(** Inside they are exact on quadratics (cubics), and on periodic data (entry i - n = entry i)
    every entry is the central difference. *)
Theorem C25_wrap_inside c x0 dx n i : 0 < i -> i + 1 < n -> ~ (dx == 0)%Q ->
  (List.length c <= 3 -> (nth i (wrap_diff (sampled c x0 dx n) dx) 0 == peval (pderiv c) (node x0 dx i))%Q) /\
  (List.length c <= 4 -> (nth i (wrap_diff2 (sampled c x0 dx n) dx) 0 == peval (pderiv (pderiv c)) (node x0 dx i))%Q).
Proof.
  intros H1 H2 D. unfold wrap_diff, wrap_diff2. rewrite sampled_length, !nth_ends by lia.
  destruct (Nat.eqb_spec i 0); [lia|]. destruct (Nat.eqb_spec i (n - 1)); [lia|]. split; intros L.
  - rewrite <- (d1_mid_exact c x0 dx n D i L H1 H2). unfold d1_mid. field. exact D.
  - apply d2_mid_exact; auto.
Qed.
Theorem C25_wrap_periodic u dx i : 2 <= List.length u -> i < List.length u -> ~ (dx == 0)%Q ->
  let n := List.length u in let next := nth ((i + 1) mod n) u 0%Q in let prev := nth ((i + n - 1) mod n) u 0%Q in
  (nth i (wrap_diff u dx) 0 == (next - prev) / (2 * dx))%Q /\
  (nth i (wrap_diff2 u dx) 0 == (next - 2 * nth i u 0 + prev) / (dx * dx))%Q.
Proof.
  intros Hn Hi D. cbv zeta. unfold wrap_diff, wrap_diff2. rewrite !nth_ends by exact Hi. set (n := List.length u) in *.
  destruct (Nat.eqb_spec i 0) as [->|H0].
  - rewrite (Nat.mod_small (0 + 1)) by lia. rewrite (Nat.mod_small (0 + n - 1)) by lia. replace (0 + n - 1) with (n - 1) by lia. cbn [Nat.add].
    split; field; exact D.
  - replace ((i + n - 1) mod n) with (i - 1) by (replace (i + n - 1) with (i - 1 + 1 * n) by lia; rewrite Nat.mod_add by lia; symmetry; apply Nat.mod_small; lia).
    destruct (Nat.eqb_spec i (n - 1)) as [->|H1].
    + replace ((n - 1 + 1) mod n) with 0 by (replace (n - 1 + 1) with (0 + 1 * n) by lia; rewrite Nat.mod_add by lia; symmetry; apply Nat.mod_small; lia).
      replace (n - 1 - 1) with (n - 2) by lia. split; field; exact D.
    + rewrite (Nat.mod_small (i + 1)) by lia. unfold d2_mid. split; field; exact D.
Qed.
Print Assumptions C25_order1.
Print Assumptions C25_order2.
Print Assumptions C25_order3_refuted.
Print Assumptions C25_cube_refuted.
Print Assumptions C25_order4.
Print Assumptions C25_other_orders_refuted.
Print Assumptions C25_linear.
Print Assumptions C25_short.
Print Assumptions C25_sga_axis.
Print Assumptions C25_discover.
Print Assumptions C25_wrap_refuted.
Print Assumptions C25_wrap_inside.
Print Assumptions C25_wrap_periodic.
Example C25_example : exists r, finite_diff [1; 0; 1; 4; 9]%Q 1 1 = Ok r /\ Forall2 Qeq r [-2; 0; 2; 4; 6]%Q /\ sampled [1; -2; 1]%Q 0 1 5 = map Qred (sampled [1; -2; 1]%Q 0 1 5).
Proof. eexists. split; [reflexivity|]. split; [repeat constructor|reflexivity]. Qed.
Example C25_axis_example : exists q, along sga_diff [2; 3] (fun idx => match idx with [a; b] => inject_Z (Z.of_nat (a + b * b)) | _ => 0%Q end) 1 1 [1; 2] = Ok q /\ (q == 4)%Q.
Proof. eexists. split; [reflexivity|]. reflexivity. Qed.
