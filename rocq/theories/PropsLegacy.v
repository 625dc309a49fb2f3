(** C140 (FiniteDifferenceOperator). *)
From Coq Require Import QArith.
From Verif Require Import Base FiniteDiff PropsFD Legacy.
Local Open Scope nat_scope.

Lemma put_length h l a : List.length (put h l a) = List.length h.
Proof. revert l. induction h; intros [|l]; cbn; auto. Qed.
Lemma get_put_same h l a : l < List.length h -> get (put h l a) l = a.
Proof. unfold get. revert l. induction h; intros [|l] H; cbn in *; try lia; auto. apply IHh. lia. Qed.
Lemma get_put_other h l m a : l <> m -> get (put h l a) m = get h m.
Proof. unfold get. revert l m. induction h; intros [|l] [|m] H; cbn; auto; try lia. Qed.
Lemma get_app_old h a l : l < List.length h -> get (h ++ [a]) l = get h l.
Proof. intros. unfold get. rewrite app_nth1; auto. Qed.
Lemma get_app_new h a : get (h ++ [a]) (List.length h) = a.
Proof. unfold get. rewrite app_nth2 by lia. rewrite Nat.sub_diag. reflexivity. Qed.

Definition D1 (t : dtype) (n : nat) (dx : Q) (c : list Q) : list Q := map (keep t) (ends n (d1_left' c dx) (d1_right' c dx) (d1_mid c dx)).
Definition D2 (t : dtype) (n : nat) (dx : Q) (c : list Q) : list Q := map (keep t) (ends n (d2_left c dx) (d2_right c dx) (d2_mid c dx)).
(** ** Specification *)
(** an operator in a heap: input and buffer are different arrays there, of the same element type *)
Definition operator_ok (h : heap) (o : fdo) : Prop :=
  o_u o < List.length h /\ o_ux o < List.length h /\ o_u o <> o_ux o /\ m_ty (get h (o_ux o)) = m_ty (get h (o_u o)).
(** all arrays but the operator's buffer are as before *)
Definition others_kept (h h' : heap) (buffer : nat) : Prop :=
  forall l, l < List.length h -> l <> buffer -> get h' l = get h l.

Lemma fd1_ok h o : operator_ok h o -> 3 <= m_rows (get h (o_u o)) ->
  fd1 h o = (put h (o_ux o) (mkMat (m_ty (get h (o_u o))) (m_rows (get h (o_u o))) (map (D1 (m_ty (get h (o_u o))) (m_rows (get h (o_u o))) (o_dx o)) (m_cols (get h (o_u o))))), Ok o).
Proof. intros (A & B & C & D) H. unfold fd1. destruct (Nat.ltb_spec (m_rows (get h (o_u o))) 3); [lia|]. rewrite D. reflexivity. Qed.
Lemma fd2_ok h o : operator_ok h o -> 4 <= m_rows (get h (o_u o)) ->
  fd2 h o = (put h (o_ux o) (mkMat (m_ty (get h (o_u o))) (m_rows (get h (o_u o))) (map (D2 (m_ty (get h (o_u o))) (m_rows (get h (o_u o))) (o_dx o)) (m_cols (get h (o_u o))))), Ok o).
Proof.
  intros (A & B & C & D) H. unfold fd2. destruct (Nat.ltb_spec (m_rows (get h (o_u o))) 3); [lia|].
  destruct (Nat.eqb_spec (m_rows (get h (o_u o))) 3); [lia|]. rewrite D. reflexivity.
Qed.
Lemma new_op_ok h u dx : u < List.length h -> operator_ok (fst (new_op h u dx)) (snd (new_op h u dx)).
Proof.
  intros H. unfold new_op, operator_ok. cbn [fst snd o_u o_ux]. rewrite app_length. cbn [List.length].
  rewrite get_app_new, get_app_old by exact H. repeat split; lia.
Qed.
(** the buffer after a successful compute *)
Definition out_cols (k : nat) (t : dtype) (n : nat) (dx : Q) (c : list Q) : list Q :=
  match k with 1 => D1 t n dx c | 2 => D2 t n dx c | 3 => D1 t n dx (D2 t n dx c) | _ => D2 t n dx (D2 t n dx c) end.
Lemma compute_ok h o k : operator_ok h o -> (k = 1 /\ 3 <= m_rows (get h (o_u o))) \/ (2 <= k <= 4 /\ 4 <= m_rows (get h (o_u o))) ->
  let u := get h (o_u o) in
  exists h' o', compute h o (Z.of_nat k) = (h', Ok o') /\ operator_ok h' o' /\ o_u o' = o_u o /\ o_dx o' = o_dx o /\
    get h' (o_ux o') = mkMat (m_ty u) (m_rows u) (map (out_cols k (m_ty u) (m_rows u) (o_dx o)) (m_cols u)) /\
    others_kept h h' (o_ux o) /\ List.length h <= List.length h' /\
    (k <= 2 -> o_ux o' = o_ux o) /\ (3 <= k -> o_ux o' = List.length h) /\
    get h' (o_ux o) = mkMat (m_ty u) (m_rows u) (map (if Nat.eqb k 1 then D1 (m_ty u) (m_rows u) (o_dx o) else D2 (m_ty u) (m_rows u) (o_dx o)) (m_cols u)).
Proof.
  intros W H u. fold u in H. pose proof W as (A & B & C & D).
  assert (SAME : forall a, m_ty a = m_ty u -> operator_ok (put h (o_ux o) a) o).
  { intros a T. unfold operator_ok. rewrite put_length, get_put_same, get_put_other by auto. repeat split; auto. }
  assert (KEPT : forall a, others_kept h (put h (o_ux o) a) (o_ux o)).
  { intros a l L N. apply get_put_other. auto. }
  destruct H as [[-> H]|[K H]].
  - exists (put h (o_ux o) (mkMat (m_ty u) (m_rows u) (map (D1 (m_ty u) (m_rows u) (o_dx o)) (m_cols u)))), o.
    change (compute h o (Z.of_nat 1)) with (fd1 h o). rewrite fd1_ok by auto. split; [reflexivity|]. split; [apply SAME; reflexivity|].
    split; [reflexivity|]. split; [reflexivity|]. rewrite get_put_same by auto. split; [reflexivity|]. split; [apply KEPT|].
    rewrite put_length. split; [lia|]. split; [reflexivity|]. split; [lia|reflexivity].
  - set (a2 := mkMat (m_ty u) (m_rows u) (map (D2 (m_ty u) (m_rows u) (o_dx o)) (m_cols u))).
    pose proof (fd2_ok h o W H) as E2. fold u a2 in E2. set (h1 := put h (o_ux o) a2) in *.
    assert (W1 : operator_ok h1 o) by (apply SAME; reflexivity).
    assert (G1 : get h1 (o_ux o) = a2) by (apply get_put_same; auto).
    assert (L1 : List.length h1 = List.length h) by apply put_length.
    assert (K1 : others_kept h h1 (o_ux o)) by apply KEPT.
    assert (CASES : k = 2 \/ k = 3 \/ k = 4) by lia.
    destruct CASES as [->|CASES].
    + exists h1, o. change (compute h o (Z.of_nat 2)) with (fd2 h o). split; [exact E2|]. split; [exact W1|].
      split; [reflexivity|]. split; [reflexivity|]. rewrite G1. split; [reflexivity|]. split; [exact K1|]. split; [lia|].
      split; [reflexivity|]. split; [lia|reflexivity].
    + assert (B1 : o_ux o < List.length h1) by (rewrite L1; exact B).
      pose proof (new_op_ok h1 (o_ux o) (o_dx o) B1) as W2. unfold new_op in W2. cbn [fst snd] in W2.
      set (h2 := h1 ++ [zeros_like (get h1 (o_ux o))]) in *. set (t := mkFdo (o_ux o) (o_dx o) (List.length h1)) in *.
      assert (G2 : get h2 (o_u t) = a2) by (unfold h2, t; cbn [o_u]; rewrite get_app_old by exact B1; exact G1).
      assert (R2 : m_rows (get h2 (o_u t)) = m_rows u) by (rewrite G2; reflexivity).
      assert (OLD : forall a l, l < List.length h -> l <> o_ux o -> get (put h2 (List.length h1) a) l = get h l).
      { intros a l Hl N. rewrite get_put_other by lia. unfold h2. rewrite get_app_old by lia. apply K1; auto. }
      assert (OLD2 : forall a, get (put h2 (List.length h1) a) (o_ux o) = a2).
      { intros a. rewrite get_put_other by lia. exact G2. }
      assert (LEN : forall a, List.length (put h2 (List.length h1) a) = S (List.length h)).
      { intros a. rewrite put_length. unfold h2. rewrite app_length. cbn. lia. }
      assert (NEW : forall a, get (put h2 (List.length h1) a) (List.length h1) = a).
      { intros a. apply get_put_same. unfold h2. rewrite app_length. cbn. lia. }
      assert (FIN : forall a, m_ty a = m_ty u -> operator_ok (put h2 (List.length h1) a) (mkFdo (o_u o) (o_dx o) (List.length h1))).
      { intros a T. unfold operator_ok. cbn [o_u o_ux]. rewrite LEN, NEW, OLD by auto. fold u. repeat split; auto; lia. }
      destruct CASES as [-> | ->].
      * change (compute h o (Z.of_nat 3)) with (fd_again fd1 h o). unfold fd_again. rewrite E2. unfold new_op. fold h2 t.
        rewrite (fd1_ok h2 t W2) by (rewrite R2; lia). rewrite G2. cbn [o_ux o_dx t]. unfold a2 at 1 2 3 4 5. cbn [m_ty m_rows m_cols].
        eexists _, _. split; [reflexivity|]. cbn [o_u o_dx o_ux]. split; [apply FIN; reflexivity|].
        split; [reflexivity|]. split; [reflexivity|]. rewrite NEW, map_map. split; [reflexivity|].
        split; [intros l Hl N; apply OLD; auto|]. rewrite LEN. split; [lia|]. split; [lia|]. split; [lia|]. apply OLD2.
      * change (compute h o (Z.of_nat 4)) with (fd_again fd2 h o). unfold fd_again. rewrite E2. unfold new_op. fold h2 t.
        rewrite (fd2_ok h2 t W2) by (rewrite R2; lia). rewrite G2. cbn [o_ux o_dx t]. unfold a2 at 1 2 3 4 5. cbn [m_ty m_rows m_cols].
        eexists _, _. split; [reflexivity|]. cbn [o_u o_dx o_ux]. split; [apply FIN; reflexivity|].
        split; [reflexivity|]. split; [reflexivity|]. rewrite NEW, map_map. split; [reflexivity|].
        split; [intros l Hl N; apply OLD; auto|]. rewrite LEN. split; [lia|]. split; [lia|]. split; [lia|]. apply OLD2.
Qed.
Lemma compute_bad h o z : ~ (1 <= z <= 4)%Z -> compute h o z = (h, Err ValueError).
Proof. intros H. unfold compute. rewrite !(proj2 (Z.eqb_neq _ _)) by lia. reflexivity. Qed.
Lemma compute_short h o k : operator_ok h o -> 1 <= k <= 4 -> m_rows (get h (o_u o)) < (if Nat.eqb k 1 then 3 else 4) ->
  exists h', compute h o (Z.of_nat k) = (h', Err IndexError) /\ others_kept h h' (o_ux o) /\ List.length h' = List.length h.
Proof.
  intros W K H.
  assert (F : 2 <= k -> exists h', fd2 h o = (h', Err IndexError) /\ others_kept h h' (o_ux o) /\ List.length h' = List.length h).
  { intros K2. destruct (Nat.eqb_spec k 1); [lia|]. unfold fd2. destruct (Nat.ltb_spec (m_rows (get h (o_u o))) 3).
    - eexists. split; [reflexivity|]. split; [intros l _ _; reflexivity|reflexivity].
    - destruct (Nat.eqb_spec (m_rows (get h (o_u o))) 3); [|lia]. eexists. split; [reflexivity|].
      split; [intros l _ N; apply get_put_other; auto|apply put_length]. }
  assert (CASES : k = 1 \/ k = 2 \/ k = 3 \/ k = 4) by lia. destruct CASES as [->|[->|[-> | ->]]].
  - change (compute h o (Z.of_nat 1)) with (fd1 h o). unfold fd1. cbn in H. destruct (Nat.ltb_spec (m_rows (get h (o_u o))) 3); [|lia].
    exists h. split; [reflexivity|]. split; [intros l _ _; reflexivity|reflexivity].
  - exact (F ltac:(lia)).
  - destruct (F ltac:(lia)) as (h' & E & R). exists h'. change (compute h o (Z.of_nat 3)) with (fd_again fd1 h o). unfold fd_again. rewrite E. auto.
  - destruct (F ltac:(lia)) as (h' & E & R). exists h'. change (compute h o (Z.of_nat 4)) with (fd_again fd2 h o). unfold fd_again. rewrite E. auto.
Qed.
Lemma compute_any h o z h' o' : operator_ok h o -> compute h o z = (h', Ok o') ->
  exists k, z = Z.of_nat k /\ 1 <= k <= 4 /\ ((k = 1 /\ 3 <= m_rows (get h (o_u o))) \/ (2 <= k <= 4 /\ 4 <= m_rows (get h (o_u o)))).
Proof.
  intros W E. destruct (Z_le_gt_dec 1 z) as [L1|L1]; [|rewrite compute_bad in E by lia; discriminate].
  destruct (Z_le_gt_dec z 4) as [L2|L2]; [|rewrite compute_bad in E by lia; discriminate].
  exists (Z.to_nat z). rewrite Z2Nat.id by lia. split; [reflexivity|]. split; [lia|].
  destruct (Nat.lt_ge_cases (m_rows (get h (o_u o))) (if Nat.eqb (Z.to_nat z) 1 then 3 else 4)) as [S1|S1].
  - destruct (compute_short h o (Z.to_nat z) W ltac:(lia) S1) as (h1 & E1 & _). rewrite Z2Nat.id in E1 by lia. rewrite E1 in E. discriminate.
  - destruct (Nat.eqb_spec (Z.to_nat z) 1); lia.
Qed.

(** The derivative of the order asked for is exact on polynomials of low degree, column by column. *)
Theorem C140_exact h u cs x0 dx n order bound : u < List.length h -> get h u = mkMat F64 n (map (fun c => sampled c x0 dx n) cs) -> 4 <= n -> ~ (dx == 0)%Q ->
  In (order, bound) [(1, 3); (2, 4); (3, 4); (4, 4)] -> Forall (fun c => List.length c <= bound) cs ->
  exists h' r, op_diff h u dx (Z.of_nat order) = (h', Ok r) /\
    Forall2 (fun col c => List.length col = n /\ agrees col (Nat.iter order pderiv c) x0 dx 0 n) (m_cols (get h' r)) cs.
Proof.
  intros Hu G Hn D I F. unfold op_diff. pose proof (new_op_ok h u dx Hu) as W. unfold new_op in *. cbn [fst snd] in W.
  set (h1 := h ++ [zeros_like (get h u)]) in *. set (o := mkFdo u dx (List.length h)) in *.
  assert (G1 : get h1 (o_u o) = mkMat F64 n (map (fun c => sampled c x0 dx n) cs)) by (unfold h1, o; cbn [o_u]; rewrite get_app_old; auto).
  assert (K : 1 <= order <= 4) by (cbn in I; repeat destruct I as [[= <- <-]|I]; try lia; destruct I).
  destruct (compute_ok h1 o order W) as (h2 & o2 & E & _ & _ & _ & R & _); [rewrite G1; cbn [m_rows]; lia|]. rewrite E.
  eexists _, _. split; [reflexivity|]. rewrite R, G1. cbn [m_cols m_ty m_rows]. rewrite map_map. change (o_dx o) with dx.
  assert (KEEP : forall l, map (keep F64) l = l) by (intros l; induction l; cbn; f_equal; auto).
  clear R E G1 G. induction F as [|c cs L F IH]; [constructor|]. cbn [map]. constructor; [|exact IH].
  destruct (C25_discover c x0 dx n Hn D) as (A1 & A2 & A3 & A4).
  assert (LD1 : forall l, List.length (D1 F64 n dx l) = n) by (intros; unfold D1; rewrite map_length; apply ends_length).
  assert (LD2 : forall l, List.length (D2 F64 n dx l) = n) by (intros; unfold D2; rewrite map_length; apply ends_length).
  assert (E1 : forall l, List.length l = n -> disc_diff l dx = Ok (D1 F64 n dx l)).
  { intros l Ll. unfold disc_diff, D1. rewrite KEEP, Ll. destruct (Nat.ltb_spec n 3); [lia|reflexivity]. }
  assert (E2 : forall l, List.length l = n -> disc_diff2 l dx = Ok (D2 F64 n dx l)).
  { intros l Ll. unfold disc_diff2, D2. rewrite KEEP, Ll. destruct (Nat.ltb_spec n 4); [lia|reflexivity]. }
  pose proof (sampled_length c x0 dx n) as Ls.
  cbn in I. destruct I as [[= <- <-]|[[= <- <-]|[[= <- <-]|[[= <- <-]|[]]]]]; cbn [out_cols].
  - split; [apply LD1|]. destruct (A1 L) as (r & Er & A). rewrite E1 in Er by exact Ls. injection Er as <-. exact A.
  - split; [apply LD2|]. destruct (A2 L) as (r & Er & A). rewrite E2 in Er by exact Ls. injection Er as <-. exact A.
  - split; [apply LD1|]. destruct (A3 L) as (r & Er & A). unfold disc_diff3 in Er. rewrite E2 in Er by exact Ls. cbn [bind] in Er. rewrite E1 in Er by apply LD2. injection Er as <-. exact A.
  - split; [apply LD2|]. destruct (A4 L) as (r & Er & A). unfold disc_diff4 in Er. rewrite E2 in Er by exact Ls. cbn [bind] in Er. rewrite E2 in Er by apply LD2. injection Er as <-. exact A.
Qed.
(** diff() works on a fresh buffer: it changes no existing array, also when it raises. *)
Theorem C140_fresh h u dx z : u < List.length h ->
  (forall l, l < List.length h -> get (fst (op_diff h u dx z)) l = get h l) /\
  (forall r, snd (op_diff h u dx z) = Ok r -> List.length h <= r).
Proof.
  intros Hu. unfold op_diff. pose proof (new_op_ok h u dx Hu) as W. unfold new_op in *. cbn [fst snd] in W.
  set (h1 := h ++ [zeros_like (get h u)]) in *. set (o := mkFdo u dx (List.length h)) in *.
  assert (BASE : forall l, l < List.length h -> get h1 l = get h l) by (intros l Hl; apply get_app_old; exact Hl).
  assert (L1 : List.length h1 = S (List.length h)) by (unfold h1; rewrite app_length; cbn; lia).
  assert (ALL : others_kept h1 (fst (compute h1 o z)) (List.length h) /\ forall o', snd (compute h1 o z) = Ok o' -> List.length h <= o_ux o').
  { destruct (compute h1 o z) as [h2 [o2|e]] eqn:E.
    - destruct (compute_any _ _ _ _ _ W E) as (k & -> & Hk & C). destruct (compute_ok h1 o k W C) as (h3 & o3 & E3 & _ & _ & _ & _ & KP & _ & U1 & U2 & _).
      rewrite E3 in E. injection E as <- <-. cbn [fst snd]. split; [exact KP|]. intros o' [= <-].
      destruct (Nat.le_gt_cases k 2) as [Q1|Q1]; [rewrite U1 by exact Q1; cbn; lia|rewrite U2 by lia; lia].
    - cbn [fst snd]. split; [|discriminate]. destruct (Z_le_gt_dec 1 z) as [G1|G1]; [|rewrite compute_bad in E by lia; injection E as <- <-; intros l _ _; reflexivity].
      destruct (Z_le_gt_dec z 4) as [G2|G2]; [|rewrite compute_bad in E by lia; injection E as <- <-; intros l _ _; reflexivity].
      destruct (Nat.lt_ge_cases (m_rows (get h1 (o_u o))) (if Nat.eqb (Z.to_nat z) 1 then 3 else 4)) as [S1|S1].
      + destruct (compute_short h1 o (Z.to_nat z) W ltac:(lia) S1) as (h3 & E3 & KP & _). rewrite Z2Nat.id in E3 by lia. rewrite E3 in E. injection E as <- <-. exact KP.
      + destruct (compute_ok h1 o (Z.to_nat z) W) as (h3 & o3 & E3 & _); [destruct (Nat.eqb_spec (Z.to_nat z) 1); lia|].
        rewrite Z2Nat.id in E3 by lia. rewrite E3 in E. discriminate. }
  destruct ALL as [A1 A2]. destruct (compute h1 o z) as [h2 [o2|e]]; cbn [fst snd] in *.
  - split; [intros l Hl; rewrite A1 by lia; auto|]. intros r [= <-]. apply A2. reflexivity.
  - split; [intros l Hl; rewrite A1 by lia; auto|discriminate].
Qed.
(** An operator's answer does not depend on what it computed before: it is what a fresh diff() gives;
    its input is left alone. *)
Theorem C140_history h o z h' o' : operator_ok h o -> compute h o z = (h', Ok o') ->
  operator_ok h' o' /\ o_u o' = o_u o /\ get h' (o_u o) = get h (o_u o) /\
  exists hf r, op_diff h (o_u o) (o_dx o) z = (hf, Ok r) /\ get hf r = get h' (o_ux o').
Proof.
  intros W E. destruct (compute_any _ _ _ _ _ W E) as (k & -> & Hk & C).
  destruct (compute_ok h o k W C) as (h1 & o1 & E1 & W1 & U1 & _ & G1 & KP & _). rewrite E1 in E. injection E as <- <-.
  split; [exact W1|]. split; [exact U1|]. destruct W as (A & B & N & T). split; [apply KP; auto|].
  unfold op_diff. pose proof (new_op_ok h (o_u o) (o_dx o) A) as Wn. unfold new_op in *. cbn [fst snd] in Wn.
  destruct (compute_ok _ _ k Wn) as (h2 & o2 & E2 & _ & _ & _ & G2 & _).
  { cbn [o_u]. rewrite get_app_old by exact A. exact C. }
  rewrite E2. eexists _, _. split; [reflexivity|]. rewrite G1, G2. cbn [o_u o_dx]. rewrite get_app_old by exact A. reflexivity.
Qed.
(** But the array returned is the operator's buffer: the next compute() on it overwrites it with the first
    derivative (order 1) or the second (orders 2, 3 and 4). *)
Theorem C140_overwritten_refuted h o z1 z2 h1 o1 h2 o2 : operator_ok h o -> compute h o z1 = (h1, Ok o1) -> compute h1 o1 z2 = (h2, Ok o2) ->
  exists hf r, op_diff h (o_u o) (o_dx o) (if (z2 =? 1)%Z then 1 else 2) = (hf, Ok r) /\ get h2 (o_ux o1) = get hf r.
Proof.
  intros W E1 E2. destruct (compute_any _ _ _ _ _ W E1) as (k1 & -> & K1 & C1).
  destruct (compute_ok h o k1 W C1) as (h1' & o1' & E1' & W1 & U1 & X1 & _ & KP & _). rewrite E1' in E1. injection E1 as <- <-.
  destruct (compute_any _ _ _ _ _ W1 E2) as (k2 & -> & K2 & C2).
  destruct (compute_ok h1' o1' k2 W1 C2) as (h2' & o2' & E2' & _ & _ & _ & _ & _ & _ & _ & _ & G2). rewrite E2' in E2. injection E2 as <- <-.
  destruct W as (A & B & N & T). rewrite U1 in G2, C2. rewrite (KP _ A N) in G2, C2. rewrite X1 in G2.
  unfold op_diff. pose proof (new_op_ok h (o_u o) (o_dx o) A) as Wn. unfold new_op in *. cbn [fst snd] in Wn.
  replace (if (Z.of_nat k2 =? 1)%Z then 1%Z else 2%Z) with (Z.of_nat (if Nat.eqb k2 1 then 1 else 2)) by (destruct (Nat.eqb_spec k2 1), (Z.eqb_spec (Z.of_nat k2) 1); cbn; lia).
  destruct (compute_ok _ _ (if Nat.eqb k2 1 then 1 else 2) Wn) as (h3 & o3 & E3 & _ & _ & _ & G3 & _).
  { cbn [o_u]. rewrite get_app_old by exact A. destruct (Nat.eqb_spec k2 1); lia. }
  rewrite E3. eexists _, _. split; [reflexivity|]. rewrite G2, G3. cbn [o_u o_dx]. rewrite get_app_old by exact A.
  destruct (Nat.eqb_spec k2 1); reflexivity.
Qed.
(** so the slope 2x of x^2 turns into 2 once the second derivative is asked for *)
Theorem C140_overwritten_example_refuted : exists h o h1 o1 h2 o2, operator_ok h o /\ compute h o 1 = (h1, Ok o1) /\ compute h1 o1 2 = (h2, Ok o2) /\
  map (map Qred) (m_cols (get h1 (o_ux o1))) = [[0; 2; 4; 6; 8]]%Q /\ map (map Qred) (m_cols (get h2 (o_ux o1))) = [[2; 2; 2; 2; 2]]%Q.
Proof.
  exists [mkMat F64 5 [sampled [0; 0; 1]%Q 0 1 5]; mkMat F64 5 [[0; 0; 0; 0; 0]%Q]], (mkFdo 0 1 1).
  eexists _, _, _, _. split; [unfold operator_ok; cbn; repeat split; lia|]. split; [reflexivity|]. split; [reflexivity|]. split; reflexivity.
Qed.
(** Fourth derivative: of x^4 it is 0 instead of 24 at the second node, whatever the spacing. *)
Theorem C140_fourth_refuted h u dx n : u < List.length h -> 4 <= n -> ~ (dx == 0)%Q -> get h u = mkMat F64 n [sampled [0; 0; 0; 0; 1]%Q 0 dx n] ->
  exists h' r col, op_diff h u dx 4 = (h', Ok r) /\ m_cols (get h' r) = [col] /\ (nth 1 col 0 == 0)%Q /\
    (peval (Nat.iter 4 pderiv [0; 0; 0; 0; 1]) (node 0 dx 1) == 24)%Q.
Proof.
  intros Hu Hn D G. unfold op_diff. pose proof (new_op_ok h u dx Hu) as W. unfold new_op in *. cbn [fst snd] in W.
  set (h1 := h ++ [zeros_like (get h u)]) in *. set (o := mkFdo u dx (List.length h)) in *.
  assert (G1 : get h1 (o_u o) = mkMat F64 n [sampled [0; 0; 0; 0; 1]%Q 0 dx n]) by (unfold h1, o; cbn [o_u]; rewrite get_app_old; auto).
  destruct (compute_ok h1 o 4 W) as (h2 & o2 & E & _ & _ & _ & R & _); [rewrite G1; cbn [m_rows]; lia|].
  change (Z.of_nat 4) with 4%Z in E. rewrite E. rewrite G1 in R. cbn [m_ty m_rows m_cols map] in R.
  eexists _, _, _. split; [reflexivity|]. rewrite R. split; [reflexivity|]. cbn [out_cols o_dx o].
  split; [|unfold node; cbn; field].
  assert (KEEP : forall l, map (keep F64) l = l) by (intros l; induction l; cbn; f_equal; auto).
  unfold D2 at 1. rewrite KEEP, nth_ends by lia. change (Nat.eqb 1 0) with false. cbv iota. destruct (Nat.eqb_spec 1 (n - 1)); [lia|].
  unfold d2_mid at 1. cbn [Nat.add Nat.sub]. unfold D2. rewrite KEEP, !nth_ends by lia.
  change (Nat.eqb 2 0) with false. change (Nat.eqb 1 0) with false. change (Nat.eqb 0 0) with true. cbv iota.
  destruct (Nat.eqb_spec 1 (n - 1)); [lia|]. destruct (Nat.eqb_spec 2 (n - 1)); [lia|].
  unfold d2_mid, d2_left. cbn [Nat.add Nat.sub]. rewrite !nth_sampled by lia. unfold node. cbn. field. exact D.
Qed.
(** Too few rows: IndexError; an order outside 1..4: ValueError. *)
Theorem C140_errors h u dx z : u < List.length h -> let n := m_rows (get h u) in
  (~ (1 <= z <= 4)%Z -> snd (op_diff h u dx z) = Err ValueError) /\
  ((1 <= z <= 4)%Z -> n < (if (z =? 1)%Z then 3 else 4) -> snd (op_diff h u dx z) = Err IndexError) /\
  ((1 <= z <= 4)%Z -> (if (z =? 1)%Z then 3 else 4) <= n -> exists r, snd (op_diff h u dx z) = Ok r).
Proof.
  intros Hu n. unfold op_diff. pose proof (new_op_ok h u dx Hu) as W. unfold new_op in *. cbn [fst snd] in W.
  set (h1 := h ++ [zeros_like (get h u)]) in *. set (o := mkFdo u dx (List.length h)) in *.
  assert (G1 : get h1 (o_u o) = get h u) by (apply get_app_old; exact Hu).
  assert (B : forall k, (if (Z.of_nat k =? 1)%Z then 3 else 4) = (if Nat.eqb k 1 then 3 else 4)) by (intros k; destruct (Nat.eqb_spec k 1), (Z.eqb_spec (Z.of_nat k) 1); lia).
  split; [intros H; rewrite compute_bad by exact H; reflexivity|]. split; intros H K.
  - destruct (compute_short h1 o (Z.to_nat z) W ltac:(lia)) as (h' & E & _); [rewrite G1, <- B, Z2Nat.id by lia; exact K|].
    rewrite Z2Nat.id in E by lia. rewrite E. reflexivity.
  - destruct (compute_ok h1 o (Z.to_nat z) W) as (h' & o' & E & _).
    { rewrite G1. fold n. destruct (Z.eqb_spec z 1); [left|right]; split; try lia. }
    rewrite Z2Nat.id in E by lia. rewrite E. eexists. reflexivity.
Qed.
(** Whole-number arrays: the buffer has their type, so fractions are cut off: the slope 1/2 becomes 0. *)
Theorem C140_whole_numbers_refuted : exists h' r, op_diff [mkMat I64 4 [[0; 0; 1; 2]%Q]] 0 1 1 = (h', Ok r) /\ map (map Qred) (m_cols (get h' r)) = [[0; 0; 1; 1]]%Q /\
  exists h2 r2, op_diff [mkMat F64 4 [[0; 0; 1; 2]%Q]] 0 1 1 = (h2, Ok r2) /\ map (map Qred) (m_cols (get h2 r2)) = [[-(1#2); 1#2; 1; 1]]%Q.
Proof. eexists _, _. split; [reflexivity|]. split; [reflexivity|]. eexists _, _. split; [reflexivity|]. reflexivity. Qed.
Print Assumptions C140_exact.
Print Assumptions C140_fresh.
Print Assumptions C140_history.
Print Assumptions C140_overwritten_refuted.
Print Assumptions C140_overwritten_example_refuted.
Print Assumptions C140_fourth_refuted.
Print Assumptions C140_errors.
Print Assumptions C140_whole_numbers_refuted.
