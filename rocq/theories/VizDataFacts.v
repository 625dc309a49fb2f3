(** Lemmas about the plotting data contracts. *)
From Coq Require Import QArith List Bool Arith Lia ZArith.
From Verif Require Import VizData.
Import ListNotations.
Local Open Scope nat_scope.

Definition prod (s : list nat) : nat := fold_right Nat.mul 1 s.
(** [idx] is a valid index of shape [s] *)
Definition valid (idx s : list nat) : Prop := Forall2 lt idx s.

Lemma shape_eqb_eq a b : shape_eqb a b = true <-> a = b.
Proof. unfold shape_eqb. destruct (list_eq_dec Nat.eq_dec a b); split; congruence. Qed.
Lemma shape_eqb_refl a : shape_eqb a a = true. Proof. now apply shape_eqb_eq. Qed.

Lemma flat_map_length_const {A B} (f : A -> list B) n l : (forall x, length (f x) = n) -> length (flat_map f l) = length l * n.
Proof. intros H. induction l as [|x l IH]; cbn; [reflexivity|]. rewrite app_length, H, IH. lia. Qed.
Lemma indices_length s : length (indices s) = prod s.
Proof. induction s as [|n s IH]; cbn; [reflexivity|]. rewrite (flat_map_length_const _ (prod s)), seq_length; [reflexivity|]. intros x. now rewrite map_length. Qed.
Lemma indices_valid s idx : In idx (indices s) <-> valid idx s.
Proof.
  revert idx. induction s as [|n s IH]; intros idx; cbn.
  - split; [intros [<-|[]]; constructor|intros H; inversion H; now left].
  - rewrite in_flat_map. split.
    + intros (i & Hi & H). apply in_map_iff in H as (r & <- & Hr). apply in_seq in Hi. constructor; [lia|now apply IH].
    + intros H. inversion H as [|i m r s' Hi Hr]; subst. exists i. split; [apply in_seq; lia|]. apply in_map_iff. exists r. split; [reflexivity|now apply IH].
Qed.
Lemma ravel_length a : length (ravel a) = size a.
Proof. unfold ravel. rewrite map_length. apply indices_length. Qed.

(** broadcasting equal shapes *)
Lemma bshape_rev_refl s : bshape_rev s s = Some s.
Proof. induction s as [|x s IH]; cbn; [reflexivity|]. now rewrite IH, Nat.eqb_refl. Qed.
Lemma bshape_refl s : bshape s s = Some s.
Proof. unfold bshape. rewrite bshape_rev_refl. now rewrite rev_involutive. Qed.
Lemma bidx_rev_valid s : forall idx q, Forall2 lt idx s -> bidx_rev s (idx ++ q) = idx.
Proof.
  induction s as [|n s IH]; intros idx q H; inversion H; subst; cbn; [reflexivity|]. rewrite IH by assumption.
  destruct (Nat.eqb n 1) eqn:E; [apply Nat.eqb_eq in E; f_equal; lia|reflexivity].
Qed.
Lemma Forall2_rev {A B} (R : A -> B -> Prop) l l' : Forall2 R l l' -> Forall2 R (rev l) (rev l').
Proof. induction 1; cbn; [constructor|]. apply Forall2_app; [assumption|repeat constructor; assumption]. Qed.
Lemma bidx_valid s idx p : valid idx s -> bidx s (p ++ idx) = idx.
Proof. intros H. unfold bidx. rewrite rev_app_distr, bidx_rev_valid by now apply Forall2_rev. apply rev_involutive. Qed.

Lemma sub_same a b : shape a = shape b -> exists r, sub a b = Some r /\ shape r = shape a /\ forall i, valid i (shape a) -> at_ r i = (at_ a i - at_ b i)%Q.
Proof.
  intros E. unfold sub. rewrite E, bshape_refl. eexists. split; [reflexivity|]. split; [reflexivity|]. cbn. intros i H.
  rewrite <- (app_nil_l i), !bidx_valid by (rewrite ?app_nil_l; assumption). reflexivity.
Qed.

(** sizes and broadcasting *)
Lemma prod_pos s : 0 < prod s -> Forall (lt 0) s.
Proof. induction s as [|n s IH]; cbn; intros H; [constructor|]. fold (prod s) in *. constructor; [|apply IH]; destruct n, (prod s); lia. Qed.
Lemma pos_prod s : Forall (lt 0) s -> 0 < prod s.
Proof. induction 1; cbn; [lia|]. apply Nat.mul_pos_pos; assumption. Qed.
Lemma prod_one s : Forall (lt 0) s -> prod s = 1 -> s = repeat 1 (length s).
Proof. induction 1 as [|n s H F IH]; cbn; [reflexivity|]. intros E. apply Nat.eq_mul_1 in E as [-> E]. now rewrite <- IH. Qed.
Lemma bshape_rev_pos a : forall b r, bshape_rev a b = Some r -> Forall (lt 0) r -> Forall (lt 0) a /\ Forall (lt 0) b.
Proof.
  induction a as [|x a IH]; intros b r H P.
  - cbn in H. inversion H; subst. split; [constructor|exact P].
  - destruct b as [|y b]; cbn in H; [inversion H; subst; split; [exact P|constructor]|]. destruct (bshape_rev a b) as [q|] eqn:E; [|discriminate].
    destruct (Nat.eqb x y) eqn:E1; [apply Nat.eqb_eq in E1|destruct (Nat.eqb x 1) eqn:E2; [apply Nat.eqb_eq in E2|destruct (Nat.eqb y 1) eqn:E3; [apply Nat.eqb_eq in E3|discriminate]]];
      inversion H; subst; inversion P; subst; destruct (IH _ _ E H3) as [A B]; split; constructor; auto; lia.
Qed.
Lemma bshape_rev_prod a : forall b r, bshape_rev a b = Some r -> Forall (lt 0) r ->
  prod a <= prod r /\ (prod a = prod r -> r = a ++ repeat 1 (length r - length a)).
Proof.
  induction a as [|x a IH]; intros b r H P.
  - cbn in H. inversion H; subst. cbn. rewrite Nat.sub_0_r. split; [pose proof (pos_prod r P); lia|]. intros E. now apply prod_one.
  - destruct b as [|y b]; [cbn in H; inversion H; subst; rewrite Nat.sub_diag; cbn; rewrite app_nil_r; split; [lia|reflexivity]|].
    cbn in H. destruct (bshape_rev a b) as [q|] eqn:E; [|discriminate].
    assert (exists z, r = z :: q /\ x <= z /\ 0 < x) as (z & -> & Hz & Hx).
    { destruct (Nat.eqb x y) eqn:E1; [inversion H; subst; inversion P; subst; exists x; auto|].
      destruct (Nat.eqb x 1) eqn:E2; [apply Nat.eqb_eq in E2; inversion H; subst; inversion P; subst; exists y; auto|].
      destruct (Nat.eqb y 1); [|discriminate]. inversion H; subst. inversion P; subst. exists x; auto. }
    inversion P; subst. destruct (IH _ _ E H3) as [L Q]. cbn [prod fold_right] in *. fold (prod a) (prod q) in *.
    pose proof (pos_prod q H3). pose proof (pos_prod a (proj1 (bshape_rev_pos _ _ _ E H3))).
    split; [nia|]. intros Eq. assert (prod a = prod q) as Ea by nia. assert (z = x) as -> by nia. cbn [length app Nat.sub]. f_equal. now apply Q.
Qed.
Lemma bshape_rev_comm a : forall b, bshape_rev a b = bshape_rev b a.
Proof.
  induction a as [|x a IH]; intros [|y b]; cbn; try reflexivity. rewrite IH. destruct (bshape_rev b a); [|reflexivity].
  rewrite (Nat.eqb_sym y x). destruct (Nat.eqb x y) eqn:E; [apply Nat.eqb_eq in E; now subst|].
  destruct (Nat.eqb x 1) eqn:E1, (Nat.eqb y 1) eqn:E2; try reflexivity. apply Nat.eqb_eq in E1, E2. congruence.
Qed.
Lemma prod_app a b : prod (a ++ b) = prod a * prod b.
Proof. induction a as [|x a IH]; [change (prod b = 1 * prod b); lia|]. change (x * prod (a ++ b) = (x * prod a) * prod b). rewrite IH. lia. Qed.
Lemma prod_rev s : prod (rev s) = prod s.
Proof. induction s as [|x s IH]; [reflexivity|]. cbn [rev]. rewrite prod_app, IH. change (prod s * (x * 1) = x * prod s). lia. Qed.
Lemma rev_repeat {A} (x : A) n : rev (repeat x n) = repeat x n.
Proof. induction n as [|n IH]; [reflexivity|]. cbn. rewrite IH. symmetry. apply repeat_cons. Qed.
Lemma bshape_same_size a b s : bshape a b = Some s -> prod s = prod a -> 0 < prod s -> s = repeat 1 (length s - length a) ++ a.
Proof.
  unfold bshape. destruct (bshape_rev (rev a) (rev b)) as [r|] eqn:E; [|discriminate]. intros H P1 P0. inversion H; subst. rewrite prod_rev in *.
  pose proof (prod_pos _ P0) as F. destruct (bshape_rev_prod _ _ _ E F) as [_ Q]. rewrite prod_rev in Q. rewrite (Q (eq_sym P1)) at 1.
  rewrite rev_app_distr, rev_involutive, rev_repeat. now rewrite !rev_length.
Qed.
Lemma indices_ones k s : indices (repeat 1 k ++ s) = map (app (repeat 0 k)) (indices s).
Proof.
  induction k as [|k IH]; cbn; [now rewrite map_id|]. rewrite app_nil_r, IH, map_map. reflexivity.
Qed.
Lemma map_bidx_ones a k : map (fun i => at_ a (bidx (shape a) i)) (indices (repeat 1 k ++ shape a)) = ravel a.
Proof.
  rewrite indices_ones, map_map. unfold ravel. apply map_ext_in. intros i H. apply indices_valid in H. now rewrite bidx_valid.
Qed.

(** np.take and list surgery *)
Lemma insert_at_app {A} (p q : list A) x : insert_at (length p) x (p ++ q) = p ++ x :: q.
Proof. induction p as [|y p IH]; cbn; [destruct q; reflexivity|]. now rewrite IH. Qed.
Lemma remove_at_app {A} (p q : list A) x : remove_at (length p) (p ++ x :: q) = p ++ q.
Proof. induction p as [|y p IH]; cbn; [reflexivity|]. now rewrite IH. Qed.
Lemma remove_at_app1 {A} i (l q : list A) : i < length l -> remove_at i (l ++ q) = remove_at i l ++ q.
Proof. revert i. induction l as [|x l IH]; intros i H; cbn in *; [lia|]. destruct i; [reflexivity|]. cbn. rewrite IH by lia. reflexivity. Qed.
Lemma remove_at_map {A B} (f : A -> B) i l : remove_at i (map f l) = map f (remove_at i l).
Proof. revert i. induction l as [|x l IH]; intros i; cbn; [destruct i; reflexivity|]. destruct i; cbn; [reflexivity|]. now rewrite IH. Qed.
Lemma remove_at_length {A} i (l : list A) : i < length l -> length (remove_at i l) = length l - 1.
Proof. revert i. induction l as [|x l IH]; intros i H; cbn in *; [lia|]. destruct i; cbn; [lia|]. rewrite IH by lia. destruct l; cbn in *; lia. Qed.
Lemma nth_shape (sp : list arr) t ax d : ax < length sp -> nth ax (map size sp ++ [size t]) 0 = size (nth ax sp d).
Proof. intros H. rewrite app_nth1 by now rewrite map_length. rewrite nth_indep with (d' := size d) by now rewrite map_length. apply map_nth. Qed.

Lemma clamp_lt x n : 0 < n -> clamp x (Z.of_nat n - 1) < n.
Proof. intros H. unfold clamp. lia. Qed.

(** the fields have the shape announced by the coordinates *)
Definition field_wf (d : field_data) : Prop :=
  shape (true_f d) = expected_shape (spatial d) (t_coords d) /\
  shape (pred_f d) = expected_shape (spatial d) (t_coords d) /\
  shape (resid_f d) = expected_shape (spatial d) (t_coords d).
Definition dflt : arr := {| shape := [0]; at_ := fun _ => 0%Q |}.
Definition axis_of (n : nat) (sa : Z) : nat := clamp (if (sa <? 0)%Z then Z.of_nat n + sa else sa)%Z (Z.of_nat n - 1)%Z.
Definition index_of (sz : nat) (si : option Z) : nat := clamp (match si with Some i => i | None => Z.of_nat (sz / 2) end) (Z.of_nat sz - 1)%Z.

Lemma slice_step_ok d sa si : field_wf d -> 0 < length (spatial d) ->
  let ax := axis_of (length (spatial d)) sa in
  let sz := size (nth ax (spatial d) dflt) in
  let ix := index_of sz si in
  0 < sz ->
  exists d', slice_step d sa si = VOk d' /\ field_wf d' /\ spatial d' = remove_at ax (spatial d) /\ t_coords d' = t_coords d /\ metadata d' = [] /\
    (forall idx, at_ (true_f d') idx = at_ (true_f d) (insert_at ax ix idx) /\ at_ (pred_f d') idx = at_ (pred_f d) (insert_at ax ix idx) /\ at_ (resid_f d') idx = at_ (resid_f d) (insert_at ax ix idx)).
Proof.
  intros (W1 & W2 & W3) Hn ax sz ix Hsz. assert (ax < length (spatial d)) as Hax by (apply clamp_lt; exact Hn).
  assert (ix < sz) as Hix by (apply clamp_lt; exact Hsz).
  unfold slice_step. fold (axis_of (length (spatial d)) sa). fold ax. fold dflt. fold sz. fold (index_of sz si). fold ix.
  assert (forall a, shape a = expected_shape (spatial d) (t_coords d) -> take a ix ax = VOk {| shape := remove_at ax (shape a); at_ := fun idx => at_ a (insert_at ax ix idx) |}) as T.
  { intros a E. unfold take. rewrite E. unfold expected_shape at 1. rewrite (nth_shape _ _ _ dflt Hax). fold sz. apply Nat.ltb_lt in Hix. now rewrite Hix. }
  rewrite (T _ W1), (T _ W2), (T _ W3). unfold field_init. cbn [shape].
  assert (remove_at ax (expected_shape (spatial d) (t_coords d)) = expected_shape (remove_at ax (spatial d)) (t_coords d)) as R.
  { unfold expected_shape. rewrite remove_at_app1 by now rewrite map_length. now rewrite remove_at_map. }
  rewrite W1, W2, W3, R, !shape_eqb_refl. cbn [negb]. eexists. split; [reflexivity|]. repeat split.
Qed.

Lemma loop_tail : forall extra fuel d c1 c2, field_wf d -> spatial d = c1 :: c2 :: extra -> length extra <= fuel -> Forall (fun c => 0 < size c) extra ->
  exists d', slice_loop fuel d (-1)%Z None = VOk d' /\ field_wf d' /\ spatial d' = [c1; c2] /\ t_coords d' = t_coords d /\ (extra = [] -> d' = d) /\ (extra <> [] -> metadata d' = []) /\
    forall x y t, let idx := [x; y] ++ map (fun c => size c / 2) extra ++ [t] in
      at_ (true_f d') [x; y; t] = at_ (true_f d) idx /\ at_ (pred_f d') [x; y; t] = at_ (pred_f d) idx /\ at_ (resid_f d') [x; y; t] = at_ (resid_f d) idx.
Proof.
  intros extra. induction extra as [|e extra IH] using rev_ind; intros fuel d c1 c2 W Sp L F.
  - exists d. split; [destruct fuel; cbn; rewrite Sp; reflexivity|]. split; [exact W|]. split; [exact Sp|]. split; [reflexivity|]. split; [reflexivity|]. split; [congruence|]. intros. repeat split.
  - rewrite app_length in L. cbn in L. destruct fuel as [|fuel]; [lia|]. apply Forall_app in F as [F1 F2]. inversion F2; subst.
    assert (length (spatial d) = S (S (S (length extra)))) as Ln by (rewrite Sp; cbn; rewrite app_length; cbn; lia).
    assert (axis_of (length (spatial d)) (-1) = S (S (length extra))) as Ax by (rewrite Ln; unfold axis_of, clamp; cbn [Z.ltb Z.compare]; lia).
    assert (nth (S (S (length extra))) (spatial d) dflt = e) as Ne by (rewrite Sp; cbn; rewrite app_nth2, Nat.sub_diag by lia; reflexivity).
    destruct (slice_step_ok d (-1) None W ltac:(lia)) as (d1 & E1 & W1 & S1 & T1 & M1 & A1); [rewrite Ax, Ne; assumption|]. rewrite Ax, Ne in *.
    assert (index_of (size e) None = size e / 2) as Ix. { unfold index_of, clamp. assert (size e / 2 < size e) by (apply Nat.div_lt; lia). lia. }
    rewrite Ix in A1. assert (spatial d1 = c1 :: c2 :: extra) as S1'.
    { rewrite S1, Sp. change (c1 :: c2 :: extra ++ [e]) with ((c1 :: c2 :: extra) ++ e :: []). change (S (S (length extra))) with (length (c1 :: c2 :: extra)). rewrite remove_at_app. now rewrite app_nil_r. }
    destruct (IH fuel d1 c1 c2 W1 S1' ltac:(lia) F1) as (d2 & E2 & W2 & S2 & T2 & Eq2 & M2 & A2).
    exists d2. split; [cbn [slice_loop]; rewrite Ln; cbn [Nat.leb]; rewrite E1; exact E2|]. split; [exact W2|]. split; [exact S2|]. split; [congruence|].
    split; [intros X; destruct extra; discriminate X|]. split; [intros _; destruct extra as [|z zs]; [rewrite Eq2 by reflexivity; exact M1|apply M2; discriminate]|].
    intros x y t. cbv zeta. specialize (A2 x y t). cbv zeta in A2. destruct A2 as (B1 & B2 & B3). rewrite B1, B2, B3.
    assert (insert_at (S (S (length extra))) (size e / 2) ([x; y] ++ map (fun c => size c / 2) extra ++ [t]) = [x; y] ++ map (fun c => size c / 2) (extra ++ [e]) ++ [t]) as I.
    { rewrite map_app. cbn [map]. set (P := [x; y] ++ map (fun c => size c / 2) extra).
      replace ([x; y] ++ (map (fun c => size c / 2) extra ++ [size e / 2]) ++ [t]) with (P ++ size e / 2 :: [t]) by (unfold P; cbn; rewrite <- app_assoc; reflexivity).
      rewrite <- (insert_at_app P [t] (size e / 2)). unfold P. cbn [app length]. rewrite map_length. reflexivity. }
    rewrite <- I. apply A1.
Qed.
