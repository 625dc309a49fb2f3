(** C138: SGA's refined grid from a checkpoint (use_metadata); C139: edge deletion (delete_edges). *)
From Coq Require Import QArith Qabs Qround Lqa Permutation.
From Verif Require Import Base SgaNaming SgaNamingFacts PropsNaming SgaRegistry PropsRegistry Arrays SgaAuto SgaAutoFacts SgaAutoLoop PropsSgaAuto.
Local Open Scope nat_scope.
Local Notation Qn k := (inject_Z (Z.of_nat k)).

(** ** Sums *)
Lemma sumQ_ext {A} (f g : A -> Q) l : (forall x, In x l -> (f x == g x)%Q) -> (sumQ (map f l) == sumQ (map g l))%Q.
Proof. induction l as [|x l IH]; intros H; cbn [map sumQ fold_right]; [reflexivity|]. fold (sumQ (map f l)). fold (sumQ (map g l)). rewrite (H x), IH; [reflexivity| |left; reflexivity]. intros y Hy. apply H. right. exact Hy. Qed.
Lemma sumQ_app a b : (sumQ (a ++ b) == sumQ a + sumQ b)%Q.
Proof. induction a as [|x a IH]; cbn [app sumQ fold_right]; [unfold sumQ; ring|]. fold (sumQ (a ++ b)). fold (sumQ a). rewrite IH. ring. Qed.
Lemma sumQ_const (c : Q) {A} (l : list A) : (sumQ (map (fun _ => c) l) == Qn (List.length l) * c)%Q.
Proof. induction l as [|x l IH]; cbn [map sumQ fold_right]; [cbn; ring|]. fold (sumQ (map (fun _ => c) l)). rewrite IH. cbn [List.length]. rewrite Nat2Z.inj_succ, <- Z.add_1_r, inject_Z_plus. change (inject_Z 1) with 1%Q. ring. Qed.
Lemma Qn_S k : (Qn (S k) == Qn k + 1)%Q.
Proof. rewrite Nat2Z.inj_succ, <- Z.add_1_r, inject_Z_plus. reflexivity. Qed.
Lemma Qn_nz k : k <> 0 -> ~ (Qn k == 0)%Q.
Proof. intros H E. change 0%Q with (inject_Z 0) in E. apply -> inject_Z_injective in E. lia. Qed.
Lemma Qn_mul a b : (Qn (a * b) == Qn a * Qn b)%Q.
Proof. rewrite Nat2Z.inj_mul, inject_Z_mult. reflexivity. Qed.
Lemma Qn_le a b : a <= b -> (Qn a <= Qn b)%Q. Proof. intros H. rewrite <- Zle_Qle. lia. Qed.
Lemma Qn_lt a b : a < b -> (Qn a < Qn b)%Q. Proof. intros H. rewrite <- Zlt_Qlt. lia. Qed.

(** sums over the rows of a two-dimensional grid *)
Lemma sum_rows (g : nat -> Q) k : 0 < k -> forall n, (sumQ (map (fun i => g (i / k)%nat) (seq 0 (n * k)%nat)) == Qn k * sumQ (map g (seq 0 n)))%Q.
Proof.
  intros Hk. induction n as [|n IH]; [cbn; ring|].
  replace (S n * k) with (n * k + k) by lia. rewrite seq_app, map_app, sumQ_app, IH. rewrite seq_S, map_app, sumQ_app. cbn [Nat.add map]. replace (map g [n]) with [g n] by reflexivity.
  rewrite (sumQ_ext (fun i => g (i / k)) (fun _ => g n) (seq (n * k) k)).
  - rewrite sumQ_const, seq_length. cbn [sumQ fold_right]. ring.
  - intros i Hi. apply in_seq in Hi. replace (i / k) with n; [reflexivity|]. apply (Nat.div_unique i k n (i - n * k)); lia.
Qed.
Lemma map_plus_seq a : forall k b, map (fun i => a + i) (seq b k) = seq (a + b) k.
Proof. induction k as [|k IH]; intros b; cbn [seq map]; [reflexivity|]. f_equal. rewrite IH. f_equal. lia. Qed.
Lemma sum_cols (g : nat -> Q) k : 0 < k -> forall n, (sumQ (map (fun i => g (i mod k)%nat) (seq 0 (n * k)%nat)) == Qn n * sumQ (map g (seq 0 k)))%Q.
Proof.
  intros Hk. induction n as [|n IH]; [cbn; ring|].
  replace (S n * k) with (n * k + k) by lia. rewrite seq_app, map_app, sumQ_app, IH. rewrite Qn_S. cbn [Nat.add].
  assert (E : (sumQ (map (fun i => g (i mod k)%nat) (seq (n * k)%nat k)) == sumQ (map g (seq 0 k)))%Q).
  { rewrite <- (Nat.add_0_r (n * k)), <- map_plus_seq.
    rewrite map_map. apply sumQ_ext. intros i Hi. apply in_seq in Hi. replace ((n * k + i) mod k) with i; [reflexivity|]. apply (Nat.mod_unique _ _ n); lia. }
  rewrite E. ring.
Qed.
Lemma map_nth_seq {A} (l : list A) d : map (fun i => nth i l d) (seq 0 (List.length l)) = l.
Proof. apply (nth_ext _ _ d d); [now rewrite map_length, seq_length|]. intros i Hi. rewrite map_length, seq_length in Hi. now rewrite (nth_map_seq (fun i => nth i l d)). Qed.
Lemma varQ_eq l : varQ l = (sumQ (map (fun x => (x - meanQ l) * (x - meanQ l)) l) / Qn (List.length l))%Q.
Proof. unfold varQ. set (F := fun x => _). unfold meanQ. rewrite map_length. reflexivity. Qed.
(** mean and variance of a coordinate over the grid are those of the coordinate *)
Lemma mean_of (l l' : list Q) (k : nat) : 0 < k -> l' <> [] -> List.length l = k * List.length l' -> (forall f : Q -> Q, (sumQ (map f l) == Qn k * sumQ (map f l'))%Q) ->
  (meanQ l == meanQ l')%Q /\ (varQ l == varQ l')%Q.
Proof.
  intros Hk Hl HL H. assert (Hk' : ~ (Qn k == 0)%Q) by (apply Qn_nz; lia). assert (Hn : ~ (Qn (List.length l') == 0)%Q) by (apply Qn_nz; destruct l'; cbn; [congruence|lia]).
  assert (Em : (meanQ l == meanQ l')%Q).
  { unfold meanQ. rewrite HL, Qn_mul. pose proof (H (fun x => x)) as X. rewrite !map_id in X. rewrite X. field. split; assumption. }
  split; [exact Em|]. rewrite !varQ_eq, HL, Qn_mul. rewrite H.
  assert (E2 : (sumQ (map (fun x => ((x - meanQ l) * (x - meanQ l))%Q) l') == sumQ (map (fun x => ((x - meanQ l') * (x - meanQ l'))%Q) l'))%Q) by (apply sumQ_ext; intros x _; rewrite Em; reflexivity). rewrite E2. field. split; assumption.
Qed.
Lemma flat_x (c : list Q) n k : flat (coord_grid c 0 [n; k]) = map (fun i => nth (i / k) c 0%Q) (seq 0 (n * k)).
Proof.
  unfold coord_grid, tabulate. cbn [flat prod fold_right]. rewrite Nat.mul_1_r. apply map_ext_in. intros i Hi. apply in_seq in Hi. f_equal.
  destruct (Nat.eq_dec k 0) as [->|Hk]; [lia|]. rewrite (unravel_nth [n; k] 0 i) by (cbn; lia). cbn [skipn prod fold_right nth]. rewrite Nat.mul_1_r. apply Nat.mod_small. apply Nat.div_lt_upper_bound; lia.
Qed.
Lemma flat_t (c : list Q) n k : flat (coord_grid c 1 [n; k]) = map (fun i => nth (i mod k) c 0%Q) (seq 0 (n * k)).
Proof.
  unfold coord_grid, tabulate. cbn [flat prod fold_right]. rewrite Nat.mul_1_r. apply map_ext_in. intros i Hi. apply in_seq in Hi. f_equal.
  destruct (Nat.eq_dec k 0) as [->|Hk]; [lia|]. rewrite (unravel_nth [n; k] 1 i) by (cbn; lia). cbn [skipn prod fold_right nth]. rewrite Nat.div_1_r. reflexivity.
Qed.
Lemma stats_x (c : list Q) k : c <> [] -> 0 < k -> let l := flat (coord_grid c 0 [List.length c; k]) in (meanQ l == meanQ c)%Q /\ (varQ l == varQ c)%Q.
Proof.
  intros Hc Hk. cbn zeta. rewrite flat_x. apply (mean_of _ c k Hk Hc); [rewrite map_length, seq_length; lia|]. intros f. rewrite map_map.
  rewrite (sum_rows (fun j => f (nth j c 0%Q)) k Hk (List.length c)). rewrite <- (map_map (fun j => nth j c 0%Q) f), map_nth_seq. reflexivity.
Qed.
Lemma stats_t (c : list Q) n : c <> [] -> 0 < n -> let l := flat (coord_grid c 1 [n; List.length c]) in (meanQ l == meanQ c)%Q /\ (varQ l == varQ c)%Q.
Proof.
  intros Hc Hk. cbn zeta. rewrite flat_t. assert (Hl : 0 < List.length c) by (destruct c; cbn; [congruence|lia]). apply (mean_of _ c n Hk Hc); [rewrite map_length, seq_length; lia|]. intros f. rewrite map_map.
  rewrite (sum_cols (fun j => f (nth j c 0%Q)) (List.length c) Hl n). rewrite <- (map_map (fun j => nth j c 0%Q) f), map_nth_seq. reflexivity.
Qed.

(** ** linspace *)
Lemma linspace_length lo hi n : List.length (linspace lo hi n) = n. Proof. unfold linspace. now rewrite map_length, seq_length. Qed.
Lemma linspace_nth lo hi n i : i < n -> nth i (linspace lo hi n) 0%Q = (lo + Qn i * ((hi - lo) / Qn (n - 1)))%Q.
Proof. intros H. unfold linspace. now rewrite (nth_map_seq (fun i => (lo + Qn i * ((hi - lo) / Qn (n - 1)))%Q)). Qed.
Lemma sum_i n : (2 * sumQ (map (fun i => Qn i) (seq 0 n)) == Qn n * (Qn n - 1))%Q.
Proof. induction n as [|n IH]; [cbn; ring|]. rewrite seq_S, map_app, sumQ_app. cbn [Nat.add map sumQ fold_right]. rewrite Qn_S, Qmult_plus_distr_r, IH. ring. Qed.
Lemma sum_ii n : (6 * sumQ (map (fun i => Qn i * Qn i) (seq 0 n)) == Qn n * (Qn n - 1) * (2 * Qn n - 1))%Q.
Proof. induction n as [|n IH]; [cbn; ring|]. rewrite seq_S, map_app, sumQ_app. cbn [Nat.add map sumQ fold_right]. rewrite Qn_S, Qmult_plus_distr_r, IH. ring. Qed.
Lemma sumQ_lin {A} (f g : A -> Q) a b c l : (sumQ (map (fun i => a + b * f i + c * g i) l) == Qn (List.length l) * a + b * sumQ (map f l) + c * sumQ (map g l))%Q.
Proof. induction l as [|x l IH]; cbn [map sumQ fold_right]; [cbn; ring|]. unfold sumQ in *. rewrite IH. cbn [List.length]. rewrite Qn_S. ring. Qed.
Lemma linspace_mean lo hi n : 2 <= n -> (meanQ (linspace lo hi n) == (lo + hi) / 2)%Q.
Proof.
  intros H. unfold meanQ. rewrite linspace_length. unfold linspace. set (h := ((hi - lo) / Qn (n - 1))%Q).
  assert (E0 : (sumQ (map (fun i => lo + Qn i * h) (seq 0 n)) == sumQ (map (fun i => lo + h * Qn i + 0 * Qn i) (seq 0 n)))%Q) by (apply sumQ_ext; intros; ring). rewrite E0. rewrite (sumQ_lin (fun i => Qn i) (fun i => Qn i)), seq_length. pose proof (sum_i n) as S1.
  assert (N1 : ~ (Qn n == 0)%Q) by (apply Qn_nz; lia). assert (N2 : ~ (Qn (n - 1) == 0)%Q) by (apply Qn_nz; lia). assert (E : (Qn n == Qn (n - 1) + 1)%Q) by (rewrite <- Qn_S; replace (S (n - 1)) with n by lia; reflexivity).
  clear E0. set (s := sumQ (map (fun i => Qn i) (seq 0 n))) in *. assert (Es : (s == (2 * s) / 2)%Q) by field. rewrite S1 in Es. rewrite Es. unfold h. rewrite E in *. field. split; [exact N2|lra].
Qed.
(** the variance of n equidistant points from lo to hi *)
Lemma linspace_var lo hi n : 2 <= n -> (varQ (linspace lo hi n) == (hi - lo) * (hi - lo) * (Qn n + 1) / (12 * (Qn n - 1)))%Q.
Proof.
  intros H. rewrite varQ_eq, linspace_length. set (h := ((hi - lo) / Qn (n - 1))%Q). pose proof (linspace_mean lo hi n H) as Em.
  set (mu := meanQ (linspace lo hi n)) in *. clearbody mu. unfold linspace. rewrite map_map. fold h. match goal with |- (sumQ ?l / _ == _)%Q => assert (E0 : (sumQ l == sumQ (map (fun i => ((lo - hi) / 2) * ((lo - hi) / 2) + ((lo - hi) * h) * Qn i + (h * h) * (Qn i * Qn i)) (seq 0 n)))%Q) by (apply sumQ_ext; intros i _; cbn beta; rewrite Em; field) end. rewrite E0.
  rewrite (sumQ_lin (fun i => Qn i) (fun i => Qn i * Qn i)%Q), seq_length. pose proof (sum_i n) as S1. pose proof (sum_ii n) as S2.
  assert (N1 : ~ (Qn n == 0)%Q) by (apply Qn_nz; lia). assert (N2 : ~ (Qn (n - 1) == 0)%Q) by (apply Qn_nz; lia). assert (E : (Qn n == Qn (n - 1) + 1)%Q) by (rewrite <- Qn_S; replace (S (n - 1)) with n by lia; reflexivity).
  set (s := sumQ (map (fun i => Qn i) (seq 0 n))) in *. clear E0. set (s2 := sumQ (map (fun i => (Qn i * Qn i)%Q) (seq 0 n))) in *. assert (Es : (s == (2 * s) / 2)%Q) by field. rewrite S1 in Es. assert (Es2 : (s2 == (6 * s2) / 6)%Q) by field. rewrite S2 in Es2.
  rewrite Es, Es2. unfold h. rewrite E in *. field. repeat split; first [exact N2|exact N1|lra].
Qed.

(** min and max *)
Lemma minQ_spec l : l <> [] -> In (minQ l) l /\ forall x, In x l -> (minQ l <= x)%Q.
Proof.
  destruct l as [|a l]; [congruence|]. intros _. cbn [minQ]. set (F := fun a b : Q => _).
  assert (H : forall l a, In (fold_left F l a) (a :: l) /\ (fold_left F l a <= a)%Q /\ forall x, In x l -> (fold_left F l a <= x)%Q).
  { clear. induction l as [|b l IH]; intros a; cbn [fold_left]; [split; [left; reflexivity|split; [apply Qle_refl|intros ? []]]|].
    destruct (IH (F a b)) as (I1 & I2 & I3). destruct (Qle_bool a b) eqn:E; [assert (EF : F a b = a) by (unfold F; rewrite E; reflexivity)|assert (EF : F a b = b) by (unfold F; rewrite E; reflexivity)]; rewrite EF in *.
    - apply Qle_bool_iff in E. split; [|split; [exact I2|]].
      + destruct I1 as [X|X]; [left; exact X|right; right; exact X].
      + intros x [<-|X]; [eapply Qle_trans; eassumption|auto].
    - assert (Eb : (b <= a)%Q) by (destruct (Qlt_le_dec a b) as [Y|Y]; [apply Qlt_le_weak, Qle_bool_iff in Y; congruence|exact Y]). split; [|split; [eapply Qle_trans; eassumption|]].
      + destruct I1 as [X|X]; [right; left; exact X|right; right; exact X].
      + intros x [<-|X]; auto. }
  destruct (H l a) as (H1 & H2 & H3). split; [exact H1|]. intros x [<-|X]; auto.
Qed.
Lemma maxQ_spec l : l <> [] -> In (maxQ l) l /\ forall x, In x l -> (x <= maxQ l)%Q.
Proof.
  destruct l as [|a l]; [congruence|]. intros _. cbn [maxQ]. set (F := fun a b : Q => _).
  assert (H : forall l a, In (fold_left F l a) (a :: l) /\ (a <= fold_left F l a)%Q /\ forall x, In x l -> (x <= fold_left F l a)%Q).
  { clear. induction l as [|b l IH]; intros a; cbn [fold_left]; [split; [left; reflexivity|split; [apply Qle_refl|intros ? []]]|].
    destruct (IH (F a b)) as (I1 & I2 & I3). destruct (Qle_bool a b) eqn:E; [assert (EF : F a b = b) by (unfold F; rewrite E; reflexivity)|assert (EF : F a b = a) by (unfold F; rewrite E; reflexivity)]; rewrite EF in *.
    - apply Qle_bool_iff in E. split; [|split; [eapply Qle_trans; eassumption|]].
      + destruct I1 as [X|X]; [right; left; exact X|right; right; exact X].
      + intros x [<-|X]; auto.
    - assert (Eb : (b <= a)%Q) by (destruct (Qlt_le_dec a b) as [Y|Y]; [apply Qlt_le_weak, Qle_bool_iff in Y; congruence|exact Y]). split; [|split; [exact I2|]].
      + destruct I1 as [X|X]; [left; exact X|right; right; exact X].
      + intros x [<-|X]; [eapply Qle_trans; eassumption|auto]. }
  destruct (H l a) as (H1 & H2 & H3). split; [exact H1|]. intros x [<-|X]; auto.
Qed.

Section P.
Context {M : Type}.
Variables (sd : list Q -> Q) (D : M -> list nat -> list Q -> Q) (in_dim : M -> option nat) (runs : M -> nat -> bool) (one_output : M -> bool)
  (file : pystr -> option M) (fitnet : list (list Q * Q) -> M) (shuffle : nat -> list nat) (fd : arr Q -> Q -> nat -> res (arr Q)).
Local Notation options := (options M).
Local Notation config := (@config (arr Q)).
Local Notation build_context := (build_context sd M D in_dim runs one_output file fitnet shuffle fd).
Local Notation load_data := (load_data sd M D file).
Local Notation metadata := (metadata sd M D file).

(** a refined axis: r times as many points, from the smallest to the largest coordinate, equally spaced *)
Definition refined (r : nat) (c c' : list Q) : Prop :=
  List.length c' = r * List.length c /\
  exists lo hi, (In lo c /\ forall x, In x c -> (lo <= x)%Q) /\ (In hi c /\ forall x, In x c -> (x <= hi)%Q) /\
  (c' <> [] -> (nth 0 c' 0 == lo)%Q) /\ (2 <= List.length c' -> (nth (List.length c' - 1) c' 0 == hi)%Q) /\
  (forall i, S i < List.length c' -> (nth (S i) c' 0 - nth i c' 0 == (hi - lo) / Qn (List.length c' - 1))%Q).
Lemma linspace_refined r c : c <> [] -> refined r c (linspace (minQ c) (maxQ c) (r * List.length c)).
Proof.
  intros Hc. split; [apply linspace_length|]. exists (minQ c), (maxQ c). split; [apply minQ_spec, Hc|]. split; [apply maxQ_spec, Hc|]. rewrite linspace_length. set (n := r * List.length c).
  split; [|split].
  - intros Hn. assert (0 < n) by (destruct n; [exfalso; apply Hn; reflexivity|lia]). rewrite linspace_nth by lia. cbn. ring.
  - intros Hn. rewrite linspace_nth by lia. field. apply Qn_nz. lia.
  - intros i Hi. rewrite !linspace_nth by lia. rewrite Qn_S. ring.
Qed.
(** everything metadata does *)
Lemma metadata_ok o u x t w xs ts : metadata o u x t = Ok (w, xs, ts) ->
  exists m, file (o_path M o) = Some m /\ x <> [] /\ t <> [] /\ xs = linspace (minQ x) (maxQ x) (o_fine M o * List.length x) /\ ts = linspace (minQ t) (maxQ t) (o_fine M o * List.length t) /\
    shape w = [List.length xs; List.length ts] /\ let cx := flat (coord_grid xs 0 [List.length xs; List.length ts]) in let ct := flat (coord_grid ts 1 [List.length xs; List.length ts]) in
    forall i j, i < List.length xs -> j < List.length ts ->
      get w [i; j] = Some (if o_normal M o then (D m [] [(nth i xs 0 - meanQ cx) / sd cx; (nth j ts 0 - meanQ ct) / sd ct] * sd (flat u) + meanQ (flat u))%Q else D m [] [nth i xs 0%Q; nth j ts 0%Q]).
Proof.
  unfold SgaAuto.metadata. destruct (file (o_path M o)) as [m|]; [|discriminate]. intros H. assert (NE : x <> [] /\ t <> []) by (destruct x, t; [discriminate H..|split; discriminate]). destruct NE as [Nx Nt].
  assert (Em : forall (A : Type) (p q : A), (match x, t with [], _ | _, [] => p | _, _ => q end) = q) by (intros; destruct x, t; congruence). rewrite Em in H. cbn zeta in H.
  set (n := o_fine M o * List.length x) in *. set (k := o_fine M o * List.length t) in *. set (xn := linspace (minQ x) (maxQ x) n) in *. set (tn := linspace (minQ t) (maxQ t) k) in *.
  set (X := stack (n * k) _) in H. set (st := mkStats _ _ _ _) in H.
  assert (Lx : List.length xn = n) by apply linspace_length. assert (Lt : List.length tn = k) by apply linspace_length.
  injection H as <- <- <-. exists m. split; [reflexivity|]. split; [exact Nx|]. split; [exact Nt|]. split; [reflexivity|]. split; [reflexivity|]. rewrite Lx, Lt. split; [reflexivity|]. cbn zeta. intros i j Hi Hj.
  assert (Ib : inb [n; k] [i; j]) by (repeat constructor; assumption). pose proof (ravel_lt _ _ Ib) as RL. cbn [prod fold_right] in RL. rewrite Nat.mul_1_r in RL.
  assert (LX : List.length X = n * k) by apply stack_length.
  assert (NX : nth_error X (ravel [n; k] [i; j]) = Some [nth i xn 0%Q; nth j tn 0%Q]).
  { rewrite (nth_error_nth' X []) by (rewrite LX; exact RL). f_equal. unfold X. rewrite stack_nth by exact RL. cbn [map]. rewrite !(coord_grid_flat _ _ _ _ Ib). reflexivity. }
  unfold get. cbn [shape flat]. rewrite (map_nth_error _ _ _ NX). f_equal. destruct (o_normal M o); [|reflexivity].
  assert (C : columns 2 X = [flat (coord_grid xn 0 [n; k]); flat (coord_grid tn 1 [n; k])]).
  { unfold columns. cbn [seq map]. f_equal; [|f_equal]; apply (nth_ext _ _ 0%Q 0%Q).
    - rewrite map_length, LX. unfold coord_grid, tabulate. cbn [flat]. rewrite map_length, seq_length. cbn [prod fold_right]. lia.
    - rewrite map_length, LX. intros q Hq. rewrite (nth_indep _ 0%Q (nth 0 (nth (n*k) X []) 0%Q)) by (rewrite map_length; lia). rewrite (nth_indep _ _ (nth 0 ([] : list Q) 0%Q)) by (rewrite map_length; lia). rewrite (map_nth (fun r : list Q => nth 0 r 0%Q)). unfold X. rewrite stack_nth by exact Hq. reflexivity.
    - rewrite map_length, LX. unfold coord_grid, tabulate. cbn [flat]. rewrite map_length, seq_length. cbn [prod fold_right]. lia.
    - rewrite map_length, LX. intros q Hq. rewrite (nth_indep _ _ (nth 1 ([] : list Q) 0%Q)) by (rewrite map_length; lia). rewrite (map_nth (fun r : list Q => nth 1 r 0%Q)). unfold X. rewrite stack_nth by exact Hq. reflexivity. }
  unfold st. rewrite C. cbn [y_std y_mean map]. unfold norm_row. cbn [x_mean x_std map combine fst snd]. reflexivity.
Qed.

(** cropping of a configuration *)
Definition cropped (cf : config) (axes : list pystr) : config :=
  with_data cf (map (fun f => (fst f, crop_axis (index_of x_name axes) (snd f))) (c_fields cf))
    (map (fun c => (fst c, if streq (fst c) x_name then crop_list (snd c) else snd c)) (c_coords cf)).
(** the two steps of loading *)
Lemma load_steps o cf L : load_data o cf = Ok L -> exists c1 : config,
  l_axes L = (match c_axis_order cf with [] => keys (c_coords cf) | l => l end) /\
  (if o_metadata M o then l_axes L = [x_name; t_name] /\ List.length (c_fields cf) = 1 /\ exists md, metadata o (l_u0 L) (coord_of (c_coords cf) x_name) (coord_of (c_coords cf) t_name) = Ok md /\
       c1 = with_data cf [(c_target cf, fst (fst md))] [(x_name, snd (fst md)); (t_name, snd md)]
   else c1 = cf) /\
  (if o_edges M o then List.length (l_axes L) = 2 /\ In x_name (l_axes L) /\ l_cf L = cropped c1 (l_axes L) else l_cf L = c1) /\
  (exists ds, registry c1 (l_axes L) = Ok ds).
Proof.
  intros H. destruct (load_ok sd D file o cf L H) as (A1 & A2 & A3 & A4 & A5 & A6 & A7 & A8). revert H. rewrite <- A1. unfold SgaAuto.load_data. rewrite <- A1. set (axes := l_axes L) in *. clearbody axes. clear A1.
  assert (NE : axes <> []) by (apply primary_ok in A4; destruct A4 as [X _]; intros ->; exact X). rewrite nonempty_match by exact NE. rewrite A3. cbn [bind]. rewrite A7.
  destruct (resolve_primary cf axes) as [pr|] eqn:P; [|discriminate]. cbn [bind].
  match goal with |- bind ?X _ = _ -> _ => set (MD := X) end.
  assert (HM : forall L1, MD = Ok L1 -> (if o_metadata M o then axes = [x_name; t_name] /\ List.length (c_fields cf) = 1 /\ exists md, metadata o (l_u0 L) (coord_of (c_coords cf) x_name) (coord_of (c_coords cf) t_name) = Ok md /\
       l_cf L1 = with_data cf [(c_target cf, fst (fst md))] [(x_name, snd (fst md)); (t_name, snd md)] else l_cf L1 = cf) /\ exists ds, registry (l_cf L1) axes = Ok ds).
  { intros L1. unfold MD. destruct (o_metadata M o).
    - destruct axes as [|a [|b [|c axes']]]; try discriminate. destruct (streq a x_name && streq b t_name) eqn:Eab; [|discriminate]. apply andb_prop in Eab. destruct Eab as [Ea Eb]. apply streq_eq in Ea, Eb. subst a b.
      destruct (Nat.eqb _ 1) eqn:E1; [|discriminate]. apply Nat.eqb_eq in E1.
      destruct (metadata o (l_u0 L) _ _) as [md|]; [|discriminate]. cbn [bind]. cbn zeta. destruct (registry (with_data _ _ _) [_; _]) as [dl'|] eqn:R'; [|discriminate]. cbn [bind]. intros HL. injection HL as <-. cbn [l_cf]. split; [|eauto]. split; [reflexivity|]. split; [exact E1|]. exists md. auto.
    - intros HL. injection HL as <-. cbn [l_cf]. split; [reflexivity|]. eauto. }
  clearbody MD. destruct MD as [L1|]; [|discriminate]. cbn [bind]. destruct (HM L1 eq_refl) as (U1 & U2). clear HM. intros H. exists (l_cf L1). split; [reflexivity|]. split; [exact U1|]. split; [|exact U2]. revert H.
  destruct (o_edges M o).
  - destruct (Nat.eqb (List.length (grid_shape_of (c_coords (l_cf L1)) axes)) 2) eqn:E2; [|discriminate]. apply Nat.eqb_eq in E2. unfold grid_shape_of in E2. rewrite map_length in E2. cbn [negb]. destruct (inl x_name axes) eqn:Ix; [|discriminate]. apply inl_In in Ix. cbn [negb].
    cbn zeta. match goal with |- context [registry ?C axes] => set (cf' := C) end. destruct (registry cf' axes) as [dl'|] eqn:R'; [|discriminate]. cbn [bind].
    destruct (resolve_primary cf' axes) as [p'|] eqn:P'; [|discriminate]. cbn [bind]. intros HL. injection HL as HL. rewrite <- HL. cbn [l_cf]. split; [exact E2|]. split; [exact Ix|reflexivity].
  - intros HL. injection HL as <-. reflexivity.
Qed.

(** ** C138 *)
(** use_metadata replaces the data by a refined grid with fine_ratio times as many points along both axes
    and the values of the checkpoint's network there; the given data are kept as the original ones. *)
Theorem C138_refined_grid o cf L : load_data o cf = Ok L -> o_metadata M o = true -> o_edges M o = false ->
  l_axes L = [x_name; t_name] /\ l_coords0 L = c_coords cf /\ dget (c_fields cf) (c_target cf) = Some (l_u0 L) /\
  exists x t xs ts w m, dget (c_coords cf) x_name = Some x /\ dget (c_coords cf) t_name = Some t /\
    refined (o_fine M o) x xs /\ refined (o_fine M o) t ts /\ c_coords (l_cf L) = [(x_name, xs); (t_name, ts)] /\
    c_fields (l_cf L) = [(c_target cf, w)] /\ shape w = [List.length xs; List.length ts] /\ file (o_path M o) = Some m /\
    exists mx vx sx mt vt st, (mx == meanQ xs)%Q /\ (vx == varQ xs)%Q /\ (mt == meanQ ts)%Q /\ (vt == varQ ts)%Q /\
      (exists cx, sx = sd cx /\ varQ cx = vx) /\ (exists ct, st = sd ct /\ varQ ct = vt) /\
      forall i j, i < List.length xs -> j < List.length ts -> get w [i; j] = Some
        (if o_normal M o then (D m [] [(nth i xs 0 - mx) / sx; (nth j ts 0 - mt) / st] * sd (flat (l_u0 L)) + meanQ (flat (l_u0 L)))%Q
         else D m [] [nth i xs 0%Q; nth j ts 0%Q]).
Proof.
  intros H Hm He. destruct (load_ok sd D file o cf L H) as (A1 & A2 & A3 & A4 & A5 & A6 & A7 & A8). destruct (load_steps o cf L H) as (c1 & B1 & B2 & B3 & _). rewrite Hm in B2. rewrite He in B3. destruct B2 as (B2 & B4 & md & B5 & ->).
  split; [exact B2|]. split; [exact A6|]. split; [exact A7|]. destruct md as [[w xs] ts]. destruct (metadata_ok o _ _ _ _ _ _ B5) as (m & F1 & Nx & Nt & Ex & Et & Sw & V).
  assert (Cx : exists x, dget (c_coords cf) x_name = Some x /\ coord_of (c_coords cf) x_name = x) by (unfold coord_of in *; destruct (dget (c_coords cf) x_name); [eauto|congruence]). destruct Cx as (x & Cx & Cx'). rewrite Cx' in *.
  assert (Ct : exists x, dget (c_coords cf) t_name = Some x /\ coord_of (c_coords cf) t_name = x) by (unfold coord_of in *; destruct (dget (c_coords cf) t_name); [eauto|congruence]). destruct Ct as (t & Ct & Ct'). rewrite Ct' in *.
  exists x, t, xs, ts, w, m. split; [exact Cx|]. split; [exact Ct|]. split; [rewrite Ex; apply linspace_refined, Nx|]. split; [rewrite Et; apply linspace_refined, Nt|]. rewrite B3. cbn [with_data c_coords c_fields fst snd]. split; [reflexivity|]. split; [reflexivity|]. split; [exact Sw|]. split; [exact F1|].
  cbn zeta in V. set (cx := flat (coord_grid xs 0 _)) in V. set (ct := flat (coord_grid ts 1 _)) in V.
  exists (meanQ cx), (varQ cx), (sd cx), (meanQ ct), (varQ ct), (sd ct).
  assert (Fine : o_fine M o = 0 \/ o_fine M o <> 0) by lia. destruct Fine as [F0|F0].
  - assert (X0 : xs = []) by (rewrite Ex, F0; reflexivity). assert (T0 : ts = []) by (rewrite Et, F0; reflexivity). subst cx ct. rewrite X0, T0. cbn [List.length]. split; [reflexivity|]. split; [reflexivity|]. split; [reflexivity|]. split; [reflexivity|]. split; [eauto|]. split; [eauto|]. intros i j Hi. lia.
  - assert (X0 : xs <> []) by (intros E; apply (f_equal (@List.length Q)) in E; rewrite Ex, linspace_length in E; cbn in E; destruct x; [congruence|cbn in E; lia]).
    assert (T0 : ts <> []) by (intros E; apply (f_equal (@List.length Q)) in E; rewrite Et, linspace_length in E; cbn in E; destruct t; [congruence|cbn in E; lia]).
    assert (Xl : 0 < List.length xs) by (destruct xs; [congruence|cbn; lia]). assert (Tl : 0 < List.length ts) by (destruct ts; [congruence|cbn; lia]).
    destruct (stats_x xs (List.length ts) X0 Tl) as [Y1 Y2]. destruct (stats_t ts (List.length xs) T0 Xl) as [Y3 Y4].
    split; [exact Y1|]. split; [exact Y2|]. split; [exact Y3|]. split; [exact Y4|]. split; [eauto|]. split; [eauto|]. exact V.
Qed.
(** Without the checkpoint file the process exits (SystemExit), whatever the data; other axes than x, t
    in this order, or a second field, are a NotImplementedError. *)
Theorem C138_refused o cf L0 : load_data (mkOptions M false (o_edges M o) (o_autograd M o) (o_normal M o) (o_fine M o) (o_ratio M o) (o_path M o) (o_fields M o) (o_models M o) (o_model M o) (o_paths M o)) cf = Ok L0 -> o_metadata M o = true ->
  (l_axes L0 <> [x_name; t_name] \/ List.length (c_fields cf) <> 1 -> load_data o cf = Err NotImplementedError) /\
  (l_axes L0 = [x_name; t_name] -> List.length (c_fields cf) = 1 -> file (o_path M o) = None -> load_data o cf = Err OtherError).
Proof.
  intros H Hm. destruct (load_ok sd D file _ cf L0 H) as (A1 & A2 & A3 & A4 & A5 & A6 & A7 & A8). assert (NE : l_axes L0 <> []) by (apply primary_ok in A4; destruct A4 as [X _]; intros E; rewrite E in X; exact X).
  rewrite (resolve_primary_same _ _ _ A5) in A4. unfold SgaAuto.load_data. rewrite <- A1, nonempty_match by exact NE. rewrite A3. cbn [bind]. rewrite A7, A4. cbn [bind]. rewrite Hm. split.
  - intros Bad. destruct (l_axes L0) as [|a [|b [|c l]]]; try reflexivity. destruct (streq a x_name && streq b t_name) eqn:E; [|reflexivity]. apply andb_prop in E. destruct E as [E1 E2]. apply streq_eq in E1, E2. subst a b.
    destruct (Nat.eqb_spec (List.length (c_fields cf)) 1) as [E3|E3]; [|reflexivity]. exfalso. destruct Bad as [Bad|Bad]; [apply Bad; reflexivity|contradiction].
  - intros -> L1 F. rewrite !streq_refl. cbn [andb]. rewrite L1. cbn [Nat.eqb]. unfold SgaAuto.metadata. rewrite F. reflexivity.
Qed.
End P.

(** The refined grid is standardised with its own deviation.  On a uniform axis that deviation is smaller
    than the one of the training grid, so a network trained on the original data sees every coordinate
    stretched, and the end points of the interval lie outside the range it was trained on. *)
Theorem C138_scale_refuted lo hi n r s s' : (lo < hi)%Q -> 2 <= n -> 2 <= r -> (0 < s)%Q -> (0 < s')%Q ->
  (s * s == varQ (linspace lo hi n))%Q -> (s' * s' == varQ (linspace lo hi (r * n)))%Q ->
  (meanQ (linspace lo hi (r * n)) == meanQ (linspace lo hi n))%Q /\
  ((hi - meanQ (linspace lo hi n)) / s < (hi - meanQ (linspace lo hi (r * n))) / s')%Q.
Proof.
  intros Hl Hn Hr S1 S2 V1 V2. assert (Hrn : 2 <= r * n) by nia. rewrite linspace_var in V1, V2 by assumption. rewrite !linspace_mean by assumption. split; [reflexivity|].
  assert (HN : (2 <= Qn n)%Q) by (apply (Qn_le 2), Hn). assert (HR : (Qn n < Qn (r * n))%Q) by (apply Qn_lt; nia).
  assert (Lt : (s' < s)%Q).
  { destruct (Qlt_le_dec s' s) as [X|X]; [exact X|]. exfalso. assert (Y : (s * s <= s' * s')%Q) by nra.
    rewrite V1, V2 in Y. set (a := Qn n) in *. set (b := Qn (r * n)) in *. set (d := ((hi - lo) * (hi - lo))%Q) in *. assert (Hd : (0 < d)%Q) by (unfold d; nra).
    assert (Ey1 : (d * (a + 1) / (12 * (a - 1)) == d / 12 + (d / 6) / (a - 1))%Q) by (field; lra). assert (Ey2 : (d * (b + 1) / (12 * (b - 1)) == d / 12 + (d / 6) / (b - 1))%Q) by (field; lra).
    rewrite Ey1, Ey2 in Y. assert (Z1 : ((d / 6) / (b - 1) < (d / 6) / (a - 1))%Q); [|lra].
    apply Qlt_shift_div_l; [lra|]. assert (Z2 : ((d / 6) / (b - 1) * (a - 1) == (d / 6) * ((a - 1) / (b - 1)))%Q) by (field; lra). rewrite Z2.
    assert (Z3 : ((a - 1) / (b - 1) < 1)%Q) by (apply Qlt_shift_div_r; lra). assert (0 < d / 6)%Q by (apply Qlt_shift_div_l; lra). nra. }
  set (e := (hi - (lo + hi) / 2)%Q). assert (He : (0 < e)%Q) by (unfold e; assert (Eh : (hi - (lo + hi) / 2 == (hi - lo) / 2)%Q) by field; rewrite Eh; apply Qlt_shift_div_l; lra).
  apply Qlt_shift_div_l; [exact S2|]. assert (Z : (e / s * s' == e * (s' / s))%Q) by (field; lra). rewrite Z. assert (Z3 : (s' / s < 1)%Q) by (apply Qlt_shift_div_r; lra). nra.
Qed.
(** two points and fine_ratio 13: deviation 1/2 in training, 3/10 on the refined grid; the right end is 1 in training and 5/3 afterwards *)
Theorem C138_scale_witness : ((1 # 2) * (1 # 2) == varQ (linspace 0 1 2))%Q /\ ((3 # 10) * (3 # 10) == varQ (linspace 0 1 (13 * 2)))%Q /\
  ((1 - meanQ (linspace 0 1 2)) / (1 # 2) == 1)%Q /\ ((1 - meanQ (linspace 0 1 (13 * 2))) / (3 # 10) == 5 # 3)%Q.
Proof. rewrite !linspace_var, !linspace_mean by lia. repeat split; vm_compute; reflexivity. Qed.

(** ** C139 *)
Lemma edges_le n : lo_edge n <= hi_edge n /\ hi_edge n <= n.
Proof.
  unfold lo_edge, hi_edge. split; [apply Nat.div_le_mono; lia|]. apply Nat.div_le_upper_bound; lia.
Qed.
Lemma crop_length {B} (l : list B) : List.length (crop_list l) = hi_edge (List.length l) - lo_edge (List.length l).
Proof. unfold crop_list. pose proof (edges_le (List.length l)). rewrite firstn_length, skipn_length. lia. Qed.
Lemma nth_firstn' {B} (d : B) : forall n l i, i < n -> nth i (firstn n l) d = nth i l d.
Proof. induction n as [|n IH]; intros l i H; [lia|]. destruct l, i; cbn; auto. apply IH. lia. Qed.
Lemma nth_skipn' {B} (d : B) : forall n l i, nth i (skipn n l) d = nth (n + i) l d.
Proof. induction n as [|n IH]; intros l i; [reflexivity|]. destruct l; cbn [skipn Nat.add nth]; [destruct i; reflexivity|apply IH]. Qed.
Lemma crop_nth (l : list Q) i : i < List.length (crop_list l) -> nth i (crop_list l) 0%Q = nth (lo_edge (List.length l) + i) l 0%Q.
Proof. intros H. rewrite crop_length in H. unfold crop_list. rewrite nth_firstn' by exact H. apply nth_skipn'. Qed.
(** a cell of the cropped grid and the cell it was: the position along x moves by the number of deleted leading points *)
Definition moved (axes : list pystr) (k : nat) (idx : list nat) : list nat :=
  map (fun p => if streq (fst p) x_name then k + snd p else snd p) (combine axes idx).
Lemma nth_moved k : forall axes idx i, List.length idx = List.length axes -> i < List.length axes ->
  nth i (moved axes k idx) 0 = if streq (nth i axes []) x_name then k + nth i idx 0 else nth i idx 0.
Proof.
  induction axes as [|a axes IH]; intros [|j idx] i L H; cbn in L, H; try lia. destruct i as [|i]; [reflexivity|]. unfold moved. cbn [combine map nth]. apply IH; lia.
Qed.
Lemma nth_shape coords axes i : i < List.length axes -> nth i (grid_shape_of coords axes) 0 = List.length (coord_of coords (nth i axes [])).
Proof.
  intros H. unfold grid_shape_of. rewrite (nth_indep _ 0 (List.length (coord_of coords []))) by (rewrite map_length; exact H). apply (map_nth (fun a => List.length (coord_of coords a))).
Qed.
Lemma moved_set axes k idx ax : NoDup axes -> List.length idx = List.length axes -> index_of x_name axes = ax -> In x_name axes ->
  firstn ax idx ++ [nth ax idx 0 + k] ++ skipn (S ax) idx = moved axes k idx.
Proof.
  intros N. revert idx ax. induction N as [|a axes Na N IH]; intros idx ax L E Hin; [destruct Hin|]. destruct idx as [|i idx]; [discriminate|]. cbn in L. cbn [index_of] in E. unfold moved. cbn [combine map fst snd].
  destruct (streq a x_name) eqn:Ex.
  - apply streq_eq in Ex. subst a ax. cbn [firstn nth skipn app]. f_equal; [lia|]. clear -Na L. revert axes L Na. induction idx as [|j idx IH]; intros [|b axes] L Na; try discriminate; [reflexivity|]. cbn [combine map fst snd].
    destruct (streq b x_name) eqn:Eb; [apply streq_eq in Eb; subst b; exfalso; apply Na; left; reflexivity|]. f_equal. cbn in L. apply IH; [lia|]. intros X. apply Na. right. exact X.
  - subst ax. cbn [firstn nth skipn app]. f_equal. destruct Hin as [->|Hin]; [rewrite streq_refl in Ex; discriminate|]. apply (IH idx _ ltac:(lia) eq_refl Hin).
Qed.
Lemma cropped_coord cf axes a : dget (c_coords (cropped cf axes)) a = option_map (fun c => if streq a x_name then crop_list c else c) (dget (c_coords cf) a).
Proof.
  unfold cropped, with_data. cbn [c_coords]. induction (c_coords cf) as [|[b c] l IH]; cbn [map dget fst snd]; [reflexivity|]. destruct (streq b a) eqn:E; [|exact IH]. apply streq_eq in E. subst b. reflexivity.
Qed.
Lemma set_nth_shape (axes : list pystr) (s : list nat) n' : NoDup axes -> In x_name axes -> List.length s = List.length axes ->
  firstn (index_of x_name axes) s ++ [n'] ++ skipn (S (index_of x_name axes)) s = map (fun p => if streq (fst p) x_name then n' else snd p) (combine axes s).
Proof.
  intros N. revert s. induction N as [|a axes Na N IH]; intros s Hin L; [destruct Hin|]. destruct s as [|i s]; [discriminate|]. cbn in L. cbn [index_of combine map fst snd].
  destruct (streq a x_name) eqn:Ex.
  - apply streq_eq in Ex. subst a. cbn [firstn skipn app]. f_equal. clear -Na L. revert axes L Na. induction s as [|j s IH]; intros [|b axes] L Na; try discriminate; [reflexivity|]. cbn [combine map fst snd].
    destruct (streq b x_name) eqn:Eb; [apply streq_eq in Eb; subst b; exfalso; apply Na; left; reflexivity|]. f_equal. cbn in L. apply IH; [lia|]. intros X. apply Na. right. exact X.
  - cbn [firstn skipn app]. f_equal. destruct Hin as [->|Hin]; [rewrite streq_refl in Ex; discriminate|]. apply IH; [exact Hin|lia].
Qed.
Section E.
Context {M : Type}.
Variables (sd : list Q -> Q) (D : M -> list nat -> list Q -> Q) (in_dim : M -> option nat) (runs : M -> nat -> bool) (one_output : M -> bool)
  (file : pystr -> option M) (fitnet : list (list Q * Q) -> M) (shuffle : nat -> list nat) (fd : arr Q -> Q -> nat -> res (arr Q)).
Local Notation options := (options M).
Local Notation config := (@config (arr Q)).
Local Notation build_context := (build_context sd M D in_dim runs one_output file fitnet shuffle fd).
Local Notation load_data := (load_data sd M D file).
(** [delete_edges] drops the first n/10 and all but the first 9n/10 points along x of n, of the coordinate x and of
    every field, and nothing else: each remaining cell keeps its coordinates and its values. *)
Theorem C139_kept o cf L : load_data o cf = Ok L -> o_edges M o = true -> o_metadata M o = false ->
  let axes := l_axes L in let new := l_cf L in
  List.length axes = 2 /\ In x_name axes /\ keys (c_fields new) = keys (c_fields cf) /\ l_coords0 L = c_coords cf /\ dget (c_fields cf) (c_target cf) = Some (l_u0 L) /\
  exists x x', dget (c_coords cf) x_name = Some x /\ dget (c_coords new) x_name = Some x' /\ let n := List.length x in
    List.length x' = 9 * n / 10 - n / 10 /\ (forall i, i < List.length x' -> nth i x' 0%Q = nth (n / 10 + i) x 0%Q) /\
    (forall a, a <> x_name -> dget (c_coords new) a = dget (c_coords cf) a) /\
    forall f v, dget (c_fields cf) f = Some v -> wfa v -> exists w, dget (c_fields new) f = Some w /\ shape w = grid_shape_of (c_coords new) axes /\
      forall idx, inb (shape w) idx -> get w idx = get v (moved axes (n / 10) idx) /\ get w idx <> None /\
        cell (c_coords new) axes idx = cell (c_coords cf) axes (moved axes (n / 10) idx).
Proof.
  intros H He Hm. destruct (load_ok sd D file o cf L H) as (A1 & A2 & A3 & A4 & A5 & A6 & A7 & A8). destruct (load_steps sd D file o cf L H) as (c1 & B1 & B2 & B3 & _). rewrite Hm in B2. rewrite He in B3. subst c1. destruct B3 as (B3 & B4 & B5).
  cbn zeta. set (axes := l_axes L) in *. rewrite B5. split; [exact B3|]. split; [exact B4|]. split; [unfold cropped, with_data, keys; cbn [c_fields]; rewrite map_map; reflexivity|]. split; [exact A6|]. split; [exact A7|].
  apply registry_ok in A3. destruct A3 as (_ & G & _). apply grid_ok in G. destruct G as (N & I & Sh & _). pose proof (proj1 (I _) B4) as Kx. apply dget_key in Kx. destruct Kx as (x & Cx).
  exists x, (crop_list x). split; [exact Cx|]. split; [rewrite cropped_coord, Cx, streq_refl; reflexivity|]. split; [apply crop_length|]. split; [intros i Hi; apply crop_nth, Hi|]. split.
  { intros a Na. rewrite cropped_coord. destruct (streq a x_name) eqn:E; [apply streq_eq in E; contradiction|]. destruct (dget (c_coords cf) a); reflexivity. }
  intros f v Hv Wf. exists (crop_axis (index_of x_name axes) v). split; [unfold cropped, with_data; cbn [c_fields]; rewrite dget_map, Hv; reflexivity|].
  pose proof (Sh f v (dget_In _ _ _ Hv)) as Sv. rewrite grid_shape_same in Sv. destruct (index_of_nth x_name axes B4) as [Ix1 Ix2].
  assert (Ls : List.length (shape v) = List.length axes) by (rewrite Sv; unfold grid_shape_of; apply map_length).
  assert (Nx : nth (index_of x_name axes) (shape v) 0 = List.length x).
  { rewrite Sv. unfold grid_shape_of. rewrite (nth_indep _ 0 (List.length (coord_of (c_coords cf) []))) by (rewrite map_length; exact Ix1). rewrite (map_nth (fun a => List.length (coord_of (c_coords cf) a))). rewrite Ix2. unfold coord_of. rewrite Cx. reflexivity. }
  assert (CO : forall a, coord_of (c_coords (cropped cf axes)) a = if streq a x_name then crop_list x else coord_of (c_coords cf) a).
  { intros a. unfold coord_of. rewrite cropped_coord. destruct (streq a x_name) eqn:E; [apply streq_eq in E; subst a; rewrite Cx; reflexivity|]. destruct (dget (c_coords cf) a); reflexivity. }
  assert (Shw : shape (crop_axis (index_of x_name axes) v) = grid_shape_of (c_coords (cropped cf axes)) axes).
  { unfold crop_axis, tabulate. cbn [shape]. rewrite Nx. rewrite (set_nth_shape axes (shape v) _ N B4 Ls). unfold grid_shape_of in *. rewrite Sv. rewrite (map_ext _ _ (fun a => f_equal (@List.length Q) (CO a))).
    clear -Cx. induction axes as [|a axes IH]; cbn [map combine fst snd]; [reflexivity|]. rewrite IH. f_equal. destruct (streq a x_name); [symmetry; apply crop_length|reflexivity]. }
  split; [exact Shw|]. intros idx Hi. rewrite Shw in Hi. pose proof (inb_length _ _ Hi) as Li. unfold grid_shape_of in Li. rewrite map_length in Li.
  assert (Gw : get (crop_axis (index_of x_name axes) v) idx = Some (match get v (moved axes (List.length x / 10) idx) with Some q => q | None => 0%Q end)).
  { rewrite <- Shw in Hi. unfold crop_axis in Hi |- *. rewrite Nx in *. cbn [shape tabulate] in Hi. rewrite tabulate_get by exact Hi. rewrite (moved_set axes (lo_edge (List.length x)) idx _ N Li eq_refl B4). reflexivity. }
  assert (Im : inb (shape v) (moved axes (List.length x / 10) idx)).
  { rewrite Sv. apply inb_nth in Hi. destruct Hi as [_ Hi]. unfold grid_shape_of in Hi. rewrite map_length in Hi. apply inb_nth. unfold moved, grid_shape_of. rewrite !map_length, combine_length. split; [lia|]. intros i Hlt.
    fold (moved axes (List.length x / 10) idx). rewrite nth_moved by lia.
    fold (grid_shape_of (c_coords cf) axes). fold (grid_shape_of (c_coords (cropped cf axes)) axes) in Hi. rewrite nth_shape by lia.
    specialize (Hi i Hlt). fold (grid_shape_of (c_coords (cropped cf axes)) axes) in Hi. rewrite nth_shape in Hi by lia. rewrite CO in Hi.
    destruct (streq (nth i axes []) x_name) eqn:E; [|exact Hi]. apply streq_eq in E. rewrite E. unfold coord_of. rewrite Cx. rewrite crop_length in Hi. pose proof (edges_le (List.length x)). unfold lo_edge in *. lia. }
  destruct (get_some v _ Wf Im) as (q & Hq). rewrite Gw, Hq. split; [reflexivity|]. split; [discriminate|].
  apply inb_nth in Hi. destruct Hi as [_ Hi]. unfold grid_shape_of in Hi. rewrite map_length in Hi.
  assert (Lm : List.length (moved axes (List.length x / 10) idx) = List.length axes) by (unfold moved; rewrite map_length, combine_length; lia).
  apply (nth_ext _ _ 0%Q 0%Q); [rewrite !cell_length by assumption; reflexivity|]. rewrite cell_length by exact Li. intros i Hlt. rewrite !nth_cell by assumption. rewrite CO.
  specialize (Hi i Hlt). fold (grid_shape_of (c_coords (cropped cf axes)) axes) in Hi. rewrite nth_shape in Hi by lia. rewrite CO in Hi.
  assert (Nm : nth i (moved axes (List.length x / 10) idx) 0 = if streq (nth i axes []) x_name then List.length x / 10 + nth i idx 0 else nth i idx 0).
  { apply nth_moved; lia. }
  rewrite Nm. destruct (streq (nth i axes []) x_name) eqn:E; [|reflexivity]. apply streq_eq in E. rewrite E. rewrite crop_nth by exact Hi. unfold coord_of. rewrite Cx. reflexivity.
Qed.
(** Only two axes, one of them called x. *)
Theorem C139_refused o cf L0 : load_data (mkOptions M (o_metadata M o) false (o_autograd M o) (o_normal M o) (o_fine M o) (o_ratio M o) (o_path M o) (o_fields M o) (o_models M o) (o_model M o) (o_paths M o)) cf = Ok L0 -> o_edges M o = true ->
  (List.length (l_axes L0) <> 2 -> load_data o cf = Err NotImplementedError) /\
  (List.length (l_axes L0) = 2 -> ~ In x_name (l_axes L0) -> load_data o cf = Err ValueError).
Proof.
  intros H He. destruct (load_ok sd D file _ cf L0 H) as (A1 & A2 & A3 & A4 & A5 & A6 & A7 & A8). assert (NE : l_axes L0 <> []) by (apply primary_ok in A4; destruct A4 as [X _]; intros E; rewrite E in X; exact X).
  rewrite (resolve_primary_same _ _ _ A5) in A4. revert H. unfold SgaAuto.load_data. cbn [o_metadata o_edges]. rewrite <- A1, !nonempty_match by exact NE. rewrite A3. cbn [bind]. rewrite A7, A4. cbn [bind]. rewrite He.
  change (SgaAuto.metadata sd M D file (mkOptions M (o_metadata M o) false (o_autograd M o) (o_normal M o) (o_fine M o) (o_ratio M o) (o_path M o) (o_fields M o) (o_models M o) (o_model M o) (o_paths M o))) with (SgaAuto.metadata sd M D file o).
  match goal with |- bind ?X _ = _ -> _ => set (MD := X) end. clearbody MD. destruct MD as [L1|]; [|discriminate]. cbn [bind]. intros [= ->]. unfold grid_shape_of. rewrite map_length. split.
  - intros N2. apply Nat.eqb_neq in N2. rewrite N2. reflexivity.
  - intros E2 Nx. apply Nat.eqb_eq in E2. rewrite E2. apply inl_nIn in Nx. rewrite Nx. reflexivity.
Qed.
(** The configuration object keeps the cropped data, so a second context built from it is cropped again. *)
Theorem C139_config_refuted o cf k k' : build_context o cf = Ok k -> o_edges M o = true -> o_metadata M o = false ->
  build_context o (with_data cf (k_fields M k) (k_coords M k)) = Ok k' ->
  exists x x', dget (c_coords cf) x_name = Some x /\ dget (k_coords M k') x_name = Some x' /\
    let n := List.length x in let m := 9 * n / 10 - n / 10 in List.length x' = 9 * m / 10 - m / 10.
Proof.
  intros H He Hm H'. destruct (build_ok sd D in_dim runs one_output file fitnet shuffle fd o cf k H) as (u & dv & g0 & grad & EL & _ & _ & _ & _ & _ & _ & _ & _ & _ & _ & _ & _ & _ & Kf & Kc).
  destruct (build_ok sd D in_dim runs one_output file fitnet shuffle fd o _ k' H') as (u' & dv' & g0' & grad' & EL' & _ & _ & _ & _ & _ & _ & _ & _ & _ & _ & _ & _ & _ & Kf' & Kc'). rewrite He in *.
  destruct (C139_kept o cf _ EL He Hm) as (_ & _ & _ & _ & _ & x & x1 & X1 & X2 & X3 & _). destruct (C139_kept o _ _ EL' He Hm) as (_ & _ & _ & _ & _ & y & x' & Y1 & Y2 & Y3 & _).
  exists x, x'. split; [exact X1|]. rewrite Kc'. split; [exact Y2|]. cbn zeta in *. cbn [with_data c_coords] in Y1. rewrite Kc, X2 in Y1. injection Y1 as <-. rewrite Y3, X3. reflexivity.
Qed.
End E.
(** five points become four, then three *)
Theorem C139_witness : exists k k', demo_build true = Ok k /\
  build_context sdQ unit netD (fun _ => Some 2) (fun _ _ => true) (fun _ => true) (fun _ => None) (fun _ => tt) (fun n => seq 0 n) (fun a _ _ => Ok a) (demo_options true) (with_data demo_cf (k_fields unit k) (k_coords unit k)) = Ok k' /\
  dget (k_coords unit k) x_name = Some [-7; -1; 1; 7]%Q /\ dget (k_coords unit k') x_name = Some [-7; -1; 1]%Q.
Proof. eexists. eexists. split; [vm_compute; reflexivity|]. split; [vm_compute; reflexivity|]. split; vm_compute; reflexivity. Qed.
Print Assumptions C138_refined_grid.
Print Assumptions C138_refused.
Print Assumptions C138_scale_refuted.
Print Assumptions C138_scale_witness.
Print Assumptions C139_kept.
Print Assumptions C139_refused.
Print Assumptions C139_config_refuted.
Print Assumptions C139_witness.
