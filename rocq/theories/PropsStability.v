(** C146: the stability test of a candidate equation. *)
From Coq Require Import QArith Qabs Lqa.
From Verif Require Import Base SparseReg Stability.
Local Open Scope nat_scope.

(** ** Specification *)
(** what np.random.choice(n, m, replace=True) may return *)
Definition choice (n m : nat) (l : list nat) : Prop := List.length l = m /\ Forall (fun i => i < n) l.
(** the draws of one stability test: 100 rounds, each half of the N rows and ten resamplings of that half *)
Definition drawn (N : nat) (draws : list (list nat * list (list nat))) : Prop :=
  List.length draws = 100 /\ Forall (fun d => choice N (N / 2) (fst d) /\ List.length (snd d) = 10 /\ Forall (choice (N / 2) (N / 2)) (snd d)) draws.
(** the rows and values a draw selects *)
Definition picked {A} (d : A) (l : list A) (idx : list nat) : list A := map (fun i => nth i l d) idx.
(** squared error of the coefficients [w] on some rows *)
Definition square_error (rows : list (list Q)) (ut w : list Q) : Q :=
  fold_right Qplus 0%Q (map (fun p => let e := (snd p - dot (fst p) w)%Q in (e * e)%Q) (combine rows ut)).
Definition optimal (lstsq : list (list Q) -> list Q -> list Q) (k : nat) : Prop :=
  forall rows ut, List.length (lstsq rows ut) = k /\ forall w, List.length w = k -> (square_error rows ut (lstsq rows ut) <= square_error rows ut w)%Q.
(** a standard deviation: not negative, zero exactly when all values are equal *)
Definition deviation (sd : list Q -> Q) : Prop := forall l, (0 <= sd l)%Q /\ ((sd l == 0)%Q <-> forall x y, In x l -> In y l -> (x == y)%Q).
Definition is_zero (o : option Q) : Prop := exists q, o = Some q /\ (q == 0)%Q.
Definition qlen {A} (l : list A) : Q := inject_Z (Z.of_nat (List.length l)).

(** ** Facts *)
Lemma take_ok {A} (d : A) idx l : Forall (fun i => i < List.length l) idx -> take idx l = Ok (picked d l idx).
Proof.
  intros F. unfold take, picked. induction F as [|i idx H F IH]; cbn [mapM map]; [reflexivity|]. rewrite (nth_error_nth' l d H). cbn [bind]. rewrite IH. reflexivity.
Qed.
Lemma picked_length {A} (d : A) l idx : List.length (picked d l idx) = List.length idx.
Proof. apply map_length. Qed.
Lemma mapM_map {A B} (f : A -> res B) (g : A -> B) l : Forall (fun x => f x = Ok (g x)) l -> mapM f l = Ok (map g l).
Proof. induction 1 as [|x l H F IH]; cbn; [reflexivity|]. rewrite H. cbn. rewrite IH. reflexivity. Qed.
Lemma half_lt n : n / 2 <= n.
Proof. apply Nat.div_le_upper_bound; lia. Qed.
(** the coefficients fitted in one round and in its resamplings *)
Section Fit.
Context (lstsq : list (list Q) -> list Q -> list Q).
Definition fitted (ut : list Q) (rows : list (list Q)) (idx : list nat) : list Q := lstsq (picked [] rows idx) (picked 0%Q ut idx).
Definition refitted (ut : list Q) (rows : list (list Q)) (d : list nat * list (list nat)) : list (list Q) :=
  map (fitted (picked 0%Q ut (fst d)) (picked [] rows (fst d))) (snd d).
End Fit.
Lemma round_ok lstsq sd k ut rows N d : List.length ut = N -> List.length rows = N -> choice N (N / 2) (fst d) -> Forall (choice (N / 2) (N / 2)) (snd d) ->
  round_ lstsq sd k ut rows d = Ok (mean_error (picked [] rows (fst d)) (picked 0%Q ut (fst d)) (fitted lstsq ut rows (fst d)),
    match all_some (map (fun i => cv_one sd (map (fun c => nth i c 0%Q) (refitted lstsq ut rows d))) (seq 0 k)) with Some l => mean_opt l | None => None end).
Proof.
  intros LU LR [LI FI] FD. unfold round_. rewrite (take_ok 0%Q) by (rewrite LU; exact FI). cbn [bind]. rewrite (take_ok []) by (rewrite LR; exact FI). cbn [bind].
  unfold calculate_cv. rewrite (mapM_map _ (fitted lstsq (picked 0%Q ut (fst d)) (picked [] rows (fst d)))); [reflexivity|].
  apply Forall_forall. intros idx I. rewrite Forall_forall in FD. destruct (FD idx I) as [_ F]. rewrite (take_ok 0%Q) by (rewrite picked_length, LI; exact F). cbn [bind].
  rewrite (take_ok []) by (rewrite picked_length, LI; exact F). reflexivity.
Qed.
Lemma test_ok lstsq sd k ut rows N draws : List.length ut = N -> List.length rows = N -> drawn N draws ->
  cal_mse_cv lstsq sd k ut rows draws =
    Ok (map (fun d => mean_error (picked [] rows (fst d)) (picked 0%Q ut (fst d)) (fitted lstsq ut rows (fst d))) draws,
        map (fun d => match all_some (map (fun i => cv_one sd (map (fun c => nth i c 0%Q) (refitted lstsq ut rows d))) (seq 0 k)) with Some l => mean_opt l | None => None end) draws).
Proof.
  intros LU LR [_ FD]. unfold cal_mse_cv. rewrite LU, LR, Nat.eqb_refl.
  rewrite (mapM_map _ (fun d => (mean_error (picked [] rows (fst d)) (picked 0%Q ut (fst d)) (fitted lstsq ut rows (fst d)),
    match all_some (map (fun i => cv_one sd (map (fun c => nth i c 0%Q) (refitted lstsq ut rows d))) (seq 0 k)) with Some l => mean_opt l | None => None end))).
  - cbn [bind]. rewrite !map_map. reflexivity.
  - revert FD. apply Forall_impl. intros d (H1 & _ & H2). eapply round_ok; eassumption.
Qed.
Lemma mean_error_some rows ut w : List.length rows = List.length ut -> ut <> [] -> mean_error rows ut w = Some (square_error rows ut w / qlen ut)%Q.
Proof.
  intros L N. unfold mean_error, mean_opt, square_error, qlen. destruct (map _ (combine rows ut)) eqn:E.
  - exfalso. apply (f_equal (@List.length Q)) in E. rewrite map_length, combine_length, L, Nat.min_id in E. destruct ut; [congruence|discriminate].
  - rewrite <- E. do 2 f_equal. rewrite map_length, combine_length, L, Nat.min_id. reflexivity.
Qed.
Lemma sq_pos (e : Q) : (0 <= e * e)%Q.
Proof. destruct (Qlt_le_dec e 0) as [H|H]; nra. Qed.
Lemma square_error_pos rows ut w : (0 <= square_error rows ut w)%Q.
Proof. unfold square_error. induction (combine rows ut) as [|p l IH]; cbn [map fold_right]; [lra|]. pose proof (sq_pos (snd p - dot (fst p) w)). lra. Qed.
Lemma square_error_zero rows : forall ut w, List.length rows = List.length ut -> (square_error rows ut w == 0)%Q <-> Forall2 (fun r y => (y == dot r w)%Q) rows ut.
Proof.
  unfold square_error. induction rows as [|r rows IH]; intros [|y ut] w L; cbn [combine map fold_right fst snd]; try discriminate; [split; [constructor|reflexivity]|].
  cbn in L. injection L as L. pose proof (square_error_pos rows ut w) as P. unfold square_error in P. split.
  - intros H. pose proof (sq_pos (y - dot r w)) as SP. assert (Z1 : ((y - dot r w) * (y - dot r w) == 0)%Q) by lra. constructor; [|apply IH; [exact L|lra]].
    destruct (Qmult_integral _ _ Z1); lra.
  - intros F. inversion F as [|? ? ? ? H1 H2]; subst. apply (IH ut w L) in H2. rewrite H2. rewrite H1. ring.
Qed.

(** ** Theorems *)
(** With as many target values as rows the test always succeeds (no draw is out of range) and returns 100 errors and 100 variations; otherwise ValueError. *)
Theorem C146_total lstsq sd k ut rows draws : drawn (List.length ut) draws ->
  (List.length rows = List.length ut -> exists mse cv, cal_mse_cv lstsq sd k ut rows draws = Ok (mse, cv) /\ List.length mse = 100 /\ List.length cv = 100) /\
  (List.length rows <> List.length ut -> cal_mse_cv lstsq sd k ut rows draws = Err ValueError).
Proof.
  intros D. split.
  - intros L. do 2 eexists. split; [eapply test_ok; [reflexivity|exact L|exact D]|]. rewrite !map_length. destruct D as [D _]. auto.
  - intros L. unfold cal_mse_cv. destruct (Nat.eqb_spec (List.length ut) (List.length rows)); congruence.
Qed.
(** Each error is the smallest possible mean square error on the rows of its draw, over all coefficients. *)
Theorem C146_accuracy lstsq sd k ut rows draws mse cv : drawn (List.length ut) draws -> 2 <= List.length ut -> optimal lstsq k ->
  cal_mse_cv lstsq sd k ut rows draws = Ok (mse, cv) ->
  Forall2 (fun d e => exists q, e = Some q /\ (0 <= q)%Q /\
    (exists w, List.length w = k /\ (q == square_error (picked [] rows (fst d)) (picked 0%Q ut (fst d)) w / inject_Z (Z.of_nat (List.length ut / 2)))%Q) /\
    forall w, List.length w = k -> (q <= square_error (picked [] rows (fst d)) (picked 0%Q ut (fst d)) w / inject_Z (Z.of_nat (List.length ut / 2)))%Q) draws mse.
Proof.
  intros D N2 O H. assert (L : List.length rows = List.length ut) by (destruct (Nat.eq_dec (List.length rows) (List.length ut)) as [E|E]; [exact E|]; rewrite (proj2 (C146_total lstsq sd k ut rows draws D) E) in H; discriminate).
  rewrite (test_ok lstsq sd k ut rows _ draws eq_refl L D) in H. injection H as <- _. destruct D as [_ D]. revert D.
  induction draws as [|d draws IH]; intros F; cbn [map]; constructor; [|apply IH; inversion F; assumption]. inversion F as [|? ? [[LI _] _] _]; subst.
  assert (H2 : 0 < List.length ut / 2) by (apply Nat.div_str_pos; lia).
  assert (LP : List.length (picked 0%Q ut (fst d)) = List.length ut / 2) by (rewrite picked_length; exact LI).
  assert (POS : (0 < inject_Z (Z.of_nat (List.length ut / 2)))%Q) by (change 0%Q with (inject_Z 0); rewrite <- Zlt_Qlt; lia).
  rewrite mean_error_some; [|rewrite !picked_length; reflexivity|intros X; rewrite X in LP; cbn [List.length] in LP; lia].
  unfold qlen. rewrite LP. destruct (O (picked [] rows (fst d)) (picked 0%Q ut (fst d))) as [LW OW].
  assert (DIV : forall a b, (a <= b)%Q -> (a / inject_Z (Z.of_nat (List.length ut / 2)) <= b / inject_Z (Z.of_nat (List.length ut / 2)))%Q).
  { intros a b Hab. unfold Qdiv. apply Qmult_le_compat_r; [exact Hab|]. apply Qinv_le_0_compat. lra. }
  eexists. split; [reflexivity|]. split; [|split].
  - apply Qle_shift_div_l; [exact POS|]. rewrite Qmult_0_l. apply square_error_pos.
  - exists (fitted lstsq ut rows (fst d)). split; [exact LW|reflexivity].
  - intros w Hw. apply DIV. apply OW. exact Hw.
Qed.

(** *** Variation *)
Lemma all_some_map {A B} (f : A -> option B) l r : all_some (map f l) = Some r <-> Forall2 (fun x y => f x = Some y) l r.
Proof.
  revert r. induction l as [|x l IH]; intros r; cbn [map all_some].
  - split; [intros [= <-]; constructor|intros H; inversion H; reflexivity].
  - destruct (f x) as [y|] eqn:E.
    + destruct (all_some (map f l)) as [r'|] eqn:R; cbn [option_map]; split.
      * intros [= <-]. constructor; [exact E|]. apply IH. reflexivity.
      * intros H. inversion H as [|? ? ? ? H1 H2]; subst. apply IH in H2. congruence.
      * discriminate.
      * intros H. inversion H as [|? ? ? ? H1 H2]; subst. apply IH in H2. discriminate.
    + split; [discriminate|]. intros H. inversion H; congruence.
Qed.
Lemma qlen_pos {A} (l : list A) : l <> [] -> (0 < qlen l)%Q.
Proof. intros N. unfold qlen. change 0%Q with (inject_Z 0). rewrite <- Zlt_Qlt. destruct l; [congruence|cbn; lia]. Qed.
Lemma sum_pos l : Forall (fun x => 0 <= x)%Q l -> (0 <= fold_right Qplus 0 l)%Q.
Proof. induction 1; cbn; lra. Qed.
Lemma sum_zero l : Forall (fun x => 0 <= x)%Q l -> (fold_right Qplus 0 l == 0)%Q -> Forall (fun x => x == 0)%Q l.
Proof. induction 1 as [|x l H F IH]; cbn; intros E; constructor; pose proof (sum_pos l F); [lra|apply IH; lra]. Qed.
Lemma zero_sum l : Forall (fun x => x == 0)%Q l -> (fold_right Qplus 0 l == 0)%Q.
Proof. induction 1; cbn; lra. Qed.
Lemma same_sum l a : Forall (fun x => x == a)%Q l -> (fold_right Qplus 0 l == qlen l * a)%Q.
Proof.
  induction 1 as [|x l H F IH]; [cbn; unfold qlen; cbn; ring|]. cbn [fold_right]. cbv beta in H. rewrite IH. unfold qlen. cbn [List.length]. rewrite H. rewrite Nat2Z.inj_succ, <- Z.add_1_r, inject_Z_plus. ring.
Qed.
(** the mean of some coefficients *)
Definition average (l : list Q) : Q := (fold_right Qplus 0 l / qlen l)%Q.
Lemma cv_one_spec sd l : deviation sd -> l <> [] ->
  (cv_one sd l = None <-> (average l == 0)%Q) /\
  (forall q, cv_one sd l = Some q -> (0 <= q)%Q /\ ((q == 0)%Q <-> forall x y, In x l -> In y l -> (x == y)%Q)).
Proof.
  intros D N. unfold cv_one, mean_opt. destruct l as [|a l]; [congruence|]. set (m := (_ / _)%Q). assert (M : average (a :: l) = m) by reflexivity. rewrite M. clearbody m.
  destruct (Qeq_bool m 0) eqn:B.
  - apply Qeq_bool_iff in B. split; [tauto|discriminate].
  - assert (NZ : ~ (m == 0)%Q) by (intros X; apply Qeq_bool_iff in X; congruence). split; [split; [discriminate|tauto]|].
    intros q E0. assert (Q0 : q = Qabs (sd (a :: l) / m)) by congruence. subst q. clear E0. split; [apply Qabs_nonneg|]. destruct (D (a :: l)) as [_ DZ]. rewrite <- DZ. split.
    + intros H.
      assert (Z1 : (sd (a :: l) / m == 0)%Q). { destruct (Qlt_le_dec (sd (a :: l) / m) 0) as [C|C]; [rewrite Qabs_neg in H by lra|rewrite Qabs_pos in H by exact C]; lra. }
      unfold Qdiv in Z1. destruct (Qmult_integral _ _ Z1) as [X|X]; [exact X|]. exfalso. apply NZ. rewrite <- (Qinv_involutive m), X. reflexivity.
    + intros H. rewrite H. unfold Qdiv. rewrite Qmult_0_l. reflexivity.
Qed.
Definition coefficient (i : nat) (fits : list (list Q)) : list Q := map (fun c => nth i c 0%Q) fits.
Lemma pos_sum_mean l : l <> [] -> Forall (fun x => 0 <= x)%Q l -> exists q, mean_opt l = Some q /\ (0 <= q)%Q /\ ((q == 0)%Q <-> Forall (fun x => x == 0)%Q l).
Proof.
  intros N F. unfold mean_opt. destruct l as [|a l]; [congruence|]. eexists. split; [reflexivity|]. pose proof (qlen_pos (a :: l) N) as P. unfold qlen in P. set (n := inject_Z _) in *. clearbody n.
  pose proof (sum_pos _ F) as SP. set (t := fold_right Qplus 0%Q (a :: l)) in *. split; [apply Qle_shift_div_l; lra|]. split.
  - intros E. apply sum_zero; [exact F|]. fold t. assert (T : (t == t / n * n)%Q) by (field; lra). rewrite T, E. ring.
  - intros Z0. apply zero_sum in Z0. fold t in Z0. rewrite Z0. field. lra.
Qed.
Lemma map_nonnil {A B} (f : A -> B) l : l <> [] -> map f l <> [].
Proof. destruct l; [congruence|discriminate]. Qed.
Lemma cv_spec sd k fits : deviation sd -> fits <> [] -> 0 < k ->
  let cv := match all_some (map (fun i => cv_one sd (coefficient i fits)) (seq 0 k)) with Some l => mean_opt l | None => None end in
  (cv = None <-> exists i, i < k /\ (average (coefficient i fits) == 0)%Q) /\
  (forall q, cv = Some q -> (0 <= q)%Q /\ ((q == 0)%Q <-> forall i, i < k -> forall x y, In x (coefficient i fits) -> In y (coefficient i fits) -> (x == y)%Q)).
Proof.
  intros D N K cv. unfold cv. destruct (all_some _) as [l|] eqn:E.
  - apply all_some_map in E. assert (LL : List.length l = k) by (clear - E; assert (X : List.length (seq 0 k) = List.length l) by (induction E; cbn; congruence); rewrite seq_length in X; congruence).
    assert (NL : l <> []) by (intros ->; cbn in LL; lia).
    assert (FI : forall i, i < k -> exists q, In q l /\ cv_one sd (coefficient i fits) = Some q).
    { intros i Hi. assert (I : In i (seq 0 k)) by (apply in_seq; lia). clear - E I. induction E as [|x y xs ys H F IH]; [destruct I|]. destruct I as [<-|I]; [exists y; split; [left; reflexivity|exact H]|]. destruct (IH I) as (q & J & C). exists q. split; [right; exact J|exact C]. }
    assert (FQ : forall q, In q l -> exists i, i < k /\ cv_one sd (coefficient i fits) = Some q).
    { intros q I. assert (G : forall i, In i (seq 0 k) -> i < k) by (intros i X; apply in_seq in X; lia). clear - E I G. induction E as [|x y xs ys H F IH]; [destruct I|]. destruct I as [<-|I]; [exists x; split; [apply G; left; reflexivity|exact H]|]. apply IH; [exact I|]. intros i X. apply G. right. exact X. }
    assert (FP : Forall (fun x => 0 <= x)%Q l). { apply Forall_forall. intros q I. destruct (FQ q I) as (i & _ & C). apply (cv_one_spec sd _ D (map_nonnil _ _ N)) in C. apply C. }
    destruct (pos_sum_mean l NL FP) as (m & Em & Pm & Zm). rewrite Em. split.
    + split; [discriminate|]. intros (i & Hi & A0). exfalso. destruct (FI i Hi) as (q & _ & C). pose proof (proj1 (cv_one_spec sd _ D (map_nonnil (fun c => nth i c 0%Q) _ N))) as X. apply X in A0. unfold coefficient in C. congruence.
    + intros q [= <-]. split; [exact Pm|]. rewrite Zm. split.
      * intros Z0 i Hi. destruct (FI i Hi) as (q & I & C). rewrite Forall_forall in Z0. apply (proj2 (cv_one_spec sd _ D (map_nonnil _ _ N)) q C). apply Z0. exact I.
      * intros S0. apply Forall_forall. intros q I. destruct (FQ q I) as (i & Hi & C). apply (proj2 (cv_one_spec sd _ D (map_nonnil _ _ N)) q C). apply S0. exact Hi.
  - split; [|discriminate]. split; [|reflexivity]. intros _.
    assert (X : exists i, In i (seq 0 k) /\ cv_one sd (coefficient i fits) = None).
    { clear - E. induction (seq 0 k) as [|i l IH]; [discriminate|]. cbn [map all_some] in E. destruct (cv_one sd (coefficient i fits)) eqn:C; [|exists i; split; [left; reflexivity|exact C]].
      destruct (all_some (map _ l)) eqn:E2; [discriminate|]. destruct (IH eq_refl) as (j & I & Cj). exists j. split; [right; exact I|exact Cj]. }
    destruct X as (i & I & C). apply in_seq in I. exists i. split; [lia|]. apply (proj1 (cv_one_spec sd (coefficient i fits) D (map_nonnil _ _ N))). exact C.
Qed.
(** Each variation is not negative, and zero exactly when all ten resamplings of its draw give the same coefficients; it is not a finite number exactly when some
    coefficient averages to zero over them. *)
Theorem C146_variation lstsq sd k ut rows draws mse cv : drawn (List.length ut) draws -> 0 < k -> deviation sd ->
  cal_mse_cv lstsq sd k ut rows draws = Ok (mse, cv) ->
  Forall2 (fun d c => let fits := refitted lstsq ut rows d in
    (c = None <-> exists i, i < k /\ (average (coefficient i fits) == 0)%Q) /\
    (forall q, c = Some q -> (0 <= q)%Q /\ ((q == 0)%Q <-> forall i, i < k -> forall x y, In x (coefficient i fits) -> In y (coefficient i fits) -> (x == y)%Q))) draws cv.
Proof.
  intros D K DV H. assert (L : List.length rows = List.length ut) by (destruct (Nat.eq_dec (List.length rows) (List.length ut)) as [E|E]; [exact E|]; rewrite (proj2 (C146_total lstsq sd k ut rows draws D) E) in H; discriminate).
  rewrite (test_ok lstsq sd k ut rows _ draws eq_refl L D) in H. injection H as _ <-. destruct D as [_ D]. revert D.
  induction draws as [|d draws IH]; intros F; cbn [map]; constructor; [|apply IH; inversion F; assumption]. inversion F as [|? ? [_ [LI _]] _]; subst.
  apply (cv_spec sd k (refitted lstsq ut rows d) DV); [|exact K]. intros X. apply (f_equal (@List.length _)) in X. unfold refitted in X. rewrite map_length, LI in X. discriminate.
Qed.
(** On exact data of an equation whose coefficients the rows of every resampling determine: all errors are zero; all variations are zero when no
    coefficient is, and none of them is a finite number as soon as one coefficient is zero. *)
Theorem C146_exact lstsq sd k ut rows draws mse cv w0 : drawn (List.length ut) draws -> 2 <= List.length ut -> 0 < k -> deviation sd -> optimal lstsq k ->
  List.length w0 = k -> Forall2 (fun r y => (y == dot r w0)%Q) rows ut ->
  (forall d idx, In d draws -> In idx (snd d) -> forall w, List.length w = k ->
     Forall2 (fun r y => (y == dot r w)%Q) (picked [] (picked [] rows (fst d)) idx) (picked 0%Q (picked 0%Q ut (fst d)) idx) -> forall i, i < k -> (nth i w 0 == nth i w0 0)%Q) ->
  cal_mse_cv lstsq sd k ut rows draws = Ok (mse, cv) ->
  Forall is_zero mse /\
  ((forall i, i < k -> ~ (nth i w0 0 == 0)%Q) -> Forall is_zero cv) /\
  ((exists i, i < k /\ (nth i w0 0 == 0)%Q) -> Forall (eq None) cv).
Proof.
  intros D N2 K DV OP LW EX DET H. pose proof (C146_accuracy _ _ _ _ _ _ _ _ D N2 OP H) as ACC. pose proof (C146_variation _ _ _ _ _ _ _ _ D K DV H) as VAR.
  assert (LR : List.length rows = List.length ut) by (clear - EX; induction EX; cbn; congruence).
  assert (POS : (0 < inject_Z (Z.of_nat (List.length ut / 2)))%Q) by (change 0%Q with (inject_Z 0); rewrite <- Zlt_Qlt; assert (0 < List.length ut / 2) by (apply Nat.div_str_pos; lia); lia).
  assert (PK : forall rows ut n idx, Forall2 (fun r y => (y == dot r w0)%Q) rows ut -> List.length ut = n -> Forall (fun i => i < n) idx -> Forall2 (fun r y => (y == dot r w0)%Q) (picked [] rows idx) (picked 0%Q ut idx)).
  { clear. intros rows ut n idx E L F. induction F as [|i idx Hi F IH]; cbn [picked map]; constructor; [|exact IH]. subst n. clear - E Hi. revert i Hi. induction E as [|r y rs ys H F IH]; intros i Hi; [cbn in Hi; lia|]. destruct i as [|i]; [exact H|]. apply IH. cbn in Hi. lia. }
  destruct D as [_ D]. rewrite Forall_forall in D.
  assert (ZM : forall d q, In d draws -> (0 <= q)%Q -> (forall w, List.length w = k -> (q <= square_error (picked [] rows (fst d)) (picked 0%Q ut (fst d)) w / inject_Z (Z.of_nat (List.length ut / 2)))%Q) -> (q == 0)%Q).
  { intros d q I P B. specialize (B w0 LW). destruct (D d I) as ([_ F] & _).
    assert (Z0 : (square_error (picked [] rows (fst d)) (picked 0%Q ut (fst d)) w0 == 0)%Q) by (apply square_error_zero; [rewrite !picked_length; reflexivity|eapply PK; [exact EX|reflexivity|exact F]]).
    rewrite Z0 in B. unfold Qdiv in B. rewrite Qmult_0_l in B. lra. }
  assert (FIT : forall d i x, In d draws -> i < k -> In x (coefficient i (refitted lstsq ut rows d)) -> (x == nth i w0 0)%Q).
  { intros d i x I Hi X. unfold coefficient, refitted in X. rewrite map_map in X. apply in_map_iff in X. destruct X as (idx & <- & J). destruct (D d I) as ([LI FI] & _ & FD). rewrite Forall_forall in FD. destruct (FD idx J) as [_ FJ].
    unfold fitted. destruct (OP (picked [] (picked [] rows (fst d)) idx) (picked 0%Q (picked 0%Q ut (fst d)) idx)) as [LF OF].
    eapply DET; [exact I|exact J|exact LF| |exact Hi]. apply square_error_zero; [rewrite !picked_length; reflexivity|].
    specialize (OF w0 LW). assert (Z0 : (square_error (picked [] (picked [] rows (fst d)) idx) (picked 0%Q (picked 0%Q ut (fst d)) idx) w0 == 0)%Q).
    { apply square_error_zero; [rewrite !picked_length; reflexivity|]. eapply PK; [eapply PK; [exact EX|reflexivity|exact FI]|rewrite picked_length; exact LI|exact FJ]. }
    rewrite Z0 in OF. pose proof (square_error_pos (picked [] (picked [] rows (fst d)) idx) (picked 0%Q (picked 0%Q ut (fst d)) idx) (lstsq (picked [] (picked [] rows (fst d)) idx) (picked 0%Q (picked 0%Q ut (fst d)) idx))). lra. }
  assert (AVG : forall d i, In d draws -> i < k -> (average (coefficient i (refitted lstsq ut rows d)) == nth i w0 0)%Q).
  { intros d i I Hi. unfold average. assert (NN : coefficient i (refitted lstsq ut rows d) <> []).
    { intros X. apply (f_equal (@List.length _)) in X. unfold coefficient, refitted in X. rewrite !map_length in X. destruct (D d I) as (_ & LI & _). rewrite LI in X. discriminate. }
    rewrite (same_sum _ (nth i w0 0%Q)) by (apply Forall_forall; intros x X; eapply FIT; eassumption). pose proof (qlen_pos _ NN). field. lra. }
  clear H. split; [|split].
  - clear - ACC ZM. induction ACC as [|d e ds es (q & -> & P & _ & B) F IH]; constructor.
    + exists q. split; [reflexivity|]. eapply ZM; [left; reflexivity|exact P|exact B].
    + apply IH. intros d0 q0 I. apply ZM. right. exact I.
  - intros NZ. clear - VAR FIT AVG NZ. induction VAR as [|d c ds cs [V1 V2] F IH]; constructor.
    + destruct c as [q|].
      * exists q. split; [reflexivity|]. apply (V2 q eq_refl). intros i Hi x y X Y. rewrite (FIT d i x), (FIT d i y); try assumption; try (left; reflexivity). reflexivity.
      * exfalso. destruct (proj1 V1 eq_refl) as (i & Hi & A). apply (NZ i Hi). rewrite <- (AVG d i); [exact A|left; reflexivity|exact Hi].
    + apply IH; intros; [eapply FIT; try right; eassumption|eapply AVG; try right; eassumption].
  - intros (i & Hi & Z0). clear - VAR AVG Hi Z0. induction VAR as [|d c ds cs [V1 V2] F IH]; constructor.
    + symmetry. apply V1. exists i. split; [exact Hi|]. rewrite (AVG d i); [exact Z0|left; reflexivity|exact Hi].
    + apply IH. intros; eapply AVG; try right; eassumption.
Qed.

(** *** A case: one term, two rows *)
Definition hd_ (r : list Q) : Q := nth 0 r 0%Q.
Definition ex_lstsq (rows : list (list Q)) (ut : list Q) : list Q :=
  let b := fold_right Qplus 0%Q (map (fun p => hd_ (fst p) * snd p)%Q (combine rows ut)) in
  let c := fold_right Qplus 0%Q (map (fun p => hd_ (fst p) * hd_ (fst p))%Q (combine rows ut)) in [(b / c)%Q].
Definition ex_sd (l : list Q) : Q := fold_right Qplus 0%Q (map (fun x => Qabs (x - nth 0 l 0%Q)) l).
Definition ex_draws : list (list nat * list (list nat)) := repeat ([1], repeat [0] 10) 100.
Lemma dot_one r w : (dot r [w] == hd_ r * w)%Q.
Proof. destruct r as [|a [|b r]]; unfold dot, times, hd_; cbn; ring. Qed.
Lemma quad l w : (fold_right Qplus 0 (map (fun p : list Q * Q => let e := snd p - dot (fst p) [w] in e * e) l) ==
  fold_right Qplus 0 (map (fun p => snd p * snd p) l) - 2 * w * fold_right Qplus 0 (map (fun p => hd_ (fst p) * snd p) l) + w * w * fold_right Qplus 0 (map (fun p => hd_ (fst p) * hd_ (fst p)) l))%Q.
Proof. induction l as [|[r y] l IH]; cbn [map fold_right fst snd]; [ring|]. cbv zeta in *. rewrite IH, (dot_one r w). ring. Qed.
Lemma quad_zero l : (fold_right Qplus 0 (map (fun p : list Q * Q => hd_ (fst p) * hd_ (fst p)) l) == 0 -> fold_right Qplus 0 (map (fun p => hd_ (fst p) * snd p) l) == 0)%Q.
Proof.
  intros H. assert (F : Forall (fun x => 0 <= x)%Q (map (fun p : list Q * Q => hd_ (fst p) * hd_ (fst p))%Q l)) by (apply Forall_forall; intros x I; apply in_map_iff in I; destruct I as (p & <- & _); apply sq_pos).
  apply sum_zero in H; [|exact F]. clear F. induction l as [|[r y] l IH]; cbn [map fold_right fst snd] in *; [reflexivity|]. inversion H as [|? ? H1 H2]; subst. rewrite (IH H2). destruct (Qmult_integral _ _ H1) as [X|X]; rewrite X; ring.
Qed.
Lemma ex_optimal : optimal ex_lstsq 1.
Proof.
  intros rows ut. split; [reflexivity|]. intros [|w [|]] L; try discriminate. unfold square_error, ex_lstsq. rewrite !quad.
  set (b := fold_right Qplus 0%Q (map (fun p => hd_ (fst p) * snd p)%Q (combine rows ut))). set (c := fold_right Qplus 0%Q (map (fun p => hd_ (fst p) * hd_ (fst p))%Q (combine rows ut))).
  assert (C : (0 <= c)%Q) by (apply sum_pos, Forall_forall; intros x I; apply in_map_iff in I; destruct I as (p & <- & _); apply sq_pos).
  assert (CZ : (c == 0 -> b == 0)%Q) by apply quad_zero. destruct (Qeq_dec c 0) as [E|E].
  - rewrite (CZ E), E. lra.
  - clearbody b c. set (a := fold_right Qplus 0%Q _). assert (D : (2 * w * b <= w * w * c + b * b / c)%Q).
    { assert (S1 : (0 <= (w * c - b) * (w * c - b) / c)%Q) by (apply Qle_shift_div_l; [lra|]; rewrite Qmult_0_l; apply sq_pos).
      assert (S2 : ((w * c - b) * (w * c - b) / c == w * w * c - 2 * w * b + b * b / c)%Q) by (field; exact E). lra. }
    assert (S3 : (a - 2 * (b / c) * b + b / c * (b / c) * c == a - b * b / c)%Q) by (field; exact E). rewrite S3. lra.
Qed.
Lemma ex_deviation : deviation ex_sd.
Proof.
  intros l. unfold ex_sd. assert (F : Forall (fun x => 0 <= x)%Q (map (fun x => Qabs (x - nth 0 l 0%Q)) l)) by (apply Forall_forall; intros x I; apply in_map_iff in I; destruct I as (p & <- & _); apply Qabs_nonneg).
  split; [apply sum_pos; exact F|]. split.
  - intros H x y X Y. apply sum_zero in H; [|exact F]. rewrite Forall_forall in H.
    assert (G : forall x, In x l -> (x == nth 0 l 0%Q)%Q).
    { intros z I. assert (B : (Qabs (z - nth 0 l 0%Q) == 0)%Q) by (apply H; apply (in_map (fun x => Qabs (x - nth 0 l 0%Q))); exact I).
      destruct (Qlt_le_dec (z - nth 0 l 0%Q) 0) as [C|C]; [rewrite Qabs_neg in B by lra|rewrite Qabs_pos in B by exact C]; lra. }
    rewrite (G x X), (G y Y). reflexivity.
  - intros S0. apply zero_sum. apply Forall_forall. intros z I. apply in_map_iff in I. destruct I as (x & <- & I). destruct l as [|a l]; [destruct I|]. rewrite (S0 x (nth 0 (a :: l) 0%Q) I (or_introl eq_refl)).
    unfold Qminus. rewrite Qplus_opp_r. reflexivity.
Qed.
(** u_t = 2 u_xx on two rows *)
Example C146_exact_case : optimal ex_lstsq 1 /\ deviation ex_sd /\ drawn 2 ex_draws /\ Forall2 (fun r y => (y == dot r [2])%Q) [[1]; [3]]%Q [2; 6]%Q /\
  (forall d idx, In d ex_draws -> In idx (snd d) -> forall w, List.length w = 1 ->
     Forall2 (fun r y => (y == dot r w)%Q) (picked [] (picked [] [[1]; [3]]%Q (fst d)) idx) (picked 0%Q (picked 0%Q [2; 6]%Q (fst d)) idx) -> forall i, i < 1 -> (nth i w 0 == nth i [2] 0)%Q) /\
  match cal_mse_cv ex_lstsq ex_sd 1 [2; 6]%Q [[1]; [3]]%Q ex_draws with Ok (mse, cv) => Forall is_zero mse /\ Forall is_zero cv | Err _ => False end.
Proof.
  split; [exact ex_optimal|]. split; [exact ex_deviation|]. assert (DR : drawn 2 ex_draws).
  { split; [reflexivity|]. apply Forall_forall. intros d I. apply repeat_spec in I. subst d. split; [split; [reflexivity|constructor; [cbn; lia|constructor]]|]. split; [reflexivity|].
    apply Forall_forall. intros x I. apply repeat_spec in I. subst x. split; [reflexivity|constructor; [cbn; lia|constructor]]. }
  split; [exact DR|]. assert (EX : Forall2 (fun r y => (y == dot r [2])%Q) [[1]; [3]]%Q [2; 6]%Q) by (repeat constructor). split; [exact EX|].
  assert (DET : forall d idx, In d ex_draws -> In idx (snd d) -> forall w, List.length w = 1 ->
     Forall2 (fun r y => (y == dot r w)%Q) (picked [] (picked [] [[1]; [3]]%Q (fst d)) idx) (picked 0%Q (picked 0%Q [2; 6]%Q (fst d)) idx) -> forall i, i < 1 -> (nth i w 0 == nth i [2] 0)%Q).
  { intros d idx I J w L F i Hi. apply repeat_spec in I. subst d. apply repeat_spec in J. subst idx. destruct w as [|w [|]]; try discriminate. destruct i; [|lia]. cbn [nth].
    cbn in F. inversion F as [|? ? ? ? H _]; subst. rewrite dot_one in H. unfold hd_ in H. cbn [nth] in H. lra. }
  split; [exact DET|]. destruct (cal_mse_cv _ _ _ _ _ _) as [[mse cv]|] eqn:E.
  - destruct (C146_exact ex_lstsq ex_sd 1 [2; 6]%Q [[1]; [3]]%Q _ _ _ [2]%Q DR (le_n 2) (le_n 1) ex_deviation ex_optimal eq_refl EX DET E) as (A & B & _). split; [exact A|]. apply B. intros i Hi. destruct i; [|lia]. cbn. lra.
  - destruct (proj1 (C146_total ex_lstsq ex_sd 1 [2; 6]%Q [[1]; [3]]%Q ex_draws DR) eq_refl) as (m & c & X & _). congruence.
Qed.
Print Assumptions C146_total.
Print Assumptions C146_accuracy.
Print Assumptions C146_variation.
Print Assumptions C146_exact.
