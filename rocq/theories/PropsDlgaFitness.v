(** C152: the score, the coefficients and the left side DLGA gives a genome. *)
From Coq Require Import QArith Lqa.
From Verif Require Import Base Num Dlga DlgaFacts DlgaEq PropsDlga DlgaFitness.
Local Open Scope Q_scope.
Local Open Scope list_scope.

(** ** Specification *)
Fixpoint sum_to (n : nat) (f : nat -> Q) : Q := match n with O => 0 | S k => sum_to k f + f k end.
(** the i-th entry of  w_0 A_0 + w_1 A_1 + ... *)
Fixpoint comb (A : list (list Q)) (w : list Q) (i : nat) : Q :=
  match A, w with a :: A', x :: w' => x * nth i a 0 + comb A' w' i | _, _ => 0 end.
Fixpoint squares (w : list Q) : Q := match w with [] => 0 | x :: w' => x * x + squares w' end.
(** v is a unit vector for which  A v  is smallest: a last right singular vector of A (n rows, at most n columns) *)
Definition singular (n : nat) (A : list (list Q)) (v : list Q) : Prop :=
  List.length v = List.length A /\ squares v == 1 /\
  forall w, List.length w = List.length A -> sum_to n (fun i => comb A v i * comb A v i) * squares w <= sum_to n (fun i => comb A w i * comb A w i).
(** the product of the library columns named by a module, in row i; the columns of a genome *)
Definition product (th : list (list Q)) (m : list nat) (i : nat) : Q := fold_left (fun x g => x * nth i (nth g th []) 0) m 1.
Definition terms (n : nat) (th : list (list Q)) (g : list (list nat)) : list (list Q) := map (fun m => map (product th m) (seq 0 n)) g.
(** mean squared difference between u and  c_0 term_0 + c_1 term_1 + ... *)
Definition error (n : nat) (u : list Q) (th : list (list Q)) (g : list (list nat)) (c : list Q) : Q :=
  sum_to n (fun i => (nth i u 0 - comb (terms n th g) c i) * (nth i u 0 - comb (terms n th g) c i)) / inject_Z (Z.of_nat n).
Definition mean_square (n : nat) (u : list Q) : Q := sum_to n (fun i => nth i u 0 * nth i u 0) / inject_Z (Z.of_nat n).
(** a library of columns with n rows, a genome over it *)
Definition table (n : nat) (th : list (list Q)) : Prop := Forall (fun c => List.length c = n) th.
Definition over (th : list (list Q)) (g : list (list nat)) : Prop := Forall (Forall (fun x => (x < List.length th)%nat)) g.
Definition genes (g : list (list nat)) : Q := inject_Z (Z.of_nat (List.length (List.concat g))).
(** no non-trivial combination of the columns vanishes *)
Definition independent (n : nat) (G : list (list Q)) : Prop :=
  forall w, List.length w = List.length G -> (forall i, (i < n)%nat -> comb G w i == 0) -> Forall (fun x => x == 0) w.
(** coefficients from a singular vector *)
Definition from_vector (v c : list Q) : Prop :=
  S (List.length c) = List.length v /\ forall j, (j < List.length c)%nat -> nth j c 0 == - nth (S j) v 0 / (nth 0 v 0 + (1 # 100000000)).

(** ** Lemmas *)
Lemma sum_to_ext n f g : (forall i, (i < n)%nat -> f i == g i) -> sum_to n f == sum_to n g.
Proof. induction n as [|n IH]; intros H; cbn; [reflexivity|]. rewrite IH by (intros i Hi; apply H; lia). rewrite (H n) by lia. reflexivity. Qed.
Lemma qsum_app a b : qsum (a ++ b) == qsum a + qsum b.
Proof. induction a as [|x a IH]; cbn; [ring|]. rewrite IH. ring. Qed.
Lemma qsum_seq f n : qsum (map f (seq 0 n)) == sum_to n f.
Proof. induction n as [|n IH]; [reflexivity|]. rewrite seq_S, map_app, qsum_app, IH. cbn. ring. Qed.
Lemma dot_comb G : forall c i, dot G c i == comb G c i.
Proof. unfold dot. induction G as [|a G IH]; intros [|x c] i; cbn; try reflexivity. rewrite IH. ring. Qed.
Lemma squares_nonneg w : 0 <= squares w.
Proof. induction w as [|x w IH]; cbn; [discriminate|]. assert (0 <= x * x) by nra. lra. Qed.
Lemma sum_to_nonneg n f : (forall i, (i < n)%nat -> 0 <= f i) -> 0 <= sum_to n f.
Proof. induction n as [|n IH]; intros H; cbn; [discriminate|]. assert (0 <= f n) by (apply H; lia). assert (0 <= sum_to n f) by (apply IH; intros; apply H; lia). lra. Qed.
Lemma sum_to_zero n f : (forall i, (i < n)%nat -> 0 <= f i) -> sum_to n f <= 0 -> forall i, (i < n)%nat -> f i == 0.
Proof.
  induction n as [|n IH]; intros H S i Hi; [lia|]. cbn in S. assert (0 <= f n) by (apply H; lia). assert (0 <= sum_to n f) by (apply sum_to_nonneg; intros; apply H; lia).
  destruct (Nat.eq_dec i n) as [->|N]; [lra|]. apply IH; [intros; apply H; lia|lra|lia].
Qed.
Lemma sum_to_0 n : sum_to n (fun _ => 0) == 0.
Proof. induction n as [|n IH]; cbn; [reflexivity|]. rewrite IH. reflexivity. Qed.
Lemma sum_to_scale n k f : sum_to n (fun i => k * f i) == k * sum_to n f.
Proof. induction n as [|n IH]; cbn; [ring|]. rewrite IH. ring. Qed.
Lemma times_nth a : forall b i, (i < List.length a)%nat -> List.length a = List.length b -> nth i (times a b) 0 = (nth i a 0 * nth i b 0)%Q.
Proof. unfold times. induction a as [|x a IH]; intros [|y b] [|i] H L; cbn in *; try lia; [reflexivity|]. apply IH; lia. Qed.
Lemma times_length a : forall b, List.length a = List.length b -> List.length (times a b) = List.length a.
Proof. unfold times. intros b L. rewrite map_length, combine_length. lia. Qed.
Lemma list_ext (n : nat) : forall (a : list Q) (f : nat -> Q), List.length a = n -> (forall i, (i < n)%nat -> nth i a 0 = f i) -> a = map f (seq 0 n).
Proof.
  induction n as [|n IH]; intros a f L H; [destruct a; [reflexivity|discriminate]|]. destruct a as [|x a]; [discriminate|]. cbn. f_equal; [apply (H 0%nat); lia|].
  rewrite <- seq_shift, map_map. apply IH; [cbn in L; lia|]. intros i Hi. apply (H (S i)). lia.
Qed.
Lemma translate_module_ok n th m : table n th -> Forall (fun x => (x < List.length th)%nat) m -> translate_module n th m = Ok (map (product th m) (seq 0 n)).
Proof.
  intros T F. unfold translate_module. assert (E : mapM (theta_col th) m = Ok (map (fun g => nth g th []) m)).
  { induction F as [|x m Hx F IH]; [reflexivity|]. cbn [mapM map]. assert (theta_col th x = Ok (nth x th [])) as ->. { unfold theta_col. apply at_some. apply nth_error_nth'. exact Hx. } cbn [bind]. rewrite IH. reflexivity. }
  rewrite E. cbn [bind]. f_equal. unfold product.
  assert (G : forall acc f, List.length acc = n -> (forall i, (i < n)%nat -> nth i acc 0 = f i) ->
    fold_left times (map (fun g => nth g th []) m) acc = map (fun i => fold_left (fun x g => x * nth i (nth g th []) 0) m (f i)) (seq 0 n)).
  { clear E. induction F as [|x m Hx F IH]; intros acc f L H; cbn; [apply list_ext; auto|]. unfold table in T. rewrite Forall_forall in T. assert (Lx : List.length (nth x th []) = n) by (apply T, nth_In, Hx).
    apply (IH _ (fun i => f i * nth i (nth x th []) 0)); [rewrite times_length; congruence|]. intros i Hi. rewrite times_nth by (rewrite ?L; congruence || lia). rewrite H by exact Hi. reflexivity. }
  apply (G _ (fun _ => 1)); [apply repeat_length|]. intros i Hi. rewrite (nth_indep _ 0 1) by (rewrite repeat_length; exact Hi). apply nth_repeat.
Qed.
Lemma translate_ok n th g : table n th -> over th g -> translate n th g = Ok (terms n th g).
Proof. intros T F. unfold translate, terms. induction F as [|m g Hm F IH]; [reflexivity|]. cbn [mapM map]. rewrite (translate_module_ok n th m T Hm). cbn [bind]. rewrite IH. reflexivity. Qed.
Lemma genes_penalty g : penalty g = List.length (List.concat g).
Proof. unfold penalty. induction g as [|m g IH]; [reflexivity|]. cbn. rewrite app_length, <- IH. reflexivity. Qed.
Lemma coef_length v : List.length (coef v) = pred (List.length v).
Proof. unfold coef, coef_NN. rewrite map_length. destruct v; [reflexivity|]. cbn. apply map_length. Qed.
Lemma coef_nth v j : (S j < List.length v)%nat -> nth j (coef v) 0 == - nth (S j) v 0 / (nth 0 v 0 + eps).
Proof.
  intros H. unfold coef, coef_NN. destruct v as [|x0 v]; [cbn in H; lia|]. cbn [map tl nth]. cbn in H. rewrite map_map.
  rewrite (nth_indep _ 0 (- (0 / (x0 + eps)))) by (rewrite map_length; lia). rewrite (map_nth (fun x => - (x / (x0 + eps)))). unfold Qdiv. ring.
Qed.
Lemma coef_from v k : List.length v = S k -> from_vector v (coef v).
Proof. intros L. split; [rewrite coef_length, L; reflexivity|]. intros j Hj. rewrite coef_length, L in Hj. cbn in Hj. apply coef_nth. lia. Qed.
Lemma mse_error n u th g c : mse n (res n u (terms n th g) c) == error n u th g c.
Proof.
  unfold mse, error, res. rewrite map_map, qsum_seq. apply Qmult_comp; [|reflexivity]. apply sum_to_ext. intros i _. rewrite dot_comb. reflexivity.
Qed.
Lemma comb_from G v0 : forall v c i, ~ v0 + eps == 0 -> List.length v = List.length G -> List.length c = List.length G ->
  (forall j, (j < List.length c)%nat -> nth j c 0 == - nth j v 0 / (v0 + eps)) -> (v0 + eps) * comb G c i == - comb G v i.
Proof.
  induction G as [|a G IH]; intros [|x v] [|y c] i N Lv Lc H; cbn in *; try discriminate; [ring|].
  assert (E : (v0 + eps) * comb G c i == - comb G v i). { apply IH; [exact N|lia|lia|]. intros j Hj. apply (H (S j)). lia. }
  assert (Y : y == - x / (v0 + eps)) by (apply (H 0%nat); lia). assert ((v0 + eps) * y == - x) by (rewrite Y; field; exact N). 
  setoid_replace ((v0 + eps) * (y * nth i a 0 + comb G c i)) with (((v0 + eps) * y) * nth i a 0 + (v0 + eps) * comb G c i) by ring. rewrite E, H0. ring.
Qed.
Lemma comb_opp G : forall v i, comb G (map Qopp v) i == - comb G v i.
Proof. induction G as [|a G IH]; intros [|x v] i; cbn; try ring. rewrite IH. ring. Qed.
Lemma comb_lin G v0 : forall v c i, List.length v = List.length G -> List.length c = List.length G -> comb G (map (fun p => fst p + v0 * snd p) (combine v c)) i == comb G v i + v0 * comb G c i.
Proof. induction G as [|a G IH]; intros [|x v] [|y c] i Lv Lc; cbn in *; try discriminate; [ring|]. rewrite IH by lia. ring. Qed.
Lemma squares_opp w : squares (map Qopp w) == squares w.
Proof. induction w as [|x w IH]; cbn; [reflexivity|]. rewrite IH. ring. Qed.

Lemma singular_kernel n A v : List.length v = List.length A -> squares v == 1 -> (forall i, (i < n)%nat -> comb A v i == 0) -> singular n A v.
Proof.
  intros L U K. split; [exact L|]. split; [exact U|]. intros w _. rewrite (sum_to_ext n _ (fun _ => 0)); [|intros i Hi; rewrite (K i Hi); reflexivity].
  rewrite sum_to_0, Qmult_0_l. apply sum_to_nonneg. intros i _. nra.
Qed.

Section S.
Variable last_vec : list (list Q) -> list Q.
(** np.linalg.svd returns vectors of the right length *)
Definition shaped : Prop := forall A, List.length (last_vec A) = List.length A.

(** ** C152 *)
(** The score of a genome: for the side f_name (u_t, or u_tt) it is the mean squared error of the equation with the
    returned coefficients plus epi for every gene; u_t is taken exactly if its error is strictly smaller. *)
Theorem C152_score n th u_t u_tt epi g : shaped -> table n th -> over th g ->
  exists f ct ctt, assess last_vec n th u_t u_tt epi g = Ok f /\
    from_vector (last_vec (u_t :: terms n th g)) ct /\ from_vector (last_vec (u_tt :: terms n th g)) ctt /\
    List.length ct = List.length g /\ List.length ctt = List.length g /\
    ((error n u_t th g ct < error n u_tt th g ctt /\ f_name f = "u_t"%string /\ f_coef f = ct /\ f_true f == error n u_t th g ct) \/
     (error n u_tt th g ctt <= error n u_t th g ct /\ f_name f = "u_tt"%string /\ f_coef f = ctt /\ f_true f == error n u_tt th g ctt)) /\
    f_mse f == f_true f + epi * genes g.
Proof.
  intros HS T O. unfold assess. rewrite (translate_ok n th g T O). cbn [bind]. unfold get_fitness. set (G := terms n th g).
  assert (LG : List.length G = List.length g) by apply map_length.
  exists (get_fitness last_vec n u_t u_tt epi G (penalty g)), (coef (last_vec (u_t :: G))), (coef (last_vec (u_tt :: G))).
  split; [reflexivity|]. split; [eapply coef_from; rewrite HS; reflexivity|]. split; [eapply coef_from; rewrite HS; reflexivity|].
  split; [rewrite coef_length, HS; cbn; exact LG|]. split; [rewrite coef_length, HS; cbn; exact LG|].
  unfold get_fitness. pose proof (mse_error n u_t th g (coef (last_vec (u_t :: G)))) as E1. pose proof (mse_error n u_tt th g (coef (last_vec (u_tt :: G)))) as E2. fold G in E1, E2.
  destruct (Qle_bool _ _) eqn:B; cbn [negb f_name f_coef f_true f_mse]; unfold genes; rewrite <- genes_penalty.
  - split; [|reflexivity]. right. apply Qle_bool_iff in B. rewrite E1, E2 in B. auto.
  - split; [|reflexivity]. left. split; [|auto]. apply Qnot_le_lt. intros H. rewrite <- E1, <- E2 in H. apply Qle_bool_iff in H. congruence.
Qed.
(** Its error in every row, from the singular vector: (v_0 + 1e-8) residual = A v + 1e-8 u. *)
Theorem C152_residual n u th g v c i : List.length v = S (List.length g) -> from_vector v c -> ~ nth 0 v 0 + (1 # 100000000) == 0 ->
  (nth 0 v 0 + (1 # 100000000)) * (nth i u 0 - comb (terms n th g) c i) == comb (u :: terms n th g) v i + (1 # 100000000) * nth i u 0.
Proof.
  intros L [Lc H] N. destruct v as [|v0 v]; [discriminate|]. cbn [nth comb] in *. cbn in L. assert (LG : List.length (terms n th g) = List.length g) by apply map_length.
  assert (E := comb_from (terms n th g) v0 v c i N). unfold eps in E. setoid_replace ((v0 + (1 # 100000000)) * (nth i u 0 - comb (terms n th g) c i)) with ((v0 + (1 # 100000000)) * nth i u 0 - (v0 + (1 # 100000000)) * comb (terms n th g) c i) by ring.
  cbn in Lc. rewrite E by (try congruence; try exact H; lia). ring.
Qed.
(** If the data satisfy an equation with linearly independent terms exactly, its coefficients are recovered up to the
    factor v_0 / (v_0 + 1e-8), where v_0^2 = 1 / (1 + c_0^2 + c_1^2 + ...), and the error is that small. *)
Theorem C152_recovers n u th g v cs c : table n th -> over th g -> List.length cs = List.length g ->
  (forall i, (i < n)%nat -> nth i u 0 == comb (terms n th g) cs i) -> independent n (terms n th g) ->
  singular n (u :: terms n th g) v -> from_vector v c -> ~ nth 0 v 0 + (1 # 100000000) == 0 -> (0 < n)%nat ->
  nth 0 v 0 * nth 0 v 0 * (1 + squares cs) == 1 /\
  (forall j, (j < List.length g)%nat -> nth j c 0 == nth j cs 0 * (nth 0 v 0 / (nth 0 v 0 + (1 # 100000000)))) /\
  (nth 0 v 0 + (1 # 100000000)) * (nth 0 v 0 + (1 # 100000000)) * error n u th g c == (1 # 100000000) * (1 # 100000000) * mean_square n u.
Proof.
  intros _ _ Lcs HX HI (Lv & U & M) HF N Pn. set (G := terms n th g) in *. assert (LG : List.length G = List.length g) by apply map_length.
  destruct v as [|v0 v]; [discriminate|]. cbn [List.length] in Lv.
  assert (Z : forall i, (i < n)%nat -> comb (u :: G) (v0 :: v) i == 0).
  { specialize (M (1 :: map Qopp cs)). assert (W0 : sum_to n (fun i => comb (u :: G) (1 :: map Qopp cs) i * comb (u :: G) (1 :: map Qopp cs) i) == 0).
    { rewrite (sum_to_ext n _ (fun _ => 0)); [apply sum_to_0|]. intros i Hi. cut (comb (u :: G) (1 :: map Qopp cs) i == 0); [intros E0; rewrite E0; reflexivity|]. cbn [comb]. rewrite comb_opp, (HX i Hi). ring. }
    rewrite W0 in M. assert (M' := M ltac:(cbn; rewrite map_length; congruence)). clear M. cbn [squares] in M'. pose proof (squares_nonneg (map Qopp cs)) as P.
    set (F := fun i => comb (u :: G) (v0 :: v) i * comb (u :: G) (v0 :: v) i) in *. assert (NN : forall i, (i < n)%nat -> 0 <= F i) by (intros i _; unfold F; nra).
    assert (S0 : sum_to n F <= 0) by nra. intros i Hi. pose proof (sum_to_zero n F NN S0 i Hi) as K. unfold F in K. nra. }
  assert (V : Forall (fun x => x == 0) (map (fun p => fst p + v0 * snd p) (combine v cs))).
  { apply HI; [rewrite map_length, combine_length; lia|]. intros i Hi. rewrite comb_lin by (lia || congruence). specialize (Z i Hi). cbn [comb] in Z. rewrite (HX i Hi) in Z. fold G in Z. lra. }
  assert (R : forall j, (j < List.length g)%nat -> nth j v 0 == - (v0 * nth j cs 0)).
  { assert (Lv' : List.length v = List.length cs) by lia. rewrite <- Lcs. clear -V Lv'. revert cs V Lv'. induction v as [|x v IH]; intros [|y cs] V L j Hj; cbn in *; try lia. inversion V; subst. destruct j as [|j]; [cbn in *; lra|]. apply IH; auto; lia. }
  assert (SQ : squares v == v0 * v0 * squares cs).
  { assert (Lv' : List.length v = List.length cs) by lia. rewrite <- Lcs in R. clear -R Lv'. revert cs R Lv'. induction v as [|x v IH]; intros [|y cs] R L; cbn in *; try discriminate; [ring|].
    rewrite (IH cs); [|intros j Hj; apply (R (S j)); lia|lia]. assert (x == - (v0 * y)) as -> by (apply (R 0%nat); lia). ring. }
  destruct HF as [Lc Hc]. cbn [nth List.length] in *. split; [cbn [squares] in U; rewrite SQ in U; etransitivity; [|exact U]; ring|]. split.
  - intros j Hj. rewrite Hc by lia. rewrite (R j Hj). field. exact N.
  - assert (RES : forall i, (i < n)%nat -> (v0 + (1 # 100000000)) * (nth i u 0 - comb G c i) == (1 # 100000000) * nth i u 0).
    { intros i Hi. pose proof (C152_residual n u th g (v0 :: v) c i) as K. cbn [nth List.length] in K. fold G in K. rewrite K; [|lia|split; [exact Lc|exact Hc]|exact N]. rewrite (Z i Hi). ring. }
    unfold error, mean_square, Qdiv. fold G. rewrite !Qmult_assoc. apply Qmult_comp; [|reflexivity]. rewrite <- !sum_to_scale. apply sum_to_ext. intros i Hi.
    setoid_replace ((v0 + (1 # 100000000)) * (v0 + (1 # 100000000)) * ((nth i u 0 - comb G c i) * (nth i u 0 - comb G c i))) with (((v0 + (1 # 100000000)) * (nth i u 0 - comb G c i)) * ((v0 + (1 # 100000000)) * (nth i u 0 - comb G c i))) by ring.
    rewrite (RES i Hi). ring.
Qed.
(** A whole run returns a genome with its own coefficients, left side and score. *)
Theorem C152_run c n th u_t u_tt epi d0 ds h : shaped -> table n th -> runnable c -> (nlib c <= List.length th)%nat -> (1 <= List.length ds)%nat ->
  exists s g k f name u, evolution (dlga_fit last_vec n th u_t u_tt epi) [] c d0 ds h = Ok (s, (g, k, Fin f, name)) /\
    over th g /\ g <> [] /\ List.length k = List.length g /\
    ((name = "u_t"%string /\ u = u_t) \/ (name = "u_tt"%string /\ u = u_tt)) /\
    from_vector (last_vec (u :: terms n th g)) k /\ f == error n u th g k + epi * genes g.
Proof.
  intros HS T R NL ND.
  assert (SC : scored (dlga_fit last_vec n th u_t u_tt epi) [] c).
  { intros g. unfold eval. destruct (kd c && (List.length g =? 0))%bool; [reflexivity|]. unfold dlga_fit. destruct (assess _ _ _ _ _ _ _); reflexivity. }
  destruct (C38_run_returns_well_formed_best (dlga_fit last_vec n th u_t u_tt epi) [] c d0 ds h R SC ND) as (s & g & k & f & name & E & _ & [W1 W2] & EV).
  assert (O : over th g). { unfold over. eapply Forall_impl; [|exact W2]. intros m [_ Hm]. eapply Forall_impl; [|exact Hm]. cbn. intros x Hx. lia. }
  destruct (C152_score n th u_t u_tt epi g HS T O) as (ft & ct & ctt & EA & F1 & F2 & L1 & L2 & D & P).
  unfold eval in EV. assert ((List.length g =? 0)%nat = false) as Z by (apply Nat.eqb_neq; lia). rewrite Z, andb_false_r in EV. unfold dlga_fit in EV. rewrite EA in EV. injection EV as <- <- <-.
  assert (g <> []) as NE by (intros ->; cbn in W1; lia).
  destruct D as [(_ & A & B & X)|(_ & A & B & X)].
  - exists s, g, (f_coef ft), (f_mse ft), (f_name ft), u_t. split; [exact E|]. split; [exact O|]. split; [exact NE|]. split; [rewrite B; exact L1|]. split; [left; auto|].
    split; [rewrite B; exact F1|]. rewrite P, X, B. reflexivity.
  - exists s, g, (f_coef ft), (f_mse ft), (f_name ft), u_tt. split; [exact E|]. split; [exact O|]. split; [exact NE|]. split; [rewrite B; exact L2|]. split; [right; auto|].
    split; [rewrite B; exact F2|]. rewrite P, X, B. reflexivity.
Qed.
End S.

(** Concrete data: u_t = 2 u on three points is recovered. *)
Example C152_case : let v := [3 # 5; - (4 # 5)] in singular 3 ([4; 8; 12] :: terms 3 [[3; 6; 9]] [[0%nat]]) v /\
  from_vector v (coef v) /\ coef v = [- (- (4 # 5) / ((3 # 5) + (1 # 100000000)))] /\ independent 3 (terms 3 [[3; 6; 9]] [[0%nat]]).
Proof.
  cbv zeta. split; [|split; [|split]].
  - apply singular_kernel; [reflexivity|reflexivity|intros i Hi; do 3 (destruct i as [|i]; [reflexivity|]); lia].
  - apply (coef_from _ 1). reflexivity.
  - reflexivity.
  - intros w L H. destruct w as [|a [|? ?]]; try discriminate. constructor; [|constructor]. specialize (H 0%nat ltac:(lia)). cbn in H. lra.
Qed.

(** The terms need to be independent: with proportional terms, an equation that holds exactly can be given
    coefficients near 10^8 and the error of the equation without right side. *)
Theorem C152_dependent_terms_refuted : exists n th g u v c, table n th /\ over th g /\ singular n (u :: terms n th g) v /\ from_vector v c /\
  ~ nth 0 v 0 + (1 # 100000000) == 0 /\ (forall i, nth i u 0 == comb (terms n th g) [1; 0] i) /\ nth 0 c 0 == - (80000000) /\ nth 1 c 0 == 60000000 /\
  error n u th g c == mean_square n u /\ mean_square n u == 42.
Proof.
  exists 3%nat, [[3; 6; 9]; [4; 8; 12]], [[0%nat]; [1%nat]], [3; 6; 9], [0; 4 # 5; - (3 # 5)], (coef [0; 4 # 5; - (3 # 5)]).
  split; [repeat constructor|]. split; [repeat constructor; cbn; lia|]. split.
  { apply singular_kernel; [reflexivity|reflexivity|intros i Hi; do 3 (destruct i as [|i]; [reflexivity|]); lia]. }
  split; [apply (coef_from _ 2); reflexivity|]. split; [vm_compute; discriminate|]. split.
  { intros [|[|[|i]]]; cbn; try ring. }
  split; [vm_compute; reflexivity|]. split; [vm_compute; reflexivity|]. split; vm_compute; reflexivity.
Qed.
(** The answer is not a function of the data: v and -v are both singular vectors, their coefficients differ. *)
Theorem C152_sign_refuted : exists n th g u v, table n th /\ over th g /\ singular n (u :: terms n th g) v /\ singular n (u :: terms n th g) (map Qopp v) /\
  forall c c', from_vector v c -> from_vector (map Qopp v) c' -> nth 0 c 0 < nth 0 c' 0.
Proof.
  exists 2%nat, [[4; 8]], [[0%nat]], [3; 6], [4 # 5; - (3 # 5)]. split; [repeat constructor|]. split; [repeat constructor; cbn; lia|].
  split; [apply singular_kernel; [reflexivity|reflexivity|intros i Hi; do 2 (destruct i as [|i]; [reflexivity|]); lia]|]. split; [apply singular_kernel; [reflexivity|reflexivity|intros i Hi; do 2 (destruct i as [|i]; [reflexivity|]); lia]|].
  intros c c' [L H] [L' H']. cbn in L, L'. rewrite (H 0%nat) by lia. rewrite (H' 0%nat) by lia. vm_compute. reflexivity.
Qed.
(** Errors of different quantities are compared: a u_tt of which nothing is explained is preferred to a u_t of which
    more than five sixths are, because it is smaller. *)
Definition scale_vec (A : list (list Q)) : list Q :=
  match A with [] => [] | a :: A' => (if Qeq_bool (nth 1 a 0) 0 then 1 else 4 # 5) :: (if Qeq_bool (nth 1 a 0) 0 then 0 else - (3 # 5)) :: match A' with [] => [] | _ :: A'' => map (fun _ => 0) A'' end end.
Theorem C152_scale_refuted : exists n th g u_t u_tt f ct,
  table n th /\ over th g /\ singular n (u_t :: terms n th g) (scale_vec (u_t :: terms n th g)) /\ singular n (u_tt :: terms n th g) (scale_vec (u_tt :: terms n th g)) /\
  assess scale_vec n th u_t u_tt 0 g = Ok f /\ f_name f = "u_tt"%string /\ Forall (fun x => x == 0) (f_coef f) /\ f_true f == mean_square n u_tt /\ 0 < mean_square n u_tt /\
  from_vector (scale_vec (u_t :: terms n th g)) ct /\ 6 * error n u_t th g ct < mean_square n u_t.
Proof.
  exists 2%nat, [[0; 1]], [[0%nat]], [7 # 24; 17 # 24], [1 # 10; 0]. eexists. exists (coef [4 # 5; - (3 # 5)]).
  split; [repeat constructor|]. split; [repeat constructor; cbn; lia|].
  split; [split; [reflexivity|]; split; [reflexivity|]; intros w L; destruct w as [|a [|b [|? ?]]]; try discriminate; apply Qle_minus_iff; cbn -[Qmult Qplus Qopp]; try change (Qeq_bool (17 # 24) 0) with false; try change (Qeq_bool 0 0) with true; cbv iota; match goal with |- 0 <= ?e => setoid_replace e with ((17 # 2) * (((1 # 4) * a + (1 # 3) * b) * ((1 # 4) * a + (1 # 3) * b))) by ring end; apply Qmult_le_0_compat; [discriminate|]; generalize ((1 # 4) * a + (1 # 3) * b); intros q; nra|].
  split; [split; [reflexivity|]; split; [reflexivity|]; intros w L; destruct w as [|a [|b [|? ?]]]; try discriminate; apply Qle_minus_iff; cbn -[Qmult Qplus Qopp]; try change (Qeq_bool (17 # 24) 0) with false; try change (Qeq_bool 0 0) with true; cbv iota; match goal with |- 0 <= ?e => setoid_replace e with ((99 # 100) * (b * b)) by ring end; apply Qmult_le_0_compat; [discriminate|nra]|].
  split; [reflexivity|]. split; [vm_compute; reflexivity|]. split; [vm_compute; constructor; [reflexivity|constructor]|]. split; [vm_compute; reflexivity|]. split; [vm_compute; reflexivity|].
  split; [apply (coef_from _ 1); reflexivity|]. vm_compute. reflexivity.
Qed.
Print Assumptions C152_score.
Print Assumptions C152_residual.
Print Assumptions C152_recovers.
Print Assumptions C152_run.
Print Assumptions C152_dependent_terms_refuted.
Print Assumptions C152_sign_refuted.
Print Assumptions C152_scale_refuted.
