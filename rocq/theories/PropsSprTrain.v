(** C117-C119: pretraining, refinement and iteration of KD_Discover_SPR. *)
From Coq Require Import QArith Qabs Qround Lqa Permutation.
From Verif Require Import Base Num Aggregator Spr.
From Verif Require EqGpt.
Local Open Scope nat_scope.

(** *** C117 *)
Section C117.
Context {net : Type} (step : net -> net) (vloss : net -> num).
(** The network after j steps. *)
Definition after (g : net) (j : nat) : net := Nat.iter j step g.
(** Epoch k has the smallest validation loss of the first m epochs, and is the first such one. *)
Definition first_best (loss : nat -> num) (m k : nat) : Prop :=
  k < m /\ nlt (loss k) big = true /\ (forall j, j < m -> nlt (loss j) (loss k) = false) /\
  (forall j, j < k -> is_nan (loss j) = true \/ nlt (loss k) (loss j) = true).

Lemma better_first (loss : nat -> num) i k best : (forall j, j < i -> nlt (loss j) best = false) -> nlt (loss i) best = true -> nlt best big = true \/ best = big ->
  k = i -> first_best loss (S i) k.
Proof.
  intros A B C ->. split; [lia|]. split; [|split].
  - destruct C as [C| ->]; [|exact B]. exact (nlt_nle_trans _ _ _ B (nlt_nle _ _ C)).
  - intros j Hj. destruct (Nat.eq_dec j i) as [->|N].
    + apply nle_not_nlt, nle_refl. apply (nlt_notnan _ _ B).
    + specialize (A j ltac:(lia)). destruct (nlt (loss j) (loss i)) eqn:E; [|reflexivity].
      rewrite (nlt_nle_trans _ _ _ E (nlt_nle _ _ B)) in A. discriminate.
  - intros j Hj. specialize (A j Hj). destruct (is_nan (loss j)) eqn:N; [tauto|]. right.
    destruct (nlt_notnan _ _ B) as [_ NB]. pose proof (not_nlt_nle _ _ N NB A) as H. exact (nlt_nle_trans _ _ _ B H).
Qed.
Lemma first_best_snoc (loss : nat -> num) i k : first_best loss i k -> nlt (loss i) (loss k) = false -> first_best loss (S i) k.
Proof.
  intros (A & B & C & D) N. split; [lia|]. split; [exact B|]. split; [|exact D].
  intros j Hj. destruct (Nat.eq_dec j i) as [->|M]; [exact N|]. apply C. lia.
Qed.

Lemma loop_ok g0 duration : (-1 <= duration)%Z -> forall fuel i best imp ckpt,
  (match ckpt with
   | None => imp = 0 /\ best = big /\ forall j, j < i -> nlt (vloss (after g0 j)) big = false
   | Some c => c = after g0 imp /\ best = vloss c /\ first_best (fun j => vloss (after g0 j)) i imp
   end) ->
  (Z.of_nat i - Z.of_nat imp <= duration + 1)%Z ->
  exists c m k, pretrain_loop step vloss duration fuel i best imp ckpt (after g0 i) = (after g0 m, c, m) /\
    (match c with
     | None => k = 0 /\ forall j, j < m -> nlt (vloss (after g0 j)) big = false
     | Some c => c = after g0 k /\ first_best (fun j => vloss (after g0 j)) m k
     end) /\ Z.of_nat m = Z.min (Z.of_nat (i + fuel)) (Z.of_nat k + duration + 2).
Proof.
  intros HD. induction fuel as [|fuel IH]; intros i best imp ckpt INV LE; cbn [pretrain_loop].
  - exists ckpt, i, imp. split; [reflexivity|]. split; [|lia].
    destruct ckpt as [c|]; [destruct INV as (A & B & C)|destruct INV as (A & B & C)]; auto.
  - set (v := vloss (after g0 i)). change (step (after g0 i)) with (after g0 (S i)).
    assert (exists ckpt' best' imp', (if nlt v best then Some (after g0 i) else ckpt) = ckpt' /\ (if nlt v best then v else best) = best' /\ (if nlt v best then i else imp) = imp' /\
      (match ckpt' with
       | None => imp' = 0 /\ best' = big /\ forall j, j < S i -> nlt (vloss (after g0 j)) big = false
       | Some c => c = after g0 imp' /\ best' = vloss c /\ first_best (fun j => vloss (after g0 j)) (S i) imp'
       end) /\ (Z.of_nat i - Z.of_nat imp' <= duration + 1)%Z) as (ckpt' & best' & imp' & E1 & E2 & E3 & INV' & LE').
    { destruct (nlt v best) eqn:B; do 3 eexists; (do 3 (split; [reflexivity|])); (split; [|lia]).
      - split; [reflexivity|]. split; [reflexivity|]. destruct ckpt as [c|].
        + destruct INV as (-> & -> & FB). pose proof FB as (F1 & F2 & F3 & F4). apply (better_first _ i i (vloss (after g0 imp))); auto.
        + destruct INV as (-> & -> & N). apply (better_first _ i i big); auto.
      - destruct ckpt as [c|].
        + destruct INV as (-> & -> & FB). split; [reflexivity|]. split; [reflexivity|]. apply first_best_snoc; [exact FB|exact B].
        + destruct INV as (-> & -> & N). split; [reflexivity|]. split; [reflexivity|]. intros j Hj. destruct (Nat.eq_dec j i) as [->|M]; [exact B|]. apply N. lia. }
    rewrite E1, E2, E3. destruct (Z.ltb duration (Z.of_nat i - Z.of_nat imp')) eqn:STOP.
    + apply Z.ltb_lt in STOP. exists ckpt', (S i), imp'. split; [reflexivity|]. split; [|lia].
      destruct ckpt' as [c|]; [destruct INV' as (A & B & C)|destruct INV' as (A & B & C)]; auto.
    + apply Z.ltb_ge in STOP. destruct (IH (S i) best' imp' ckpt' INV' ltac:(lia)) as (c & m & k & EQ & S1 & S2).
      exists c, m, k. split; [exact EQ|]. split; [exact S1|]. rewrite S2. f_equal. lia.
Qed.

(** Pretraining runs m epochs and leaves the network of the last one.  The check point file
    holds the network of the first epoch with the smallest validation loss (below 1e8);
    training stops once [duration] + 1 epochs went by without improvement, not earlier and
    not later, or after the configured number of epochs. *)
Theorem C117_pretrain duration epochs g : (-1 <= duration)%Z ->
  exists ckpt m k, pretrain None step vloss duration epochs g = (after g m, ckpt, m) /\
    (match ckpt with
     | None => k = 0 /\ forall j, j < m -> nlt (vloss (after g j)) big = false
     | Some c => c = after g k /\ first_best (fun j => vloss (after g j)) m k
     end) /\ Z.of_nat m = Z.min (Z.of_nat epochs) (Z.of_nat k + duration + 2).
Proof. intros H. apply (loop_ok g duration H epochs 0 big 0 None); [|lia]. repeat split. intros j Hj. lia. Qed.
(** With a configured file the network of the file is used and nothing is trained. *)
Theorem C117_loaded h duration epochs g : pretrain (Some h) step vloss duration epochs g = (h, None, 0).
Proof. reflexivity. Qed.
End C117.
(** Afterwards the observations are the training and the validation observations, each input
    with its own value. *)
Theorem C117_observations {A B} (x xv : list A) (u uv : list B) : List.length x = List.length u ->
  combine (merged x xv) (merged u uv) = combine x u ++ combine xv uv.
Proof. revert u. induction x as [|a x IH]; intros [|b u] H; try discriminate; [reflexivity|]. cbn. f_equal. apply IH. cbn in H. lia. Qed.
(** A run that stops after the best epoch. *)
Definition c117_loss (n : nat) : num := nth n [Fin 3; NaN; Fin 1; Fin 2; Fin 1; Fin 5; Fin 0] (Fin 9).
Example C117_example : pretrain None S c117_loss 1 100 0 = (5, Some 2, 5).
Proof. vm_compute. reflexivity. Qed.
(** The network used afterwards is the last one, not the one of the check point: it may fit
    the validation data worse. *)
Theorem C117_best_network_used_refuted : exists (step : nat -> nat) vloss g h c m,
  pretrain None step vloss 500 1000 g = (h, Some c, m) /\ m < 1000 /\ nlt (vloss c) (vloss h) = true.
Proof.
  exists S, (fun n => if Nat.eqb n 0 then Fin 0 else Fin 1), 0, 502, 0, 502. split; [vm_compute; reflexivity|]. split; [|reflexivity].
  apply Nat.ltb_lt. vm_compute. reflexivity.
Qed.

(** *** C118 *)
(** The right hand side at one point: the sum of the coefficients times the terms. *)
Definition rhs_at (coefs : list Q) (terms : list col) (p : nat) : Q := fold_right Qplus 0%Q (map (fun wc => fst wc * nth p (snd wc) 0)%Q (combine coefs terms)).

Lemma nth_col_add a b p : List.length a = List.length b -> (nth p (col_add a b) 0 == nth p a 0 + nth p b 0)%Q.
Proof. revert b p. induction a as [|x a IH]; intros [|y b] p H; try discriminate; destruct p; cbn; try ring. apply IH. cbn in H. lia. Qed.
Lemma nth_col_scale w a p : (nth p (col_scale w a) 0 == w * nth p a 0)%Q.
Proof. revert p. induction a as [|x a IH]; intros [|p]; cbn; try ring. apply IH. Qed.
Lemma nth_col_sub a b p : List.length a = List.length b -> (nth p (col_sub a b) 0 == nth p a 0 - nth p b 0)%Q.
Proof. revert b p. induction a as [|x a IH]; intros [|y b] p H; try discriminate; destruct p; cbn; try ring. apply IH. cbn in H. lia. Qed.
Lemma rhs_sum_ok coefs : forall terms acc n, List.length acc = n -> (forall c, In c terms -> List.length c = n) -> List.length coefs <= List.length terms ->
  exists r, rhs_sum acc coefs terms = Ok r /\ List.length r = n /\ forall p, (nth p r 0 == nth p acc 0 + rhs_at coefs terms p)%Q.
Proof.
  induction coefs as [|w ws IH]; intros terms acc n LA LT LE; cbn [rhs_sum].
  - exists acc. split; [destruct terms; reflexivity|]. split; [exact LA|]. intros p. unfold rhs_at. cbn. ring.
  - destruct terms as [|c cs]; [cbn in LE; lia|]. assert (List.length c = n) as LC by (apply LT; left; reflexivity).
    destruct (IH cs (col_add acc (col_scale w c)) n) as (r & E & L & V).
    + unfold col_add, col_scale. rewrite map_length, combine_length, map_length. lia.
    + intros d Hd. apply LT. right. exact Hd.
    + cbn in LE. lia.
    + exists r. split; [exact E|]. split; [exact L|]. intros p. rewrite V, nth_col_add, nth_col_scale by (unfold col_scale; rewrite map_length; lia).
      unfold rhs_at. cbn [combine map fold_right fst snd]. ring.
Qed.
Lemma rhs_sum_err coefs : forall terms acc, List.length terms < List.length coefs -> rhs_sum acc coefs terms = Err IndexError.
Proof. induction coefs as [|w ws IH]; intros [|c cs] acc H; cbn in *; try lia; [reflexivity|]. apply IH. lia. Qed.
Lemma nth_zeros {A} (l : list A) p : nth p (map (fun _ => 0%Q) l) 0%Q = 0%Q.
Proof. revert p. induction l; intros [|p]; cbn; auto. Qed.

(** The residual at each collocation point is u_t minus the sum of coefficient times term. *)
Theorem C118_residual dx nx ut coefs terms : (forall c, In c terms -> List.length c = List.length ut) -> List.length coefs <= List.length terms ->
  exists r, residual dx nx false ut coefs terms = Ok r /\ List.length r = List.length ut /\
    forall p, p < List.length ut -> (nth p r 0 == nth p ut 0 - rhs_at coefs terms p)%Q.
Proof.
  intros LT LE. unfold residual. cbn [rhs_terms]. destruct (rhs_sum_ok coefs terms (map (fun _ => 0%Q) ut) (List.length ut)) as (r & E & L & V); auto.
  { apply map_length. }
  rewrite E. cbn [bind]. exists (col_sub ut r). split; [reflexivity|]. split; [unfold col_sub; rewrite map_length, combine_length; lia|].
  intros p _. rewrite nth_col_sub by lia. rewrite V, nth_zeros. ring.
Qed.
(** One coefficient more than there are terms (a constant added by the regression) is an
    error, whatever the network. *)
Theorem C118_constant_term_fails dx nx extra ut coefs terms : List.length terms < List.length coefs -> residual dx nx extra ut coefs terms = Err IndexError.
Proof.
  intros H. unfold residual. rewrite rhs_sum_err; [reflexivity|]. unfold rhs_terms. destruct extra; [rewrite map_length|]; exact H.
Qed.
Lemma sum_sq_nonneg r : (0 <= fold_right Qplus 0 (map (fun v => v * v) r))%Q.
Proof. induction r as [|a r IH]; cbn; [lra|]. assert (0 <= a * a)%Q by (destruct (Qlt_le_dec a 0); nra). lra. Qed.
Lemma sum_sq_zero r : (fold_right Qplus 0 (map (fun v => v * v) r) == 0)%Q <-> forall p, (nth p r 0 == 0)%Q.
Proof.
  induction r as [|a r IH]; cbn [map fold_right].
  - split; [intros _ [|p]; cbn; reflexivity|]. intros _. reflexivity.
  - pose proof (sum_sq_nonneg r) as N. assert (0 <= a * a)%Q as NA by (destruct (Qlt_le_dec a 0); nra). split.
    + intros H [|p]; cbn [nth].
      * assert (a * a == 0)%Q as Z0 by lra. destruct (Qmult_integral _ _ Z0); assumption.
      * apply IH. lra.
    + intros H. pose proof (H 0) as H0. cbn in H0. rewrite H0. assert (fold_right Qplus 0 (map (fun v => v * v) r) == 0)%Q as -> by (apply IH; intros p; exact (H (S p))). ring.
Qed.
(** The loss is zero exactly when the equation holds at every collocation point. *)
Theorem C118_zero_loss dx nx ut coefs terms : ut <> [] -> (forall c, In c terms -> List.length c = List.length ut) -> List.length coefs <= List.length terms ->
  exists l, pinn_loss dx nx false ut coefs terms = Ok l /\ (0 <= l)%Q /\
    ((l == 0)%Q <-> forall p, p < List.length ut -> (nth p ut 0 == rhs_at coefs terms p)%Q).
Proof.
  intros NE LT LE. destruct (C118_residual dx nx ut coefs terms LT LE) as (r & E & L & V). unfold pinn_loss. rewrite E. cbn [bind].
  exists (mean_square r). split; [reflexivity|]. unfold mean_square. set (s := fold_right Qplus 0%Q (map (fun v => (v * v)%Q) r)).
  assert (0 <= s)%Q as NS by apply sum_sq_nonneg.
  assert (0 < inject_Z (Z.of_nat (List.length r)))%Q as NP. { rewrite L. destruct ut; [congruence|]. cbn [List.length]. unfold Qlt. cbn. lia. }
  split.
  - apply Qle_shift_div_l; [exact NP|]. lra.
  - assert ((s / inject_Z (Z.of_nat (List.length r)) == 0)%Q <-> (s == 0)%Q) as ->.
    { split; intros H.
      - assert (s == (s / inject_Z (Z.of_nat (List.length r))) * inject_Z (Z.of_nat (List.length r)))%Q as -> by (field; intros X; rewrite X in NP; apply (Qlt_irrefl _ NP)). rewrite H. ring.
      - rewrite H. unfold Qdiv. ring. }
    unfold s. rewrite sum_sq_zero. split.
    + intros H p Hp. specialize (H p). rewrite (V p Hp) in H. lra.
    + intros H p. destruct (Nat.lt_ge_cases p (List.length ut)) as [Hp|Hp]; [rewrite (V p Hp); specialize (H p Hp); lra|]. rewrite nth_overflow by lia. reflexivity.
Qed.
Definition c118_terms : list col := [[1; 2; 3]; [0; 1; 4]]%Q.
Example C118_example : exists l, pinn_loss (fun _ c => c) 1 false [2; 5; 10]%Q [2; 1]%Q c118_terms = Ok l /\ (l == 0)%Q /\
  exists l', pinn_loss (fun _ c => c) 1 false [2; 5; 11]%Q [2; 1]%Q c118_terms = Ok l' /\ (l' == 1 # 3)%Q.
Proof. eexists. split; [reflexivity|]. split; [vm_compute; reflexivity|]. eexists. split; [reflexivity|]. vm_compute. reflexivity. Qed.
(** With extra_gradient the terms are differentiated but u_t is not: an equation that holds
    everywhere has a nonzero residual. *)
Theorem C118_extra_gradient_refuted : exists (dx : nat -> col -> col) ut coefs terms r, residual dx 1 false ut coefs terms = Ok [0]%Q /\
  residual dx 1 true ut coefs terms = Ok r /\ r <> [0]%Q /\ ~ (nth 0 r 0 == 0)%Q.
Proof.
  exists (fun _ c => map (fun v => 2 * v)%Q c), [1]%Q, [1]%Q, [[1]]%Q. eexists. repeat split; [|vm_compute; discriminate].
  vm_compute. discriminate.
Qed.

(** The objective of one equation: coefficient times residual losses plus data misfit. *)
Theorem C118_objective coef mse r : total_loss coef (Fin mse) [(Fin r, None)] = Ok (Fin (coef * (0 + r) + mse)).
Proof. reflexivity. Qed.
Theorem C118_objective_local coef mse r l : total_loss coef (Fin mse) [(Fin r, Some (Fin l))] = Ok (Fin (coef * (0 + r + l) + mse)).
Proof. reflexivity. Qed.
(** An undefined residual at the collocation points counts as zero; at the observations it
    makes the objective undefined. *)
Theorem C118_nan_collocation coef mse l : total_loss coef mse [(NaN, l)] = total_loss coef mse [(Fin 0, l)].
Proof. reflexivity. Qed.
Theorem C118_nan_local coef mse r : total_loss coef mse [(r, Some NaN)] = Ok NaN.
Proof. unfold total_loss. cbn. unfold one_pde. destruct (nan0 r); reflexivity. Qed.
(** With several equations only the last one counts. *)
Lemma pde_loss_last eqs : forall cur e, pde_loss cur (eqs ++ [e]) = Some (one_pde (fst e) (snd e)).
Proof. induction eqs as [|[r l] eqs IH]; intros cur [r' l']; cbn; [reflexivity|]. apply IH. Qed.
Theorem C118_all_equations_refuted coef mse eqs e : total_loss coef mse (eqs ++ [e]) = total_loss coef mse [e].
Proof. unfold total_loss. rewrite pde_loss_last. destruct e. reflexivity. Qed.

(** The refinement loop. *)
Section C118.
Context {net : Type} (step : (net -> res num) -> net -> net) (coef : Q) (mse : net -> num) (eqs : net -> list (num * option num)).
Definition goal (h : net) : res num := total_loss coef (mse h) (eqs h).
Definition at_ (g : net) (j : nat) : net := Nat.iter j (step goal) g.
Definition loss_at (g : net) (j : nat) : num := match goal (at_ g j) with Ok l => l | Err _ => NaN end.

Lemma goal_ok h : eqs h <> [] -> exists l, goal h = Ok l.
Proof.
  intros N. unfold goal. destruct (eqs h) as [|e l] eqn:E; [congruence|]. destruct (@exists_last _ (e :: l) ltac:(discriminate)) as (l' & x & ->).
  unfold total_loss. rewrite pde_loss_last. eexists. reflexivity.
Qed.
Lemma plain_loop g0 : (forall h, eqs h <> []) -> forall fuel i,
  pinn_loop step goal false fuel i big None None (at_ g0 i) = Ok (at_ g0 (i + fuel), None, i + fuel).
Proof.
  intros N. induction fuel as [|f IH]; intros i; cbn [pinn_loop].
  - rewrite Nat.add_0_r. reflexivity.
  - destruct (goal_ok (at_ g0 i) (N _)) as (l & ->). cbn [bind]. change (step goal (at_ g0 i)) with (at_ g0 (S i)). rewrite IH. replace (S i + f) with (i + S f) by lia. reflexivity.
Qed.
(** Before the last round: every epoch is run, and no check point of the best is written. *)
Theorem C118_all_epochs epochs g : (forall h, eqs h <> []) -> train_pinn step coef mse eqs false epochs g = Ok (at_ g epochs, None, epochs).
Proof. intros N. exact (plain_loop g N epochs 0). Qed.

Lemma last_loop g0 : (forall h, eqs h <> []) -> forall fuel i imp,
  first_best (loss_at g0) i imp -> (Z.of_nat i - Z.of_nat imp <= 201)%Z ->
  exists m k, pinn_loop step goal true fuel i (loss_at g0 imp) (Some imp) (Some (at_ g0 (S imp))) (at_ g0 i) = Ok (at_ g0 m, Some (at_ g0 (S k)), m) /\
    first_best (loss_at g0) m k /\ m = Nat.min (i + fuel) (k + 202).
Proof.
  intros N. induction fuel as [|f IH]; intros i imp FB LE; cbn [pinn_loop].
  - exists i, imp. split; [reflexivity|]. split; [exact FB|lia].
  - assert (goal (at_ g0 i) = Ok (loss_at g0 i)) as ->. { unfold loss_at. destruct (goal_ok (at_ g0 i) (N _)) as (l & ->). reflexivity. }
    cbn [bind]. change (step goal (at_ g0 i)) with (at_ g0 (S i)). pose proof FB as (F1 & F2 & F3 & F4).
    destruct (nlt (loss_at g0 i) (loss_at g0 imp)) eqn:B.
    + assert (first_best (loss_at g0) (S i) i) as FB' by (apply (better_first _ i i (loss_at g0 imp)); auto).
      rewrite Z.sub_diag. cbn [Z.ltb Z.compare]. destruct (IH (S i) i FB' ltac:(lia)) as (m & k & E & FBm & M). exists m, k. split; [exact E|]. split; [exact FBm|lia].
    + assert (first_best (loss_at g0) (S i) imp) as FB' by (apply first_best_snoc; assumption).
      destruct (Z.ltb 200 (Z.of_nat i - Z.of_nat imp)) eqn:STOP.
      * apply Z.ltb_lt in STOP. exists (S i), imp. split; [reflexivity|]. split; [exact FB'|lia].
      * apply Z.ltb_ge in STOP. destruct (IH (S i) imp FB' ltac:(lia)) as (m & k & E & FBm & M). exists m, k. split; [exact E|]. split; [exact FBm|lia].
Qed.
(** In the last round: with a first loss below 1e8, training runs until 201 epochs went by
    without improvement or all epochs are done, and the check point "_best" holds the network
    one step AFTER the epoch with the smallest loss. *)
Theorem C118_last_round epochs g : (forall h, eqs h <> []) -> 0 < epochs -> nlt (loss_at g 0) big = true ->
  exists m k, train_pinn step coef mse eqs true epochs g = Ok (at_ g m, Some (at_ g (S k)), m) /\ first_best (loss_at g) m k /\ m = Nat.min epochs (k + 202).
Proof.
  intros N E0 B. destruct epochs as [|f]; [lia|]. unfold train_pinn. cbn [pinn_loop]. fold goal.
  change (total_loss coef (mse g) (eqs g)) with (goal (at_ g 0)).
  assert (goal (at_ g 0) = Ok (loss_at g 0)) as ->. { unfold loss_at. destruct (goal_ok (at_ g 0) (N _)) as (l & ->). reflexivity. }
  cbn [bind]. rewrite B. cbn [Z.of_nat Z.sub Z.add Z.opp Z.ltb Z.compare].
  destruct (last_loop g N f 1 0) as (m & k & E & FB & M); [|lia|exists m, k; split; [exact E|split; [exact FB|lia]]].
  apply (better_first _ 0 0 big); auto. intros j Hj. lia.
Qed.
(** A first loss that is undefined or not below 1e8 ends the last round with an error. *)
Theorem C118_last_round_fails epochs g : (forall h, eqs h <> []) -> 0 < epochs -> nlt (loss_at g 0) big = false ->
  train_pinn step coef mse eqs true epochs g = Err UnboundLocalError.
Proof.
  intros N E0 B. destruct epochs as [|f]; [lia|]. unfold train_pinn. cbn [pinn_loop]. fold goal.
  change (total_loss coef (mse g) (eqs g)) with (goal (at_ g 0)).
  assert (goal (at_ g 0) = Ok (loss_at g 0)) as ->. { unfold loss_at. destruct (goal_ok (at_ g 0) (N _)) as (l & ->). reflexivity. }
  cbn [bind]. rewrite B. reflexivity.
Qed.
(** Without equations there is nothing to refine: an error at the first epoch. *)
Theorem C118_no_equation last epochs g : 0 < epochs -> eqs g = [] -> train_pinn step coef mse eqs last epochs g = Err UnboundLocalError.
Proof. intros E0 N. destruct epochs as [|f]; [lia|]. unfold train_pinn. cbn [pinn_loop]. rewrite N. reflexivity. Qed.
End C118.
(** A run whose loss is smallest at network 1: the file of the best network holds network 2,
    whose loss is larger. *)
Definition c118_mse (n : nat) : num := match n with 0 => Fin 5 | 1 => Fin 1 | _ => Fin 7 end.
Theorem C118_best_checkpoint_refuted : exists m, train_pinn (fun _ => S) 1 c118_mse (fun _ => [(Fin 0, None)]) true 1000 0 = Ok (m, Some 2, m) /\
  nlt (c118_mse 1) (c118_mse 2) = true /\ m = 203.
Proof. eexists. split; [vm_compute; reflexivity|]. split; reflexivity. Qed.

(** *** C119 *)
Section C119.
Context {net tok : Type} (score : net -> tok -> num) (find : nat -> net -> sprog tok) (refine : nat -> bool -> tok -> net -> res net).
(** What a run consists of, round by round: [nets i] is the network before round i,
    [progs i] the program embedded in it. *)
Record run_of (n : nat) (g : net) (o : outcome net tok) (nets : nat -> net) (progs : nat -> sprog tok) : Prop := mkRun {
  run_rounds : List.length (oc_rounds o) = n;
  run_first : nets 0 = g;
  run_final : oc_net o = nets n;
  run_found : forall i rd, nth_error (oc_rounds o) i = Some rd -> rd_net rd = nets i /\ rd_found rd = find i (nets i) /\ rd_embedded rd = progs i /\ (rd_last rd = true <-> i + 1 = n);
  run_refine : forall i, i < n -> refine (i + 1) (Nat.eqb (i + 1) n) (sp_tok (progs i)) (nets i) = Ok (nets (S i));
  run_start : 0 < n -> progs 0 = find 0 (nets 0);
  run_choice : forall i, S i < n ->
    let old := mkSP (sp_tok (progs i)) (score (nets (S i)) (sp_tok (progs i))) in
    let new := find (S i) (nets (S i)) in
    (nlt (sp_r new) (sp_r old) = true -> progs (S i) = old) /\ (nlt (sp_r new) (sp_r old) = false -> progs (S i) = new);
  run_result : oc_result o = find n (nets n)
}.

Lemma iterate_ok iter_num n : forall i prev g h rs, i + n = iter_num -> iterate score find refine iter_num n i prev g = Ok (h, rs) ->
  exists nets progs, List.length rs = n /\ nets 0 = g /\ h = nets n /\
    (forall j rd, nth_error rs j = Some rd -> rd_net rd = nets j /\ rd_found rd = find (i + j) (nets j) /\ rd_embedded rd = progs j /\ (rd_last rd = true <-> i + j + 1 = iter_num)) /\
    (forall j, j < n -> refine (i + j + 1) (Nat.eqb (i + j + 1) iter_num) (sp_tok (progs j)) (nets j) = Ok (nets (S j))) /\
    (0 < n -> progs 0 = pick score g prev (find i g)) /\
    (forall j, S j < n -> progs (S j) = pick score (nets (S j)) (Some (sp_tok (progs j))) (find (i + S j) (nets (S j)))).
Proof.
  induction n as [|n IH]; intros i prev g h rs L E; cbn [iterate] in E.
  - injection E as <- <-. exists (fun _ => g), (fun _ => find i g). split; [reflexivity|]. split; [reflexivity|]. split; [reflexivity|]. split; [intros [|j] rd Hj; discriminate|]. split; [intros j Hj; lia|]. split; [lia|]. intros j Hj. lia.
  - set (p := pick score g prev (find i g)) in *. destruct (refine (i + 1) (Nat.eqb (i + 1) iter_num) (sp_tok p) g) as [g'|] eqn:R; [|discriminate].
    cbn [bind] in E. destruct (iterate score find refine iter_num n (S i) (Some (sp_tok p)) g') as [[h' rs']|] eqn:IT; [|discriminate].
    cbn [bind fst snd] in E. injection E as <- <-. destruct (IH (S i) _ g' h' rs' ltac:(lia) IT) as (nets & progs & A & B & C & D & F & G & H).
    exists (fun j => match j with 0 => g | S j => nets j end), (fun j => match j with 0 => p | S j => progs j end).
    split; [cbn; lia|]. split; [reflexivity|]. split; [exact C|]. split; [|split; [|split]].
    + intros [|j] rd Hj; cbn in Hj.
      * injection Hj as <-. cbn. rewrite Nat.add_0_r, Nat.eqb_eq. repeat split; auto.
      * destruct (D j rd Hj) as (D1 & D2 & D3 & D4). replace (i + S j) with (S i + j) by lia. auto.
    + intros [|j] Hj.
      * rewrite Nat.add_0_r, B. exact R.
      * replace (i + S j) with (S i + j) by lia. apply F. lia.
    + reflexivity.
    + intros [|j] Hj.
      * rewrite G by lia. rewrite B. replace (i + 1) with (S i) by lia. reflexivity.
      * rewrite H by lia. replace (i + S (S j)) with (S i + S j) by lia. reflexivity.
Qed.
(** A run does the configured number of rounds.  In each it searches the data of the current
    network, and refines the network with the program found or, if that one scores higher on
    the current data, with the program of the round before; only the last refinement is run
    with early stopping.  The reported program is the one of a final search. *)
Theorem C119_rounds iter_num g o : call_iter score find refine iter_num g = Ok o -> exists nets progs, run_of iter_num g o nets progs /\
  oc_best o = match iter_num with 0 => None | S k => Some (progs k) end.
Proof.
  unfold call_iter. destruct (iterate score find refine iter_num iter_num 0 None g) as [[h rs]|] eqn:E; [|discriminate].
  cbn [bind fst snd]. intros Q. injection Q as <-. destruct (iterate_ok iter_num iter_num 0 None g h rs ltac:(lia) E) as (nets & progs & A & B & C & D & F & G & H).
  exists nets, progs. split.
  - constructor; cbn [oc_rounds oc_net oc_result]; auto.
    + intros L. rewrite G by exact L. rewrite B. reflexivity.
    + intros i Hi. cbn zeta. rewrite H by exact Hi. cbn [Nat.add]. unfold pick. cbn [sp_r]. split; intros ->; reflexivity.
    + rewrite C. reflexivity.
  - cbn [oc_best]. destruct iter_num as [|k]; [destruct rs; [reflexivity|discriminate]|]. cbn. rewrite Nat.sub_0_r.
    destruct (nth_error rs k) as [rd|] eqn:N; [|apply nth_error_None in N; lia]. cbn. destruct (D k rd N) as (_ & _ & -> & _). reflexivity.
Qed.
(** If a search reports the score of its program on the searched data, the embedded program
    is no worse on those data than the program found, and no worse than the one embedded before. *)
Theorem C119_no_worse iter_num g o nets progs : run_of iter_num g o nets progs -> (forall i h, sp_r (find i h) = score h (sp_tok (find i h))) ->
  (forall i, i < iter_num -> sp_r (progs i) = score (nets i) (sp_tok (progs i))) /\
  (forall i, i < iter_num -> nlt (sp_r (progs i)) (sp_r (find i (nets i))) = false) /\
  (forall i, S i < iter_num -> nlt (sp_r (progs (S i))) (score (nets (S i)) (sp_tok (progs i))) = false).
Proof.
  intros R HF. destruct R as [_ _ _ _ _ ST CH _]. split; [|split].
  - intros [|i] Hi; [rewrite ST by exact Hi; apply HF|]. specialize (CH i Hi). cbn zeta in CH. cbn [sp_r] in CH. destruct CH as [C1 C2].
    destruct (nlt (sp_r (find (S i) (nets (S i)))) (score (nets (S i)) (sp_tok (progs i)))) eqn:B; [rewrite (C1 eq_refl); reflexivity|rewrite (C2 eq_refl); apply HF].
  - intros [|i] Hi.
    + rewrite ST by exact Hi. destruct (sp_r (find 0 (nets 0))) eqn:X; try reflexivity. apply nle_not_nlt, nle_refl. reflexivity.
    + specialize (CH i Hi). cbn zeta in CH. cbn [sp_r] in CH. destruct CH as [C1 C2].
      destruct (nlt (sp_r (find (S i) (nets (S i)))) (score (nets (S i)) (sp_tok (progs i)))) eqn:B.
      * rewrite (C1 eq_refl). cbn [sp_r]. apply nle_not_nlt, nlt_nle, B.
      * rewrite (C2 eq_refl). destruct (sp_r (find (S i) (nets (S i)))) eqn:X; try reflexivity. apply nle_not_nlt, nle_refl. reflexivity.
  - intros i Hi. specialize (CH i Hi). cbn zeta in CH. cbn [sp_r] in CH. destruct CH as [C1 C2].
    destruct (nlt (sp_r (find (S i) (nets (S i)))) (score (nets (S i)) (sp_tok (progs i)))) eqn:B.
    + rewrite (C1 eq_refl). cbn [sp_r]. destruct (score (nets (S i)) (sp_tok (progs i))) eqn:X; try reflexivity. apply nle_not_nlt, nle_refl. reflexivity.
    + rewrite (C2 eq_refl). exact B.
Qed.
(** A run succeeds when every refinement does, and fails with the error of the first that does not. *)
Theorem C119_succeeds iter_num g : (forall k l t h, exists h', refine k l t h = Ok h') -> exists o, call_iter score find refine iter_num g = Ok o.
Proof.
  intros R. unfold call_iter. enough (forall n i prev h, exists r, iterate score find refine iter_num n i prev h = Ok r) as H.
  { destruct (H iter_num 0 None g) as (r & ->). eexists. reflexivity. }
  induction n as [|n IH]; intros i prev h; cbn [iterate]; [eexists; reflexivity|].
  match goal with |- context [refine ?a ?b ?c ?d] => destruct (R a b c d) as (h' & ->) end. cbn [bind].
  match goal with |- context [iterate ?a ?b ?c ?d ?e ?f ?x ?y] => destruct (IH f x y) as (r & ->) end. cbn [bind]. eexists. reflexivity.
Qed.
End C119.
(** Two rounds: the program of the first search (7) is kept in the second round, where the
    search only finds one of score 1. *)
Definition c119_score (g t : nat) : num := if Nat.eqb t 7 then Fin 9 else Fin 1.
Definition c119_find (k g : nat) : sprog nat := if Nat.eqb k 0 then mkSP 7 (Fin 9) else mkSP k (Fin 1).
Definition c119_refine (k : nat) (last : bool) (t g : nat) : res nat := Ok (g + t + if last then 100 else 0).
Example C119_example : exists o, call_iter c119_score c119_find c119_refine 2 0 = Ok o /\ oc_net o = 114 /\ option_map sp_tok (oc_best o) = Some 7 /\ sp_tok (oc_result o) = 2 /\
  map (fun r => (rd_net r, sp_tok (rd_found r), sp_tok (rd_embedded r), rd_last r)) (oc_rounds o) = [(0, 7, 7, false); (7, 1, 7, true)].
Proof. eexists. split; [reflexivity|]. repeat split. Qed.
(** The program of the final search is reported even if the one embedded last scores higher
    on the same data. *)
Theorem C119_best_reported_refuted : exists (score : nat -> nat -> num) find refine o p, (forall i h, sp_r (find i h) = score h (sp_tok (find i h))) /\
  call_iter score find refine 2 0 = Ok o /\ oc_best o = Some p /\ nlt (sp_r (oc_result o)) (score (oc_net o) (sp_tok p)) = true.
Proof.
  exists c119_score, (fun k g => if Nat.eqb k 0 then mkSP 7 (Fin 9) else mkSP 2 (Fin 1)), c119_refine. do 2 eexists. split.
  - intros i h. destruct (Nat.eqb i 0); reflexivity.
  - split; [reflexivity|]. split; reflexivity.
Qed.
Print Assumptions C117_pretrain.
Print Assumptions C117_loaded.
Print Assumptions C117_observations.
Print Assumptions C117_best_network_used_refuted.
Print Assumptions C118_residual.
Print Assumptions C118_constant_term_fails.
Print Assumptions C118_zero_loss.
Print Assumptions C118_extra_gradient_refuted.
Print Assumptions C118_objective.
Print Assumptions C118_objective_local.
Print Assumptions C118_nan_collocation.
Print Assumptions C118_nan_local.
Print Assumptions C118_all_equations_refuted.
Print Assumptions C118_all_epochs.
Print Assumptions C118_last_round.
Print Assumptions C118_last_round_fails.
Print Assumptions C118_no_equation.
Print Assumptions C118_best_checkpoint_refuted.
Print Assumptions C119_rounds.
Print Assumptions C119_no_worse.
Print Assumptions C119_succeeds.
Print Assumptions C119_best_reported_refuted.
