(** C165: the figures of KD_Discover_SPR. *)
From Coq Require Import QArith List Bool Arith ZArith Lia Lqa.
From Verif Require Import Base VizData VizDataFacts PropsVizData SprFigures.
Import ListNotations.
Local Open Scope nat_scope.
Local Open Scope list_scope.

(** The task and the program agree: u_t, its prediction, the times and every spatial column have [n] entries, [ut]
    being the task's u_t or, if it was never set, the first cached one. *)
Definition agree (tk : task) (p : prog) (n : nat) (ut yh : list Q) : Prop :=
  p_yhat p = Some yh /\ p_theta p = true /\ tk_x tk <> [] /\
  (tk_ut tk = Some ut \/ tk_ut tk = None /\ exists r, tk_cache tk = ut :: r) /\
  List.length ut = n /\ List.length yh = n /\ List.length (tk_t tk) = n /\ Forall (fun c => List.length c = n) (tk_x tk).

Lemma the_ut_agree tk ut : tk_ut tk = Some ut \/ tk_ut tk = None /\ (exists r, tk_cache tk = ut :: r) -> the_ut tk = Ok ut.
Proof. unfold the_ut. intros [E|(E & r & F)]; rewrite E; [reflexivity|]. now rewrite F. Qed.

Lemma vsub_same a b : List.length a = List.length b ->
  exists r, vsub a b = Ok r /\ List.length r = List.length a /\ forall i, i < List.length a -> nth i r 0%Q = (nth i a 0 - nth i b 0)%Q.
Proof.
  intros E. assert (G : exists r, (if List.length a =? List.length b then Ok (map (fun p => fst p - snd p)%Q (combine a b)) else Err ValueError) = Ok r
    /\ List.length r = List.length a /\ forall i, i < List.length a -> nth i r 0%Q = (nth i a 0 - nth i b 0)%Q).
  { rewrite E, Nat.eqb_refl. eexists. split; [reflexivity|]. rewrite map_length, combine_length, E, Nat.min_id. split; [reflexivity|]. intros i I.
    set (F := fun p : Q * Q => (fst p - snd p)%Q).
    rewrite (nth_indep _ 0%Q (F (0%Q, 0%Q))) by (rewrite map_length, combine_length; lia).
    rewrite map_nth, combine_nth by exact E. reflexivity. }
  destruct a as [|x [|x' a]], b as [|y [|y' b]]; try discriminate E; try exact G.
Qed.

Lemma hstack_same c r n : Forall (fun d => List.length d = n) (c :: r) ->
  hstack (c :: r) = Ok (map (fun i => map (fun d => nth i d 0%Q) (c :: r)) (seq 0 n)).
Proof.
  intros F. inversion F as [|? ? L G]; subst. unfold hstack.
  replace (forallb (fun d => List.length d =? List.length c) r) with true; [reflexivity|].
  symmetry. apply forallb_forall. intros d I. apply Nat.eqb_eq. rewrite Forall_forall in G. now apply G.
Qed.
Lemma hstack_ragged c r d : In d r -> List.length d <> List.length c -> hstack (c :: r) = Err ValueError.
Proof.
  intros I N. unfold hstack. replace (forallb (fun e => List.length e =? List.length c) r) with false; [reflexivity|].
  symmetry. apply not_true_is_false. intros T. rewrite forallb_forall in T. specialize (T d I). apply Nat.eqb_eq in T. congruence.
Qed.
Lemma nth_map_seq {A} (f : nat -> A) n i d : i < n -> nth i (map f (seq 0 n)) d = f i.
Proof. intros L. rewrite (nth_indep _ d (f 0)) by (rewrite map_length, seq_length; lia). rewrite map_nth, seq_nth by lia. reflexivity. Qed.

(** The fields: the residual is u_t minus its prediction at every point, and row i of the coordinates is the i-th
    point, its spatial coordinates in the order of the task and the time last. *)
Theorem C165_fields : forall tk p n ut yh, agree tk p n ut yh ->
  exists f, pinn_fields tk p = Ok f /\ f_true f = ut /\ f_pred f = yh /\ f_n f = List.length (tk_x tk) /\ f_x f = hd [] (tk_x tk) /\ f_t f = tk_t tk /\
    List.length (f_residual f) = n /\ List.length (f_coords f) = n /\
    forall i, i < n -> nth i (f_residual f) 0%Q = (nth i ut 0 - nth i yh 0)%Q /\
                       nth i (f_coords f) [] = map (fun c => nth i c 0%Q) (tk_x tk) ++ [nth i (tk_t tk) 0%Q].
Proof.
  intros tk p n ut yh (Y & Th & X & U & Lu & Ly & Lt & F). unfold pinn_fields. rewrite Y, Th, (the_ut_agree _ _ U). cbn [bind].
  destruct (vsub_same ut yh) as (r & R & Lr & V); [congruence|]. rewrite R. cbn [bind].
  destruct (tk_x tk) as [|x0 xs] eqn:E; [congruence|].
  change ((x0 :: xs) ++ [tk_t tk]) with (x0 :: (xs ++ [tk_t tk])).
  rewrite (hstack_same _ _ n) by (inversion F; subst; constructor; [assumption|apply Forall_app; split; [assumption|constructor; [assumption|constructor]]]).
  cbn [bind]. eexists. split; [reflexivity|]. cbn [f_true f_pred f_n f_x f_t f_residual f_coords hd]. repeat split; try congruence.
  - now rewrite map_length, seq_length.
  - apply V. congruence.
  - rewrite nth_map_seq by assumption. change (x0 :: (xs ++ [tk_t tk])) with ((x0 :: xs) ++ [tk_t tk]). now rewrite map_app.
Qed.
Definition ex_task : task := {| tk_ut := None; tk_cache := [[3; 5; 9]; [0]]%Q; tk_x := [[0; 0; 1]; [7; 8; 9]]%Q; tk_t := [0; 1; 0]%Q |}.
Definition ex_prog : prog := {| p_yhat := Some [1; 5; 10]%Q; p_theta := true |}.
Example C165_fields_ex : agree ex_task ex_prog 3 [3; 5; 9]%Q [1; 5; 10]%Q /\
  exists f, pinn_fields ex_task ex_prog = Ok f /\ f_residual f = [3 - 1; 5 - 5; 9 - 10]%Q /\ f_coords f = [[0; 7; 0]; [0; 8; 1]; [1; 9; 0]]%Q.
Proof.
  split.
  - unfold agree. repeat split; try reflexivity; [discriminate|right; split; [reflexivity|now eexists]|repeat constructor].
  - eexists. split; [reflexivity|]. split; reflexivity.
Qed.

(** Refused: nothing cached on the program, no u_t to be had, points whose coordinates are not equally many, or a
    prediction of another length (one value excepted) - and a u_t recovered from the cache is kept by the task, so
    that asking again gives the same. *)
Theorem C165_fields_refused : forall tk p,
  (p_yhat p = None \/ p_theta p = false -> pinn_fields tk p = Err AttributeError) /\
  (tk_ut tk = None -> tk_cache tk = [] -> pinn_fields tk p = Err AttributeError) /\
  (forall c d, In c (tk_x tk ++ [tk_t tk]) -> In d (tk_x tk ++ [tk_t tk]) -> List.length c <> List.length d -> exists e, pinn_fields tk p = Err e) /\
  (forall ut yh, p_yhat p = Some yh -> p_theta p = true -> the_ut tk = Ok ut -> List.length ut <> List.length yh -> List.length ut <> 1 -> List.length yh <> 1 ->
     pinn_fields tk p = Err ValueError) /\
  pinn_fields (task_after tk) p = pinn_fields tk p.
Proof.
  intros tk p. repeat split.
  - intros [E|E]; unfold pinn_fields; rewrite E; [reflexivity|destruct (p_yhat p); reflexivity].
  - intros E F. unfold pinn_fields, the_ut. rewrite E, F. destruct (p_yhat p), (p_theta p); reflexivity.
  - intros c d Ic Id N. unfold pinn_fields. destruct (p_yhat p), (p_theta p); try (eexists; reflexivity). destruct (the_ut tk) as [u|]; [|eexists; reflexivity]. cbn [bind].
    destruct (vsub u l); [|eexists; reflexivity]. cbn [bind].
    destruct (tk_x tk ++ [tk_t tk]) as [|h r] eqn:E; [destruct Ic|].
    assert (H : hstack (h :: r) = Err ValueError).
    { assert (exists z, In z r /\ List.length z <> List.length h) as (z & Iz & Nz).
      { destruct (Nat.eq_dec (List.length c) (List.length h)) as [A|A].
        - exists d. split; [|congruence]. destruct Id as [<-|Id]; [congruence|exact Id].
        - exists c. split; [|exact A]. destruct Ic as [<-|Ic]; [congruence|exact Ic]. }
      now apply (hstack_ragged h r z). }
    rewrite H. eexists. reflexivity.
  - intros ut yh Y T U N Nu Ny. unfold pinn_fields. rewrite Y, T, U. cbn [bind].
    assert (vsub ut yh = Err ValueError) as ->; [|reflexivity]. unfold vsub.
    destruct ut as [|a [|a' ut]], yh as [|b [|b' yh]]; try reflexivity; try (exfalso; apply Nu; reflexivity); try (exfalso; apply Ny; reflexivity); try (exfalso; apply N; reflexivity).
    apply Nat.eqb_neq in N. now rewrite N.
  - unfold task_after. destruct (tk_ut tk) eqn:E; [reflexivity|]. destruct (tk_cache tk) eqn:F; [reflexivity|].
    unfold pinn_fields, the_ut. cbn [tk_ut tk_cache tk_x tk_t]. now rewrite E, F.
Qed.
Example C165_fields_refused_ex :
  pinn_fields ex_task {| p_yhat := Some [1; 5]%Q; p_theta := true |} = Err ValueError /\
  pinn_fields {| tk_ut := None; tk_cache := []; tk_x := tk_x ex_task; tk_t := tk_t ex_task |} ex_prog = Err AttributeError /\
  tk_ut (task_after ex_task) = Some [3; 5; 9]%Q /\
  pinn_fields {| tk_ut := tk_ut ex_task; tk_cache := tk_cache ex_task; tk_x := [[1; 2]]%Q; tk_t := tk_t ex_task |} ex_prog = Err ValueError.
Proof. repeat split; reflexivity. Qed.

(** The scatter of the residuals: one mark for each point, at its first spatial coordinate and showing u_t minus its
    prediction there.  With one spatial axis the mark is at its time; with more of them what is drawn along the axis
    labelled Time is the second spatial coordinate. *)
Theorem C165_residual_figure : forall tk p n ut yh, agree tk p n ut yh ->
  exists m, residual_scatter tk p = Ok m /\ List.length m = n /\
    forall i d, i < n -> let k := nth i m d in
      at_space k = nth i (hd [] (tk_x tk)) 0%Q /\ shown k = Some (nth i ut 0 - nth i yh 0)%Q /\
      at_time k = match tk_x tk with _ :: x2 :: _ => nth i x2 0%Q | _ => nth i (tk_t tk) 0%Q end.
Proof.
  intros tk p n ut yh A. destruct (C165_fields tk p n ut yh A) as (f & E & _ & _ & _ & _ & _ & Lr & Lc & V).
  unfold residual_scatter. rewrite E. cbn [bind]. rewrite Lr, Lc, Nat.eqb_refl. eexists. split; [reflexivity|].
  split; [rewrite map_length, combine_length; lia|]. intros i d L. set (k := nth i _ d).
  destruct (V i L) as (Vr & Vc).
  assert (K : k = {| at_time := nth 1 (nth i (f_coords f) []) 0%Q; at_space := nth 0 (nth i (f_coords f) []) 0%Q; shown := Some (nth i (f_residual f) 0%Q) |}).
  { unfold k. set (F := fun q : list Q * Q => {| at_time := nth 1 (fst q) 0%Q; at_space := nth 0 (fst q) 0%Q; shown := Some (snd q) |}).
    rewrite (nth_indep _ d (F ([], 0%Q))) by (rewrite map_length, combine_length; lia). rewrite map_nth, combine_nth by congruence. reflexivity. }
  rewrite K, Vc, Vr. cbn [at_time at_space shown]. destruct A as (_ & _ & X & _). destruct (tk_x tk) as [|x1 [|x2 r]]; [congruence| |]; cbn; repeat split; reflexivity.
Qed.
Example C165_residual_figure_ex :
  residual_scatter ex_task ex_prog = Ok [{| at_time := 7; at_space := 0; shown := Some (3 - 1)%Q |}; {| at_time := 8; at_space := 0; shown := Some (5 - 5)%Q |};
                                         {| at_time := 9; at_space := 1; shown := Some (9 - 10)%Q |}]%Q.
Proof. reflexivity. Qed.

(** A prediction that is a single number is subtracted from every value: the scatter of the residuals is drawn, the
    parity figure refuses, and the adapter returns its warning. *)
Theorem C165_single_prediction : forall tk p n ut c, agree tk {| p_yhat := Some ut; p_theta := true |} n ut ut ->
  p_yhat p = Some [c] -> p_theta p = true -> n <> 1 ->
  (exists m, residual_scatter tk p = Ok m /\ map shown m = map (fun u => Some (u - c)%Q) ut) /\
  parity_figure tk p = Err ValueError /\ adapter_residual tk p = Warned.
Proof.
  intros tk p n ut c (_ & _ & X & U & Lu & _ & Lt & F) Y T N.
  assert (E : exists f, pinn_fields tk p = Ok f /\ f_residual f = map (fun u => (u - c)%Q) ut /\ f_true f = ut /\ f_pred f = [c] /\ List.length (f_coords f) = n).
  { unfold pinn_fields. rewrite Y, T, (the_ut_agree _ _ U). cbn [bind].
    assert (vsub ut [c] = Ok (map (fun u => (u - c)%Q) ut)) as ->. { destruct ut as [|a [|b ut]]; [reflexivity|cbn in Lu; congruence|reflexivity]. }
    cbn [bind]. destruct (tk_x tk) as [|x0 xs]; [congruence|]. change ((x0 :: xs) ++ [tk_t tk]) with (x0 :: (xs ++ [tk_t tk])).
    rewrite (hstack_same _ _ n) by (inversion F; subst; constructor; [assumption|apply Forall_app; split; [assumption|constructor; [assumption|constructor]]]).
    cbn [bind]. eexists. split; [reflexivity|]. cbn [f_residual f_true f_pred f_coords]. repeat split. now rewrite map_length, seq_length. }
  destruct E as (f & E & R & Tr & Pr & Lc). split; [|split].
  - unfold residual_scatter. rewrite E. cbn [bind]. rewrite Lc, R, map_length, Lu, Nat.eqb_refl. eexists. split; [reflexivity|].
    rewrite map_map. cbn [shown]. clear - Lc Lu. revert n ut Lc Lu. induction (f_coords f) as [|h l IH]; intros n ut Lc Lu; cbn in Lc; subst n.
    + destruct ut; [reflexivity|discriminate].
    + destruct ut as [|u ut]; [discriminate|]. cbn. f_equal. now apply (IH (List.length l)); [|cbn in Lu; injection Lu].
  - unfold parity_figure. rewrite E. cbn [bind]. rewrite Tr, Pr, Lu. cbn [List.length]. apply Nat.eqb_neq in N. now rewrite N.
  - unfold adapter_residual. rewrite E, Tr, Pr. unfold residual_from. destruct (sub (vector ut) (vector [c])); [|reflexivity].
    unfold residual_init. destruct (shape_eqb (shape (vector ut)) (shape (vector [c]))) eqn:Q; [|reflexivity].
    apply shape_eqb_eq in Q. cbn in Q. congruence.
Qed.
Example C165_single_prediction_ex :
  let p := {| p_yhat := Some [2]%Q; p_theta := true |} in
  agree ex_task {| p_yhat := Some [3; 5; 9]%Q; p_theta := true |} 3 [3; 5; 9]%Q [3; 5; 9]%Q /\ parity_figure ex_task p = Err ValueError /\
  (exists m, residual_scatter ex_task p = Ok m /\ map shown m = [Some (3 - 2)%Q; Some (5 - 2)%Q; Some (9 - 2)%Q]).
Proof.
  split; [|split].
  - unfold agree. repeat split; try reflexivity; [discriminate|right; split; [reflexivity|now eexists]|repeat constructor].
  - reflexivity.
  - eexists. split; reflexivity.
Qed.

(** The parity figure: one point (u_t, prediction) for each place, and limits that hold every point strictly inside,
    a tenth of the range of all the values away from its ends, or 1/10 when all values are the same. *)
Theorem C165_parity : forall tk p n ut yh, agree tk p n ut yh ->
  (n = 0 -> parity_figure tk p = Err ValueError) /\
  (n <> 0 -> exists lo hi, parity_figure tk p = Ok (combine ut yh, (lo, hi)) /\ (lo < hi)%Q /\
     (forall v, In v (ut ++ yh) -> lo < v /\ v < hi)%Q /\
     exists mn mx w, In mn (ut ++ yh) /\ In mx (ut ++ yh) /\ (lo == mn - w)%Q /\ (hi == mx + w)%Q /\
       (forall v, In v (ut ++ yh) -> mn <= v /\ v <= mx)%Q /\
       ((mn < mx)%Q -> (w == (1 # 10) * (mx - mn))%Q) /\ ((mn == mx)%Q -> (w == 1 # 10)%Q)).
Proof.
  intros tk p n ut yh A. destruct (C165_fields tk p n ut yh A) as (f & E & Tr & Pr & _). destruct A as (_ & _ & _ & _ & Lu & Ly & _).
  unfold parity_figure. rewrite E. cbn [bind]. rewrite Tr, Pr, Lu, Ly, Nat.eqb_refl. split.
  - intros ->. destruct ut; [reflexivity|discriminate].
  - intros N. destruct ut as [|a ut]; [cbn in Lu; congruence|]. destruct yh as [|b yh]; [cbn in Ly; congruence|].
    cbn [parity_limits bind].
    destruct (qmin_le a ut) as (Ma & Mu). destruct (qmin_le b yh) as (Mb & My). destruct (qmax_ge a ut) as (Xa & Xu). destruct (qmax_ge b yh) as (Xb & Xy).
    pose proof (qmin_in a ut) as Ia. pose proof (qmin_in b yh) as Ib. pose proof (qmax_in a ut) as Ja. pose proof (qmax_in b yh) as Jb.
    set (mn := if Qle_bool (qmin a ut) (qmin b yh) then qmin a ut else qmin b yh).
    set (mx := if Qle_bool (qmax b yh) (qmax a ut) then qmax a ut else qmax b yh).
    assert (Hmn : In mn ((a :: ut) ++ b :: yh) /\ (mn <= qmin a ut)%Q /\ (mn <= qmin b yh)%Q).
    { unfold mn. destruct (Qle_bool (qmin a ut) (qmin b yh)) eqn:Q.
      - apply Qle_bool_iff in Q. repeat split; [apply in_or_app; now left|apply Qle_refl|exact Q].
      - assert (~ (qmin a ut <= qmin b yh)%Q) by (intros X; apply Qle_bool_iff in X; congruence).
        repeat split; [apply in_or_app; now right| |apply Qle_refl]. apply Qlt_le_weak, Qnot_le_lt. assumption. }
    assert (Hmx : In mx ((a :: ut) ++ b :: yh) /\ (qmax a ut <= mx)%Q /\ (qmax b yh <= mx)%Q).
    { unfold mx. destruct (Qle_bool (qmax b yh) (qmax a ut)) eqn:Q.
      - apply Qle_bool_iff in Q. repeat split; [apply in_or_app; now left|apply Qle_refl|exact Q].
      - assert (~ (qmax b yh <= qmax a ut)%Q) by (intros X; apply Qle_bool_iff in X; congruence).
        repeat split; [apply in_or_app; now right| |apply Qle_refl]. apply Qlt_le_weak, Qnot_le_lt. assumption. }
    destruct Hmn as (Imn & L1 & L2). destruct Hmx as (Imx & L3 & L4).
    assert (B : forall v, In v ((a :: ut) ++ b :: yh) -> (mn <= v /\ v <= mx)%Q).
    { intros v I. apply in_app_or in I. destruct I as [[<-|I]|[<-|I]]; split;
        first [eapply Qle_trans; [exact L1|first [exact Ma|now apply Mu]]|eapply Qle_trans; [exact L2|first [exact Mb|now apply My]]
              |eapply Qle_trans; [|exact L3]; first [exact Xa|now apply Xu]|eapply Qle_trans; [|exact L4]; first [exact Xb|now apply Xy]]. }
    set (w := if Qle_bool (mx - mn) 0 then (1 # 10)%Q else ((1 # 10) * (mx - mn))%Q).
    assert (W : (0 < w)%Q /\ ((mn < mx)%Q -> (w == (1 # 10) * (mx - mn))%Q) /\ ((mn == mx)%Q -> (w == 1 # 10)%Q)).
    { unfold w. destruct (Qle_bool (mx - mn) 0) eqn:Q.
      - apply Qle_bool_iff in Q. split; [reflexivity|]. split; [intros L; lra|intros _; reflexivity].
      - assert (~ (mx - mn <= 0)%Q) by (intros X; apply Qle_bool_iff in X; congruence).
        assert (0 < mx - mn)%Q by (now apply Qnot_le_lt). split; [lra|]. split; [intros _; reflexivity|intros X; lra]. }
    destruct W as (W & W1 & W2). exists (mn - w)%Q, (mx + w)%Q. split; [reflexivity|]. destruct (B mn Imn) as (_ & Bm). split; [lra|]. split.
    + intros v I. destruct (B v I). split; lra.
    + exists mn, mx, w. repeat split; try assumption; try reflexivity; now apply B.
Qed.
Example C165_parity_ex : exists lo hi, parity_figure ex_task ex_prog = Ok ([(3, 1); (5, 5); (9, 10)]%Q, (lo, hi)) /\ (lo == 1 # 10)%Q /\ (hi == 109 # 10)%Q.
Proof. do 2 eexists. split; [reflexivity|]. split; reflexivity. Qed.

(** ** The field comparison *)
Section Compare.
Variable griddata : list (Q * Q) -> list Q -> option (Q * Q -> option Q).

Lemma spread_nth lo hi i d : i < 100 -> nth i (spread lo hi) d = tick lo hi i.
Proof. intros L. unfold spread. now rewrite nth_map_seq. Qed.
Lemma spread_length lo hi : List.length (spread lo hi) = 100.
Proof. unfold spread. now rewrite map_length, seq_length. Qed.
Lemma gridded_entry g xlo xhi tlo thi i j : i < 100 -> j < 100 -> entry (gridded g xlo xhi tlo thi) i j = g (tick xlo xhi i, tick tlo thi j).
Proof.
  intros I J. unfold entry, gridded, spread. rewrite map_map, nth_map_seq by assumption. now rewrite map_map, nth_map_seq.
Qed.
Lemma transpose_entry M i j : i < 100 -> j < 100 -> entry (transpose M) i j = entry M j i.
Proof. intros I J. unfold transpose. unfold entry at 1. rewrite nth_map_seq by assumption. now rewrite nth_map_seq. Qed.
Lemma nan_to_num_entry M i j : i < List.length M -> j < List.length (nth i M []) ->
  entry (nan_to_num M) i j = match entry M i j with Some q => Some q | None => Some 0%Q end.
Proof.
  intros I J. unfold entry, nan_to_num. set (F := fun o : option Q => match o with Some q => Some q | None => Some 0%Q end).
  change (@nil (option Q)) with (map F []) at 1. rewrite map_nth. rewrite (nth_indep _ None (F None)) by (now rewrite map_length). now rewrite map_nth.
Qed.
Lemma gridded_nan_entry g xlo xhi tlo thi i j : i < 100 -> j < 100 ->
  entry (nan_to_num (gridded g xlo xhi tlo thi)) i j = Some (match g (tick xlo xhi i, tick tlo thi j) with Some q => q | None => 0%Q end).
Proof.
  intros I J. rewrite nan_to_num_entry.
  - rewrite gridded_entry by assumption. now destruct (g _).
  - unfold gridded. now rewrite map_length, spread_length.
  - unfold gridded, spread. rewrite map_map, nth_map_seq by assumption. now rewrite map_map, map_length, seq_length.
Qed.
(** The marks of an image, row by row. *)
Lemma nth_rows {A} (f : nat -> nat -> A) n m i j d : i < n -> j < m -> nth (i * m + j) (flat_map (fun i => map (f i) (seq 0 m)) (seq 0 n)) d = f i j.
Proof.
  intros I J. assert (G : forall k s, i < k -> nth (i * m + j) (flat_map (fun i => map (f i) (seq 0 m)) (seq s k)) d = f (s + i) j).
  { clear I n. induction i as [|i IH]; intros k s K; (destruct k as [|k]; [lia|]); cbn [seq flat_map].
    - rewrite app_nth1 by (rewrite map_length, seq_length; lia). cbn. rewrite nth_map_seq by assumption. now rewrite Nat.add_0_r.
    - rewrite app_nth2 by (rewrite map_length, seq_length; lia). rewrite map_length, seq_length.
      replace (S i * m + j - m) with (i * m + j) by lia. rewrite IH by lia. f_equal. lia. }
  apply (G n 0 I).
Qed.

(** The legacy figure.  The pixel in column j and row i is centred (j + 1/2) / 100 of the way along the times and
    (i + 1/2) / 100 of the way along the first spatial coordinate; but the value it shows is the one interpolated at
    the j-th of 100 places from the smallest to the largest spatial coordinate and the i-th of 100 times: the two
    axes of the image are exchanged with respect to their labels, for the true and for the predicted field. *)
Theorem C165_legacy_axes_exchanged : forall tk p n ut yh g h, agree tk p n ut yh -> n <> 0 ->
  griddata (combine (hd [] (tk_x tk)) (tk_t tk)) ut = Some g -> griddata (combine (hd [] (tk_x tk)) (tk_t tk)) yh = Some h ->
  exists c xlo xhi tlo thi, legacy_comparison griddata tk p = Ok c /\
    In xlo (hd [] (tk_x tk)) /\ In xhi (hd [] (tk_x tk)) /\ (forall v, In v (hd [] (tk_x tk)) -> xlo <= v /\ v <= xhi)%Q /\
    In tlo (tk_t tk) /\ In thi (tk_t tk) /\ (forall v, In v (tk_t tk) -> tlo <= v /\ v <= thi)%Q /\
    forall i j d, i < 100 -> j < 100 -> forall k, (k = (nth (i * 100 + j) (c_true c) d, g) \/ k = (nth (i * 100 + j) (c_pred c) d, h)) ->
      (at_time (fst k) == tlo + (inject_Z (Z.of_nat j) + (1 # 2)) / 100 * (thi - tlo))%Q /\
      (at_space (fst k) == xlo + (inject_Z (Z.of_nat i) + (1 # 2)) / 100 * (xhi - xlo))%Q /\
      shown (fst k) = snd k (tick xlo xhi j, tick tlo thi i).
Proof.
  intros tk p n ut yh g h A N G H. destruct (C165_fields tk p n ut yh A) as (f & E & Tr & Pr & _ & Fx & Ft & _).
  destruct A as (_ & _ & X & _ & _ & _ & Lt & F). unfold legacy_comparison. rewrite E. cbn [bind]. rewrite Fx, Ft, Tr, Pr. unfold gd. rewrite G, H. cbn [bind].
  destruct (tk_x tk) as [|x0 xs]; [congruence|]. cbn [hd]. pose proof (Forall_inv F) as Lx. cbn in Lx. clear X F.
  destruct x0 as [|x x0]; [cbn in Lx; congruence|]. destruct (tk_t tk) as [|t ts]; [cbn in Lt; congruence|].
  do 5 eexists. split; [reflexivity|]. cbn [c_true c_pred].
  destruct (qmin_le x x0), (qmax_ge x x0), (qmin_le t ts), (qmax_ge t ts).
  split; [apply qmin_in|]. split; [apply qmax_in|]. split; [intros v [<-|I]; split; auto|].
  split; [apply qmin_in|]. split; [apply qmax_in|]. split; [intros v [<-|I]; split; auto|].
  intros i j d I J k K. unfold imshow in K. rewrite !nth_rows in K by assumption. destruct K as [-> | ->]; cbn [fst snd at_time at_space shown];
    (split; [field|split; [field|]]); now rewrite transpose_entry, gridded_entry.
Qed.

(** So, with an interpolation that only depends on the time, the pixels of one row of the legacy figure - the same
    place, all times - all show the same value, and no value depends on the column. *)
Theorem C165_legacy_time_lost : forall tk p n ut yh g h u, agree tk p n ut yh -> n <> 0 ->
  griddata (combine (hd [] (tk_x tk)) (tk_t tk)) ut = Some g -> griddata (combine (hd [] (tk_x tk)) (tk_t tk)) yh = Some h ->
  (forall a b, g (a, b) = u b) ->
  exists c, legacy_comparison griddata tk p = Ok c /\ forall i j j' d, i < 100 -> j < 100 -> j' < 100 ->
    shown (nth (i * 100 + j) (c_true c) d) = shown (nth (i * 100 + j') (c_true c) d).
Proof.
  intros tk p n ut yh g h u A N G H U. destruct (C165_legacy_axes_exchanged tk p n ut yh g h A N G H) as (c & xlo & xhi & tlo & thi & E & _ & _ & _ & _ & _ & _ & V).
  exists c. split; [exact E|]. intros i j j' d I J J'.
  destruct (V i j d I J _ (or_introl eq_refl)) as (_ & _ & S1). destruct (V i j' d I J' _ (or_introl eq_refl)) as (_ & _ & S2).
  cbn [fst snd] in S1, S2. now rewrite S1, S2, !U.
Qed.

(** The adapter's figure with one spatial axis: the mark in column j and row i is at the j-th of 100 times and the
    i-th of 100 places, and shows the value interpolated there, 0 when it is outside the points. *)
Theorem C165_adapter_axes : forall tk p n ut yh g h x, agree tk p n ut yh -> n <> 0 -> tk_x tk = [x] ->
  griddata (combine x (tk_t tk)) ut = Some g -> griddata (combine x (tk_t tk)) yh = Some h ->
  exists c xlo xhi tlo thi, adapter_comparison griddata tk p = Drawn c /\
    In xlo x /\ In xhi x /\ (forall v, In v x -> xlo <= v /\ v <= xhi)%Q /\
    In tlo (tk_t tk) /\ In thi (tk_t tk) /\ (forall v, In v (tk_t tk) -> tlo <= v /\ v <= thi)%Q /\
    forall i j d, i < 100 -> j < 100 -> forall k, (k = (nth (i * 100 + j) (c_true c) d, g) \/ k = (nth (i * 100 + j) (c_pred c) d, h)) ->
      (at_time (fst k) == tlo + inject_Z (Z.of_nat j) / 99 * (thi - tlo))%Q /\
      (at_space (fst k) == xlo + inject_Z (Z.of_nat i) / 99 * (xhi - xlo))%Q /\
      shown (fst k) = Some (match snd k (at_space (fst k), at_time (fst k)) with Some q => q | None => 0%Q end).
Proof.
  intros tk p n ut yh g h x A N Ex G H. destruct (C165_fields tk p n ut yh A) as (f & E & Tr & Pr & Fn & Fx & Ft & _).
  destruct A as (_ & _ & _ & _ & _ & _ & Lt & F). unfold adapter_comparison. rewrite E. rewrite Fn, Ex. cbn [List.length Nat.leb]. rewrite Fx, Ft, Ex, Tr, Pr. cbn [hd]. unfold gd. rewrite G, H.
  rewrite Ex in F. pose proof (Forall_inv F) as Lx. cbn in Lx.
  destruct x as [|x x0]; [cbn in Lx; congruence|]. destruct (tk_t tk) as [|t ts]; [cbn in Lt; congruence|].
  do 5 eexists. split; [reflexivity|]. cbn [c_true c_pred].
  destruct (qmin_le x x0), (qmax_ge x x0), (qmin_le t ts), (qmax_ge t ts).
  split; [apply qmin_in|]. split; [apply qmax_in|]. split; [intros v [<-|I]; split; auto|].
  split; [apply qmin_in|]. split; [apply qmax_in|]. split; [intros v [<-|I]; split; auto|].
  intros i j d I J k K. unfold pcolormesh in K. rewrite !spread_length in K. rewrite !nth_rows in K by assumption. destruct K as [-> | ->]; cbn [fst snd at_time at_space shown];
    rewrite !spread_nth by assumption; (split; [unfold tick; field|split; [unfold tick; field|]]); now apply gridded_nan_entry.
Qed.

(** The colours: every value shown in either field lies within the colour range, and its ends are shown. *)
Lemma in_numbers v l : In v (numbers l) <-> In (Some v) l.
Proof.
  unfold numbers. rewrite in_flat_map. split.
  - intros ([q|] & I & J); [destruct J as [->|[]]; exact I|destruct J].
  - intros I. exists (Some v). split; [exact I|now left].
Qed.
Theorem C165_colour_range : forall a b,
  match colour_range a b with
  | None => forall v, ~ In (Some v) (List.concat a ++ List.concat b)
  | Some (lo, hi) => In (Some lo) (List.concat a ++ List.concat b) /\ In (Some hi) (List.concat a ++ List.concat b) /\
                     forall v, In (Some v) (List.concat a ++ List.concat b) -> (lo <= v /\ v <= hi)%Q
  end.
Proof.
  intros a b. unfold colour_range. pose proof (fun v => in_numbers v (List.concat a ++ List.concat b)) as M.
  destruct (numbers (List.concat a ++ List.concat b)) as [|q r].
  - intros v I. apply M in I. destruct I.
  - destruct (qmin_le q r), (qmax_ge q r). split; [apply M, qmin_in|]. split; [apply M, qmax_in|]. intros v I. apply M in I. destruct I as [<-|I]; split; auto.
Qed.
Definition square (M : list (list (option Q))) : Prop := List.length M = 100 /\ Forall (fun r => List.length r = 100) M.
Lemma gridded_square g a b c d : square (gridded g a b c d).
Proof.
  split; [unfold gridded; now rewrite map_length, spread_length|]. apply Forall_forall. intros r I. unfold gridded in I. apply in_map_iff in I.
  destruct I as (x & <- & _). now rewrite map_length, spread_length.
Qed.
Lemma nan_square M : square M -> square (nan_to_num M).
Proof.
  intros (L & F). split; [unfold nan_to_num; now rewrite map_length|]. apply Forall_forall. intros r I. unfold nan_to_num in I. apply in_map_iff in I.
  destruct I as (x & <- & I). rewrite map_length. rewrite Forall_forall in F. now apply F.
Qed.
Lemma in_concat_entry M v : square M -> In (Some v) (List.concat M) <-> exists i j, i < 100 /\ j < 100 /\ entry M i j = Some v.
Proof.
  intros (L & F). rewrite Forall_forall in F. rewrite in_concat. split.
  - intros (r & Ir & I). pose proof (F r Ir) as Lr. apply (In_nth _ _ []) in Ir. destruct Ir as (i & Li & <-). apply (In_nth _ _ None) in I.
    destruct I as (j & Lj & E). exists i, j. rewrite L in Li. rewrite Lr in Lj. auto.
  - intros (i & j & I & J & E). exists (nth i M []). split; [apply nth_In; lia|]. unfold entry in E. rewrite <- E. apply nth_In. rewrite F; [exact J|apply nth_In; lia].
Qed.
Lemma shown_rows (f : nat -> nat -> mark) (g : nat -> nat -> option Q) n m v : (forall i j, i < n -> j < m -> shown (f i j) = g i j) ->
  In (Some v) (map shown (flat_map (fun i => map (f i) (seq 0 m)) (seq 0 n))) <-> exists i j, i < n /\ j < m /\ g i j = Some v.
Proof.
  intros E. rewrite in_map_iff. split.
  - intros (k & S1 & I). apply in_flat_map in I. destruct I as (i & Ii & I). apply in_map_iff in I. destruct I as (j & <- & Ij).
    apply in_seq in Ii, Ij. exists i, j. rewrite E in S1 by lia. repeat split; [lia|lia|exact S1].
  - intros (i & j & I & J & G). exists (f i j). split; [rewrite E by assumption; exact G|]. apply in_flat_map. exists i. split; [apply in_seq; lia|].
    apply in_map. apply in_seq. lia.
Qed.
Lemma shown_imshow M l r b t v : square M -> In (Some v) (map shown (imshow (transpose M) l r b t)) <-> In (Some v) (List.concat M).
Proof.
  intros Sq. rewrite (in_concat_entry M v Sq). unfold imshow. rewrite (shown_rows _ (fun i j => entry M j i)).
  - split; intros (i & j & H); exists j, i; tauto.
  - intros i j I J. cbn [shown]. now apply transpose_entry.
Qed.
Lemma shown_mesh M lo hi lo' hi' v : square M -> In (Some v) (map shown (pcolormesh (spread lo hi) (spread lo' hi') M)) <-> In (Some v) (List.concat M).
Proof.
  intros Sq. rewrite (in_concat_entry M v Sq). unfold pcolormesh. rewrite !spread_length. apply shown_rows. reflexivity.
Qed.

Lemma ok_inj {A} (a b : A) : Ok a = Ok b -> a = b. Proof. intros H. now injection H. Qed.
Lemma drawn_inj {A} (a b : A) : Drawn a = Drawn b -> a = b. Proof. intros H. now injection H. Qed.
Lemma app_iff {A} (v : A) a b c d : (In v a <-> In v c) -> (In v b <-> In v d) -> In v (a ++ b) <-> In v (c ++ d).
Proof. intros H K. rewrite !in_app_iff. tauto. Qed.
(** Both figures use one colour range for both panels, and every value drawn in either lies in it. *)
Theorem C165_shared_colours : forall tk p c, legacy_comparison griddata tk p = Ok c \/ adapter_comparison griddata tk p = Drawn c ->
  match c_range c with
  | None => forall k, In k (c_true c ++ c_pred c) -> shown k = None
  | Some (lo, hi) => (exists k, In k (c_true c ++ c_pred c) /\ shown k = Some lo) /\ (exists k, In k (c_true c ++ c_pred c) /\ shown k = Some hi) /\
                     forall k v, In k (c_true c ++ c_pred c) -> shown k = Some v -> (lo <= v /\ v <= hi)%Q
  end.
Proof.
  intros tk p c H.
  assert (exists T P, c_range c = colour_range T P /\ (forall v, In (Some v) (map shown (c_true c ++ c_pred c)) <-> In (Some v) (List.concat T ++ List.concat P))) as (T & P & R & V).
  { destruct H as [H|H].
    - unfold legacy_comparison in H. destruct (pinn_fields tk p) as [f|]; [|discriminate]. cbn [bind] in H. destruct (f_x f) as [|x xs] eqn:Ex; [discriminate|]. destruct (f_t f) as [|t ts] eqn:Et; [discriminate|].
      destruct (gd _ _ _ (f_true f)) as [g|]; [|discriminate]. cbn [bind] in H. destruct (gd _ _ _ (f_pred f)) as [h|]; [|discriminate]. cbn [bind] in H. apply ok_inj in H. subst c.
      do 2 eexists. split; [reflexivity|]. intros v. cbn [c_true c_pred]. rewrite map_app. apply app_iff; apply shown_imshow; apply gridded_square.
    - unfold adapter_comparison in H. destruct (pinn_fields tk p) as [f|]; [|discriminate]. destruct (2 <=? f_n f); [discriminate|]. destruct (f_x f) as [|x xs] eqn:Ex; [discriminate|]. destruct (f_t f) as [|t ts] eqn:Et; [discriminate|].
      destruct (gd _ _ _ (f_true f)) as [g|]; [|discriminate]. destruct (gd _ _ _ (f_pred f)) as [h|]; [|discriminate]. apply drawn_inj in H. subst c.
      do 2 eexists. split; [reflexivity|]. intros v. cbn [c_true c_pred]. rewrite map_app. apply app_iff; apply shown_mesh; apply nan_square; apply gridded_square. }
  rewrite R. pose proof (C165_colour_range T P) as B. destruct (colour_range T P) as [[lo hi]|].
  - destruct B as (B1 & B2 & B3). apply V in B1, B2. apply in_map_iff in B1, B2. split; [|split].
    + destruct B1 as (k & K & I). eauto.
    + destruct B2 as (k & K & I). eauto.
    + intros k v I K. apply B3, V. rewrite <- K. now apply in_map.
  - intros k I. destruct (shown k) as [v|] eqn:K; [|reflexivity]. exfalso. apply (B v), V. rewrite <- K. now apply in_map.
Qed.

(** What the adapter's methods do otherwise: fields that cannot be had are a warning for both figures; two or more
    spatial axes go to the other figure, never to this one; no points at all is an exception. *)
Theorem C165_adapter_otherwise : forall tk p,
  (forall e, pinn_fields tk p = Err e -> adapter_residual tk p = Warned /\ adapter_comparison griddata tk p = Warned) /\
  (forall n ut yh, agree tk p n ut yh -> 2 <= List.length (tk_x tk) -> adapter_comparison griddata tk p = Other) /\
  (forall ut yh, agree tk p 0 ut yh -> List.length (tk_x tk) = 1 -> adapter_comparison griddata tk p = Raised ValueError).
Proof.
  intros tk p. split; [|split].
  - intros e E. unfold adapter_residual, adapter_comparison. rewrite E. split; reflexivity.
  - intros n ut yh A L. destruct (C165_fields tk p n ut yh A) as (f & E & _ & _ & Fn & _). unfold adapter_comparison. rewrite E, Fn.
    apply Nat.leb_le in L. now rewrite L.
  - intros ut yh A L. destruct (C165_fields tk p 0 ut yh A) as (f & E & _ & _ & Fn & Fx & Ft & _). unfold adapter_comparison. rewrite E, Fn, L. cbn [Nat.leb]. rewrite Fx, Ft.
    destruct A as (_ & _ & _ & _ & _ & _ & Lt & _). destruct (tk_t tk); [|discriminate]. destruct (hd [] (tk_x tk)); reflexivity.
Qed.
End Compare.

(** An interpolation that returns the time of the query: the legacy figure shows, in its first row, the first time in
    every column, although the last column is labelled with the last time; the adapter's shows the last time there. *)
Definition ex_grid (pts : list (Q * Q)) (v : list Q) : option (Q * Q -> option Q) := Some (fun q => Some (snd q)).
Definition ex_1d : task := {| tk_ut := Some [3; 5; 9]%Q; tk_cache := []; tk_x := [[0; 0; 1]]%Q; tk_t := [0; 99; 0]%Q |}.
Definition blank : mark := {| at_time := 0; at_space := 0; shown := None |}%Q.
Example C165_axes_ex : agree ex_1d ex_prog 3 [3; 5; 9]%Q [1; 5; 10]%Q /\
  match legacy_comparison ex_grid ex_1d ex_prog, adapter_comparison ex_grid ex_1d ex_prog with
  | Ok c, Drawn d => (match shown (nth 99 (c_true c) blank) with Some q => Qeq_bool q 0 | None => false end) = true /\
                     Qle_bool 98 (at_time (nth 99 (c_true c) blank)) = true /\
                     (match shown (nth 99 (c_true d) blank) with Some q => Qeq_bool q 99 | None => false end) = true /\
                     Qeq_bool (at_time (nth 99 (c_true d) blank)) 99 = true
  | _, _ => False
  end.
Proof.
  split.
  - unfold agree. repeat split; try reflexivity; [discriminate|now left|repeat constructor].
  - vm_compute. repeat split; reflexivity.
Qed.

(** The adapter's residual figure: with fields that agree it carries u_t, its prediction, their difference and one
    row of coordinates for each point, and the number of spatial axes; no points at all is an exception that leaves
    the method; fields that cannot be had are a warning. *)
Theorem C165_adapter_residual : forall tk p n ut yh, agree tk p n ut yh ->
  (n = 0 -> adapter_residual tk p = Raised ValueError) /\
  (n <> 0 -> exists d co, adapter_residual tk p = Drawn (d, List.length (tk_x tk)) /\
     r_actual d = vector ut /\ r_predicted d = vector yh /\ r_coords d = Some co /\ shape (r_residuals d) = [n] /\ shape co = [n; S (List.length (tk_x tk))] /\
     forall i, i < n -> at_ (r_residuals d) [i] = (nth i ut 0 - nth i yh 0)%Q /\
       at_ co [i; List.length (tk_x tk)] = nth i (tk_t tk) 0%Q /\
       forall j, j < List.length (tk_x tk) -> at_ co [i; j] = nth i (nth j (tk_x tk) []) 0%Q).
Proof.
  intros tk p n ut yh A. destruct (C165_fields tk p n ut yh A) as (f & E & Tr & Pr & Fn & _ & _ & _ & Lc & V).
  destruct A as (_ & _ & _ & _ & Lu & Ly & _). unfold adapter_residual. rewrite E, Tr, Pr, Fn.
  destruct (sub_same (vector ut) (vector yh)) as (r & R & Sr & Vr); [cbn; congruence|].
  unfold residual_from. rewrite R. unfold residual_init.
  replace (shape (vector yh)) with (shape (vector ut)) by (cbn; congruence). rewrite Sr, shape_eqb_refl. cbn [negb shape matrix vector]. rewrite Lc, Lu, Nat.eqb_refl. split.
  - intros ->. destruct ut; [|discriminate]. destruct yh; [|discriminate]. reflexivity.
  - intros N. destruct ut as [|u ut]; [cbn in Lu; congruence|]. cbn [app]. do 2 eexists. split; [reflexivity|]. cbn [r_actual r_predicted r_coords r_residuals].
    split; [reflexivity|]. split; [reflexivity|]. split; [reflexivity|]. split; [rewrite Sr; cbn [vector shape]; congruence|]. split; [cbn [shape matrix]; now rewrite Lc|].
    intros i I. destruct (V i I) as (_ & Vc). split; [|split].
    + rewrite Vr; [reflexivity|]. cbn [vector shape]. rewrite Lu. cbn. auto using Forall2_nil. repeat first [split|constructor]; assumption.
    + cbn [at_ matrix nth]. rewrite Vc, app_nth2 by (rewrite map_length; lia). now rewrite map_length, Nat.sub_diag.
    + intros j J. cbn [at_ matrix nth]. rewrite Vc, app_nth1 by (now rewrite map_length). set (F := fun c : list Q => nth i c 0%Q).
      rewrite (nth_indep _ 0%Q (F [])) by (now rewrite map_length). now rewrite map_nth.
Qed.
Example C165_adapter_residual_ex : exists d co, adapter_residual ex_task ex_prog = Drawn (d, 2) /\ at_ (r_residuals d) [0] = (3 - 1)%Q /\ r_coords d = Some co /\
  at_ co [1; 1] = 8%Q /\ at_ co [1; 2] = 1%Q.
Proof. do 2 eexists. split; [reflexivity|]. repeat split; reflexivity. Qed.
Example C165_adapter_otherwise_ex :
  adapter_comparison ex_grid ex_task ex_prog = Other /\ adapter_comparison ex_grid ex_1d {| p_yhat := None; p_theta := true |} = Warned.
Proof. split; reflexivity. Qed.
Print Assumptions C165_fields.
Print Assumptions C165_fields_refused.
Print Assumptions C165_residual_figure.
Print Assumptions C165_single_prediction.
Print Assumptions C165_parity.
Print Assumptions C165_legacy_axes_exchanged.
Print Assumptions C165_legacy_time_lost.
Print Assumptions C165_adapter_axes.
Print Assumptions C165_colour_range.
Print Assumptions C165_adapter_residual.
Print Assumptions C165_shared_colours.
Print Assumptions C165_adapter_otherwise.
