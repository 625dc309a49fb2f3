(** C116-C119: stability selection, pretraining, refinement and iteration of KD_Discover_SPR. *)
From Coq Require Import QArith Qabs Qround Lqa Permutation.
From Verif Require Import Base Num Aggregator DedupFacts Spr.
From Verif Require EqGpt.
Local Open Scope nat_scope.

(** *** C116 *)
(** [first] picks the position of a smallest entry (NaN counts as largest). *)
Definition sorts_first (first : list num -> nat) : Prop :=
  forall c, c <> [] -> exists m, nth_error c (first c) = Some m /\ forall x, In x c -> sle m x = true.

Lemma argmax_nat_from_ok l : forall i best b pre, i = List.length pre -> best < i -> nth_error pre best = Some b ->
  (forall x, In x pre -> x <= b) -> (forall j x, j < best -> nth_error pre j = Some x -> x < b) ->
  exists v, nth_error (pre ++ l) (argmax_nat_from i best b l) = Some v /\ (forall x, In x (pre ++ l) -> x <= v) /\
    (forall j x, j < argmax_nat_from i best b l -> nth_error (pre ++ l) j = Some x -> x < v).
Proof.
  induction l as [|a l IH]; intros i best b pre Hi Hb E M F; cbn [argmax_nat_from].
  - rewrite app_nil_r. exists b. auto.
  - replace (pre ++ a :: l) with ((pre ++ [a]) ++ l) by (rewrite <- app_assoc; reflexivity).
    destruct (Nat.ltb b a) eqn:C; [apply Nat.ltb_lt in C|apply Nat.ltb_ge in C]; apply IH.
    + rewrite app_length. cbn. lia.
    + lia.
    + rewrite nth_error_app2 by lia. rewrite Hi, Nat.sub_diag. reflexivity.
    + intros x H. apply in_app_or in H. destruct H as [H|[<-|[]]]; [apply M in H; lia|lia].
    + intros j x Hj Hx. rewrite nth_error_app1 in Hx by lia. apply nth_error_In in Hx. apply M in Hx. lia.
    + rewrite app_length. cbn. lia.
    + lia.
    + rewrite nth_error_app1 by lia. exact E.
    + intros x H. apply in_app_or in H. destruct H as [H|[<-|[]]]; [apply M in H; lia|lia].
    + intros j x Hj Hx. rewrite nth_error_app1 in Hx by lia. exact (F j x Hj Hx).
Qed.
Lemma argmax_nat_ok l : l <> [] -> exists i v, argmax_nat l = Some i /\ nth_error l i = Some v /\ (forall x, In x l -> x <= v) /\ (forall j x, j < i -> nth_error l j = Some x -> x < v).
Proof.
  destruct l as [|a l]; [congruence|]. intros _. cbn [argmax_nat].
  destruct (argmax_nat_from_ok l 1 0 a [a]) as (v & A & B & C).
  - reflexivity. - lia. - reflexivity.
  - intros x [<-|[]]. lia.
  - intros j x H. lia.
  - exists (argmax_nat_from 1 0 a l), v. auto.
Qed.
Lemma max_ge l x : In x l -> x <= fold_right Nat.max 0 l.
Proof. induction l as [|a l IH]; intros []; cbn [fold_right]; [subst; lia|apply IH in H; lia]. Qed.
Lemma bincount_nth l k : l <> [] -> nth k (bincount l) 0 = count (Nat.eqb k) l.
Proof.
  intros H. unfold bincount. destruct l as [|a l0]; [congruence|]. set (l := a :: l0) in *.
  destruct (Nat.le_gt_cases k (fold_right Nat.max 0 l)) as [C|C].
  - rewrite (nth_indep _ 0 (count (Nat.eqb 0) l)).
    2:{ rewrite map_length, seq_length. lia. }
    change (count (Nat.eqb 0) l) with ((fun k => count (Nat.eqb k) l) 0). rewrite map_nth, seq_nth by lia. reflexivity.
  - rewrite nth_overflow by (rewrite map_length, seq_length; lia). symmetry. unfold count. rewrite filter_none; [reflexivity|].
    intros x I. apply max_ge in I. apply Nat.eqb_neq. lia.
Qed.
Lemma bincount_length l : l <> [] -> List.length (bincount l) = S (fold_right Nat.max 0 l).
Proof. intros H. unfold bincount. destruct l; [congruence|]. rewrite map_length, seq_length. reflexivity. Qed.

Lemma mode_ok l : l <> [] -> exists i, argmax_nat (bincount l) = Some i /\ In i l /\
  (forall j, count (Nat.eqb j) l <= count (Nat.eqb i) l) /\ (forall j, j < i -> count (Nat.eqb j) l < count (Nat.eqb i) l).
Proof.
  intros H. destruct (argmax_nat_ok (bincount l)) as (i & v & A & B & C & D).
  { intros E. pose proof (bincount_length l H) as L. rewrite E in L. discriminate. }
  assert (i < List.length (bincount l)) as Hi by (apply nth_error_Some; congruence).
  assert (V : v = count (Nat.eqb i) l).
  { rewrite <- bincount_nth by exact H. symmetry. apply nth_error_nth. exact B. }
  exists i. split; [exact A|]. split; [|split].
  - destruct (in_dec Nat.eq_dec i l) as [I|I]; [exact I|]. exfalso.
    assert (v = 0) as Z0. { rewrite V. unfold count. rewrite filter_none; [reflexivity|]. intros x Hx. apply Nat.eqb_neq. intros <-. contradiction. }
    destruct l as [|a l0]; [congruence|]. set (l := a :: l0) in *.
    assert (a <= fold_right Nat.max 0 l) as La by (apply max_ge; left; reflexivity).
    pose proof (C (nth a (bincount l) 0)) as Ca. rewrite bincount_nth in Ca by exact H.
    assert (0 < count (Nat.eqb a) l) as Pa. { unfold count, l. cbn [filter]. rewrite Nat.eqb_refl. cbn. lia. }
    assert (In (count (Nat.eqb a) l) (bincount l)) as Ia.
    { rewrite <- bincount_nth by exact H. apply nth_In. rewrite bincount_length by exact H. lia. }
    apply Ca in Ia. lia.
  - intros j. rewrite <- V. destruct (Nat.lt_ge_cases j (List.length (bincount l))) as [L|L].
    + apply C. rewrite <- bincount_nth by exact H. apply nth_In. exact L.
    + rewrite <- bincount_nth by exact H. rewrite nth_overflow by lia. lia.
  - intros j Hj. rewrite <- V. apply (D j); [exact Hj|]. rewrite <- bincount_nth by exact H. apply nth_error_nth'. lia.
Qed.


Lemma outer_nonempty {T} : forall f i (st : dd_state T) r, even_dd st -> i + S f = List.length (dd_len st) -> dd_outer (S f) i st = Ok r -> r <> [].
Proof.
  induction f as [|f IH]; intros i st r HE L E.
  - destruct (at_exists st i HE ltac:(lia)) as (p & n & HA). destruct (outer_step 0 i st p n HE HA) as (st' & found & EI & EO & _).
    rewrite EO in E. cbn [dd_outer bind] in E. injection E as <-.
    destruct HE as [H1 H2]. unfold snap_of in EI. rewrite skipn_all2 in EI by lia. cbn in EI. injection EI as <- <-. discriminate.
  - destruct (at_exists st i HE ltac:(lia)) as (p & n & HA). destruct (outer_step (S f) i st p n HE HA) as (st' & found & EI & EO & HE' & L').
    rewrite EO in E. destruct (dd_outer (S f) (S i) st') as [rest|] eqn:ER; [|discriminate]. cbn [bind] in E. injection E as <-.
    assert (rest <> []) as N. { apply (IH (S i) st' rest HE'); [rewrite L'; lia|exact ER]. }
    destruct found; [exact N|discriminate].
Qed.
Lemma firstn_nth {A} n : forall (l : list A) j, j < n -> nth_error (firstn n l) j = nth_error l j.
Proof. induction n as [|n IH]; intros l j Hj; [lia|]. destruct l as [|a l], j as [|j]; cbn; try reflexivity. apply IH. lia. Qed.
Section C116.
Context {P : Type} (first : list num -> nat) (len : P -> nat) (nmse : P -> Q) (test : P -> list num * list num) (repeats : nat).
(** The product mse * cv of program p in resampling k. *)
Definition product (p : P) (k : nat) : num := EqGpt.nmul (nth k (fst (test p)) NaN) (nth k (snd (test p)) NaN).
Definition rectangular (q : list P) : Prop := forall p, In p q -> List.length (fst (test p)) = repeats /\ List.length (snd (test p)) = repeats.

Lemma candidates_ok queue : exists cand, candidates len nmse queue = Ok cand /\ (forall p, In p cand -> In p queue) /\ (queue <> [] -> cand <> []) /\
  (forall i j p q, i < j -> nth_error cand i = Some p -> nth_error cand j = Some q -> (1 # 100000 <= Qabs (nmse q - nmse p))%Q).
Proof.
  unfold candidates. set (vals := map (fun p => [nmse p]) queue).
  assert (List.length queue = List.length vals) as L by (unfold vals; rewrite map_length; reflexivity).
  destruct (dedup_sound len queue vals L) as (r & E & F & C). rewrite E. cbn [bind]. exists (map fst r). split; [reflexivity|].
  assert (forall x, In x r -> In (fst x) queue /\ snd x = [nmse (fst x)]) as V.
  { intros [t v] I. rewrite Forall_forall in F. specialize (F _ I). apply In_nth_error in F as (k & F).
    apply nth_error_combine in F as [A B]. cbn [fst snd] in *. split; [eapply nth_error_In; eauto|]. unfold vals in B. rewrite nth_error_map, A in B. cbn in B. congruence. }
  split; [|split].
  - intros p I. apply in_map_iff in I as (x & <- & I). apply V. exact I.
  - intros N M. apply map_eq_nil in M. unfold drop_duplicates in E. destruct queue as [|q0 queue]; [congruence|].
    cbn [List.length] in E. eapply outer_nonempty in E; [congruence|apply init_even; exact L|]. cbn. rewrite map_length. reflexivity.
  - intros i j p q H A B. rewrite nth_error_map in A, B. destruct (nth_error r i) as [x|] eqn:X; [|discriminate]. destruct (nth_error r j) as [y|] eqn:Y; [|discriminate].
    cbn in A, B. injection A as <-. injection B as <-.
    apply nth_error_split in X as (r1 & r2 & -> & Hl). assert (In y r2) as I.
    { rewrite nth_error_app2 in Y by lia. destruct (j - List.length r1) as [|m] eqn:M; [lia|]. cbn in Y. eapply nth_error_In; eauto. }
    specialize (C r1 x r2 y eq_refl I). destruct (V y) as [_ Vy]. { apply in_or_app. right. right. exact I. }
    destruct (V x) as [_ Vx]. { apply in_or_app. right. left. reflexivity. }
    rewrite Vx, Vy in C. unfold close in C. cbn [combine map qsum fold_right fst snd] in C. apply negb_false_iff in C. apply Qle_bool_iff in C.
    rewrite Qplus_0_r in C. exact C.
Qed.

Lemma row_nth p k : List.length (fst (test p)) = repeats -> List.length (snd (test p)) = repeats -> k < repeats ->
  nth k (criterion_multiply (fst (test p)) (snd (test p))) NaN = product p k.
Proof.
  intros A B H. unfold criterion_multiply, product. 
  rewrite (nth_indep _ NaN (EqGpt.nmul (fst (NaN, NaN)) (snd (NaN, NaN)))) by (rewrite map_length, combine_length; lia).
  rewrite (map_nth (fun p => EqGpt.nmul (fst p) (snd p))). rewrite combine_nth by lia. reflexivity.
Qed.

(** The chosen program is, among the first [selection] candidates, the one that has the
    smallest product of error and coefficient variation in most resamplings (the earliest
    one if several win equally often). *)
Theorem C116_most_wins selection queue p : sorts_first first -> 0 < repeats -> rectangular queue ->
  stable_choice first len nmse test repeats selection queue = Ok (Some p) ->
  exists cand c win, candidates len nmse queue = Ok cand /\ nth_error cand c = Some p /\ c < Z.to_nat selection /\
    (forall k, k < repeats -> exists q, nth_error cand (win k) = Some q /\ win k < Z.to_nat selection /\
       forall j r, j < Z.to_nat selection -> nth_error cand j = Some r -> sle (product q k) (product r k) = true) /\
    (forall j, count (fun k => Nat.eqb j (win k)) (seq 0 repeats) <= count (fun k => Nat.eqb c (win k)) (seq 0 repeats)) /\
    (forall j, j < c -> count (fun k => Nat.eqb j (win k)) (seq 0 repeats) < count (fun k => Nat.eqb c (win k)) (seq 0 repeats)).
Proof.
  intros F R0 RQ E. unfold stable_choice in E. destruct (Z.leb selection 0) eqn:S0; [discriminate|]. apply Z.leb_gt in S0.
  destruct (candidates_ok queue) as (cand & EC & IC & _ & _). rewrite EC in E. cbn [bind] in E.
  destruct cand as [|c0 cand0]; [discriminate|]. set (cand := c0 :: cand0) in *. set (tested := firstn (Z.to_nat selection) cand) in *.
  set (rows := map (fun p => criterion_multiply (fst (test p)) (snd (test p))) tested) in *.
  set (win := fun k => first (column rows k)) in *.
  destruct (nth_error cand (best_ind first rows repeats)) as [p'|] eqn:N; [|discriminate]. injection E as ->.
  unfold best_ind in N. assert (map win (seq 0 repeats) <> []) as NE. { destruct repeats; [lia|]. discriminate. }
  destruct (mode_ok _ NE) as (c & A & I & M & S). fold win in N. change (fun k => first (column rows k)) with win in N. rewrite A in N.
  assert (W : forall k, k < repeats -> exists q, nth_error cand (win k) = Some q /\ win k < Z.to_nat selection /\
       forall j r, j < Z.to_nat selection -> nth_error cand j = Some r -> sle (product q k) (product r k) = true).
  { intros k Hk. assert (forall t, In t tested -> In t queue) as IT.
    { intros t It. apply IC. unfold tested in It. rewrite <- (firstn_skipn (Z.to_nat selection) cand). apply in_or_app. left. exact It. }
    assert (column rows k = map (fun t => product t k) tested) as EQ.
    { unfold column, rows. rewrite map_map. apply map_ext_in. intros t It. destruct (RQ t (IT t It)) as [L1 L2]. apply row_nth; assumption. }
    destruct (F (column rows k)) as (m & Nm & Mm).
    { rewrite EQ. intros H. apply map_eq_nil in H. unfold tested, cand in H. destruct (Z.to_nat selection) eqn:Z0; [lia|]. discriminate. }
    fold (win k) in Nm. rewrite EQ in Nm. rewrite nth_error_map in Nm. destruct (nth_error tested (win k)) as [q|] eqn:Q; [|discriminate]. cbn in Nm. injection Nm as <-.
    assert (win k < List.length tested) as Lw by (apply nth_error_Some; congruence). pose proof (firstn_length (Z.to_nat selection) cand) as FL. fold tested in FL.
    assert (forall j, j < Z.to_nat selection -> nth_error tested j = nth_error cand j) as NT.
    { intros j Hj. apply firstn_nth. exact Hj. }
    exists q. split; [rewrite <- NT by lia; exact Q|]. split; [lia|].
    intros j r Hj Er. apply Mm. rewrite EQ. rewrite <- NT in Er by exact Hj. apply nth_error_In in Er. apply in_map_iff. exists r. auto. }
  assert (CNT : forall j, count (Nat.eqb j) (map win (seq 0 repeats)) = count (fun k => Nat.eqb j (win k)) (seq 0 repeats)).
  { intros j. unfold count. generalize (seq 0 repeats). induction l as [|a l IH]; [reflexivity|]. cbn [map filter]. destruct (Nat.eqb j (win a)); cbn [List.length]; auto. }
  exists cand, c, win. split; [exact EC|]. split; [exact N|]. split; [|split; [exact W|split]].
  - apply in_map_iff in I as (k & <- & Ik). apply in_seq in Ik. destruct (W k ltac:(lia)) as (q & _ & H & _). exact H.
  - intros j. rewrite <- !CNT. apply M.
  - intros j Hj. rewrite <- !CNT. apply S. exact Hj.
Qed.
(** The candidates are programs of the queue and differ by at least 1e-5 in their error. *)
Theorem C116_candidates queue : exists cand, candidates len nmse queue = Ok cand /\ (forall p, In p cand -> In p queue) /\ (queue <> [] -> cand <> []) /\
  (forall i j p q, i < j -> nth_error cand i = Some p -> nth_error cand j = Some q -> (1 # 100000 <= Qabs (nmse q - nmse p))%Q).
Proof. exact (candidates_ok queue). Qed.
(** Switched off, or with an empty queue, it changes nothing; otherwise it always answers. *)
Theorem C116_answers selection queue : sorts_first first -> 0 < repeats -> rectangular queue ->
  exists r, stable_choice first len nmse test repeats selection queue = Ok r /\ (r = None <-> (selection <= 0)%Z \/ queue = []).
Proof.
  intros F R0 RQ. destruct (stable_choice first len nmse test repeats selection queue) as [r|e] eqn:E.
  - exists r. split; [reflexivity|]. unfold stable_choice in E. destruct (Z.leb selection 0) eqn:S0.
    + injection E as <-. apply Z.leb_le in S0. tauto.
    + apply Z.leb_gt in S0. destruct (candidates_ok queue) as (cand & EC & IC & NC & _). rewrite EC in E. cbn [bind] in E. destruct cand as [|c0 cand].
      * injection E as <-. split; [|tauto]. intros _. right. destruct queue; [reflexivity|]. exfalso. apply NC; [discriminate|reflexivity].
      * destruct (nth_error (c0 :: cand) _); [|discriminate]. injection E as <-. split; [discriminate|]. intros [H|H]; [lia|]. subst. cbn in EC. discriminate.
  - exfalso. unfold stable_choice in E. destruct (Z.leb selection 0) eqn:S0; [discriminate|]. apply Z.leb_gt in S0.
    destruct (candidates_ok queue) as (cand & EC & IC & NC & _). rewrite EC in E. cbn [bind] in E. destruct cand as [|c0 cand0]; [discriminate|].
    set (cand := c0 :: cand0) in *. set (tested := firstn (Z.to_nat selection) cand) in *.
    set (rows := map (fun p => criterion_multiply (fst (test p)) (snd (test p))) tested) in *.
    destruct (nth_error cand (best_ind first rows repeats)) eqn:N; [discriminate|]. apply nth_error_None in N. unfold best_ind in N.
    assert (map (fun k => first (column rows k)) (seq 0 repeats) <> []) as NE. { destruct repeats; [lia|]. discriminate. }
    destruct (mode_ok _ NE) as (c & A & I & _ & _). rewrite A in N. apply in_map_iff in I as (k & <- & Ik).
    destruct (F (column rows k)) as (m & Nm & _).
    { unfold column, rows, tested, cand. destruct (Z.to_nat selection) eqn:Z0; [lia|]. discriminate. }
    assert (first (column rows k) < List.length (column rows k)) as L by (apply nth_error_Some; congruence).
    assert (List.length (column rows k) <= List.length cand) as LC. { unfold column, rows. rewrite !map_length. unfold tested. rewrite firstn_length. lia. }
    lia.
Qed.
End C116.
(** argmin with NaN last, first of equal ones: what numpy does for at most 16 candidates. *)
Fixpoint argmin_from (i best : nat) (b : num) (l : list num) : nat :=
  match l with [] => best | x :: l' => if sle b x then argmin_from (S i) best b l' else argmin_from (S i) i x l' end.
Definition argmin (l : list num) : nat := match l with [] => 0 | x :: l' => argmin_from 1 0 x l' end.
Lemma argmin_from_ok l : forall i best b pre, i = List.length pre -> nth_error pre best = Some b -> (forall x, In x pre -> sle b x = true) ->
  exists m, nth_error (pre ++ l) (argmin_from i best b l) = Some m /\ forall x, In x (pre ++ l) -> sle m x = true.
Proof.
  induction l as [|a l IH]; intros i best b pre Hi E M; cbn [argmin_from].
  - rewrite app_nil_r. exists b. auto.
  - replace (pre ++ a :: l) with ((pre ++ [a]) ++ l) by (rewrite <- app_assoc; reflexivity).
    assert (best < List.length pre) as Lb by (apply nth_error_Some; congruence).
    destruct (sle b a) eqn:C; apply IH; try (rewrite app_length; cbn; lia).
    + rewrite nth_error_app1 by lia. exact E.
    + intros x H. apply in_app_or in H. destruct H as [H|[<-|[]]]; auto.
    + rewrite nth_error_app2 by lia. rewrite Hi, Nat.sub_diag. reflexivity.
    + destruct (sle_total a b) as [T|T]; [|congruence]. intros x H. apply in_app_or in H. destruct H as [H|[<-|[]]]; [|apply sle_refl].
      exact (sle_trans _ _ _ T (M x H)).
Qed.
Lemma argmin_sorts : sorts_first argmin.
Proof.
  intros c N. destruct c as [|a c]; [congruence|]. cbn [argmin]. apply (argmin_from_ok c 1 0 a [a]); [reflexivity|reflexivity|].
  intros x [<-|[]]. apply sle_refl.
Qed.
Definition c116_test (n : nat) : list num * list num :=
  nth n [([Fin 1; Fin 2; Fin 3], [Fin 1; Fin 1; Fin 1]); ([Fin 5; Fin 1; Fin 1], [Fin 1; Fin 1; Fin 1]); ([Fin 2; Fin 9; Fin 9], [NaN; Fin 1; Fin 1])]%Q ([], []).
Example C116_example : stable_choice argmin (fun n => n + 3) (fun n => inject_Z (Z.of_nat n)) c116_test 3 3 [0; 1; 2] = Ok (Some 1) /\ rectangular c116_test 3 [0; 1; 2].
Proof. split; [vm_compute; reflexivity|]. intros p [<-|[<-|[<-|[]]]]; cbn; auto. Qed.
(** The program with the highest reward can be left out of the test: a longer program with
    the same error further down the queue pulls it behind the tested ones. *)
Theorem C116_best_not_tested_refuted : let len (n : nat) := match n with 0 => 5 | _ => 10 + n end in
  let nmse (n : nat) := match n with 0 | 4 => 1%Q | _ => inject_Z (Z.of_nat (10 + n)) end in
  candidates len nmse [0; 1; 2; 3; 4] = Ok [1; 2; 3; 0] /\
  forall test, exists p, stable_choice (fun _ => 0) len nmse test 100 3 [0; 1; 2; 3; 4] = Ok (Some p) /\ p <> 0.
Proof.
  cbn zeta. split; [vm_compute; reflexivity|]. intros test. exists 1. split; [|discriminate].
  unfold stable_choice. cbn [Z.leb Z.compare]. 
  match goal with |- context [candidates ?a ?b ?c] => assert (candidates a b c = Ok [1; 2; 3; 0]) as -> by (vm_compute; reflexivity) end.
  cbn [bind]. unfold best_ind. match goal with |- context [argmax_nat ?a] => assert (argmax_nat a = Some 0) as -> by (vm_compute; reflexivity) end. reflexivity.
Qed.
Print Assumptions C116_most_wins.
Print Assumptions C116_candidates.
Print Assumptions C116_answers.
Print Assumptions C116_best_not_tested_refuted.
