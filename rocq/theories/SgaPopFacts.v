(** Proofs about the SGA population. *)
From Coq Require Import QArith Permutation.
From Verif Require Import Base Num SgaNames SgaPop.
Local Open Scope nat_scope.

Section Gather.
Context {A B : Type}.
Lemma gather_map (f : A -> B) l idx l' : gather l idx = Ok l' -> gather (map f l) idx = Ok (map f l').
Proof.
  revert l'. induction idx as [|i idx IH]; intros l' H; cbn in *; [injection H as <-; reflexivity|].
  destruct (nth_error l i) eqn:E; cbn in H; [|discriminate]. erewrite map_nth_error by eauto. cbn.
  unfold gather in IH. destruct (mapM _ idx) eqn:E2; cbn in H; [|discriminate].
  injection H as <-. erewrite IH by reflexivity. reflexivity.
Qed.
Lemma gather_length (l : list A) idx l' : gather l idx = Ok l' -> List.length l' = List.length idx.
Proof.
  revert l'. induction idx as [|i idx IH]; intros l' H; cbn in *; [injection H as <-; reflexivity|].
  destruct (nth_error l i) eqn:E; cbn in H; [|discriminate].
  unfold gather in IH. destruct (mapM _ idx) eqn:E2; cbn in H; [|discriminate]. injection H as <-. cbn. f_equal. eauto.
Qed.
Lemma gather_ok (l : list A) idx : Forall (fun i => i < List.length l) idx -> exists l', gather l idx = Ok l'.
Proof.
  induction 1 as [|i idx Hi H [l' IH]]; [eexists; reflexivity|]. unfold gather in *. cbn.
  destruct (nth_error l i) eqn:E; [|apply nth_error_None in E; lia]. cbn. rewrite IH. cbn. eauto.
Qed.
Lemma gather_nth (l : list A) idx l' k : gather l idx = Ok l' -> nth_error l' k = match nth_error idx k with Some i => nth_error l i | None => None end.
Proof.
  revert l' k. induction idx as [|i idx IH]; intros l' k H; cbn in *; [injection H as <-; destruct k; reflexivity|].
  destruct (nth_error l i) eqn:E; cbn in H; [|discriminate].
  unfold gather in IH. destruct (mapM _ idx) eqn:E2; cbn in H; [|discriminate]. injection H as <-. destruct k; cbn; auto.
Qed.
Lemma gather_app (l : list A) i1 i2 l' : gather l (i1 ++ i2) = Ok l' ->
  exists a b, gather l i1 = Ok a /\ gather l i2 = Ok b /\ l' = a ++ b.
Proof.
  revert l'. induction i1 as [|i i1 IH]; intros l' H; cbn in *.
  - eexists _, _. split; [reflexivity|]. split; [exact H|reflexivity].
  - destruct (nth_error l i) eqn:E; cbn in H; [|discriminate].
    destruct (mapM _ (i1 ++ i2)) eqn:E2; cbn in H; [|discriminate]. injection H as <-.
    destruct (IH _ E2) as (x & y & Hx & Hy & ->). unfold gather in *. rewrite Hx. cbn. eexists _, _. split; [reflexivity|]. split; [exact Hy|reflexivity].
Qed.
Lemma gather_firstn (l : list A) idx l' n : gather l idx = Ok l' -> gather l (firstn n idx) = Ok (firstn n l').
Proof.
  intros H. rewrite <- (firstn_skipn n idx) in H. destruct (gather_app _ _ _ _ H) as (a & b & Ha & Hb & ->).
  rewrite Ha. f_equal. pose proof (gather_length _ _ _ Ha) as L. pose proof (gather_length _ _ _ Hb) as Lb. rewrite firstn_length in L. rewrite skipn_length in Lb.
  rewrite firstn_app. destruct (Nat.le_gt_cases n (List.length idx)).
  - replace (n - List.length a) with 0 by lia. rewrite firstn_O, app_nil_r. symmetry. apply firstn_all2. lia.
  - assert (b = []) as -> by (apply length_zero_iff_nil; lia). rewrite firstn_nil, app_nil_r. symmetry. apply firstn_all2. lia.
Qed.
Lemma gather_seq (l : list A) : gather l (seq 0 (List.length l)) = Ok l.
Proof.
  destruct (gather_ok l (seq 0 (List.length l))) as [l' H].
  { apply Forall_forall. intros i. rewrite in_seq. lia. }
  rewrite H. f_equal. pose proof (gather_length _ _ _ H) as L. rewrite seq_length in L.
  assert (X : forall k, nth_error l' k = nth_error l k).
  { intros k. rewrite (gather_nth _ _ _ k H). destruct (Nat.lt_ge_cases k (List.length l)) as [Hk|Hk].
    - rewrite (nth_error_nth' _ 0) by (rewrite seq_length; exact Hk). rewrite seq_nth by exact Hk. reflexivity.
    - replace (nth_error (seq 0 (List.length l)) k) with (@None nat) by (symmetry; apply nth_error_None; rewrite seq_length; exact Hk).
      symmetry. apply nth_error_None. exact Hk. }
  clear -X. revert l X. induction l' as [|x l' IH]; intros [|y l] X; auto; try (specialize (X 0); discriminate).
  pose proof (X 0) as X0. cbn in X0. injection X0 as ->. f_equal. apply IH. intros k. exact (X (S k)).
Qed.
Lemma gather_perm (l : list A) idx1 idx2 l1 : Permutation idx1 idx2 -> gather l idx1 = Ok l1 -> exists l2, gather l idx2 = Ok l2 /\ Permutation l1 l2.
Proof.
  intros P. revert l1. induction P as [|i i1 i2 P IH|i j i1|i1 i2 i3 P1 IH1 P2 IH2]; intros l1 H.
  - exists l1. split; [exact H|apply Permutation_refl].
  - cbn in *. destruct (nth_error l i) eqn:E; cbn in H; [|discriminate]. destruct (mapM _ i1) eqn:E1; cbn in H; [|discriminate].
    injection H as <-. destruct (IH _ E1) as (l2 & H2 & P2). unfold gather in *. rewrite H2. cbn. eexists. split; [reflexivity|]. constructor. exact P2.
  - cbn in *. destruct (nth_error l i) eqn:E; cbn in *; [|destruct (nth_error l j); discriminate].
    destruct (nth_error l j) eqn:E'; cbn in *; [|discriminate]. destruct (mapM _ i1) eqn:E1; cbn in *; [|discriminate].
    injection H as <-. eexists. split; [reflexivity|]. constructor.
  - destruct (IH1 _ H) as (l2 & H2 & Q2). destruct (IH2 _ H2) as (l3 & H3 & Q3). exists l3. split; auto. eapply Permutation_trans; eauto.
Qed.
Lemma gather_perm_seq (l : list A) idx : Permutation idx (seq 0 (List.length l)) -> exists l', gather l idx = Ok l' /\ Permutation l l'.
Proof.
  intros P. apply Permutation_sym in P. destruct (gather_perm l _ _ l P (gather_seq l)) as (l' & H & Q). eauto.
Qed.
Lemma put_ok (l : list A) i x : i < List.length l -> exists l', put l i x = Ok l' /\ List.length l' = List.length l.
Proof.
  intros H. unfold put. apply Nat.ltb_lt in H as H'. rewrite H'. eexists. split; [reflexivity|].
  rewrite app_length, firstn_length. cbn [List.length]. rewrite skipn_length. lia.
Qed.
End Gather.

Lemma nsorted_firstn n l : nsorted l -> nsorted (firstn n l).
Proof.
  intros H i j a b Hij Ha Hb. assert (X : forall k x, nth_error (firstn n l) k = Some x -> nth_error l k = Some x).
  { clear. revert l. induction n as [|n IH]; intros [|y l] [|k] x H; cbn in *; try discriminate; auto. }
  eapply (H i j); eauto.
Qed.
Lemma count_perm {A} (f : A -> bool) l1 l2 : Permutation l1 l2 -> count f l1 = count f l2.
Proof. unfold count. induction 1; cbn; try lia; repeat destruct (f _); cbn; lia. Qed.
Lemma count_le {A} (f : A -> bool) l : count f l <= List.length l.
Proof. apply filter_length. Qed.
Lemma count_pos {A} (f : A -> bool) l : 0 < count f l -> exists x, In x l /\ f x = true.
Proof.
  unfold count. destruct (filter f l) as [|x r] eqn:E; cbn; [lia|]. intros _. exists x. apply filter_In. rewrite E. left; auto.
Qed.
Lemma count_split {A} (f : A -> bool) l x : In x l -> f x = false -> S (count f l) <= List.length l.
Proof.
  intros H Hf. apply in_split in H as (a & b & ->). rewrite count_app. unfold count at 2. cbn. rewrite Hf. fold (count f b).
  pose proof (count_le f a). pose proof (count_le f b). rewrite app_length. cbn. lia.
Qed.
Lemma count_all {A} (f : A -> bool) l : (forall x, In x l -> f x = true) -> count f l = List.length l.
Proof. intros H. unfold count. rewrite filter_all; auto. Qed.
Lemma count_none {A} (f : A -> bool) l : (forall x, In x l -> f x = false) -> count f l = 0.
Proof. intros H. unfold count. rewrite filter_none; auto. Qed.

(** ** The n best of a growing collection *)
Lemma n_best_self n l : List.length l = n -> nsorted l -> n_best n l l.
Proof. intros L S. split; [exact L|]. split; [exact S|]. exists []. rewrite app_nil_r. split; [apply Permutation_refl|]. intros x y _ []. Qed.
Lemma n_best_perm n a a' b : Permutation a a' -> n_best n a b -> n_best n a' b.
Proof. intros P (L & S & r & Q & H). split; [exact L|]. split; [exact S|]. exists r. split; [|exact H]. eapply Permutation_trans; [apply Permutation_sym; exact P|exact Q]. Qed.
Lemma n_best_sorted n a s : Permutation a s -> nsorted s -> n <= List.length s -> n_best n a (firstn n s).
Proof.
  intros P S L. split; [rewrite firstn_length; lia|]. split; [apply nsorted_firstn; exact S|].
  exists (skipn n s). rewrite firstn_skipn. split; [exact P|].
  intros x y Hx Hy. apply In_nth_error in Hx as [i Hi], Hy as [j Hj].
  assert (Li : i < n). { assert (i < List.length (firstn n s)) by (apply nth_error_Some; congruence). rewrite firstn_length in H. lia. }
  apply (S i (n + j)); [lia| |].
  - clear -Hi Li. revert i s Hi Li. induction n as [|n IH]; intros [|i] [|z s] Hi Li; cbn in *; try lia; try discriminate; auto.
    apply IH; [exact Hi|lia].
  - rewrite <- (firstn_skipn n s). assert (F : List.length (firstn n s) = n) by (rewrite firstn_length; lia).
    rewrite nth_error_app2 by lia. replace (n + j - List.length (firstn n s)) with j by lia. exact Hj.
Qed.
Lemma n_best_step n all best new best' :
  n_best n all best -> n_best n (best ++ new) best' -> n_best n (all ++ new) best'.
Proof.
  intros (L & S & r & P & H) (L' & S' & r' & P' & H'). split; [exact L'|]. split; [exact S'|].
  exists (r' ++ r). split.
  - rewrite app_assoc. rewrite <- P'. rewrite P. rewrite <- app_assoc. rewrite (Permutation_app_comm r new). rewrite app_assoc. reflexivity.
  - intros x y Hx Hy. apply in_app_or in Hy as [Hy|Hy]; [auto|].
    destruct (sle x y) eqn:E; [reflexivity|]. exfalso.
    set (f := fun z => negb (sle x z)).
    assert (C1 : count f best = n).
    { rewrite count_all; [exact L|]. intros z Hz. unfold f. destruct (sle x z) eqn:E1; [|reflexivity].
      rewrite (sle_trans x z y E1 (H z y Hz Hy)) in E. discriminate. }
    assert (C2 : Datatypes.S (count f best') <= n).
    { rewrite <- L'. eapply count_split; eauto. unfold f. rewrite sle_refl. reflexivity. }
    assert (C3 : count f (best ++ new) = count f (best' ++ r')) by (apply count_perm; exact P').
    rewrite !count_app in C3.
    destruct (count_pos f r') as (z & Hz & Hf); [lia|]. unfold f in Hf. rewrite (H' x z Hx Hz) in Hf. discriminate.
Qed.
(** the k-th best of a larger collection is not worse *)
Lemma n_best_improves n all new best best' k a b :
  n_best n all best -> n_best n (all ++ new) best' ->
  nth_error best k = Some a -> nth_error best' k = Some b -> sle b a = true.
Proof.
  intros (L & S & r & P & H) (L' & S' & r' & P' & H') Ha Hb.
  destruct (sle b a) eqn:E; [reflexivity|]. exfalso.
  set (f := fun z => negb (sle b z)).
  assert (Fa : forall i z, i <= k -> nth_error best i = Some z -> f z = true).
  { intros i z Hi Hz. unfold f. destruct (sle b z) eqn:E1; [|reflexivity].
    rewrite (sle_trans b z a E1 (S i k z a Hi Hz Ha)) in E. discriminate. }
  assert (Kl : k < List.length best) by (apply nth_error_Some; congruence).
  assert (Kl' : k < List.length best') by (apply nth_error_Some; congruence).
  assert (NF : forall i l z, nth_error (firstn i l) z <> None -> z < i /\ nth_error (firstn i l) z = @nth_error num l z).
  { clear. induction i as [|i IH]; intros [|y l] [|z] Hz; cbn in *; try congruence; try (split; [lia|reflexivity]).
    destruct (IH _ _ Hz). split; [lia|auto]. }
  assert (C1 : Datatypes.S k <= count f best).
  { rewrite <- (firstn_skipn (Datatypes.S k) best), count_app.
    rewrite (count_all f (firstn (Datatypes.S k) best)).
    - rewrite firstn_length. lia.
    - intros x Hx. apply In_nth_error in Hx as [i Hi]. destruct (NF _ _ _ (ltac:(congruence) : nth_error (firstn (Datatypes.S k) best) i <> None)) as [Li Ei].
      apply (Fa i); [lia|congruence]. }
  assert (C2 : count f best' <= k).
  { rewrite <- (firstn_skipn k best'), count_app. rewrite (count_none f (skipn k best')).
    - pose proof (count_le f (firstn k best')). rewrite firstn_length in H0. lia.
    - intros x Hx. apply In_nth_error in Hx as [i Hi]. unfold f.
      rewrite (S' k (k + i) b x); [reflexivity|lia|exact Hb|].
      rewrite <- (firstn_skipn k best'). rewrite nth_error_app2; rewrite firstn_length; [|lia].
      replace (k + i - Nat.min k (List.length best')) with i by lia. exact Hi. }
  assert (C3 : count f best <= count f (best' ++ r')).
  { rewrite <- (count_perm f _ _ P'). rewrite count_app, (count_perm f _ _ P), count_app. lia. }
  rewrite count_app in C3.
  destruct (count_pos f r') as (z & Hz & Hf); [lia|]. unfold f in Hf. rewrite (H' b z) in Hf; [discriminate|eapply nth_error_In; eauto|exact Hz].
Qed.

(** ** A reference argsort (insertion sort of the positions) *)
Fixpoint pinsert (x : num * nat) (l : list (num * nat)) : list (num * nat) :=
  match l with [] => [x] | y :: l' => if sle (fst x) (fst y) then x :: l else y :: pinsert x l' end.
Fixpoint psort (l : list (num * nat)) : list (num * nat) := match l with [] => [] | x :: l' => pinsert x (psort l') end.
Definition argsort_ref (l : list num) : list nat := map snd (psort (combine l (seq 0 (List.length l)))).
Lemma pinsert_perm x l : Permutation (pinsert x l) (x :: l).
Proof. induction l as [|y l IH]; cbn; [reflexivity|]. destruct (sle (fst x) (fst y)); [reflexivity|]. rewrite IH. constructor. Qed.
Lemma psort_perm l : Permutation (psort l) l.
Proof. induction l as [|x l IH]; cbn; [reflexivity|]. rewrite pinsert_perm. constructor. exact IH. Qed.
Lemma psort_fst l : map fst (psort l) = nsort (map fst l).
Proof.
  induction l as [|x l IH]; cbn; [reflexivity|]. rewrite <- IH. generalize (psort l). intros m. induction m as [|y m IHm]; cbn; [reflexivity|].
  destruct (sle (fst x) (fst y)); cbn; [reflexivity|]. rewrite IHm. reflexivity.
Qed.
Lemma map_fst_combine {A B} (l : list A) (m : list B) : List.length l = List.length m -> map fst (combine l m) = l.
Proof. revert m. induction l as [|x l IH]; intros [|y m] H; cbn in *; try discriminate; auto. f_equal. apply IH. lia. Qed.
Lemma map_snd_combine {A B} (l : list A) (m : list B) : List.length l = List.length m -> map snd (combine l m) = m.
Proof. revert m. induction l as [|x l IH]; intros [|y m] H; cbn in *; try discriminate; auto. f_equal. apply IH. lia. Qed.
Lemma combine_seq_nth {A} (l : list A) : forall n x i, In (x, i) (combine l (seq n (List.length l))) -> n <= i /\ nth_error l (i - n) = Some x.
Proof.
  induction l as [|y l IH]; intros n x i H; cbn in *; [tauto|]. destruct H as [H|H].
  - injection H as -> ->. rewrite Nat.sub_diag. auto.
  - apply IH in H as [H1 H2]. split; [lia|]. replace (i - n) with (S (i - S n)) by lia. exact H2.
Qed.
Lemma argsort_ref_ok : argsort_ok argsort_ref.
Proof.
  intros l. unfold argsort_ref. split.
  - rewrite psort_perm. rewrite map_snd_combine by (rewrite seq_length; reflexivity). reflexivity.
  - intros l' H. assert (l' = nsort l) as ->; [|apply nsort_sorted].
    rewrite <- (map_fst_combine l (seq 0 (List.length l))) at 1 by (rewrite seq_length; reflexivity). rewrite <- psort_fst.
    assert (X : forall x i, In (x, i) (psort (combine l (seq 0 (List.length l)))) -> nth_error l i = Some x).
    { intros x i Hi. apply (Permutation_in _ (psort_perm _)) in Hi. apply combine_seq_nth in Hi as [_ Hi]. rewrite Nat.sub_0_r in Hi. exact Hi. }
    revert l' H. generalize dependent (psort (combine l (seq 0 (List.length l)))). intros m X.
    induction m as [|[x i] m IH]; intros l' H; cbn in *; [injection H as <-; reflexivity|].
    rewrite (X x i (or_introl eq_refl)) in H. cbn in H. destruct (mapM _ (map snd m)) eqn:E; cbn in H; [|discriminate].
    injection H as <-. f_equal. apply IH; auto.
Qed.

(** ** Invariants of the population *)
Section PopFacts.
Context {T : Type}.
Variables (tname : T -> string) (keep : T -> bool) (aic : list T -> num) (argsort : list num -> list nat).
Hypothesis Hsort : argsort_ok argsort.
Local Notation sc := (fun e => score aic (terms e)).
Definition sound (c : indiv T) : Prop := wid c = List.length (terms c).
Definition clean (c : indiv T) : Prop := sound c /\ forallb keep (terms c) = true.
Definition aligned (p : pop T) : Prop := mses p = map sc (eqs p) /\ Forall clean (eqs p).
(** [p'] is [p] after scoring and adding [new] *)
Definition grown (p p' : pop T) (new : list (indiv T)) : Prop :=
  eqs p' = eqs p ++ new /\ mses p' = mses p ++ map sc new /\ errs p' = errs p ++ map sc new /\ Forall clean new.

Lemma assess_clean c : sound c -> clean (fst (assess keep aic c)) /\ snd (assess keep aic c) = sc (fst (assess keep aic c)).
Proof.
  intros S. unfold assess. cbn. split; [|reflexivity]. split; cbn.
  - unfold sound in *. cbn. rewrite S. pose proof (filter_length keep (terms c)). lia.
  - apply forallb_forall. intros x Hx. apply filter_In in Hx. tauto.
Qed.
Lemma admit_grown c p : sound c -> exists new, grown p (admit tname keep aic c p) new.
Proof.
  intros S. unfold admit. destruct (known _ _).
  - exists []. unfold grown. cbn. rewrite !app_nil_r. auto.
  - destruct (assess keep aic c) as [c' e] eqn:E. pose proof (assess_clean c S) as [H1 H2]. rewrite E in H1, H2. cbn in H1, H2. subst e.
    exists [c']. unfold grown. cbn. auto.
Qed.
Lemma grown_refl p : grown p p [].
Proof. unfold grown. cbn. rewrite !app_nil_r. auto. Qed.
Lemma grown_trans p q r n1 n2 : grown p q n1 -> grown q r n2 -> grown p r (n1 ++ n2).
Proof.
  intros (A & B & C & D) (A' & B' & C' & D'). unfold grown. rewrite map_app, A', B', C', A, B, C, <- !app_assoc.
  repeat split; auto. apply Forall_app; auto.
Qed.
Lemma grown_aligned p p' new : aligned p -> grown p p' new -> aligned p'.
Proof. intros [A F] (B & C & D & E). split; [rewrite C, B, A, map_app; reflexivity|]. rewrite B. apply Forall_app; auto. Qed.

Lemma resort_ok p : aligned p -> exists p1, resort argsort p = Ok p1 /\ aligned p1 /\
  Permutation (eqs p) (eqs p1) /\ nsorted (mses p1) /\ lib p1 = lib p /\ errs p1 = errs p.
Proof.
  intros [A F]. unfold resort. destruct (Hsort (mses p)) as [P S].
  assert (P' : Permutation (argsort (mses p)) (seq 0 (List.length (eqs p)))) by (rewrite A in P at 2; rewrite map_length in P; exact P).
  destruct (gather_perm_seq (eqs p) _ P') as (e & He & Pe).
  pose proof (gather_map sc _ _ _ He) as Hm. rewrite <- A in Hm. rewrite Hm. cbn. rewrite He. cbn.
  eexists. split; [reflexivity|]. cbn. repeat split; auto.
  - eapply Permutation_Forall; eauto.
Qed.
Lemma select_ok num p : aligned p -> num <= List.length (eqs p) -> exists p', select argsort num p = Ok p' /\ aligned p' /\
  List.length (eqs p') = num /\ n_best num (mses p) (mses p') /\ lib p' = lib p /\ errs p' = errs p.
Proof.
  intros Ap L. destruct (resort_ok p Ap) as (p1 & H & [A1 F1] & P & S & El & Ee). destruct Ap as [A F].
  unfold resort in H. unfold select.
  destruct (gather (mses p) (argsort (mses p))) as [m|] eqn:Em; cbn in H; [|discriminate].
  destruct (gather (eqs p) (argsort (mses p))) as [e|] eqn:Ee'; cbn in H; [|discriminate]. injection H as <-. cbn in *.
  rewrite (gather_firstn _ _ _ num Em), (gather_firstn _ _ _ num Ee'). cbn. eexists. split; [reflexivity|]. cbn.
  assert (Lm : List.length m = List.length (eqs p)) by (rewrite A1, map_length; symmetry; apply Permutation_length; exact P).
  split; [split; cbn|split; [|split; [|split; reflexivity]]].
  - rewrite A1. apply firstn_map.
  - apply Forall_forall. intros x Hx. rewrite Forall_forall in F1. apply F1.
    rewrite <- (firstn_skipn num e). apply in_or_app. left. exact Hx.
  - rewrite firstn_length. rewrite <- (Permutation_length P). lia.
  - apply n_best_sorted; [rewrite A1, A; apply Permutation_map; exact P|exact S|lia].
Qed.

(** no score of the population is infinite or NaN *)
Definition scored (l : list num) : Prop := Forall (fun e => sle PInf e = false) l.
Lemma scored_nonempty p : aligned p -> scored (mses p) -> Forall (fun e => terms e <> []) (eqs p).
Proof.
  intros [A _] S. rewrite A in S. apply Forall_map in S. eapply Forall_impl; [|exact S]. cbn. intros c H E. rewrite E in H. discriminate.
Qed.
Lemma n_best_scored n all best new : n_best n (all ++ new) best -> List.length all = n -> scored all -> scored best.
Proof.
  intros (L & S & r & P & H) La Sa. apply Forall_forall. intros x Hx. destruct (sle PInf x) eqn:E; [|reflexivity]. exfalso.
  set (f := fun z => negb (sle PInf z)).
  assert (C1 : count f all = n).
  { rewrite count_all; [exact La|]. intros z Hz. unfold f. unfold scored in Sa. rewrite Forall_forall in Sa. rewrite (Sa z Hz). reflexivity. }
  assert (C2 : Datatypes.S (count f best) <= n) by (rewrite <- L; eapply count_split; eauto; unfold f; rewrite E; reflexivity).
  pose proof (count_perm f _ _ P) as C3. rewrite !count_app in C3.
  destruct (count_pos f r) as (z & Hz & Hf); [lia|]. unfold f in Hf. rewrite (sle_trans PInf x z E (H x z Hx Hz)) in Hf. discriminate.
Qed.

Lemma cross_individual_ok r1 r2 (a b : indiv T) : terms a <> [] -> terms b <> [] -> sound a -> sound b ->
  exists x y, cross_individual r1 r2 a b = Ok (x, y) /\ sound x /\ sound y.
Proof.
  intros Ha Hb Sa Sb. unfold cross_individual, sound in *.
  destruct (terms a) as [|x0 ta] eqn:Ea; [congruence|]. destruct (terms b) as [|y0 tb] eqn:Eb; [congruence|].
  rewrite <- Ea, <- Eb in *. clear Ha Hb.
  assert (L1 : r1 mod List.length (terms a) < List.length (terms a)) by (apply Nat.mod_upper_bound; rewrite Ea; discriminate).
  assert (L2 : r2 mod List.length (terms b) < List.length (terms b)) by (apply Nat.mod_upper_bound; rewrite Eb; discriminate).
  destruct (nth_error (terms a) _) eqn:E1; [|apply nth_error_None in E1; lia].
  destruct (nth_error (terms b) (r2 mod _)) eqn:E2; [|apply nth_error_None in E2; lia].
  destruct (put_ok (terms a) _ t0 L1) as (ta' & P1 & Q1). destruct (put_ok (terms b) _ t L2) as (tb' & P2 & Q2).
  rewrite P1. cbn. rewrite P2. cbn. eexists _, _. split; [reflexivity|]. cbn. lia.
Qed.
Lemma cross_loop_ok g ps : forall k p,
  Forall (fun ab => terms (fst ab) <> [] /\ terms (snd ab) <> [] /\ sound (fst ab) /\ sound (snd ab)) ps ->
  exists p' new, cross_loop tname keep aic g k ps p = Ok p' /\ grown p p' new.
Proof.
  induction ps as [|[a b] ps IH]; intros k p H; cbn.
  - eexists _, _. split; [reflexivity|apply grown_refl].
  - pose proof (Forall_inv H) as (Ha & Hb & Sa & Sb). pose proof (Forall_inv_tail H) as Hr. cbn in Ha, Hb, Sa, Sb.
    destruct (cross_individual_ok (g_ix1 g k) (g_ix2 g k) a b Ha Hb Sa Sb) as (x & y & -> & Sx & Sy). cbn.
    destruct (admit_grown x p Sx) as [n1 G1]. destruct (admit_grown y (admit tname keep aic x p) Sy) as [n2 G2].
    destruct (IH (S k) (admit tname keep aic y (admit tname keep aic x p)) Hr) as (p' & n3 & -> & G3).
    eexists _, _. split; [reflexivity|]. eapply grown_trans; [exact G1|]. eapply grown_trans; [exact G2|exact G3].
Qed.
Lemma mutate_loop_ok m js : forall l : list T, Forall (fun j => j < List.length l) js -> exists l', mutate_loop m js l = Ok l' /\ List.length l' = List.length l.
Proof.
  induction js as [|j js IH]; intros l H; cbn; [eauto|]. inversion_clear H as [|? ? Hj Hr].
  destruct (nth_error l j) eqn:E; [|apply nth_error_None in E; lia].
  destruct (put_ok l j (m j t) Hj) as (l1 & -> & L1). cbn. destruct (IH l1) as (l2 & -> & L2).
  - rewrite L1. exact Hr.
  - exists l2. split; [reflexivity|congruence].
Qed.
Lemma vary_ok m rep (c : indiv T) : terms c <> [] -> sound c -> exists c', vary m rep c = Ok c' /\ sound c'.
Proof.
  intros Hc S. unfold vary, sound in *. destruct (mutate_loop_ok m (seq 0 (wid c)) (terms c)) as (l & -> & L).
  { apply Forall_forall. intros j Hj. apply in_seq in Hj. lia. }
  cbn. destruct rep as [[r t]|]; [|eexists; split; [reflexivity|cbn; lia]].
  destruct (Nat.eqb_spec (wid c) 0) as [E|E]; [destruct (terms c); [congruence|cbn in *; lia]|].
  destruct (put_ok l (r mod wid c) t) as (l' & -> & L').
  { rewrite L, <- S. apply Nat.mod_upper_bound. exact E. }
  cbn. eexists. split; [reflexivity|]. cbn. lia.
Qed.
Lemma change_loop_ok g is copies : forall p, Forall (fun i => i < List.length copies) is ->
  Forall (fun c => terms c <> [] /\ sound c) copies ->
  exists p' new, change_loop tname keep aic g is copies p = Ok p' /\ grown p p' new.
Proof.
  induction is as [|i is IH]; intros p H Hc; cbn.
  - eexists _, _. split; [reflexivity|apply grown_refl].
  - inversion_clear H as [|? ? Hi Hr]. destruct (nth_error copies i) as [c|] eqn:E; [|apply nth_error_None in E; lia].
    pose proof (proj1 (Forall_forall _ _) Hc c (nth_error_In _ _ E)) as [H1 H2].
    destruct (vary_ok (g_mut g i) (g_rep g i) c H1 H2) as (c' & -> & S'). cbn.
    destruct (admit_grown c' p S') as [n1 G1]. destruct (IH (admit tname keep aic c' p) Hr Hc) as (p' & n2 & -> & G2).
    eexists _, _. split; [reflexivity|]. eapply grown_trans; eauto.
Qed.

Definition good (num : nat) (p : pop T) : Prop := aligned p /\ List.length (eqs p) = num /\ scored (mses p).
(** what an operator does to a good population *)
Definition stepped (num : nat) (p p' : pop T) : Prop :=
  good num p' /\ nsorted (mses p') /\ exists new, errs p' = errs p ++ new /\ n_best num (mses p ++ new) (mses p').
Lemma perm_good num p p1 : good num p -> aligned p1 -> Permutation (eqs p) (eqs p1) -> good num p1.
Proof.
  intros ([A F] & L & S) [A1 F1] P. split; [split; auto|]. split; [rewrite <- (Permutation_length P); exact L|].
  rewrite A1. rewrite A in S. unfold scored in *. eapply Permutation_Forall; [apply Permutation_map; exact P|exact S].
Qed.
Lemma grow_select num p p1 p2 new : good num p -> good num p1 -> Permutation (eqs p) (eqs p1) -> errs p1 = errs p ->
  grown p1 p2 new -> exists p3, select argsort num p2 = Ok p3 /\ stepped num p p3 /\ lib p3 = lib p2.
Proof.
  intros G1 G2 P Ee Gr. pose proof G2 as ([A1 F1] & L1 & S1). pose proof G1 as ([A F] & L & S).
  destruct (select_ok num p2) as (p3 & -> & A3 & L3 & N3 & El3 & Ee3).
  { eapply grown_aligned; eauto. split; auto. }
  { destruct Gr as (-> & _). rewrite app_length. lia. }
  exists p3. split; [reflexivity|]. split; [|exact El3].
  destruct Gr as (B & C & D & E). rewrite C in N3.
  split; [|split; [apply N3|]].
  - split; [exact A3|]. split; [exact L3|]. eapply n_best_scored; [exact N3| |exact S1]. rewrite A1, map_length. exact L1.
  - exists (map sc new). split; [rewrite Ee3, D, Ee; reflexivity|].
    eapply n_best_perm; [|exact N3]. apply Permutation_app_tail. rewrite A1, A. apply Permutation_map, Permutation_sym, P.
Qed.
Lemma cross_over_ok num top g p : good num p -> shuffles g -> exists p', cross_over tname keep aic argsort num top g p = Ok p' /\ stepped num p p'.
Proof.
  intros G Sh. unfold cross_over. destruct (resort_ok p) as (p1 & -> & A1 & P & S & El & Ee); [apply G|]. cbn.
  pose proof (perm_good _ _ _ G A1 P) as G1.
  pose proof (scored_nonempty p1 A1 (proj2 (proj2 G1))) as NE.
  assert (X : Forall (fun c => terms c <> [] /\ sound c) (firstn top (eqs p1))).
  { apply Forall_forall. intros c Hc. assert (Hi : In c (eqs p1)) by (rewrite <- (firstn_skipn top (eqs p1)); apply in_or_app; auto).
    split; [rewrite Forall_forall in NE; auto|]. destruct A1 as [_ F]. rewrite Forall_forall in F. apply F. exact Hi. }
  destruct (cross_loop_ok g (combine (firstn top (eqs p1)) (g_shuffle g (firstn top (eqs p1)))) 0 p1) as (p2 & new & -> & Gr).
  { apply Forall_forall. intros [a b] Hab. pose proof (in_combine_l _ _ _ _ Hab) as Ha. pose proof (in_combine_r _ _ _ _ Hab) as Hb.
    apply (Permutation_in _ (Sh _)) in Hb. rewrite Forall_forall in X. cbn. destruct (X a Ha), (X b Hb). auto. }
  cbn. destruct (grow_select num p p1 p2 new) as (p3 & -> & H & _); auto. eauto.
Qed.
Lemma change_ok num g p : good num p -> exists p', change tname keep aic argsort num g p = Ok p' /\ stepped num p p'.
Proof.
  intros G. unfold change. destruct (resort_ok p) as (p1 & -> & A1 & P & S & El & Ee); [apply G|]. cbn.
  pose proof (perm_good _ _ _ G A1 P) as G1. pose proof (scored_nonempty p1 A1 (proj2 (proj2 G1))) as NE.
  destruct (change_loop_ok g (seq 1 (num - 1)) (eqs p1) p1) as (p2 & new & -> & Gr).
  { destruct G1 as (_ & L & _). apply Forall_forall. intros i Hi. apply in_seq in Hi. lia. }
  { apply Forall_forall. intros c Hc. split; [rewrite Forall_forall in NE; auto|]. destruct A1 as [_ F]. rewrite Forall_forall in F. apply F. exact Hc. }
  cbn. destruct (grow_select num p p1 p2 new) as (p3 & -> & H & _); auto. eauto.
Qed.
Lemma stepped_trans num p q r : good num p -> stepped num p q -> stepped num q r -> stepped num p r.
Proof.
  intros Gp (Gq & Sq & n1 & E1 & N1) (Gr & Sr & n2 & E2 & N2). split; [exact Gr|]. split; [exact Sr|].
  exists (n1 ++ n2). split; [rewrite E2, E1, app_assoc; reflexivity|]. rewrite app_assoc. eapply n_best_step; eauto.
Qed.
Lemma generation_ok num top g p : good num p -> shuffles g -> exists p', generation tname keep aic argsort num top g p = Ok p' /\ stepped num p p'.
Proof.
  intros G Sh. unfold generation. destruct (cross_over_ok num top g p G Sh) as (p1 & -> & S1). cbn.
  destruct (change_ok num g p1 (proj1 S1)) as (p2 & -> & S2). exists p2. split; [reflexivity|]. eapply stepped_trans; eauto.
Qed.
Lemma evolve_ok num top gs : forall p, good num p -> nsorted (mses p) -> Forall shuffles gs ->
  exists p', evolve tname keep aic argsort num top gs p = Ok p' /\ stepped num p p'.
Proof.
  induction gs as [|g gs IH]; intros p G S Sh; cbn.
  - exists p. split; [reflexivity|]. split; [exact G|]. split; [exact S|]. exists []. rewrite !app_nil_r. split; [reflexivity|].
    apply n_best_self; [|exact S]. destruct G as ([A _] & L & _). rewrite A, map_length. exact L.
  - inversion_clear Sh as [|? ? Hg Hgs]. destruct (generation_ok num top g p G Hg) as (p1 & -> & S1). cbn.
    destruct (IH p1 (proj1 S1) (proj1 (proj2 S1)) Hgs) as (p2 & -> & S2). exists p2. split; [reflexivity|]. eapply stepped_trans; eauto.
Qed.

(** the constructor *)
Lemma init_one_spec cands : forall p p', Forall sound cands -> init_one keep aic cands p = Some p' -> aligned p ->
  exists c rej, eqs p' = eqs p ++ [c] /\ mses p' = mses p ++ [sc c] /\ clean c /\ rejected (sc c) = false /\
    errs p' = errs p ++ rej ++ [sc c] /\ Forall (fun e => rejected e = true) rej.
Proof.
  induction cands as [|c cs IH]; intros p p' Fs H A; [discriminate|]. inversion_clear Fs as [|? ? Sc Scs]. unfold init_one in H; fold (init_one keep aic) in H.
  destruct (assess keep aic c) as [c' e] eqn:E. pose proof (assess_clean c Sc) as [H1 H2]. rewrite E in H1, H2. cbn in H1, H2. subst e.
  destruct (rejected (score aic (terms c'))) eqn:R.
  - destruct (IH _ _ Scs H) as (d & rej & I1 & I2 & I3 & I4 & I5 & I6); [exact A|]. cbn in *.
    exists d, (score aic (terms c') :: rej). repeat split; auto; try apply I3. rewrite I5, <- !app_assoc. reflexivity.
  - injection H as <-. cbn. exists c', []. repeat split; auto; try apply H1.
Qed.
Lemma init_all_spec slots : forall p p', Forall (Forall sound) slots -> init_all keep aic slots p = Some p' -> aligned p ->
  aligned p' /\ List.length (eqs p') = List.length (eqs p) + List.length slots /\
  exists l, errs p' = errs p ++ l /\ mses p' = mses p ++ filter (fun e => negb (rejected e)) l.
Proof.
  induction slots as [|s ss IH]; intros p p' Fs H A; cbn in H.
  - injection H as <-. split; [exact A|]. split; [cbn; lia|]. exists []. cbn. rewrite !app_nil_r. auto.
  - inversion_clear Fs as [|? ? Ss Sss]. destruct (init_one keep aic s p) as [p1|] eqn:E; [|discriminate].
    destruct (init_one_spec s p p1 Ss E A) as (c & rej & I1 & I2 & I3 & I4 & I5 & I6).
    destruct (IH p1 p' Sss H) as (A' & L' & l & E1 & E2).
    { destruct A as [A F]. split; [rewrite I1, I2, A, map_app; reflexivity|]. rewrite I1. apply Forall_app. auto. }
    split; [exact A'|]. split; [rewrite L', I1, app_length; cbn; lia|].
    exists (rej ++ [sc c] ++ l). split; [rewrite E1, I5, <- !app_assoc; reflexivity|].
    rewrite E2, I2, <- app_assoc. f_equal. rewrite filter_app. rewrite (filter_none _ rej).
    + cbn. rewrite I4. reflexivity.
    + intros x Hx. rewrite Forall_forall in I6. rewrite (I6 x Hx). reflexivity.
Qed.
Lemma init_spec num lib0 errs0 slots r : List.length slots = num -> Forall (Forall sound) slots ->
  init keep aic argsort num lib0 errs0 slots = Some r ->
  exists p l, r = Ok p /\ aligned p /\ List.length (eqs p) = num /\ nsorted (mses p) /\ errs p = errs0 ++ l /\
    n_best num (filter (fun e => negb (rejected e)) l) (mses p) /\ Forall (fun e => rejected e = false) (mses p).
Proof.
  intros Ln Fs H. unfold init in H. destruct (init_all keep aic slots _) as [p0|] eqn:E; [|discriminate]. injection H as <-.
  destruct (init_all_spec slots (mkPop [] [] lib0 errs0) p0 Fs E) as (A0 & L0 & l & E1 & E2); [split; [reflexivity|constructor]|]. cbn in L0, E1, E2.
  destruct (resort_ok p0 A0) as (p1 & -> & [A1 F1] & P & S & El & Ee). cbn.
  pose proof (Permutation_length P) as LP.
  rewrite (firstn_all2 (eqs p1)) by lia. rewrite (firstn_all2 (mses p1)) by (rewrite A1, map_length; lia).
  assert (PM : Permutation (mses p0) (mses p1)) by (rewrite A1, (proj1 A0); apply Permutation_map; exact P).
  exists (mkPop (eqs p1) (mses p1) (lib p1) (errs p1)), l. cbn. repeat split; auto; try lia; try congruence.
  - rewrite A1, map_length. lia.
  - exists []. rewrite app_nil_r. split; [rewrite <- E2; exact PM|]. intros x y _ [].
  - eapply Permutation_Forall; [exact PM|]. rewrite E2. apply Forall_forall. intros x Hx. apply filter_In in Hx as [_ Hx].
    destruct (rejected x); [discriminate|reflexivity].
Qed.
Lemma not_rejected_scored l : Forall (fun e => rejected e = false) l -> Forall (fun e => is_nan e = false) l -> scored l.
Proof.
  unfold scored. rewrite !Forall_forall. intros H1 H2 x Hx. specialize (H1 x Hx). specialize (H2 x Hx). unfold rejected in H1.
  destruct x; cbn in *; try discriminate; auto.
Qed.

(** argmin *)
Lemma argmin_from_first best bi l : forall i, is_nan best = false -> Forall (fun x => sle best x = true) l -> Forall (fun x => is_nan x = false) l ->
  argmin_from best bi i l = bi.
Proof.
  induction l as [|x l IH]; intros i Hb H1 H2; cbn; [reflexivity|]. inversion_clear H1 as [|? ? Hx Hl]. inversion_clear H2 as [|? ? Nx Nl].
  rewrite Hb, Nx. cbn. unfold sle in Hx. rewrite Nx in Hx. cbn in Hx. rewrite (nle_not_nlt _ _ Hx). auto.
Qed.
Lemma scored_notnan l : scored l -> Forall (fun x => is_nan x = false) l.
Proof. apply Forall_impl. intros [| | |]; cbn; auto; discriminate. Qed.
Lemma the_best_sorted num p : good (S num) p -> nsorted (mses p) ->
  exists e m, the_best p = Ok (e, m) /\ nth_error (mses p) 0 = Some m /\ In e (eqs p) /\ m = score aic (terms e).
Proof.
  intros ([A F] & L & S) Srt. unfold the_best. destruct (eqs p) as [|e es] eqn:Ee; [discriminate|]. rewrite A in *. cbn in *.
  apply nsorted_tail in Srt as [_ Srt]. apply scored_notnan in S. inversion_clear S as [|? ? Nx Nl].
  rewrite argmin_from_first; auto; [|apply Forall_forall; auto]. cbn. eexists _, _. repeat split. left; reflexivity.
Qed.
End PopFacts.

(** ** The name library *)
Section Lib.
Context {T : Type}.
Variables (tname : T -> string) (keep : T -> bool) (aic : list T -> num) (argsort : list num -> list nat).
Fixpoint lnames (l : list libent) : list string :=
  match l with [] => [] | LObj :: l' => lnames l' | LName s :: l' => s :: lnames l' end.
Lemma lnames_app l1 l2 : lnames (l1 ++ l2) = lnames l1 ++ lnames l2.
Proof. induction l1 as [|[|s] l1 IH]; cbn; auto. f_equal. exact IH. Qed.
Lemma known_In s l : known s l = true <-> In s (lnames l).
Proof.
  induction l as [|[|s'] l IH]; cbn; [split; [discriminate|tauto]|exact IH|]. fold (known s l). rewrite orb_true_iff, IH.
  split; intros [H|H]; auto; left; [symmetry; apply String.eqb_eq; exact H|subst; apply String.eqb_refl].
Qed.
Hypothesis Hkeep : forall t, keep t = true.
(** names recorded so far are distinct, one per score *)
Definition recorded (p p' : pop T) : Prop :=
  exists new, lnames (lib p') = lnames (lib p) ++ new /\ List.length (errs p') = List.length (errs p) + List.length new /\
  (NoDup (lnames (lib p)) -> NoDup (lnames (lib p'))).
Lemma recorded_same (p p' : pop T) : lib p' = lib p -> errs p' = errs p -> recorded p p'.
Proof. intros E1 E2. exists []. rewrite E1, E2, app_nil_r. cbn. auto. Qed.
Lemma recorded_trans p q r : recorded p q -> recorded q r -> recorded p r.
Proof.
  intros (n1 & A1 & B1 & C1) (n2 & A2 & B2 & C2). exists (n1 ++ n2). rewrite A2, A1, app_assoc, app_length. split; auto. split; [lia|].
  rewrite <- A1, <- A2. auto.
Qed.
Lemma admit_recorded c p : recorded p (admit tname keep aic c p).
Proof.
  unfold admit. destruct (known _ _) eqn:E; [apply recorded_same; reflexivity|].
  unfold assess. cbn. rewrite filter_all by auto. exists [pname tname c]. cbn. rewrite lnames_app. cbn. unfold pname. cbn. split; [reflexivity|].
  split; [rewrite app_length; reflexivity|]. intros N. assert (X : ~ In (visualize (map tname (terms c))) (lnames (lib p))) by (rewrite <- known_In; unfold pname in E; rewrite E; discriminate).
  clear E. generalize dependent (visualize (map tname (terms c))). intros s X. induction (lnames (lib p)) as [|y l IH]; cbn.
  - repeat constructor. tauto.
  - apply NoDup_cons_iff in N as [N1 N2]. constructor.
    + rewrite in_app_iff. cbn. intros [H|[H|[]]]; [tauto|]. subst. apply X. left; reflexivity.
    + apply IH; auto. intros H. apply X. right; exact H.
Qed.
Lemma resort_same (p p' : pop T) : resort argsort p = Ok p' -> lib p' = lib p /\ errs p' = errs p.
Proof. unfold resort. destruct (gather (mses p) _); cbn; [|discriminate]. destruct (gather (eqs p) _); cbn; [|discriminate]. intros [= <-]. auto. Qed.
Lemma select_same num (p p' : pop T) : select argsort num p = Ok p' -> lib p' = lib p /\ errs p' = errs p.
Proof. unfold select. destruct (gather (eqs p) _); cbn; [|discriminate]. destruct (gather (mses p) _); cbn; [|discriminate]. intros [= <-]. auto. Qed.
Lemma cross_loop_recorded g ps : forall k p p', cross_loop tname keep aic g k ps p = Ok p' -> recorded p p'.
Proof.
  induction ps as [|[a b] ps IH]; intros k p p' H; cbn in H; [injection H as <-; apply recorded_same; reflexivity|].
  destruct (cross_individual _ _ a b) as [[x y]|]; cbn in H; [|discriminate]. apply IH in H.
  eapply recorded_trans; [apply admit_recorded|]. eapply recorded_trans; [apply admit_recorded|exact H].
Qed.
Lemma change_loop_recorded g is copies : forall p p', change_loop tname keep aic g is copies p = Ok p' -> recorded p p'.
Proof.
  induction is as [|i is IH]; intros p p' H; cbn in H; [injection H as <-; apply recorded_same; reflexivity|].
  destruct (nth_error copies i); [|discriminate]. destruct (vary _ _ i0) as [c|]; cbn in H; [|discriminate]. apply IH in H.
  eapply recorded_trans; [apply admit_recorded|exact H].
Qed.
Lemma generation_recorded num top g p p' : generation tname keep aic argsort num top g p = Ok p' -> recorded p p'.
Proof.
  unfold generation, cross_over, change. intros H.
  destruct (resort argsort p) as [p1|] eqn:E1; cbn in H; [|discriminate].
  destruct (cross_loop _ _ _ _ _ _ p1) as [p2|] eqn:E2; cbn in H; [|discriminate].
  destruct (select argsort num p2) as [p3|] eqn:E3; cbn in H; [|discriminate].
  destruct (resort argsort p3) as [p4|] eqn:E4; cbn in H; [|discriminate].
  destruct (change_loop _ _ _ _ _ _ p4) as [p5|] eqn:E5; cbn in H; [|discriminate].
  eapply recorded_trans; [apply recorded_same; apply (resort_same _ _ E1)|].
  eapply recorded_trans; [eapply cross_loop_recorded; exact E2|].
  eapply recorded_trans; [apply recorded_same; apply (select_same _ _ _ E3)|].
  eapply recorded_trans; [apply recorded_same; apply (resort_same _ _ E4)|].
  eapply recorded_trans; [eapply change_loop_recorded; exact E5|].
  apply recorded_same; apply (select_same _ _ _ H).
Qed.
Lemma evolve_recorded num top gs : forall p p', evolve tname keep aic argsort num top gs p = Ok p' -> recorded p p'.
Proof.
  induction gs as [|g gs IH]; intros p p' H; cbn in H; [injection H as <-; apply recorded_same; reflexivity|].
  destruct (generation _ _ _ _ _ _ g p) as [p1|] eqn:E; cbn in H; [|discriminate].
  eapply recorded_trans; [eapply generation_recorded; exact E|auto].
Qed.
Lemma init_one_lnames cands : forall (p p' : pop T), init_one keep aic cands p = Some p' -> lnames (lib p') = lnames (lib p).
Proof.
  induction cands as [|c cs IH]; intros p p' H; [discriminate|]. unfold init_one in H; fold (init_one keep aic) in H.
  destruct (assess keep aic c). destruct (rejected n).
  - apply IH in H. rewrite H. cbn. rewrite lnames_app. apply app_nil_r.
  - injection H as <-. cbn. rewrite lnames_app. apply app_nil_r.
Qed.
Lemma init_all_lnames slots : forall (q p : pop T), init_all keep aic slots q = Some p -> lnames (lib p) = lnames (lib q).
Proof.
  induction slots as [|s ss IH]; intros q p H; cbn in H; [congruence|].
  destruct (init_one keep aic s q) as [q1|] eqn:E; [|discriminate]. rewrite (IH _ _ H). eapply init_one_lnames; exact E.
Qed.
Lemma init_lnames num l0 e0 slots (p : pop T) : init keep aic argsort num l0 e0 slots = Some (Ok p) -> lnames (lib p) = lnames l0.
Proof.
  unfold init. destruct (init_all keep aic slots _) as [p0|] eqn:E; [|discriminate]. intros [= H].
  destruct (resort argsort p0) as [p1|] eqn:E1; cbn in H; [|discriminate]. injection H as <-. cbn. rewrite (proj1 (resort_same _ _ E1)).
  apply init_all_lnames in E. exact E.
Qed.
End Lib.
