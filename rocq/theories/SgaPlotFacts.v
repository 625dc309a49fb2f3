(** Lemmas about the array operations of the SGA plots. *)
From Coq Require Import QArith Lqa Permutation.
From Verif Require Import Base VizData VizDataFacts TimePick TimePickFacts SgaPlot.
Local Open Scope string_scope.
Local Open Scope nat_scope.

Lemma index_of_nth a l : In a l -> nth_error l (index_of a l) = Some a.
Proof.
  induction l as [|b l IH]; [intros []|]. intros I. cbn [index_of]. destruct (String.eqb_spec a b) as [->|N]; [reflexivity|].
  cbn. apply IH. destruct I as [->|I]; [congruence|exact I].
Qed.
Lemma index_of_lt a l : In a l -> index_of a l < List.length l.
Proof. intros I. apply nth_error_Some. rewrite index_of_nth by exact I. discriminate. Qed.
Lemma index_of_inj a b l : In a l -> In b l -> index_of a l = index_of b l -> a = b.
Proof. intros A B E. apply index_of_nth in A, B. rewrite E in A. congruence. Qed.
Lemma index_of_at l k a : NoDup l -> nth_error l k = Some a -> index_of a l = k.
Proof.
  intros N H. assert (I : In a l) by (eapply nth_error_In; exact H). pose proof (index_of_nth a l I) as E.
  rewrite NoDup_nth_error in N. symmetry. apply N; [apply nth_error_Some; congruence|congruence].
Qed.

(** position of a number in a permutation *)
Definition pos (ax : nat) (perm : list nat) : nat := fold_right (fun p k => if Nat.eqb p ax then 0 else S k) 0 perm.
Lemma pos_nth ax perm : In ax perm -> nth_error perm (pos ax perm) = Some ax.
Proof.
  induction perm as [|p perm IH]; [intros []|]. intros I. cbn [pos fold_right]. destruct (Nat.eqb_spec p ax) as [->|N]; [reflexivity|].
  cbn. apply IH. destruct I as [->|I]; [congruence|exact I].
Qed.

Lemma transpose_at a axes names p : NoDup axes -> Permutation names axes ->
  at_ (transpose a (map (fun x => index_of x axes) names)) (map p names) = at_ a (map p axes).
Proof.
  intros N P. cbn [transpose at_]. f_equal. rewrite map_length, (Permutation_length P).
  assert (M : map p axes = map (fun n => p (nth n axes "")) (seq 0 (List.length axes))).
  { clear. assert (G : forall pre l, map p l = map (fun n => p (nth n (pre ++ l)%list "")) (seq (List.length pre) (List.length l))).
    { intros pre l. revert pre. induction l as [|x l IH]; intros pre; [reflexivity|]. cbn [List.length seq map]. rewrite app_nth2, Nat.sub_diag by lia. cbn [nth]. f_equal.
      specialize (IH (pre ++ [x])%list). rewrite app_length, <- app_assoc in IH. cbn [List.length app] in IH. rewrite Nat.add_1_r in IH. exact IH. }
    exact (G [] axes). }
  rewrite M. apply map_ext_in. intros n Hn. apply in_seq in Hn. fold (pos n (map (fun x => index_of x axes) names)).
  destruct (nth_error axes n) as [b|] eqn:Eb; [|apply nth_error_None in Eb; lia]. rewrite (nth_error_nth _ _ "" Eb).
  assert (Ib : In b names) by (eapply Permutation_in; [symmetry; exact P|eapply nth_error_In; exact Eb]).
  assert (In n (map (fun x => index_of x axes) names)) as I.
  { apply in_map_iff. exists b. split; [apply index_of_at; assumption|exact Ib]. }
  apply pos_nth in I. rewrite nth_error_map in I. destruct (nth_error names _) as [c|] eqn:Ec; [|discriminate]. injection I as I.
  assert (c = b). { eapply index_of_inj; [| |rewrite I; symmetry; apply index_of_at; eassumption].
    - eapply Permutation_in; [exact P|eapply nth_error_In; exact Ec].
    - eapply nth_error_In; exact Eb. }
  subst c. apply nth_error_nth. rewrite nth_error_map, Ec. reflexivity.
Qed.
Lemma transpose_shape a axes names (len : string -> nat) : shape a = map len axes -> Permutation names axes ->
  shape (transpose a (map (fun x => index_of x axes) names)) = map len names.
Proof.
  intros E P. cbn [transpose shape]. rewrite map_map. apply map_ext_in. intros b I. rewrite E.
  apply nth_error_nth. rewrite nth_error_map, index_of_nth; [reflexivity|]. eapply Permutation_in; [exact P|exact I].
Qed.

(** C-order position of an index *)
Definition flat_pos (i s : list nat) (acc : nat) : nat := fold_left (fun acc p => acc * snd p + fst p) (combine i s) acc.
Lemma flat_map_map {A B C} (f : B -> C) (g : A -> list B) l : map f (flat_map g l) = flat_map (fun x => map f (g x)) l.
Proof. induction l as [|x l IH]; cbn; [reflexivity|]. rewrite map_app, IH. reflexivity. Qed.
Lemma flat_map_seq (n m acc : nat) k : flat_map (fun i => seq ((acc + i) * m) m) (seq k n) = seq ((acc + k) * m) (n * m).
Proof.
  revert k. induction n as [|n IH]; intros k; [reflexivity|]. cbn [seq flat_map]. rewrite IH. replace (S n * m) with (m + n * m) by lia. rewrite seq_app.
  replace ((acc + k) * m + m) with ((acc + S k) * m) by lia. reflexivity.
Qed.
Lemma flat_positions s : forall acc, map (fun i => flat_pos i s acc) (indices s) = seq (acc * prod s) (prod s).
Proof.
  induction s as [|n s IH]; intros acc; [cbn; f_equal; lia|]. cbn [indices prod fold_right]. fold (prod s). rewrite flat_map_map.
  transitivity (flat_map (fun i => seq ((acc * n + i) * prod s) (prod s)) (seq 0 n)).
  - apply flat_map_ext. intros i. rewrite map_map. rewrite <- IH. apply map_ext. intros j. reflexivity.
  - rewrite flat_map_seq. f_equal. lia.
Qed.
Lemma reshape_some a s b : reshape a s = Some b -> size a = prod s /\ shape b = s /\ ravel b = ravel a.
Proof.
  unfold reshape. destruct (Nat.eqb_spec (size a) (fold_right Nat.mul 1 s)) as [E|]; [|discriminate]. intros H. injection H as <-.
  split; [exact E|]. split; [reflexivity|]. unfold ravel at 1. cbn [shape at_].
  transitivity (map (fun k => nth k (ravel a) 0%Q) (map (fun i => flat_pos i s 0) (indices s))); [rewrite map_map; reflexivity|].
  rewrite flat_positions. cbn [Nat.mul]. assert (L : List.length (ravel a) = prod s) by (rewrite ravel_length; exact E). rewrite <- L.
  apply nth_ext with (d := nth 0 (ravel a) 0%Q) (d' := 0%Q); [rewrite map_length, seq_length; reflexivity|].
  intros n Hn. rewrite map_length, seq_length in Hn. rewrite (map_nth (fun k => nth k (ravel a) 0%Q)), seq_nth by exact Hn. reflexivity.
Qed.
Lemma reshape_iff a s : (exists b, reshape a s = Some b) <-> size a = prod s.
Proof.
  unfold reshape. destruct (Nat.eqb_spec (size a) (fold_right Nat.mul 1 s)) as [E|E]; split; intros H; eauto.
  - destruct H as (b & H). discriminate.
  - contradiction.
Qed.
