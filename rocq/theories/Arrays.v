(** N-dimensional arrays in C order (numpy's default layout).  Nothing here models the code base. *)
From Verif Require Import Base.

Definition prod (s : list nat) : nat := fold_right Nat.mul 1 s.
(** position of an index tuple in the flattened array, and back (np.ravel_multi_index, np.unravel_index) *)
Fixpoint ravel (s idx : list nat) : nat :=
  match s, idx with n :: s', i :: idx' => i * prod s' + ravel s' idx' | _, _ => 0 end.
Fixpoint unravel (s : list nat) (k : nat) : list nat :=
  match s with [] => [] | n :: s' => k / prod s' :: unravel s' (k mod prod s') end.
Definition inb (s idx : list nat) : Prop := Forall2 lt idx s.
Record arr (A : Type) := mkArr { shape : list nat; flat : list A }.
Arguments mkArr {A}. Arguments shape {A}. Arguments flat {A}.
Definition wfa {A} (a : arr A) : Prop := List.length (flat a) = prod (shape a).
Definition get {A} (a : arr A) (idx : list nat) : option A := nth_error (flat a) (ravel (shape a) idx).
(** the array with a given entry function *)
Definition tabulate {A} (s : list nat) (f : list nat -> A) : arr A := mkArr s (map (fun k => f (unravel s k)) (seq 0 (prod s))).
(** position in a list of numbers *)
Fixpoint pos_of (i : nat) (l : list nat) : nat := match l with [] => 0 | x :: l' => if Nat.eqb x i then 0 else S (pos_of i l') end.
(** np.transpose(a, perm): axis j of the result is axis perm[j] of [a] *)
Definition untwist (perm idx : list nat) : list nat := map (fun i => nth (pos_of i perm) idx 0) (seq 0 (List.length perm)).
Definition twist (perm idx : list nat) : list nat := map (fun p => nth p idx 0) perm.
Definition transpose {A} (d : A) (a : arr A) (perm : list nat) : arr A :=
  tabulate (twist perm (shape a)) (fun idx => match get a (untwist perm idx) with Some x => x | None => d end).
(** np.repeat(l, s) and np.tile(l, n) *)
Definition repeat_each {A} (l : list A) (s : nat) : list A := flat_map (fun x => repeat x s) l.
Definition tile {A} (l : list A) (n : nat) : list A := List.concat (repeat l n).

Lemma prod_pos s : Forall (lt 0) s -> 0 < prod s.
Proof. induction 1; cbn; [lia|]. apply Nat.mul_pos_pos; auto. Qed.
Lemma inb_pos s idx : inb s idx -> Forall (lt 0) s.
Proof. induction 1; constructor; auto. lia. Qed.
Lemma inb_length s idx : inb s idx -> List.length idx = List.length s.
Proof. induction 1; cbn; auto. Qed.
Lemma ravel_lt s idx : inb s idx -> ravel s idx < prod s.
Proof.
  induction 1 as [|i n idx s Hi H IH]; [cbn; lia|]. cbn [ravel]. change (prod (n :: s)) with (n * prod s). nia.
Qed.
Lemma unravel_ravel s idx : inb s idx -> unravel s (ravel s idx) = idx.
Proof.
  induction 1 as [|i n idx s Hi H IH]; [reflexivity|]. cbn [ravel unravel]. pose proof (ravel_lt _ _ H) as L.
  assert (P : prod s <> 0) by lia. rewrite Nat.div_add_l by exact P. rewrite Nat.div_small by exact L. rewrite Nat.add_0_r. f_equal.
  rewrite Nat.add_comm, Nat.mod_add by exact P. rewrite Nat.mod_small by exact L. exact IH.
Qed.
Lemma ravel_unravel s : forall k, k < prod s -> ravel s (unravel s k) = k.
Proof.
  induction s as [|n s IH]; intros k H; [cbn in *; lia|]. cbn [ravel unravel]. change (prod (n :: s)) with (n * prod s) in H.
  assert (P : prod s <> 0) by (intros E; rewrite E in H; lia). rewrite IH by (apply Nat.mod_upper_bound; exact P).
  pose proof (Nat.div_mod k (prod s) P). lia.
Qed.
Lemma unravel_inb s : forall k, k < prod s -> inb s (unravel s k).
Proof.
  induction s as [|n s IH]; intros k H; [constructor|]. cbn [unravel]. change (prod (n :: s)) with (n * prod s) in H.
  assert (P : prod s <> 0) by (intros E; rewrite E in H; lia). constructor.
  - apply Nat.div_lt_upper_bound; [exact P|]. lia.
  - apply IH. apply Nat.mod_upper_bound. exact P.
Qed.
Lemma unravel_length s : forall k, List.length (unravel s k) = List.length s.
Proof. induction s; intros; cbn; auto. Qed.
(** component i of the index tuple of position k *)
Lemma unravel_nth s : forall i k, k < prod s -> i < List.length s -> nth i (unravel s k) 0 = (k / prod (skipn (S i) s)) mod nth i s 0.
Proof.
  induction s as [|n s IH]; intros i k H Hi; [cbn in Hi; lia|]. change (prod (n :: s)) with (n * prod s) in H.
  assert (P : prod s <> 0) by (intros E; rewrite E in H; lia). destruct i as [|i].
  - cbn [unravel nth skipn]. rewrite Nat.mod_small; [reflexivity|]. apply Nat.div_lt_upper_bound; [exact P|lia].
  - cbn [unravel nth]. cbn in Hi. rewrite IH by (try apply Nat.mod_upper_bound; auto; lia). change (skipn (S (S i)) (n :: s)) with (skipn (S i) s).
    assert (Q : exists m, prod s = m * (nth i s 0 * prod (skipn (S i) s))).
    { clear -Hi. revert s Hi. induction i as [|i IHi]; intros [|a s] Hi; cbn in Hi; try lia.
      - exists 1. cbn. lia.
      - destruct (IHi s ltac:(lia)) as [m E]. exists (a * m). change (prod (a :: s)) with (a * prod s). cbn [nth]. change (skipn (S (S i)) (a :: s)) with (skipn (S i) s). rewrite E. lia. }
    destruct Q as [m E]. set (c := nth i s 0) in *. set (t := prod (skipn (S i) s)) in *.
    assert (C : c <> 0) by (intros Z; rewrite Z in E; lia). assert (T : t <> 0) by (intros Z; rewrite Z in E; lia). assert (M : m <> 0) by (intros Z; rewrite Z in E; lia).
    pose proof (Nat.div_mod k (prod s) P) as D. set (q := k / prod s) in *. set (r := k mod prod s) in *.
    rewrite D, E. replace (m * (c * t) * q + r) with (r + (q * m * c) * t) by lia. rewrite Nat.div_add by exact T.
    replace (r / t + q * m * c) with (r / t + (q * m) * c) by lia. now rewrite Nat.mod_add by exact C.
Qed.
Lemma tabulate_wf {A} s (f : list nat -> A) : wfa (tabulate s f).
Proof. unfold wfa, tabulate. cbn [flat shape]. now rewrite map_length, seq_length. Qed.
Lemma nth_error_seq a n k : k < n -> nth_error (seq a n) k = Some (a + k).
Proof. revert a k. induction n; intros a [|k] H; cbn; try lia; [f_equal; lia|]. rewrite IHn by lia. f_equal. lia. Qed.
Lemma tabulate_get {A} s (f : list nat -> A) idx : inb s idx -> get (tabulate s f) idx = Some (f idx).
Proof.
  intros H. unfold get, tabulate. cbn [flat shape]. rewrite nth_error_map, nth_error_seq by (now apply ravel_lt). cbn. now rewrite unravel_ravel.
Qed.
Lemma get_some {A} (a : arr A) idx : wfa a -> inb (shape a) idx -> exists x, get a idx = Some x.
Proof.
  intros W H. unfold get. destruct (nth_error _ _) eqn:E; [eauto|]. apply nth_error_None in E. pose proof (ravel_lt _ _ H). unfold wfa in W. lia.
Qed.
Lemma flat_nth {A} (a : arr A) k : wfa a -> k < prod (shape a) -> nth_error (flat a) k = get a (unravel (shape a) k).
Proof. intros W H. unfold get. now rewrite ravel_unravel. Qed.

(** ** Transposition *)
Definition is_perm (perm : list nat) : Prop := NoDup perm /\ forall i, In i perm -> i < List.length perm.
Lemma pos_of_nth : forall l i, In i l -> nth (pos_of i l) l 0 = i /\ pos_of i l < List.length l.
Proof.
  induction l as [|x l IH]; intros i H; [destruct H|]. cbn [pos_of]. destruct (Nat.eqb_spec x i) as [->|N]; cbn; [split; [reflexivity|lia]|].
  destruct H as [H|H]; [congruence|]. destruct (IH i H) as [A B]. split; [exact A|lia].
Qed.
Lemma pos_of_nodup : forall l j, NoDup l -> j < List.length l -> pos_of (nth j l 0) l = j.
Proof.
  induction l as [|x l IH]; intros [|j] N H; cbn in *; try lia; [now rewrite Nat.eqb_refl|]. inversion N as [|? ? Nx Nl]; subst.
  destruct (Nat.eqb_spec x (nth j l 0)) as [E|E]; [exfalso; apply Nx; rewrite E; apply nth_In; lia|]. f_equal. apply IH; [assumption|lia].
Qed.
Lemma perm_all perm i : is_perm perm -> i < List.length perm -> In i perm.
Proof.
  intros [N B] H. assert (I : incl (seq 0 (List.length perm)) perm).
  { apply NoDup_length_incl; [exact N|now rewrite seq_length|]. intros j Hj. apply in_seq. specialize (B j Hj). lia. }
  apply I. apply in_seq. lia.
Qed.
Lemma twist_nth perm idx j : j < List.length perm -> nth j (twist perm idx) 0 = nth (nth j perm 0) idx 0.
Proof.
  intros H. unfold twist. rewrite nth_indep with (d' := (fun p => nth p idx 0) 0) by (rewrite map_length; exact H). now rewrite (map_nth (fun p => nth p idx 0)).
Qed.
Lemma twist_length perm idx : List.length (twist perm idx) = List.length perm.
Proof. apply map_length. Qed.
Lemma nth_map_seq {A} (f : nat -> A) n i d : i < n -> nth i (map f (seq 0 n)) d = f i.
Proof. intros H. rewrite nth_indep with (d' := f 0) by (now rewrite map_length, seq_length). rewrite map_nth. now rewrite seq_nth by assumption. Qed.
Lemma untwist_twist perm idx : is_perm perm -> List.length idx = List.length perm -> untwist perm (twist perm idx) = idx.
Proof.
  intros P L. apply (nth_ext _ _ 0 0); [unfold untwist; now rewrite map_length, seq_length|]. intros i Hi. unfold untwist in Hi. rewrite map_length, seq_length in Hi.
  unfold untwist. rewrite nth_map_seq by assumption. destruct (pos_of_nth perm i (perm_all perm i P Hi)) as [A B]. unfold twist.
  rewrite nth_indep with (d' := (fun p => nth p idx 0) 0) by (now rewrite map_length). rewrite map_nth with (f := fun p => nth p idx 0). now rewrite A.
Qed.
Lemma twist_untwist perm idx : is_perm perm -> List.length idx = List.length perm -> twist perm (untwist perm idx) = idx.
Proof.
  intros P L. apply (nth_ext _ _ 0 0); [now rewrite twist_length|]. intros i Hi. rewrite twist_length in Hi. unfold twist.
  rewrite nth_indep with (d' := (fun p => nth p (untwist perm idx) 0) 0) by (now rewrite map_length). rewrite map_nth with (f := fun p => nth p (untwist perm idx) 0).
  unfold untwist. rewrite nth_map_seq by (apply (proj2 P), nth_In; exact Hi). rewrite pos_of_nodup; [reflexivity|apply P|exact Hi].
Qed.
Lemma inb_nth s idx : inb s idx <-> List.length idx = List.length s /\ forall i, i < List.length s -> nth i idx 0 < nth i s 0.
Proof.
  split.
  - induction 1 as [|i n idx s Hi H [L IH]]; cbn [List.length]; [split; [reflexivity|lia]|]. split; [lia|]. intros [|j] Hj; cbn [nth]; [exact Hi|apply IH; lia].
  - revert idx. induction s as [|n s IH]; intros [|i idx] [L H]; cbn in L; try lia; constructor; [apply (H 0); cbn; lia|]. apply IH. split; [lia|]. intros j Hj. apply (H (S j)). cbn. lia.
Qed.
Lemma untwist_inb perm s idx : is_perm perm -> List.length s = List.length perm -> inb (twist perm s) idx -> inb s (untwist perm idx).
Proof.
  intros P L H. apply inb_nth in H. destruct H as [H1 H2]. rewrite twist_length in *. apply inb_nth. split; [unfold untwist; rewrite map_length, seq_length; auto|].
  intros i Hi. rewrite L in Hi. unfold untwist. rewrite nth_map_seq by assumption. destruct (pos_of_nth perm i (perm_all perm i P Hi)) as [A B].
  specialize (H2 _ B). rewrite twist_nth in H2 by exact B. now rewrite A in H2.
Qed.
Lemma twist_inb perm s idx : is_perm perm -> List.length s = List.length perm -> inb s idx -> inb (twist perm s) (twist perm idx).
Proof.
  intros P L H. apply inb_nth in H. destruct H as [H1 H2]. apply inb_nth. split; [now rewrite !twist_length|]. intros i Hi. rewrite twist_length in Hi. rewrite !twist_nth by exact Hi. apply H2. rewrite L. apply (proj2 P), nth_In. exact Hi.
Qed.
Lemma transpose_get {A} (d : A) (a : arr A) perm idx : is_perm perm -> List.length (shape a) = List.length perm -> wfa a -> inb (shape a) idx ->
  get (transpose d a perm) (twist perm idx) = get a idx.
Proof.
  intros P L W H. unfold transpose. rewrite tabulate_get by (apply twist_inb; assumption). rewrite untwist_twist by (auto; now rewrite (inb_length _ _ H)).
  destruct (get_some a idx W H) as [x E]. now rewrite E.
Qed.
(** ** Repetition *)
Lemma tile_nth {A} (l : list A) n k : k < n * List.length l -> nth_error (tile l n) k = nth_error l (k mod List.length l).
Proof.
  unfold tile. revert k. induction n as [|n IH]; intros k H; [lia|]. cbn [repeat List.concat]. assert (L : List.length l <> 0) by nia.
  destruct (Nat.ltb_spec k (List.length l)) as [K|K].
  - rewrite nth_error_app1 by assumption. now rewrite Nat.mod_small.
  - rewrite nth_error_app2 by assumption. rewrite IH by nia. f_equal. replace k with ((k - List.length l) + 1 * List.length l) at 2 by lia. now rewrite Nat.mod_add.
Qed.
Lemma repeat_each_nth {A} (l : list A) s : forall k, k < List.length l * s -> nth_error (repeat_each l s) k = nth_error l (k / s).
Proof.
  unfold repeat_each. induction l as [|x l IH]; intros k H; [cbn in H; lia|]. cbn [flat_map]. cbn [List.length] in H. rewrite Nat.mul_succ_l in H. assert (S0 : s <> 0) by (intros ->; lia).
  destruct (Nat.ltb_spec k s) as [K|K].
  - rewrite nth_error_app1 by (now rewrite repeat_length). rewrite Nat.div_small by exact K. cbn. rewrite nth_error_repeat by exact K. reflexivity.
  - rewrite nth_error_app2 by (now rewrite repeat_length). rewrite repeat_length, IH by lia. replace k with ((k - s) + 1 * s) at 2 by lia. rewrite Nat.div_add by exact S0.
    rewrite Nat.add_1_r. reflexivity.
Qed.
Lemma repeat_each_length {A} (l : list A) s : List.length (repeat_each l s) = List.length l * s.
Proof. unfold repeat_each. induction l as [|x l IH]; cbn [flat_map List.length]; [lia|]. rewrite app_length, repeat_length, IH. lia. Qed.
Lemma tile_length {A} (l : list A) n : List.length (tile l n) = n * List.length l.
Proof. unfold tile. induction n as [|n IH]; cbn [repeat List.concat]; [reflexivity|]. rewrite app_length, IH, Nat.mul_succ_l. lia. Qed.
