(** Shared list utilities.  Nothing here models the code base. *)
From Coq Require Export List Arith ZArith Lia Bool String.
From Coq Require Export ZifyBool ZifyNat.
Export ListNotations.
#[global] Open Scope list_scope.
#[global] Open Scope nat_scope.

(** Results of Python calls that may raise: the exception is a value. *)
Inductive exn :=
| ValueError | TypeError | IndexError | KeyError | AssertionError
| AttributeError | RuntimeError | UnboundLocalError | NotImplementedError
| ZeroDivisionError | OtherError.

Inductive res (A : Type) := Ok (a : A) | Err (e : exn).
Arguments Ok {A}. Arguments Err {A}.

Definition bind {A B} (r : res A) (f : A -> res B) : res B :=
  match r with Ok a => f a | Err e => Err e end.
Notation "'do' x <- r ; k" := (bind r (fun x => k))
  (at level 200, x pattern, r at level 100, k at level 200, right associativity).

Fixpoint mapM {A B} (f : A -> res B) (l : list A) : res (list B) :=
  match l with
  | [] => Ok []
  | x :: xs => do y <- f x ; do ys <- mapM f xs ; Ok (y :: ys)
  end.

(** [str in other] of Python (substring test). *)
Fixpoint has_prefix (p s : string) : bool :=
  match p, s with
  | EmptyString, _ => true
  | String a p', String b s' => Ascii.eqb a b && has_prefix p' s'
  | _, _ => false
  end.
Fixpoint contains (p s : string) : bool :=
  has_prefix p s ||
  match s with EmptyString => false | String _ s' => contains p s' end.

(** Index list [i for i, t in enumerate(l) if f t]. *)
Fixpoint indices_from {A} (f : A -> bool) (i : nat) (l : list A) : list nat :=
  match l with
  | [] => []
  | x :: xs => (if f x then [i] else []) ++ indices_from f (S i) xs
  end.
Definition indices {A} (f : A -> bool) (l : list A) := indices_from f 0 l.

Lemma indices_from_spec {A} (f : A -> bool) l : forall i k,
  In k (indices_from f i l) <->
  exists x, i <= k /\ nth_error l (k - i) = Some x /\ f x = true.
Proof.
  induction l as [|x xs IH]; intros i k; simpl.
  - split; [tauto|]. intros (x & _ & H & _). destruct (k - i); discriminate.
  - rewrite in_app_iff, IH. split.
    + intros [H|(y & Hle & Hn & Hf)].
      * destruct (f x) eqn:E; simpl in H; [|tauto].
        destruct H as [H|[]]. subst k. exists x. rewrite Nat.sub_diag. simpl. auto.
      * exists y. split; [lia|]. split; [|auto].
        replace (k - i) with (S (k - S i)) by lia. exact Hn.
    + intros (y & Hle & Hn & Hf).
      destruct (Nat.eq_dec k i) as [->|Hne].
      * rewrite Nat.sub_diag in Hn. simpl in Hn. injection Hn as ->. rewrite Hf. left; simpl; auto.
      * right. exists y. split; [lia|]. split; [|auto].
        replace (k - i) with (S (k - S i)) in Hn by lia. exact Hn.
Qed.

Lemma indices_spec {A} (f : A -> bool) l k :
  In k (indices f l) <-> exists x, nth_error l k = Some x /\ f x = true.
Proof.
  unfold indices. rewrite indices_from_spec. rewrite Nat.sub_0_r.
  split; intros (x & H); exists x; intuition lia.
Qed.

Lemma indices_from_NoDup {A} (f : A -> bool) l : forall i, NoDup (indices_from f i l).
Proof.
  induction l as [|x xs IH]; intros i; simpl; [constructor|].
  destruct (f x); simpl; [|apply IH].
  constructor; [|apply IH].
  rewrite indices_from_spec. intros (y & H & _). lia.
Qed.
Lemma indices_NoDup {A} (f : A -> bool) l : NoDup (indices f l).
Proof. apply indices_from_NoDup. Qed.

Lemma existsb_eqb_In x l : existsb (Nat.eqb x) l = true <-> In x l.
Proof.
  rewrite existsb_exists. split.
  - intros (y & H & E). apply Nat.eqb_eq in E. subst; auto.
  - intros H. exists x. split; auto. apply Nat.eqb_refl.
Qed.
Definition memb (x : nat) (l : list nat) : bool := existsb (Nat.eqb x) l.
Lemma memb_In x l : memb x l = true <-> In x l.
Proof. apply existsb_eqb_In. Qed.
Lemma memb_nIn x l : memb x l = false <-> ~ In x l.
Proof. rewrite <- memb_In. destruct (memb x l); split; congruence. Qed.

#[global] Arguments Z.add : simpl never.
#[global] Arguments Z.sub : simpl never.
#[global] Arguments Z.mul : simpl never.
#[global] Arguments Z.opp : simpl never.
#[global] Arguments Z.of_nat : simpl never.
#[global] Arguments Z.to_nat : simpl never.
#[global] Arguments Nat.ltb : simpl never.
