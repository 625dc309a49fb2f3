(** C110, continued: the words that do not mean what they say, shown in the ring Z[e]/(e^2) with derivations that multiply e by a number. *)
From Coq Require Import ZArith Ring.
From Verif Require Import Base EqGpt EqGptTerms PropsEqGptTerms.
Local Open Scope string_scope.
Local Open Scope nat_scope.
Local Open Scope list_scope.

(** a + b e *)
Definition dual : Type := (Z * Z)%type.
Definition dplus (p q : dual) : dual := (fst p + fst q, snd p + snd q)%Z.
Definition dtimes (p q : dual) : dual := (fst p * fst q, fst p * snd q + snd p * fst q)%Z.
Definition dopp (p : dual) : dual := (- fst p, - snd p)%Z.
Definition dminus (p q : dual) : dual := (fst p - fst q, snd p - snd q)%Z.
Lemma dual_ring : ring_theory ((0, 0)%Z : dual) (1, 0)%Z dplus dtimes dminus dopp eq.
Proof. split; intros; repeat match goal with p : dual |- _ => destruct p end; unfold dplus, dtimes, dminus, dopp; cbn [fst snd]; f_equal; ring. Qed.
(** the derivation of column i: a + b e goes to (c i) b e *)
Definition dder (c : nat -> Z) (i : nat) (p : dual) : dual := (0, c i * snd p)%Z.
Lemma dder_plus c i p q : dder c i (dplus p q) = dplus (dder c i p) (dder c i q).
Proof. destruct p, q. unfold dder, dplus. cbn [fst snd]. f_equal; ring. Qed.
Lemma dder_times c i p q : dder c i (dtimes p q) = dplus (dtimes (dder c i p) q) (dtimes p (dder c i q)).
Proof. destruct p, q. unfold dder, dplus, dtimes. cbn [fst snd]. f_equal; ring. Qed.
Lemma dder_comm c i j p : dder c i (dder c j p) = dder c j (dder c i p).
Proof. destruct p. unfold dder. cbn [fst snd]. f_equal; ring. Qed.
(** the only function that matters here is the absolute value; the others are the identity *)
Definition dfun (f : fn) (p : dual) : dual := match f with Abs => (Z.abs (fst p), snd p) | _ => p end.
Definition duals (c : nat -> Z) : calculus := mkCalculus dual _ _ _ _ _ _ dual_ring (fun p => p) dfun (dder c) (dder_plus c) (dder_times c) (dder_comm c).
Definition only (k : nat) (i : nat) : Z := if i =? k then 1%Z else 0%Z.
Definition not_ (k : nat) (i : nat) : Z := if i =? k then 0%Z else 1%Z.
Lemma not_meant vars w e r K u x : term_of vars w = Some e -> reading vars w = Some r -> val K u x e <> val K u x r -> ~ means_what_it_says vars w.
Proof. intros T R N (e' & r' & T' & R' & H). rewrite T in T'. rewrite R in R'. injection T' as <-. injection R' as <-. apply N, H. Qed.
Ltac wrong K u x := eapply (not_meant _ _ _ _ K u x); [vm_compute; reflexivity|vm_compute; reflexivity|]; let H := fresh in intros H; vm_compute in H; discriminate.
Definition none (i : nat) : dual := (0, 0)%Z.

(** "(u(u^2)xx)xx" is computed with one derivative too many and without the factor 2; the word may be drawn by a run. *)
Theorem C110_fifth_order_word_refuted : In "(u(u^2)xx)xx" vocab /\ nth (tok "(u(u^2)xx)xx") (mask_of variables) false = true /\ ~ means_what_it_says ["t"; "x"] "(u(u^2)xx)xx".
Proof. split; [vm_compute; tauto|]. split; [vm_compute; reflexivity|]. wrong (duals (only 1)) ((1, 1)%Z : dual) none. Qed.
(** "sint" is the sine of x. *)
Theorem C110_sint_refuted : ~ means_what_it_says ["t"; "x"] "sint".
Proof. wrong (duals (only 1)) ((0, 0)%Z : dual) (fun i : nat => (Z.of_nat i, 0%Z)). Qed.
(** "uyyt" is differentiated in x instead of t. *)
Theorem C110_uyyt_refuted : ~ means_what_it_says ["t"; "x"; "y"] "uyyt".
Proof. wrong (duals (not_ 1)) ((0, 1)%Z : dual) none. Qed.
(** "sqrt(u)" is the root of the absolute value. *)
Theorem C110_sqrt_refuted : ~ means_what_it_says ["t"; "x"] "sqrt(u)".
Proof. wrong (duals (only 1)) ((-1, 0)%Z : dual) none. Qed.
(** "BiLaplace(u)" has no z part. *)
Theorem C110_bilaplace_3d_refuted : ~ means_what_it_says ["t"; "x"; "y"; "z"] "BiLaplace(u)".
Proof. wrong (duals (only 3)) ((0, 1)%Z : dual) none. Qed.
(** The branch "(u^2)xx", which no vocabulary word reaches, computes ((ux)^2)xx. *)
Theorem C110_unused_branch_refuted : ~ In "(u^2)xx" vocab /\ ~ means_what_it_says ["t"; "x"] "(u^2)xx".
Proof.
  split; [|wrong (duals (only 1)) ((1, 1)%Z : dual) none].
  intros H. assert (B : existsb (String.eqb "(u^2)xx") vocab = true) by (apply existsb_exists; eexists; split; [exact H|apply String.eqb_refl]). vm_compute in B. discriminate.
Qed.
(** These rings also tell the words of the positive theorem apart. *)
Example C110_case : val (duals (only 1)) ((2, 3)%Z : dual) none (D 1 U) = (0, 3)%Z /\ val (duals (only 1)) ((2, 3)%Z : dual) none (Pow U 2) = (4, 12)%Z /\ means_what_it_says ["t"; "x"] "(uux)x".
Proof. split; [reflexivity|]. split; [reflexivity|]. eapply C110_terms_mean_what_they_say; [vm_compute; tauto|vm_compute; intuition discriminate|discriminate|vm_compute; reflexivity]. Qed.

Print Assumptions C110_fifth_order_word_refuted.
Print Assumptions C110_sint_refuted.
Print Assumptions C110_uyyt_refuted.
Print Assumptions C110_sqrt_refuted.
Print Assumptions C110_bilaplace_3d_refuted.
Print Assumptions C110_unused_branch_refuted.
