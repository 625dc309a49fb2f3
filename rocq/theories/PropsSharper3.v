(** Sharper statements for C24, C112, C118, C128, C144 and C149, added after automatic edits of the model. *)
From Coq Require Import QArith Qpower Lqa Ascii.
From Verif Require Import Base Num.
Local Open Scope string_scope.
Local Open Scope nat_scope.
Local Open Scope list_scope.

(** ** C24: identifiers and reserved words, written out.  Characters are code points. *)
From Verif Require SgaNaming PropsNaming.
Definition codes (s : string) : list nat := map nat_of_ascii (list_ascii_of_string s).
Definition letters : list nat := codes "ABCDEFGHIJKLMNOPQRSTUVWXYZabcdefghijklmnopqrstuvwxyz".
Definition word_chars : list nat := letters ++ codes "0123456789_".
Lemma below_cases (f g : nat -> bool) n : forallb (fun c => Bool.eqb (f c) (g c)) (seq 0 n) = true -> forall c, c < n -> f c = g c.
Proof. intros H c L. rewrite forallb_forall in H. apply Bool.eqb_prop, H, in_seq. lia. Qed.
Lemma letter_chars c : SgaNaming.letter c = existsb (Nat.eqb c) letters.
Proof.
  destruct (Nat.lt_ge_cases c 128) as [L|L]; [revert c L; apply below_cases; vm_compute; reflexivity|].
  transitivity false; [unfold SgaNaming.letter; rewrite (proj2 (Nat.leb_gt c 90)), (proj2 (Nat.leb_gt c 122)) by lia; rewrite !andb_false_r; reflexivity|].
  symmetry. apply not_true_iff_false. rewrite existsb_exists. intros (x & I & E). apply Nat.eqb_eq in E as ->. assert (F : forallb (fun y => Nat.ltb y 128) letters = true) by (vm_compute; reflexivity). rewrite forallb_forall in F. specialize (F x I). apply Nat.ltb_lt in F. lia.
Qed.
Lemma word_chars_ok c : SgaNaming.word c = existsb (Nat.eqb c) word_chars.
Proof.
  destruct (Nat.lt_ge_cases c 128) as [L|L]; [revert c L; apply below_cases; vm_compute; reflexivity|].
  transitivity false; [unfold SgaNaming.word, SgaNaming.letter, SgaNaming.digit, SgaNaming.underscore; rewrite (proj2 (Nat.leb_gt c 90)), (proj2 (Nat.leb_gt c 122)), (proj2 (Nat.leb_gt c 57)), (proj2 (Nat.eqb_neq c 95)) by lia; rewrite !andb_false_r; reflexivity|].
  symmetry. apply not_true_iff_false. rewrite existsb_exists. intros (x & I & E). apply Nat.eqb_eq in E as ->. assert (F : forallb (fun y => Nat.ltb y 128) word_chars = true) by (vm_compute; reflexivity). rewrite forallb_forall in F. specialize (F x I). apply Nat.ltb_lt in F. lia.
Qed.
Theorem C24_valid_names s : (exists t, SgaNaming.validate_name [] s = Ok t) <->
  (exists c r, (s = c :: r \/ s = (c :: r) ++ [10]) /\ In c letters /\ Forall (fun x => In x word_chars) r) /\
  ~ In s (map codes ["0"; "d"; "d^2"; "+"; "-"; "*"; "/"; "^2"; "^3"]).
Proof.
  assert (In_existsb : forall (c : nat) l, existsb (Nat.eqb c) l = true <-> In c l).
  { intros c l. rewrite existsb_exists. split; [intros (x & I & E); apply Nat.eqb_eq in E as ->; exact I|]. intros I. exists c. split; [exact I|apply Nat.eqb_refl]. }
  assert (ID : forall s, PropsNaming.identifier s <-> exists c r, s = c :: r /\ In c letters /\ Forall (fun x => In x word_chars) r).
  { intros s0. unfold PropsNaming.identifier. split; intros (c & r & E & H1 & H2); exists c, r; (split; [exact E|]).
    - split; [rewrite letter_chars in H1; apply In_existsb, H1|]. eapply Forall_impl; [|exact H2]. cbv beta. intros x W. rewrite word_chars_ok in W. apply In_existsb, W.
    - split; [rewrite letter_chars; apply In_existsb, H1|]. eapply Forall_impl; [|exact H2]. cbv beta. intros x W. rewrite word_chars_ok. apply In_existsb, W. }
  rewrite PropsNaming.C24_names. assert (R : SgaNaming.DEFAULT_RESERVED = map codes ["0"; "d"; "d^2"; "+"; "-"; "*"; "/"; "^2"; "^3"]) by (vm_compute; reflexivity). rewrite R.
  split; intros [H1 H2]; (split; [|exact H2]).
  - destruct H1 as [H|(i & H & ->)]; apply ID in H as (c & r & -> & A & B); exists c, r; auto.
  - destruct H1 as (c & r & [-> | ->] & A & B); [left|right; exists (c :: r); split; [|reflexivity]]; apply ID; eauto.
Qed.

(** ** C128: the weight of step t is the t-th power of the decay factor. *)
From Verif Require Controller.
Theorem C128_powers q t : (Controller.qpow q t == Qpower q (Z.of_nat t))%Q.
Proof.
  induction t as [|t IH]; [reflexivity|]. cbn [Controller.qpow]. rewrite IH. destruct (Qeq_dec q 0) as [E|N].
  - rewrite E. rewrite (Qpower_0 (Z.of_nat (S t))) by lia. ring.
  - rewrite Nat2Z.inj_succ, <- Z.add_1_l, Qpower_plus by exact N. reflexivity.
Qed.

(** ** C144: the trigonometric functions of a library. *)
From Verif Require Library.
Theorem C144_trigonometric n : Library.is_trig_name n = true <->
  In n ["sin"; "cos"; "tan"; "csc"; "sec"; "cot"; "arcsin"; "arccos"; "arctan"; "arccsc"; "arcsec"; "arccot"] \/ (exists a b, n = a ++ "diff" ++ b \/ n = a ++ "Diff" ++ b)%string.
Proof.
  assert (E : forall l, existsb (String.eqb n) l = true <-> In n l).
  { intros l. rewrite existsb_exists. split; [intros (x & I & E); apply String.eqb_eq in E as ->; exact I|]. intros I. exists n. split; [exact I|apply String.eqb_refl]. }
  assert (P : forall p s, contains p s = true <-> exists a b, s = (a ++ p ++ b)%string).
  { intros p s. assert (PR : forall p s, has_prefix p s = true <-> exists b, s = (p ++ b)%string).
    { clear. induction p as [|c p IH]; intros [|d s]; cbn; try (split; [eauto|reflexivity]); try (split; [discriminate|intros (b & X); discriminate]).
      rewrite andb_true_iff, IH. split; [intros [X (b & ->)]; apply Ascii.eqb_eq in X as ->; eauto|]. intros (b & X). injection X as -> ->. split; [apply Ascii.eqb_refl|eauto]. }
    induction s as [|c s IH]; cbn [contains].
    - rewrite orb_false_r, PR. split; [intros (b & H); exists EmptyString, b; exact H|]. intros ([|? ?] & b & H); [eauto|discriminate].
    - rewrite orb_true_iff, IH, PR. split.
      + intros [(b & ->)|(a & b & ->)]; [exists EmptyString, b; reflexivity|exists (String c a), b; reflexivity].
      + intros ([|d a] & b & H); [left; exists b; exact H|right]. cbn in H. injection H as -> ->. eauto. }
  unfold Library.is_trig_name, Library.has_diff. rewrite !orb_true_iff, !E, !P. cbn [map Library.base_trig In]. split.
  - intros [[H|H]|[(a & b & H)|(a & b & H)]]; [left|left|right; eauto|right; eauto]; tauto.
  - intros [H|(a & b & [H|H])]; [left|right; left; eauto|right; right; eauto]. cbn in *. tauto.
Qed.

(** ** C149: the files a benchmark is read from. *)
From Verif Require SgaProblem.
Theorem C149_files name t fs : SgaProblem.benchmark name = Some (t, fs) ->
  (name = "chafee-infante" /\ fs = [["chafee_infante_CI.npy"]; ["chafee_infante_x.npy"]; ["chafee_infante_t.npy"]]) \/
  (name = "burgers" /\ fs = [["burgers.mat"; "burgers2.mat"]]) \/ (name = "kdv" /\ fs = [["KdV.mat"; "Kdv.mat"; "KdV_equation.mat"]]).
Proof.
  unfold SgaProblem.benchmark. destruct (String.eqb_spec name "chafee-infante"); [intros [= _ <-]; auto|]. destruct (String.eqb_spec name "burgers"); [intros [= _ <-]; auto|].
  destruct (String.eqb_spec name "kdv"); [intros [= _ <-]; auto|discriminate].
Qed.

(** ** C118: with extra_gradient, every term is differentiated once along every axis. *)
From Verif Require Spr.
Theorem C118_extra_terms dx terms : Spr.rhs_terms dx 1 true terms = map (dx 0) terms /\ Spr.rhs_terms dx 2 true terms = map (fun c => dx 1 (dx 0 c)) terms /\
  (forall nx, Spr.rhs_terms dx nx false terms = terms) /\ (forall nx, Spr.rhs_terms dx (S nx) true terms = map (dx nx) (Spr.rhs_terms dx nx true terms)).
Proof.
  split; [reflexivity|]. split; [reflexivity|]. split; [reflexivity|]. intros nx. unfold Spr.rhs_terms. rewrite map_map. apply map_ext. intros c. rewrite seq_S, fold_left_app. reflexivity.
Qed.

(** ** C112: every point of the grid occurs once, in order. *)
From Verif Require DiscoverViz.
Theorem C112_grid_points shape : NoDup (DiscoverViz.indices shape) /\ forall idx, In idx (DiscoverViz.indices shape) <-> Forall2 lt idx shape.
Proof.
  induction shape as [|n s [N IH]]; cbn [DiscoverViz.indices].
  - split; [repeat constructor; intros []|]. intros idx. split; [intros [<-|[]]; constructor|]. intros H. inversion H. left. reflexivity.
  - split.
    + assert (G : forall l, NoDup l -> NoDup (flat_map (fun i => map (cons i) (DiscoverViz.indices s)) l)).
      { induction l as [|a l IHl]; intros H; cbn; [constructor|]. inversion H; subst. assert (D : NoDup (map (cons a) (DiscoverViz.indices s))) by (apply FinFun.Injective_map_NoDup; [intros x y X; congruence|exact N]).
        revert D. generalize (DiscoverViz.indices s) at 1 2. intros K D. assert (X : forall y, In y (map (cons a) K) -> ~ In y (flat_map (fun i => map (cons i) (DiscoverViz.indices s)) l)).
        { intros y I J. apply in_map_iff in I as (? & <- & _). apply in_flat_map in J as (b & J1 & J2). apply in_map_iff in J2 as (? & E & _). congruence. }
        specialize (IHl H3). revert X D. generalize (map (cons a) K). intros M X D. induction M as [|m M IHM]; cbn; [exact IHl|]. inversion D; subst. constructor; [rewrite in_app_iff; intros [Y|Y]; [contradiction|]; apply (X m (or_introl eq_refl) Y)|]. apply IHM; [intros y Y; apply X; now right|assumption]. }
      apply G, seq_NoDup.
    + intros idx. rewrite in_flat_map. split.
      * intros (i & I & J). apply in_map_iff in J as (r & <- & J). apply in_seq in I. constructor; [lia|]. apply IH, J.
      * intros H. inversion H as [|i ? r ? L F]; subst. exists i. split; [apply in_seq; lia|]. apply in_map, IH, F.
Qed.
Print Assumptions C24_valid_names.
Print Assumptions C128_powers.
Print Assumptions C144_trigonometric.
Print Assumptions C149_files.
Print Assumptions C118_extra_terms.
Print Assumptions C112_grid_points.
