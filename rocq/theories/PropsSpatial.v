(** C134: with several spatial coordinates an expression is used only if it mentions each of them
    equally often. *)
From Coq Require Import QArith Qabs Ascii.
From Verif Require Import Base Trees TreeFacts Library Execute ExecuteSpec ExecuteFacts Stridge StridgeFacts StridgeFit RegressLemmas.
Local Open Scope nat_scope.

(** *** Specification *)
(** occurrences of the text of coordinate [i] in the names of the expression's tokens *)
Definition mentions (i : nat) (trav : list token) : nat :=
  list_sum (map (fun k => count_sub (coord i) 0 (tname k)) trav).
(** tokens that are the coordinate [i] *)
Definition uses (i : nat) (trav : list token) : nat :=
  List.length (filter (fun k => String.eqb (tname k) (coord i)) trav).
(** names in which a coordinate's text stands only for that coordinate *)
Definition ordinary (dims : nat) (k : token) : Prop :=
  forall i, 1 <= i <= dims -> tname k = coord i \/ contains (coord i) (tname k) = false.

(** *** Text *)
Local Open Scope string_scope.
Definition sep_free (d : ascii) (s : string) : Prop :=
  match s with EmptyString => True | String c _ => c <> d end.
Lemma has_prefix_xd d s : has_prefix (String "x" (String d "")) s = true -> exists r, s = String "x" (String d r).
Proof.
  destruct s as [|a [|b r]]; cbn [has_prefix]; intros H; [discriminate| |].
  - apply andb_true_iff in H as [_ H]. discriminate.
  - apply andb_true_iff in H as [A B]. apply andb_true_iff in B as [B _]. apply Ascii.eqb_eq in A, B. subst. eauto.
Qed.
(** appending a text that does not begin with the digit keeps the occurrences apart *)
Lemma count_app d : d <> "x"%char -> forall s r, sep_free d r ->
  count_sub (String "x" (String d "")) 0 (s ++ r) = (count_sub (String "x" (String d "")) 0 s + count_sub (String "x" (String d "")) 0 r)%nat.
Proof.
  intros Hd. set (p := String "x" (String d "")).
  assert (forall n s r, String.length s <= n -> sep_free d r ->
    count_sub p 0 (s ++ r) = (count_sub p 0 s + count_sub p 0 r)%nat) as G.
  { induction n as [|n IH]; intros s r HL HR.
    - destruct s; [reflexivity|cbn in HL; lia].
    - destruct s as [|a s]; [reflexivity|]. cbn [append count_sub]. change (String.length p - 1)%nat with 1%nat.
      change (String a (s ++ r)) with (String a s ++ r).
      destruct (has_prefix p (String a s)) eqn:E1.
      + destruct (has_prefix_xd _ _ E1) as (q & EQ). injection EQ as -> ->. cbn [append].
        assert (has_prefix p (String "x" (String d (q ++ r))) = true) as -> by exact E1.
        cbn [count_sub]. cbn [String.length] in HL. rewrite (IH q r) by (try lia; assumption). reflexivity.
      + destruct (has_prefix p (String a s ++ r)) eqn:E2.
        * exfalso. destruct (has_prefix_xd _ _ E2) as (q & EQ). cbn [append] in EQ. injection EQ as -> EQ.
          destruct s as [|b s].
          -- cbn [append] in EQ. subst r. cbn in HR. congruence.
          -- cbn [append] in EQ. injection EQ as -> _. unfold p in E1. cbn in E1. rewrite Ascii.eqb_refl in E1. discriminate.
        * cbn [String.length] in HL. apply IH; [lia|assumption]. }
  intros s r. apply (G (String.length s)). lia.
Qed.
Lemma digit_cases i : 1 <= i <= 9 -> let d := ascii_of_nat (48 + i) in d <> "x"%char /\ d <> ","%char /\ d <> "]"%char /\ d <> " "%char.
Proof.
  intros H. assert (i = 1 \/ i = 2 \/ i = 3 \/ i = 4 \/ i = 5 \/ i = 6 \/ i = 7 \/ i = 8 \/ i = 9)%nat as C by lia.
  repeat (destruct C as [->|C]; [repeat split; vm_compute; discriminate|]). subst. repeat split; vm_compute; discriminate.
Qed.
Lemma count_repr i trav : 1 <= i <= 9 -> count_sub (coord i) 0 (repr_list trav) = mentions i trav.
Proof.
  intros Hi. destruct (digit_cases i Hi) as (D1 & D2 & D3 & D4). unfold coord, mentions, repr_list.
  set (d := ascii_of_nat (48 + i)) in *. fold (coord i).
  change (coord i) with (String "x" (String d "")). clearbody d. pose proof (count_app d D1) as CA. set (p := String "x" (String d "")) in *.
  assert (forall l, count_sub p 0 (join ", " l ++ "]") = list_sum (map (count_sub p 0) l)) as J.
  { assert (count_sub p 0 "]" = 0) as C0 by reflexivity.
    assert (forall r, count_sub p 0 (", " ++ r) = count_sub p 0 r) as C1 by reflexivity.
    induction l as [|a l IH]; [reflexivity|]. destruct l as [|b l].
    - cbn [join]. rewrite CA; [|apply not_eq_sym; assumption]. rewrite C0. cbn. lia.
    - change (join ", " (a :: b :: l)) with (a ++ ", " ++ join ", " (b :: l)).
      assert (forall x y z : string, (x ++ y) ++ z = x ++ y ++ z) as EA by (intros x y z; induction x as [|c x IHx]; [reflexivity|cbn [append]; f_equal; exact IHx]).
      rewrite !EA. rewrite CA by (apply not_eq_sym; assumption). rewrite C1, IH. reflexivity. }
  change ("[" ++ join ", " (map tname trav) ++ "]") with (String "[" (join ", " (map tname trav) ++ "]")).
  cbn [count_sub]. change (has_prefix p (String "[" (join ", " (map tname trav) ++ "]"))) with false. cbn iota.
  rewrite J, map_map. reflexivity.
Qed.
Lemma contains_step p c s : contains p (String c s) = has_prefix p (String c s) || contains p s.
Proof. reflexivity. Qed.
Lemma count_absent p s : contains p s = false -> count_sub p 0 s = 0%nat.
Proof.
  induction s as [|c s IH]; intros H; [reflexivity|]. rewrite contains_step in H. apply orb_false_iff in H as [H1 H2].
  cbn [count_sub]. rewrite H1. apply IH. exact H2.
Qed.
Lemma contains_not_eq p s : p <> "" -> contains p s = false -> s <> p.
Proof.
  intros Hp H ->. destruct p as [|c p]; [congruence|]. rewrite contains_step in H. apply orb_false_iff in H as [H _].
  assert (forall q, has_prefix q q = true) as R by (induction q as [|a q IH]; [reflexivity|cbn; rewrite Ascii.eqb_refl; exact IH]).
  rewrite R in H. discriminate.
Qed.
Local Close Scope string_scope.
Lemma mentions_uses dims i trav : 1 <= i <= 9 -> i <= dims -> Forall (ordinary dims) trav -> mentions i trav = uses i trav.
Proof.
  intros Hi Hd HF. unfold mentions, uses, list_sum. induction HF as [|k l Hk _ IH]; [reflexivity|]. cbn [map fold_right filter]. rewrite IH.
  destruct (Hk i ltac:(lia)) as [E|E].
  - rewrite E, String.eqb_refl. cbn [List.length]. cut (count_sub (coord i) 0 (coord i) = 1); [lia|].
    unfold coord. generalize (ascii_of_nat (48 + i)). intros d. cbn [count_sub has_prefix]. rewrite !Ascii.eqb_refl. reflexivity.
  - rewrite (count_absent _ _ E). destruct (String.eqb_spec (tname k) (coord i)) as [E'|_]; [|reflexivity].
    exfalso. revert E'. apply contains_not_eq; [discriminate|exact E].
Qed.

Lemma check_spatial_nil dims trav : dims <= 9 ->
  (check_spatial dims trav = [] <-> forall i, 1 <= i <= dims -> mentions i trav = mentions 1 trav).
Proof.
  intros Hd. unfold check_spatial. split.
  - intros H i Hi. destruct (Nat.eq_dec i 1) as [->|Ne]; [reflexivity|]. destruct i as [|i]; [lia|].
    destruct (Nat.eq_dec (mentions (S i) trav) (mentions 1 trav)) as [E|E]; [exact E|exfalso].
    assert (In "spatial_error"%string (flat_map (fun j => if Nat.eqb (count_sub (coord (S j)) 0 (repr_list trav)) (count_sub (coord 1) 0 (repr_list trav)) then [] else ["spatial_error"%string]) (seq 1 (dims - 1)))) as I.
    { apply in_flat_map. exists i. split; [apply in_seq; lia|]. rewrite !count_repr by lia. destruct (Nat.eqb_spec (mentions (S i) trav) (mentions 1 trav)); [contradiction|left; reflexivity]. }
    rewrite H in I. destruct I.
  - intros H. assert (forall l, (forall j, In j l -> 1 <= S j <= dims) -> flat_map (fun j => if Nat.eqb (count_sub (coord (S j)) 0 (repr_list trav)) (count_sub (coord 1) 0 (repr_list trav)) then [] else ["spatial_error"%string]) l = []) as G.
    { induction l as [|j l IH]; intros HL; [reflexivity|]. cbn [flat_map]. rewrite IH by (intros; apply HL; right; assumption).
      pose proof (HL j (or_introl eq_refl)). rewrite !count_repr by lia. rewrite (H (S j)) by lia. rewrite Nat.eqb_refl. reflexivity. }
    apply G. intros j Hj. apply in_seq in Hj. lia.
Qed.

(** *** C134 *)
(** Whatever the terms evaluate to: an expression that gets coefficients mentions each of the
    (at most nine) coordinates as often as the first one. *)
Theorem C134_balanced exec lstsq ac md dims trav ds sp y w cols : dims <= 9 -> split_forest trav ds = Ok sp ->
  calculate exec lstsq ac (mkRegs md (Some dims)) sp y = Valid w cols ->
  forall i, 1 <= i <= dims -> mentions i trav = mentions 1 trav.
Proof.
  intros Hd ES EC. unfold calculate in EC. destruct (evaluate_terms exec (mkRegs md (Some dims)) sp) as [vs|] eqn:Ev; [|discriminate].
  destruct (evaluate_terms_ok _ _ _ _ (wf_split_forest _ _ _ ES) Ev) as (_ & _ & _ & _ & C). specialize (C dims eq_refl).
  replace (sp_trav sp) with trav in C; [apply (check_spatial_nil dims trav Hd); exact C|].
  unfold split_forest in ES. destruct (rebuild_tree trav) as [r|]; [|discriminate]. cbn [bind] in ES.
  destruct (split_sum 1 (fst r)) as [n|]; [|discriminate]. cbn [bind] in ES. destruct (mapM preorder_traverse _) as [toks|]; [|discriminate].
  cbn [bind] in ES. injection ES as <-. reflexivity.
Qed.
(** When no other name contains the text of a coordinate, that is the number of times the
    coordinate itself is used. *)
Theorem C134_used_equally exec lstsq ac md dims trav ds sp y w cols : dims <= 9 -> split_forest trav ds = Ok sp ->
  Forall (ordinary dims) trav ->
  calculate exec lstsq ac (mkRegs md (Some dims)) sp y = Valid w cols ->
  forall i, 1 <= i <= dims -> uses i trav = uses 1 trav.
Proof.
  intros Hd ES HO EC i Hi. rewrite <- !(mentions_uses dims) by (try lia; assumption).
  exact (C134_balanced exec lstsq ac md dims trav ds sp y w cols Hd ES EC i Hi).
Qed.
(** No balanced expression is turned away for its coordinates, in particular none with one
    coordinate: the check changes nothing. *)
Theorem C134_balanced_untouched exec lstsq ac md dims trav ds sp y : dims <= 9 -> split_forest trav ds = Ok sp ->
  (forall i, 1 <= i <= dims -> mentions i trav = mentions 1 trav) ->
  calculate exec lstsq ac (mkRegs md (Some dims)) sp y = calculate exec lstsq ac (mkRegs md None) sp y.
Proof.
  intros Hd ES HB. apply (check_spatial_nil dims trav Hd) in HB.
  assert (sp_trav sp = trav) as ET.
  { unfold split_forest in ES. destruct (rebuild_tree trav) as [r|]; [|discriminate]. cbn [bind] in ES.
    destruct (split_sum 1 (fst r)) as [n|]; [|discriminate]. cbn [bind] in ES. destruct (mapM preorder_traverse _) as [toks|]; [|discriminate].
    cbn [bind] in ES. injection ES as <-. reflexivity. }
  unfold calculate, evaluate_terms, apply_regulations. cbn [r_dims r_depth]. rewrite ET, HB. reflexivity.
Qed.
Theorem C134_one_coordinate exec lstsq ac md trav ds sp y : split_forest trav ds = Ok sp ->
  calculate exec lstsq ac (mkRegs md (Some 1)) sp y = calculate exec lstsq ac (mkRegs md None) sp y.
Proof. intros ES. apply (C134_balanced_untouched exec lstsq ac md 1 trav ds sp y); [lia|exact ES|]. intros i Hi. replace i with 1 by lia. reflexivity. Qed.

Definition u1 := mkTok "u1" 0 None (Some 0) None.
Definition x1 := mkTok "x1" 0 (Some 0) None None.
Definition x2 := mkTok "x2" 0 (Some 1) None None.
Definition flux1 := mkTok "flux1" 0 None None (Some 0).
Definition tk (n : string) (a : nat) := mkTok n a None None None.
(** So an equation that treats the directions differently is never found: with two coordinates
    transport along one of them, u_t = c u_x, is rejected on any data. *)
Theorem C134_one_direction_refuted exec lstsq ac y : exists sp,
  split_forest [tk "Diff" 2; u1; x1] [] = Ok sp /\
  calculate exec lstsq ac (mkRegs 4 (Some 2)) sp y = Invalid "spatial_error" /\
  Forall (ordinary 2) [tk "Diff" 2; u1; x1].
Proof.
  eexists. split; [reflexivity|]. split; [reflexivity|].
  repeat (apply Forall_cons; [intros i Hi; assert (i = 1 \/ i = 2) as [->| ->] by lia; first [left; reflexivity|right; vm_compute; reflexivity]|]); apply Forall_nil.
Qed.
(** A parameter field called flux1 counts as the coordinate x1: flux1*u is rejected although it
    uses no coordinate at all. *)
Theorem C134_parameter_name_refuted exec lstsq ac y : exists sp,
  split_forest [tk "mul" 2; flux1; u1] [] = Ok sp /\
  calculate exec lstsq ac (mkRegs 4 (Some 2)) sp y = Invalid "spatial_error" /\
  uses 1 [tk "mul" 2; flux1; u1] = 0 /\ uses 2 [tk "mul" 2; flux1; u1] = 0.
Proof. eexists. split; [reflexivity|]. repeat split. Qed.
(** u_x + u_y is balanced and gets its coefficients. *)
Definition c134_sum := [tk "add" 2; tk "Diff" 2; u1; x1; tk "Diff" 2; u1; x2].
Example C134_case : exists sp w cols, split_forest c134_sum [] = Ok sp /\ Forall (ordinary 2) c134_sum /\
  calculate (fun l => TVal (match l with [_; _; k] => if String.eqb (tname k) "x1" then [1; 2; 3] else [1; 4; 9] | _ => [] end)%Q) lsq false
    (mkRegs 4 (Some 2)) sp [3; 10; 21]%Q = Valid w cols /\ w = [1; 2]%Q /\ mentions 1 c134_sum = 1.
Proof.
  eexists. eexists. eexists. split; [reflexivity|]. split.
  - unfold c134_sum. repeat (apply Forall_cons; [intros i Hi; assert (i = 1 \/ i = 2) as [->| ->] by lia; first [left; reflexivity|right; vm_compute; reflexivity]|]); apply Forall_nil.
  - split; [vm_compute; reflexivity|]. split; reflexivity.
Qed.
Print Assumptions C134_balanced.
Print Assumptions C134_used_equally.
Print Assumptions C134_balanced_untouched.
Print Assumptions C134_one_coordinate.
Print Assumptions C134_one_direction_refuted.
Print Assumptions C134_parameter_name_refuted.
