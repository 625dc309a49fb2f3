(** C110: the values KD_EqGPT uses for a term are those of the expression its name says. *)
From Coq Require Import Ascii ZArith Ring.
From Verif Require Import Base EqGpt EqGptTerms.
Local Open Scope string_scope.
Local Open Scope nat_scope.
Local Open Scope list_scope.

(** ** Specification: reading a name
    sum      ::= product { + product }
    product  ::= factor { [*] factor | / factor }        (juxtaposition is a product)
    factor   ::= - factor | base [ ^ integer ]
    base     ::= u subscripts | ( sum ) subscripts | f ( sum ) | f variable | variable | number
    A subscript x, y, z or t is a derivative; Laplace and BiLaplace are the sum of second derivatives over the space variables, once or twice,
    and Div the sum of the first derivatives over them. *)
Local Open Scope char_scope.
Definition is_var (a : ascii) : bool := existsb (Ascii.eqb a) ["x"; "y"; "z"; "t"].
Definition digit_of (a : ascii) : option Z := let n := nat_of_ascii a in if (48 <=? n)%nat && (n <=? 57)%nat then Some (Z.of_nat (n - 48)) else None.
Local Open Scope string_scope.
Local Open Scope nat_scope.
Local Open Scope list_scope.
Inductive head := HFn (f : fn) | HLap | HBi | HDiv.
(** the functions, longer names first *)
Definition heads : list (string * head) := [("BiLaplace", HBi); ("Div", HDiv); ("Laplace", HLap); ("sinh", HFn Sinh); ("sin", HFn Sin); ("sqrt", HFn Sqrt); ("exp", HFn Exp)].
Fixpoint drop_prefix (p s : string) : option string :=
  match p, s with
  | EmptyString, _ => Some s
  | String a p', String b s' => if Ascii.eqb a b then drop_prefix p' s' else None
  | _, EmptyString => None
  end.
Definition head_of (s : string) : option (head * string) :=
  fold_right (fun ph acc => match drop_prefix (fst ph) s with Some r => Some (snd ph, r) | None => acc end) None heads.
Section Reading.
Context (vars : list string).
Definition vcol (a : ascii) : nat := col vars (String a EmptyString).
Fixpoint subscripts (s : string) (e : ex) : ex * string :=
  match s with
  | String a s' => if is_var a then subscripts s' (D (vcol a) e) else (e, s)
  | EmptyString => (e, s)
  end.
Definition laplace (e : ex) : ex :=
  let d v := D (col vars v) (D (col vars v) e) in
  let xy := Add (d "x") (d "y") in if has vars "z" then Add xy (d "z") else xy.
Definition divergence (e : ex) : ex :=
  let d v := D (col vars v) e in
  let xy := Add (d "x") (d "y") in if has vars "z" then Add xy (d "z") else xy.
Definition apply_head (h : head) (e : ex) : ex := match h with HFn f => App f e | HLap => laplace e | HBi => laplace (laplace e) | HDiv => divergence e end.
(** ^ integer *)
Definition exponent (s : string) : option (Z * string) :=
  match s with
  | String "^" (String "-" (String a r)) => match digit_of a with Some z => Some ((- z)%Z, r) | None => None end
  | String "^" (String a r) => match digit_of a with Some z => Some (z, r) | None => None end
  | _ => None
  end.
Definition opens_factor (s : string) : bool := match s with String a _ => existsb (Ascii.eqb a) ["u"; "("]%char | EmptyString => false end.
Fixpoint sum (fuel : nat) (s : string) {struct fuel} : option (ex * string) :=
  match fuel with
  | O => None
  | S k =>
      match prod k s with
      | Some (e, String "+" r) => match sum k r with Some (e', r') => Some (Add e e', r') | None => None end
      | x => x
      end
  end
with prod (fuel : nat) (s : string) {struct fuel} : option (ex * string) :=
  match fuel with
  | O => None
  | S k =>
      match factor k s with
      | Some (e, String "*" r) => match prod k r with Some (e', r') => Some (Mul e e', r') | None => None end
      | Some (e, String "/" r) => match factor k r with Some (e', r') => Some (Div e e', r') | None => None end
      | Some (e, r) => if opens_factor r then match prod k r with Some (e', r') => Some (Mul e e', r') | None => None end else Some (e, r)
      | None => None
      end
  end
with factor (fuel : nat) (s : string) {struct fuel} : option (ex * string) :=
  match fuel with
  | O => None
  | S k =>
      match s with
      | String "-" r => match factor k r with Some (e, r') => Some (Neg e, r') | None => None end
      | _ =>
          match base k s with
          | Some (e, r) => match exponent r with Some (z, r') => Some (Pow e z, r') | None => Some (e, r) end
          | None => None
          end
      end
  end
with base (fuel : nat) (s : string) {struct fuel} : option (ex * string) :=
  match fuel with
  | O => None
  | S k =>
      let paren r := match sum k r with Some (e, String ")" r') => Some (e, r') | _ => None end in
      match head_of s with
      | Some (h, String "(" r) => match paren r with Some (e, r') => Some (apply_head h e, r') | None => None end
      | Some (h, String a r) => if is_var a then Some (apply_head h (X (vcol a)), r) else None
      | Some _ => None
      | None =>
          match s with
          | String "u" r => Some (subscripts r U)
          | String "(" r => match paren r with Some (e, r') => Some (subscripts r' e) | None => None end
          | String a r => if is_var a then Some (X (vcol a), r) else match digit_of a with Some z => Some (Num z, r) | None => None end
          | EmptyString => None
          end
      end
  end.
(** The expression a name stands for *)
Definition reading (w : string) : option ex := match sum 30 w with Some (e, EmptyString) => Some e | _ => None end.
End Reading.

(** ** Specification: values *)
(** Anything in which the expressions can be evaluated: a commutative ring with partial derivatives that are additive, obey the product
    rule and commute, some inverse, and some functions. *)
Record calculus := mkCalculus {
  carrier : Type;
  zero : carrier; one : carrier; plus : carrier -> carrier -> carrier; times : carrier -> carrier -> carrier; minus : carrier -> carrier -> carrier; opp : carrier -> carrier;
  is_ring : ring_theory zero one plus times minus opp eq;
  inv : carrier -> carrier;
  func : fn -> carrier -> carrier;
  der : nat -> carrier -> carrier;
  der_plus : forall i a b, der i (plus a b) = plus (der i a) (der i b);
  der_times : forall i a b, der i (times a b) = plus (times (der i a) b) (times a (der i b));
  der_comm : forall i j a, der i (der j a) = der j (der i a)
}.
Section Values.
Context (K : calculus) (u : carrier K) (x : nat -> carrier K).
Fixpoint npow (a : carrier K) (n : nat) : carrier K := match n with 0 => one K | 1 => a | S m => times K a (npow a m) end.
Fixpoint nnum (n : nat) : carrier K := match n with 0 => zero K | S m => plus K (one K) (nnum m) end.
Fixpoint val (e : ex) : carrier K :=
  match e with
  | U => u
  | X i => x i
  | Num z => if (z <? 0)%Z then opp K (nnum (Z.abs_nat z)) else nnum (Z.abs_nat z)
  | D i e => der K i (val e)
  | Pow e z => if (z <? 0)%Z then inv K (npow (val e) (Z.abs_nat z)) else npow (val e) (Z.abs_nat z)
  | Mul a b => times K (val a) (val b)
  | Add a b => plus K (val a) (val b)
  | Div a b => times K (val a) (inv K (val b))
  | Neg a => opp K (val a)
  | App f a => func K f (val a)
  end.
End Values.
(** [w] means what it says: with these variables the code's expression and the reading of the name have the same value, whatever the
    field and the coordinates. *)
Definition means_what_it_says (vars : list string) (w : string) : Prop :=
  exists e r, term_of vars w = Some e /\ reading vars w = Some r /\ forall K u x, val K u x e = val K u x r.


(** ** Lemmas *)
Section Eqs.
Context (K : calculus) (u : carrier K) (x : nat -> carrier K).
Add Ring KRing : (is_ring K).
Lemma inv_first a : times K (plus K (one K) (zero K)) (inv K a) = inv K a.
Proof. ring. Qed.
Lemma quotient_order a b : times K (times K (plus K (one K) (zero K)) (inv K b)) a = times K a (inv K b).
Proof. ring. Qed.
Lemma bilaplace i j a : plus K (plus K (der K i (der K i (der K i (der K i a)))) (der K j (der K j (der K j (der K j a))))) (times K (plus K (one K) (plus K (one K) (zero K))) (der K j (der K j (der K i (der K i a))))) =
  plus K (der K i (der K i (plus K (der K i (der K i a)) (der K j (der K j a))))) (der K j (der K j (plus K (der K i (der K i a)) (der K j (der K j a))))).
Proof.
  rewrite !der_plus. replace (der K i (der K i (der K j (der K j a)))) with (der K j (der K j (der K i (der K i a)))).
  - ring.
  - assert (Q : forall i j b, der K i (der K j b) = der K j (der K i b)) by (intros; apply der_comm).
    transitivity (der K j (der K i (der K j (der K i a)))); [f_equal; apply Q|]. transitivity (der K i (der K j (der K j (der K i a)))); [apply Q|].
    f_equal. transitivity (der K j (der K i (der K j a))); [f_equal; apply Q|]. apply Q.
Qed.
End Eqs.

(** the words whose values are not what their names say *)
Definition wrong_words : list string := ["sqrt(u)"; "uyyt"; "sint"; "(u(u^2)xx)xx"].
Local Opaque col has.

(** ** Theorems *)
(** Every word of the vocabulary has a branch. *)
Theorem C110_every_word_has_a_branch w : In w (skipn 6 vocab) <-> In w vocab /\ term_of ["t"; "x"; "y"; "z"] w <> None.
Proof.
  Local Transparent col has.
  assert (V : forallb (fun k => Bool.eqb (6 <=? k) (match term_of ["t"; "x"; "y"; "z"] (nth k vocab "") with Some _ => true | None => false end)) (seq 0 57) = true) by (vm_compute; reflexivity).
  rewrite forallb_forall in V. split.
  - intros I. apply In_nth_error in I as [k I]. assert (Q : nth_error vocab (6 + k) = Some w) by exact I.
    assert (B : 6 + k < 57) by (change 57 with (List.length vocab); apply nth_error_Some; congruence). split; [eapply nth_error_In; exact Q|]. specialize (V (6 + k)). rewrite (nth_error_nth _ _ "" Q) in V. 
    assert (Y : In (6 + k) (seq 0 57)) by (apply in_seq; lia). apply V in Y. destruct (term_of _ w); [discriminate|]. cbn in Y. discriminate.
  - intros [I N]. apply In_nth_error in I as [k Q]. assert (B : k < 57) by (change 57 with (List.length vocab); apply nth_error_Some; congruence). specialize (V k). rewrite (nth_error_nth _ _ "" Q) in V.
    assert (Y : In k (seq 0 57)) by (apply in_seq; lia). apply V in Y. destruct (term_of _ w); [|congruence]. apply Bool.eqb_prop in Y. apply Nat.leb_le in Y. apply (nth_error_In _ (k - 6)). 
    rewrite <- Q. replace k with (6 + (k - 6)) at 2 by lia. reflexivity.
  Local Opaque col has.
Qed.
(** For any variables: a word that can be evaluated has, at every point, the value of the expression its name says, except the four
    words above and BiLaplace in three dimensions. *)
Theorem C110_terms_mean_what_they_say vars w e : In w vocab -> ~ In w wrong_words -> (w = "BiLaplace(u)" -> has vars "z" = false) -> term_of vars w = Some e -> means_what_it_says vars w.
Proof.
  intros I N B T. assert (exists r, term_of vars w = Some e /\ reading vars w = Some r /\ forall K u x, val K u x e = val K u x r) as (r & R); [|exists e, r; exact R].
  unfold vocab in I. cbn [In] in I. repeat destruct I as [<-|I]; try contradiction;
  try (exfalso; apply N; vm_compute; tauto);
  unfold term_of in T |- *; cbn [find branches fst String.eqb Ascii.eqb Bool.eqb] in T |- *; try discriminate;
  (match type of T with (if ?b then _ else _) = _ => destruct b; [|discriminate] end); injection T as <-;
  (eexists; split; [reflexivity|]).
  all: try (split; [reflexivity|]; intros; reflexivity).
  - split; [reflexivity|]. intros K u x. cbn -[col]. rewrite inv_first. reflexivity.
  - refine (conj (eq_refl : reading vars "BiLaplace(u)" = Some (laplace vars (laplace vars U))) _). intros K u x. unfold laplace. rewrite (B eq_refl). apply bilaplace.
  - split; [reflexivity|]. intros K u x. cbn -[col]. rewrite quotient_order. reflexivity.
Qed.
(** The branches no vocabulary word reaches (a user of calculate_terms can) mean what they say too, except "(u^2)xx" (see PropsEqGptTermsBad). *)
Theorem C110_other_branches vars w e : In w ["(u^3)x"; "uyyyy"; "uxxyy"; "uzzzz"; "uyyzz"; "uxxzz"; "Div(u)"] -> term_of vars w = Some e -> means_what_it_says vars w.
Proof.
  intros I T. exists e. cbn [In] in I. repeat destruct I as [<-|I]; try contradiction;
  unfold term_of in T |- *; cbn [find branches fst String.eqb Ascii.eqb Bool.eqb] in T |- *; try discriminate;
  (match type of T with (if ?b then _ else _) = _ => destruct b; [|discriminate] end); injection T as <-;
  eexists; (split; [reflexivity|]); (split; [reflexivity|]); reflexivity.
Qed.
(** Together they are all the branches. *)
Theorem C110_branches_covered w : In w (map fst branches) <-> In w (skipn 6 vocab) \/ In w ["(u^3)x"; "uyyyy"; "uxxyy"; "uzzzz"; "uyyzz"; "uxxzz"; "Div(u)"; "(u^2)xx"].
Proof.
  assert (Q : forall l m : list string, forallb (fun a => existsb (String.eqb a) m) l = true -> In w l -> In w m).
  { intros l m H I. rewrite forallb_forall in H. apply H in I. apply existsb_exists in I as (x & I & E). apply String.eqb_eq in E. now subst. }
  rewrite <- in_app_iff. split; apply Q; vm_compute; reflexivity.
Qed.
Local Transparent col has.
Example C110_divergence : means_what_it_says ["t"; "x"; "y"; "z"] "Div(u)" /\ means_what_it_says ["t"; "x"; "y"] "Div(u)" /\ term_of ["t"; "x"] "Div(u)" = None.
Proof.
  split; [|split; [|reflexivity]]; (eapply C110_other_branches; [vm_compute; tauto|]); vm_compute; reflexivity.
Qed.

Print Assumptions C110_every_word_has_a_branch.
Print Assumptions C110_terms_mean_what_they_say.
Print Assumptions C110_other_branches.
Print Assumptions C110_branches_covered.
