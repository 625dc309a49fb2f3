(** The infix notation of SGA terms is unambiguous (used by the duplicate test of the
    solver, solver.py:199, 208, 251). *)
From Coq Require Import Ascii.
From Verif Require Import Base Trees SgaTree SgaSpec.

(** PDE.visualize (pde.py:82-88): the terms joined by '+'. *)
Fixpoint visualize (l : list string) : string :=
  match l with [] => ""%string | [s] => s | s :: l' => (s ++ "+" ++ visualize l')%string end.

(** Characters that end a name. *)
Definition delim (a : ascii) : bool := existsb (Ascii.eqb a) [" "; ")"; "+"; "("]%char.
Fixpoint plain (s : string) : bool := match s with EmptyString => true | String a s' => negb (delim a) && plain s' end.
(** Variable names: not empty, no blank, parenthesis or plus sign (naming.py:28-39 only allows
    letters, digits and underscores; the constant is "0"). *)
Definition name_ok (s : string) : bool := match s with EmptyString => false | _ => plain s end.
Definition no_blank_in (s : string) : bool := (fix go s := match s with EmptyString => true | String a s' => negb (Ascii.eqb a " "%char) && go s' end) s.
Definition ends (s : string) : Prop := match s with EmptyString => True | String a _ => delim a = true /\ a <> "("%char end.

Local Arguments delim : simpl never.
Lemma plain_split : forall n1 n2 s1 s2, plain n1 = true -> plain n2 = true -> ends s1 -> ends s2 ->
  (n1 ++ s1 = n2 ++ s2)%string -> n1 = n2 /\ s1 = s2.
Proof.
  induction n1 as [|a n1 IH]; intros [|b n2] s1 s2 P1 P2 E1 E2 E; cbn in *; auto.
  - subst s1. destruct E1 as [E1 _]. apply andb_prop in P2 as [P2 _]. rewrite E1 in P2. discriminate.
  - subst s2. destruct E2 as [E2 _]. apply andb_prop in P1 as [P1 _]. rewrite E2 in P1. discriminate.
  - injection E as -> E. apply andb_prop in P1 as [_ P1], P2 as [_ P2]. destruct (IH _ _ _ P1 P2 E1 E2 E). now subst.
Qed.
Lemma blank_split : forall n1 n2 s1 s2, no_blank_in n1 = true -> no_blank_in n2 = true ->
  (n1 ++ " " ++ s1 = n2 ++ " " ++ s2)%string -> n1 = n2 /\ s1 = s2.
Proof.
  induction n1 as [|a n1 IH]; intros [|b n2] s1 s2 P1 P2 E; cbn in *.
  - injection E as ->. auto.
  - injection E as <- _. discriminate.
  - injection E as -> _. discriminate.
  - injection E as -> E. apply andb_prop in P1 as [_ P1], P2 as [_ P2]. destruct (IH _ _ _ P1 P2 E). now subst.
Qed.
Lemma ops_no_blank e : In e OPS -> no_blank_in (ename e) = true.
Proof. cbn. intuition (subst; reflexivity). Qed.
Lemma ops_name_inj e e' : In e OPS -> In e' OPS -> ename e = ename e' -> e = e'.
Proof. cbn. intuition (subst; cbn in *; try reflexivity; discriminate). Qed.

Lemma name_plain n : name_ok n = true -> plain n = true.
Proof. destruct n; [discriminate|auto]. Qed.

Lemma ends_p s : ends (String ")" s).
Proof. split; [reflexivity|discriminate]. Qed.
Lemma ends_b s : ends (String " " s).
Proof. split; [reflexivity|discriminate]. Qed.

Section Inj.
Variable c : sctx.
Hypothesis Hc : ctx_ok c.
(** distinct, well-formed variable names *)
Hypothesis Hnames : forall e, In e (c_vars c) -> name_ok (ename e) = true.
Hypothesis Hdist : forall e e', In e (c_vars c) -> In e' (c_vars c) -> ename e = ename e' -> e = e'.

Lemma sapp (a b d : string) : ((a ++ b) ++ d = a ++ (b ++ d))%string.
Proof. induction a; cbn; congruence. Qed.
Lemma term_cases t : term_ok c t ->
  (exists e, t = Nd e [] /\ In e (c_vars c)) \/
  (exists e a, t = Nd e [a] /\ In e OPS /\ term_ok c a) \/
  (exists e a b, t = Nd e [a; b] /\ In e OPS /\ term_ok c a /\ term_ok c b).
Proof.
  intros H. inversion H as [e cs (F1 & F2 & F3 & _) HF]; subst. rewrite map_length in F1.
  destruct cs as [|a cs]; [left; eauto|]. specialize (F3 ltac:(discriminate)).
  assert (ear e = 1 \/ ear e = 2) as Ha by (cbn in F3; intuition (subst; cbn; auto)).
  inversion HF; subst. destruct cs as [|b cs]; [right; left; eauto 6|]. inversion H3; subst.
  destruct cs; [right; right; exists e, a, b; auto|]. cbn in F1. lia.
Qed.
(** first character of a rendered term *)
Definition opens (s : string) : Prop := match s with EmptyString => False | String a _ => a = "("%char \/ delim a = false end.
Lemma infix_opens t : term_ok c t -> forall s, opens (infix t ++ s).
Proof.
  intros H s. destruct (term_cases t H) as [(e & -> & I)|[(e & a & -> & I & _)|(e & a & b & -> & I & _)]]; cbn; auto.
  specialize (Hnames e I). destruct (ename e) as [|ch n]; [discriminate|]. cbn in *. right. apply andb_prop in Hnames as [X _].
  now destruct (delim ch).
Qed.
Lemma infix_inj : forall t, term_ok c t -> forall t' s s', term_ok c t' -> ends s -> ends s' ->
  (infix t ++ s = infix t' ++ s')%string -> t = t' /\ s = s'.
Proof.
  induction t as [e cs IH] using tree_ind'. intros H t' s s' H' Es Es' E.
  destruct (term_cases _ H) as [(e1 & X & I)|[(e1 & a & X & I & Ha)|(e1 & a & b & X & I & Ha & Hb)]]; injection X as -> ->;
  destruct (term_cases _ H') as [(e2 & -> & I')|[(e2 & a' & -> & I' & Ha')|(e2 & a' & b' & -> & I' & Ha' & Hb')]].
  - cbn [infix] in E. destruct (plain_split _ _ s s' (name_plain _ (Hnames _ I)) (name_plain _ (Hnames _ I')) Es Es' E) as [A B].
    now rewrite (Hdist _ _ I I' A).
  - exfalso. cbn in E. specialize (Hnames _ I). destruct (ename e1) as [|ch n]; [discriminate|]. cbn in *. injection E as -> _. discriminate.
  - exfalso. cbn in E. specialize (Hnames _ I). destruct (ename e1) as [|ch n]; [discriminate|]. cbn in *. injection E as -> _. discriminate.
  - exfalso. cbn in E. specialize (Hnames _ I'). destruct (ename e2) as [|ch n]; [discriminate|]. cbn in *. injection E as <- _. discriminate.
  - inversion IH as [|? ? IHa _]; subst. cbn [infix] in E. rewrite !sapp in E. cbn in E. injection E as E.
    change (ename e1 ++ " " ++ (infix a ++ ")" ++ s) = ename e2 ++ " " ++ (infix a' ++ ")" ++ s'))%string in E.
    apply blank_split in E as [A E]; try now apply ops_no_blank. destruct (IHa Ha a' _ _ Ha' (ends_p _) (ends_p _) E) as [-> B].
    cbn in B. injection B as ->. now rewrite (ops_name_inj _ _ I I' A).
  - exfalso. cbn [infix] in E. rewrite !sapp in E. cbn in E. injection E as E. rewrite ?sapp in E.
    match type of E with _ = (infix a' ++ ?r)%string => pose proof (infix_opens a' Ha' r) as O end.
    rewrite <- E in O. cbn in O. destruct O; discriminate.
  - exfalso. cbn in E. specialize (Hnames _ I'). destruct (ename e2) as [|ch n]; [discriminate|]. cbn in *. injection E as <- _. discriminate.
  - exfalso. cbn [infix] in E. rewrite !sapp in E. cbn in E. injection E as E. rewrite ?sapp in E.
    match type of E with (infix a ++ ?r)%string = _ => pose proof (infix_opens a Ha r) as O end.
    rewrite E in O. cbn in O. destruct O; discriminate.
  - inversion IH as [|? ? IHa IH']; subst. inversion IH' as [|? ? IHb _]; subst. cbn [infix] in E. rewrite !sapp in E. cbn in E. injection E as E.
    rewrite ?sapp in E.
    destruct (IHa Ha a' _ _ Ha' (ends_b _) (ends_b _) E) as [-> B].
    cbn in B. injection B as B. rewrite ?sapp in B.
    change (ename e1 ++ " " ++ (infix b ++ ")" ++ s) = ename e2 ++ " " ++ (infix b' ++ ")" ++ s'))%string in B.
    apply blank_split in B as [A B]; try now apply ops_no_blank.
    destruct (IHb Hb b' _ _ Hb' (ends_p _) (ends_p _) B) as [-> D].
    cbn in D. injection D as ->. now rewrite (ops_name_inj _ _ I I' A).
Qed.
Lemma visualize_inj : forall ts ts', Forall (term_ok c) ts -> Forall (term_ok c) ts' ->
  visualize (map infix ts) = visualize (map infix ts') -> ts = ts'.
Proof.
  assert (forall t, term_ok c t -> forall s, (infix t ++ s)%string <> ""%string) as Hne.
  { intros t Ht s E. pose proof (infix_opens t Ht s) as O. rewrite E in O. exact O. }
  assert (forall s : string, (s ++ "")%string = s) as Hnil by (induction s; cbn; congruence).
  induction ts as [|t ts IH]; intros [|t' ts'] H H' E.
  - reflexivity.
  - exfalso. inversion H'; subst. cbn in E. destruct (map infix ts'); cbn in E; symmetry in E; [rewrite <- (Hnil (infix t')) in E|]; eapply Hne; eauto.
  - exfalso. inversion H; subst. cbn in E. destruct (map infix ts); cbn in E; [rewrite <- (Hnil (infix t)) in E|]; eapply Hne; eauto.
  - inversion H as [|? ? Ht Hts]; subst. inversion H' as [|? ? Ht' Hts']; subst.
    assert (forall t l, exists s, visualize (infix t :: l) = (infix t ++ s)%string /\ ends s /\
       ((l = [] /\ s = ""%string) \/ (l <> [] /\ s = ("+" ++ visualize l)%string))) as V.
    { intros u [|x l]; [exists ""%string|exists ("+" ++ visualize (x :: l))%string]; cbn [visualize ends String.append].
      - rewrite Hnil. repeat split; auto.
      - repeat split; auto; try discriminate. right. split; [discriminate|reflexivity]. }
    cbn [map] in E. destruct (V t (map infix ts)) as (s & A & B & C). destruct (V t' (map infix ts')) as (s' & A' & B' & C').
    rewrite A, A' in E. destruct (infix_inj t Ht t' s s' Ht' B B' E) as [-> ->]. f_equal.
    destruct C as [[C1 C2]|[C1 C2]], C' as [[D1 D2]|[D1 D2]].
    + apply map_eq_nil in C1, D1. congruence.
    + rewrite C2 in D2. discriminate D2.
    + rewrite D2 in C2. discriminate C2.
    + rewrite D2 in C2. cbn in C2. injection C2 as C2. symmetry in C2. apply IH; auto.
Qed.
End Inj.
