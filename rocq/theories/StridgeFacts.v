(** Proofs about term splitting and coefficient fitting. *)
From Coq Require Import QArith Qabs.
From Verif Require Import Base Trees TreeFacts Library Execute ExecuteSpec ExecuteFacts Stridge.
Local Open Scope nat_scope.

(** ** rebuild_tree *)
Lemma rebuild_fuel_eq f op trav : rebuild_fuel (S f) (op :: trav) =
  do r <- (fix kids (n : nat) (tr : list token) : res (list node * list token) :=
                     match n with
                     | O => Ok ([], tr)
                     | S n' => do c <- rebuild_fuel f tr ;
                               do cs <- kids n' (snd c) ; Ok (fst c :: fst cs, snd cs)
                     end) (tarity op) trav ;
  Ok (Nd op (fst r), snd r).
Proof. reflexivity. Qed.

Lemma rebuild_fuel_ok : forall fuel (t : node) rest, respects tarity t -> List.length (preorder t) <= fuel ->
  rebuild_fuel fuel (preorder t ++ rest) = Ok (t, rest).
Proof.
  induction fuel as [|f IH]; intros [a cs] rest HR HL; [cbn in HL; lia|].
  cbn [preorder app]. rewrite rebuild_fuel_eq. inversion HR as [? ? Hn HF]; subst. rewrite <- Hn. clear Hn HR.
  cbn [preorder List.length] in HL.
  assert (forall cs rest, Forall (respects tarity) cs -> List.length (flat_map preorder cs) <= f ->
    (fix kids (n : nat) (tr : list token) : res (list node * list token) :=
       match n with
       | O => Ok ([], tr)
       | S n' => do c <- rebuild_fuel f tr ; do cs <- kids n' (snd c) ; Ok (fst c :: fst cs, snd cs)
       end) (List.length cs) (flat_map preorder cs ++ rest) = Ok (cs, rest)) as K.
  { clear - IH. induction cs as [|c cs IHc]; intros rest HF HL; [reflexivity|].
    inversion HF as [|? ? H1 H2]; subst. cbn [flat_map List.length] in *. rewrite app_length in HL.
    rewrite <- app_assoc. rewrite IH by (auto; lia). cbn [bind fst snd]. rewrite IHc by (auto; lia). reflexivity. }
  rewrite K by (auto; lia). reflexivity.
Qed.
Lemma rebuild_ok (t : node) rest : respects tarity t -> rebuild_tree (preorder t ++ rest) = Ok (t, rest).
Proof. intros H. unfold rebuild_tree. apply rebuild_fuel_ok; [exact H|]. rewrite app_length. lia. Qed.

Lemma rebuild_fuel_sound : forall fuel trav t rest, rebuild_fuel fuel trav = Ok (t, rest) ->
  respects tarity t /\ trav = preorder t ++ rest.
Proof.
  induction fuel as [|f IH]; intros trav t rest E; [discriminate|]. destruct trav as [|op trav]; [discriminate|].
  rewrite rebuild_fuel_eq in E.
  assert (forall n tr cs r, (fix kids (n : nat) (tr : list token) : res (list node * list token) :=
       match n with
       | O => Ok ([], tr)
       | S n' => do c <- rebuild_fuel f tr ; do cs <- kids n' (snd c) ; Ok (fst c :: fst cs, snd cs)
       end) n tr = Ok (cs, r) -> List.length cs = n /\ Forall (respects tarity) cs /\ tr = flat_map preorder cs ++ r) as K.
  { clear - IH. induction n as [|n IHn]; intros tr cs r E.
    - injection E as <- <-. repeat split; constructor.
    - destruct (rebuild_fuel f tr) as [[c tr1]|] eqn:E1; [|discriminate]. cbn [bind fst snd] in E.
      match type of E with bind ?x _ = _ => destruct x as [[cs' r']|] eqn:E2; [|discriminate] end.
      cbn [bind fst snd] in E. injection E as <- <-. destruct (IHn _ _ _ E2) as (A1 & A2 & A3). destruct (IH _ _ _ E1) as [B1 B2].
      cbn [List.length flat_map]. split; [congruence|]. split; [constructor; assumption|]. rewrite <- app_assoc, <- A3. exact B2. }
  match type of E with bind ?x _ = _ => destruct x as [[cs r]|] eqn:E1; [|discriminate] end.
  cbn [bind fst snd] in E. injection E as <- <-. destruct (K _ _ _ _ E1) as (A1 & A2 & A3).
  split; [constructor; assumption|]. cbn [preorder app]. f_equal. exact A3.
Qed.

(** ** preorder_traverse *)
Lemma tsize_preorder {A} (t : tree A) : List.length (preorder t) = tsize t.
Proof.
  induction t as [a cs IH] using tree_ind'. cbn [preorder tsize List.length]. f_equal.
  induction IH as [|c cs Hc _ IH2]; [reflexivity|]. cbn [flat_map map list_sum fold_right]. rewrite app_length, Hc, IH2. reflexivity.
Qed.
Inductive small_arity : node -> Prop :=
| small_arity_Nd a cs : List.length cs <= 2 -> Forall small_arity cs -> small_arity (Nd a cs).
Lemma traverse_fuel_ok : forall fuel nodes, Forall small_arity nodes -> list_sum (map tsize nodes) <= fuel ->
  traverse_fuel fuel nodes = Ok (flat_map preorder nodes).
Proof.
  unfold list_sum. induction fuel as [|f IH]; intros nodes HF HL.
  - destruct nodes as [|[a cs] nodes]; [reflexivity|]. cbn in HL. lia.
  - destruct nodes as [|[a cs] nodes]; [reflexivity|]. inversion HF as [|? ? H1 H2]; subst. inversion H1 as [? ? H3 H4]; subst.
    cbn [traverse_fuel map fold_right tsize] in *. unfold list_sum in HL.
    destruct cs as [|c0 [|c1 [|c2 cs]]]; cbn [List.length] in H3; try lia; cbn [map fold_right] in HL.
    + rewrite IH by (auto; lia). reflexivity.
    + inversion H4; subst. rewrite IH; [|constructor; assumption|cbn [map fold_right]; lia].
      cbn [bind flat_map preorder app]. rewrite app_nil_r. reflexivity.
    + inversion H4 as [|? ? K1 K2]; subst. inversion K2; subst. rewrite IH; [|constructor; [|constructor]; assumption|cbn [map fold_right]; lia].
      cbn [bind flat_map preorder app]. rewrite app_nil_r, app_assoc. reflexivity.
Qed.
Lemma preorder_traverse_ok t : small_arity t -> preorder_traverse t = Ok (preorder t).
Proof.
  intros H. unfold preorder_traverse. rewrite traverse_fuel_ok; [cbn; rewrite app_nil_r; reflexivity|auto|cbn; lia].
Qed.
Lemma respects_small t : respects tarity t -> Forall (fun k => tarity k <= 2) (preorder t) -> small_arity t.
Proof.
  induction t as [a cs IH] using tree_ind'. intros HR HF. inversion HR as [? ? Hn HC]; subst. inversion HF as [|? ? H1 H2]; subst.
  constructor; [exact (eq_ind_r (fun n => n <= 2) H1 Hn)|]. clear - IH HC H2. induction IH as [|c cs Hc _ IH2]; [constructor|].
  cbn [flat_map] in H2. apply Forall_app in H2 as [H2 H3]. inversion HC; subst. constructor; auto.
Qed.

(** ** split_sum *)
(** the summation operators of an expression have two arguments *)
(** an operator, not a variable *)
Definition plain (k : token) : Prop := tinput k = None /\ tparam k = None /\ tstate k = None.
Inductive sum_ok : node -> Prop :=
| sum_ok_Nd a cs : (is_sum (tname a) = true -> List.length cs = 2 /\ plain a) -> Forall sum_ok cs -> sum_ok (Nd a cs).
Fixpoint splits (sym : Z) (t : node) : list (Z * node) :=
  match t with
  | Nd a cs =>
      match cs with
      | [c0; c1] =>
        if is_sum (tname a) then
          splits (if is_sub (tname a) && negb (Z.eqb sym 1) then (-1)%Z else 1%Z) c0 ++
          splits (if is_sub (tname a) then (-1)%Z else 1%Z) c1
        else [(sym, t)]
      | _ => [(sym, t)]
      end
  end.
Lemma split_sum_ok : forall t sym, sum_ok t -> exists n, split_sum sym t = Ok n /\ expand n = splits sym t.
Proof.
  induction t as [a cs IH] using tree_ind'. intros sym HS. inversion HS as [? ? H1 H2]; subst.
  destruct (is_sum (tname a)) eqn:Ea.
  - destruct (H1 eq_refl) as [H1' HP]. clear H1. rename H1' into H1. destruct cs as [|c0 [|c1 [|? ?]]]; try discriminate.
    inversion IH as [|? ? I1 IH']; subst. inversion IH' as [|? ? I2 _]; subst.
    inversion H2 as [|? ? S1 H2']; subst. inversion H2' as [|? ? S2 _]; subst.
    destruct (I1 (if is_sub (tname a) && negb (Z.eqb sym 1) then (-1)%Z else 1%Z) S1) as (n0 & E0 & X0).
    destruct (I2 (if is_sub (tname a) then (-1)%Z else 1%Z) S2) as (n1 & E1 & X1).
    exists (NList [n0; n1]). cbn [split_sum splits]. rewrite Ea, E0. cbn [bind]. rewrite E1. cbn [bind expand flat_map].
    rewrite app_nil_r, X0, X1. auto.
  - exists (NList [NLeaf sym (Nd a cs)]). cbn [split_sum splits]. rewrite Ea. split; [reflexivity|].
    destruct cs as [|c0 [|c1 [|? ?]]]; reflexivity.
Qed.

Lemma splits_atom s b cs : is_sum (tname b) = false -> splits s (Nd b cs) = [(s, Nd b cs)].
Proof. intros H. cbn [splits]. destruct cs as [|c0 [|c1 [|? ?]]]; try reflexivity. rewrite H. reflexivity. Qed.
Lemma splits_nodes : forall t s1 s2, map snd (splits s1 t) = map snd (splits s2 t).
Proof.
  induction t as [a cs IH] using tree_ind'. intros s1 s2. cbn [splits].
  destruct cs as [|c0 [|c1 [|? ?]]]; try reflexivity. destruct (is_sum (tname a)); [|reflexivity].
  inversion IH as [|? ? I1 IH']; subst. inversion IH' as [|? ? I2 _]; subst. rewrite !map_app. f_equal; apply I1.
Qed.
Lemma splits_forall (P : node -> Prop) : (forall a cs, P (Nd a cs) -> Forall P cs) -> forall t s, P t -> Forall P (map snd (splits s t)).
Proof.
  intros Hsub. induction t as [a cs IH] using tree_ind'. intros s HP. cbn [splits].
  pose proof (Hsub _ _ HP) as HC.
  assert (Forall P (map snd [(s, Nd a cs)])) as HA by (cbn [map snd]; constructor; [exact HP|constructor]).
  destruct cs as [|c0 [|c1 [|? ?]]]; try exact HA. destruct (is_sum (tname a)); [|exact HA].
  inversion IH as [|? ? I1 IH']; subst. inversion IH' as [|? ? I2 _]; subst. inversion HC as [|? ? P1 HC']; subst. inversion HC' as [|? ? P2 _]; subst.
  rewrite map_app. apply Forall_app. split; [apply I1|apply I2]; assumption.
Qed.
(** The tokens of the terms are those of the expression minus the summation operators. *)
Lemma splits_root : forall t s x, sum_ok t -> In x (map snd (splits s t)) -> is_sum (tname (match x with Nd a _ => a end)) = false.
Proof.
  induction t as [a cs IH] using tree_ind'. intros s x HS. inversion HS as [? ? H1 H2]; subst. cbn [splits].
  destruct (is_sum (tname a)) eqn:Ea.
  - destruct (H1 eq_refl) as [H1' HP]. clear H1. rename H1' into H1. destruct cs as [|c0 [|c1 [|? ?]]]; try discriminate.
    inversion IH as [|? ? I1 IH']; subst. inversion IH' as [|? ? I2 _]; subst.
    inversion H2 as [|? ? S1 H2']; subst. inversion H2' as [|? ? S2 _]; subst.
    rewrite map_app, in_app_iff. intros [H|H]; eauto.
  - destruct cs as [|c0 [|c1 [|? ?]]]; cbn; intros [<-|[]]; exact Ea.
Qed.

(** ** values *)
Section Values.
Context {V : Type}.
Variables (u x : list V) (param : token -> V) (call : token -> list V -> extra -> option V).
Variables (zero : V) (vadd : V -> V -> V) (vneg : V -> V).
Definition abelian : Prop :=
  (forall a b c, vadd a (vadd b c) = vadd (vadd a b) c) /\ (forall a b, vadd a b = vadd b a) /\
  (forall a, vadd zero a = a) /\ (forall a, vadd (vneg a) a = zero).
Hypothesis AB : abelian.
(** The four operators are applied as addition and subtraction. *)
Definition sums_called : Prop := forall tok a b, is_sum (tname tok) = true -> 
  call tok [a; b] NoExtra = Some (if is_sub (tname tok) then vadd a (vneg b) else vadd a b).
Hypothesis SC : sums_called.
Notation sem := (sem u x param call).
Definition sgn (s : Z) (v : V) : V := if Z.eqb s 1 then v else vneg v.
Fixpoint ssum (l : list (Z * V)) : V := match l with [] => zero | (s, v) :: l' => vadd (sgn s v) (ssum l') end.

Lemma vadd_0_r a : vadd a zero = a.
Proof. destruct AB as (_ & C & Z0 & _). rewrite C. apply Z0. Qed.
Lemma vneg_add a b : vneg (vadd a b) = vadd (vneg a) (vneg b).
Proof.
  destruct AB as (A & C & Z0 & N).
  assert (forall p q, vadd p q = zero -> p = vneg q) as U.
  { intros p q E. rewrite <- (vadd_0_r p), <- (N q), (C (vneg q) q), A, E, Z0. reflexivity. }
  symmetry. apply U. rewrite <- A, (A (vneg b) a b), (C (vneg b) a), <- (A a), N, vadd_0_r. apply N.
Qed.
Lemma vneg_zero : vneg zero = zero.
Proof. destruct AB as (A & C & Z0 & N). rewrite <- (N zero) at 2. rewrite vadd_0_r. reflexivity. Qed.
Lemma vneg_neg a : vneg (vneg a) = a.
Proof.
  destruct AB as (A & C & Z0 & N).
  rewrite <- (vadd_0_r (vneg (vneg a))), <- (N a), A, N, Z0. reflexivity.
Qed.
Lemma ssum_app l1 l2 : ssum (l1 ++ l2) = vadd (ssum l1) (ssum l2).
Proof. destruct AB as (A & C & Z0 & N). induction l1 as [|[s v] l1 IH]; cbn [app ssum]; [symmetry; apply Z0|]. rewrite IH. apply A. Qed.
Definition flip (l : list (Z * V)) := map (fun p => ((if Z.eqb (fst p) 1 then -1 else 1)%Z, snd p)) l.
Lemma ssum_flip l : Forall (fun p => fst p = 1%Z \/ fst p = (-1)%Z) l -> ssum (flip l) = vneg (ssum l).
Proof.
  induction 1 as [|[s v] l H _ IH]; cbn [flip map ssum]; [symmetry; apply vneg_zero|]. fold (flip l). rewrite IH, vneg_add. f_equal.
  cbn [fst snd] in *. destruct H as [->| ->]; unfold sgn; cbn [Z.eqb]; cbn; [reflexivity|]. symmetry. apply vneg_neg.
Qed.

Lemma is_sum_names n : is_sum n = true -> has_diff n = false /\ is_lap n = false.
Proof.
  intros H. unfold is_sum in H. apply existsb_exists in H as (y & Hy & E). apply String.eqb_eq in E. subst.
  simpl in Hy. destruct Hy as [<-|[<-|[<-|[<-|[]]]]]; split; reflexivity.
Qed.
Lemma sem_sum a c0 c1 v : is_sum (tname a) = true -> plain a -> sem (Nd a [c0; c1]) = OVal v ->
  exists v0 v1, sem c0 = OVal v0 /\ sem c1 = OVal v1 /\ v = if is_sub (tname a) then vadd v0 (vneg v1) else vadd v0 v1.
Proof.
  intros Ha (A1 & A2 & A3) E. cbn [ExecuteSpec.sem seqv] in E. destruct (sem c0) as [v0| |] eqn:E0; try discriminate.
  destruct (sem c1) as [v1| |] eqn:E1; try discriminate.
  pose proof (SC a v0 v1 Ha) as A4. rewrite A1, A2, A3 in E.
  destruct (is_sum_names _ Ha) as [D1 D2]. rewrite D1, D2, A4 in E. injection E as <-. eauto.
Qed.

(** The expression is a signed sum of its terms. *)
Lemma splits_span : forall t v, sum_ok t -> sem t = OVal v ->
  exists l : list (Z * V), Forall2 (fun tm p => sem tm = OVal (snd p)) (map snd (splits 1 t)) l /\
    Forall (fun p => fst p = 1%Z \/ fst p = (-1)%Z) l /\ v = ssum l.
Proof.
  induction t as [a cs IH] using tree_ind'. intros v HS E. inversion HS as [? ? H1 H2]; subst.
  destruct (is_sum (tname a)) eqn:Ea.
  - destruct (H1 eq_refl) as [H1' HP]. clear H1. rename H1' into H1. destruct cs as [|c0 [|c1 [|? ?]]]; try discriminate.
    inversion IH as [|? ? I1 IH']; subst. inversion IH' as [|? ? I2 _]; subst.
    inversion H2 as [|? ? S1 H2']; subst. inversion H2' as [|? ? S2 _]; subst.
    destruct (sem_sum a c0 c1 v Ea HP E) as (v0 & v1 & E0 & E1 & ->).
    destruct (I1 v0 S1 E0) as (l0 & A1 & A2 & ->). destruct (I2 v1 S2 E1) as (l1 & B1 & B2 & ->).
    cbn [splits]. rewrite Ea, map_app.
    rewrite (splits_nodes c0 _ 1%Z), (splits_nodes c1 _ 1%Z).
    destruct (is_sub (tname a)).
    + exists (l0 ++ flip l1). split; [|split].
      * apply Forall2_app; [exact A1|]. clear - B1. induction B1 as [|m p ms ps H _ IH]; [constructor|]. cbn [flip map]. constructor; [exact H|exact IH].
      * apply Forall_app. split; [exact A2|]. clear - B2. induction B2 as [|p ps H _ IH]; [constructor|]. cbn [flip map]. constructor; [|exact IH].
        cbn [fst]. destruct (Z.eqb (fst p) 1); auto.
      * rewrite ssum_app, ssum_flip by exact B2. reflexivity.
    + exists (l0 ++ l1). split; [apply Forall2_app; assumption|]. split; [apply Forall_app; auto|]. rewrite ssum_app. reflexivity.
  - exists [(1%Z, v)]. rewrite splits_atom by exact Ea. cbn [map snd].
    split; [repeat constructor; exact E|]. split; [repeat constructor; auto|]. cbn [ssum]. unfold sgn. cbn. rewrite vadd_0_r. reflexivity.
Qed.

(** The recorded symbols are the right signs when the right argument of a
    subtraction is never itself a sum or difference. *)
Inductive right_atomic : node -> Prop :=
| ra_atom a cs : is_sum (tname a) = false -> right_atomic (Nd a cs)
| ra_add a c0 c1 : is_sum (tname a) = true -> plain a -> is_sub (tname a) = false -> right_atomic c0 -> right_atomic c1 -> right_atomic (Nd a [c0; c1])
| ra_sub a c0 b cs : is_sum (tname a) = true -> plain a -> is_sub (tname a) = true -> right_atomic c0 -> is_sum (tname b) = false -> right_atomic (Nd a [c0; Nd b cs]).
Lemma splits_symbols t : right_atomic t -> forall v, sem t = OVal v ->
  exists vs, Forall2 (fun tm w => sem (snd tm) = OVal w) (splits 1 t) vs /\ v = ssum (combine (map fst (splits 1 t)) vs).
Proof.
  induction 1 as [a cs Ha|a c0 c1 Ha HP Hs H0 IH0 H1 IH1|a c0 b cs Ha HP Hs H0 IH0 Hb]; intros v E.
  - rewrite splits_atom by exact Ha. exists [v]. split; [repeat constructor; exact E|]. cbn. unfold sgn. cbn. rewrite vadd_0_r. reflexivity.
  - destruct (sem_sum a c0 c1 v Ha HP E) as (v0 & v1 & E0 & E1 & ->). rewrite Hs.
    destruct (IH0 v0 E0) as (w0 & A1 & ->). destruct (IH1 v1 E1) as (w1 & B1 & ->).
    cbn [splits]. rewrite Ha, Hs. cbn [andb]. exists (w0 ++ w1). split; [apply Forall2_app; assumption|].
    rewrite map_app. rewrite <- ssum_app. f_equal. clear - A1. revert A1. generalize (splits 1 c0). intros l A1.
    induction A1; [reflexivity|]. cbn [map combine app]. f_equal. assumption.
  - destruct (sem_sum a c0 (Nd b cs) v Ha HP E) as (v0 & v1 & E0 & E1 & ->). rewrite Hs.
    destruct (IH0 v0 E0) as (w0 & A1 & ->).
    assert (splits 1 (Nd a [c0; Nd b cs]) = splits 1 c0 ++ [((-1)%Z, Nd b cs)]) as X.
    { rewrite <- (splits_atom (-1)%Z b cs Hb). cbn [splits]. rewrite Ha, Hs. reflexivity. }
    rewrite X. exists (w0 ++ [v1]). split; [apply Forall2_app; [exact A1|repeat constructor; exact E1]|].
    rewrite map_app. 
    assert (combine (map fst (splits 1 c0) ++ map fst [((-1)%Z, Nd b cs)]) (w0 ++ [v1]) = combine (map fst (splits 1 c0)) w0 ++ [((-1)%Z, v1)]) as C.
    { clear - A1. revert A1. generalize (splits 1 c0). intros l A1. induction A1; [reflexivity|]. cbn [map combine app]. f_equal. assumption. }
    rewrite C, ssum_app. cbn [ssum]. unfold sgn. cbn. rewrite vadd_0_r. reflexivity.
Qed.
End Values.
