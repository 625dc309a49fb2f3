(** Specification: positions in an expression tree.  The context of a node is the
    list of its ancestors, innermost first, each with the subtrees to the left of
    the path (the already finished arguments of that ancestor). *)
From Verif Require Import Base Trees TreeFacts.

Section Pos.
Context {A : Type}.
Definition ctx : Type := list (A * list (tree A)).

Definition root (t : tree A) : A := match t with Nd a _ => a end.

(** Preorder listing of the nodes with their contexts. *)
Fixpoint nodes (c : ctx) (t : tree A) : list (A * ctx) :=
  match t with
  | Nd a cs =>
      (a, c) :: (fix go (left : list (tree A)) (cs : list (tree A)) : list (A * ctx) :=
                   match cs with
                   | [] => []
                   | t' :: cs' => nodes ((a, left) :: c) t' ++ go (left ++ [t']) cs'
                   end) [] cs
  end.
Definition nodes_f (a : A) (c : ctx) : list (tree A) -> list (tree A) -> list (A * ctx) :=
  fix go (left : list (tree A)) (cs : list (tree A)) : list (A * ctx) :=
    match cs with
    | [] => []
    | t' :: cs' => nodes ((a, left) :: c) t' ++ go (left ++ [t']) cs'
    end.

(** Parent label of a position; label of its left neighbour. *)
Definition parent_of (c : ctx) : option A := match c with [] => None | (a, _) :: _ => Some a end.
Definition left_sibling (c : ctx) : option A :=
  match c with
  | [] => None
  | (_, ls) :: _ => match rev ls with [] => None | t :: _ => Some (root t) end
  end.
(** The labels of all ancestors. *)
Definition ancestors_of (c : ctx) : list A := map fst c.
(** The ancestors inside whose first argument the position lies. *)
Definition first_arg_ancestors (c : ctx) : list A :=
  map fst (filter (fun x => match snd x with [] => true | _ => false end) c).

(** Tokens written before the position, in preorder. *)
Fixpoint before (c : ctx) : list A :=
  match c with
  | [] => []
  | (a, ls) :: c' => before c' ++ a :: flat_map preorder ls
  end.

(** Well formed contexts: left arguments are proper expressions, and there is
    room for one more argument. *)
Definition ctx_ok (ar : A -> nat) (c : ctx) : Prop :=
  Forall (fun x => List.length (snd x) < ar (fst x) /\ Forall (respects ar) (snd x)) c.

Lemma nodes_cons c a cs : nodes c (Nd a cs) = (a, c) :: nodes_f a c [] cs.
Proof. reflexivity. Qed.

Lemma nodes_labels t : forall c, map fst (nodes c t) = preorder t.
Proof.
  induction t as [a cs IH] using tree_ind'. intros c. rewrite nodes_cons. cbn [map fst preorder]. f_equal.
  generalize (@nil (tree A)) as left. induction IH as [|t cs Ht HF IHc]; intros left; cbn [nodes_f flat_map]; [reflexivity|].
  rewrite map_app, Ht. f_equal. apply IHc.
Qed.

Lemma nodes_before ar t : respects ar t -> forall c, ctx_ok ar c -> forall n a c',
  nth_error (nodes c t) n = Some (a, c') ->
  before c ++ firstn n (preorder t) = before c' /\ ctx_ok ar c'.
Proof.
  induction t as [a cs IH] using tree_ind'. intros Hr c Hc n b c' Hn.
  inversion Hr as [? ? Hl HF]; subst. rewrite nodes_cons in Hn.
  destruct n as [|n]; cbn [nth_error] in Hn.
  { injection Hn as <- <-. cbn [firstn]. rewrite app_nil_r. auto. }
  cbn [preorder firstn].
  (* strengthen over the left part *)
  assert (G : forall cs2 left, Forall (respects ar) left -> List.length left + List.length cs2 <= ar a ->
      Forall (fun t => respects ar t -> forall c, ctx_ok ar c -> forall n b c',
         nth_error (nodes c t) n = Some (b, c') ->
         before c ++ firstn n (preorder t) = before c' /\ ctx_ok ar c') cs2 ->
      Forall (respects ar) cs2 ->
      forall n, nth_error (nodes_f a c left cs2) n = Some (b, c') ->
      before c ++ a :: flat_map preorder left ++ firstn n (flat_map preorder cs2) = before c' /\ ctx_ok ar c').
  { clear -Hc. induction cs2 as [|t cs2 IHc]; intros left Hleft Hlen HI HF n Hn.
    - destruct n; discriminate.
    - cbn [nodes_f] in Hn. inversion HI as [|? ? I1 I2]; subst. inversion HF as [|? ? F1 F2]; subst.
      cbn [List.length] in Hlen.
      assert (ctx_ok ar ((a, left) :: c)) as Hc2.
      { constructor; [|exact Hc]. cbn [fst snd]. split; [lia|exact Hleft]. }
      assert (List.length (nodes ((a, left) :: c) t) = List.length (preorder t)) as Hlt.
      { rewrite <- (nodes_labels t ((a, left) :: c)), map_length. reflexivity. }
      destruct (Nat.lt_ge_cases n (List.length (preorder t))) as [Hlt2|Hge].
      + rewrite nth_error_app1 in Hn by lia.
        destruct (I1 F1 _ Hc2 n b c' Hn) as [B1 B2]. split; [|exact B2].
        rewrite <- B1. cbn [before flat_map]. rewrite <- app_assoc. cbn [List.app]. f_equal. f_equal.
        f_equal. rewrite firstn_app. replace (n - List.length (preorder t)) with 0 by lia.
        cbn [firstn]. apply app_nil_r.
      + rewrite nth_error_app2 in Hn by lia. rewrite Hlt in Hn.
        specialize (IHc (left ++ [t])).
        destruct (IHc ltac:(apply Forall_app; auto) ltac:(rewrite app_length; simpl; lia) I2 F2 _ Hn) as [B1 B2].
        split; [|exact B2]. rewrite <- B1. f_equal. f_equal.
        rewrite flat_map_app. cbn [flat_map]. rewrite app_nil_r, <- app_assoc. f_equal.
        rewrite firstn_app. rewrite firstn_all2 by lia. reflexivity. }
  apply (G cs [] (Forall_nil _) ltac:(cbn; lia) IH HF n Hn).
Qed.

(** Every well formed partial listing is [before] of the context of its next slot. *)
Lemma before_slots ar c : ctx_ok ar c -> exists k, slots ar 1 (before c) = Some (S k).
Proof.
  induction c as [|[a ls] c IH]; intros H; [exists 0; reflexivity|].
  inversion H as [|? ? [H1 H2] H3]; subst. cbn [fst snd] in *.
  destruct (IH H3) as (k & E). cbn [before]. rewrite slots_app, E. cbn [slots].
  exists (ar a - List.length ls - 1 + k).
  replace (ar a + k) with (List.length ls + (S (ar a - List.length ls - 1 + k))) by lia.
  apply slots_forest. exact H2.
Qed.
End Pos.
Arguments ctx : clear implicits.
