(** Specification: expression trees and their preorder (prefix) notation.
    This file mentions nothing of the implementation; it is what "a complete
    prefix expression", "parent", "sibling", "descendant" mean. *)
From Verif Require Import Base.

Inductive tree (A : Type) : Type := Nd : A -> list (tree A) -> tree A.
Arguments Nd {A}.

Section TreeInd.
  Context {A : Type} (P : tree A -> Prop).
  Hypothesis H : forall a cs, Forall P cs -> P (Nd a cs).
  Fixpoint tree_ind' (t : tree A) : P t :=
    match t with
    | Nd a cs => H a cs ((fix go (l : list (tree A)) : Forall P l :=
        match l with
        | [] => Forall_nil _
        | x :: xs => Forall_cons x (tree_ind' x) (go xs)
        end) cs)
    end.
End TreeInd.

(** Preorder listing of the labels. *)
Fixpoint preorder {A} (t : tree A) : list A :=
  match t with Nd a cs => a :: flat_map preorder cs end.

(** A tree respects an arity function when every node has as many children as
    the arity of its label. *)
Inductive respects {A} (ar : A -> nat) : tree A -> Prop :=
| respects_Nd a cs : List.length cs = ar a -> Forall (respects ar) cs -> respects ar (Nd a cs).

(** [l] is exactly one complete prefix expression. *)
Definition complete {A} (ar : A -> nat) (l : list A) : Prop :=
  exists t, respects ar t /\ preorder t = l.

(** [l] is exactly [k] complete prefix expressions one after the other. *)
Definition forest {A} (ar : A -> nat) (k : nat) (l : list A) : Prop :=
  exists ts, List.length ts = k /\ Forall (respects ar) ts /\ flat_map preorder ts = l.

(** [l] is a proper initial part of a complete expression: it can be completed,
    and is not complete itself. *)
Definition partial {A} (ar : A -> nat) (l : list A) : Prop :=
  exists l', l' <> [] /\ complete ar (l ++ l').
