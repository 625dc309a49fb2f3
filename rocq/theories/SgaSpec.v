(** Specification: what a candidate term of SGA is.  A term is a tree whose inner nodes are
    operators, whose leaves are variables, and in which every derivative operator has a
    differentiable axis as its second argument. *)
From Verif Require Import Base Trees SgaTree.

Definition root_of {A} (t : tree A) : A := match t with Nd a _ => a end.
Definition kids_of {A} (t : tree A) : list (tree A) := match t with Nd _ cs => cs end.
(** number of levels *)
Fixpoint height {A} (t : tree A) : nat := match t with Nd _ cs => S (fold_right Nat.max 0 (map height cs)) end.
(** labels at distance [k] from the root, from left to right *)
Fixpoint level {A} (k : nat) (t : tree A) : list A :=
  match k, t with O, Nd a _ => [a] | S k', Nd _ cs => flat_map (level k') cs end.

(** One node with the labels of its children. *)
Definition family (c : sctx) (e : ent) (kids : list ent) : Prop :=
  List.length kids = ear e /\
  (kids = [] -> In e (c_vars c)) /\
  (kids <> [] -> In e OPS) /\
  (kids <> [] -> is_d (ename e) = true -> exists l r, kids = [l; r] /\ ear r = 0 /\ In (ename r) (den_names c)).
Inductive term_ok (c : sctx) : tree ent -> Prop :=
| term_Nd e cs : family c e (map root_of cs) -> Forall (term_ok c) cs -> term_ok c (Nd e cs).

(** Infix notation of a term. *)
Fixpoint infix (t : tree ent) : string :=
  match t with
  | Nd e [] => ename e
  | Nd e [a] => ("( " ++ ename e ++ " " ++ infix a ++ ")")%string
  | Nd e (a :: b :: _) => ("(" ++ infix a ++ " " ++ ename e ++ " " ++ infix b ++ ")")%string
  end.

(** A table of levels stores the tree [t]: level by level the same labels, the recorded
    preorder and infix strings are those of [t]. *)
Definition stores (s : stree) (t : tree ent) : Prop :=
  (forall k, map nent (nth k (t_levels s) []) = level k t) /\
  t_preorder s = map ename (preorder t) /\ t_inorder s = infix t.

(** A usable context: leaves have arity 0, at least one variable and one axis, axes are variables. *)
Definition ctx_ok (c : sctx) : Prop :=
  Forall (fun e => ear e = 0) (c_vars c) /\ c_vars c <> [] /\ c_den c <> [] /\ incl (c_den c) (c_vars c).
(** np.random.randint(0, n) is below n. *)
Definition rng_ok (pick : rng) : Prop := forall d i n, 0 < n -> pick d i n < n.

(** Children are found at the recorded positions and know their parent; a level has as many
    nodes as the arities above demand. *)
Definition located (ls : list (list node)) : Prop :=
  forall d i n j, nth_error (nth d ls []) i = Some n -> j < nar n ->
    exists st k, nst n = Some st /\ nth_error (nth (S d) ls []) (st + j) = Some k /\ npar k = i.
Definition sized (ls : list (list node)) : Prop :=
  forall d, S d <= List.length ls -> List.length (nth (S d) ls []) = list_sum (map (fun n => nar n) (nth d ls [])).

(** The term differentiates along [axis] somewhere. *)
Inductive differentiates (axis : string) : tree ent -> Prop :=
| diff_here e a b cs : is_d (ename e) = true -> ename (root_of b) = axis -> differentiates axis (Nd e (a :: b :: cs))
| diff_below e cs t : In t cs -> differentiates axis t -> differentiates axis (Nd e cs).
