(** Model of the expression tree picture: ExpressionTree, tree_visualization and Plotter.tree_plot
    (kd/model/discover/plotter.py:29-84). *)
From Coq Require Import Ascii.
From Verif Require Import Base Library Tokens.
Local Open Scope string_scope.
Local Open Scope list_scope.

(** the tuples of build_tree: (name, child, ...), a child being None where the traversal ended *)
Inductive pnode := PNode (name : string) (children : list (option pnode)).
(** build_tree (plotter.py:35-44) from the rest of the traversal; [fuel] bounds the depth of the calls, which the rest of the traversal bounds *)
Fixpoint build (ar : string -> nat) (fuel : nat) (rest : list string) : option pnode * list string :=
  match fuel, rest with
  | O, _ | _, [] => (None, rest)
  | S f, n :: rest' =>
      let (cs, r) := (fix kids (k : nat) (r : list string) : list (option pnode) * list string :=
                        match k with O => ([], r) | S k' => let (c, r1) := build ar f r in let (cs, r2) := kids k' r1 in (c :: cs, r2) end) (ar n) rest' in
      (Some (PNode n cs), r)
  end.
(** a Digraph: nodes (identifier, label) and edges, in the order they were added; graphviz reads an edge's end up to a colon as the node
    and the rest as a port *)
Record graph := mkGraph { g_nodes : list (string * string); g_edges : list (string * string) }.
Fixpoint endpoint (s : string) : string :=
  match s with EmptyString => EmptyString | String c s' => if Ascii.eqb c ":"%char then EmptyString else String c (endpoint s') end.
Definition node_id (name : string) (c : nat) : string := String.append name (String.append "_" (dec c)).
(** draw_tree (plotter.py:46-58): the counter is a default argument, shared by all calls of the session *)
Fixpoint draw (n : pnode) (parent : option string) (g : graph) (c : nat) : graph * nat :=
  match n with
  | PNode name cs =>
      let id := node_id name c in
      let g1 := mkGraph (g_nodes g ++ [(id, name)]) (g_edges g ++ match parent with Some p => [(endpoint p, endpoint id)] | None => [] end) in
      (fix all (l : list (option pnode)) (g : graph) (c : nat) : graph * nat :=
         match l with [] => (g, c) | None :: l' => all l' g c | Some k :: l' => let (g', c') := draw k (Some id) g c in all l' g' c' end) cs g1 (S c)
  end.
(** name_arites (library.py:133): a dictionary by name, later tokens replacing earlier ones; .get(name, 0) *)
Definition name_arity (toks : list token) (n : string) : nat :=
  match find (fun t => String.eqb (tname t) n) (rev toks) with Some t => tarity t | None => 0 end.
(** tree_plot (plotter.py:60-84): [shown] is str(token) along the traversal, [c0] the counter so far *)
Definition tree_plot (toks : list token) (shown : list string) (c0 : nat) : graph * nat :=
  match fst (build (name_arity toks) (List.length shown) shown) with
  | Some n => draw n None (mkGraph [] []) c0
  | None => (mkGraph [] [], c0)
  end.
