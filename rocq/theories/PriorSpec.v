(** Specification of sampling constraints: relations between nodes of an
    expression tree, stated with positions only (see TreePos). *)
From Verif Require Import Base Trees TreePos Library Prior.

(** Libraries built by the code, all arities at most two (true of every operator
    of functions.py). *)
Definition lib_ok (lib : library) : Prop :=
  (exists toks, tokens_ok toks /\ make_library toks = Ok lib) /\ (forall t, ar_of lib t <= 2).

(** The node labelled [a] at position [c] stands in relation [r] to the given
    targets / effectors. *)
Definition in_relation (ar : nat -> nat) (r : relation) (targets effectors : list nat) (a : nat) (c : ctx nat) : Prop :=
  match r with
  | RDescendant => In a targets /\ exists e, In e effectors /\ In e (ancestors_of c)
  | RChild => In a targets /\ exists e, In e effectors /\ parent_of c = Some e
  | RSibling => exists s, left_sibling c = Some s /\
      (In a targets /\ In s effectors \/ In a effectors /\ In s targets)
  | RUChild => In a targets /\ exists e, In e effectors /\ parent_of c = Some e /\
      (ar e = 1 \/ exists s, left_sibling c = Some s /\ In s targets)
  | RLChild => In a targets /\ exists e, In e effectors /\ parent_of c = Some e /\ left_sibling c = None
  | RRChild => In a targets /\ exists e, In e effectors /\ parent_of c = Some e /\ left_sibling c <> None
  end.

(** The descendant relation the code implements: inside the first argument. *)
Definition in_first_arg (targets effectors : list nat) (a : nat) (c : ctx nat) : Prop :=
  In a targets /\ exists e, In e effectors /\ In e (first_arg_ancestors c).

Definition tree_in_relation ar r tg ef (t : tree nat) : Prop :=
  exists a c, In (a, c) (nodes [] t) /\ in_relation ar r tg ef a c.

(** Effectors the constraint accepts: known tokens, non-terminal (any token for
    the sibling relation); see RelationalConstraint.validate. *)
Definition effectors_ok (lib : library) (r : relation) (ef : list nat) : Prop :=
  forall e, In e ef -> e < lL lib /\ match r with RSibling => True | _ => 0 < ar_of lib e end.
Definition targets_ok (lib : library) (tg : list nat) : Prop := forall e, In e tg -> e < lL lib.
