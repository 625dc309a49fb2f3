(** Model of the constraints that DISCOVER configurations name (kd/model/discover/dso/prior.py): the inverse
    pairs of a library (kd/model/discover/library.py:204-216).  The constraints themselves are in Prior.v. *)
From Verif Require Import Base Library Prior.
Local Open Scope string_scope.
Local Open Scope list_scope.

(** library.py:204-211 *)
Definition inverse_names : list (string * string) :=
  [("inv", "inv"); ("neg", "neg"); ("exp", "log"); ("log", "exp"); ("sqrt", "n2"); ("n2", "sqrt")].
(** library.py:215 token_from_name: a dict comprehension, so the last token of a name *)
Fixpoint last_from (s : string) (i : nat) (names : list string) : option nat :=
  match names with
  | [] => None
  | x :: l => match last_from s (S i) l with Some k => Some k | None => if String.eqb x s then Some i else None end
  end.
(** library.py:216 inverse_tokens: pairs (target, effector), for the names that are both in the library *)
Definition inverse_tokens (lib : library) : list (nat * nat) :=
  flat_map (fun p => match last_from (fst p) 0 (lnames lib), last_from (snd p) 0 (lnames lib) with
                     | Some a, Some b => [(a, b)] | _, _ => [] end) inverse_names.
(** prior.py:567-588 InverseUnaryConstraint(library) *)
Definition make_inverse (lib : library) : prior := inverse_prior lib (inverse_tokens lib).
(** prior.py:514-526 ConstConstraint(library), for a library with a const token *)
Definition make_const (lib : library) : option prior := option_map (const_prior lib) (lconst_token lib).
