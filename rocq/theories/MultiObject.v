(** Model of the constraints of the equation search for programs of several objects (Program.n_objects > 1):
    dso/subroutines.py:206-287 (get_position, get_mask: Subroutines.v), dso/prior.py:784-806 RepeatConstraint,
    842-888 LengthConstraint.  A row is the list of the library indices sampled so far; task.py:146-153 counts the
    open positions ([dangling]) from 1 again for every object. *)
From Verif Require Import Base Subroutines.
Local Open Scope nat_scope.
Local Open Scope list_scope.

Section Multi.
Variables (ar : nat -> nat) (n_objects : nat).
(** actions[mask == 0] = -1; None stands for the masked entries (prior.py:791-795) *)
Definition visible (actions : list nat) : option (list (option nat)) :=
  match get_position ar n_objects actions with
  | None => None
  | Some (_, last) => Some (map (fun p : nat * bool => if snd p then Some (fst p) else None) (combine actions (get_mask last (List.length actions))))
  end.
(** np.sum(np.isin(actions, self.tokens), axis=1) >= self.max (797-802) *)
Definition isin (tokens : list nat) (a : option nat) : bool := match a with Some t => memb t tokens | None => false end.
Definition repeat_count (tokens actions : list nat) : option nat :=
  if Nat.ltb 1 n_objects then option_map (fun l => List.length (filter (isin tokens) l)) (visible actions)
  else Some (List.length (filter (fun t => memb t tokens) actions)).
Definition repeat_forbids (tokens : list nat) (max : nat) (actions : list nat) : option bool := option_map (fun c => Nat.leb max c) (repeat_count tokens actions).
(** LengthConstraint.__call__ (prior.py:861-876): what is forbidden after [actions] with [dangling] open positions *)
Record forbidden := mkForbidden { no_binary : bool; no_unary : bool; no_terminal : bool }.
Definition length_forbids (min : option nat) (max : nat) (actions : list nat) (dangling : nat) : option forbidden :=
  match get_position ar n_objects actions with
  | None => None
  | Some (i, _) =>
      let remaining := (Z.of_nat max - (Z.of_nat i + 1))%Z in let d := Z.of_nat dangling in
      Some (mkForbidden (remaining - 1 <=? d)%Z (d =? remaining)%Z (match min with Some m => Nat.ltb (i + 2) m && Nat.eqb dangling 1 | None => false end))
  end.
(** LengthConstraint.initial_prior (848-852), also used when an object has been completed (task.py:153) *)
Definition initial_forbidden : forbidden := mkForbidden false false true.
Definition forbids (f : forbidden) (t : nat) : bool :=
  match ar t with 0 => no_terminal f | 1 => no_unary f | 2 => no_binary f | _ => false end.
End Multi.
