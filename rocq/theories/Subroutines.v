(** Model of kd/model/discover/dso/subroutines.py.  Every function works row by
    row (prange over independent rows), so the model is of one row; the batch is
    [map] of it. *)
From Verif Require Import Base Library.

Section Sub.
(** arities[t], parent_adjust[t] *)
Variables (ar : nat -> nat) (padj : nat -> Z).

(** subroutines.py:57-65: backward scan.  [rest] are the tokens from the end
    backwards, [nxt] the token visited just before (tokens[r, L-c]). *)
Fixpoint scan_back (rest : list nat) (nxt : nat) (dangling : Z) : option (nat * nat) :=
  match rest with
  | [] => None
  | t :: rest' =>
      let d := (dangling + (Z.of_nat (ar t) - 1))%Z in
      if (d =? 0)%Z then Some (t, nxt) else scan_back rest' t d
  end.

(** subroutines.py:8-66 parents_siblings, one row.  Empty rows raise.  [nxt] at
    c = 0 would be tokens[r, L]; it is only used when dangling is 0 after the
    last token, i.e. arity 1, excluded by the earlier branch. *)
Definition parents_siblings (empty_parent : Z) (empty_sibling : nat) (tokens : list nat) : res (Z * nat) :=
  match rev tokens with
  | [] => Err IndexError
  | last :: _ =>
      if Nat.ltb 0 (ar last) then Ok (padj last, empty_sibling)
      else match scan_back (rev tokens) 0 0%Z with
           | Some (p, s) => Ok (padj p, s)
           | None => Ok (empty_parent, empty_sibling)
           end
  end.

(** subroutines.py:70-144 jit_parents_siblings_at_once, one row: entry 0 keeps
    the fill values, entry b >= 1 is computed from tokens[:b] with the same two
    branches. *)
Definition at_once_entry (empty_parent : Z) (empty_sibling : nat) (tokens : list nat) (b : nat) : Z * nat :=
  match rev (firstn b tokens) with
  | [] => (empty_parent, empty_sibling)
  | last :: _ =>
      if Nat.ltb 0 (ar last) then (padj last, empty_sibling)
      else match scan_back (rev (firstn b tokens)) 0 0%Z with
           | Some (p, s) => (padj p, s)
           | None => (empty_parent, empty_sibling)
           end
  end.
Definition parents_siblings_at_once (empty_parent : Z) (empty_sibling : nat) (tokens : list nat) : list (Z * nat) :=
  map (at_once_entry empty_parent empty_sibling tokens) (seq 0 (List.length tokens)).

(** subroutines.py:148-202 ancestors, one row: state (dangling, threshold). *)
Definition anc_step (eff : list nat) (s : Z * option Z) (t : nat) : Z * option Z :=
  let d := (fst s + (Z.of_nat (ar t) - 1))%Z in
  match snd s with
  | None => (d, if memb t eff then Some (d - 1)%Z else None)
  | Some th => (d, if (d =? th)%Z then None else Some th)
  end.
Definition ancestors (eff : list nat) (actions : list nat) : bool :=
  is_some (snd (fold_left (anc_step eff) actions (0%Z, None))).

(** subroutines.py:206-253 get_position, one row (n_objects markers).  Reading
    dangling_markers[0] from an exhausted array is an error ([None]). *)
Fixpoint get_position_loop (markers : list Z) (d : Z) (ctr pos last : nat) (c : nat) (actions : list nat)
  : option (nat * nat) :=
  match actions with
  | [] => Some (pos, last)
  | t :: rest =>
      let d' := (d + (Z.of_nat (ar t) - 1))%Z in
      match markers with
      | [] => None
      | m :: markers' =>
          if (d' =? m)%Z then get_position_loop markers' d' 0 ctr c (S c) rest
          else get_position_loop markers d' (S ctr) ctr last (S c) rest
      end
  end.
Definition get_position (n_objects : nat) (actions : list nat) : option (nat * nat) :=
  get_position_loop (map (fun j => - Z.of_nat j)%Z (seq 1 n_objects)) 0%Z 0 0 0 0 actions.
(** subroutines.py:257-287 get_mask, one row. *)
Definition get_mask (pos depth : nat) : list bool := map (fun j => Nat.leb pos j) (seq 0 depth).

(** subroutines.py:291-346 jit_check_constraint_violation.  [other] may be the
    adjusted parents or the siblings. *)
Definition check_violation (actions : list nat) (a_tokens : list nat) (other : list Z) (o_tokens : list Z) : bool :=
  existsb (fun x => memb (fst x) a_tokens && existsb (Z.eqb (snd x)) o_tokens) (combine actions other).

(** subroutines.py:350-421 jit_check_constraint_violation_uchild *)
Definition check_violation_uchild (actions : list nat) (parent : list Z) (sibling : list nat)
   (targets : list nat) (adj_unary adj_eff : list Z) : bool :=
  existsb (fun x => let '(a, (p, s)) := x in
     memb a targets &&
     (existsb (Z.eqb p) adj_unary || (memb s targets && existsb (Z.eqb p) adj_eff)))
   (combine actions (combine parent sibling)).

(** subroutines.py:425-538 descendant_no_target_tokens: [desc] = None when not
    descendant, Some dangling otherwise. *)
Fixpoint desc_no_target (eff binary unary : list nat) (desc : option Z) (actions : list nat) : bool :=
  match actions with
  | [] => false
  | a :: rest =>
      if memb a eff then
        match desc with Some _ => true | None => desc_no_target eff binary unary (Some 1%Z) rest end
      else match desc with
           | None => desc_no_target eff binary unary None rest
           | Some d =>
               let d' := if memb a binary then (d + 1)%Z
                         else if negb (memb a unary) then (d - 1)%Z else d in
               desc_no_target eff binary unary (if (d' =? 0)%Z then None else Some d') rest
           end
  end.

(** subroutines.py:541-620 descendant_with_target_tokens.  The effector test
    runs over effector_tokens[0..T) where T is the number of *target* tokens;
    with more targets than effectors this reads past the array (undefined in
    nopython mode), which [None] stands for. *)
Fixpoint desc_with_target_loop (eff tgt binary unary : list nat) (desc : option Z) (actions : list nat) : bool :=
  match actions with
  | [] => false
  | a :: rest =>
      if memb a eff then desc_with_target_loop eff tgt binary unary (Some 1%Z) rest
      else if memb a tgt then
        match desc with Some _ => true | None => desc_with_target_loop eff tgt binary unary None rest end
      else match desc with
           | None => desc_with_target_loop eff tgt binary unary None rest
           | Some d =>
               let d' := if memb a binary then (d + 1)%Z
                         else if negb (memb a unary) then (d - 1)%Z else d in
               desc_with_target_loop eff tgt binary unary (if (d' =? 0)%Z then None else Some d') rest
           end
  end.
Definition desc_with_target (tgt eff binary unary actions : list nat) : option bool :=
  if Nat.ltb (List.length eff) (List.length tgt) then None
  else Some (desc_with_target_loop (firstn (List.length tgt) eff) tgt binary unary None actions).
End Sub.
