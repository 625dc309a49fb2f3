(** Model of kd/model/discover/dso/prior.py for single-object programs
    (Program.n_objects = 1).  A prior contributes -inf to the logits of the tokens
    it forbids; a token keeps non-zero probability iff no prior forbids it
    (JointPrior sums the logits, prior.py:135-165, and -inf absorbs).  Finite
    logit adjustments (UniformArityPrior, SoftLengthPrior) forbid nothing. *)
From Verif Require Import Base Library Subroutines.

(** What a prior sees about one row: task.py:125-157 (get_next_obs). *)
Record pobs := mkObs { o_actions : list nat; o_parent : Z; o_sibling : nat; o_dangling : Z }.

Definition padj_of (lib : library) (t : nat) : Z := nth t (lparent_adjust lib) (-1)%Z.

(** task.py:125-157: observation after the tokens [l] (dangling starts at 1,
    task.py:159-173, and is incremented by arity - 1 per token). *)
Definition dangling_of (lib : library) (l : list nat) : Z :=
  fold_left (fun d t => d + (Z.of_nat (ar_of lib t) - 1))%Z l 1%Z.
Definition obs_of (lib : library) (l : list nat) : res pobs :=
  do ps <- parents_siblings (ar_of lib) (padj_of lib) (Z.of_nat (lEMPTY_PARENT lib)) (lEMPTY_SIBLING lib) l ;
  Ok (mkObs l (fst ps) (snd ps) (dangling_of lib l)).

(** A prior: tokens forbidden initially, and after a non-empty history. *)
Record prior := mkPrior { pr_init : list nat; pr_forb : pobs -> list nat }.

Inductive relation := RDescendant | RChild | RSibling | RUChild | RLChild | RRChild.

Definition zmem (z : Z) (l : list Z) : bool := existsb (Z.eqb z) l.
Definition when (b : bool) (l : list nat) : list nat := if b then l else [].
Definition adj (lib : library) (l : list nat) : list Z := map (padj_of lib) l.

(** prior.py:388-435 RelationalConstraint.__call__ *)
Definition forb_rel (lib : library) (targets effectors : list nat) (r : relation) (o : pobs) : list nat :=
  match r with
  | RDescendant => when (ancestors (ar_of lib) effectors (o_actions o)) targets
  | RChild => when (zmem (o_parent o) (adj lib effectors)) targets
  | RSibling => when (memb (o_sibling o) effectors) targets ++ when (memb (o_sibling o) targets) effectors
  | RUChild =>
      let unary_eff := filter (fun e => memb e (lunary lib)) effectors in
      when (zmem (o_parent o) (adj lib unary_eff) ||
            (memb (o_sibling o) targets && zmem (o_parent o) (adj lib effectors))) targets
  | RLChild => when (zmem (o_parent o) (adj lib effectors) && Nat.eqb (o_sibling o) (lL lib)) targets
  | RRChild => when (zmem (o_parent o) (adj lib effectors) && Nat.ltb (o_sibling o) (lL lib)) targets
  end.
Definition rel_prior lib tg ef r := mkPrior [] (forb_rel lib tg ef r).

(** prior.py:437-460 RelationalConstraint.is_violated on a full row; parents and
    siblings are those of jit_parents_siblings_at_once.  There is no branch for
    lchild / rchild: [violated] is unbound.  The descendant checker may be
    undefined ([None], see Subroutines). *)
Definition rel_violated (lib : library) (targets effectors : list nat) (r : relation)
    (actions : list nat) (parent : list Z) (sibling : list nat) : res (option bool) :=
  match r with
  | RDescendant => Ok (desc_with_target targets effectors (lbinary lib) (lunary lib) actions)
  | RChild => Ok (Some (check_violation actions targets parent (adj lib effectors)))
  | RSibling => Ok (Some (check_violation actions targets (map Z.of_nat sibling) (map Z.of_nat effectors) ||
                    check_violation actions effectors (map Z.of_nat sibling) (map Z.of_nat targets)))
  | RUChild => Ok (Some (check_violation_uchild actions parent sibling targets
                    (adj lib (filter (fun e => memb e (lunary lib)) effectors)) (adj lib effectors)))
  | RLChild | RRChild => Err UnboundLocalError
  end.

(** prior.py:462-475 RelationalConstraint.validate: true when the prior is kept. *)
Definition rel_valid (lib : library) (targets effectors : list nat) (r : relation) : bool :=
  (match r with RSibling => true | _ => negb (existsb (fun e => memb e (lterminal lib)) effectors) end) &&
  negb (Nat.eqb (List.length targets) 0) && negb (Nat.eqb (List.length effectors) 0).

(** prior.py:494-505 TrigConstraint *)
Definition trig_prior lib := rel_prior lib (ltrig lib) (ltrig lib) RDescendant.
(** prior.py:514-526 ConstConstraint *)
Definition const_prior lib c := rel_prior lib [c] (lunary lib ++ lbinary lib) RUChild.
(** prior.py:621-639 DiffConstraint_left (library names are assumed distinct, so
    actionize maps a name to the position it was found at) *)
Definition diff_left_targets lib := (match lconst_token lib with Some c => [c] | None => [] end) ++ linput_tokens lib.
Definition diff_left_prior lib := rel_prior lib (diff_left_targets lib) (ldiff lib) RLChild.
(** prior.py:641-662 DiffConstraint_left_strict: everything but u and diff *)
Definition diff_left_strict_targets lib :=
  indices (fun t => negb (has_diff (tname t)) && negb (is_some (tstate t))) (ltokens lib).
Definition diff_left_strict_prior lib := rel_prior lib (diff_left_strict_targets lib) (ldiff lib) RLChild.
(** prior.py:664-702 DiffConstraint_right *)
Definition diff_right_targets lib :=
  lunary lib ++ lbinary lib ++ filter (fun t => negb (memb t (linput_tokens lib))) (lterminal lib).
Definition diff_right_prior lib := rel_prior lib (diff_right_targets lib) (ldiff lib) RRChild.
(** prior.py:704-724 DiffConstraint_des *)
Definition des_names : list string := ["add"; "add_t"; "sub"; "sub_t"]%string.
Definition diff_des_targets lib :=
  indices (fun t => existsb (String.eqb (tname t)) des_names) (ltokens lib) ++
  (match lconst_token lib with Some c => [c] | None => [] end).
Definition diff_des_prior lib := rel_prior lib (diff_des_targets lib) (ldiff lib) RDescendant.

(** prior.py:529-556 NoInputsConstraint *)
Definition count_in (ts l : list nat) : nat := List.length (filter (fun t => memb t ts) l).
Definition forb_no_inputs (lib : library) (o : pobs) : list nat :=
  when ((o_dangling o =? 1)%Z && Nat.eqb (count_in (lstate_tokens lib) (o_actions o)) 0) (lnon_state lib).
Definition no_inputs_prior lib := mkPrior [] (forb_no_inputs lib).
Definition no_inputs_violated (lib : library) (actions : list nat) : bool :=
  Nat.eqb (List.length (filter (fun s => memb s actions) (lstate_tokens lib))) 0.

(** prior.py:563-588 InverseUnaryConstraint: sum of child constraints, one per
    (target, effector) pair of library.inverse_tokens. *)
Definition inverse_prior lib (pairs : list (nat * nat)) : prior :=
  mkPrior [] (fun o => flat_map (fun p => forb_rel lib [fst p] [snd p] RChild o) pairs).

(** prior.py:761-808 RepeatConstraint (max only; min raises NotImplementedError
    and is rejected by the constructor). *)
Definition forb_repeat (tokens : list nat) (max_ : nat) (o : pobs) : list nat :=
  when (Nat.leb max_ (count_in tokens (o_actions o))) tokens.
Definition repeat_prior tokens max_ := mkPrior [] (forb_repeat tokens max_).
Definition repeat_violated (tokens : list nat) (max_ : nat) (actions : list nat) : bool :=
  Nat.ltb max_ (count_in tokens actions).

(** prior.py:824-904 LengthConstraint, n_objects = 1 *)
Definition forb_length (lib : library) (min_ max_ : option nat) (o : pobs) : list nat :=
  let i := (Z.of_nat (List.length (o_actions o)) - 1)%Z in
  (match max_ with
   | Some mx =>
       if (Z.of_nat (mx / 2) <=? i + 2)%Z then
         let remaining := (Z.of_nat mx - (i + 1))%Z in
         when (remaining - 1 <=? o_dangling o)%Z (lbinary lib) ++
         when (o_dangling o =? remaining)%Z (lunary lib)
       else []
   | None => []
   end) ++
  (match min_ with
   | Some mn => if (i + 2 <? Z.of_nat mn)%Z then when (o_dangling o =? 1)%Z (lterminal lib) else []
   | None => []
   end).
Definition length_prior lib min_ max_ := mkPrior (lterminal lib) (forb_length lib min_ max_).
Definition length_violated (min_ max_ : option nat) (actions : list nat) : bool :=
  (match min_ with Some mn => Nat.ltb (List.length actions) mn | None => false end) ||
  (match max_ with Some mx => Nat.ltb mx (List.length actions) | None => false end).

(** UniformArityPrior / SoftLengthPrior: no hard mask. *)
Definition soft_prior : prior := mkPrior [] (fun _ => []).

(** ** Sampling (controller.py:233-308): each drawn token has non-zero
    probability under initial_prior / the joint prior of the history. *)
Definition forbidden (lib : library) (p : prior) (l : list nat) : list nat :=
  match l with
  | [] => pr_init p
  | _ => match obs_of lib l with Ok o => pr_forb p o | Err _ => [] end
  end.
Definition permitted (lib : library) (ps : list prior) (l : list nat) (t : nat) : Prop :=
  t < lL lib /\ forall p, In p ps -> ~ In t (forbidden lib p l).
Inductive sampled (lib : library) (ps : list prior) : list nat -> Prop :=
| sampled_nil : sampled lib ps []
| sampled_snoc l t : sampled lib ps l -> permitted lib ps l t -> sampled lib ps (l ++ [t]).

(** ** JointPrior.at_once (prior.py:183-215): per time step, the observation
    each prior is called with ([None]: the combined initial prior).  Without any
    prior ind_priors[0] raises IndexError. *)
Definition at_once_obs (lib : library) (actions : list nat) (parent : list Z) (sibling : list nat) (t : nat) : option pobs :=
  match t with
  | O => None
  | S _ => Some (mkObs (firstn t actions) (nth t parent 0%Z) (nth t sibling 0) (dangling_of lib (firstn t actions)))
  end.
Definition joint_at_once (lib : library) (ps : list prior) (actions : list nat) (parent : list Z) (sibling : list nat)
  : res (list (list (list nat))) :=
  match ps with
  | [] => Err IndexError
  | _ => Ok (map (fun t => match at_once_obs lib actions parent sibling t with
                           | None => map pr_init ps
                           | Some o => map (fun p => pr_forb p o) ps
                           end) (seq 0 (List.length actions)))
  end.

(** ** Constraint counting (prior.py:119-123, 157-163): constraint_counts has one
    slot per hard constraint, but is indexed by the position among all priors.
    [hard] tells for each prior whether it is a Constraint. *)
Definition constraint_indices (hard : list bool) : list nat := indices (fun b => b) hard.
Fixpoint count_loop (idx : list nat) (inc : nat -> nat) (counts : list nat) : res (list nat) :=
  match idx with
  | [] => Ok counts
  | i :: idx' =>
      if Nat.ltb i (List.length counts)
      then count_loop idx' inc (firstn i counts ++ (nth i counts 0 + inc i) :: skipn (S i) counts)
      else Err IndexError
  end.
Definition count_constraints (hard : list bool) (inc : nat -> nat) : res (list nat) :=
  count_loop (constraint_indices hard) inc (repeat 0 (List.length (constraint_indices hard))).
