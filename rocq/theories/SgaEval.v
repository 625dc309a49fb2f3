(** Model of evaluate_mse (kd/model/sga/sgapde/pde.py:107-281).  Arrays are abstract values;
    the regression itself is in SgaTrain. *)
From Verif Require Import Base Trees SgaTree SgaSpec.

Section Eval.
Context {V : Type}.
Variables (leafval : ent -> V)                 (* node.var of a variable *)
          (f1 : ent -> V -> V)                 (* np.square, cubic *)
          (f2 : ent -> V -> V -> V)            (* np.add, ..., config.divide *)
          (diffop : ent -> V -> string -> V)   (* Diff / Diff2 along an axis, with its delta *)
          (known : string -> bool)             (* the axis is in axis_map and has a delta *)
          (lhs : string)                       (* context.lhs_axis *)
          (zeroish : V -> bool)                (* np.allclose(a, 0, atol=1e-10) *)
          (pert : V -> V)                      (* a + 1e-6 *)
          (guard : bool)                       (* division strategy: guard, otherwise legacy *)
          (nonzero : V -> bool)                (* any(a.reshape(-1)) *)
          (finite : V -> bool).                (* no inf or nan in the column *)

(** node.cache: [None] is node.var (the array of a variable, the function of an operator). *)
Local Notation cache := (option V).
(** the array held by a child: a function is not an operand *)
Definition operand (n : node) (k : cache) : res V :=
  match k with Some v => Ok v | None => if Nat.eqb (nar n) 0 then Ok (leafval (nent n)) else Err TypeError end.
Definition child (B : list node) (Bc : list cache) (i : nat) : res (node * cache) :=
  match nth_error B i, nth_error Bc i with Some n, Some k => Ok (n, k) | _, _ => Err IndexError end.

(** pde.py:138-207, one node with its cache; [Bc] are the caches of the level below.  [Ok None]:
    term_invalid.  (The caches of a discarded term are not tracked: the term is removed.) *)
Definition eval_node (n : node) (k : cache) (B : list node) (Bc : list cache) : res (option (cache * list cache)) :=
  if Nat.eqb (nar n) 0 then Ok (Some (k, Bc))
  else match nst n with
  | None => Err TypeError
  | Some st =>
      if Nat.eqb (nar n) 1 then
        do c1 <- child B Bc st ;
        do v <- operand (fst c1) (snd c1) ;
        match k with
        | Some _ => Err TypeError                                    (* an array is not callable *)
        | None => Ok (Some (Some (f1 (nent n) v), set_at Bc st None))
        end
      else if Nat.eqb (nar n) 2 then
        do c1 <- child B Bc st ;
        do c2 <- child B Bc (st + 1) ;
        let axis := nname (fst c2) in
        let reset := set_at (set_at Bc st None) (st + 1) None in
        if is_d (nname n) then
          if String.eqb axis lhs then Ok None
          else if negb (known axis) then Err NotImplementedError
          else do v <- operand (fst c1) (snd c1) ;
               match k with Some _ => Err TypeError | None => Ok (Some (Some (diffop (nent n) v axis), reset)) end
        else
          do x <- operand (fst c1) (snd c1) ;
          do y <- operand (fst c2) (snd c2) ;
          if String.eqb (nname n) "/" && zeroish y && guard then Ok None
          else match k with
          | Some _ => Err TypeError
          | None => let y' := if String.eqb (nname n) "/" && zeroish y then pert y else y in
                    Ok (Some (Some (f2 (nent n) x y'), reset))
          end
      else Ok (Some (k, Bc))                                         (* NotImplementedError() is not raised *)
  end.
Fixpoint eval_nodes (U : list node) (Uc : list cache) (B : list node) (Bc : list cache) : res (option (list cache * list cache)) :=
  match U, Uc with
  | n :: U', k :: Uc' =>
      do r <- eval_node n k B Bc ;
      match r with
      | None => Ok None
      | Some (k', Bc') => do r2 <- eval_nodes U' Uc' B Bc' ;
                          Ok (match r2 with Some (ks, Bc'') => Some (k' :: ks, Bc'') | None => None end)
      end
  | _, _ => Ok (Some (Uc, Bc))
  end.
(** pde.py:127-213: from the last level but one up to the root *)
Fixpoint eval_levels (ls : list (list node)) (cs : list (list cache)) : res (option (list (list cache))) :=
  match ls, cs with
  | L :: rest, C :: crest =>
      do r <- eval_levels rest crest ;
      match r with
      | None => Ok None
      | Some crest' =>
          match rest, crest' with
          | (_ :: _) as B :: _, Bc :: more =>
              do x <- eval_nodes L C B Bc ;
              Ok (match x with Some (C', Bc') => Some (C' :: Bc' :: more) | None => None end)
          | _, _ => Ok (Some (C :: crest'))
          end
      end
  | _, _ => Ok (Some cs)
  end.

(** A term: its table and the caches. *)
Record term := mkTerm { tm_levels : list (list node); tm_caches : list (list cache) }.
Definition fresh (ls : list (list node)) : term := mkTerm ls (map (map (fun _ => None)) ls).
(** pde.py:215-226: the column of one term ([None]: deleted) and the term after resetting the
    root's cache. *)
Definition eval_term (t : term) : res (option V * term) :=
  do r <- eval_levels (tm_levels t) (tm_caches t) ;
  match r with
  | None => Ok (None, t)
  | Some ((Some v :: c0) :: cs) =>
      let t' := mkTerm (tm_levels t) ((None :: c0) :: cs) in
      if nonzero v then Ok (Some v, t') else Ok (None, t')
  | Some _ => Err AttributeError                                     (* a function has no reshape *)
  end.
(** enumerate(terms): the columns ([zero] where nothing was written), delete_ix, the terms *)
Fixpoint eval_terms (zero : V) (ix : nat) (ts : list term) : res (list V * list nat * list term) :=
  match ts with
  | [] => Ok ([], [], [])
  | t :: ts' =>
      do r <- eval_term t ;
      do rs <- eval_terms zero (S ix) ts' ;
      let '(vs, del, us) := rs in
      Ok (match fst r with Some v => (v :: vs, del, snd r :: us) | None => (zero :: vs, ix :: del, snd r :: us) end)
  end.
(** list.pop(i) (IndexError when out of range) and np.delete(a, i, axis=1) *)
Definition pop_at {A} (l : list A) (i : nat) : res (list A) :=
  if Nat.ltb i (List.length l) then Ok (firstn i l ++ skipn (S i) l) else Err IndexError.
(** pde.py:228-236 *)
Fixpoint delete_loop {A B} (move : nat) (dels : list nat) (ts : list A) (vs : list B) : res (list A * list B) :=
  match dels with
  | [] => Ok (ts, vs)
  | d :: ds => do ts' <- pop_at ts (d - move) ; do vs' <- pop_at vs (d - move) ; delete_loop (S move) ds ts' vs'
  end.
(** A PDE: its terms and its width W (W is decremented once per deleted term). *)
Record pde := mkPde { pd_terms : list term; pd_W : nat }.
(** What is handed to Train: nothing when a column is not finite or no column is left
    (aic = inf, w = 0), otherwise default terms followed by the columns.  The row count of
    the default terms is taken to match (pde.py:258-263). *)
Definition evaluate (zero : V) (defaults : list V) (p : pde) : res (pde * option (list V)) :=
  do r <- eval_terms zero 0 (pd_terms p) ;
  let '(vs, del, ts) := r in
  do x <- delete_loop 0 del ts vs ;
  let '(ts', vs') := x in
  let p' := mkPde ts' (pd_W p - List.length del) in
  if negb (forallb finite vs') || Nat.eqb (List.length vs') 0 then Ok (p', None) else Ok (p', Some (defaults ++ vs')).

(** ** Specification: the value of a term.  A derivative along the left-hand-side axis and,
    with the guard strategy, a division by a vanishing array have none. *)
Fixpoint value (t : tree ent) : option V :=
  match t with
  | Nd e [] => Some (leafval e)
  | Nd e [a] => match value a with Some x => Some (f1 e x) | None => None end
  | Nd e (a :: b :: _) =>
      match value a, value b with
      | Some x, Some y =>
          if is_d (ename e) then (if String.eqb (ename (root_of b)) lhs then None else Some (diffop e x (ename (root_of b))))
          else if String.eqb (ename e) "/" && zeroish y then (if guard then None else Some (f2 e x (pert y)))
          else Some (f2 e x y)
      | _, _ => None
      end
  end.
(** the column of a term: its value unless undefined or identically zero *)
Definition column (t : tree ent) : option V :=
  match value t with Some v => if nonzero v then Some v else None | None => None end.
End Eval.
