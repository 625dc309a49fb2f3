(** The same evaluation loop as SgaEval.v, with the arrays in a store: config.divide
    (kd/model/sga/sgapde/config.py:264-269) adds 1e-10 to its divisor in place, and after the
    first evaluation the cache of a leaf is the array of the variable itself
    (pde.py:149, 211: child.cache = child.var). *)
From Coq Require Import QArith.
From Verif Require Import Base Trees SgaTree SgaSpec SgaEval.
Local Open Scope nat_scope.

Section Store.
Context {V : Type}.
Variables (f1 : ent -> V -> V) (f2 : ent -> V -> V -> V) (diffop : ent -> V -> string -> V) (known : string -> bool)
          (lhs : string) (zeroish : V -> bool) (pert : V -> V) (guard : bool) (nonzero : V -> bool)
          (hz : V -> bool)        (* np.any(down == 0) *)
          (shift : V -> V).       (* the loop `while np.any(down == 0): down += eta` *)
Local Notation cache := (option V).
Notation store := (ent -> V).
Definition ent_eqb (a b : ent) : bool := String.eqb (ename a) (ename b) && Nat.eqb (ear a) (ear b) && Nat.eqb (epay a) (epay b).
Definition upd (S : store) (e : ent) (v : V) : store := fun x => if ent_eqb x e then v else S x.
(** config.divide(up, down): when [down] is the array of the variable [e], the array itself is
    shifted (config.py:265-269) *)
Definition divide_effect (S : store) (n2 : node) (k2 : cache) : store :=
  match k2 with Some _ => S | None => if Nat.eqb (nar n2) 0 && hz (S (nent n2)) then upd S (nent n2) (shift (S (nent n2))) else S end.
(** pde.py:138-211 *)
Definition eval_node_s (n : node) (k : cache) (B : list node) (Bc : list cache) (S : store) : res (option (cache * list cache) * store) :=
  if Nat.eqb (nar n) 0 then Ok (Some (k, Bc), S)
  else match nst n with
  | None => Err TypeError
  | Some st =>
      if Nat.eqb (nar n) 1 then
        do c1 <- child B Bc st ;
        do v <- operand S (fst c1) (snd c1) ;
        match k with
        | Some _ => Err TypeError
        | None => Ok (Some (Some (f1 (nent n) v), set_at Bc st None), S)
        end
      else if Nat.eqb (nar n) 2 then
        do c1 <- child B Bc st ;
        do c2 <- child B Bc (st + 1) ;
        let axis := nname (fst c2) in
        let reset := set_at (set_at Bc st None) (st + 1) None in
        if is_d (nname n) then
          if String.eqb axis lhs then Ok (None, S)
          else if negb (known axis) then Err NotImplementedError
          else do v <- operand S (fst c1) (snd c1) ;
               match k with Some _ => Err TypeError | None => Ok (Some (Some (diffop (nent n) v axis), reset), S) end
        else
          do x0 <- operand S (fst c1) (snd c1) ;
          do y <- operand S (fst c2) (snd c2) ;
          if String.eqb (nname n) "/" && zeroish y && guard then Ok (None, S)
          else match k with
          | Some _ => Err TypeError
          | None =>
              if String.eqb (nname n) "/" then
                if zeroish y then Ok (Some (Some (f2 (nent n) x0 (pert y)), reset), S)      (* divisor + eps is a new array *)
                else let S' := divide_effect S (fst c2) (snd c2) in
                     do x <- operand S' (fst c1) (snd c1) ;                                   (* up may be the same array *)
                     do y' <- operand S' (fst c2) (snd c2) ;
                     Ok (Some (Some (f2 (nent n) x y'), reset), S')
              else Ok (Some (Some (f2 (nent n) x0 y), reset), S)
          end
      else Ok (Some (k, Bc), S)
  end.
Fixpoint eval_nodes_s (U : list node) (Uc : list cache) (B : list node) (Bc : list cache) (S : store) : res (option (list cache * list cache) * store) :=
  match U, Uc with
  | n :: U', k :: Uc' =>
      do r <- eval_node_s n k B Bc S ;
      match r with
      | (None, S1) => Ok (None, S1)
      | (Some (k', Bc'), S1) => do r2 <- eval_nodes_s U' Uc' B Bc' S1 ;
                          Ok (match fst r2 with Some (ks, Bc'') => Some (k' :: ks, Bc'') | None => None end, snd r2)
      end
  | _, _ => Ok (Some (Uc, Bc), S)
  end.
Fixpoint eval_levels_s (ls : list (list node)) (cs : list (list cache)) (S : store) : res (option (list (list cache)) * store) :=
  match ls, cs with
  | L :: rest, C :: crest =>
      do r <- eval_levels_s rest crest S ;
      match r with
      | (None, S1) => Ok (None, S1)
      | (Some crest', S1) =>
          match rest, crest' with
          | (_ :: _) as B :: _, Bc :: more =>
              do x <- eval_nodes_s L C B Bc S1 ;
              Ok (match fst x with Some (C', Bc') => Some (C' :: Bc' :: more) | None => None end, snd x)
          | _, _ => Ok (Some (C :: crest'), S1)
          end
      end
  | _, _ => Ok (Some cs, S)
  end.
Definition eval_term_s (t : @term V) (S : store) : res ((option V * @term V) * store) :=
  do r <- eval_levels_s (tm_levels t) (tm_caches t) S ;
  match r with
  | (None, S1) => Ok ((None, t), S1)
  | (Some ((Some v :: c0) :: cs), S1) =>
      let t' := mkTerm (tm_levels t) ((None :: c0) :: cs) in
      Ok ((if nonzero v then Some v else None, t'), S1)
  | (Some _, _) => Err AttributeError
  end.
(** pde.py:124-229: the terms of one candidate, one after the other, on the same arrays *)
Fixpoint eval_all_s (ts : list (@term V)) (S : store) : res ((list (option V) * list (@term V)) * store) :=
  match ts with
  | [] => Ok (([], []), S)
  | t :: ts' => do r <- eval_term_s t S ; do rs <- eval_all_s ts' (snd r) ;
                Ok ((fst (fst r) :: fst (fst rs), snd (fst r) :: snd (fst rs)), snd rs)
  end.
(** tree.py:31: a new leaf holds a private copy of its variable, an operator its function *)
Definition new_term (S : store) (ls : list (list node)) : @term V :=
  mkTerm ls (map (map (fun n => if Nat.eqb (nar n) 0 then Some (S (nent n)) else None)) ls).
End Store.

(** config.py:264-269 on rationals: [eta] is added to every entry until none is 0.  The loop is
    unbounded; fuel is the number of entries, which is proved to be enough. *)
Definition eta : Q := 1 # 10000000000.
Definition any_zero (y : list Q) : bool := existsb (fun q => Qeq_bool q 0) y.
Fixpoint shift_loop (fuel : nat) (y : list Q) : list Q :=
  if any_zero y then match fuel with 0 => y | S f => shift_loop f (map (fun q => (q + eta)%Q) y) end else y.
Definition shift_q (y : list Q) : list Q := shift_loop (List.length y) y.
