(** Model of kd/model/sga/sgapde/tree.py (Node, Tree, dfs, tree2str_merge) and of the
    operator and variable tables of kd/model/sga/sgapde/context.py. *)
From Verif Require Import Base.
Local Open Scope string_scope.

(** A table entry [name, child_num, payload] (context.py:447-470, 972-1000).  The payload
    (array or function) is identified by a number. *)
Record ent := mkEnt { ename : string; ear : nat; epay : nat }.
(** context.py:453-457 OPS, 459-462 ROOT, 464 OP1, 466-469 OP2.  Payload 0: the operator is
    determined by its name. *)
Definition op (n : string) (a : nat) : ent := mkEnt n a 0.
Definition OPS : list ent := [op "+" 2; op "-" 2; op "*" 2; op "/" 2; op "d" 2; op "d^2" 2; op "^2" 1; op "^3" 1].
Definition ROOT : list ent := [op "*" 2; op "d" 2; op "d^2" 2; op "/" 2; op "^2" 1; op "^3" 1].
Definition OP1 : list ent := [op "^2" 1; op "^3" 1].
Definition OP2 : list ent := [op "+" 2; op "-" 2; op "*" 2; op "/" 2; op "d" 2; op "d^2" 2].
(** tree.py:61, 124 [name in {'d', 'd^2'}] *)
Definition is_d (n : string) : bool := String.eqb n "d" || String.eqb n "d^2".
Definition nmem (n : string) (l : list string) : bool := existsb (String.eqb n) l.
Local Close Scope string_scope.

(** What Tree reads of the context: VARS, den, simple_mode. *)
Record sctx := mkCtx { c_vars : list ent; c_den : list ent; c_simple : bool }.
Definition den_names (c : sctx) : list string := map ename (c_den c).

(** context.py:972-1000 _build_vars, 471-483 den, 986-1008 the assertion on VARS.  Every axis
    has a coordinate grid.  Payload numbers are positions in VARS. *)
Definition entries (from : nat) (names : list string) : list ent :=
  map (fun p => mkEnt (snd p) 0 (fst p)) (combine (seq from (List.length names)) names).
Definition make_ctx (simple : bool) (fields axes params grads : list string) (lhs : string) : res sctx :=
  let rhs := filter (fun a => negb (String.eqb a lhs)) axes in
  let vars := entries 0 (fields ++ rhs ++ params ++ ["0"%string] ++ grads) in
  match rhs with
  | [] => Err ValueError
  | _ => if nmem lhs (map ename vars) then Err ValueError
         else Ok (mkCtx vars (entries (List.length fields) rhs) simple)
  end.

(** tree.py:6-36 Node: name, child_num and full are the entry; depth is the level it is
    stored in; [status] and [cache] are transient and appear where they are used. *)
Record node := mkNode { nent : ent; nst : option nat; npar : nat; nidx : nat }.
Notation nname n := (ename (nent n)).
Notation nar n := (ear (nent n)).

(** One random draw np.random.randint(0, n): at (depth, position). *)
Definition rng := nat -> nat -> nat -> nat.
Definition draw (l : list ent) (i : nat) : res ent :=
  match nth_error l i with Some e => Ok e | None => Err ValueError end.

(** tree.py:55-87, one new node: [pos] is len(self.tree[depth]), [pi] the parent's index,
    [j] which child; returns the node and next_cnt. *)
Definition gen_node (c : sctx) (isvar : nat -> nat -> bool) (pick : rng) (max_depth depth pos pi : nat)
    (parent : node) (j next_cnt : nat) : res (node * nat) :=
  let at_ l := draw l (pick depth pos (List.length l)) in
  if is_d (nname parent) && Nat.eqb j 1 then
    do e <- at_ (c_den c) ; Ok (mkNode e None pi pos, next_cnt)
  else if Nat.eqb depth (max_depth - 1) then
    do e <- at_ (c_vars c) ; Ok (mkNode e None pi pos, next_cnt)
  else if isvar depth pos then
    do e <- at_ (c_vars c) ; Ok (mkNode e None pi pos, next_cnt)
  else
    do e <- at_ OPS ; Ok (mkNode e (Some next_cnt) pi pos, next_cnt + ear e).
(** the loop over j *)
Fixpoint gen_kids (c : sctx) isvar pick (max_depth depth pi : nat) (parent : node) (js : list nat)
    (level : list node) (next_cnt : nat) : res (list node * nat) :=
  match js with
  | [] => Ok (level, next_cnt)
  | j :: js' =>
      do r <- gen_node c isvar pick max_depth depth (List.length level) pi parent j next_cnt ;
      gen_kids c isvar pick max_depth depth pi parent js' (level ++ [fst r]) (snd r)
  end.
(** the loop over parent_idx *)
Fixpoint gen_level (c : sctx) isvar pick (max_depth depth pi : nat) (parents : list node)
    (level : list node) (next_cnt : nat) : res (list node) :=
  match parents with
  | [] => Ok level
  | p :: ps =>
      do r <- gen_kids c isvar pick max_depth depth pi p (seq 0 (nar p)) level next_cnt ;
      gen_level c isvar pick max_depth depth (S pi) ps (fst r) (snd r)
  end.
(** the loop over depth; [k] levels remain *)
Fixpoint gen_levels (c : sctx) isvar pick (max_depth : nat) (k depth : nat) (parents : list node) : res (list (list node)) :=
  match k with
  | O => Ok []
  | S k' => do l <- gen_level c isvar pick max_depth depth 0 parents [] 0 ;
            do r <- gen_levels c isvar pick max_depth k' (S depth) l ; Ok (l :: r)
  end.

(** tree.py:160-167 dfs; the levels from [depth] on. *)
Fixpoint dfs (ls : list (list node)) (idx : nat) : res (list string) :=
  match ls with
  | [] => Err IndexError
  | L :: rest =>
      match nth_error L idx with
      | None => Err IndexError
      | Some n =>
          do r <- match nst n with
                  | None => Ok []
                  | Some st => mapM (fun ix => dfs rest (st + ix)) (seq 0 (nar n))
                  end ;
          Ok (nname n :: List.concat r)
      end
  end.

(** tree.py:170-182 tree2str_merge: the working name and status of the nodes of one level. *)
Definition merge_into (parent : ent) (st : string * Z) (child : string) : string * Z :=
  let '(name, status) := st in
  (if (status =? 1)%Z then
     if Nat.eqb (ear parent) 2 then (name ++ " " ++ child ++ ")")%string
     else ("( " ++ name ++ " " ++ child ++ ")")%string
   else if (1 <? status)%Z then ("(" ++ child ++ " " ++ name)%string
   else name, (status - 1)%Z).
Fixpoint set_at {A} (l : list A) (i : nat) (x : A) : list A :=
  match l, i with [], _ => [] | _ :: l', O => x :: l' | y :: l', S i' => y :: set_at l' i' x end.
Fixpoint merge_level (L : list node) (W : list (string * Z)) (kids : list (node * (string * Z))) : res (list (string * Z)) :=
  match kids with
  | [] => Ok W
  | (k, (name, status)) :: kids' =>
      if (status =? 0)%Z then
        match nth_error L (npar k), nth_error W (npar k) with
        | Some p, Some w => merge_level L (set_at W (npar k) (merge_into (nent p) w name)) kids'
        | _, _ => Err IndexError
        end
      else merge_level L W kids'
  end.
Definition merge_init (L : list node) : list (string * Z) := map (fun n => (nname n, Z.of_nat (nar n))) L.
Fixpoint merge_levels (ls : list (list node)) : res (list (string * Z)) :=
  match ls with
  | [] => Err IndexError
  | L :: rest =>
      match rest with
      | [] => Ok (merge_init L)
      | L' :: _ => do w <- merge_levels rest ; merge_level L (merge_init L) (combine L' w)
      end
  end.
Definition inorder (ls : list (list node)) : res string :=
  do w <- merge_levels ls ; match w with (s, _) :: _ => Ok s | [] => Err IndexError end.

Record stree := mkTree { t_levels : list (list node); t_preorder : list string; t_inorder : string }.
(** tree.py:91-95, 153-157: both notations are recomputed. *)
Definition finish (ls : list (list node)) : res stree :=
  do p <- dfs ls 0 ; do i <- inorder ls ; Ok (mkTree ls p i).
(** tree.py:40-95 Tree.__init__ *)
Definition gen_tree (c : sctx) (isvar : nat -> nat -> bool) (pick : rng) (max_depth : nat) : res stree :=
  match max_depth with
  | O => Err IndexError                                              (* self.tree[0] *)
  | S k =>
      do r <- draw ROOT (pick 0 0 (List.length ROOT)) ;
      let root := mkNode r (Some 0) 0 0 in
      do ls <- gen_levels c isvar pick max_depth k 1 [root] ;
      finish ([root] :: ls)
  end.

(** ** Mutation (tree.py:101-157).  For every visited node [choice depth index] says whether
    it is mutated and what the successive draws return; [None] as a result means that the
    while loop is still drawing. *)
Section Mutate.
Variable c : sctx.
(** tree.py:123-127: the first draw that leaves the loop *)
Fixpoint draw_leaf (parent temp : string) (draws : list ent) : option ent :=
  match draws with
  | [] => None
  | e :: es =>
      if String.eqb (ename e) temp || (is_d parent && negb (nmem (ename e) (den_names c)))
      then if c_simple c && is_d parent && String.eqb (ename e) "x" then Some e else draw_leaf parent temp es
      else Some e
  end.
(** tree.py:133-135 *)
Fixpoint draw_op1 (temp : string) (draws : list ent) : option ent :=
  match draws with [] => None | e :: es => if String.eqb (ename e) temp then draw_op1 temp es else Some e end.
(** tree.py:136-140 *)
Fixpoint draw_op2 (temp right : string) (draws : list ent) : option ent :=
  match draws with
  | [] => None
  | e :: es => if String.eqb (ename e) temp || (is_d (ename e) && negb (nmem right (den_names c)))
               then draw_op2 temp right es else Some e
  end.
(** tree.py:113-149: one visited node [cur] of the level, child of [parent]; [below] is the
    next level.  Returns the node, next_cnt and idx_this_depth. *)
Definition mute_node (choice : option (list ent)) (below : list (list node)) (pi : nat) (parent cur : node) (next_cnt idx : nat)
  : res (option (node * nat * nat)) :=
  match choice with
  | None => Ok (Some (cur, next_cnt + nar cur, idx))
  | Some draws =>
      if Nat.eqb (nar cur) 0 then
        Ok (match draw_leaf (nname parent) (nname cur) draws with
            | Some e => Some (mkNode e None pi idx, next_cnt, idx + 1) | None => None end)
      else if Nat.eqb (nar cur) 1 then
        Ok (match draw_op1 (nname cur) draws with
            | Some e => Some (mkNode e (Some next_cnt) pi idx, next_cnt + ear e, idx + 1) | None => None end)
      else if Nat.eqb (nar cur) 2 then
        match below, nst cur with
        | L :: _, Some st =>
            match nth_error L (st + 1) with
            | None => Err IndexError
            | Some r => Ok (match draw_op2 (nname cur) (nname r) draws with
                            | Some e => Some (mkNode e (Some next_cnt) pi idx, next_cnt + ear e, idx + 1) | None => None end)
            end
        | [], _ => Err IndexError
        | _, None => Err TypeError
        end
      else Err NotImplementedError
  end.
(** the loop over j: the node is self.tree[depth][parent.child_st + j], replaced in place *)
Fixpoint mute_kids (choice : nat -> option (list ent)) (below : list (list node)) (pi : nat) (parent : node) (js : list nat)
    (level : list node) (next_cnt idx : nat) : res (option (list node * nat * nat)) :=
  match js with
  | [] => Ok (Some (level, next_cnt, idx))
  | j :: js' =>
      match nst parent with
      | None => Err TypeError
      | Some st =>
          match nth_error level (st + j) with
          | None => Err IndexError
          | Some cur =>
              do r <- mute_node (choice (st + j)) below pi parent cur next_cnt idx ;
              match r with
              | None => Ok None
              | Some (n, cnt, i) => mute_kids choice below pi parent js' (set_at level (st + j) n) cnt i
              end
          end
      end
  end.
Fixpoint mute_level (choice : nat -> option (list ent)) (below : list (list node)) (pi : nat) (parents : list node)
    (level : list node) (next_cnt idx : nat) : res (option (list node)) :=
  match parents with
  | [] => Ok (Some level)
  | p :: ps =>
      do r <- mute_kids choice below pi p (seq 0 (nar p)) level next_cnt idx ;
      match r with None => Ok None | Some (l, cnt, i) => mute_level choice below (S pi) ps l cnt i end
  end.
(** the loop over depth; [ls] are the levels from [depth] on, [parents] the (already
    mutated) level above. *)
Fixpoint mute_levels (choice : nat -> nat -> option (list ent)) (depth : nat) (parents : list node) (ls : list (list node))
  : res (option (list (list node))) :=
  match ls with
  | [] => Ok (Some [])
  | L :: rest =>
      do r <- mute_level (choice depth) rest 0 parents L 0 0 ;
      match r with
      | None => Ok None
      | Some L' => do rs <- mute_levels choice (S depth) L' rest ;
                   Ok (match rs with Some x => Some (L' :: x) | None => None end)
      end
  end.
Definition mutate (choice : nat -> nat -> option (list ent)) (t : stree) : res (option stree) :=
  match t_levels t with
  | [] => Err IndexError
  | L :: rest => do r <- mute_levels choice 1 L rest ;
                 match r with None => Ok None | Some ls => do f <- finish (L :: ls) ; Ok (Some f) end
  end.
(** Draws come from the table the code draws from: VARS for a leaf, OP1/OP2 for operators. *)
Definition draws_from (cur : node) (draws : list ent) : Prop :=
  Forall (fun e => In e (match nar cur with 0 => c_vars c | 1 => OP1 | _ => OP2 end)) draws.
End Mutate.
