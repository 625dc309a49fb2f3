(** Model of kd/model/discover/program.py: _finish_tokens, from_tokens,
    from_str_tokens and the multi-object split of Program._init. *)
From Verif Require Import Base Library.

(** program.py:46: dangling = 1 + np.cumsum(arities - 1). [acc] is the running sum. *)
Fixpoint cumsum (acc : Z) (l : list Z) : list Z :=
  match l with [] => [] | x :: xs => (acc + x)%Z :: cumsum (acc + x)%Z xs end.
Definition danglings (ars : list nat) : list Z :=
  map (fun s => 1 + s)%Z (cumsum 0%Z (map (fun a => Z.of_nat a - 1)%Z ars)).

(** program.py:43: Library.arities[t] for each t; numpy raises IndexError. *)
Definition arities_of (lib : library) (tokens : list nat) : res (list nat) :=
  mapM (fun t => match nth_error (larities lib) t with Some a => Ok a | None => Err IndexError end) tokens.

(** program.py:21-58 _finish_tokens.  [rnd n] is the outcome of
    np.random.choice(input_tokens, size=n). *)
Definition finish_tokens (lib : library) (n_objects : nat) (rnd : nat -> list nat)
    (tokens : list nat) : res (list nat) :=
  do ars <- arities_of lib tokens ;
  let d := danglings ars in
  let hit (x : Z) := (x - 1 =? - Z.of_nat n_objects)%Z in
  match index_of hit d with
  | Some i => Ok (firstn (1 + i) tokens)         (* lines 47-50 *)
  | None =>
      if negb (Nat.eqb n_objects 1) then Err AssertionError   (* line 54 *)
      else match rev d with                                    (* dangling[-1] *)
           | [] => Err IndexError
           | x :: _ => if (x <? 0)%Z then Err ValueError
                       else Ok (tokens ++ rnd (Z.to_nat x))    (* line 55 *)
           end
  end.

(** What np.random.choice may return. *)
Definition choice_ok (lib : library) (rnd : nat -> list nat) : Prop :=
  forall n, List.length (rnd n) = n /\ Forall (fun t => In t (linput_tokens lib)) (rnd n).

(** program.py:265-283: splitting the traversal of a multi-object program.
    [ars] pairs every token with its arity; [dset] is the array of dangling
    values not yet seen, [cur] the tokens since i_prev, [sum] the cumulative sum. *)
Fixpoint split_objects {A} (ar : A -> nat) (dset : list Z) (sum : Z) (cur : list A) (trav : list A)
  : list (list A) :=
  match trav with
  | [] => []
  | t :: rest =>
      let sum' := (sum + (Z.of_nat (ar t) - 1))%Z in
      let dang1 := (1 + sum' - 1)%Z in
      if existsb (Z.eqb dang1) dset
      then (cur ++ [t]) :: split_objects ar (filter (fun z => negb (Z.eqb z dang1)) dset) sum' [] rest
      else split_objects ar dset sum' (cur ++ [t]) rest
  end.
Definition traversals {A} (ar : A -> nat) (n_objects : nat) (trav : list A) : list (list A) :=
  split_objects ar (map (fun j => - Z.of_nat j)%Z (seq 1 n_objects)) 0%Z [] trav.

(** ** The program cache (program.py:112-168).

    A token array has an element width in bytes (numpy dtype: int32 = 4 for
    from_str_tokens, int64 = 8 for actions drawn by torch.multinomial);
    [tobytes] is its little-endian byte image, which is the cache key. *)
Fixpoint le_bytes (w : nat) (z : Z) : list Z :=
  match w with O => [] | S w' => (z mod 256)%Z :: le_bytes w' (z / 256)%Z end.
Definition tobytes (w : nat) (tokens : list nat) : list Z :=
  flat_map (fun t => le_bytes w (Z.of_nat t)) tokens.

Record program := mkProg {
  p_tokens : list nat;
  p_on : nat;          (* on_policy_count *)
  p_off : nat;         (* off_policy_count *)
  p_orig_on : bool }.  (* originally_on_policy *)

(** Heap of programs (index = object identity) and class-level cache. *)
Record pstate := mkP { p_heap : list program; p_cache : list (list Z * nat) }.
Definition p_init : pstate := mkP [] [].

Definition beq_bytes (a b : list Z) : bool := if list_eq_dec Z.eq_dec a b then true else false.
Fixpoint cache_get (k : list Z) (c : list (list Z * nat)) : option nat :=
  match c with
  | [] => None
  | (k', i) :: c' => if beq_bytes k k' then Some i else cache_get k c'
  end.

(** program.py:262-264 Program._init counters *)
Definition new_program (tokens : list nat) (on : bool) : program :=
  mkProg tokens (if on then 1 else 0) (if on then 0 else 1) on.

Fixpoint update_nth {A} (i : nat) (f : A -> A) (l : list A) : list A :=
  match l, i with
  | [], _ => []
  | x :: xs, O => f x :: xs
  | x :: xs, S i' => x :: update_nth i' f xs
  end.
Definition bump (on : bool) (p : program) : program :=
  if on then mkProg (p_tokens p) (S (p_on p)) (p_off p) (p_orig_on p)
  else mkProg (p_tokens p) (p_on p) (S (p_off p)) (p_orig_on p).

(** A request: the token array with its width, skip_cache, on_policy, the
    random padding used if padding is needed (finish_tokens is always True in
    the callers of this code base). *)
Record request := mkReq {
  q_tokens : list nat; q_width : nat; q_skip : bool; q_on : bool; q_rnd : nat -> list nat }.

(** program.py:112-168 from_tokens.  Input tokens are int32, and np.append
    promotes to the wider type, so the width of the array is kept. *)
Definition from_tokens (lib : library) (stochastic : bool) (s : pstate) (q : request)
  : pstate * res nat :=
  match finish_tokens lib 1 (q_rnd q) (q_tokens q) with
  | Err e => (s, Err e)
  | Ok toks =>
      if q_skip q || stochastic then
        (mkP (p_heap s ++ [new_program toks (q_on q)]) (p_cache s), Ok (List.length (p_heap s)))
      else
        let k := tobytes (q_width q) toks in
        match cache_get k (p_cache s) with
        | Some i => (mkP (update_nth i (bump (q_on q)) (p_heap s)) (p_cache s), Ok i)
        | None =>
            let i := List.length (p_heap s) in
            (mkP (p_heap s ++ [new_program toks (q_on q)]) ((k, i) :: p_cache s), Ok i)
        end
  end.

(** Running a history of requests; the trace records every request with its answer. *)
Fixpoint run_requests (lib : library) (st : bool) (s : pstate) (qs : list request)
  : pstate * list (request * res nat) :=
  match qs with
  | [] => (s, [])
  | q :: qs' =>
      let '(s1, a) := from_tokens lib st s q in
      let '(s2, tr) := run_requests lib st s1 qs' in
      (s2, (q, a) :: tr)
  end.

