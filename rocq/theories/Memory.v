(** Model of kd/model/discover/dso/memory.py: UniqueQueue, UniquePriorityQueue
    (with CPython's heapq). *)
From Verif Require Import Base.

(** memory.py:78-116 ItemContainer: compared by score, equal by item. *)
Record cont (S D : Type) := mkC { c_score : S; c_item : string; c_data : D }.
Arguments mkC {S D}. Arguments c_score {S D}. Arguments c_item {S D}. Arguments c_data {S D}.

Definition sin (k : string) (l : list string) : bool := existsb (String.eqb k) l.
(** set.add / set.remove (KeyError when absent) *)
Definition set_add (k : string) (l : list string) : list string := if sin k l then l else k :: l.
Fixpoint list_del (k : string) (l : list string) : list string :=
  match l with [] => [] | x :: l' => if String.eqb k x then l' else x :: list_del k l' end.
Definition set_remove (k : string) (l : list string) : res (list string) :=
  if sin k l then Ok (list_del k l) else Err KeyError.

(** ** UniqueQueue (memory.py:163-199) *)
Section UQ.
Context {D : Type}.
Record uq := mkUQ { uq_heap : list (string * D); uq_unique : list string }.
(** list.remove with ItemContainer.__eq__: first container with that item. *)
Fixpoint remove_first (k : string) (l : list (string * D)) : res (list (string * D)) :=
  match l with
  | [] => Err ValueError
  | x :: l' => if String.eqb k (fst x) then Ok l' else do r <- remove_first k l' ; Ok (x :: r)
  end.
(** memory.py:191-199 pop *)
Definition uq_pop (q : uq) : res (uq * option (string * D)) :=
  match uq_heap q with
  | [] => Ok (q, None)
  | x :: h => do u <- set_remove (fst x) (uq_unique q) ; Ok (mkUQ h u, Some x)
  end.
(** memory.py:167-189 push; capacity None is np.inf *)
Definition at_capacity (cap : option nat) (n : nat) : bool :=
  match cap with Some c => Nat.leb c n | None => false end.
Definition uq_push (cap : option nat) (q : uq) (k : string) (d : D) : res uq :=
  if sin k (uq_unique q) then
    do h <- remove_first k (uq_heap q) ; Ok (mkUQ (h ++ [(k, d)]) (uq_unique q))
  else
    do q1 <- (if at_capacity cap (List.length (uq_heap q)) then do r <- uq_pop q ; Ok (fst r) else Ok q) ;
    Ok (mkUQ (uq_heap q1 ++ [(k, d)]) (set_add k (uq_unique q1))).
Definition uq_init : uq := mkUQ [] [].
Inductive uq_op := UPush (k : string) (d : D) | UPop.
Definition uq_step (cap : option nat) (q : uq) (o : uq_op) : res uq :=
  match o with UPush k d => uq_push cap q k d | UPop => do r <- uq_pop q ; Ok (fst r) end.
Fixpoint uq_run (cap : option nat) (q : uq) (ops : list uq_op) : res uq :=
  match ops with [] => Ok q | o :: ops' => do q1 <- uq_step cap q o ; uq_run cap q1 ops' end.
End UQ.
Arguments uq : clear implicits. Arguments uq_op : clear implicits.

(** ** heapq (CPython Lib/heapq.py, reference implementation) *)
Section Heapq.
Context {A : Type} (dft : A) (lt : A -> A -> bool).
Fixpoint upd (h : list A) (i : nat) (x : A) : list A :=
  match h, i with
  | [], _ => []
  | _ :: h', O => x :: h'
  | y :: h', S i' => y :: upd h' i' x
  end.
Definition get (h : list A) (i : nat) : A := nth i h dft.
(** heapq._siftdown(heap, 0, pos): [new] is heap[pos] on entry, written at the end. *)
Fixpoint siftdown_loop (fuel : nat) (h : list A) (pos : nat) (new : A) : list A :=
  match fuel with
  | O => upd h pos new
  | S f =>
      if Nat.ltb 0 pos then
        let pp := (pos - 1) / 2 in
        if lt new (get h pp) then siftdown_loop f (upd h pos (get h pp)) pp new
        else upd h pos new
      else upd h pos new
  end.
Definition siftdown (h : list A) (pos : nat) : list A := siftdown_loop pos h pos (get h pos).
(** heapq._siftup(heap, 0): bubble the smaller child up until hitting a leaf,
    then siftdown from there. *)
Fixpoint siftup_loop (fuel : nat) (h : list A) (pos : nat) (new : A) : list A * nat :=
  match fuel with
  | O => (upd h pos new, pos)
  | S f =>
      let c := 2 * pos + 1 in
      if Nat.ltb c (List.length h) then
        let cp := if Nat.ltb (c + 1) (List.length h) && negb (lt (get h c) (get h (c + 1))) then c + 1 else c in
        siftup_loop f (upd h pos (get h cp)) cp new
      else (upd h pos new, pos)
  end.
Definition siftup (h : list A) : list A :=
  let '(h1, pos) := siftup_loop (List.length h) h 0 (get h 0) in siftdown h1 pos.
Definition heappush (h : list A) (x : A) : list A := siftdown (h ++ [x]) (List.length h).
(** heappop of a non-empty heap: the popped item and the rest. *)
Definition heappop (h : list A) : option (A * list A) :=
  match rev h with
  | [] => None
  | last :: r =>
      match rev r with
      | [] => Some (last, [])
      | y :: h' => Some (y, siftup (upd (y :: h') 0 last))
      end
  end.
Definition heappushpop (h : list A) (x : A) : A * list A :=
  match h with
  | [] => (x, [])
  | y :: _ => if lt y x then (y, siftup (upd h 0 x)) else (x, h)
  end.
(** max(iterable) with > delegated to __lt__ : the first maximal element
    (heapq.nlargest(1, heap)[0]); min likewise. *)
Fixpoint first_max (best : A) (l : list A) : A :=
  match l with [] => best | x :: l' => first_max (if lt best x then x else best) l' end.
Fixpoint first_min (best : A) (l : list A) : A :=
  match l with [] => best | x :: l' => first_min (if lt x best then x else best) l' end.
(** sorted(l, reverse=True): stable, largest first (heapq.nlargest(len, heap)). *)
Fixpoint ins_desc (x : A) (l : list A) : list A :=
  match l with [] => [x] | y :: l' => if lt y x then x :: y :: l' else y :: ins_desc x l' end.
Definition sort_desc (l : list A) : list A := fold_left (fun acc x => ins_desc x acc) l [].
End Heapq.

(** ** UniquePriorityQueue (memory.py:202-333) *)
Section PQ.
Context {S D : Type} (ltb : S -> S -> bool).
Definition clt (a b : cont S D) : bool := ltb (c_score a) (c_score b).
Record pq := mkPQ { pq_heap : list (cont S D); pq_unique : list string }.
Definition pq_init : pq := mkPQ [] [].
(** memory.py:209-234 push *)
Definition pq_push (cap : option nat) (q : pq) (x : cont S D) : res pq :=
  if sin (c_item x) (pq_unique q) then Ok q
  else if at_capacity cap (List.length (pq_heap q)) then
    let '(p, h) := heappushpop x clt (pq_heap q) x in
    do u <- set_remove (c_item p) (set_add (c_item x) (pq_unique q)) ; Ok (mkPQ h u)
  else Ok (mkPQ (heappush x clt (pq_heap q) x) (set_add (c_item x) (pq_unique q))).
(** memory.py:289-301 pop *)
Definition pq_pop (q : pq) : res (pq * option (cont S D)) :=
  match pq_heap q with
  | [] => Ok (q, None)
  | y :: _ =>
      match heappop y clt (pq_heap q) with
      | None => Ok (q, None)
      | Some (x, h) => do u <- set_remove (c_item x) (pq_unique q) ; Ok (mkPQ h u, Some x)
      end
  end.
(** memory.py:303-323 get_max, get_min; 325-333 iter_in_order *)
Definition pq_max (q : pq) : option (cont S D) :=
  match pq_heap q with [] => None | x :: h => Some (first_max clt x h) end.
Definition pq_min (q : pq) : option (cont S D) :=
  match pq_heap q with [] => None | x :: h => Some (first_min clt x h) end.
Definition pq_in_order (q : pq) : list (cont S D) := sort_desc clt (pq_heap q).

Inductive pq_op := PPush (x : cont S D) | PPop.
Definition pq_step (cap : option nat) (q : pq) (o : pq_op) : res pq :=
  match o with PPush x => pq_push cap q x | PPop => do r <- pq_pop q ; Ok (fst r) end.
Fixpoint pq_run (cap : option nat) (q : pq) (ops : list pq_op) : res pq :=
  match ops with [] => Ok q | o :: ops' => do q1 <- pq_step cap q o ; pq_run cap q1 ops' end.

(** memory.py:236-287 push_rm_same: [close] is |a - b| < 1e-5, [len] the length
    stored in the sample; the first close entry (heap order) decides. *)
Definition push_rm_same (close : S -> S -> bool) (len : D -> nat) (cap : option nat) (q : pq) (x : cont S D) : res pq :=
  let idx := (fix go (i : nat) (l : list (cont S D)) : option (nat * cont S D) :=
     match l with [] => None | y :: l' => if close (c_score y) (c_score x) then Some (i, y) else go (i + 1) l' end) 0 (pq_heap q) in
  let '(same_long, id) := match idx with
     | Some (i, y) => if Nat.ltb (len (c_data y)) (len (c_data x)) then (true, None) else (false, Some (i, y))
     | None => (false, None) end in
  if sin (c_item x) (pq_unique q) || same_long then Ok q
  else if at_capacity cap (List.length (pq_heap q)) then
    let '(p, h) := match id with
       | Some (i, y) => (y, upd (pq_heap q) i x)
       | None => heappushpop x clt (pq_heap q) x end in
    do u <- set_remove (c_item p) (set_add (c_item x) (pq_unique q)) ; Ok (mkPQ h u)
  else Ok (mkPQ (heappush x clt (pq_heap q) x) (set_add (c_item x) (pq_unique q))).
End PQ.
Arguments pq : clear implicits. Arguments pq_op : clear implicits.
(** memory.py:371-377 push_best: np.argmax is the first maximum. *)
Fixpoint argmax_from {S} (ltb : S -> S -> bool) (i bi : nat) (best : S) (l : list S) : nat :=
  match l with
  | [] => bi
  | x :: l' => if ltb best x then argmax_from ltb (i + 1) i x l' else argmax_from ltb (i + 1) bi best l'
  end.
Definition argmax {S} (ltb : S -> S -> bool) (l : list S) : option nat :=
  match l with [] => None | x :: l' => Some (argmax_from ltb 1 0 x l') end.
