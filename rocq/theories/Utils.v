(** Model of the numeric helpers of kd/model/discover/utils.py. *)
From Coq Require Import QArith Qabs.
From Verif Require Import Base Num.
Local Open Scope nat_scope.

(** ** is_pareto_efficient (utils.py:138-166) *)
Notation cost := (list num) (only parsing).
(** np.any(x < y) for two rows *)
Definition any_lt (x y : cost) : bool := existsb (fun p => nlt (fst p) (snd p)) (combine x y).
(** A point is (original index, row): the arrays is_efficient and costs are kept together. *)
Notation point := (nat * list num)%type (only parsing).
(** the mask of one pass *)
Definition pmask (L : list point) (k : nat) (pv : cost) : list bool :=
  map (fun e => Nat.eqb (fst e) k || any_lt (snd (snd e)) pv) (combine (seq 0 (List.length L)) L).
Definition btrue (l : list bool) : nat := count (fun b => b) l.
Fixpoint pareto_loop (fuel : nat) (L : list point) (k : nat) : list point :=
  match fuel with
  | O => L
  | S f =>
      match nth_error L k with
      | None => L                                                    (* next_point_index >= len(costs) *)
      | Some p =>
          let m := pmask L k (snd p) in
          pareto_loop f (compress L m) (btrue (firstn k m) + 1)
      end
  end.
Definition is_pareto_efficient (costs : list cost) : list bool :=
  let final := pareto_loop (List.length costs) (combine (seq 0 (List.length costs)) costs) 0 in
  map (fun i => existsb (fun p => Nat.eqb (fst p) i) final) (seq 0 (List.length costs)).

(** ** weighted_quantile (utils.py:189-214) *)
(** A stable sort of the values, each with its weight (np.argsort leaves the order of equal
    values open; it does not change the result below). *)
Fixpoint winsert (x : Q * Q) (l : list (Q * Q)) : list (Q * Q) :=
  match l with [] => [x] | y :: l' => if Qle_bool (fst x) (fst y) then x :: l else y :: winsert x l' end.
Fixpoint wsort (l : list (Q * Q)) : list (Q * Q) := match l with [] => [] | x :: l' => winsert x (wsort l') end.
(** argmax(cumsum >= q): the first such position, position 0 if there is none. *)
Fixpoint wfirst (acc q : Q) (l : list (Q * Q)) : option Q :=
  match l with [] => None | (v, w) :: l' => if Qle_bool q (acc + w) then Some v else wfirst (acc + w) q l' end.
Definition weighted_quantile (l : list (Q * Q)) (q : Q) : res Q :=
  match wsort l with
  | [] => Err ValueError                                              (* argmax of an empty sequence *)
  | (v0, w0) :: s => Ok (match wfirst 0 q ((v0, w0) :: s) with Some v => v | None => v0 end)
  end.

(** ** filter_same (utils.py:61-80): keep a program unless a kept one has nearly its reward. *)
Definition near (a b : Q) : bool := negb (Qle_bool (1 # 100000) (Qabs (a - b))).
Fixpoint filter_same_loop {P} (r : P -> Q) (kept : list P) (l : list P) : list P :=
  match l with
  | [] => kept
  | p :: l' => if existsb (fun k => near (r p) (r k)) kept then filter_same_loop r kept l' else filter_same_loop r (kept ++ [p]) l'
  end.
Definition filter_same {P} (r : P -> Q) (l : list P) : list P := filter_same_loop r [] l.
