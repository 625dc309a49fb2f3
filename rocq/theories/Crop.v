(** Model of the cropping of noisy data in KD_Discover: utils_noise.cut_bound
    (task/pde/utils_noise.py:31-45), its use on the values of the terms (stridge.py:504-511) and
    on the target (pde_pinn.py:312-325, pde.py:113-118). *)
From Coq Require Import QArith Qround Qabs.
From Verif Require Import Base Trees Library Stridge.
Local Open Scope nat_scope.

(** grid points of an array of the given shape, in numpy's row-major order *)
Fixpoint points (shape : list nat) : list (list nat) :=
  match shape with
  | [] => [[]]
  | n :: s => flat_map (fun i => map (cons i) (points s)) (seq 0 n)
  end.
(** an array: its shape and its entries in row-major order of the points *)
Record arr := mkArr { a_shape : list nat; a_at : list nat -> Q }.
(** reshape(-1) *)
Definition flat (a : arr) : list Q := map (a_at a) (points (a_shape a)).

(** utils_noise.py:34-35: the bounds along an axis of size [n].  The floating point products are
    left open: [low] and [up] are what math.floor(percent*dim) and math.ceil((1-percent)*dim)
    give; [low_exact]/[up_exact] below are these for exact arithmetic.  Both are taken to be
    non-negative (0 <= percent <= 1). *)
Record bounds := mkBounds { low : nat -> nat; up : nat -> nat }.
Definition low_exact (p : Q) (n : nat) : nat := Z.to_nat (Qfloor (p * inject_Z (Z.of_nat n))).
Definition up_exact (p : Q) (n : nat) : nat := Z.to_nat (Qceiling ((1 - p) * inject_Z (Z.of_nat n))).
Definition exact (p : Q) : bounds := mkBounds (low_exact p) (up_exact p).
(** a[l:u] along one axis of size n: the number of entries (a stop beyond the end means the end) *)
Definition kept (b : bounds) (n : nat) : nat := Nat.min (up b n) n - low b n.
(** utils_noise.py:36-43: arrays of rank 2, 3 and 4 are cut along every axis, others returned *)
Definition cut_bound (b : bounds) (a : arr) : arr :=
  match List.length (a_shape a) with
  | 2 | 3 | 4 =>
      mkArr (map (kept b) (a_shape a))
        (fun ix => a_at a (map (fun p => low b (fst p) + snd p) (combine (a_shape a) ix)))
  | _ => a
  end.
(** stridge.py:504-511: what evaluate_terms uses of a term's value.  [tensor] values (automatic
    differentiation) are not cut. *)
Definition term_column (b : bounds) (noise : bool) (tensor : bool) (a : arr) : list Q :=
  if tensor then flat a else if noise then flat (cut_bound b a) else flat a.
(** Regular data (pde.py:113-118): the target is ut.reshape(-1, 1), whole *)
Definition regular_target (ut : arr) : list Q := flat ut.
(** pde_pinn.py:312-325 FD_generate: the target is cut *)
Definition fd_target (b : bounds) (ut : arr) : list Q := flat (cut_bound b ut).
(** Regular mode: the fit of an expression to the data (pde.py:150, program.py:286-293,
    stridge.py:435-451).  [run] is the numpy evaluation of a term: an array, or None with the error. *)
Definition regular_fit (b : bounds) (noise : bool) (run : list token -> arr + string)
    (lstsq : list (list Q) -> list Q -> option (list Q)) (add_const : bool) (rg : regs) (sp : split) (ut : arr) : outcome :=
  calculate (fun l => match run l with inl a => TVal (term_column b noise false a) | inr e => TInvalid e end)
    lstsq add_const rg sp (regular_target ut).
