(** Picking grid times for a plot: kd/viz/_adapters/sga.py:238-263 (_resolve_time_indices)
    with the numpy functions it uses.  Numbers are exact rationals. *)
From Coq Require Import QArith Qabs List Bool Arith ZArith.
From Verif Require Import VizData.
Import ListNotations.
Local Open Scope nat_scope.

(** [x < y] as a boolean *)
Definition qltb (x y : Q) : bool := negb (Qle_bool y x).

(** numpy argmin of a list, first minimum; the running minimum [best] was found at [bi]. *)
Fixpoint argmin_from (best : Q) (bi i : nat) (l : list Q) : nat :=
  match l with
  | [] => bi
  | x :: r => if qltb x best then argmin_from x i (S i) r else argmin_from best bi (S i) r
  end.
(** np.argmin raises ValueError on an empty array (None). *)
Definition argmin (l : list Q) : option nat :=
  match l with [] => None | x :: r => Some (argmin_from x 0 1 r) end.
(** int(np.argmin(np.abs(t_coords - t_val))), sga.py:261 *)
Definition nearest (t : list Q) (v : Q) : option nat := argmin (map (fun x => Qabs (x - v)) t).

(** np.clip(r, lo, hi) = minimum(maximum(r, lo), hi), sga.py:256 *)
Definition clip (lo hi r : Q) : Q :=
  let m := if Qle_bool lo r then r else lo in if Qle_bool m hi then m else hi.

(** np.unique: sorted distinct values, sga.py:257 *)
Fixpoint uinsert (x : Q) (l : list Q) : list Q :=
  match l with
  | [] => [x]
  | y :: r => if Qeq_bool x y then l else if Qle_bool x y then x :: l else y :: uinsert x r
  end.
Definition unique (l : list Q) : list Q := fold_right uinsert [] l.

(** np.linspace(a, b, n), n >= 1, sga.py:246 *)
Definition linspace (a b : Q) (n : nat) : list Q :=
  match n with
  | 1 => [a]
  | _ => map (fun i => a + inject_Z (Z.of_nat i) * ((b - a) / inject_Z (Z.of_nat n - 1)))%Q (seq 0 n)
  end.

(** The raw requests, sga.py:240-250: [slices] is options['slice_times'] (None when absent),
    [count] is options['slice_count'] (3 when absent). *)
Definition raw_requests (t0 : Q) (t : list Q) (slices : option (list Q)) (count : Z) : list Q :=
  match slices with
  | None => linspace (qmin t0 t) (qmax t0 t) (Z.to_nat (Z.max 1 count))
  | Some [] => t0 :: t
  | Some l => l
  end.

(** _resolve_time_indices, sga.py:238-263: grid indices, their times, raw requests; None is the
    ValueError of t_coords.min() on an empty grid.  (Line 258, no request left, cannot happen.) *)
Definition resolve_time_indices (t : list Q) (slices : option (list Q)) (count : Z) : option (list nat * list Q * list Q) :=
  match t with
  | [] => None
  | t0 :: tr =>
      let raw := raw_requests t0 tr slices count in
      let req := unique (map (clip (qmin t0 tr) (qmax t0 tr)) raw) in
      let idx := map (fun v => match nearest t v with Some i => i | None => 0 end) req in
      Some (idx, map (fun i => nth i t 0%Q) idx, raw)
  end.
