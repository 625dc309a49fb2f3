(** Model of the finite difference routines: kd/utils/utils_fd.py (orders 1-4),
    kd/model/sga/sgapde/PDE_find.py:14-74 (FiniteDiff, FiniteDiff2, Diff, Diff2) and
    kd/model/discover/task/pde/utils_fd.py (Diff, Diff2, Diff3, Diff4, Diff_2, Diff2_2, Diff_3,
    Diff2_3).  Numbers are rationals; rounding is not modelled. *)
From Coq Require Import QArith.
From Verif Require Import Base.
Local Open Scope nat_scope.
Local Notation at_ u i := (nth i u 0%Q).

(** First derivative: central inside, one-sided of second order at the ends.  The three copies
    differ in how the same weights are written: utils_fd.py:53-57 divides (-3, 4, -1) by 2 dx,
    PDE_find.py:14-27 and discover utils_fd.py:6-17, 44-50, 220-239 divide (-3/2, 2, -1/2) by dx. *)
Definition d1_left (u : list Q) (dx : Q) : Q := (((- 3) * at_ u 0 + 4 * at_ u 1 - at_ u 2) / (2 * dx))%Q.
Definition d1_right (u : list Q) (dx : Q) : Q :=
  let n := List.length u in ((3 * at_ u (n - 1) - 4 * at_ u (n - 2) + at_ u (n - 3)) / (2 * dx))%Q.
Definition d1_left' (u : list Q) (dx : Q) : Q := (((- 3) / 2 * at_ u 0 + 2 * at_ u 1 - at_ u 2 / 2) / dx)%Q.
Definition d1_right' (u : list Q) (dx : Q) : Q :=
  let n := List.length u in ((3 / 2 * at_ u (n - 1) - 2 * at_ u (n - 2) + at_ u (n - 3) / 2) / dx)%Q.
Definition d1_mid (u : list Q) (dx : Q) (i : nat) : Q := ((at_ u (i + 1) - at_ u (i - 1)) / (2 * dx))%Q.
(** Second derivative (utils_fd.py:58-62, PDE_find.py:30-41, discover utils_fd.py:20-30, 68-73, 250-290) *)
Definition d2_mid (u : list Q) (dx : Q) (i : nat) : Q := ((at_ u (i + 1) - 2 * at_ u i + at_ u (i - 1)) / (dx * dx))%Q.
Definition d2_left (u : list Q) (dx : Q) : Q := ((2 * at_ u 0 - 5 * at_ u 1 + 4 * at_ u 2 - at_ u 3) / (dx * dx))%Q.
Definition d2_right (u : list Q) (dx : Q) : Q :=
  let n := List.length u in ((2 * at_ u (n - 1) - 5 * at_ u (n - 2) + 4 * at_ u (n - 3) - at_ u (n - 4)) / (dx * dx))%Q.
(** Third and fourth (utils_fd.py:63-72) *)
Definition d3_mid (u : list Q) (dx : Q) (i : nat) : Q :=
  ((- at_ u (i + 2) + 2 * at_ u (i + 1) - 2 * at_ u (i - 1) + at_ u (i - 2)) / (2 * (dx * dx * dx)))%Q.
Definition d4_mid (u : list Q) (dx : Q) (i : nat) : Q :=
  ((at_ u (i + 2) - 4 * at_ u (i + 1) + 6 * at_ u i - 4 * at_ u (i - 1) + at_ u (i - 2)) / (dx * dx * dx * dx))%Q.
(** the array with the given first, middle and last entries *)
Definition ends (n : nat) (l r : Q) (mid : nat -> Q) : list Q :=
  map (fun i => if Nat.eqb i 0 then l else if Nat.eqb i (n - 1) then r else mid i) (seq 0 n).
(** zeros in the two first and two last entries *)
Definition inner (n : nat) (mid : nat -> Q) : list Q :=
  map (fun i => if Nat.leb 2 i && Nat.ltb i (n - 2) then mid i else 0%Q) (seq 0 n).

(** kd.utils.FiniteDiff (utils_fd.py:16-74): indices out of range raise IndexError; an order
    other than 1, 2, 3, 4 leaves the zeros. *)
Definition finite_diff (u : list Q) (dx : Q) (order : nat) : res (list Q) :=
  let n := List.length u in
  match order with
  | 1 => if Nat.ltb n 3 then Err IndexError else Ok (ends n (d1_left u dx) (d1_right u dx) (d1_mid u dx))
  | 2 => if Nat.ltb n 4 then Err IndexError else Ok (ends n (d2_left u dx) (d2_right u dx) (d2_mid u dx))
  | 3 => Ok (inner n (d3_mid u dx))
  | 4 => Ok (inner n (d4_mid u dx))
  | _ => Ok (repeat 0%Q n)
  end.
(** PDE_find.FiniteDiff and FiniteDiff2 (PDE_find.py:14-41) *)
Definition sga_diff (u : list Q) (dx : Q) : res (list Q) :=
  let n := List.length u in
  if Nat.ltb n 3 then Err ValueError else Ok (ends n (d1_left' u dx) (d1_right' u dx) (d1_mid u dx)).
Definition sga_diff2 (u : list Q) (dx : Q) : res (list Q) :=
  let n := List.length u in
  if Nat.ltb n 4 then Err ValueError else Ok (ends n (d2_left u dx) (d2_right u dx) (d2_mid u dx)).
(** The same lines in DISCOVER (utils_fd.py:6-30): IndexError on short axes. *)
Definition disc_diff (u : list Q) (dx : Q) : res (list Q) :=
  let n := List.length u in
  if Nat.ltb n 3 then Err IndexError else Ok (ends n (d1_left' u dx) (d1_right' u dx) (d1_mid u dx)).
Definition disc_diff2 (u : list Q) (dx : Q) : res (list Q) :=
  let n := List.length u in
  if Nat.ltb n 4 then Err IndexError else Ok (ends n (d2_left u dx) (d2_right u dx) (d2_mid u dx)).
(** Diff3 and Diff4 (discover utils_fd.py:81-124) *)
Definition disc_diff3 (u : list Q) (dx : Q) : res (list Q) := do v <- disc_diff2 u dx ; disc_diff v dx.
Definition disc_diff4 (u : list Q) (dx : Q) : res (list Q) := do v <- disc_diff2 u dx ; disc_diff2 v dx.
(** Diff_2 and Diff2_2 along an axis (discover utils_fd.py:128-192): the ends wrap around. *)
Definition wrap_diff (u : list Q) (dx : Q) : list Q :=
  let n := List.length u in
  ends n ((at_ u 1 - at_ u (n - 1)) / 2 / dx)%Q ((at_ u 0 - at_ u (n - 2)) / 2 / dx)%Q (fun i => ((at_ u (i + 1) - at_ u (i - 1)) / 2 / dx)%Q).
Definition wrap_diff2 (u : list Q) (dx : Q) : list Q :=
  let n := List.length u in
  ends n ((at_ u 1 + at_ u (n - 1) - 2 * at_ u 0) / (dx * dx))%Q ((at_ u 0 + at_ u (n - 2) - 2 * at_ u (n - 1)) / (dx * dx))%Q (d2_mid u dx).

(** N-dimensional arrays: a shape and a function of the index.  np.apply_along_axis
    (PDE_find.py:58-74) and the slicing copies apply a line routine to every line. *)
Fixpoint put_at (l : list nat) (i x : nat) : list nat :=
  match l, i with [], _ => [] | _ :: l', 0 => x :: l' | y :: l', S j => y :: put_at l' j x end.
Definition line (shape : list nat) (u : list nat -> Q) (ax : nat) (idx : list nat) : list Q :=
  map (fun j => u (put_at idx ax j)) (seq 0 (nth ax shape 0)).
(** the entry of the result at [idx]; an axis out of range raises ValueError (PDE_find.py:44-56) *)
Definition along (f : list Q -> Q -> res (list Q)) (shape : list nat) (u : list nat -> Q) (dx : Q) (ax : nat) (idx : list nat) : res Q :=
  if Nat.ltb ax (List.length shape) then do r <- f (line shape u ax idx) dx ; Ok (nth (nth ax idx 0) r 0%Q) else Err ValueError.

(** ** Specification *)
(** polynomials by their coefficients, lowest first *)
Fixpoint peval (c : list Q) (x : Q) : Q := match c with [] => 0%Q | a :: c' => (a + x * peval c' x)%Q end.
Fixpoint pderiv_from (k : nat) (c : list Q) : list Q :=
  match c with [] => [] | a :: c' => (inject_Z (Z.of_nat k) * a)%Q :: pderiv_from (S k) c' end.
Definition pderiv (c : list Q) : list Q := match c with [] => [] | _ :: c' => pderiv_from 1 c' end.
(** node i of the uniform grid, and a polynomial on it *)
Definition node (x0 dx : Q) (i : nat) : Q := (x0 + inject_Z (Z.of_nat i) * dx)%Q.
Definition sampled (c : list Q) (x0 dx : Q) (n : nat) : list Q := map (fun i => peval c (node x0 dx i)) (seq 0 n).
(** [r] agrees with the polynomial [c] at the nodes lo <= i < hi *)
Definition agrees (r : list Q) (c : list Q) (x0 dx : Q) (lo hi : nat) : Prop :=
  forall i, lo <= i < hi -> (nth i r 0 == peval c (node x0 dx i))%Q.
