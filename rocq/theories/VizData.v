(** Model of the plotting data contracts: kd/viz/_contracts.py.

    An ndarray is a shape and a value for every index tuple; values are exact
    rationals (floating-point rounding, NaN and integer wrap-around are not
    modelled).  Object identity and metadata contents are kept only where the
    code's treatment of them matters. *)
From Coq Require Import QArith List Bool Arith Lia ZArith.
Import ListNotations.
Local Open Scope nat_scope.

Record arr := { shape : list nat; at_ : list nat -> Q }.

(** Outcome of a constructor: a value, or the exception raised. *)
Inductive vres (A : Type) := VOk (a : A) | VValueError | VTypeError | VIndexError.
Arguments VOk {A} a. Arguments VValueError {A}. Arguments VTypeError {A}. Arguments VIndexError {A}.

(** numpy [a.size] *)
Definition size (a : arr) : nat := fold_right Nat.mul 1 (shape a).

(** All index tuples of a shape in C order. *)
Fixpoint indices (s : list nat) : list (list nat) :=
  match s with
  | [] => [[]]
  | n :: r => flat_map (fun i => map (cons i) (indices r)) (seq 0 n)
  end.

(** numpy [a.reshape(-1)] of a C-ordered array, as a list. *)
Definition ravel (a : arr) : list Q := map (at_ a) (indices (shape a)).

(** numpy broadcasting of shapes, aligned at the end. *)
Fixpoint bshape_rev (a b : list nat) : option (list nat) :=
  match a, b with
  | [], _ => Some b
  | _, [] => Some a
  | x :: a, y :: b =>
      match bshape_rev a b with
      | None => None
      | Some r => if Nat.eqb x y then Some (x :: r) else if Nat.eqb x 1 then Some (y :: r)
                  else if Nat.eqb y 1 then Some (x :: r) else None
      end
  end.
Definition bshape (a b : list nat) : option (list nat) :=
  match bshape_rev (rev a) (rev b) with Some r => Some (rev r) | None => None end.

(** The operand index read for a result index (numpy broadcasting). *)
Fixpoint bidx_rev (s idx : list nat) : list nat :=
  match s, idx with
  | [], _ => []
  | _ :: _, [] => []
  | n :: s, i :: idx => (if Nat.eqb n 1 then 0 else i) :: bidx_rev s idx
  end.
Definition bidx (s idx : list nat) : list nat := rev (bidx_rev (rev s) (rev idx)).

(** numpy [a - b] *)
Definition sub (a b : arr) : option arr :=
  match bshape (shape a) (shape b) with
  | None => None
  | Some s => Some {| shape := s; at_ := fun i => (at_ a (bidx (shape a) i) - at_ b (bidx (shape b) i))%Q |}
  end.

Definition shape_eqb (a b : list nat) : bool := if list_eq_dec Nat.eq_dec a b then true else false.

(** *** ResidualPlotData, _contracts.py:11-58 *)
Record residual_data := { r_actual : arr; r_predicted : arr; r_residuals : arr; r_coords : option arr }.

(** _contracts.py:19-36 [__post_init__]; [coords.shape[0]] and
    [actual.shape[0]] raise IndexError on 0-d arrays. *)
Definition residual_init (actual predicted residuals : arr) (coords : option arr) : vres residual_data :=
  if negb (shape_eqb (shape actual) (shape predicted)) then VValueError
  else if negb (shape_eqb (shape actual) (shape residuals)) then VValueError
  else match coords with
       | None => VOk {| r_actual := actual; r_predicted := predicted; r_residuals := residuals; r_coords := None |}
       | Some c =>
           match shape c, shape actual with
           | n :: _, m :: _ => if Nat.eqb n m
                               then VOk {| r_actual := actual; r_predicted := predicted; r_residuals := residuals; r_coords := Some c |}
                               else VValueError
           | _, _ => VIndexError
           end
       end.

(** _contracts.py:38-58 [from_actual_predicted] *)
Definition residual_from (actual predicted : arr) (coords : option arr) : vres residual_data :=
  match sub actual predicted with
  | None => VValueError
  | Some r => residual_init actual predicted r coords
  end.

(** *** OptimizationHistoryData (61-93) and RewardEvolutionData (358-386):
    the same check, [extra] being the optional series given. *)
Definition series_init (steps main : arr) (extra : list (option arr)) : vres (arr * arr * list (option arr)) :=
  if negb (shape_eqb (shape steps) (shape main)) then VValueError
  else if forallb (fun o => match o with None => true | Some a => shape_eqb (shape a) (shape steps) end) extra
       then VOk (steps, main, extra) else VValueError.

(** *** _normalize_spatial_coords, 96-108.  [CList] is a Python list/tuple
    whose items are sequences (ndarray/list/tuple, given as the array
    [np.asarray] makes of them) or numbers. *)
Inductive citem := CSeq (a : arr) | CNum (q : Q).
Inductive cinput := CArr (a : arr) | CList (l : list citem).

(** [np.asarray] of a number (a 0-d array). *)
Definition scalar (q : Q) : arr := {| shape := []; at_ := fun _ => q |}.
(** [np.asarray] of a flat list of numbers. *)
Definition vector (l : list Q) : arr := {| shape := [length l]; at_ := fun i => nth (hd 0 i) l 0%Q |}.

Fixpoint numbers (l : list citem) : option (list Q) :=
  match l with
  | [] => Some []
  | CNum q :: r => match numbers r with Some x => Some (q :: x) | None => None end
  | CSeq _ :: _ => None
  end.

Definition normalize_spatial_coords (c : cinput) : vres (list arr) :=
  match c with
  | CArr a => VOk [a]
  | CList (CSeq a :: r) => VOk (map (fun x => match x with CSeq a => a | CNum q => scalar q end) (CSeq a :: r))
  | CList l => match numbers l with Some q => VOk [vector q] | None => VValueError end
  end.

(** *** FieldComparisonData, 111-175 *)
Record field_data := { spatial : list arr; t_coords : arr; true_f : arr; pred_f : arr; resid_f : arr; metadata : list (nat * nat) }.

(** _contracts.py:153 [expected_shape] *)
Definition expected_shape (sp : list arr) (t : arr) : list nat := map size sp ++ [size t].

(** _contracts.py:120-165 [__init__] after normalisation of the coordinates;
    line 161's subtraction is of equal shapes. *)
Definition field_init (sp : list arr) (t tf pf : arr) (rf : option arr) (md : option (list (nat * nat))) : vres field_data :=
  let m := match md with Some m => m | None => [] end in
  if negb (shape_eqb (shape tf) (shape pf)) then VValueError
  else if negb (shape_eqb (shape tf) (expected_shape sp t)) then VValueError
  else match rf with
       | None => match sub tf pf with
                 | Some r => VOk {| spatial := sp; t_coords := t; true_f := tf; pred_f := pf; resid_f := r; metadata := m |}
                 | None => VValueError
                 end
       | Some r => if negb (shape_eqb (shape r) (expected_shape sp t)) then VValueError
                   else VOk {| spatial := sp; t_coords := t; true_f := tf; pred_f := pf; resid_f := r; metadata := m |}
       end.

(** _contracts.py:132-138: the public constructor. *)
Definition field_new (spatial_coords x_coords : option cinput) (t tf pf : arr) (rf : option arr) (md : option (list (nat * nat))) : vres field_data :=
  match (match spatial_coords with Some c => Some c | None => x_coords end) with
  | None => VTypeError
  | Some c => match normalize_spatial_coords c with
              | VOk sp => field_init sp t tf pf rf md
              | VValueError => VValueError | VTypeError => VTypeError | VIndexError => VIndexError
              end
  end.

(** List surgery used by np.take and by the coordinate filter (219). *)
Fixpoint remove_at {A} (i : nat) (l : list A) : list A :=
  match l, i with [], _ => [] | _ :: r, 0 => r | x :: r, S i => x :: remove_at i r end.
Fixpoint insert_at {A} (i : nat) (x : A) (l : list A) : list A :=
  match i, l with 0, _ => x :: l | S i, y :: r => y :: insert_at i x r | S _, [] => [x] end.

(** [np.take(a, i, axis)]: IndexError unless [i] is within the axis. *)
Definition take (a : arr) (i axis : nat) : vres arr :=
  if Nat.ltb i (nth axis (shape a) 0)
  then VOk {| shape := remove_at axis (shape a); at_ := fun idx => at_ a (insert_at axis i idx) |}
  else VIndexError.

(** [max(0, min(x, hi))] (206, 213); [hi] may be -1. *)
Definition clamp (x hi : Z) : nat := Z.to_nat (Z.max 0 (Z.min x hi)).

(** _contracts.py:196-229: one iteration of the loop. *)
Definition slice_step (d : field_data) (sa : Z) (si : option Z) : vres field_data :=
  let n := length (spatial d) in
  let sa := (if sa <? 0 then Z.of_nat n + sa else sa)%Z in
  let ax := clamp sa (Z.of_nat n - 1) in
  let sz := size (nth ax (spatial d) {| shape := [0]; at_ := fun _ => 0%Q |}) in
  let si := match si with Some i => i | None => Z.of_nat (sz / 2) end in
  let ix := clamp si (Z.of_nat sz - 1) in
  match take (true_f d) ix ax, take (pred_f d) ix ax, take (resid_f d) ix ax with
  | VOk tf, VOk pf, VOk rf => field_init (remove_at ax (spatial d)) (t_coords d) tf pf (Some rf) None
  | _, _, _ => VIndexError
  end.

(** _contracts.py:177-231 [slice_3d_to_2d]; [fuel] is the number of spatial
    dimensions, each iteration removes one. *)
Fixpoint slice_loop (fuel : nat) (d : field_data) (sa : Z) (si : option Z) : vres field_data :=
  if Nat.leb (length (spatial d)) 2 then VOk d else
  match fuel with
  | 0 => VOk d
  | S fuel => match slice_step d sa si with
              | VOk d' => slice_loop fuel d' (-1)%Z None
              | e => e
              end
  end.
Definition slice_3d_to_2d (d : field_data) (sa : Z) (si : option Z) : vres field_data :=
  slice_loop (length (spatial d)) d sa si.

(** *** TimeSliceComparisonData, 247-300 *)
Fixpoint qmin (x : Q) (l : list Q) : Q := match l with [] => x | y :: r => qmin (if Qle_bool x y then x else y) r end.
Fixpoint qmax (x : Q) (l : list Q) : Q := match l with [] => x | y :: r => qmax (if Qle_bool x y then y else x) r end.

(** _contracts.py:278-290; [t_coords.min()] raises ValueError when empty. *)
Definition time_slice_init (sp : list arr) (t tf pf st : arr) : vres (list arr * arr * arr * arr * arr) :=
  if negb (shape_eqb (shape tf) (shape pf)) then VValueError
  else if negb (shape_eqb (shape tf) (expected_shape sp t)) then VValueError
  else match ravel t with
       | [] => VValueError
       | x :: r =>
           if existsb (fun q => negb (Qle_bool (qmin x r) q)) (ravel st) || existsb (fun q => negb (Qle_bool q (qmax x r))) (ravel st)
           then VValueError else VOk (sp, t, tf, pf, st)
       end.

(** *** TermContribution / TermRelationshipData, 303-331 *)
Definition term_relationship_init (lhs : arr) (terms : list arr) : vres (list Q * list (list Q)) :=
  match terms with
  | [] => VValueError
  | _ => if forallb (fun t => Nat.eqb (length (ravel t)) (length (ravel lhs))) terms
         then VOk (ravel lhs, map ravel terms) else VValueError
  end.

(** *** ParityPlotData, 334-372 *)
Definition parity_init (a p r : arr) : vres (list Q * list Q * list Q) :=
  let a := ravel a in let p := ravel p in let r := ravel r in
  if negb (Nat.eqb (length a) (length p)) then VValueError
  else if negb (Nat.eqb (length a) (length r)) then VValueError
  else VOk (a, p, r).

(** _contracts.py:355-372 [from_actual_predicted] *)
Definition parity_from (a p : arr) : vres (list Q * list Q * list Q) :=
  match sub a p with
  | None => VValueError
  | Some r => parity_init a p r
  end.
