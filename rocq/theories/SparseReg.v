(** Model of the sparse regression of SGA (kd/model/sga/sgapde/PDE_find.py:77-205) and of
    DISCOVER's copy of it (kd/model/discover/ga_utils.py:12-133).  Numbers are rationals (plus
    infinities and NaN for the criteria); np.linalg.lstsq is a parameter and never raises. *)
From Coq Require Import QArith Qabs.
From Verif Require Import Base Num.
Local Open Scope nat_scope.

Fixpoint upd {A} (l : list A) (i : nat) (x : A) : list A :=
  match l, i with [], _ => [] | _ :: l', 0 => x :: l' | y :: l', S j => y :: upd l' j x end.
(** w[inds] = vals *)
Fixpoint scatter (w : list Q) (inds : list nat) (vals : list Q) : list Q :=
  match inds, vals with i :: is, v :: vs => scatter (upd w i v) is vs | _, _ => w end.
Definition times (a b : list Q) : list Q := map (fun p => (fst p * snd p)%Q) (combine a b).
Definition Qltb (a b : Q) : bool := negb (Qle_bool b a).

(** Which of the two copies: SGA tests len(biginds) > 0 (PDE_find.py:197); DISCOVER tests
    biginds != [] (ga_utils.py:128), which on an index array compares elementwise with the empty
    list: false for one index, and for more an error since numpy 1.25 ([strict]), true before. *)
Inductive copy := Sga | Discover (strict : bool).
(** what STRidge computes: biginds (an array until the first cut, then a list) and w *)
Inductive outcome := Early (w : list Q) | Done (is_array : bool) (bigs : list nat) (w : list Q).

Section STRidge.
Variables (d : nat)                     (* number of columns *)
          (ridge : list nat -> list Q)  (* ridge estimate on the given columns of the normalised X; plain lstsq if lam = 0 *)
          (lsq : list nat -> list Q)    (* lstsq on the given columns of the normalised X *)
          (Mreg : option (list Q))      (* the scale factors, when normalize != 0 *)
          (tol : Q).
(** np.where(abs(w) < tol)[0] and np.where(abs(w) > tol)[0] *)
Definition smallinds (w : list Q) : list nat := filter (fun i => Qltb (Qabs (nth i w 0%Q)) tol) (seq 0 d).
Definition biginds0 (w : list Q) : list nat := filter (fun i => Qltb tol (Qabs (nth i w 0%Q))) (seq 0 d).
(** [i for i in range(d) if i not in smallinds] *)
Definition new_biginds (w : list Q) : list nat := filter (fun i => negb (existsb (Nat.eqb i) (smallinds w))) (seq 0 d).
(** PDE_find.py:177-195 = ga_utils.py:108-126 *)
Fixpoint thresh (fuel j num_relevant : nat) (arr : bool) (bigs : list nat) (w : list Q) : outcome :=
  match fuel with
  | 0 => Done arr bigs w
  | S f =>
      let nb := new_biginds w in
      if Nat.eqb num_relevant (List.length nb) then Done arr bigs w
      else if Nat.eqb (List.length nb) 0 then (if Nat.eqb j 0 then Early w else Done arr bigs w)
      else let w1 := scatter w (smallinds w) (repeat 0%Q (List.length (smallinds w))) in
           thresh f (S j) (List.length nb) false nb (scatter w1 nb (ridge nb))
  end.
Definition refit (c : copy) (arr : bool) (bigs : list nat) : res bool :=
  match c with
  | Sga => Ok (Nat.ltb 0 (List.length bigs))
  | Discover strict =>
      if arr then match bigs with [] | [_] => Ok false | _ => if strict then Err ValueError else Ok true end
      else Ok (match bigs with [] => false | _ => true end)
  end.
Definition rescale (w : list Q) : list Q := match Mreg with Some m => times m w | None => w end.
(** STRidge (PDE_find.py:157-203, ga_utils.py:86-133) *)
Definition stridge (c : copy) (maxit : nat) : res (list Q) :=
  let w := ridge (seq 0 d) in
  match thresh maxit 0 d true (biginds0 w) w with
  | Early w' => Ok w'
  | Done arr bigs w' =>
      do b <- refit c arr bigs ;
      Ok (rescale (if b then scatter w' bigs (lsq bigs) else w'))
  end.
End STRidge.

(** A measured coefficient vector: (w, data_err, mse, criterion). *)
Record fit := mkFit { f_w : list Q; f_err : num; f_mse : num; f_crit : num }.
Section Train.
Variables (str : Q -> res (list Q))      (* STRidge at a tolerance *)
          (measure : list Q -> fit)      (* the errors of a coefficient vector *)
          (w0 : list Q).                 (* np.linalg.lstsq(TrainR, TrainY)[0] *)
(** The tolerance search (PDE_find.py:123-146, ga_utils.py:63-79).  [n] is maxit - iter.  The
    tolerances tried are collected for the statement of properties (not in the code). *)
Fixpoint search (n : nat) (tol d_tol : Q) (best : fit) (tried : list Q) : res (fit * list Q) :=
  match n with
  | 0 => Ok (best, tried)
  | S n' =>
      do w <- str tol ;
      let f := measure w in
      if nle (f_crit f) (f_crit best) then search n' (tol + d_tol)%Q d_tol f (tried ++ [tol])
      else let tol1 := if Qle_bool (tol - 2 * d_tol) 0 then 0%Q else (tol - 2 * d_tol)%Q in
           let d1 := (2 * d_tol / inject_Z (Z.of_nat n))%Q in
           search n' (tol1 + d1)%Q d1 best (tried ++ [tol])
  end.
(** Train(..., sparse='STR') and TrainSTRidge (split = 0) *)
Definition train (maxit : nat) (d_tol : Q) : res (fit * list Q) := search maxit d_tol d_tol (measure w0) [].
(** Train(..., sparse='Lasso') (PDE_find.py:148-155): w_best is not updated *)
Definition train_lasso (lasso : list Q) : fit :=
  let f := measure lasso in mkFit w0 (f_err f) (f_mse f) (f_crit f).
End Train.
(** AIC (PDE_find.py:108-113): [crit k mse] is AIC_ratio*2*k + 2*np.log(mse); DISCOVER's
    criterion is mse + l0_penalty*k (ga_utils.py:58, 69). *)
Definition nonzeros (w : list Q) : nat := List.length (filter (fun q => negb (Qeq_bool q 0)) w).
Definition measure_with (err mse : list Q -> num) (crit : nat -> num -> num) (w : list Q) : fit :=
  mkFit w (err w) (mse w) (crit (nonzeros w) (mse w)).

(** ** Specification *)
(** coefficients [v] on the columns [S], zero elsewhere *)
Fixpoint lookup (i : nat) (l : list (nat * Q)) : Q :=
  match l with [] => 0%Q | (j, q) :: l' => if Nat.eqb i j then q else lookup i l' end.
Definition embed (d : nat) (S : list nat) (v : list Q) : list Q := map (fun i => lookup i (combine S v)) (seq 0 d).
(** The columns left after k rounds of cutting the coefficients below the tolerance. *)
Fixpoint survivors (d : nat) (ridge : list nat -> list Q) (tol : Q) (k : nat) : list nat :=
  match k with
  | 0 => seq 0 d
  | S k' => let s := survivors d ridge tol k' in filter (fun i => Qle_bool tol (Qabs (lookup i (combine s (ridge s))))) s
  end.
(** residual sum of squares *)
Definition dot (a b : list Q) : Q := fold_right Qplus 0%Q (times a b).
Definition rss (R : list (list Q)) (y w : list Q) : Q :=
  fold_right Qplus 0%Q (map (fun p => let e := (snd p - dot (fst p) w)%Q in (e * e)%Q) (combine R y)).
(** [lsq] minimises the residual over the coefficients of any selection of columns of [X]. *)
Definition least_squares (X : list (list Q)) (y : list Q) (d : nat) (lsq : list nat -> list Q) : Prop :=
  forall S v, NoDup S -> (forall i, In i S -> i < d) -> List.length v = List.length S ->
  (rss X y (embed d S (lsq S)) <= rss X y (embed d S v))%Q.
