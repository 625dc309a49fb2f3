(** Model of the SGA population (kd/model/sga/sgapde/solver.py:82-267) and of the parts of the
    PDE class it uses (kd/model/sga/sgapde/pde.py:58-88).  A term is an abstract value with a
    printed form [tname]; whether evaluate_mse deletes it ([keep]) and the AIC of a list of
    remaining terms ([aic]) are arbitrary functions: their values are modelled in SgaEval and
    SgaTrain.  Every random draw is an argument. *)
From Coq Require Import QArith Permutation.
From Verif Require Import Base Num SgaNames.
Local Open Scope nat_scope.

(** [l[i] for i in idx] *)
Definition gather {A} (l : list A) (idx : list nat) : res (list A) :=
  mapM (fun i => match nth_error l i with Some x => Ok x | None => Err IndexError end) idx.
(** l[i] = x for an index in range *)
Definition put {A} (l : list A) (i : nat) (x : A) : res (list A) :=
  if Nat.ltb i (List.length l) then Ok (firstn i l ++ x :: skipn (S i) l) else Err IndexError.

(** PDE: elements and W (pde.py:58-71).  The context, depth and p_var are constants of a run. *)
Record indiv (T : Type) := mkInd { terms : list T; wid : nat }.
Arguments mkInd {T}. Arguments terms {T}. Arguments wid {T}.
(** An entry of pde_lib: the constructor appends PDE objects (solver.py:117, 124), which are
    never equal to a string; the operators append names (solver.py:203, 212, 255). *)
Inductive libent := LObj | LName (s : string).
Definition known (s : string) (l : list libent) : bool :=
  existsb (fun e => match e with LObj => false | LName s' => String.eqb s s' end) l.
Record pop (T : Type) := mkPop { eqs : list (indiv T); mses : list num; lib : list libent; errs : list num }.
Arguments mkPop {T}. Arguments eqs {T}. Arguments mses {T}. Arguments lib {T}. Arguments errs {T}.

(** The random outcomes of one generation: the shuffled order of the parents, the two crossing
    points of the k-th pair, the mutation of element j of individual i, and the replacement
    (position and fresh term) of individual i if it is replaced.  A draw below n is [raw mod n]. *)
Record draws (T : Type) := mkDraws {
  g_shuffle : list (indiv T) -> list (indiv T);
  g_ix1 : nat -> nat; g_ix2 : nat -> nat;
  g_mut : nat -> nat -> T -> T;
  g_rep : nat -> option (nat * T) }.
Arguments mkDraws {T}. Arguments g_shuffle {T}. Arguments g_ix1 {T}. Arguments g_ix2 {T}. Arguments g_mut {T}. Arguments g_rep {T}.

Section Pop.
Context {T : Type}.
Variables (tname : T -> string)           (* Tree.inorder *)
          (keep : T -> bool)              (* evaluate_mse does not delete the term *)
          (aic : list T -> num)           (* the score of the remaining terms when there are some *)
          (argsort : list num -> list nat). (* np.argsort *)

(** PDE.visualize (pde.py:82-88) *)
Definition pname (p : indiv T) : string := visualize (map tname (terms p)).
(** evaluate_mse (pde.py:107-281) as seen by the solver: useless terms are removed from the
    individual, W is decremented for each, and nothing left scores infinity (pde.py:250-253). *)
Definition score (l : list T) : num := match l with [] => PInf | _ => aic l end.
Definition assess (p : indiv T) : indiv T * num :=
  let k := filter keep (terms p) in
  (mkInd k (wid p - (List.length (terms p) - List.length k)), score k).

(** solver.py:119: a draw is rejected below -100 or at infinity (NaN passes both tests) *)
Definition rejected (e : num) : bool := nlt e (Fin (-100)) || (nle PInf e).
(** solver.py:113-130: one slot of the initial population, drawing from the given individuals;
    [None]: the draws given are exhausted. *)
Fixpoint init_one (cands : list (indiv T)) (p : pop T) : option (pop T) :=
  match cands with
  | [] => None
  | c :: cs =>
      let '(c', e) := assess c in
      let p' := mkPop (eqs p) (mses p) (lib p ++ [LObj]) (errs p ++ [e]) in
      if rejected e then init_one cs p' else Some (mkPop (eqs p' ++ [c']) (mses p' ++ [e]) (lib p') (errs p'))
  end.
Fixpoint init_all (slots : list (list (indiv T))) (p : pop T) : option (pop T) :=
  match slots with [] => Some p | s :: ss => match init_one s p with Some p' => init_all ss p' | None => None end end.
(** The write-back loop of solver.py:133-136, 178-181, 236-238 rearranges both lists by argsort. *)
Definition resort (p : pop T) : res (pop T) :=
  let idx := argsort (mses p) in
  do m <- gather (mses p) idx ; do e <- gather (eqs p) idx ; Ok (mkPop e m (lib p) (errs p)).
(** solver.py:222-224, 265-267: the num best (the lists are read before either is replaced:
    both use the same sorted_indices) *)
Definition select (num : nat) (p : pop T) : res (pop T) :=
  let idx := firstn num (argsort (mses p)) in
  do e <- gather (eqs p) idx ; do m <- gather (mses p) idx ; Ok (mkPop e m (lib p) (errs p)).
(** SGA.__init__ (solver.py:85-137), ratio = 1, on the library of the solver *)
Definition init (num : nat) (lib0 : list libent) (errs0 : list Num.num) (slots : list (list (indiv T))) : option (res (pop T)) :=
  match init_all slots (mkPop [] [] lib0 errs0) with
  | None => None
  | Some p => Some (do p' <- resort p ; Ok (mkPop (firstn num (eqs p')) (firstn num (mses p')) (lib p') (errs p')))
  end.

(** solver.py:199-206, 208-215, 251-258: skip a candidate whose name is in the library, otherwise
    score it and record the name it has after evaluation. *)
Definition admit (c : indiv T) (p : pop T) : pop T :=
  if known (pname c) (lib p) then p
  else let '(c', e) := assess c in
       mkPop (eqs p ++ [c']) (mses p ++ [e]) (lib p ++ [LName (pname c')]) (errs p ++ [e]).
(** cross_individual (solver.py:168-175); randint(0) raises ValueError *)
Definition cross_individual (r1 r2 : nat) (a b : indiv T) : res (indiv T * indiv T) :=
  match terms a, terms b with
  | [], _ | _, [] => Err ValueError
  | ta, tb =>
      let i1 := r1 mod List.length ta in let i2 := r2 mod List.length tb in
      match nth_error ta i1, nth_error tb i2 with
      | Some x, Some y => do ta' <- put ta i1 y ; do tb' <- put tb i2 x ; Ok (mkInd ta' (wid a), mkInd tb' (wid b))
      | _, _ => Err IndexError
      end
  end.
(** solver.py:197-215 *)
Fixpoint cross_loop (g : draws T) (k : nat) (ps : list (indiv T * indiv T)) (p : pop T) : res (pop T) :=
  match ps with
  | [] => Ok p
  | (a, b) :: ps' =>
      do ab <- cross_individual (g_ix1 g k) (g_ix2 g k) a b ;
      cross_loop g (S k) ps' (admit (snd ab) (admit (fst ab) p))
  end.
(** cross_over (solver.py:164-224); [top] is int(num * percentage) *)
Definition cross_over (num top : nat) (g : draws T) (p : pop T) : res (pop T) :=
  do p1 <- resort p ;
  let parents := firstn top (eqs p1) in
  do p2 <- cross_loop g 0 (combine parents (g_shuffle g parents)) p1 ;
  select num p2.
(** PDE.mutate (pde.py:73-75): elements 0 .. W-1 *)
Fixpoint mutate_loop (m : nat -> T -> T) (js : list nat) (l : list T) : res (list T) :=
  match js with
  | [] => Ok l
  | j :: js' => match nth_error l j with None => Err IndexError | Some x => do l' <- put l j (m j x) ; mutate_loop m js' l' end
  end.
(** solver.py:246-249 with PDE.replace (pde.py:77-82) *)
Definition vary (m : nat -> T -> T) (rep : option (nat * T)) (c : indiv T) : res (indiv T) :=
  do l <- mutate_loop m (seq 0 (wid c)) (terms c) ;
  match rep with
  | None => Ok (mkInd l (wid c))
  | Some (r, t) => if Nat.eqb (wid c) 0 then Err ValueError
                   else do l' <- put l (r mod wid c) t ; Ok (mkInd l' (wid c))
  end.
(** solver.py:242-258 for the individuals i = 1, ..., num-1 *)
Fixpoint change_loop (g : draws T) (is : list nat) (copies : list (indiv T)) (p : pop T) : res (pop T) :=
  match is with
  | [] => Ok p
  | i :: is' =>
      match nth_error copies i with
      | None => Err IndexError
      | Some c => do c' <- vary (g_mut g i) (g_rep g i) c ; change_loop g is' copies (admit c' p)
      end
  end.
(** change (solver.py:227-267) *)
Definition change (num : nat) (g : draws T) (p : pop T) : res (pop T) :=
  do p1 <- resort p ;
  do p2 <- change_loop g (seq 1 (num - 1)) (eqs p1) p1 ;
  select num p2.
(** One turn of run (solver.py:151-153) *)
Definition generation (num top : nat) (g : draws T) (p : pop T) : res (pop T) :=
  do p1 <- cross_over num top g p ; change num g p1.
Fixpoint evolve (num top : nat) (gs : list (draws T)) (p : pop T) : res (pop T) :=
  match gs with [] => Ok p | g :: gs' => do p' <- generation num top g p ; evolve num top gs' p' end.
(** np.argmin: the first NaN if there is one, otherwise the first minimum; ValueError when empty *)
Fixpoint argmin_from (best : Num.num) (bi i : nat) (l : list Num.num) : nat :=
  match l with
  | [] => bi
  | x :: l' => if is_nan best then bi else if is_nan x || nlt x best then argmin_from x i (S i) l' else argmin_from best bi (S i) l'
  end.
Definition argmin (l : list Num.num) : res nat := match l with [] => Err ValueError | x :: l' => Ok (argmin_from x 0 1 l') end.
(** the_best (solver.py:159-162) *)
Definition the_best (p : pop T) : res (indiv T * Num.num) :=
  do i <- argmin (mses p) ;
  match nth_error (eqs p) i, nth_error (mses p) i with Some e, Some m => Ok (e, m) | _, _ => Err IndexError end.
(** SGA.run (solver.py:140-157): the best of the final population *)
Definition run (num top : nat) (gs : list (draws T)) (p : pop T) : res (indiv T * Num.num) :=
  do p' <- evolve num top gs p ; the_best p'.
End Pop.

(** ** Specification *)
(** np.argsort: a rearrangement of the positions that sorts the values (NaN last). *)
Definition argsort_ok (f : list num -> list nat) : Prop :=
  forall l, Permutation (f l) (seq 0 (List.length l)) /\
  forall l', gather l (f l) = Ok l' -> nsorted l'.
(** random.shuffle rearranges. *)
Definition shuffles {T} (g : draws T) : Prop := forall l, Permutation (g_shuffle g l) l.
(** [best] are the [n] best of [all], in order. *)
Definition n_best (n : nat) (all best : list num) : Prop :=
  List.length best = n /\ nsorted best /\
  exists rest, Permutation all (best ++ rest) /\ forall x y, In x best -> In y rest -> sle x y = true.
