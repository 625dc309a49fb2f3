(** Model of kd/model/eqgpt/calculate_terms.py: the expression each branch of calculate_terms builds from the network output and
    its automatic derivatives. *)
From Coq Require Import Ascii ZArith.
From Verif Require Import Base EqGpt.
Local Open Scope string_scope.
Local Open Scope nat_scope.
Local Open Scope list_scope.

(** Expressions over the network output [U], the columns of the database [X i] and torch.autograd.grad(e.sum(), database)[:, i],
    which is [D i e] (the network maps rows to rows, so the sum does not mix points). *)
Inductive fn := Sin | Sinh | Exp | Sqrt | Abs.
Inductive ex :=
| U | X (i : nat) | Num (z : Z)
| D (i : nat) (e : ex)
| Pow (e : ex) (z : Z)
| Mul (a b : ex) | Add (a b : ex) | Div (a b : ex) | Neg (a : ex)
| App (f : fn) (a : ex).

(** variables.index(v) *)
Definition col (vars : list string) (v : string) : nat := index_in v vars.
Definition has (vars : list string) (v : string) : bool := existsb (String.eqb v) vars.

(** calculate_terms (13-290), branch by branch in order; the first list names the variables whose index the branch uses besides x
    (an absent one is an UnboundLocalError), the function gets the column of a variable and whether z is one.
    Not modelled: env(u), a signal envelope that is not in the vocabulary. *)
Definition branches : list (string * (list string * ((string -> nat) -> bool -> ex))) :=
  [("ut", (["t"], fun c _ => D (c "t") U));                                                    (* 28-29 *)
   ("u", ([], fun c _ => U));
   ("ux", ([], fun c _ => D (c "x") U));
   ("uxx", ([], fun c _ => D (c "x") (D (c "x") U)));                                           (* 34-36 *)
   ("uxxt", (["t"], fun c _ => D (c "t") (D (c "x") (D (c "x") U))));
   ("ut^2", (["t"], fun c _ => Pow (D (c "t") U) 2));
   ("uxt", (["t"], fun c _ => D (c "t") (D (c "x") U)));
   ("ux^2", ([], fun c _ => Pow (D (c "x") U) 2));
   ("utt", (["t"], fun c _ => D (c "t") (D (c "t") U)));
   ("uxxxx", ([], fun c _ => D (c "x") (D (c "x") (D (c "x") (D (c "x") U)))));
   ("(u^2)xx", ([], fun c _ => D (c "x") (D (c "x") (Pow (D (c "x") U) 2))));                   (* 56-59 *)
   ("(uux)x", ([], fun c _ => D (c "x") (Mul U (D (c "x") U))));
   ("uxxtt", (["t"], fun c _ => D (c "t") (D (c "t") (D (c "x") (D (c "x") U)))));
   ("(u^4)xx", ([], fun c _ => D (c "x") (D (c "x") (Pow U 4))));
   ("(u^3)x", ([], fun c _ => D (c "x") (Pow U 3)));
   ("uxxx", ([], fun c _ => D (c "x") (D (c "x") (D (c "x") U))));
   ("u^3", ([], fun c _ => Pow U 3));
   ("x", ([], fun c _ => X (c "x")));
   ("u^2", ([], fun c _ => Pow U 2));
   ("(1/u)xx", ([], fun c _ => D (c "x") (D (c "x") (Pow U (-1)))));                            (* 85-88 *)
   ("(u^-2*ux)x", ([], fun c _ => D (c "x") (Mul (Pow U (-2)) (D (c "x") U))));
   ("uxxxxx", ([], fun c _ => D (c "x") (D (c "x") (D (c "x") (D (c "x") (D (c "x") U))))));
   ("uyy", (["y"], fun c _ => D (c "y") (D (c "y") U)));
   ("ut^3", (["t"], fun c _ => Pow (D (c "t") U) 3));
   ("sqrt(u)", ([], fun c _ => App Sqrt (App Abs U)));                                          (* 107-108 *)
   ("sin(u)", ([], fun c _ => App Sin U));
   ("sinh(u)", ([], fun c _ => App Sinh U));
   ("BiLaplace(u)", (["y"], fun c _ =>                                                          (* 113-142 *)
       Add (Add (D (c "x") (D (c "x") (D (c "x") (D (c "x") U)))) (D (c "y") (D (c "y") (D (c "y") (D (c "y") U)))))
           (Mul (Num 2) (D (c "y") (D (c "y") (D (c "x") (D (c "x") U)))))));
   ("uyyyy", (["y"], fun c _ => D (c "y") (D (c "y") (D (c "y") (D (c "y") U)))));
   ("uxxyy", (["y"], fun c _ => D (c "y") (D (c "y") (D (c "x") (D (c "x") U)))));
   ("uzzzz", (["z"], fun c _ => D (c "z") (D (c "z") (D (c "z") (D (c "z") U)))));
   ("uyyzz", (["y"; "z"], fun c _ => D (c "z") (D (c "z") (D (c "y") (D (c "y") U)))));
   ("uxxzz", (["z"], fun c _ => D (c "z") (D (c "z") (D (c "x") (D (c "x") U)))));
   ("y", (["y"], fun c _ => X (c "y")));
   ("uy", (["y"], fun c _ => D (c "y") U));
   ("x^2", ([], fun c _ => Pow (X (c "x")) 2));
   ("y^2", (["y"], fun c _ => Pow (X (c "y")) 2));
   ("uy^2", (["y"], fun c _ => Pow (D (c "y") U) 2));
   ("uxy", (["y"], fun c _ => D (c "y") (D (c "x") U)));
   ("uz", (["z"], fun c _ => D (c "z") U));
   ("Div(u)", (["y"], fun c (hz : bool) => if hz then Add (Add (D (c "x") U) (D (c "y") U)) (D (c "z") U) else Add (D (c "x") U) (D (c "y") U)));
   ("Laplace(u)", (["y"], fun c (hz : bool) =>                                                           (* 204-214 *)
       let xy := Add (D (c "x") (D (c "x") U)) (D (c "y") (D (c "y") U)) in
       if hz then Add xy (D (c "z") (D (c "z") U)) else xy));
   ("uzz", (["z"], fun c _ => D (c "z") (D (c "z") U)));
   ("Laplace(utt)", (["t"; "y"], fun c (hz : bool) =>                                                    (* 219-230 *)
       let utt := D (c "t") (D (c "t") U) in
       let xy := Add (D (c "x") (D (c "x") utt)) (D (c "y") (D (c "y") utt)) in
       if hz then Add xy (D (c "z") (D (c "z") utt)) else xy));
   ("(x+y)", (["y"], fun c _ => Add (X (c "x")) (X (c "y"))));
   ("exp(x)", ([], fun c _ => App Exp (X (c "x"))));
   ("uyyt", (["y"], fun c _ => D (c "x") (D (c "y") (D 2 U))));                                 (* 236-240: column 2, then x *)
   ("sint", ([], fun c _ => App Sin (X (c "x"))));                                              (* 241-242 *)
   ("sinx", ([], fun c _ => App Sin (X (c "x"))));
   ("(uxx+ux/x)^2", ([], fun c _ => Pow (Add (D (c "x") (D (c "x") U)) (Mul (Div (Num 1) (X (c "x"))) (D (c "x") U))) 2)); (* 244-247 *)
   ("x^4", ([], fun c _ => Pow (X (c "x")) 4));
   ("sqrt(x)", ([], fun c _ => App Sqrt (X (c "x"))));
   ("exp(-y)", (["y"], fun c _ => App Exp (Neg (X (c "y")))));
   ("t", (["t"], fun c _ => X (c "t")));
   ("uyyy", (["y"], fun c _ => D (c "y") (D (c "y") (D (c "y") U))));
   ("(uux)t", (["t"], fun c _ => D (c "t") (Mul U (D (c "x") U))));
   ("(uux)xx", ([], fun c _ => D (c "x") (D (c "x") (Mul U (D (c "x") U)))));
   ("(u^3)xx", ([], fun c _ => D (c "x") (D (c "x") (Pow U 3))));
   ("(u(u^2)xx)xx", ([], fun c _ => D (c "x") (D (c "x") (Mul U (D (c "x") (D (c "x") (Mul U (D (c "x") U))))))))]. (* 278-283 *)

(** The first branch that applies; None: UnboundLocalError, or no branch (the function returns None) *)
Definition term_of (vars : list string) (w : string) : option ex :=
  match find (fun b => String.eqb (fst b) w) branches with
  | Some (_, (needs, f)) => if has vars "x" && forallb (has vars) needs then Some (f (col vars) (has vars "z")) else None
  | None => None
  end.
