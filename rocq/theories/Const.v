(** Model of placeholder constants in equation search: PlaceholderConstant (library.py:85-110),
    Program.optimize_inner_constant / set_constants / get_constants / execute / str_expression
    (program.py:245-293, 366-380, 486-531, 664-684), the constant optimizers (const.py:10-83) and
    STRidge.evaluate (stridge.py:641-669). *)
From Coq Require Import QArith Qabs.
From Verif Require Import Base Trees Library Execute Stridge.
Local Open Scope nat_scope.

(** a token of a program: a library token, or a constant with its value, if set *)
Inductive ptok := Lib (k : token) | Cst (v : option Q).
(** the library's own constant token (functions.py:282-283): value None *)
Definition const_token : token := mkTok "const" 0 None None None.
Definition is_const (k : token) : bool := String.eqb (tname k) "const".
Definition from_library (k : token) : ptok := if is_const k then Cst None else Lib k.

(** program.py:240-258 _init: the traversal holds the library's tokens, STRidge gets a copy of it
    made before any constant is set; const_pos are the positions of constants *)
Record prog := mkProg { p_trav : list ptok; p_const_pos : list nat; p_library_trav : list token }.
Definition is_cst (k : ptok) : bool := match k with Cst _ => true | Lib _ => false end.
Definition positions (l : list ptok) : list nat := map fst (filter (fun p => is_cst (snd p)) (combine (seq 0 (List.length l)) l)).
Definition new_program (toks : list token) : prog :=
  let t := map from_library toks in mkProg t (positions t) toks.

(** program.py:522-531 set_constants: constant [i] goes to position const_pos[i] *)
Fixpoint update {A} (i : nat) (v : A) (l : list A) : list A :=
  match l, i with [], _ => [] | _ :: l', O => v :: l' | x :: l', S i' => x :: update i' v l' end.
Definition set_constants (p : prog) (cs : list Q) : prog :=
  mkProg (fold_left (fun t pc => update (fst pc) (Cst (Some (snd pc))) t) (combine (p_const_pos p) cs) (p_trav p)) (p_const_pos p) (p_library_trav p).
(** program.py:513-520 get_constants (a constant without value raises) *)
Fixpoint get_constants_of (l : list ptok) : res (list Q) :=
  match l with
  | [] => Ok []
  | Lib _ :: l' => get_constants_of l'
  | Cst None :: l' => Err TypeError
  | Cst (Some q) :: l' => do r <- get_constants_of l' ; Ok (q :: r)
  end.
Definition get_constants (p : prog) : res (list Q) := get_constants_of (p_trav p).

(** const.py:10-19: the optimizer named in the configuration.  Scipy's minimiser is any function of
    the objective and the start; const_params are ignored by it (const.py:78). *)
Inductive optimizer := Dummy | Scipy (minimize : (list Q -> Q) -> list Q -> list Q).
Definition make_const_optimizer (minimize : (list Q -> Q) -> list Q -> list Q) (name : option string) : res optimizer :=
  match name with
  | None => Ok Dummy
  | Some n => if String.eqb n "dummy" then Ok Dummy else if String.eqb n "scipy" then Ok (Scipy minimize) else Err KeyError
  end.
Definition call_optimizer (o : optimizer) (f : list Q -> Q) (x0 : list Q) : list Q :=
  match o with Dummy => x0 | Scipy m => m f x0 end.

Section Run.
Context {V : Type}.
Variables (u x : list V) (param : token -> V).
Variable call : token -> list V -> extra -> option V.
Variable flat : V -> list Q.                                (* cut_bound / reshape(-1) *)
Variable lstsq : list (list Q) -> list Q -> option (list Q).
(** evaluating a term with library tokens: PlaceholderConstant.function asserts that a value is set
    (library.py:102-105), and python_execute turns any exception into None (execute.py:37-44) *)
Definition call_lib (k : token) (args : list V) (e : extra) : option V := if is_const k then None else call k args e.
Definition exec_term (l : list token) : term_eval :=
  match python_execute u x param call_lib l with OVal v => TVal (flat v) | _ => TNone end.
(** the value of a whole program with its constants: stands for unsafe_execute(self.traversal, u, x) *)
Variable value : list ptok -> option (list Q).
Variable mse : list Q -> list Q -> Q.
(** STRidge.evaluate (stridge.py:641-669): the regulations look at the library tokens' terms and at
    the traversal; all coefficients are 1; None is an invalid program *)
Definition evaluate_bfgs (rg : regs) (sp : split) (p : prog) (ut : list Q) : option (list Q * list Q) :=
  match snd (apply_regulations rg sp) with
  | _ :: _ => None
  | [] => match value (p_trav p) with
          | Some y => if Nat.eqb (List.length y) (List.length ut) then Some (y, map (fun _ => 1%Q) (sp_tokens sp)) else None
          | None => None
          end
  end.
(** program.py:366-380 execute *)
Inductive fitted := Fitted (y_hat w : list Q) (cols : option (list (list Q))) | NotFitted.
Definition execute (o : optimizer) (add_const : bool) (rg : regs) (sp : split) (p : prog) (ut : list Q) : fitted :=
  match o with
  | Scipy _ => match evaluate_bfgs rg sp p ut with Some (y, w) => Fitted y w None | None => NotFitted end
  | Dummy => match calculate exec_term lstsq add_const rg sp ut with
             | Valid w cols => Fitted (map (dot_row w cols) (seq 0 (List.length ut))) w (Some cols)
             | _ => NotFitted
             end
  end.
(** pde.py:163-170 mse_function: an invalid program has y_hat = 0, so that its objective is the
    mean square of ut *)
Definition objective (o : optimizer) (add_const : bool) (rg : regs) (sp : split) (p : prog) (ut : list Q) (cs : list Q) : Q :=
  match execute o add_const rg sp (set_constants p cs) ut with
  | Fitted y _ _ => mse ut y
  | NotFitted => mse ut (map (fun _ => 0%Q) ut)
  end.
(** program.py:489-511 optimize_inner_constant *)
Definition optimize (o : optimizer) (add_const : bool) (rg : regs) (sp : split) (p : prog) (ut : list Q) : prog :=
  match p_const_pos p with
  | [] => p
  | pos => set_constants p (call_optimizer o (objective o add_const rg sp p ut) (map (fun _ => 1%Q) pos))
  end.
(** program.py:611-625 r_ridge: constants first, then the fit *)
Definition r_ridge (o : optimizer) (add_const : bool) (rg : regs) (sp : split) (toks : list token) (ut : list Q) : prog * fitted :=
  let p := optimize o add_const rg sp (new_program toks) ut in (p, execute o add_const rg sp p ut).
End Run.

(** program.py:664-684 str_expression prints the terms of STRidge, whose nodes carry the names of
    library tokens (stridge.py:80-97): a constant is printed as "const". *)
Fixpoint node_repr (t : node) : string :=
  match t with
  | Nd a [] => tname a
  | Nd a cs => (tname a ++ "(" ++ join "," (map node_repr cs) ++ ")")%string
  end.
Definition printed (w : list Q) (sp : split) : list (Q * string) := combine w (map node_repr (sp_terms sp)).
