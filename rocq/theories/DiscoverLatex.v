(** Model of the equation text of KD_Discover: Node.to_sympy_string (kd/model/discover/stridge.py:96-182) and discover_program_to_latex
    (kd/viz/discover_eq2latex.py:210-320).  SymPy's parser and printer are an argument. *)
From Coq Require Import QArith Qabs Qround Ascii.
From Verif Require Import Base DlgaEq DiscoverViz.
Local Open Scope string_scope.
Local Open Scope nat_scope.
Local Open Scope list_scope.
Local Infix "^^" := String.append (at level 60, right associativity).

(** ** to_sympy_string *)
(** ", ".join(l) *)
Fixpoint commas (l : list string) : string :=
  match l with [] => "" | [s] => s | s :: r => s ^^ ", " ^^ commas r end.
(** the pieces of the f-strings (112-170): text or the number of a child *)
Inductive piece := T (s : string) | C (k : nat).
Definition templates : list (string * list piece) :=
  [("add", [T "Add("; C 0; T ", "; C 1; T ")"]);
   ("mul", [T "Mul("; C 0; T ", "; C 1; T ")"]);
   ("sub", [T "Add("; C 0; T ", Mul("; C 1; T ", -1))"]);
   ("div", [T "Mul("; C 0; T ", Pow("; C 1; T ", -1))"]);
   ("n2", [T "Pow("; C 0; T ", 2)"]);
   ("n3", [T "Pow("; C 0; T ", 3)"]);
   ("n4", [T "Pow("; C 0; T ", 4)"]);
   ("n5", [T "Pow("; C 0; T ", 5)"]);
   ("diff", [T "Derivative("; C 0; T ", "; C 1; T ")"]);
   ("diff2", [T "Derivative("; C 0; T ", "; C 1; T ", "; C 1; T ")"]);
   ("diff3", [T "Derivative("; C 0; T ", "; C 1; T ", "; C 1; T ", "; C 1; T ")"]);
   ("diff4", [T "Derivative("; C 0; T ", "; C 1; T ", "; C 1; T ", "; C 1; T ", "; C 1; T ")"]);
   ("Diff", [T "Derivative("; C 0; T ", "; C 1; T ")"]);
   ("Diff2", [T "Derivative("; C 0; T ", "; C 1; T ", "; C 1; T ")"]);
   ("Diff_3", [T "Derivative("; C 0; T ", "; C 1; T ")"]);
   ("Diff2_3", [T "Derivative("; C 0; T ", "; C 1; T ", "; C 1; T ")"]);
   ("lap", [T "laplacian("; C 0; T ")"]);
   ("lap_3", [T "laplacian("; C 0; T ")"]);
   ("sigmoid", [T "1 / (1 + exp(-("; C 0; T ")))"]);
   ("expneg", [T "exp(-("; C 0; T "))"]);
   ("logabs", [T "log(Abs("; C 0; T "))"])].
(** a child that is not there: IndexError *)
Fixpoint fill (cs : list string) (ps : list piece) : res string :=
  match ps with
  | [] => Ok ""
  | T s :: r => do t <- fill cs r ; Ok (s ^^ t)
  | C k :: r => do c <- arg cs k ; do t <- fill cs r ; Ok (c ^^ t)
  end.
(** str.capitalize of the seven names (176-177), with an optional suffix _t *)
Definition capital (s : string) : string :=
  match s with String a r => String (if (97 <=? nat_of_ascii a) && (nat_of_ascii a <=? 122) then ascii_of_nat (nat_of_ascii a - 32) else a) r | _ => s end.
Definition to_text (val : string) (cs : list string) : res string :=
  let op := base_name val in
  match find (fun p => String.eqb (fst p) op) templates with
  | Some (_, ps) => fill cs ps
  | None =>
      if existsb (String.eqb op) ["sin"; "cos"; "tan"; "exp"; "log"; "sqrt"; "abs"] then                  (* 171-178 *)
        match cs with
        | [c] => Ok (op ^^ "(" ^^ c ^^ ")")
        | _ => Ok (capital val ^^ "(" ^^ commas cs ^^ ")")
        end
      else Ok (val ^^ "(" ^^ commas cs ^^ ")")                                                            (* 181-186 *)
  end.
Fixpoint to_sympy (n : node) : res string :=
  match n with
  | Nd v [] => Ok v
  | Nd v cs => do l <- emap to_sympy cs ; to_text v l
  end.

(** ** discover_program_to_latex *)
(** The text of a term is an argument: [render] gives the factor split off by the expansion of derivatives and the LaTeX (112-158); with
    expand_derivatives=False [plain] is used, which shows an error text instead of raising (161-207). *)
Inductive sign := Plus | Minus | NoSign.
(** _format_full_latex_term (dlga_eq2latex.py:50-89): leading sign, coefficient in units of 0.0001 (None: left out), base (None: the term is
    the number alone) *)
Record shown_term := mkTerm { t_sign : sign; t_mag : option Z; t_base : option string }.
Definition format_term (c : Q) (base : string) (first : bool) : shown_term :=
  let neg := negb (close0 c) && negb (Qle_bool 0 c) in
  let display := if close0 c then 0%Z else fmt4 (Qabs c) in
  mkTerm (if neg then Minus else if first then NoSign else Plus)
         (if close1 (Qabs c) && negb (String.eqb base "1") then None else Some display)
         (if String.eqb base "1" then None else Some base).
Inductive rhs_text := InvalidProgram | NoTerms | Sum (l : list shown_term).
(** [prog] is None for a missing program or missing attributes (242-248) *)
Definition program_to_latex (render : node -> res (Q * string)) (plain : node -> string) (notation : string) (lhs_axis : option string) (expand : bool)
    (prog : option (list Q * list node)) : res (string * rhs_text) :=
  if negb (existsb (String.eqb notation) ["subscript"; "leibniz"]) then Err ValueError                    (* 229-230 *)
  else
    let lhs := match lhs_axis with Some a => "u_{" ^^ a ^^ "}" | None => "u_t" end in                     (* 233-236 *)
    match prog with
    | Some (w, terms) =>
        if negb (List.length w =? List.length terms) then Ok (lhs, InvalidProgram)
        else match terms with
             | [] => Ok (lhs, NoTerms)
             | _ =>
                 do l <- mapM (fun p => let '(i, (c, n)) := p in                                          (* 286-315 *)
                                        do r <- (if expand then render n else Ok (1%Q, plain n)) ;
                                        Ok (format_term (c * fst r) (snd r) (i =? 0))) (combine (seq 0 (List.length w)) (combine w terms)) ;
                 Ok (lhs, Sum l)
             end
    | None => Ok (lhs, InvalidProgram)
    end.
