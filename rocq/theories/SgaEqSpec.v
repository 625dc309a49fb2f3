(** A reader of LaTeX formulas with fractions, products, powers and derivatives in Leibniz
    notation, independent of how they are written by the code. *)
From Coq Require Import Ascii.
From Verif Require Import Base Trees SgaTree.
Local Open Scope string_scope.

(** A formula: a product of factors. *)
Inductive fac :=
| FName (s : string) | FPar (e : exp) | FSum (minus : bool) (a b : exp) | FFrac (a b : exp)
| FPow (n : ascii) (f : fac) | FD (second : bool) (a : exp) (x : string)
with exp := One (f : fac) | Times (f : fac) (e : exp).

(** Characters of a name. *)
Definition name_char (a : ascii) : bool :=
  negb (existsb (Ascii.eqb a) [" "; "("; ")"; "{"; "}"; "^"; "\"]%char).
Fixpoint run (s : string) : string * string :=
  match s with
  | "" => ("", "")
  | String a s' => if name_char a then let '(r, t) := run s' in (String a r, t) else ("", s)
  end.
(** If [s] starts with [p], what follows. *)
Fixpoint eat (p s : string) : option string :=
  match p, s with
  | "", _ => Some s
  | String a p', String b s' => if Ascii.eqb a b then eat p' s' else None
  | _, "" => None
  end.
(** A name: an optional backslash, name characters, optionally braces around more of them. *)
Definition read_name (s : string) : option (string * string) :=
  let '(pre, s0) := match eat "\" s with Some s' => ("\", s') | None => ("", s) end in
  let '(r, s1) := run s0 in
  if String.eqb r "" then None else
  match eat "{" s1 with
  | None => Some (pre ++ r, s1)
  | Some s2 => let '(r2, s3) := run s2 in
               match eat "}" s3 with Some s4 => Some (pre ++ r ++ "{" ++ r2 ++ "}", s4) | None => None end
  end.
(** Powers after a factor. *)
Fixpoint read_pows (f : fac) (s : string) : fac * string :=
  match s with
  | String a (String b (String c (String d s'))) =>
      if Ascii.eqb a "^" && Ascii.eqb b "{" && Ascii.eqb d "}" && (Ascii.eqb c "2" || Ascii.eqb c "3") then read_pows (FPow c f) s' else (f, s)
  | _ => (f, s)
  end.
Definition opt {A B} (o : option A) (k : A -> option B) : option B := match o with Some a => k a | None => None end.
Notation "'try' x <- o ; k" := (opt o (fun x => k)) (at level 200, x pattern, o at level 100, k at level 200, right associativity).
(** [n] bounds the nesting. *)
Fixpoint read_fac (n : nat) (s : string) : option (fac * string) :=
  match n with
  | O => None
  | S n' =>
      try (f, r) <-
        match eat "(" s with
        | Some s1 =>
            try (a, s2) <- read_exp n' s1 ;
            match eat ")" s2 with
            | Some s3 => Some (FPar a, s3)
            | None =>
                try (m, s3) <- match eat " + " s2 with Some x => Some (false, x) | None => match eat " - " s2 with Some x => Some (true, x) | None => None end end ;
                try (b, s4) <- read_exp n' s3 ;
                try s5 <- eat ")" s4 ; Some (FSum m a b, s5)
            end
        | None =>
            match eat "\frac{\partial^{2} " s with
            | Some s1 =>
                try (a, s2) <- read_exp n' s1 ; try s3 <- eat "}{\partial " s2 ;
                try (x, s4) <- read_name s3 ; try s5 <- eat "^{2}}" s4 ; Some (FD true a x, s5)
            | None =>
                match eat "\frac{\partial " s with
                | Some s1 =>
                    try (a, s2) <- read_exp n' s1 ; try s3 <- eat "}{\partial " s2 ;
                    try (x, s4) <- read_name s3 ; try s5 <- eat "}" s4 ; Some (FD false a x, s5)
                | None =>
                    match eat "\frac{" s with
                    | Some s1 =>
                        try (a, s2) <- read_exp n' s1 ; try s3 <- eat "}{" s2 ;
                        try (b, s4) <- read_exp n' s3 ; try s5 <- eat "}" s4 ; Some (FFrac a b, s5)
                    | None => try (x, s1) <- read_name s ; Some (FName x, s1)
                    end
                end
            end
        end ;
      Some (read_pows f r)
  end
with read_exp (n : nat) (s : string) : option (exp * string) :=
  match n with
  | O => None
  | S n' =>
      try (f, s1) <- read_fac n' s ;
      match eat " \cdot " s1 with
      | Some s2 => try (e, s3) <- read_exp n' s2 ; Some (Times f e, s3)
      | None => Some (One f, s1)
      end
  end.

(** Meaning of a formula, given operations and the meaning of names. *)
Section Meaning.
Context {V : Type}.
Variables (nm : string -> V) (add sub mul div : V -> V -> V) (pow : ascii -> V -> V) (d : bool -> V -> string -> V).
Fixpoint fval (f : fac) : V :=
  match f with
  | FName s => nm s
  | FPar e => eval e
  | FSum false a b => add (eval a) (eval b)
  | FSum true a b => sub (eval a) (eval b)
  | FFrac a b => div (eval a) (eval b)
  | FPow n f => pow n (fval f)
  | FD k a x => d k (eval a) x
  end
with eval (e : exp) : V := match e with One f => fval f | Times f e => mul (fval f) (eval e) end.
(** Meaning of a term; [show] is how a variable is shown (variables shown alike are alike). *)
Variable show : string -> string.
Fixpoint tval (t : tree ent) : V :=
  match t with
  | Nd e [] => nm (show (ename e))
  | Nd e [a] => pow (if String.eqb (ename e) "^2" then "2"%char else "3"%char) (tval a)
  | Nd e (a :: b :: _) =>
      let n := ename e in
      if String.eqb n "+" then add (tval a) (tval b)
      else if String.eqb n "-" then sub (tval a) (tval b)
      else if String.eqb n "*" then mul (tval a) (tval b)
      else if String.eqb n "/" then div (tval a) (tval b)
      else d (String.eqb n "d^2") (tval a) (show (match b with Nd e' _ => ename e' end))
  end.
End Meaning.

(** A product whose last factor is a sum or a difference. *)
Fixpoint ends_in_sum (t : tree ent) : bool :=
  match t with
  | Nd e (_ :: b :: _) => if String.eqb (ename e) "*" then ends_in_sum b else String.eqb (ename e) "+" || String.eqb (ename e) "-"
  | _ => false
  end.
(** No power has such a product as its operand. *)
Inductive clear_powers : tree ent -> Prop :=
| clear_Nd e cs : (forall a, cs = [a] -> ename (match a with Nd e' _ => e' end) = "*" -> ends_in_sum a = false) -> Forall clear_powers cs -> clear_powers (Nd e cs).
