(** Model of kd/model/sga/sgapde/equation.py: extraction of the terms of the found equation
    and their LaTeX form, and of PDE.concise_visualize (pde.py:92-110).  Numbers are
    rationals.  Not modelled: the deep copy of the elements (SgaEval's evaluation is applied
    to the candidate itself), np.real_if_close. *)
From Coq Require Import QArith Qabs Ascii.
From Verif Require Import Base Trees SgaTree SgaSpec.
Local Open Scope string_scope.

(** ** Extraction *)
(** SGAEquationTerm (equation.py:17-24); [tree] is left generic. *)
Record eqterm (T : Type) := mkTerm { et_label : string; et_default : bool; et_coef : Q; et_tree : option T }.
Arguments mkTerm {T}. Arguments et_label {T}. Arguments et_default {T}. Arguments et_coef {T}. Arguments et_tree {T}.
(** abs(coeff) < coefficient_tol *)
Definition below (tol c : Q) : bool := negb (Qle_bool tol (Qabs c)).
(** the f-string default_<idx>; [dec] prints a number in decimal *)
Section Extract.
Context {T : Type}.
Variables (dec : nat -> string) (inorder : T -> string).
(** equation.py:81-94 *)
Definition default_terms (tol : Q) (num_default : nat) (names : list string) (coefs : list Q) : list (eqterm T) :=
  flat_map (fun i =>
    let c := nth i coefs 0%Q in
    if below tol c then [] else
    [mkTerm (match nth_error names i with Some s => s | None => "default_" ++ dec i end) true c None])
  (seq 0 (Nat.min num_default (List.length coefs))).
(** equation.py:96-112: stops at the first term without coefficient.  (An empty inorder falls
    back to other labels; a tree's inorder is never empty.) *)
Fixpoint generated_terms (tol : Q) (at_ : nat) (terms : list T) (coefs : list Q) : list (eqterm T) :=
  match terms with
  | [] => []
  | t :: ts =>
      match nth_error coefs at_ with
      | None => []
      | Some c => (if below tol c then [] else [mkTerm (inorder t) false c (Some t)]) ++ generated_terms tol (S at_) ts coefs
      end
  end.
Definition extract (tol : Q) (num_default : nat) (names : list string) (terms : list T) (coefs : list Q) : list (eqterm T) :=
  default_terms tol num_default names coefs ++ generated_terms tol num_default terms coefs.
End Extract.
(** feature_matrix.dot(weights) (equation.py:69-74), by columns: row p *)
Fixpoint predict (cols : list (list Q)) (w : list Q) (p : nat) : Q :=
  match cols, w with c :: cs, a :: w' => (nth p c 0 * a + predict cs w' p)%Q | _, _ => 0%Q end.
(** str.split('=', 1)[1] *)
Fixpoint after_eq (s : string) : option string :=
  match s with "" => None | String a s' => if Ascii.eqb a "=" then Some s' else after_eq s' end.
Fixpoint lstrip (s : string) : string := match s with String a s' => if Ascii.eqb a " " then lstrip s' else s | "" => "" end.
Fixpoint srev (s acc : string) : string := match s with "" => acc | String a s' => srev s' (String a acc) end.
Definition strip (s : string) : string := srev (lstrip (srev (lstrip s) "")) "".
(** _infer_lhs_label (equation.py:40-46); [left_side] is config.left_side *)
Definition infer_lhs (left_side : option string) : string :=
  match left_side with
  | None => "u_t"
  | Some raw => match after_eq raw with
                | Some r => if String.eqb (strip r) "" then "u_t" else strip r
                | None => "u_t"
                end
  end.

(** ** LaTeX of a tree *)
(** _render_leaf (equation.py:241-265) *)
Definition leaf_table : list (string * string) :=
  [("u", "u"); ("x", "x"); ("t", "t"); ("ux", "u_{x}"); ("u_x", "u_{x}"); ("uxx", "u_{xx}"); ("uxxx", "u_{xxx}"); ("ut", "u_{t}"); ("0", "0");
   ("alpha", "\alpha"); ("beta", "\beta"); ("gamma", "\gamma"); ("delta", "\delta"); ("epsilon", "\epsilon"); ("kappa", "\kappa");
   ("lambda", "\lambda"); ("mu", "\mu"); ("nu", "\nu"); ("rho", "\rho"); ("sigma", "\sigma")].
Fixpoint lookup (l : list (string * string)) (k : string) : option string :=
  match l with [] => None | (a, b) :: l' => if String.eqb a k then Some b else lookup l' k end.
Definition render_leaf (name : string) : string := match lookup leaf_table name with Some s => s | None => name end.

(** _merge_subscript (equation.py:308-335).  [last_sub]: text before the last occurrence of
    underscore-brace and text after it. *)
Fixpoint last_sub (s : string) : option (string * string) :=
  match s with
  | "" => None
  | String a s' =>
      match last_sub s' with
      | Some (b, r) => Some (String a b, r)
      | None => match s' with
                | String b r => if Ascii.eqb a "_" && Ascii.eqb b "{" then Some ("", r) else None
                | "" => None
                end
      end
  end.
(** the text up to the matching closing brace, if that brace is the last character *)
Fixpoint to_close (depth : nat) (s : string) : option string :=
  match s with
  | "" => None
  | String a s' =>
      if Ascii.eqb a "{" then match to_close (S depth) s' with Some r => Some (String a r) | None => None end
      else if Ascii.eqb a "}" then
        match depth with
        | 1 => match s' with "" => Some "" | _ => None end
        | _ => match to_close (depth - 1) s' with Some r => Some (String a r) | None => None end
        end
      else match to_close depth s' with Some r => Some (String a r) | None => None end
  end.
Definition merge_subscript (operand new_sub : string) : option string :=
  match last_sub operand with
  | None => None
  | Some (b, r) => match to_close 1 r with Some old => Some (b ++ "_{" ++ old ++ new_sub ++ "}") | None => None end
  end.
(** _ensure_group (equation.py:338-345) *)
Fixpoint ends_paren (s : string) : bool := match s with "" => false | String a "" => Ascii.eqb a ")" | String _ s' => ends_paren s' end.
Fixpoint has_char (p : ascii -> bool) (s : string) : bool := match s with "" => false | String a s' => p a || has_char p s' end.
Definition ensure_group (e : string) : string :=
  if has_prefix "(" e && ends_paren e then e
  else if has_prefix "\frac" e then "(" ++ e ++ ")"
  else if has_char (fun a => Ascii.eqb a " " || Ascii.eqb a "+" || Ascii.eqb a "-") e then "(" ++ e ++ ")"
  else e.
(** _combine_node (equation.py:268-305); [lz] is notation == "leibniz".  children[i] may raise
    IndexError. *)
Fixpoint joinc (l : list string) : string := match l with [] => "" | [x] => x | x :: l' => x ++ ", " ++ joinc l' end.
Definition kid (l : list string) (i : nat) : res string := match nth_error l i with Some s => Ok s | None => Err IndexError end.
Definition subscript (operand var : string) : string :=
  match merge_subscript operand var with Some s => s | None => operand ++ "_{" ++ var ++ "}" end.
Definition combine_node (lz : bool) (name : string) (ch : list string) : res string :=
  let var := match ch with _ :: v :: _ => v | _ => "x" end in
  if String.eqb name "+" then do a <- kid ch 0 ; do b <- kid ch 1 ; Ok ("(" ++ a ++ " + " ++ b ++ ")")
  else if String.eqb name "-" then do a <- kid ch 0 ; do b <- kid ch 1 ; Ok ("(" ++ a ++ " - " ++ b ++ ")")
  else if String.eqb name "*" then do a <- kid ch 0 ; do b <- kid ch 1 ; Ok (a ++ " \cdot " ++ b)
  else if String.eqb name "/" then do a <- kid ch 0 ; do b <- kid ch 1 ; Ok ("\frac{" ++ a ++ "}{" ++ b ++ "}")
  else if String.eqb name "^2" then do a <- kid ch 0 ; Ok (ensure_group a ++ "^{2}")
  else if String.eqb name "^3" then do a <- kid ch 0 ; Ok (ensure_group a ++ "^{3}")
  else if String.eqb name "d" then
    do a <- kid ch 0 ;
    Ok (if lz then "\frac{\partial " ++ a ++ "}{\partial " ++ var ++ "}" else subscript a var)
  else if String.eqb name "d^2" then
    do a <- kid ch 0 ;
    Ok (if lz then "\frac{\partial^{2} " ++ a ++ "}{\partial " ++ var ++ "^{2}}" else subscript a (var ++ var))
  else match ch with [] => Ok name | _ => Ok (name ++ "(" ++ joinc ch ++ ")") end.
(** helper of _render_tree (equation.py:216-238) on the levels from [depth] on; a child that
    is not there counts as 1 *)
Fixpoint render_levels (lz : bool) (ls : list (list node)) (idx : nat) : res string :=
  match ls with
  | [] => Err IndexError
  | L :: rest =>
      match nth_error L idx with
      | None => Err IndexError
      | Some n =>
          if Nat.eqb (nar n) 0 then Ok (render_leaf (nname n)) else
          match nst n with
          | None => Ok (render_leaf (nname n))
          | Some st =>
              do ch <- mapM (fun i => match rest with
                                      | [] => Ok "1"
                                      | L' :: _ => if Nat.leb (List.length L') (st + i) then Ok "1" else render_levels lz rest (st + i)
                                      end) (seq 0 (nar n)) ;
              combine_node lz (nname n) ch
          end
      end
  end.
Definition render_tree (lz : bool) (ls : list (list node)) : res string := match ls with [] => Ok "1" | _ => render_levels lz ls 0 end.

(** ** The whole equation *)
(** str.replace(src, dst) for a non-empty src *)
Fixpoint drop (n : nat) (s : string) : string := match n, s with O, _ => s | S n', String _ s' => drop n' s' | _, "" => "" end.
Fixpoint replace_fuel (k : nat) (src dst s : string) : string :=
  match k with
  | O => s
  | S k' => if has_prefix src s then dst ++ replace_fuel k' src dst (drop (String.length src) s)
            else match s with "" => "" | String a s' => String a (replace_fuel k' src dst s') end
  end.
Definition replace (src dst s : string) : string := replace_fuel (S (String.length s)) src dst s.
(** _sanitize_label (equation.py:198-213) *)
Definition sanitize (label : string) : string :=
  let cleaned := strip label in
  if String.eqb cleaned "" then "1" else
  let leaf := render_leaf cleaned in
  if negb (String.eqb leaf cleaned) then leaf else
  replace " " "" (replace "^3" "^{3}" (replace "^2" "^{2}" (replace "*" "\cdot " cleaned))).
(** _format_lhs (equation.py:155-159) *)
Definition format_lhs (lhs : string) : string := sanitize (if String.eqb (strip lhs) "" then "u_t" else strip lhs).
Section Format.
Variable g6 : Q -> string.          (* f"{x:.6g}" *)
(** _render_term_expression (equation.py:189-195): the label if the tree cannot be drawn *)
Definition term_expr (lz : bool) (t : eqterm stree) : string :=
  match et_tree t with
  | Some s => match render_tree lz (t_levels s) with Ok e => e | Err _ => sanitize (et_label t) end
  | None => sanitize (et_label t)
  end.
(** _format_term (equation.py:162-186) *)
Definition tol : Q := 1 # 100000.
Definition needs_coef (m : Q) (expr : string) : bool :=
  negb (Qle_bool m (1 + tol)) || negb (Qle_bool (1 - tol) m) || String.eqb expr "1" || String.eqb expr "0".
Definition format_term (with_coef lz : bool) (t : eqterm stree) : bool * string :=
  let m := Qabs (et_coef t) in
  let e0 := term_expr lz t in
  let expr := if String.eqb e0 "" then "1" else e0 in
  (negb (Qle_bool 0 (et_coef t)),
   if with_coef then
     if negb (needs_coef m expr) && negb (Qeq_bool m 0) then expr
     else if String.eqb expr "1" then g6 m else g6 m ++ "\," ++ expr
   else expr).
(** sga_equation_to_latex (equation.py:120-146) for a valid notation *)
Definition signed_text (first : bool) (t : bool * string) : string :=
  if fst t then "- " ++ snd t else if first then snd t else "+ " ++ snd t.
Fixpoint joinsp (l : list string) : string := match l with [] => "" | [x] => x | x :: l' => x ++ " " ++ joinsp l' end.
Definition to_latex (with_coef lz : bool) (lhs : string) (terms : list (eqterm stree)) : string :=
  let ts := filter (fun t => negb (Qeq_bool (et_coef t) 0)) terms in
  match map (format_term with_coef lz) ts with
  | [] => format_lhs lhs ++ " = 0"
  | t :: rest => format_lhs lhs ++ " = " ++ joinsp (signed_text true t :: map (signed_text false) rest)
  end.
End Format.

(** ** PDE.concise_visualize (pde.py:92-110) *)
(** [coefs = None]: the regression was skipped, coefficients is the number 0 and
    coefficients[:, 0] raises TypeError.  [r4] prints round(c, 4). *)
Fixpoint concise_loop (r4 : Q -> string) (num_default : nat) (names elements : list string) (i : nat) (coefs : list Q) (name : string) : res string :=
  match coefs with
  | [] => Ok name
  | c :: cs =>
      if below (1 # 10000) c then concise_loop r4 num_default names elements (S i) cs name else
      let name1 := if negb (Nat.eqb i 0) && negb (String.eqb name "") then name ++ " + " else name in
      do l <- (if Nat.ltb i num_default then kid names i else kid elements (i - num_default)) ;
      concise_loop r4 num_default names elements (S i) cs (name1 ++ r4 c ++ l)
  end.
Definition concise_visualize (r4 : Q -> string) (num_default : nat) (names elements : list string) (coefs : option (list Q)) : res string :=
  match coefs with None => Err TypeError | Some w => concise_loop r4 num_default names elements 0 w "" end.

(** ** Labels of the equation *)
(** config.left_side: None for data given by the user (config.py:124), the built-in problems
    set it to the assignment of ut (config.py:193, 210, 227). *)
Definition config_left_side (user_data : bool) : option string := if user_data then None else Some "left_side = ut".
(** context.default_names (context.py:1056), whatever the target field is called *)
Definition default_names (target_field : string) : list string := ["u"].
