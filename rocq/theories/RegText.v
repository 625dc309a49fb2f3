(** Model of the text produced by KD_Discover_Regression.fit: the expression, the
    expression with the user's variable names, and the constants
    (kd/model/kd_discover_regression.py:58-83).  A Python float is its exact value
    with a separate sign, or an infinity, or NaN. *)
From Coq Require Import QArith Qround Ascii.
From Verif Require Import Base DlgaEq SgaEq.
Local Open Scope string_scope.

(** Python float: finite (negative?, magnitude), infinite (negative?), NaN. *)
Inductive pyfloat := Fin (neg : bool) (mag : Q) | Inf (neg : bool) | NaN.

(** The decimal digit [d]. *)
Definition dchar (d : N) : ascii := ascii_of_N (48 + d).

(** Decimal text of a natural number (Python str(int), f-string "{i}"), [k] steps at most. *)
Fixpoint dec_fuel (k : nat) (n : N) : string :=
  match k with
  | O => ""
  | S k' => (if (n <? 10)%N then "" else dec_fuel k' (n / 10)) ++ String (dchar (n mod 10)) ""
  end.
Definition dec (n : N) : string := dec_fuel (S (N.size_nat n)) n.

(** The last [k] decimal digits of a number (the zero padding of the ".6f" format). *)
Fixpoint fixed (k : nat) (m : N) : string :=
  match k with O => "" | S k' => fixed k' (m / 10) ++ String (dchar (m mod 10)) "" end.

(** str.rstrip(c) for one character *)
Fixpoint rstrip (c : ascii) (s : string) : string :=
  match s with
  | "" => ""
  | String a s' => let r := rstrip c s' in
                   if (Ascii.eqb a c && String.eqb r "")%bool then "" else String a r
  end.

(** round(scalar, 6) followed by the ".6f" format, kd_discover_regression.py:68-69: the value is
    rounded to millionths, half to even, and printed with six decimals.  (For doubles the two steps
    agree with one correct rounding: where doubles are coarser than 1e-6, round returns its argument.) *)
Definition millionths (mag : Q) : N := Z.to_N (round_half_even (mag * 1000000)).
Definition f6 (v : pyfloat) : string :=
  match v with
  | Fin neg mag => let m := millionths mag in
                   (if neg then "-" else "") ++ dec (m / 1000000) ++ "." ++ fixed 6 (m mod 1000000)
  | Inf neg => if neg then "-inf" else "inf"
  | NaN => "nan"
  end.

(** _format_constant, kd_discover_regression.py:65-72 *)
Definition format_constant (v : pyfloat) : string :=
  let text := rstrip "." (rstrip "0" (f6 v)) in
  if contains "." text then text else text ++ ".0".

(** A token of the traversal as far as its text goes: a placeholder constant with its value,
    if it has one, or any other token with its repr. *)
Inductive rtoken := RConst (v : option pyfloat) | RName (name : string).
(** One part of _serialize_program, kd_discover_regression.py:76-80; the repr of a constant
    without value is "const" (library.py:107-109). *)
Definition token_text (t : rtoken) : string :=
  match t with RConst (Some v) => format_constant v | RConst None => "const" | RName n => n end.
(** ",".join(parts), kd_discover_regression.py:81 *)
Fixpoint comma (l : list string) : string :=
  match l with [] => "" | [x] => x | x :: l' => x ++ "," ++ comma l' end.
Definition serialize (trav : list rtoken) : string := comma (map token_text trav).

(** The name of an input variable token, functions.py:240 *)
Definition xvar (i : nat) : string := String "x" (dec (N.of_nat i)).

(** The loop of _render_named_expression over reversed(enumerate(var_names, start=1)),
    kd_discover_regression.py:58-63: the variable with the largest index is replaced first. *)
Fixpoint render_from (start : nat) (names : list string) (s : string) : string :=
  match names with
  | [] => s
  | n :: names' => replace (xvar start) n (render_from (S start) names' s)
  end.
Definition render_named (s : string) (names : list string) : string := render_from 1 names s.

(** Default names, kd_discover_regression.py:50: [f"x{i + 1}" for i in range(d)] *)
Definition default_names (d : nat) : list string := map (fun i => xvar (i + 1)) (seq 0 d).
