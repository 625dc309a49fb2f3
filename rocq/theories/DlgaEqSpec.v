(** What a reader makes of a printed equation, independently of how it was printed. *)
From Coq Require Import Ascii.
From Verif Require Import Base.
Local Open Scope string_scope.

(** No character of [s] is one of the operators + - *. *)
Fixpoint plain (s : string) : bool :=
  match s with
  | "" => true
  | String a s' => negb (Ascii.eqb a "+" || Ascii.eqb a "-" || Ascii.eqb a "*") && plain s'
  end.
(** A printed number: an optional minus sign and digits. *)
Definition numeral (s : string) : Prop :=
  (s <> "" /\ plain s = true) \/ (exists t, s = String "-" t /\ t <> "" /\ plain t = true).
(** A printed operator name. *)
Definition opname (s : string) : Prop := s <> "" /\ plain s = true.

(** Summands: a new one starts after a plus sign and at a minus sign; [acc] is what was read
    of the current one. *)
Fixpoint summands (acc s : string) : list string :=
  match s with
  | "" => [acc]
  | String a s' =>
      if Ascii.eqb a "+" then acc :: summands "" s'
      else if Ascii.eqb a "-" then (if String.eqb acc "" then summands "-" s' else acc :: summands "-" s')
      else summands (acc ++ String a "") s'
  end.
(** Factors: separated by stars. *)
Fixpoint factors (acc s : string) : list string :=
  match s with
  | "" => [acc]
  | String a s' => if Ascii.eqb a "*" then acc :: factors "" s' else factors (acc ++ String a "") s'
  end.
(** Right-hand side as a list of products. *)
Definition read_rhs (s : string) : list (list string) := map (factors "") (summands "" s).
