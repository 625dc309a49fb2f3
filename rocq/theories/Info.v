(** Model of DatasetInfo (kd/dataset/_info.py) and of the comma-separated lists of the web page and
    the runner (app.py:138-140, runner.py:33-37).  Strings are ASCII. *)
From Coq Require Import Ascii.
From Verif Require Import Base Params.
Local Open Scope string_scope.
Local Open Scope list_scope.

(** ** str.split(',') and str.strip() *)
Definition is_space (c : ascii) : bool := let n := nat_of_ascii c in (Nat.leb 9 n && Nat.leb n 13) || (Nat.leb 28 n && Nat.leb n 32).
Definition is_comma (c : ascii) : bool := Ascii.eqb c ","%char.
Fixpoint split (s : string) : list string :=
  match s with
  | EmptyString => [""]
  | String c s' => if is_comma c then "" :: split s' else match split s' with w :: ws => String c w :: ws | [] => [String c ""] end
  end.
Fixpoint lstrip (s : string) : string := match s with String c s' => if is_space c then lstrip s' else s | EmptyString => "" end.
(** every character is white space *)
Fixpoint blank (s : string) : bool := match s with String c s' => is_space c && blank s' | EmptyString => true end.
Fixpoint rstrip (s : string) : string := match s with String c s' => if blank s then "" else String c (rstrip s') | EmptyString => "" end.
Definition strip (s : string) : string := rstrip (lstrip s).
(** _parse_ops(text) *)
Definition parse_ops (text : string) : list string := map strip (filter (fun op => negb (String.eqb (strip op) "")) (split text)).

(** ** DatasetInfo *)
(** a value: a string, a list, None or something else *)
Inductive ivalue := IStr (s : string) | IList (l : list ivalue) | INone | IOther (n : nat).
(** the dataclass fields in order (_info.py:26-32), with their defaults *)
Definition fields : list (string * ivalue) :=
  [("description", IStr ""); ("citation", IStr ""); ("homepage", IStr ""); ("license", IStr ""); ("author", IStr ""); ("keywords", IList []); ("version", IStr "")].
(** an instance: its __dict__ *)
Definition info := list (string * ivalue).
(** __post_init__ (_info.py:34-39) *)
Definition normal_keywords (v : ivalue) : ivalue := match v with IStr s => IList (map (fun k => IStr (strip k)) (split s)) | INone => IList [] | _ => v end.
(** the constructor: TypeError for a keyword that is no field (dataclass __init__) *)
Definition build (kw : list (string * ivalue)) : res info :=
  if forallb (fun p => existsb (String.eqb (fst p)) (map fst fields)) kw
  then Ok (map (fun f => let v := match dget kw (fst f) with Some v => v | None => snd f end in (fst f, if String.eqb (fst f) "keywords" then normal_keywords v else v)) fields)
  else Err TypeError.
(** from_dict (_info.py:41-59) *)
Definition from_dict (d : list (string * ivalue)) : res info := build (filter (fun p => existsb (String.eqb (fst p)) (map fst fields)) d).
(** to_dict (_info.py:124-131): dataclasses.asdict *)
Definition to_dict (i : info) : list (string * ivalue) := map (fun f => (fst f, match dget i (fst f) with Some v => v | None => snd f end)) fields.
(** copy (_info.py:93-104); a data attribute named "copy" is not callable *)
Definition copy (i : info) : res info := if existsb (String.eqb "copy") (map fst i) then Err TypeError else build i.
(** the methods an instance has besides its fields; hasattr also sees the names starting with '__' *)
Definition methods : list string := ["from_dict"; "load_descr"; "copy"; "update"; "to_dict"].
Section Has.
Variable dunder : string -> bool.
Definition hasattr (i : info) (k : string) : bool := existsb (String.eqb k) (map fst i) || existsb (String.eqb k) methods || dunder k.
(** update (_info.py:106-122); the instance is returned even when an exception is raised *)
Fixpoint update (i : info) (kw : list (string * ivalue)) : info * res unit :=
  match kw with
  | [] => (i, Ok tt)
  | (k, v) :: kw' => if hasattr i k then update (dset i k v) kw' else (i, Err AttributeError)
  end.
End Has.
(** ** Specification *)
(** an instance built by the constructor and changed by nothing else *)
Definition well_formed (i : info) : Prop := map fst i = map fst fields /\ forall v, dget i "keywords" = Some v -> normal_keywords v = v.
Definition has_comma (s : string) : bool := existsb is_comma (list_ascii_of_string s).
Fixpoint commas (l : list string) : string := match l with [] => "" | [a] => a | a :: l' => (a ++ "," ++ commas l')%string end.
(** a name as typed: non-empty, no comma, no white space at its ends *)
Definition neat (s : string) : Prop := s <> "" /\ has_comma s = false /\ strip s = s.
