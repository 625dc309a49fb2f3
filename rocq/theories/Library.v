(** Model of kd/model/discover/library.py (Token, Library). *)
From Verif Require Import Base.

(** library.py:11-50 Token.__init__ (function and complexity are irrelevant to
    the index arithmetic and are left out; a PlaceholderConstant /
    HardCodedConstant is a Token of arity 0 with none of the variable indices). *)
Record token := mkTok {
  tname : string;
  tarity : nat;
  tinput : option nat;
  tstate : option nat;
  tparam : option nat }.

Definition is_some {A} (o : option A) : bool := match o with Some _ => true | None => false end.

(** library.py:48-50: input/state/param variables must have arity zero. *)
Definition make_token name ar inp st pa : res token :=
  if (is_some inp || is_some st || is_some pa) && negb (Nat.eqb ar 0)
  then Err AssertionError
  else Ok (mkTok name ar inp st pa).

(** library.py:180-185: parent_adjust, -1 for terminals, a running count otherwise. *)
Fixpoint parent_adjust_loop (count : Z) (ars : list nat) : list Z :=
  match ars with
  | [] => []
  | a :: ars' =>
      if Nat.ltb 0 a then count :: parent_adjust_loop (count + 1)%Z ars'
      else (-1)%Z :: parent_adjust_loop count ars'
  end.

(** library.py:187-190, 196-198: trig names, plus every name mentioning diff/Diff. *)
Definition base_trig : list string := ["sin"; "cos"; "tan"; "csc"; "sec"; "cot"]%string.
Definition has_diff (n : string) : bool := contains "diff"%string n || contains "Diff"%string n.
Definition is_trig_name (n : string) : bool :=
  existsb (String.eqb n) base_trig ||
  existsb (String.eqb n) (map (fun s => String.append "arc"%string s) base_trig) ||
  has_diff n.

(** library.py:130-223 Library.__init__.  [name_arites], [np_names],
    [torch_tokens] and [subgrid_tokens] are left out. *)
Record library := mkLib {
  ltokens : list token;
  lL : nat;
  lnames : list string;
  larities : list nat;
  linput_tokens : list nat;
  lstate_tokens : list nat;
  lparam_tokens : list nat;
  lterminal : list nat;
  lunary : list nat;
  lbinary : list nat;
  lconst_token : option nat;
  lparent_adjust : list Z;
  lnon_state : list nat;
  ltrig : list nat;
  ldiff : list nat;
  lEMPTY_ACTION : nat;
  lEMPTY_PARENT : nat;
  lEMPTY_SIBLING : nat }.

Fixpoint index_from {A} (f : A -> bool) (i : nat) (l : list A) : option nat :=
  match l with
  | [] => None
  | x :: xs => if f x then Some i else index_from f (S i) xs
  end.
(** [list.index]: first position satisfying the test. *)
Definition index_of {A} (f : A -> bool) (l : list A) := index_from f 0 l.

(** library.py:159-162 get_tokens_of_arity *)
Definition tokens_of_arity (toks : list token) (a : nat) : list nat :=
  indices (fun t => Nat.eqb (tarity t) a) toks.

Definition make_library (toks : list token) : res library :=
  let L := List.length toks in
  let inp := indices (fun t => is_some (tinput t)) toks in
  let st := indices (fun t => is_some (tstate t)) toks in
  let pa := indices (fun t => is_some (tparam t)) toks in
  (* library.py:152-154 *)
  if Nat.eqb (List.length inp) 0 && Nat.eqb (List.length st) 0 then Err AssertionError
  else
    let inp' := if Nat.eqb (List.length inp) 0 then st else inp in
    let ars := map tarity toks in
    let term := tokens_of_arity toks 0 in
    let n_parent_inputs := L + 1 - List.length term in
    Ok {| ltokens := toks; lL := L; lnames := map tname toks; larities := ars;
          linput_tokens := inp'; lstate_tokens := st; lparam_tokens := pa;
          lterminal := term;
          lunary := tokens_of_arity toks 1;
          lbinary := tokens_of_arity toks 2;
          lconst_token := index_of (String.eqb "const"%string) (map tname toks);
          lparent_adjust := parent_adjust_loop 0%Z ars;
          lnon_state := indices (fun t => Nat.eqb (tarity t) 0 && negb (is_some (tstate t))) toks;
          ltrig := indices (fun t => is_trig_name (tname t)) toks;
          ldiff := indices (fun t => has_diff (tname t)) toks;
          lEMPTY_ACTION := (L + 1) - 1;
          lEMPTY_PARENT := n_parent_inputs - 1;
          lEMPTY_SIBLING := (L + 1) - 1 |}.

(** library.arities[t] for a valid index (0 outside: callers that would raise
    IndexError are guarded separately). *)
Definition ar_of (lib : library) (t : nat) : nat := nth t (larities lib) 0.

(** library.py:225-242 Library.__getitem__; Python indices may be negative. *)
Inductive key := KStr (s : string) | KInt (z : Z) | KOther.
Definition getitem (lib : library) (k : key) : res (nat * token) :=
  let at_index (z : Z) :=
    let n := Z.of_nat (lL lib) in
    let z' := if (z <? 0)%Z then (z + n)%Z else z in
    if ((z' <? 0) || (n <=? z'))%Z then Err OtherError (* TokenNotFoundError *)
    else match nth_error (ltokens lib) (Z.to_nat z') with
         | Some t => Ok (Z.to_nat z', t)
         | None => Err OtherError
         end in
  match k with
  | KStr s => match index_of (String.eqb s) (lnames lib) with
              | Some i => at_index (Z.of_nat i)
              | None => Err OtherError
              end
  | KInt z => at_index z
  | KOther => Err OtherError
  end.

(** library.py:244-261 tokenize + actionize on a list of names/indices.  Token
    objects are compared by identity, i.e. by their position. *)
Definition actionize (lib : library) (ks : list key) : res (list nat) :=
  do ts <- mapM (getitem lib) ks ; Ok (map fst ts).

(** Every token passed Token.__init__'s assertions. *)
Definition tokens_ok (toks : list token) : Prop :=
  Forall (fun t => make_token (tname t) (tarity t) (tinput t) (tstate t) (tparam t) = Ok t) toks.
