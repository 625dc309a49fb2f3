(** Model of kd/model/discover/program.py:61-109 from_str_tokens with the constants it sets (program.py:531-540), on top of
    the program cache of Program.v.  Numbers are read by [parse] (float(s), None where it raises ValueError). *)
From Coq Require Import Ascii.
From Verif Require Import Base Library Program.
Local Open Scope string_scope.
Local Open Scope list_scope.

(** str.split(",") (program.py:85) *)
Fixpoint split_comma (s : string) : list string :=
  match s with
  | "" => [""]
  | String c s' => if Ascii.eqb c ","%char then "" :: split_comma s'
                   else match split_comma s' with [] => [String c ""] | w :: ws => String c w :: ws end
  end.

Section Text.
Context {V : Type}.
Variable parse : string -> option V.
(** an element of the list: a str or a float *)
Inductive item := Word (s : string) | Number (v : V).
(** program.py:92-100, one element; the token is None where the library has no const *)
Definition read_item (lib : library) (has_const : bool) (it : item) : res (option nat * option V) :=
  let number v := if has_const then Err AssertionError else Ok (lconst_token lib, Some v) in
  match it with
  | Number v => number v
  | Word s => match index_of (String.eqb s) (lnames lib) with
              | Some i => Ok (Some i, None)
              | None => match parse s with Some v => number v | None => Err ValueError end
              end
  end.
Definition is_word (w : string) (it : item) : bool := match it with Word s => String.eqb s w | Number _ => false end.
(** program.py:88-102: np.array([..., None, ...], dtype=np.int32) raises TypeError *)
Definition read_items (lib : library) (items : list item) : res (list nat * list V) :=
  do l <- mapM (read_item lib (existsb (is_word "const") items)) items ;
  do toks <- mapM (fun p => match fst p with Some t => Ok t | None => Err TypeError end) l ;
  Ok (toks, flat_map (fun p : option nat * option V => match snd p with Some v => [v] | None => [] end) l).

(** Programs, their cache, and the values of the constants of every program (None: not set) *)
Record tstate := mkT { t_prog : pstate; t_vals : list (list (option V)) }.
Definition t_init : tstate := mkT p_init [].
(** program.py:252 const_pos: a new program has one placeholder for every const token *)
Definition placeholders (lib : library) (toks : list nat) : nat :=
  List.length (filter (fun t => String.eqb (nth t (lnames lib) "") "const") toks).
(** program.py:531-540 set_constants: constant [i] goes to place const_pos[i], IndexError when there are too many *)
Fixpoint set_vals (vs : list (option V)) (cs : list V) : list (option V) * res unit :=
  match cs, vs with
  | [], _ => (vs, Ok tt)
  | c :: cs', _ :: vs' => let '(r, e) := set_vals vs' cs' in (Some c :: r, e)
  | _ :: _, [] => ([], Err IndexError)
  end.
(** the program cache with the constants of the programs *)
Definition cached (lib : library) (st : bool) (s : tstate) (q : request) : tstate * res nat :=
  let '(p, r) := from_tokens lib st (t_prog s) q in
  match r with
  | Err e => (mkT p (t_vals s), Err e)
  | Ok i => (mkT p (if Nat.ltb i (List.length (t_vals s)) then t_vals s
                    else t_vals s ++ [repeat None (placeholders lib match nth_error (p_heap p) i with Some o => p_tokens o | None => [] end)]), Ok i)
  end.
(** program.py:61-109 from_str_tokens; [rnd] is the padding drawn by _finish_tokens if it is needed *)
Definition from_items (lib : library) (st : bool) (s : tstate) (items : list item) (skip : bool) (rnd : nat -> list nat) : tstate * res nat :=
  match read_items lib items with
  | Err e => (s, Err e)
  | Ok (toks, cs) =>
      match cached lib st s (mkReq toks 4 skip true rnd) with
      | (s1, Err e) => (s1, Err e)
      | (s1, Ok i) => let '(v, r) := set_vals (nth i (t_vals s1) []) cs in
                      (mkT (t_prog s1) (update_nth i (fun _ => v) (t_vals s1)), do _ <- r ; Ok i)
      end
  end.
Definition from_text (lib : library) (st : bool) (s : tstate) (text : string) := from_items lib st s (map Word (split_comma text)).
(** A history: texts and token arrays (sampled programs) in any order *)
Inductive call := ByText (items : list item) (skip : bool) (rnd : nat -> list nat) | ByTokens (q : request).
Definition run_call (lib : library) (st : bool) (s : tstate) (c : call) : tstate * res nat :=
  match c with ByText items skip rnd => from_items lib st s items skip rnd | ByTokens q => cached lib st s q end.
Definition run_calls (lib : library) (st : bool) (cs : list call) : tstate := fold_left (fun s c => fst (run_call lib st s c)) cs t_init.
End Text.
Arguments Word {V}. Arguments Number {V}. Arguments mkT {V}. Arguments t_prog {V}. Arguments t_vals {V}. Arguments t_init {V}. Arguments ByText {V}. Arguments ByTokens {V}.
