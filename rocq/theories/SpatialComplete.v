(** Model of the completion of terms over the space axes (kd/model/discover/ga_utils.py:286-409: spatial_complete, complete,
    include_input_tokens, include_term), used by the aggregator (aggregator.py:237-241, 285-288).  A term is a list of
    library indices (a token and its index determine each other). *)
From Coq Require Import QArith.
From Verif Require Import Base.
Local Open Scope nat_scope.
Local Open Scope list_scope.

(** What a token stands for: a space axis (input_var), a state variable (state_var), or neither.  No token is both. *)
Inductive sort_of := Axis | State | Other.
(** itertools.permutations(l, k): all choices of k different places of l, in this order *)
Fixpoint picks {A} (l : list A) : list (A * list A) :=
  match l with [] => [] | x :: r => (x, r) :: map (fun p => (fst p, x :: snd p)) (picks r) end.
Fixpoint arrangements {A} (k : nat) (l : list A) : list (list A) :=
  match k with O => [[]] | S k' => flat_map (fun p => map (cons (fst p)) (arrangements k' (snd p))) (picks l) end.
Definition list_eqb (a b : list nat) : bool := if list_eq_dec Nat.eq_dec a b then true else false.

Section Complete.
(** [sort]: the library's tokens; [axes], [states]: Library.input_tokens and Library.state_tokens; [eval]: the value
    evaluate_terms gives a term; [close a b]: np.abs(np.sum(a - b)) < 1e-5. *)
Context {V : Type} (sort : nat -> sort_of) (axes states : list nat) (eval : list nat -> V) (close : V -> V -> bool).
Definition is_axis (a : nat) : bool := match sort a with Axis => true | _ => false end.
Definition is_state (a : nat) : bool := match sort a with State => true | _ => false end.
(** ga_utils.py:366-377: the tokens of [t] with its axes and states replaced in turn.  The lists have as many elements as
    there are such tokens, so that no default is used. *)
Fixpoint replaced (t ax st : list nat) : list nat :=
  match t with
  | [] => []
  | a :: r => match sort a with
              | Axis => hd a ax :: replaced r (tl ax) st
              | State => hd a st :: replaced r ax (tl st)
              | Other => a :: replaced r ax st
              end
  end.
(** complete (ga_utils.py:333-380) *)
Definition complete (t : list nat) : list (list nat) :=
  let own_axes := filter is_axis t in
  let own_states := filter is_state t in
  let orders := if Nat.ltb 1 (List.length own_states) then arrangements (List.length own_states) states else [] in
  flat_map (fun st => flat_map (fun ax => if list_eqb own_axes ax then [] else [replaced t ax st]) (arrangements (List.length own_axes) axes)) (own_states :: orders).
(** include_input_tokens (398-402) *)
Definition has_axis (t : list nat) : bool := existsb is_axis t.
(** include_term (404-409) *)
Definition include_term (gen values : list V) : bool := existsb (fun g => existsb (close g) values) gen.
(** the new terms (316-333): the loop ends once more than ten are found *)
Fixpoint supplement (ts acc : list (list nat)) : list (list nat) :=
  match ts with
  | [] => acc
  | t :: r => if has_axis t then let acc' := acc ++ complete t in if Nat.ltb 10 (List.length acc') then acc' else supplement r acc' else supplement r acc
  end.
(** spatial_complete (286-333); [p] is the random number of [0, 1); the library is the list of its terms, each with its
    value; max_term is not used *)
Definition spatial_complete (p p_del : Q) (supp : bool) (lib : list (list nat * V)) : list (list nat * V) :=
  if Nat.eqb (List.length axes) 1 then lib
  else
    let kept := filter (fun tv => negb (has_axis (fst tv)) || include_term (map eval (complete (fst tv))) (map snd lib)) lib in
    if negb (Qle_bool p p_del) && negb supp && Nat.ltb 0 (List.length kept) then kept
    else lib ++ map (fun t => (t, eval t)) (supplement (map fst lib) []).
End Complete.
