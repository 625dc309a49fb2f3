(** Model of kd/model/discover/aggregator.py and of the term operations in
    kd/model/discover/ga_utils.py.  Terms are lists of library indices (a Token object
    of the library is identified with its position, library.py:244-261). *)
From Coq Require Import QArith Qabs.
From Verif Require Import Base Library Subroutines.
Local Open Scope nat_scope.

(** aggregator.py:248: add_t if the library has it, else add (TokenNotFoundError
    if neither is there). *)
Definition add_index (lib : library) : res nat :=
  match index_of (String.eqb "add_t") (lnames lib) with
  | Some i => Ok i
  | None => match index_of (String.eqb "add") (lnames lib) with Some i => Ok i | None => Err OtherError end
  end.
(** aggregator.py:246-264 reconstruct_tokens: an interleaved list of [add] and terms,
    `del new_tokens[-2]` (IndexError on the empty list), then flattening. *)
Definition interleave (a : nat) (terms : list (list nat)) : list (nat + list nat) :=
  flat_map (fun t => [inl a; inr t]) terms.
Definition del_m2 {A} (l : list A) : res (list A) :=
  match rev l with x :: _ :: r => Ok (rev r ++ [x]) | _ => Err IndexError end.
Definition flatten (l : list (nat + list nat)) : list nat :=
  flat_map (fun e => match e with inl a => [a] | inr t => t end) l.
Definition reconstruct_tokens (lib : library) (terms : list (list nat)) : res (list nat) :=
  do a <- add_index lib ; do l <- del_m2 (interleave a terms) ; Ok (flatten l).

(** ga_utils.py:141-154 tokens2index: zero padding to max_length; assigning a longer
    array into the slice raises ValueError. *)
Definition tokens2index (actions : list nat) (max_length : nat) : res (list nat) :=
  if Nat.leb (List.length actions) max_length
  then Ok (actions ++ repeat 0 (max_length - List.length actions)) else Err ValueError.

(** ga_utils.py:156-180 mutate_single.  [draws] is what the successive calls of
    np.random.choice(candidate) return; [None] means that all of them were the token
    itself, i.e. the loop is still running. *)
Fixpoint first_other (action : nat) (draws : list nat) : option nat :=
  match draws with [] => None | d :: ds => if Nat.eqb d action then first_other action ds else Some d end.
Definition candidates (lib : library) (only : bool) (action : nat) (tok : token) : res (option (list nat)) :=
  if Nat.eqb (tarity tok) 0 then
    if is_some (tstate tok) then Ok (Some (lstate_tokens lib))
    else if is_some (tinput tok) then Ok (Some (linput_tokens lib))
    else Err UnboundLocalError                                   (* candidate never assigned *)
  else if only then Ok None else Ok (Some (tokens_of_arity (ltokens lib) (tarity tok))).
Definition mutate_single (lib : library) (only : bool) (draws : list nat) (action : nat) : res (option nat) :=
  match nth_error (ltokens lib) action with
  | None => Err OtherError
  | Some tok =>
      do c <- candidates lib only action tok ;
      match c with
      | None => Ok (Some action)
      | Some cand => if Nat.eqb (List.length cand) 1 then Ok (Some action) else Ok (first_other action draws)
      end
  end.
(** Every draw comes from the candidate list. *)
Definition draws_ok (lib : library) (only : bool) (draws : list nat) (action : nat) : Prop :=
  forall tok cand, nth_error (ltokens lib) action = Some tok -> candidates lib only action tok = Ok (Some cand) ->
    Forall (fun d => In d cand) draws.
(** aggregator.py:100-122 and 216-227, the token loop: [choices] says for every token
    whether it is mutated and with which draws. *)
Fixpoint mutate_tokens (lib : library) (only : bool) (choices : list (option (list nat))) (term : list nat)
  : res (option (list nat)) :=
  match term, choices with
  | [], _ => Ok (Some [])
  | t :: term', c :: choices' =>
      do h <- match c with None => Ok (Some t) | Some draws => mutate_single lib only draws t end ;
      do r <- mutate_tokens lib only choices' term' ;
      Ok (match h, r with Some x, Some xs => Some (x :: xs) | _, _ => None end)
  | _, [] => Ok None
  end.
(** only terms of three tokens or more are touched *)
Definition mutate_term lib only choices (term : list nat) : res (option (list nat)) :=
  if Nat.leb 3 (List.length term) then mutate_tokens lib only choices term else Ok (Some term).

(** ga_utils.py:182-200 cross_over_p: [ix1], [ix2] the two random positions, [swap] the
    outcome of random() < p_cv.  np.random.randint(0) raises ValueError. *)
Definition set_nth {A} (l : list A) (i : nat) (x : A) : list A := firstn i l ++ x :: skipn (S i) l.
Definition del_nth {A} (l : list A) (i : nat) : list A := firstn i l ++ skipn (S i) l.
Definition cross_over_p {A} (swap : bool) (ix1 ix2 : nat) (t1 t2 : list A) : res (list A * list A) :=
  match nth_error t1 ix1, nth_error t2 ix2 with
  | Some a, Some b =>
      if swap then Ok (set_nth t1 ix1 b, set_nth t2 ix2 a)
      else Ok (t1 ++ [b], if Nat.ltb 1 (List.length t2) then del_nth t2 ix2 else t2)
  | _, _ => Err ValueError
  end.

(** ga_utils.py:202-229 drop_duplicates.  A value is a vector; a reward is a vector of
    length one.  [close] is |sum(a - b)| < 1e-5. *)
Definition qsum (l : list Q) : Q := fold_right Qplus 0%Q l.
Definition close (a b : list Q) : bool :=
  negb (Qle_bool (1 # 100000) (Qabs (qsum (map (fun p => fst p - snd p)%Q (combine a b))))).
Record dd_state (T : Type) := mkDD { dd_tok : list T; dd_val : list (list Q); dd_len : list nat }.
Arguments mkDD {T}. Arguments dd_tok {T}. Arguments dd_val {T}. Arguments dd_len {T}.
(** the inner loop over the snapshot values[i+1:], token_len[i+1:] *)
Fixpoint dd_inner {T} (tok : T) (v : list Q) (n : nat) (snap : list (list Q * nat)) (st : dd_state T) (found : bool)
  : res (dd_state T * bool) :=
  match snap with
  | [] => Ok (st, found)
  | (v', n') :: snap' =>
      if close v' v then
        if Nat.ltb n n' then
          match index_of (Nat.eqb n') (dd_len st) with
          | None => Err ValueError
          | Some idx => dd_inner tok v n snap'
                          (mkDD (set_nth (dd_tok st) idx tok) (set_nth (dd_val st) idx v) (set_nth (dd_len st) idx n)) true
          end
        else dd_inner tok v n snap' st true
      else dd_inner tok v n snap' st found
  end.
(** the outer loop reads the live lists *)
Fixpoint dd_outer {T} (fuel i : nat) (st : dd_state T) : res (list (T * list Q)) :=
  match fuel with
  | O => Ok []
  | S f =>
      match nth_error (dd_tok st) i, nth_error (dd_val st) i, nth_error (dd_len st) i with
      | Some t, Some v, Some n =>
          do r <- dd_inner t v n (combine (skipn (S i) (dd_val st)) (skipn (S i) (dd_len st))) st false ;
          do rest <- dd_outer f (S i) (fst r) ;
          Ok (if snd r then rest else (t, v) :: rest)
      | _, _, _ => Ok []
      end
  end.
Definition drop_duplicates {T} (len : T -> nat) (tokens : list T) (values : list (list Q)) : res (list (T * list Q)) :=
  dd_outer (List.length tokens) 0 (mkDD tokens values (map len tokens)).

(** aggregator.py:127-190, what __call__ does to best_r: [rp] rewards of the batch (with
    the length of each program's traversal), [gp] rewards of the crossed-over and mutated
    programs, [last] the reward of the last program built from [self.expressions] (None:
    there is none, ps[-1] raises IndexError).  [mutation] is p_mutate > 0. *)
Definition qmax (a b : Q) : Q := if Qle_bool a b then b else a.
Definition qmaxl (d : Q) (l : list Q) : Q := fold_left qmax l d.
Definition qminl (l : list Q) : res Q :=
  match l with [] => Err ValueError | x :: l' => Ok (fold_left (fun a b => if Qle_bool a b then a else b) l' x) end.
Definition dedup_rewards (l : list (Q * nat)) : res (list (Q * nat)) :=
  do r <- drop_duplicates snd l (map (fun p => [fst p]) l) ; Ok (map fst r).
Definition agg_best (mutation : bool) (best : option (Q * nat)) (best_r : Q) (rp gp : list (Q * nat)) (last : option Q) : res Q :=
  do rq <- qminl (map fst rp) ;
  do ps <- dedup_rewards rp ;
  let ps1 := ps ++ match best with Some b => [b] | None => [] end in
  do ps2 <- (if mutation
             then do h <- dedup_rewards (filter (fun p => negb (Qle_bool (fst p) rq)) gp) ; Ok (ps1 ++ h)
             else Ok ps1) ;
  match ps2, last with
  | [], _ | _, None => Err IndexError
  | p :: rest, Some l =>
      let top := qmaxl (fst p) (map fst rest) in                (* programs sorted descending: programs[0] *)
      let cand := if Qle_bool top l then l else top in
      Ok (if Qle_bool cand best_r then best_r else cand)
  end.

(** aggregator.py:45-77 get_agent_programs: the observation of step [t] for the padded
    token sequence [idx]; compare task.py:125-173, what the sampler observed. *)
Definition agent_obs (lib : library) (idx : list nat) (t : nat) : nat * Z :=
  (match t with O => lL lib | S t' => nth t' idx 0 end,
   (1 + fold_right (fun a s => Z.of_nat (ar_of lib a) - 1 + s) 0 (firstn (S t) idx))%Z).
(** task.py:125-141,155,168: previous action and open slots before step [t] *)
Definition sampler_obs (lib : library) (idx : list nat) (t : nat) : nat * Z :=
  (match t with O => lEMPTY_ACTION lib | S t' => nth t' idx 0 end,
   (1 + fold_right (fun a s => Z.of_nat (ar_of lib a) - 1 + s) 0 (firstn t idx))%Z).
