(** Model of kd/model/sga/sgapde/naming.py.  A Python string is its list of code points. *)
From Coq Require Import Ascii Decimal.
From Verif Require Import Base.
Local Open Scope nat_scope.

Notation pystr := (list nat).
(** literals: code points of an ASCII literal (notation for examples and constants) *)
Fixpoint lit (s : string) : pystr := match s with EmptyString => [] | String c s' => nat_of_ascii c :: lit s' end.
Fixpoint streq (a b : pystr) : bool :=
  match a, b with [], [] => true | x :: a', y :: b' => Nat.eqb x y && streq a' b' | _, _ => false end.
Definition inl (s : pystr) (l : list pystr) : bool := existsb (streq s) l.

(** naming.py:9 the character classes of _NAME_RE *)
Definition letter (c : nat) : bool := (Nat.leb 65 c && Nat.leb c 90) || (Nat.leb 97 c && Nat.leb c 122).
Definition digit (c : nat) : bool := Nat.leb 48 c && Nat.leb c 57.
Definition underscore := 95.
Definition newline := 10.
Definition word (c : nat) : bool := letter c || digit c || Nat.eqb c underscore.
(** [A-Za-z0-9_]*$ : Python's $ also matches before one final newline *)
Fixpoint tail_ok (s : pystr) : bool :=
  match s with [] => true | [c] => word c || Nat.eqb c newline | c :: s' => word c && tail_ok s' end.
(** naming.py:9 _NAME_RE.match *)
Definition name_re (s : pystr) : bool := match s with [] => false | c :: s' => letter c && tail_ok s' end.
(** naming.py:10-20 *)
Definition DEFAULT_RESERVED : list pystr := map lit ["0"; "d"; "d^2"; "+"; "-"; "*"; "/"; "^2"; "^3"]%string.
(** `reserved or DEFAULT_RESERVED` (naming.py:29, 131): None and the empty set give the default *)
Definition res_or (reserved : list pystr) : list pystr := match reserved with [] => DEFAULT_RESERVED | _ => reserved end.
(** naming.py:23-32 (the argument is a string: the isinstance test is not modelled) *)
Definition validate_name (reserved : list pystr) (s : pystr) : res pystr :=
  if name_re s then if inl s (res_or reserved) then Err ValueError else Ok s else Err ValueError.
(** naming.py:35-40 *)
Definition validate_axis_name (reserved : list pystr) (s : pystr) : res pystr :=
  do _ <- validate_name reserved s ; if existsb (Nat.eqb underscore) s then Err ValueError else Ok s.
(** Python's string * int *)
Definition times (s : pystr) (k : nat) : pystr := List.concat (repeat s k).
(** naming.py:43-49; the order is a Python int, negative orders raise like 0 *)
Definition build_key (field axis : pystr) (order : nat) : res pystr :=
  do _ <- validate_name [] field ; do _ <- validate_axis_name [] axis ;
  if Nat.ltb order 1 then Err ValueError else Ok (field ++ underscore :: times axis order).
(** key.rsplit("_", 1) *)
Fixpoint rsplit (s : pystr) : option (pystr * pystr) :=
  match s with
  | [] => None
  | c :: s' => match rsplit s' with Some (a, b) => Some (c :: a, b) | None => if Nat.eqb c underscore then Some ([], s') else None end
  end.
(** naming.py:65-73 the scan over the known axes *)
Fixpoint scan_axes (tok : pystr) (axes : list pystr) : res (list (pystr * nat)) :=
  match axes with
  | [] => Ok []
  | a :: axes' =>
      do _ <- validate_axis_name [] a ;
      do rest <- scan_axes tok axes' ;
      if negb (Nat.eqb (List.length tok mod List.length a) 0) then Ok rest
      else let order := List.length tok / List.length a in
           if Nat.leb 1 order && streq tok (times a order) then Ok ((a, order) :: rest) else Ok rest
  end.
(** naming.py:52-84; `known_axes` None and [] behave alike *)
Definition parse_key (known : list pystr) (key : pystr) : res (pystr * pystr * nat) :=
  match rsplit key with
  | None => Err ValueError
  | Some (field, tok) =>
      do _ <- validate_name [] field ;
      match tok with
      | [] => Err ValueError
      | c :: _ =>
          match known with
          | [] => if streq tok (times [c] (List.length tok)) then Ok (field, [c], List.length tok) else Err ValueError
          | _ => do m <- scan_axes tok known ; match m with [(a, k)] => Ok (field, a, k) | _ => Err ValueError end
          end
      end
  end.

(** sorted(axis_names, key=len, reverse=True): stable, longest first (naming.py:97) *)
Fixpoint insert_len (s : pystr) (l : list pystr) : list pystr :=
  match l with [] => [s] | t :: l' => if Nat.leb (List.length t) (List.length s) then s :: t :: l' else t :: insert_len s l' end.
Fixpoint sort_len (l : list pystr) : list pystr := match l with [] => [] | s :: l' => insert_len s (sort_len l') end.
(** key.startswith(field) and key[len(field):] *)
Fixpoint strip_prefix (p s : pystr) : option pystr :=
  match p, s with [], _ => Some s | x :: p', y :: s' => if Nat.eqb x y then strip_prefix p' s' else None | _, _ => None end.
(** naming.py:105-117 *)
Fixpoint legacy_axes (field rem : pystr) (axes : list pystr) : res (list pystr) :=
  match axes with
  | [] => Ok []
  | a :: axes' =>
      do here <- (if negb (Nat.eqb (List.length rem mod List.length a) 0) then Ok []
                  else let order := List.length rem / List.length a in
                       if Nat.leb 1 order && streq rem (times a order) then do k <- build_key field a order ; Ok [k] else Ok []) ;
      do rest <- legacy_axes field rem axes' ; Ok (here ++ rest)
  end.
Fixpoint legacy_fields (key : pystr) (axes fields : list pystr) : res (list pystr) :=
  match fields with
  | [] => Ok []
  | f :: fields' =>
      do here <- (match strip_prefix f key with
                  | None => Ok [] | Some [] => Ok []
                  | Some rem => legacy_axes f rem axes
                  end) ;
      do rest <- legacy_fields key axes fields' ; Ok (here ++ rest)
  end.
(** naming.py:87-122 *)
Definition normalize_legacy (fields axes : list pystr) (key : pystr) : res pystr :=
  if existsb (Nat.eqb underscore) key then Ok key else
  let axes := sort_len axes in
  do _ <- mapM (validate_axis_name []) axes ; do _ <- mapM (validate_name []) fields ;
  do c <- legacy_fields key axes fields ;
  match c with [] => Ok key | [k] => Ok k | _ => Err ValueError end.

(** str(counter) *)
Fixpoint uint_str (u : uint) : pystr :=
  match u with
  | Nil => [] | D0 v => 48 :: uint_str v | D1 v => 49 :: uint_str v | D2 v => 50 :: uint_str v | D3 v => 51 :: uint_str v | D4 v => 52 :: uint_str v
  | D5 v => 53 :: uint_str v | D6 v => 54 :: uint_str v | D7 v => 55 :: uint_str v | D8 v => 56 :: uint_str v | D9 v => 57 :: uint_str v
  end.
Definition str_nat (n : nat) : pystr := uint_str (Nat.to_uint n).
Fixpoint distinctb (l : list pystr) : bool := match l with [] => true | s :: l' => negb (inl s l') && distinctb l' end.
(** naming.py:155-157 the while loop: from the first candidate on, the next numbered one until it
    is free.  The loop is unbounded; fuel is |used| + 1, which is proved to be enough. *)
Fixpoint next_free (used : list pystr) (stem : pystr) (candidate : pystr) (counter fuel : nat) : res pystr :=
  if inl candidate used then
    match fuel with 0 => Err OtherError | S fuel' => next_free used stem (stem ++ underscore :: str_nat counter) (S counter) fuel' end
  else Ok candidate.
(** naming.py:149-161.  [used] always contains every resolved value, so the second test of the
    loop condition adds nothing. *)
Fixpoint resolve_loop (reserved : list pystr) (prefix : pystr) (used fields : list pystr) : res (list (pystr * pystr)) :=
  match fields with
  | [] => Ok []
  | f :: fields' =>
      do _ <- validate_name reserved f ;
      do c <- next_free used (prefix ++ f) (if inl f used then prefix ++ f else f) 1 (S (List.length used)) ;
      do _ <- validate_name reserved c ;
      do rest <- resolve_loop reserved prefix (c :: used) fields' ; Ok ((f, c) :: rest)
  end.
(** naming.py:124-163 *)
Definition resolve_conflicts (reserved : list pystr) (prefix : pystr) (fields coords : list pystr) : res (list (pystr * pystr)) :=
  let reserved := res_or reserved in
  if negb (distinctb fields) then Err ValueError else
  do _ <- mapM (validate_axis_name reserved) coords ;
  if negb (distinctb coords) then Err ValueError else
  if existsb (fun c => inl c reserved) coords then Err ValueError else
  resolve_loop reserved prefix (coords ++ reserved) fields.
