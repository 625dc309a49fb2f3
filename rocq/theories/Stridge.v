(** Model of kd/model/discover/stridge.py (term splitting, regulations, coefficient
    fitting) and of Program.str_expression (program.py:664-684). *)
From Coq Require Import QArith Qabs Ascii.
From Verif Require Import Base Trees Library.
Local Open Scope nat_scope.

(** stridge.py:77-91 Node: a node is its token and its children ([val] is the token
    name, [token] the token); [symbol] is threaded separately below. *)
Notation node := (tree token).

(** stridge.py:412-423 rebuild_tree (and 190-205 build_tree, same recursion): pop(0)
    from an empty list raises IndexError.  [fuel] bounds the recursion depth only;
    [rebuild_tree] provides enough for every input. *)
Fixpoint rebuild_fuel (fuel : nat) (trav : list token) {struct fuel} : res (node * list token) :=
  match fuel with
  | O => Err RuntimeError
  | S f =>
      match trav with
      | [] => Err IndexError
      | op :: trav' =>
          do r <- (fix kids (n : nat) (tr : list token) : res (list node * list token) :=
                     match n with
                     | O => Ok ([], tr)
                     | S n' => do c <- rebuild_fuel f tr ;
                               do cs <- kids n' (snd c) ; Ok (fst c :: fst cs, snd cs)
                     end) (tarity op) trav' ;
          Ok (Nd op (fst r), snd r)
      end
  end.
Definition rebuild_tree (trav : list token) : res (node * list token) := rebuild_fuel (S (List.length trav)) trav.

(** stridge.py:317 the names at which an expression is split *)
Definition is_sum (n : string) : bool := existsb (String.eqb n) ["add"; "sub"; "add_t"; "sub_t"]%string.
Definition is_sub (n : string) : bool := contains "sub" n.

(** stridge.py:314-332 split_sum: nested lists of nodes carrying their [symbol].
    Every node is created with symbol 1 (line 88) and is multiplied at most once,
    by its parent, so the argument [sym] is the symbol the node has when visited. *)
Inductive nest := NLeaf (s : Z) (t : node) | NList (l : list nest).
Fixpoint split_sum (sym : Z) (t : node) : res nest :=
  match t with
  | Nd a cs =>
      if is_sum (tname a) then
        match cs with
        | c0 :: c1 :: _ =>
            let s0 := if is_sub (tname a) && negb (Z.eqb sym 1) then (-1)%Z else 1%Z in
            let s1 := if is_sub (tname a) then (-1)%Z else 1%Z in
            do l <- split_sum s0 c0 ; do r <- split_sum s1 c1 ; Ok (NList [l; r])
        | _ => Err IndexError
        end
      else Ok (NList [NLeaf sym t])
  end.
(** stridge.py:334-341 expand_list *)
Fixpoint expand (n : nest) : list (Z * node) :=
  match n with NLeaf s t => [(s, t)] | NList l => flat_map expand l end.

(** stridge.py:343-361 preorder_traverse with its explicit work list *)
Fixpoint traverse_fuel (fuel : nat) (nodes : list node) : res (list token) :=
  match fuel with
  | O => match nodes with [] => Ok [] | _ => Err RuntimeError end
  | S f =>
      match nodes with
      | [] => Ok []
      | Nd a cs :: rest =>
          match cs with
          | [] => do r <- traverse_fuel f rest ; Ok (a :: r)
          | [c0] => do r <- traverse_fuel f (c0 :: rest) ; Ok (a :: r)
          | [c0; c1] => do r <- traverse_fuel f (c0 :: c1 :: rest) ; Ok (a :: r)
          | _ => Err AssertionError
          end
      end
  end.
Fixpoint tsize {A} (t : tree A) : nat := match t with Nd _ cs => S (list_sum (map tsize cs)) end.
Definition preorder_traverse (t : node) : res (list token) := traverse_fuel (tsize t) [t].

(** stridge.py:311-391 split_forest.  [defaults] are the default terms (program.py:245
    makes every default term a single token; terminals only are modelled).  depth is
    np.ceil(math.log(len, 2)), taken as the exact ceiling. *)
Record split := mkSplit {
  sp_symbols : list Z;
  sp_terms : list node;
  sp_tokens : list (list token);
  sp_len : list nat;
  sp_depth : list nat;
  sp_trav : list token }.                                  (* traversal_copy (289) *)
Definition split_forest (trav : list token) (defaults : list token) : res split :=
  do r <- rebuild_tree trav ;
  do n <- split_sum 1 (fst r) ;
  let terms := map snd (expand n) ++ map (fun d => Nd d []) defaults in
  do toks <- mapM preorder_traverse terms ;
  Ok (mkSplit (map fst (expand n) ++ map (fun _ => 1%Z) defaults) terms toks
        (map (@List.length token) toks) (map (fun l => Nat.log2_up (List.length l)) toks) trav).

(** *** Regulations (stridge.py:224-270) *)
Fixpoint join (sep : string) (l : list string) : string :=
  match l with [] => "" | [x] => x | x :: l' => x ++ sep ++ join sep l' end.
(** repr of a list of tokens: Token.__repr__ is its name (library.py:52-53) *)
Definition repr_list (l : list token) : string := ("[" ++ join ", " (map tname l) ++ "]")%string.
(** stridge.py:253-270 check_single_term: (omit_list, error_list) contributions of term [i] *)
Definition check_term (max_depth : nat) (i : nat) (l : list token) (depth : nat) : list nat * list string :=
  let r := repr_list l in
  let a := if has_diff r && negb (contains ", u" r) then ([i], ["no_u"%string]) else ([], []) in
  let b := if Nat.ltb max_depth depth then ([i], ["depth_limit"%string]) else ([], []) in
  let c := if negb (contains "u" r) then ([i], ["violate physical constraint"%string]) else ([], []) in
  (fst a ++ fst b ++ fst c, snd a ++ snd b ++ snd c).
Fixpoint check_terms_from (max_depth : nat) (i : nat) (ls : list (list token)) (ds : list nat) : list nat * list string :=
  match ls, ds with
  | l :: ls', d :: ds' =>
      let '(o, e) := check_term max_depth i l d in
      let '(o', e') := check_terms_from max_depth (i + 1) ls' ds' in (o ++ o', e ++ e')
  | _, _ => ([], [])
  end.
Definition check_single_term (max_depth : nat) (sp : split) : list nat * list string :=
  check_terms_from max_depth 0 (sp_tokens sp) (sp_depth sp).

(** Python's s.count(p) for a non-empty [p]: occurrences that do not overlap; [skip] characters
    belong to the occurrence just counted *)
Fixpoint count_sub (p : string) (skip : nat) (s : string) : nat :=
  match s with
  | EmptyString => O
  | String _ s' =>
      match skip with
      | S k => count_sub p k s'
      | O => if has_prefix p s then S (count_sub p (String.length p - 1) s') else count_sub p O s'
      end
  end.
(** f'x{i}' (stridge.py:237,241), for at most nine coordinates *)
Definition coord (i : nat) : string := String "x"%char (String (ascii_of_nat (48 + i)) EmptyString).
(** stridge.py:233-249 check_spatial_regulation: one entry per coordinate that is not mentioned as
    often as the first; [dims] is len(x).  The entries of x are arrays (the branch for a string as
    last entry is not modelled). *)
Definition check_spatial (dims : nat) (trav : list token) : list string :=
  let n i := count_sub (coord i) 0 (repr_list trav) in
  flat_map (fun i => if Nat.eqb (n (S i)) (n 1) then [] else ["spatial_error"%string]) (seq 1 (dims - 1)).
(** stridge.py:215-231 Regulations: max_depth and, when spatial_error is set, the number of entries
    of x.  program.py:286-293 takes both from the task; PDETask and PDEPINNTask set spatial_error
    unless told otherwise (pde.py:36, pde_pinn.py:35), and the shipped configurations do not. *)
Record regs := mkRegs { r_depth : nat; r_dims : option nat }.
Definition apply_regulations (rg : regs) (sp : split) : list nat * list string :=
  let '(o, e) := check_single_term (r_depth rg) sp in
  (o, (match r_dims rg with Some d => check_spatial d (sp_trav sp) | None => [] end) ++ e).

(** *** evaluate_terms / coef_calculate / calculate (stridge.py:435-580)
    Column vectors are lists of rationals.  [exec] is execute_function followed by
    cut_bound / reshape(-1): what one term evaluates to; [lstsq] is np.linalg.lstsq
    (None when it raises).  The target is not a list (single dataset). *)
Inductive term_eval := TVal (v : list Q) | TNone | TInvalid (err : string).
Inductive outcome := Invalid (err : string) | Valid (w : list Q) (cols : list (list Q)) | Crash.
Section Fit.
Variable exec : list token -> term_eval.
Variable lstsq : list (list Q) -> list Q -> option (list Q).
Definition joinp (l : list string) : string := join "+" l.
(** stridge.py:470-535: results for the kept terms.  The omit filter (517-530) is
    reached only with an empty omit list, see [StridgeFacts]. *)
Fixpoint eval_all (ls : list (list token)) : list (list Q) + string :=
  match ls with
  | [] => inl []
  | l :: ls' => match exec l with
                | TInvalid e => inr e
                | TNone => inr "execute_returned_none"%string
                | TVal v => match eval_all ls' with inl vs => inl (v :: vs) | inr e => inr e end
                end
  end.
Definition drop_omitted {A} (omit : list nat) (l : list A) : list A :=
  map snd (filter (fun p => negb (memb (fst p) omit)) (combine (seq 0 (List.length l)) l)).
Definition evaluate_terms (rg : regs) (sp : split) : list (list Q) + string :=
  let '(omit, err) := apply_regulations rg sp in
  match err with
  | _ :: _ => inr (joinp err)
  | [] =>
      match eval_all (sp_tokens sp) with
      | inr e => inr e
      | inl [] => inr "dim_error"%string
      | inl (v :: vs) =>
          if forallb (fun r => Nat.eqb (List.length r) (List.length v)) vs
          then inl (drop_omitted omit (v :: vs)) else inr "dim_error"%string
      end
  end.
Definition small (q : Q) : bool := negb (Qle_bool (5 # 100000) (Qabs q)).
Definition large (q : Q) : bool := negb (Qle_bool (Qabs q) 10000).
(** stridge.py:559-570: the scan; [None] = no early return; [Some e] = invalid;
    the boolean says that the constant column was dropped. *)
Fixpoint scan (add_const : bool) (w : list Q) : string + bool :=
  match w with
  | [] => inr false
  | [q] => if small q then (if add_const then inr true else inl "small_coe"%string)
           else if large q then inl "large_coe"%string else inr false
  | q :: w' => if small q then inl "small_coe"%string
               else if large q then inl "large_coe"%string else scan add_const w'
  end.
Definition coef_calculate (add_const : bool) (cols : list (list Q)) (lhs : list Q) : outcome :=
  match lstsq cols lhs with
  | None => Invalid "bad_str"
  | Some w =>
      match scan add_const w with
      | inl e => Invalid e
      | inr false => Valid w cols
      | inr true =>
          match lstsq (removelast cols) lhs with
          | None => Crash                                   (* not inside the try *)
          | Some w' => Valid w' (removelast cols)
          end
      end
  end.
(** stridge.py:435-447 calculate *)
Definition calculate (add_const : bool) (rg : regs) (sp : split) (lhs : list Q) : outcome :=
  match evaluate_terms rg sp with
  | inr e => Invalid e
  | inl results =>
      let n := match results with [] => 0 | v :: _ => List.length v end in
      coef_calculate add_const (if add_const then results ++ [repeat 1%Q n] else results) lhs
  end.
End Fit.
(** y_hat = rhs.dot(w) (stridge.py:572): entry [k] *)
Fixpoint dot_row (w : list Q) (cols : list (list Q)) (k : nat) : Q :=
  match w, cols with
  | q :: w', c :: cols' => (q * nth k c 0 + dot_row w' cols' k)%Q
  | _, _ => 0%Q
  end.
(** program.py:672-683 str_expression: the printed (coefficient, term) pairs, the
    constant being printed without a term. *)
Definition str_pairs (w : list Q) (terms : list node) : list (Q * option node) :=
  map (fun p => (fst p, Some (snd p))) (combine w terms) ++
  (if Nat.eqb (List.length w) (List.length terms + 1)
   then match rev w with q :: _ => [(q, None)] | [] => [] end else []).
