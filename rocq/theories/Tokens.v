(** Model of create_tokens and add_torch_tokens (kd/model/discover/functions.py:51-316), Library.np_names
    (library.py:136) and Program.switch_tokens (program.py:428-444, 456-461). *)
From Coq Require Import DecimalString.
From Verif Require Import Base Library.
Local Open Scope string_scope.

(** A registered operator: its key in function_map, and the token's name, arity and function. *)
Record entry := mkEntry { e_key : string; e_name : string; e_arity : nat; e_fun : string }.
Definition plain (e : string * nat * string) : entry := mkEntry (fst (fst e)) (fst (fst e)) (snd (fst e)) (snd e).
Definition guarded (e : string * nat * string) : entry := mkEntry ("protected_" ++ fst (fst e)) (fst (fst e)) (snd (fst e)) (snd e).
(** unprotected_ops (functions.py:96-127): name, arity, function *)
Definition unprotected_ops : list (string * nat * string) :=
  [("add", 2, "np.add"); ("sub", 2, "np.subtract"); ("mul", 2, "np.multiply"); ("div", 2, "np.divide"); ("sin", 1, "np.sin");
   ("cos", 1, "np.cos"); ("tan", 1, "np.tan"); ("exp", 1, "np.exp"); ("log", 1, "np.log"); ("sqrt", 1, "np.sqrt");
   ("n2", 1, "np.square"); ("neg", 1, "np.negative"); ("abs", 1, "np.abs"); ("max", 1, "np.maximum"); ("min", 1, "np.minimum");
   ("tanh", 1, "np.tanh"); ("inv", 1, "np.reciprocal"); ("logabs", 1, "logabs"); ("expneg", 1, "expneg"); ("n3", 1, "n3");
   ("n4", 1, "n4"); ("n5", 1, "n5"); ("sigmoid", 1, "sigmoid"); ("harmonic", 1, "harmonic")].
(** add_ops (functions.py:53-80) *)
Definition add_ops : list (string * nat * string) :=
  [("diff", 2, "Diff"); ("diff2", 2, "Diff2"); ("diff3", 2, "Diff3"); ("diff4", 2, "Diff4"); ("lap", 1, "Laplace");
   ("Diff", 2, "Diff_2"); ("Diff2", 2, "Diff2_2"); ("Diff_3", 2, "Diff_3"); ("Diff2_3", 2, "Diff2_3"); ("lap_3", 1, "Laplace_3");
   ("diff_t", 2, "partial(torch_diff,order=1)"); ("diff2_t", 2, "partial(torch_diff,order=2)"); ("diff3_t", 2, "partial(torch_diff,order=3)"); ("diff4_t", 2, "partial(torch_diff,order=4)"); ("lap_t", 1, "Laplacian_t");
   ("add_t", 2, "torch.add"); ("sub_t", 2, "torch.subtract"); ("mul_t", 2, "torch.multiply"); ("div_t", 2, "protected_div_torch"); ("n2_t", 1, "protected_n2_torch");
   ("n3_t", 1, "protected_n3_torch")].
(** force_ops (functions.py:84-93) *)
Definition force_ops : list (string * nat * string) :=
  [("ddx", 1, "ddx"); ("ddy", 1, "ddy"); ("laplacian", 1, "laplacian"); ("adv", 1, "adv"); ("ddx_t", 1, "ddx_t");
   ("ddy_t", 1, "ddy_t"); ("laplacian_t", 1, "laplacian_t"); ("adv_t", 1, "adv_t")].
(** protected_ops (functions.py:174-189) *)
Definition protected_ops : list (string * nat * string) :=
  [("div", 2, "protected_div"); ("exp", 1, "protected_exp"); ("log", 1, "protected_log"); ("logabs", 1, "protected_log"); ("sqrt", 1, "protected_sqrt");
   ("inv", 1, "protected_inv"); ("expneg", 1, "protected_expneg"); ("n2", 1, "protected_n2"); ("n3", 1, "protected_n3"); ("n4", 1, "protected_n4");
   ("sigmoid", 1, "protected_sigmoid")].
(** function_map (functions.py:129-130, 192-199) *)
Definition function_map : list entry := (map plain (unprotected_ops ++ add_ops ++ force_ops) ++ map guarded protected_ops)%list.
Definition lookup (k : string) : option entry := find (fun e => String.eqb (e_key e) k) function_map.

(** "x{}".format(i) *)
Definition dec (n : nat) : string := NilEmpty.string_of_uint (Nat.to_uint n).
(** a token of the library together with its function ("None" for variables, "value" for constants) *)
Definition ftoken := (token * string)%type.
Definition of_entry (e : entry) : ftoken := (mkTok (e_name e) (e_arity e) None None None, e_fun e).
(** the operator whose name is [op], or its protected version (functions.py:271-278) *)
Definition pick (protected : bool) (op : string) : option entry :=
  match lookup op with
  | None => None
  | Some e => if protected && negb (has_prefix "protected_" op)
              then match lookup ("protected_" ++ op) with Some e' => Some e' | None => Some e end
              else Some e
  end.
(** One entry of function_set (functions.py:268-291).  [flt s] is the name str(np.float32(s)) of the constant
    when s can be read as a number (U.is_float). *)
Definition op_token (flt : string -> option string) (protected : bool) (op : string) : res ftoken :=
  match pick protected op with
  | Some e => Ok (of_entry e)
  | None => match flt op with
            | Some n => Ok (mkTok n 0 None None None, "value")
            | None => if String.eqb op "const" then Ok (mkTok "const" 0 None None None, "value") else Err ValueError
            end
  end.
(** the name of parameter i (functions.py:258) *)
Definition param_name (names : list string) (i : nat) : string :=
  match nth_error names i with Some n => n | None => "p" ++ dec (i + 1) end.
(** the variables (functions.py:238-251) and the names a parameter may not have (functions.py:254-256) *)
Definition inputs (n : nat) : list ftoken := map (fun i => (mkTok ("x" ++ dec (i + 1)) 0 (Some i) None None, "None")) (seq 0 n).
Definition states (pde : bool) (n : nat) : list ftoken :=
  if pde then map (fun i => (mkTok ("u" ++ dec (i + 1)) 0 None (Some i) None, "None")) (seq 0 n) else [].
Definition reserved (vars : list ftoken) : list string := (map (fun t => tname (fst t)) vars ++ map e_key function_map ++ ["const"])%list.
(** the parameters (functions.py:257-266) *)
Definition params (vars : list ftoken) (n : nat) (names : list string) : res (list ftoken) :=
  mapM (fun i => if existsb (String.eqb (param_name names i)) (reserved vars) then Err ValueError
                 else Ok (mkTok (param_name names i) 0 None None (Some i), "None")) (seq 0 n).
(** create_tokens (functions.py:206-295); [names] is [] for param_names = None *)
Definition create_tokens (flt : string -> option string) (n_input : nat) (fset : list string) (protected pde : bool) (n_state n_param : nat) (names : list string) : res (list ftoken) :=
  let vars := (inputs n_input ++ states pde n_state)%list in
  do ps <- params vars n_param names ;
  do ops <- mapM (op_token flt protected) fset ;
  Ok (vars ++ ps ++ ops)%list.

(** add_torch_tokens (functions.py:297-316): a dictionary from name_t to the torch operator; the empty one
    as soon as a registered name contains "_t"; a missing torch version raises KeyError *)
Definition torch_get (d : list (string * entry)) (k : string) : option entry :=
  match find (fun p => String.eqb (fst p) k) d with Some p => Some (snd p) | None => None end.
Fixpoint torch_loop (protected : bool) (d : list (string * entry)) (fset : list string) : res (list (string * entry)) :=
  match fset with
  | [] => Ok d
  | op :: rest =>
      match lookup op with
      | None => torch_loop protected d rest
      | Some _ =>
          if contains "_t" op then Ok []
          else let op1 := op ++ "_t" in
               let op2 := if protected && negb (has_prefix "protected_" op1)
                          then match lookup ("protected_" ++ op1) with Some _ => "protected_" ++ op1 | None => op1 end else op1 in
               match lookup op2 with
               | None => Err KeyError
               | Some e => torch_loop protected (match torch_get d op2 with Some _ => d | None => (d ++ [(op2, e)])%list end) rest
               end
      end
  end.
Definition add_torch_tokens (fset : list string) (protected : bool) := torch_loop protected [] fset.

(** Library.np_names (library.py:136): the names switch_tokens will replace *)
Definition np_names (toks : list token) : list string :=
  map tname (filter (fun t => negb (String.eqb (tname t) "const") && (negb (contains "u" (tname t)) || String.eqb (tname t) "mul") &&
                              negb (is_some (tinput t)) && negb (is_some (tparam t))) toks).
(** switch_tokens('torch') (program.py:428-444, 456-461) on the traversal of a program *)
Definition switch_tokens (np : list string) (torch : list (string * entry)) (trav : list ftoken) : res (list ftoken) :=
  match torch with
  | [] => Ok trav
  | _ => match np with
         | [] => Err IndexError
         | n :: _ => if contains "_t" n then Ok trav
                     else mapM (fun t => if existsb (String.eqb (tname (fst t))) np
                                         then match torch_get torch (tname (fst t) ++ "_t") with Some e => Ok (of_entry e) | None => Err KeyError end
                                         else Ok t) trav
         end
  end.
