(** Model of kd/model/discover/execute.py (python_execute, python_execute_torch)
    and of the wrappers in stridge.py (unsafe_execute, unsafe_execute_torch,
    InvalidLog). *)
From Verif Require Import Base Library.

(** What a call of the executor produces: a value, Python None, or an exception
    that escapes. *)
Inductive out (V : Type) := OVal (v : V) | ONone | ORaise (e : exn).
Arguments OVal {V}. Arguments ONone {V}. Arguments ORaise {V}.

Section Machine.
Context {V F : Type}.
(** [app tok args flag]: body of the while loop computing [intermediate_result]
    and the new flag; [inr o] ends the whole execution with outcome [o]. *)
Variable app : token -> list V -> F -> (V * F) + out V.

Definition frame : Type := token * list V.

(** execute.py:19-49, inner while loop: reduce while the top frame is full. *)
Fixpoint reduce (tok : token) (args : list V) (rest : list frame) (flag : F)
  : (list frame * F) + out V :=
  if Nat.eqb (List.length args) (tarity tok) then
    match app tok args flag with
    | inr o => inr o
    | inl (v, flag') =>
        match rest with
        | [] => inr (OVal v)                             (* len(apply_stack) == 1: return *)
        | (tok', args') :: rest' => reduce tok' (args' ++ [v]) rest' flag'
        end
    end
  else inl ((tok, args) :: rest, flag).

(** execute.py:16-17, outer for loop; falling off the end returns None. *)
Fixpoint exec_loop (trav : list token) (stack : list frame) (flag : F) : out V :=
  match trav with
  | [] => ONone
  | node :: trav' =>
      match reduce node [] stack flag with
      | inr o => o
      | inl (stack', flag') => exec_loop trav' stack' flag'
      end
  end.
End Machine.

(** Third argument handed to an operator besides its operands. *)
Inductive extra := NoExtra | Dim (d : option nat) | AllX.

Section Numpy.
Context {V : Type}.
Variables (u x : list V) (param : token -> V).
(** [call tok operands extra] is token(...); None when it raises. *)
Variable call : token -> list V -> extra -> option V.

Definition is_lap (n : string) : bool :=
  String.eqb n "lap" || String.eqb n "lap_3" || String.eqb n "lap_t".

(** execute.py:20-44.  x[i] / u[i] outside the list raise IndexError, which is
    not inside the try block. *)
Definition app_np (tok : token) (args : list V) (flag : option nat) : (V * option nat) + out V :=
  match tinput tok with
  | Some i => match nth_error x i with
              | Some v => inl (v, Some (i + 1))
              | None => inr (ORaise IndexError)
              end
  | None =>
  match tparam tok with
  | Some _ => inl (param tok, flag)
  | None =>
  match tstate tok with
  | Some i => match nth_error u i with
              | Some v => inl (v, flag)
              | None => inr (ORaise IndexError)
              end
  | None =>
      let r := if has_diff (tname tok) then call tok args (Dim flag)
               else if is_lap (tname tok) then call tok args AllX
               else call tok args NoExtra in
      match r with Some v => inl (v, flag) | None => inr ONone end
  end end end.

(** execute.py:8-49 python_execute *)
Definition python_execute (trav : list token) : out V := exec_loop app_np trav [] None.
End Numpy.

Section Torch.
Context {V : Type}.
Variables (ustate : nat -> option V) (x : list V) (param : token -> V).
Variable call : token -> list V -> extra -> res V.
(** isnan(v).all() or isinf(v).all(); None when the test itself raises. *)
Variable all_bad : V -> option bool.

(** execute.py:51-105.  Only derivative operators are guarded by try; the
    dimension flag is written but never passed. *)
Definition app_torch (tok : token) (args : list V) (flag : option nat) : (V * option nat) + out V :=
  let fin (r : (V * option nat) + out V) :=
    match r with
    | inl (v, f) => match all_bad v with Some false => inl (v, f) | _ => inr ONone end
    | inr o => inr o
    end in
  fin match tinput tok with
  | Some i => match nth_error x i with
              | Some v => inl (v, Some (i + 1)) | None => inr (ORaise IndexError) end
  | None =>
  match tparam tok with
  | Some _ => inl (param tok, flag)
  | None =>
  match tstate tok with
  | Some i => match ustate i with Some v => inl (v, flag) | None => inr (ORaise IndexError) end
  | None =>
      if has_diff (tname tok) then
        match call tok args NoExtra with Ok v => inl (v, flag) | Err _ => inr ONone end
      else
        match (if contains "lap" (tname tok) then call tok args AllX else call tok args NoExtra) with
        | Ok v => inl (v, flag) | Err e => inr (ORaise e) end
  end end end.

Definition python_execute_torch (trav : list token) : out V := exec_loop app_torch trav [] None.
End Torch.

(** ** InvalidLog (stridge.py:13-38) and the wrappers (stridge.py:45-66) *)
Record ilog := mkLog { lg_type : option string; lg_node : option string; lg_new : bool }.
Definition ilog_init : ilog := mkLog None None false.
(** write: only the first warning since the last update is recorded; [ty]/[nd]
    are the second and last word of the message. *)
Definition ilog_write (ty nd : string) (g : ilog) : ilog :=
  if lg_new g then mkLog (lg_type g) (lg_node g) true else mkLog (Some ty) (Some nd) true.
Definition ilog_update (g : ilog) : ilog * (bool * option string * option string) :=
  if lg_new g then (mkLog (lg_type g) (lg_node g) false, (true, lg_type g, lg_node g))
  else (g, (false, None, None)).

Record eval_report (V : Type) := mkRep {
  rp_value : option V; rp_invalid : bool; rp_node : option string; rp_type : option string }.
Arguments mkRep {V}. Arguments rp_value {V}. Arguments rp_invalid {V}. Arguments rp_node {V}. Arguments rp_type {V}.

(** stridge.py:45-54 unsafe_execute: [warnings] are the floating point warnings
    (type, node) numpy emits during this execution, [y] what it returns.  The
    pair returned by update() is unpacked as (error_node, error_type). *)
Definition unsafe_execute {V} (warnings : list (string * string)) (y : option V) (g : ilog)
  : ilog * eval_report V :=
  let g1 := fold_left (fun g w => ilog_write (fst w) (snd w) g) warnings g in
  let '(g2, (inv, a, b)) := ilog_update g1 in
  (g2, mkRep y inv a b).

(** stridge.py:56-66 unsafe_execute_torch; [zero] is the returned 0. *)
Definition unsafe_execute_torch {V} (zero : V) (warnings : list (string * string)) (y : option V) (g : ilog)
  : ilog * eval_report V :=
  let g1 := fold_left (fun g w => ilog_write (fst w) (snd w) g) warnings g in
  match y with
  | None => (ilog_write "bad_diff" "bad_diff" g1, mkRep (Some zero) true (Some "bad_diff"%string) (Some "bad_diff"%string))
  | Some v => (g1, mkRep (Some v) false None None)
  end.
