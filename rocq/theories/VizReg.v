(** Model of the visualization adapter registry: kd/viz/registry.py.

    A class is a number; the Python class hierarchy is a record [world]
    ([issubclass] and [__name__]).  An adapter value is [option nat] because
    [register_adapter(cls, None)] is accepted.  A lazy resolver is a number;
    what calling it does at a given moment is supplied by the event
    ([resolver -> routcome]), so resolvers whose answer changes over time
    (an import that succeeds later) are covered.  Simplification: a resolver
    does not itself call registry functions. *)
From Coq Require Import List String Bool Arith Lia.
Import ListNotations.

Definition cls := nat.
Definition aval := option nat.

(** registry.py:69 [issubclass(a, b)]: [None] stands for the TypeError of
    lines 68-72 (the registered key is not a class). *)
Record world := { issub : cls -> cls -> option bool; cname : cls -> string }.

(** kd/viz/registry.py:46-49: what calling a resolver does: it returns a
    pair (class or None, adapter or None), or it raises. *)
Inductive routcome := RPair (c : option cls) (a : aval) | RRaise.

(** kd/viz/registry.py:15 [_ADAPTERS] and :19 [_LAZY_ADAPTERS], Python dicts
    in insertion order. *)
Record reg := { adapters : list (cls * aval); lazies : list (string * nat) }.

(** kd/viz/registry.py:15,19 *)
Definition empty_reg : reg := {| adapters := []; lazies := [] |}.

(** Python dict assignment (an existing key keeps its position); used at
    kd/viz/registry.py:23 and :49. *)
Fixpoint aset (c : cls) (a : aval) (l : list (cls * aval)) : list (cls * aval) :=
  match l with
  | [] => [(c, a)]
  | (c', a') :: r => if Nat.eqb c c' then (c', a) :: r else (c', a') :: aset c a r
  end.

(** Python [dict.get]; kd/viz/registry.py:56 and :65. *)
Fixpoint aget (c : cls) (l : list (cls * aval)) : option aval :=
  match l with
  | [] => None
  | (c', a') :: r => if Nat.eqb c c' then Some a' else aget c r
  end.

(** Python [dict.pop(k, None)] of kd/viz/registry.py:32. *)
Definition adel (c : cls) (l : list (cls * aval)) : list (cls * aval) :=
  filter (fun p => negb (Nat.eqb c (fst p))) l.

(** Python dict assignment of kd/viz/registry.py:28. *)
Fixpoint lset (n : string) (r : nat) (l : list (string * nat)) : list (string * nat) :=
  match l with
  | [] => [(n, r)]
  | (n', r') :: t => if String.eqb n n' then (n', r) :: t else (n', r') :: lset n r t
  end.

(** Python [in] / [dict.get] of kd/viz/registry.py:42 and :62. *)
Fixpoint lget (n : string) (l : list (string * nat)) : option nat :=
  match l with
  | [] => None
  | (n', r') :: t => if String.eqb n n' then Some r' else lget n t
  end.

(** Python [dict.pop] of kd/viz/registry.py:42. *)
Definition ldel (n : string) (l : list (string * nat)) : list (string * nat) :=
  filter (fun p => negb (String.eqb n (fst p))) l.

(** kd/viz/registry.py:22-23 [register_adapter] *)
Definition register_adapter (c : cls) (a : aval) (s : reg) : reg :=
  {| adapters := aset c a (adapters s); lazies := lazies s |}.

(** kd/viz/registry.py:26-28 [register_lazy_adapter] *)
Definition register_lazy_adapter (n : string) (r : nat) (s : reg) : reg :=
  {| adapters := adapters s; lazies := lset n r (lazies s) |}.

(** kd/viz/registry.py:31-32 [unregister_adapter] *)
Definition unregister_adapter (c : cls) (s : reg) : reg :=
  {| adapters := adel c (adapters s); lazies := lazies s |}.

(** kd/viz/registry.py:35-37 [clear_registry] *)
Definition clear_registry (_ : reg) : reg := empty_reg.

(** kd/viz/registry.py:40-49 [_resolve_lazy]: the entry is popped before the
    resolver is called; [None] = the resolver raised. *)
Definition resolve_lazy (env : nat -> routcome) (n : string) (s : reg)
  : reg * bool :=
  match lget n (lazies s) with
  | None => (s, true)
  | Some r =>
      let s' := {| adapters := adapters s; lazies := ldel n (lazies s) |} in
      match env r with
      | RRaise => (s', false)
      | RPair (Some c) (Some a) =>
          ({| adapters := aset c (Some a) (adapters s'); lazies := lazies s' |}, true)
      | RPair _ _ => (s', true)
      end
  end.

(** kd/viz/registry.py:68-73: the subclass walk, in dict order. *)
Fixpoint walk (w : world) (c : cls) (l : list (cls * aval)) : aval :=
  match l with
  | [] => None
  | (c', a') :: r =>
      match issub w c c' with
      | Some true => a'
      | _ => walk w c r
      end
  end.

Inductive lookup_result := Found (a : aval) | Raised.

(** kd/viz/registry.py:52-73 [get_adapter]; the target is [None] or an
    object (a class, or an instance standing for its class). *)
Definition get_adapter (w : world) (env : nat -> routcome) (target : option cls)
           (s : reg) : reg * lookup_result :=
  match target with
  | None => (s, Found None)
  | Some c =>
      match aget c (adapters s) with
      | Some (Some a) => (s, Found (Some a))
      | _ =>
          match lget (cname w c) (lazies s) with
          | None => (s, Found (walk w c (adapters s)))
          | Some _ =>
              let '(s', ok) := resolve_lazy env (cname w c) s in
              if ok then
                match aget c (adapters s') with
                | Some (Some a) => (s', Found (Some a))
                | _ => (s', Found (walk w c (adapters s')))
                end
              else (s', Raised)
          end
      end
  end.

(** kd/viz/registry.py:76-77 [iter_registered] *)
Definition iter_registered (s : reg) : list (cls * aval) := adapters s.

(** One call of the public registry API; histories are lists of these. *)
Inductive ev :=
| ERegister (c : cls) (a : aval)
| ELazy (n : string) (r : nat)
| EUnregister (c : cls)
| EClear
| ELookup (env : nat -> routcome) (target : option cls)
| EIter.

(** The effect of one call (kd/viz/registry.py:22-77). *)
Definition step (w : world) (s : reg) (e : ev) : reg :=
  match e with
  | ERegister c a => register_adapter c a s
  | ELazy n r => register_lazy_adapter n r s
  | EUnregister c => unregister_adapter c s
  | EClear => clear_registry s
  | ELookup env t => fst (get_adapter w env t s)
  | EIter => s
  end.

(** A whole process history, from import (empty dicts, registry.py:15,19). *)
Definition run (w : world) (h : list ev) : reg := fold_left (step w) h empty_reg.

(** kd/viz/adapters.py:16-50: the default registration performed by
    [register_default_adapters] when all three eager imports succeed: classes
    0 = KD_DLGA, 1 = KD_Discover, 2 = KD_SGA; resolver 0 = [_resolve_pysr];
    class 3 = KD_PySR; adapters carry the same numbers. *)
Definition default_history : list ev :=
  [ERegister 0 (Some 0); ERegister 1 (Some 1); ERegister 2 (Some 2);
   ELazy "KD_PySR"%string 0].

(** kd/viz/adapters.py:43-50 [_resolve_pysr]: (KD_PySR, adapter) if the
    import works, (None, None) otherwise. *)
Definition resolve_pysr (importable : bool) (_ : nat) : routcome :=
  if importable then RPair (Some 3) (Some 3) else RPair None None.
