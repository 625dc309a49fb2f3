(** Model of several DISCOVER models living in one process: the class attributes of Program that every model's import overwrites
    (kd/model/kd_discover.py:106-129, 376-396 and kd/model/discover/task/task.py:230-244) and the calls that read them:
    from_tokens and r_ridge (program.py:112-168, 610-622), search_one_step and search (searcher.py:138-327) and the fields of
    the SPR plots (kd/viz/discover_viz.py:556-571).
    A task [T] is everything set_task fixes: the data, the library, the execute function and the constant optimizer; [score t e] is
    the reward of the traversal [e] under task [t] and whether its evaluation failed (reward_function after optimize_inner_constant,
    modelled elsewhere).  What the controllers sample is part of the history.  The rows of observations and priors do not matter here. *)
From Coq Require Import QArith.
From Verif Require Import Base Num Library Program Searcher.
Local Open Scope nat_scope.

(** a Program object (program.py:244-284) and its cached r_ridge *)
Record obj := mkObj { o_tokens : list nat; o_trav : list token; o_r : option (num * bool) }.
(** the class attributes: task (with library), cache; and the objects of the process *)
Record cls (T : Type) := mkCls { c_task : option T; c_heap : list obj; c_cache : list (list Z * nat) }.
Arguments mkCls {T}. Arguments c_task {T}. Arguments c_heap {T}. Arguments c_cache {T}.
(** one drawn row: the actions and the padding _finish_tokens would draw *)
Definition draw := (list nat * (nat -> list nat))%type.
Inductive op (T : Type) :=
| Import (m : nat) (t : T)                  (* m.import_dataset(...) *)
| Train (m : nat) (bs : list (list draw))   (* m.train(n_epochs=len(bs)) *)
| Step (m : nat) (b : list draw)            (* m.train_one_step() *)
| Plot (m : nat).                           (* the data a plot of m sets against m's best equation *)
Arguments Import {T}. Arguments Train {T}. Arguments Step {T}. Arguments Plot {T}.
Inductive out (T : Type) :=
| Done
| Report (r : num) (names : list string)
| Fields (t : T) (r : num) (names : list string)
| Raised (e : exn).
Arguments Done {T}. Arguments Report {T}. Arguments Fields {T}. Arguments Raised {T}.

Section Session.
Context {T : Type} (lib_of : T -> library) (score : T -> list token -> num * bool) (eps : Q) (last : list num -> nat).

(** from_tokens (program.py:145-168) of an int64 row of actions; Program.library is None before the first import *)
Definition get (c : cls T) (d : draw) : res (cls T * nat) :=
  match c_task c with
  | None => Err AttributeError
  | Some t =>
      do toks <- finish_tokens (lib_of t) 1 (snd d) (fst d) ;
      let k := tobytes 8 toks in
      match cache_get k (c_cache c) with
      | Some i => Ok (c, i)
      | None =>
          do trav <- mapM (fun j => match nth_error (ltokens (lib_of t)) j with Some x => Ok x | None => Err IndexError end) toks ;
          let i := List.length (c_heap c) in
          Ok (mkCls (Some t) (c_heap c ++ [mkObj toks trav None]) ((k, i) :: c_cache c), i)
      end
  end.
Fixpoint get_all (c : cls T) (ds : list draw) : res (cls T * list nat) :=
  match ds with
  | [] => Ok (c, [])
  | d :: ds' => do x <- get c d ; do y <- get_all (fst x) ds' ; Ok (fst y, snd x :: snd y)
  end.
(** p.r_ridge (program.py:610-622): computed under the class's task when first read *)
Definition reward (c : cls T) (i : nat) : res (cls T * prog) :=
  match nth_error (c_heap c) i, c_task c with
  | Some o, Some t =>
      let x := match o_r o with Some x => x | None => score t (o_trav o) end in
      Ok (mkCls (c_task c) (update_nth i (fun o => mkObj (o_tokens o) (o_trav o) (Some x)) (c_heap c)) (c_cache c), Searcher.mkProg i (fst x) (snd x) true)
  | _, _ => Err AttributeError
  end.
Fixpoint rewards (c : cls T) (is_ : list nat) : res (cls T * list prog) :=
  match is_ with
  | [] => Ok (c, [])
  | i :: is' => do x <- reward c i ; do y <- rewards (fst x) is' ; Ok (fst y, snd x :: snd y)
  end.
(** search_one_step (searcher.py:138-250): the batch of programs, their rewards, the bookkeeping *)
Definition rows_of (ps : list prog) : list unit := map (fun _ => tt) ps.
Definition one_step (c : cls T) (s : sstate) (b : list draw) : res (cls T * (sstate * option prog)) :=
  do x <- get_all c b ; do y <- rewards (fst x) (snd x) ;
  do z <- search_one_step eps last (mkBatch (rows_of (snd y)) (rows_of (snd y)) (rows_of (snd y)) (snd y) None) s ;
  Ok (fst y, z).
(** the loop of search (searcher.py:262-265): when an epoch raises, the earlier ones have happened.  The objects made in the epoch that
    raised are left out: they stay in the cache, where only their number could be observed. *)
Fixpoint steps (c : cls T) (s : sstate) (bs : list (list draw)) : cls T * sstate * option exn :=
  match bs with
  | [] => (c, s, None)
  | b :: bs' => match one_step c s b with Ok (c', (s', _)) => steps c' s' bs' | Err e => (c, s, Some e) end
  end.
Definition names_at (h : list obj) (i : nat) : list string := match nth_error h i with Some o => map tname (o_trav o) | None => [] end.
(** the models by number: None before the first import (no attribute searcher) *)
Definition models := nat -> option sstate.
Definition put (ms : models) (m : nat) (s : sstate) : models := fun k => if Nat.eqb k m then Some s else ms k.
(** one call *)
Definition act (c : cls T) (ms : models) (o : op T) : cls T * models * out T :=
  match o with
  | Import m t => (mkCls (Some t) (c_heap c) [], put ms m set_up, Done)
  | Step m b =>
      match ms m with
      | None => (c, ms, Raised AttributeError)
      | Some s =>
          match one_step c s b with
          | Err e => (c, ms, Raised e)
          | Ok (c', (s', r)) => (c', put ms m s', match r with Some p => Report (p_r p) (names_at (c_heap c') (p_id p)) | None => Done end)
          end
      end
  | Train m bs =>
      match ms m with
      | None => (c, ms, Raised AttributeError)
      | Some s =>
          let '(c', s', e) := steps c (if s_queued s then set_up else s) bs in
          (c', put ms m s', match e, s_best s' with
                            | Some e, _ => Raised e
                            | None, Some p => Report (p_r p) (names_at (c_heap c') (p_id p))
                            | None, None => Raised AttributeError
                            end)
      end
  | Plot m =>
      match ms m, c_task c with
      | Some s, Some t =>
          match s_best s with
          | Some p => (c, ms, Fields t (p_r p) (names_at (c_heap c) (p_id p)))
          | None => (c, ms, Raised AttributeError)
          end
      | _, _ => (c, ms, Raised AttributeError)
      end
  end.
Fixpoint session (c : cls T) (ms : models) (h : list (op T)) : list (out T) :=
  match h with
  | [] => []
  | o :: h' => let '(c', ms', x) := act c ms o in x :: session c' ms' h'
  end.
Definition fresh : cls T := mkCls None [] [].
Definition nobody : models := fun _ => None.
End Session.
