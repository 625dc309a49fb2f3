(** Property theorems: memory queues (C13, C14). *)
From Verif Require Import Base Memory MemoryFacts HeapFacts MemoryExtra.
From Coq Require Import Permutation Sorted.
Local Open Scope string_scope.

(** *** C13  the history [h] lists the pushed (key, data) pairs, oldest first *)
Theorem C13_most_recent_kept (D : Type) (cap : option nat) (h : list (string * D)) :
  (forall c, cap = Some c -> 1 <= c) ->
  exists q, uq_run cap uq_init (upushes h) = Ok q /\ uq_heap q = keep_recent cap (last_pushes h).
Proof. exact (uq_lru cap h). Qed.
Print Assumptions C13_most_recent_kept.

Theorem C13_distinct_and_bounded (D : Type) (cap : option nat) (ops : list (uq_op D)) :
  (forall c, cap = Some c -> 1 <= c) ->
  exists q, uq_run cap uq_init ops = Ok q /\ NoDup (map fst (uq_heap q)) /\
    (forall c, cap = Some c -> List.length (uq_heap q) <= c).
Proof. exact (uq_invariants cap ops). Qed.
Print Assumptions C13_distinct_and_bounded.

(** A queue of capacity zero holds one item. *)
Theorem C13_capacity_zero_refuted :
  exists q, uq_run (Some 0) uq_init [UPush "a" tt] = Ok q /\ List.length (uq_heap q) = 1.
Proof. eexists. split; reflexivity. Qed.
Print Assumptions C13_capacity_zero_refuted.

Example C13_example :
  uq_run (Some 2) uq_init (upushes [("a", 1); ("b", 2); ("a", 3); ("c", 4)]) = Ok (mkUQ [("a", 3); ("c", 4)] ["c"; "a"]).
Proof. reflexivity. Qed.

(** *** C14 *)
Theorem C14_best_kept (R D : Type) (ltb : R -> R -> bool) (cap : option nat) (xs : list (cont R D)) :
  strict_weak ltb ->
  (forall x y, In x xs -> In y xs -> c_item x = c_item y -> c_score x = c_score y) ->
  exists q, pq_run ltb cap pq_init (map PPush xs) = Ok q /\
    NoDup (map c_item (pq_heap q)) /\
    (forall c, cap = Some c -> List.length (pq_heap q) <= c) /\
    (forall y, In y (pq_heap q) -> In y xs) /\
    (forall x, In x xs -> ~ In (c_item x) (map c_item (pq_heap q)) ->
       (exists c, cap = Some c /\ List.length (pq_heap q) = c) /\
       forall y, In y (pq_heap q) -> ltb (c_score y) (c_score x) = false).
Proof.
  intros W Hc. destruct (pq_topk ltb W cap xs Hc) as (q & E & HI & HB & Hin & Hk).
  exists q. split; [exact E|]. split; [exact (proj1 (proj2 HI))|]. split; [exact HB|]. split; [exact Hin|].
  intros x Hx Hn. destruct (Hk x Hx) as [(y & Hy & Ey)|H]; [|exact H]. exfalso. apply Hn. rewrite <- Ey. apply in_map. exact Hy.
Qed.
Print Assumptions C14_best_kept.

Theorem C14_maximum_is_best_ever (R D : Type) (ltb : R -> R -> bool) (cap : option nat) (xs : list (cont R D)) q :
  strict_weak ltb ->
  (forall x y, In x xs -> In y xs -> c_item x = c_item y -> c_score x = c_score y) ->
  (forall c, cap = Some c -> 1 <= c) -> xs <> [] ->
  pq_run ltb cap pq_init (map PPush xs) = Ok q ->
  exists m, pq_max ltb q = Some m /\ In m xs /\ forall x, In x xs -> ltb (c_score m) (c_score x) = false.
Proof. intros W. exact (pq_max_ever ltb W cap xs q). Qed.
Print Assumptions C14_maximum_is_best_ever.

(** Any mixture of pushes and pops (scores need not be consistent). *)
Theorem C14_distinct_and_bounded (R D : Type) (ltb : R -> R -> bool) (cap : option nat) (ops : list (pq_op R D)) :
  strict_weak ltb ->
  exists q, pq_run ltb cap pq_init ops = Ok q /\ NoDup (map c_item (pq_heap q)) /\
    (forall c, cap = Some c -> List.length (pq_heap q) <= c).
Proof.
  intros W. destruct (pq_run_ok ltb W cap ops pq_init (PInv_init ltb)) as (q & E & I' & B); [intros c _; simpl; lia|].
  exists q. split; [exact E|]. split; [exact (proj1 (proj2 I'))|exact B].
Qed.
Print Assumptions C14_distinct_and_bounded.

(** pop returns an item with a smallest score and removes exactly that one. *)
Theorem C14_pop_removes_worst (R D : Type) (ltb : R -> R -> bool) (cap : option nat) (ops : list (pq_op R D)) q :
  strict_weak ltb -> pq_run ltb cap pq_init ops = Ok q -> pq_heap q <> [] ->
  exists q' x, pq_pop ltb q = Ok (q', Some x) /\ Permutation (x :: pq_heap q') (pq_heap q) /\
    forall z, In z (pq_heap q) -> ltb (c_score z) (c_score x) = false.
Proof.
  intros W E Hn. destruct (pq_run_ok ltb W cap ops pq_init (PInv_init ltb)) as (q0 & E0 & I' & _); [intros c _; simpl; lia|].
  rewrite E in E0. injection E0 as <-. destruct (pq_pop_ok ltb W q I') as (q' & r & E' & _ & _ & H).
  destruct (H Hn) as (x & -> & P & L). exists q', x. auto.
Qed.
Print Assumptions C14_pop_removes_worst.

Theorem C14_minimum (R D : Type) (ltb : R -> R -> bool) (q : pq R D) :
  strict_weak ltb -> pq_heap q <> [] -> exists m, pq_min ltb q = Some m /\ In m (pq_heap q) /\
  forall y, In y (pq_heap q) -> ltb (c_score y) (c_score m) = false.
Proof. intros W. exact (pq_min_ok ltb W q). Qed.
Print Assumptions C14_minimum.

Theorem C14_iteration_in_order (R D : Type) (ltb : R -> R -> bool) (q : pq R D) :
  strict_weak ltb ->
  Permutation (pq_in_order ltb q) (pq_heap q) /\
  StronglySorted (fun a b => ltb (c_score a) (c_score b) = false) (pq_in_order ltb q).
Proof. intros W. exact (pq_in_order_ok ltb W q). Qed.
Print Assumptions C14_iteration_in_order.

Theorem C14_remove_same_distinct_and_bounded (R D : Type) (ltb close : R -> R -> bool) (len : D -> nat)
    (cap : option nat) (xs : list (cont R D)) :
  exists q, rm_run ltb close len cap pq_init xs = Ok q /\ NoDup (map c_item (pq_heap q)) /\
    (forall c, cap = Some c -> List.length (pq_heap q) <= c).
Proof.
  destruct (rm_run_ok ltb close len cap xs pq_init) as (q & E & I' & B).
  - repeat split; try constructor; intros [].
  - intros c _. simpl. lia.
  - exists q. split; [exact E|]. split; [exact (proj1 I')|exact B].
Qed.
Print Assumptions C14_remove_same_distinct_and_bounded.

Theorem C14_push_best_picks_first_maximum (R : Type) (ltb : R -> R -> bool) (rewards : list R) :
  strict_weak ltb -> rewards <> [] ->
  exists i m, argmax ltb rewards = Some i /\ nth_error rewards i = Some m /\ (forall x, In x rewards -> ltb m x = false) /\
    (forall j x, j < i -> nth_error rewards j = Some x -> ltb x m = true).
Proof. exact (argmax_ok ltb rewards). Qed.
Print Assumptions C14_push_best_picks_first_maximum.

(** Without one score per key: the better score of an item already held is ignored. *)
Theorem C14_rescored_item_refuted :
  exists q, pq_run Z.ltb (Some 2) pq_init [PPush (mkC 1%Z "a" tt); PPush (mkC 5%Z "a" tt)] = Ok q /\
    pq_max Z.ltb q = Some (mkC 1%Z "a" tt).
Proof. eexists. split; reflexivity. Qed.
Print Assumptions C14_rescored_item_refuted.

(** remove_same: replacing an entry in place breaks the heap order, after which a
    push evicts 18 while keeping 15 (distinct keys, one score per key; scores
    within 10 count as equal). *)
Definition rm_close (a b : Z) : bool := Z.ltb (Z.abs (a - b)) 10.
Definition rm_hist : list (cont Z nat) :=
  [mkC 10%Z "a" 5; mkC 15%Z "b" 5; mkC 18%Z "c" 3; mkC 40%Z "d" 3].
Theorem C14_remove_same_evicts_better_refuted :
  exists q, rm_run Z.ltb rm_close (fun n => n) (Some 2) pq_init rm_hist = Ok q /\
    (exists y, In y (pq_heap q) /\ c_score y = 15%Z) /\
    ~ In "c"%string (map c_item (pq_heap q)).
Proof. eexists. split; [vm_compute; reflexivity|]. split; [exists (mkC 15%Z "b" 5); split; [simpl; auto|reflexivity]|]. simpl. intuition discriminate. Qed.
Print Assumptions C14_remove_same_evicts_better_refuted.

Example C14_hypotheses_met : strict_weak Z.ltb /\
  let xs := [mkC 3%Z "a" tt; mkC 7%Z "b" tt; mkC 5%Z "c" tt; mkC 3%Z "a" tt; mkC 9%Z "d" tt] in
  (forall x y, In x xs -> In y xs -> c_item x = c_item y -> c_score x = c_score y) /\
  exists q, pq_run Z.ltb (Some 2) pq_init (map PPush xs) = Ok q /\ map c_item (pq_in_order Z.ltb q) = ["d"; "b"]%string.
Proof.
  split; [exact Zlt_strict_weak|]. cbv zeta. split.
  - intros x y Hx Hy. simpl in Hx, Hy. intuition subst; cbn in *; congruence.
  - eexists. split; reflexivity.
Qed.
