(** Model of the training data of the language model: kd/model/eqgpt/read_dataset.py (12-66 helpers and reading, 68-196
    augmentation).  A row of the spreadsheet is its equation name and its words. *)
From Coq Require Import QArith.
From Verif Require Import Base Num EqGpt.
Local Open Scope nat_scope.
Local Open Scope list_scope.

(** itertools.permutations (12-13), in its order: positions in lexicographic order *)
Fixpoint picks {A} (l : list A) : list (A * list A) :=
  match l with [] => [] | x :: r => (x, r) :: map (fun p => (fst p, x :: snd p)) (picks r) end.
Fixpoint perms_n {A} (n : nat) (l : list A) : list (list A) :=
  match n with
  | O => [[]]
  | S k => flat_map (fun p => map (cons (fst p)) (perms_n k (snd p))) (picks l)
  end.
Definition permutation {A} (l : list A) : list (list A) := perms_n (List.length l) l.
(** split_list (92-102) and the loop of data_augumentation_plus (73-82) *)
Fixpoint split_list (v : nat) (l : list nat) : list (list nat) :=
  match l with
  | [] => [[]]
  | k :: r => match split_list v r with
              | seg :: t => if k =? v then [] :: seg :: t else (k :: seg) :: t
              | [] => [[k]]
              end
  end.
(** combine_permutation and combine_permutation_multiply (15-31) *)
Definition combine_slices (v : nat) (l : list (list nat)) : list nat := removelast (List.concat (map (fun s => s ++ [v]) l)).
(** data_augumentation_plus (68-90) *)
Definition augment_plus (data : list nat) : list (list nat) :=
  map (combine_slices tPlus) (permutation (split_list tPlus data)).
(** the permuted products of one slice (119-128) *)
Definition alternatives (s : list nat) : list (list nat) := map (combine_slices tTimes) (permutation (split_list tTimes s)).
(** data_augumentation_multiply (107-151): all_slice is changed in place, so the slices before the current one stay as their
    last permutation *)
Fixpoint multiply_loop (done todo : list (list nat)) : list (list nat) :=
  match todo with
  | [] => []
  | s :: r =>
      if existsb (Nat.eqb tTimes) s
      then map (fun d => combine_slices tPlus (done ++ d :: r)) (alternatives s)
             ++ multiply_loop (done ++ [last (alternatives s) s]) r
      else multiply_loop (done ++ [s]) r
  end.
Definition augment_multiply (data : list nat) : list (list nat) :=
  if existsb (Nat.eqb tTimes) data then multiply_loop [] (split_list tPlus data) else [data].
(** expand_to_wanted_size (153-156) *)
Definition expand_to (arr : list (list nat)) (n : nat) : list (list nat) :=
  let k := List.length arr in
  firstn n (List.concat (repeat arr (n / k + (if n mod k =? 0 then 0 else 1)))).
(** one equation (168-184); [sample n k]: the positions random.sample chooses *)
Definition augment (sample : nat -> nat -> list nat) (times : nat) (data : list nat) : list (list nat) :=
  let all := flat_map augment_multiply (map (fun s => s ++ [tE]) (augment_plus data)) in
  if times <? List.length all then map (fun i => nth i all []) (sample (List.length all) times)
  else expand_to all times.
(** word2id[word] *)
Definition word_id (w : string) : res nat := if existsb (String.eqb w) vocab then Ok (tok w) else Err KeyError.
(** read_dataset (32-39) *)
Definition read_dataset (name : string) (rows : list (string * list string)) : list (list string) :=
  map snd (filter (fun r => negb (String.eqb (fst r) name)) rows).
(** get_train_dataset (158-194); the equation name is not passed on (161) *)
Definition get_train_dataset (sample : nat -> nat -> list nat) (name : string) (times : nat) (rows : list (string * list string)) : res (list (list nat)) :=
  do data <- mapM (mapM word_id) (read_dataset "" rows) ;
  Ok (map (cons tS) (flat_map (augment sample times) data)).
