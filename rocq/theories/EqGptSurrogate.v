(** Model of the surrogate networks of KD_EqGPT (kd/model/kd_eqgpt.py:247-440): which cases are used, training, check points, the
    coordinates.  The networks themselves are arguments. *)
From Coq Require Import QArith Ascii.
From Verif Require Import Base Num.
Local Open Scope string_scope.
Local Open Scope nat_scope.
Local Open Scope list_scope.

(** ** _load_surrogates (251-310) *)
(** What happens to the file system *)
Inductive dir := Temp (name : string) | Shipped (name : string).
Inductive event := MakeTemp | Train (d : dir) | Skip (name : string) | Load (d : dir) | RemoveTemp.
(** sorted(data_dict.keys()); the keys of a dictionary are different *)
Fixpoint sinsert (x : string) (l : list string) : list string :=
  match l with [] => [x] | y :: r => if String.leb x y then x :: l else y :: sinsert x r end.
Definition ssort (l : list string) : list string := fold_right sinsert [] l.
Section Load.
Context {Net : Type} (all : bool) (retrain : bool) (shipped : string -> bool) (train : string -> option exn) (build : dir -> res Net).
(** case_filter == "N" and "N" not in name *)
Definition skipped (name : string) : bool := negb all && negb (contains "N" name).
(** the loop; the result lists are extended together, here one list of pairs *)
Fixpoint cases_loop (names : list string) : list event * res (list (string * Net)) :=
  match names with
  | [] => ([], Ok [])
  | n :: r =>
      if skipped n then cases_loop r
      else
        let go (d : dir) (before : list event) :=
          match build d with
          | Err e => (before ++ [Load d], Err e)
          | Ok net => let (ev, rs) := cases_loop r in (before ++ Load d :: ev, do l <- rs ; Ok ((n, net) :: l))
          end in
        if retrain
        then match train n with
             | Some e => ([Train (Temp n)], Err e)
             | None => go (Temp n) [Train (Temp n)]
             end
        else if shipped n then go (Shipped n) []
             else let (ev, rs) := cases_loop r in (Skip n :: ev, rs)
  end.
(** try ... finally cleanup, then the emptiness check *)
Definition load_surrogates (keys : list string) : list event * res (list (string * Net)) :=
  let (ev, rs) := cases_loop (ssort keys) in
  let ev' := if retrain then MakeTemp :: ev ++ [RemoveTemp] else ev in
  (ev', do l <- rs ; match l with [] => Err RuntimeError | _ => Ok l end).
End Load.

(** ** _train_single_surrogate (312-394) *)
(** n_train = int(_CHOOSE / 100 * n), n_val = int(0.05 * n) (343-344), exact *)
Definition n_train (n : nat) : nat := 95 * n / 100.
Definition n_val (n : nat) : nat := 5 * n / 100.
(** rows used (345-348) of the shuffled row numbers *)
Definition train_rows (idx : list nat) : list nat := firstn (n_train (List.length idx)) idx.
Definition val_rows (idx : list nat) : list nat := firstn (n_val (List.length idx)) (skipn (n_train (List.length idx)) idx).
(** Python's min of a list and list.index; a NaN is found by identity, and min is NaN only if the first is *)
Definition pymin (l : list num) : num := match l with [] => NaN | x :: r => fold_left (fun m y => if nlt y m then y else m) r x end.
Definition num_is (a b : num) : bool := nle a b && nle b a.
Fixpoint index_of (m : num) (l : list num) : nat := match l with [] => 0 | x :: r => if is_nan m || num_is x m then 0 else S (index_of m r) end.
(** range(surrogate_epochs): the check points, every 500 steps (359-376); [err k] is the validation error after k steps *)
Definition checkpoints (epochs : Z) : list nat := map (fun i => 500 * S i) (seq 0 (Z.to_nat (epochs / 500))).
(** files saved and the epoch written to best_epoch.npy (383-394) *)
Definition train_files (epochs : Z) (err : nat -> num) : list Z * Z :=
  let saved := checkpoints epochs in
  match saved with
  | [] => ([epochs], epochs)
  | _ => (map Z.of_nat saved, (Z.of_nat (index_of (pymin (map err saved)) (map err saved)) + 1) * 500)%Z
  end.

(** ** _build_single_surrogate (396-440) *)
(** the digits at the start of a text and the rest *)
Definition digit (a : ascii) : option nat := let n := nat_of_ascii a in if (48 <=? n) && (n <=? 57) then Some (n - 48) else None.
Fixpoint digits (s : string) : list nat * string :=
  match s with
  | String a r => match digit a with Some d => let (ds, r') := digits r in (d :: ds, r') | None => ([], s) end
  | EmptyString => ([], s)
  end.
Definition number (ds : list nat) : nat := fold_left (fun n d => 10 * n + d) ds 0.
Fixpoint after (p s : string) : option string :=
  match p, s with
  | EmptyString, _ => Some s
  | String a p', String b s' => if Ascii.eqb a b then after p' s' else None
  | _, EmptyString => None
  end.
(** a letter group, then at least one digit *)
Definition labelled (p s : string) : option (nat * string) :=
  match after p s with
  | Some r => match digits r with ([], _) => None | (ds, r') => Some (number ds, r') end
  | None => None
  end.
(** G(\d+)Tp(\d+)A(\d+) at the start of a text *)
Definition match_here (s : string) : option (nat * nat * nat) :=
  match labelled "G" s with
  | Some (g, r) => match labelled "Tp" r with
                   | Some (tp, r') => match labelled "A" r' with Some (a, _) => Some (g, tp, a) | None => None end
                   | None => None
                   end
  | None => None
  end.
(** re.search: the leftmost match *)
Fixpoint parse_case (s : string) : option (nat * nat * nat) :=
  match match_here s with
  | Some x => Some x
  | None => match s with EmptyString => None | String _ r => parse_case r end
  end.
(** tp = tp_int / 10 (424) *)
Definition peak_period (tp_int : nat) : Q := (inject_Z (Z.of_nat tp_int) / 10)%Q.
(** meshgrid(t, x, indexing="ij") raveled and stacked (433-437): [tp], [lam] scale the coordinates (431-432) *)
Definition eval_point (tp lam : Q) (t x : Q) : Q * Q := ((t / tp)%Q, ((x - (817 # 100)) / lam)%Q).
Definition database (tp lam : Q) (ts xs : list Q) : list (Q * Q) := flat_map (fun t => map (fun x => eval_point tp lam t x) xs) ts.
(** what the network is trained on (335-337) *)
Definition train_point (t x : Q) : Q * Q := (t, (x - 8)%Q).
