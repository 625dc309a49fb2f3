(** Model of the estimator KD_Discover_Regression (kd/model/kd_discover_regression.py), of the direct
    evaluation of a program (kd/model/discover/program.py:389-423), of the class-wide choice of the
    executor (program.py:600-608, task/task.py:233-244) and of the regression reward
    (kd/model/discover/task/regression.py). *)
From Coq Require Import QArith.
From Verif Require Import Base Trees Library Execute.

(** ** Arrays met during evaluation: a column of shape (n,1), a vector of shape (1,), a scalar. *)
Inductive arr (E : Type) := Col (l : list E) | One (e : E) | Scal (e : E).
Arguments Col {E}. Arguments One {E}. Arguments Scal {E}.

Section Eval.
Context {E : Type}.
(** Elementwise meaning of an operator; value of a constant token (None: not set). *)
Variable op : token -> list E -> E.
Variable const : token -> option E.
Variable zero : E.

(** numpy broadcasting of elementwise operators: the number of rows of the result, if any operand is
    a column.  All columns come from one matrix, so that columns of different length do not meet;
    they are an error here. *)
Fixpoint rows_of (args : list (arr E)) : option nat :=
  match args with [] => None | Col l :: _ => Some (List.length l) | _ :: args' => rows_of args' end.
Definition entry (a : arr E) (k : nat) : option E :=
  match a with Col l => nth_error l k | One e => Some e | Scal e => Some e end.
Fixpoint entries (args : list (arr E)) (k : nat) : option (list E) :=
  match args with
  | [] => Some []
  | a :: args' => match entry a k, entries args' k with Some e, Some es => Some (e :: es) | _, _ => None end
  end.
Definition same_rows (n : nat) (a : arr E) : bool := match a with Col l => Nat.eqb (List.length l) n | _ => true end.
Fixpoint all_some {A} (l : list (option A)) : option (list A) :=
  match l with
  | [] => Some []
  | Some x :: l' => match all_some l' with Some xs => Some (x :: xs) | None => None end
  | None :: _ => None
  end.
Definition is_scal (a : arr E) : bool := match a with Scal _ => true | _ => false end.
(** The call token(args...) for a numpy elementwise function *)
Definition lift (f : list E -> E) (args : list (arr E)) : option (arr E) :=
  match rows_of args with
  | Some n => if forallb (same_rows n) args
              then option_map Col (all_some (map (fun k => option_map f (entries args k)) (seq 0 n)))
              else None
  | None => option_map (fun es => if forallb is_scal args then Scal (f es) else One (f es)) (entries args 0)
  end.
(** A token applied to its operands: a constant is np.atleast_1d of its value and raises
    AssertionError when it has none (library.py:75-105). *)
Definition call (tok : token) (args : list (arr E)) (_ : extra) : option (arr E) :=
  match args with [] => option_map One (const tok) | _ => lift (op tok) args end.
Definition call_torch (tok : token) (args : list (arr E)) (x : extra) : res (arr E) :=
  match call tok args x with Some v => Ok v | None => Err AssertionError end.

(** _normalize_x_inputs for a matrix given by its rows, program.py:396-402 *)
Definition column (rows : list (list E)) (j : nat) : arr E := Col (map (fun r => nth j r zero) rows).
Definition columns (d : nat) (rows : list (list E)) : list (arr E) := map (column rows) (seq 0 d).

(** Program.execute_function: unsafe_execute or unsafe_execute_torch (stridge.py:45-66), on numpy
    arrays.  torch.isnan of a numpy array raises, which python_execute_torch turns into None and
    unsafe_execute_torch into the number 0. *)
Definition no_param (_ : token) : arr E := Scal zero.
Definition execute_function (torch : bool) (trav : list token) (x : list (arr E)) : out (arr E) :=
  if torch
  then match python_execute_torch (fun _ => None) x no_param call_torch (fun _ => None) trav with
       | ONone => OVal (Scal zero) | o => o
       end
  else python_execute [] x no_param call trav.

(** execute_direct, program.py:404-423: a number or a vector of size one is spread over the rows of
    the first input.  Returns None when the evaluation failed. *)
Definition spread (x : list (arr E)) (e : E) : res (option (list E)) :=
  match x with
  | Col l :: _ => Ok (Some (map (fun _ => e) l))
  | _ => Err IndexError
  end.
Definition execute_direct (torch : bool) (trav : list token) (d : nat) (rows : list (list E)) : res (option (list E)) :=
  let x := columns d rows in
  match execute_function torch trav x with
  | ORaise e => Err e
  | ONone => Ok None
  | OVal (Col l) => Ok (Some l)
  | OVal (One e) => spread x e
  | OVal (Scal e) => spread x e
  end.

(** ** The estimator *)
(** What predict and later fits see of an estimator: best_program_, n_features_in_, result_ (the
    program it is about), operator. *)
Record est := mkEst { e_best : option (list token); e_width : option nat; e_result : option (list token); e_ops : list string }.
(** kd_discover_regression.py:29-36 and kd_discover.py:96: operator = binary + unary *)
Definition est_init (ops : list string) : est := mkEst None None None ops.

(** A call of fit: what np.asarray(X), np.asarray(y) give (or the exception they raise), var_names,
    and the outcomes of setup(), train() and of the evaluation of the best program (evaluate has no
    "nmse_test" when the program is invalid on the training data). *)
Record fitcall := mkFit {
  f_conv : option exn; f_ndim : nat; f_rows : nat; f_cols : nat; f_ny : nat; f_names : option nat;
  f_setup : option exn; f_train : res (list token); f_valid : bool }.

(** _validate_inputs, kd_discover_regression.py:38-56 *)
Definition validate (f : fitcall) : res unit :=
  match f_conv f with
  | Some e => Err e
  | None =>
      if negb (Nat.eqb (f_ndim f) 2) then Err ValueError
      else if negb (Nat.eqb (f_rows f) (f_ny f)) then Err ValueError
      else match f_names f with
           | None => Ok tt
           | Some k => if negb (Nat.eqb k (f_cols f)) then Err ValueError else Ok tt
           end
  end.
(** set_task, kd_discover_regression.py:110-113 *)
Definition with_const (ops : list string) : list string :=
  match ops with
  | [] => []
  | _ => if existsb (String.eqb "const") ops then ops else ops ++ ["const"%string]
  end.
(** fit, kd_discover_regression.py:85-108: the result and the estimator afterwards *)
Definition fit (f : fitcall) (e : est) : res (list token) * est :=
  match validate f with
  | Err x => (Err x, e)
  | Ok _ =>
      let e1 := mkEst (e_best e) (Some (f_cols f)) (e_result e) (with_const (e_ops e)) in
      match f_setup f with
      | Some x => (Err x, e1)
      | None =>
          match f_train f with
          | Err x => (Err x, e1)
          | Ok p =>
              let e2 := mkEst (Some p) (e_width e1) (e_result e1) (e_ops e1) in
              if f_valid f then (Ok p, mkEst (Some p) (e_width e2) (Some p) (e_ops e2))
              else (Err TypeError, e2)                       (* float(None) *)
          end
      end
  end.

(** predict, kd_discover_regression.py:115-133; [ndim], the number of columns [d] and the rows of the
    array given.  Once a program is there, n_features_in_ is set too. *)
Definition predict (torch : bool) (e : est) (ndim d : nat) (rows : list (list E)) : res (list E) :=
  match e_best e with
  | None => Err RuntimeError
  | Some p =>
      if negb (Nat.eqb ndim 2) then Err ValueError
      else if match e_width e with Some w => negb (Nat.eqb d w) | None => false end then Err ValueError
      else match execute_direct torch p d rows with
           | Err x => Err x
           | Ok None => Err RuntimeError
           | Ok (Some y) => Ok y
           end
  end.

(** ** Two estimators in one process.  Program.execute_function is a class attribute: the last
    set_task of any estimator decides (task.py:233-240). *)
Inductive event := EFit (f : fitcall) | EOther (use_torch : bool).
(** What has happened to the estimator and to the class-wide executor.  A fit that gets past
    validation selects the numpy executor (config_regression.json has no use_torch) before anything
    in setup() that may fail. *)
Record world := mkW { w_est : est; w_torch : bool }.
Definition reaches_setup (f : fitcall) : bool := match validate f with Ok _ => true | Err _ => false end.
Definition step (w : world) (ev : event) : world :=
  match ev with
  | EFit f => mkW (snd (fit f (w_est w))) (if reaches_setup f then false else w_torch w)
  | EOther t => mkW (w_est w) t
  end.
Definition run (w : world) (evs : list event) : world := fold_left step evs w.
End Eval.

(** ** The reward (regression.py:13-36).  [sqrt] is the square root used. *)
Section Reward.
Variable sqrt : Q -> Q.
Local Open Scope Q_scope.
(** np.mean of a non-empty array (numpy gives NaN for an empty one) *)
Definition qmean (l : list Q) : Q := fold_right Qplus 0 l / inject_Z (Z.of_nat (List.length l)).
(** np.var *)
Definition variance (y : list Q) : Q := let m := qmean y in qmean (map (fun v => (v - m) * (v - m)) y).
(** np.mean((y - y_hat) ** 2) *)
Definition mse (y yh : list Q) : Q := qmean (map (fun p => (fst p - snd p) * (fst p - snd p)) (combine y yh)).
Definition qmax (a b : Q) : Q := if Qle_bool a b then b else a.
Definition accuracy (y yh : list Q) : Q := 1 / (1 + sqrt (mse y yh / qmax (variance y) (1 # 1000000000000))).
Definition reward (coeff : Q) (y yh : list Q) (n_tokens : nat) : Q :=
  if (negb (Qle_bool coeff 0) && negb (Nat.eqb n_tokens 0))%bool
  then accuracy y yh * qmax 0 (1 - coeff * inject_Z (Z.of_nat n_tokens))
  else accuracy y yh.
End Reward.
