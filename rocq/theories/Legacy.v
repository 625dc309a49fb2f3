(** Model of the stand-alone helpers: kd/utils/solver.py (FiniteDifferenceOperator), kd/data.py
    (RegularData), kd/utils/attrdict.py (Attrdict) and kd/utils/logging.py (setup_logger).
    Numbers are rationals; rounding is not modelled. *)
From Coq Require Import QArith Ascii.
From Verif Require Import Base FiniteDiff.
Local Open Scope nat_scope.

(** * FiniteDifferenceOperator *)
(** A two-dimensional array: element type, number of rows, and its columns (each a list of rows
    entries; solver.py differentiates down the columns).  u.shape of another dimension raises
    ValueError at construction (solver.py:14), which is not modelled. *)
Inductive dtype := F64 | I64.
Record mat := mkMat { m_ty : dtype; m_rows : nat; m_cols : list (list Q) }.
(** assignment into an integer array cuts towards zero (numpy casting in slice assignment) *)
Definition keep (t : dtype) (q : Q) : Q := match t with F64 => q | I64 => inject_Z (Z.quot (Qnum q) (Zpos (Qden q))) end.
(** the heap of arrays, and an operator object: where u and ux are, and the spacing (solver.py:4-15) *)
Definition heap := list mat.
Record fdo := mkFdo { o_u : nat; o_dx : Q; o_ux : nat }.
Definition get (h : heap) (l : nat) : mat := nth l h (mkMat F64 0 []).
Fixpoint put (h : heap) (l : nat) (a : mat) : heap :=
  match h, l with [], _ => [] | _ :: h', 0 => a :: h' | b :: h', S l' => b :: put h' l' a end.
(** __init__: ux is a new array of zeros like u (solver.py:4-15) *)
Definition zeros_like (a : mat) : mat := mkMat (m_ty a) (m_rows a) (map (fun _ => repeat 0%Q (m_rows a)) (m_cols a)).
Definition new_op (h : heap) (u : nat) (dx : Q) : heap * fdo := (h ++ [zeros_like (get h u)], mkFdo u dx (List.length h)).
(** _finite_diff_1st (solver.py:17-23): writes into ux; fewer than three rows raise IndexError
    before anything is written *)
Definition fd1 (h : heap) (o : fdo) : heap * res fdo :=
  let u := get h (o_u o) in let b := get h (o_ux o) in let n := m_rows u in
  if Nat.ltb n 3 then (h, Err IndexError)
  else (put h (o_ux o) (mkMat (m_ty b) n (map (fun c => map (keep (m_ty b)) (ends n (d1_left' c (o_dx o)) (d1_right' c (o_dx o)) (d1_mid c (o_dx o)))) (m_cols u))), Ok o).
(** _finite_diff_2nd (solver.py:25-31): with three rows the middle row is written before the IndexError *)
Definition fd2 (h : heap) (o : fdo) : heap * res fdo :=
  let u := get h (o_u o) in let b := get h (o_ux o) in let n := m_rows u in
  if Nat.ltb n 3 then (h, Err IndexError)
  else if Nat.eqb n 3 then
    (put h (o_ux o) (mkMat (m_ty b) n (map (fun cb => [nth 0 (snd cb) 0%Q; keep (m_ty b) (d2_mid (fst cb) (o_dx o) 1); nth 2 (snd cb) 0%Q]) (combine (m_cols u) (m_cols b)))), Err IndexError)
  else (put h (o_ux o) (mkMat (m_ty b) n (map (fun c => map (keep (m_ty b)) (ends n (d2_left c (o_dx o)) (d2_right c (o_dx o)) (d2_mid c (o_dx o)))) (m_cols u))), Ok o).
(** _finite_diff_3rd and _4th (solver.py:33-49): second derivative into ux, then a second operator
    on that array; its buffer becomes this operator's ux *)
Definition fd_again (f : heap -> fdo -> heap * res fdo) (h : heap) (o : fdo) : heap * res fdo :=
  match fd2 h o with
  | (h1, Err e) => (h1, Err e)
  | (h1, Ok _) => let (h2, t) := new_op h1 (o_ux o) (o_dx o) in
                  match f h2 t with (h3, Err e) => (h3, Err e) | (h3, Ok _) => (h3, Ok (mkFdo (o_u o) (o_dx o) (o_ux t))) end
  end.
(** compute (solver.py:51-67): the operator afterwards; what is returned is its ux, by reference *)
Definition compute (h : heap) (o : fdo) (order : Z) : heap * res fdo :=
  if (order =? 1)%Z then fd1 h o else if (order =? 2)%Z then fd2 h o
  else if (order =? 3)%Z then fd_again fd1 h o else if (order =? 4)%Z then fd_again fd2 h o
  else (h, Err ValueError).
(** diff (solver.py:69-79): a fresh operator *)
Definition op_diff (h : heap) (u : nat) (dx : Q) (order : Z) : heap * res nat :=
  let (h1, o) := new_op h u dx in
  match compute h1 o order with (h2, Ok o') => (h2, Ok (o_ux o')) | (h2, Err e) => (h2, Err e) end.

(** * RegularData *)
(** What a data file holds: the field (rows over space), the space and the time points. *)
Record content := mkContent { f_u : list (list Q); f_x : list Q; f_t : list Q }.
(** the file system as seen from the working directory *)
Definition files := string -> option content.
Record regular := mkRegular { r_source : option string; r_X : list (list Q); r_true : option string; r_loaded : option (list (list Q) * list (list Q)) }.
(** data_list (data.py:18-20) *)
Definition data_list : list string := ["chafee-infante"; "Burgers"; "Kdv"]%string.
(** RegularData.__init__ (data.py:105-120); a source that is not a string is [None] *)
Definition new_regular (source : option string) : res regular :=
  match source with
  | Some s => if existsb (String.eqb s) data_list then Ok (mkRegular source [] None None) else Err AssertionError
  | None => Ok (mkRegular source [] None None)
  end.
(** the file read and the true equation of each name (data.py:140-163); the three chafee-infante
    files are one content here *)
Definition where_ (s : string) : option (string * string) :=
  if String.eqb s "chafee-infante" then Some ("./kd/data_file/chafee_infante", "add,add,u1,n3,u1,diff2,u1,x1")%string
  else if String.eqb s "Burgers" then Some ("./kd/data_file/burgers.mat", "add,mul,u1,diff,u1,x1,diff2,u1,x1")%string
  else if String.eqb s "Kdv" then Some ("./discover/task/pde/data_new/Kdv.mat", "add,mul,u1,diff,u1,x1,diff3,u1,x1")%string
  else None.
(** RegularData.load_data (data.py:127-180): the object afterwards and whether it raised.  A missing
    file raises FileNotFoundError before anything is set; t[1] raises IndexError on fewer than two times
    (after sym_true is set, and self.ut; for Kdv before, data.py:158-159); x is appended before the derivatives
    are taken. *)
Definition load_data (fs : files) (r : regular) : regular * res unit :=
  match r_source r with
  | None => (r, Err NotImplementedError)
  | Some s => match where_ s with
    | None => (r, Err NotImplementedError)
    | Some (path, sym) => match fs path with
      | None => (r, Err OtherError)
      | Some c =>
        let r1 := mkRegular (r_source r) (r_X r) (Some sym) (r_loaded r) in
        if String.eqb s "Kdv" && (Nat.ltb (List.length (f_t c)) 2 || Nat.ltb (List.length (f_x c)) 2) then (r, Err IndexError) else
        if Nat.ltb (List.length (f_t c)) 2 then (r1, Err IndexError) else
        let dt := (nth 1 (f_t c) 0 - nth 0 (f_t c) 0)%Q in
        let r2 := mkRegular (r_source r) (r_X r ++ [f_x c]) (Some sym) (r_loaded r) in
        match mapM (fun row => finite_diff row dt 1) (f_u c) with
        | Err e => (r2, Err e)
        | Ok ut => (mkRegular (r_source r) (r_X r ++ [f_x c]) (Some sym) (Some (f_u c, ut)), Ok tt)
        end
      end
    end
  end.
(** the dictionary of get_data (data.py:174-180, 81-87): u, ut, X, n_input_dim and sym_true.  Its X is
    the object's list itself, so it is read from the object. *)
Record loaded := mkLoaded { d_u : list (list Q); d_ut : list (list Q); d_X : list (list Q); d_dim : nat; d_true : option string }.
Definition get_data (r : regular) : option loaded :=
  match r_loaded r with None => None | Some (u, ut) => Some (mkLoaded u ut (r_X r) 1 (r_true r)) end.
(** the files of /repo/kd/data_file, as seen from the repository root *)
Definition shipped : list string := ["./kd/data_file/chafee_infante"; "./kd/data_file/burgers.mat"; "./kd/data_file/burgers2.mat"]%string.

(** * Attrdict *)
Section Attr.
Context {V : Type}.
(** a dict in insertion order *)
Definition dict := list (string * V).
Fixpoint d_get (d : dict) (k : string) : option V :=
  match d with [] => None | (k', v) :: d' => if String.eqb k k' then Some v else d_get d' k end.
Fixpoint d_set (d : dict) (k : string) (v : V) : dict :=
  match d with [] => [(k, v)] | (k', w) :: d' => if String.eqb k k' then (k', v) :: d' else (k', w) :: d_set d' k v end.
Fixpoint d_del (d : dict) (k : string) : dict :=
  match d with [] => [] | (k', w) :: d' => if String.eqb k k' then d' else (k', w) :: d_del d' k end.
(** item access of a dict *)
Definition getitem (d : dict) (k : string) : res V := match d_get d k with Some v => Ok v | None => Err KeyError end.
Definition delitem (d : dict) (k : string) : res dict := match d_get d k with Some _ => Ok (d_del d k) | None => Err KeyError end.
(** The names found on the instance or its class before __getattr__ is asked: dict's methods, the
    special names, and the _internal_dict that __init__ binds (attrdict.py:20-26). *)
Definition class_names : list string :=
  ["clear"; "copy"; "fromkeys"; "get"; "items"; "keys"; "pop"; "popitem"; "setdefault"; "update"; "values";
   "__class__"; "__class_getitem__"; "__contains__"; "__delattr__"; "__delitem__"; "__dict__"; "__dir__"; "__doc__"; "__eq__";
   "__format__"; "__ge__"; "__getattr__"; "__getattribute__"; "__getitem__"; "__getstate__"; "__gt__"; "__hash__"; "__init__";
   "__init_subclass__"; "__ior__"; "__iter__"; "__le__"; "__len__"; "__lt__"; "__module__"; "__ne__"; "__new__"; "__or__";
   "__reduce__"; "__reduce_ex__"; "__repr__"; "__reversed__"; "__ror__"; "__setattr__"; "__setitem__"; "__sizeof__"; "__str__";
   "__subclasshook__"; "__weakref__"; "_internal_dict"]%string.
Inductive attr := Value (v : V) | Builtin (name : string).
(** __getattr__ (attrdict.py:28-38) after the normal lookup *)
Definition getattr (d : dict) (k : string) : res attr :=
  if existsb (String.eqb k) class_names then Ok (Builtin k)
  else match getitem d k with Ok v => Ok (Value v) | Err _ => Err AttributeError end.
(** __setattr__ (attrdict.py:40-44) *)
Definition setattr (d : dict) (k : string) (v : V) : dict := d_set d k v.
(** __delattr__ (attrdict.py:46-56) *)
Definition delattr (d : dict) (k : string) : res dict :=
  match delitem d k with Ok d' => Ok d' | Err _ => Err AttributeError end.
End Attr.
Arguments dict : clear implicits.
Arguments attr : clear implicits.

(** * setup_logger *)
(** A logger's name is split at the dots; [[]] is the root.  Handlers write a line to a place. *)
Inductive place := Console | File (path : string).
Record logger := mkLogger { l_level : nat; l_handlers : list place }.
Definition loggers := list string -> logger.
(** logging's state at import: the root at WARNING, the others unset, no handlers *)
Definition fresh_loggers : loggers := fun n => mkLogger (match n with [] => 30 | _ => 0 end) [].
Definition set_logger (ls : loggers) (n : list string) (l : logger) : loggers :=
  fun m => if list_eq_dec string_dec m n then l else ls m.
(** setLevel(level.upper()) (logging.py:19); here the name is already in capitals *)
Definition level_of (s : string) : option nat :=
  match find (fun p => String.eqb s (fst p)) [("NOTSET", 0); ("DEBUG", 10); ("INFO", 20); ("WARN", 30); ("WARNING", 30); ("ERROR", 40); ("CRITICAL", 50); ("FATAL", 50)]%string with
  | Some p => Some (snd p) | None => None end.
(** os.path.dirname: what is before the last slash; empty for a bare name *)
Fixpoint has_slash (s : string) : bool := match s with EmptyString => false | String a s' => Ascii.eqb a "/"%char || has_slash s' end.
(** setup_logger (logging.py:5-39): the console handler is added first; a log_file without directory
    makes os.makedirs('') raise FileNotFoundError; log_file = None or '' means no file. *)
Definition setup_logger (ls : loggers) (n : list string) (file : option string) (level : string) : loggers * res unit :=
  match level_of level with
  | None => (ls, Err ValueError)
  | Some lv =>
    let l1 := mkLogger lv (l_handlers (ls n) ++ [Console]) in
    match file with
    | None | Some EmptyString => (set_logger ls n l1, Ok tt)
    | Some path => if has_slash path then (set_logger ls n (mkLogger lv (l_handlers l1 ++ [File path])), Ok tt)
                   else (set_logger ls n l1, Err OtherError)
    end
  end.
(** The standard library's rules for a record: the level is the logger's own or the nearest set one
    above; the handlers of the logger and of all loggers above it write it (no handlers at all: warnings go to
    the last-resort handler, not modelled). *)
Fixpoint prefixes (n : list string) : list (list string) :=
  match n with [] => [[]] | x :: n' => [] :: map (cons x) (prefixes n') end.
Definition chain (n : list string) : list (list string) := rev (prefixes n).
Definition effective (ls : loggers) (n : list string) : nat :=
  match find (fun m => negb (Nat.eqb (l_level (ls m)) 0)) (chain n) with Some m => l_level (ls m) | None => 0 end.
Definition emit (ls : loggers) (n : list string) (lv : nat) : list place :=
  if Nat.ltb lv (effective ls n) then [] else List.concat (map (fun m => l_handlers (ls m)) (chain n)).
