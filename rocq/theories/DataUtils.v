(** Model of the smaller data helpers: PDEDataLoader with its readers (kd/dataset/_base.py:50-224), the
    normalisation of network data (kd/model/discover/task/pde/utils_noise.py:56-88) and the split of
    PDEDataset.split_data (kd/model/discover/task/pde/utils_nn.py:180-206). *)
From Coq Require Import QArith Qminmax Qround Ascii.
From Verif Require Import Base.
Local Open Scope string_scope.
Local Open Scope nat_scope.
Local Open Scope list_scope.

(** ** Names of files *)
(** pathlib: the last component of a path *)
Fixpoint has_char (c : ascii) (s : string) : bool := match s with EmptyString => false | String a r => Ascii.eqb a c || has_char c r end.
Fixpoint base_name (s : string) : string :=
  match s with
  | EmptyString => EmptyString
  | String a r => if has_char "/" r then base_name r else if Ascii.eqb a "/" then r else s
  end.
(** the part of a name from its last dot on *)
Fixpoint from_dot (s : string) : option string :=
  match s with
  | EmptyString => None
  | String a r => match from_dot r with Some x => Some x | None => if Ascii.eqb a "." then Some s else None end
  end.
(** Path.suffix: from the last dot, unless that is the first or the last character of the name.  Paths are written in the
    normal form of pathlib (no "//", no final "/"). *)
Definition suffix (p : string) : string :=
  match base_name p with
  | EmptyString => EmptyString
  | String _ r => match from_dot r with Some (String _ EmptyString) | None => EmptyString | Some x => x end
  end.
(** str.endswith *)
Fixpoint ends_with (e s : string) : bool := String.eqb s e || match s with EmptyString => false | String _ r => ends_with e r end.

(** ** Loading files (_base.py:50-224) *)
Section Files.
(** [F]: the contents of a file; [V]: arrays.  [fs p]: the file at path p (Path.exists); [rows]: csv.reader's list of rows of
    the decoded text; [number]: the 32-bit value of a cell, None if it is not a number; [mat]: scipy.io.loadmat; [npy]:
    np.load. *)
Context {F V : Type} (fs : string -> option F) (rows : F -> list (list string)) (number : string -> option Q)
  (mat : F -> res (list (string * V))) (npy : F -> res V).
Inductive loaded := Table (t : list (list Q)) | Vars (d : list (string * V)) | Arr (v : V).
(** np.array(rows, dtype=np.float32): a list of rows of the same length, each cell a number (_base.py:88) *)
Definition cell (s : string) : res Q := match number s with Some q => Ok q | None => Err ValueError end.
Definition to_array (rs : list (list string)) : res (list (list Q)) :=
  if forallb (fun r => Nat.eqb (List.length r) (List.length (hd [] rs))) rs then mapM (mapM cell) rs else Err ValueError.
(** load_csv_data (_base.py:50-90) *)
Definition load_csv (has_header : bool) (f : F) : res (list (list Q)) :=
  match rows f with
  | [] => if has_header then Err IndexError else to_array []
  | h :: r => if has_header then to_array r else to_array (h :: r)
  end.
(** load_mat_file (_base.py:93-120) *)
Definition load_mat (f : F) : res (list (string * V)) :=
  match mat f with
  | Ok d => Ok (filter (fun kv => negb (has_prefix "__" (fst kv))) d)
  | Err NotImplementedError => Err ValueError
  | Err e => Err e
  end.
(** load_numpy_data (_base.py:123-152) *)
Definition load_numpy (p : string) (f : F) : res V := if ends_with ".npy" p || ends_with ".npz" p then npy f else Err ValueError.
(** _base.py:191-200 *)
Definition read (p : string) (f : F) : res loaded :=
  let s := suffix p in
  if String.eqb s ".csv" then do t <- load_csv true f ; Ok (Table t)
  else if String.eqb s ".mat" then do d <- load_mat f ; Ok (Vars d)
  else if existsb (String.eqb s) [".npy"; ".npz"] then do v <- load_numpy p f ; Ok (Arr v)
  else Err ValueError.
(** _find_file (_base.py:202-213); the name has no "/" *)
Definition extensions : list string := [".csv"; ".mat"; ".npy"; ".npz"].
Definition in_dir (dir name : string) : string := (dir ++ "/" ++ name)%string.
Definition find_file (dir name : string) : option string :=
  find (fun p => match fs p with Some _ => true | None => false end) (map (fun e => in_dir dir (name ++ e)%string) extensions).
(** load_data (_base.py:171-200); None or an empty string is false; OtherError stands for FileNotFoundError *)
Definition given (o : option string) : option string := match o with Some EmptyString => None | _ => o end.
Definition load_data (dir : string) (name file : option string) : res loaded :=
  match given file with
  | Some p => match fs p with Some f => read p f | None => Err OtherError end
  | None =>
      match given name with
      | Some n => match find_file dir n with
                  | Some p => match fs p with Some f => read p f | None => Err OtherError end
                  | None => Err OtherError
                  end
      | None => Err ValueError
      end
  end.
End Files.
Arguments loaded : clear implicits.
Arguments Table {V}. Arguments Vars {V}. Arguments Arr {V}.

(** ** Normalising (utils_noise.py:56-88) *)
Local Open Scope Q_scope.
Definition sum (l : list Q) : Q := fold_right Qplus 0 l.
Definition mean (l : list Q) : Q := sum l / inject_Z (Z.of_nat (List.length l)).
Definition qmin_l (l : list Q) : Q := match l with [] => 0 | x :: r => fold_left Qmin r x end.
Definition qmax_l (l : list Q) : Q := match l with [] => 0 | x :: r => fold_left Qmax r x end.
(** One column of the array; [sd] is ndarray.std, a square root.  Division by 0 gives 0 here where NumPy gives NaN or an
    infinity. *)
Section Normalise.
Context (sd : list Q -> Q).
Definition to_unit (c : list Q) : list Q :=
  let lo := qmin_l c in let d := map (fun x => x - lo) c in map (fun x => x / qmax_l d) d.
(** normalize (utils_noise.py:56-74): the values and the two parameters.  After 'min_max' the second [if] goes on to its
    [else] branch, since the type is not 'None'. *)
Definition normalize (ty : string) (c : list Q) : list Q * (Q * Q) :=
  let c1 := if String.eqb ty "min_max" then to_unit c else c in
  if String.eqb ty "None" then (c1, (0, 1))
  else (map (fun x => (x - mean c1) / sd c1) c1, (mean c1, sd c1)).
(** unnormalize (utils_noise.py:76-88) *)
Definition unnormalize (c : list Q) (p : Q * Q) : list Q := map (fun x => x * snd p + fst p) c.
(** the noise-free field, scaled by the parameters (utils_nn.py:172-174) *)
Definition scale_true (c : list Q) (p : Q * Q) : list Q := map (fun x => (x - fst p) / snd p) c.
End Normalise.
Local Close Scope Q_scope.

(** ** Splitting (utils_nn.py:180-206) *)
(** int() of a number: towards zero *)
Definition trunc (q : Q) : Z := Z.quot (Qnum q) (Zpos (Qden q)).
(** l[i:j] for bounds of any sign *)
Definition bound (n : nat) (i : Z) : nat := if (i <? 0)%Z then Z.to_nat (Z.of_nat n + i) else Nat.min n (Z.to_nat i).
Definition py_slice {A} (l : list A) (i j : Z) : list A :=
  let a := bound (List.length l) i in let b := bound (List.length l) j in firstn (b - a) (skipn a l).
(** X[list of indices] *)
Definition take_rows {A} (X : list A) (ids : list nat) : res (list A) :=
  mapM (fun i => match nth_error X i with Some x => Ok x | None => Err IndexError end) ids.
(** split_data: [ids] is range(data_num) after random.shuffle; products of a size and a ratio are rounded to a float before
    int(), here they are exact; 0.9 is 9/10. *)
Definition split_data {A B} (X : list A) (Y : list B) (ids : list nat) (train_ratio val_ratio : Q) : res (list A * list A * (list B * list B)) :=
  let n := inject_Z (Z.of_nat (List.length Y)) in
  let offset := trunc (n * train_ratio) in
  let val_num := trunc (n * val_ratio) in
  let train := py_slice ids 0 offset in
  let val := if Qlt_le_dec (9 # 10) train_ratio then train else py_slice ids offset (val_num + offset) in
  do xt <- take_rows X train ;
  do yt <- take_rows Y train ;
  do xv <- take_rows X val ;
  do yv <- take_rows Y val ;
  Ok (xt, xv, (yt, yv)).
