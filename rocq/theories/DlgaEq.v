(** Model of what DLGA does around the search: the library of operators
    (kd/model/kd_dlga.py:27-70), the columns of a genome (kd/model/dlga.py:260-281), the printed equation
    (dlga.py:451-497, kd_dlga.py:109-121), its LaTeX form (kd/viz/dlga_eq2latex.py), the
    training data and checkpoints (dlga.py:111-188) and fit_dataset (kd_dlga.py:272-324).
    Numbers are rationals (rounding of float arithmetic is not modelled). *)
From Coq Require Import QArith Qabs Qround Ascii.
From Verif Require Import Base Num Dlga.
Local Open Scope nat_scope.
Local Open Scope string_scope.
Local Open Scope list_scope.

(** ** The operator library *)
Definition column := list Q.
(** generate_meta_data (kd_dlga.py:55-61): the columns of Theta, one for each requested name
    that is available; other names are skipped.  [avail] is the dictionary available_ops. *)
Definition theta (avail : string -> option column) (ops : list string) : list column :=
  flat_map (fun o => match avail o with Some c => [c] | None => [] end) ops.
(** library_size (kd_dlga.py:20) *)
Definition library_size (ops : list string) : nat := List.length ops.
(** Theta[:, i] *)
Definition theta_col (th : list column) (i : nat) : res column := at_ th i.
Definition times (a b : column) : column := map (fun p => (fst p * snd p)%Q) (combine a b).
(** translate_DNA (dlga.py:260-281) for one module on n points: np.ones times each column *)
Definition translate_module (n : nat) (th : list column) (m : modul) : res column :=
  do cols <- mapM (theta_col th) m ; Ok (fold_left times cols (repeat 1%Q n)).
Definition translate (n : nat) (th : list column) (g : genome) : res (list column) := mapM (translate_module n th) g.
(** length_penalty_coef (dlga.py:270-280) *)
Definition penalty (g : genome) : nat := list_sum (map (@List.length nat) g).

(** ** The printed equation *)
Fixpoint joins (sep : string) (l : list string) : string :=
  match l with [] => "" | [x] => x | x :: l' => (x ++ sep ++ joins sep l')%string end.
(** s.replace("+-", "-") *)
Fixpoint replace_pm (s : string) : string :=
  match s with
  | String "+" (String "-" s') => String "-" (replace_pm s')
  | String a s' => String a (replace_pm s')
  | EmptyString => EmptyString
  end.
(** KD_DLGA.convert_chrom_to_eq (kd_dlga.py:109-121).  A coefficient is given by its printed
    form str(np.round(coef[i, 0], 4)). *)
Fixpoint kd_terms (names : list string) (chrom : genome) (coefs : list string) : list string :=
  match chrom, coefs with
  | item :: chrom', k :: coefs' =>
      let t := joins "*" (flat_map (fun g => match nth_error names g with Some s => [s] | None => [] end) item) in
      (if String.eqb t "" then [] else [(k ++ "*" ++ t)%string]) ++ kd_terms names chrom' coefs'
  | _, _ => []
  end.
Definition kd_equation (names : list string) (left : string) (chrom : genome) (coefs : list string) : string :=
  match chrom with
  | [] => (left ++ "= (empty equation)")%string
  | _ => (left ++ "=" ++ replace_pm (joins "+" (kd_terms names chrom coefs)))%string
  end.
(** DLGA.convert_chrom_to_eq (dlga.py:451-497): the list [string] of the code, then popped.
    A gene out of range is skipped with a warning; an empty module leaves "coef", "*". *)
Definition dlga_names : list string := ["u"; "ux"; "uxx"; "uxxx"; "ut"; "utt"].
Definition pop_last (l : list string) : list string := removelast l.
Fixpoint dlga_tokens (chrom : genome) (coefs : list string) (acc : list string) : list string :=
  match chrom, coefs with
  | item :: chrom', k :: coefs' =>
      match item with
      | [] => dlga_tokens chrom' coefs' (acc ++ [k; "*"])
      | _ => let acc1 := acc ++ [k; "*"] ++ flat_map (fun g => match nth_error dlga_names g with Some s => [s; "*"] | None => [] end) item in
             dlga_tokens chrom' coefs' (pop_last acc1 ++ ["+"])
      end
  | _, _ => acc
  end.
Definition dlga_equation (left : string) (chrom : genome) (coefs : list string) : string :=
  (left ++ "=" ++ String.concat "" (pop_last (dlga_tokens chrom coefs [])))%string.

(** ** LaTeX (kd/viz/dlga_eq2latex.py) *)
(** DLGA_INTERNAL_TERM_NAMES and DEFAULT_LATEX_STYLE_MAP (dlga_eq2latex.py:10-20) *)
Definition style (s : string) : string :=
  match s with
  | "u" => "u" | "ux" => "u_x" | "uxx" => "u_{xx}" | "uxxx" => "u_{xxx}" | "ut" => "u_t" | "utt" => "u_{tt}"
  | _ => s
  end.
Fixpoint occurrences (g : nat) (m : modul) : nat :=
  match m with [] => 0 | x :: m' => (if Nat.eqb x g then 1 else 0) + occurrences g m' end.
(** sorted(Counter(module).keys()) *)
Fixpoint uniq (l : list nat) : list nat :=
  match l with
  | [] => []
  | x :: l' => match l' with y :: _ => if Nat.eqb x y then uniq l' else x :: uniq l' | [] => [x] end
  end.
Definition keys (m : modul) : list nat := uniq (sorted m).
(** _module_to_latex_base_term (dlga_eq2latex.py:23-45) before joining: (base, power) pairs.
    A gene without a name shows as an "unknown" label, abbreviated here to "?". *)
Definition base_parts (names : list string) (m : modul) : list (string * nat) :=
  map (fun g => (match nth_error names g with Some s => style s | None => "?" end, occurrences g m)) (keys m).
(** _format_full_latex_term (dlga_eq2latex.py:50-89): what a term shows.  The magnitude is in
    units of 0.0001 (f"{abs(c):.4f}", round half to even), None when it is left out because
    it is close to 1 (the base is never "1": modules are not empty). *)
Record shown := mkShown { neg : bool; mag : option Z; base : list (string * nat) }.
Definition Qtol : Q := 1 # 100000000.
Definition close0 (c : Q) : bool := Qle_bool (Qabs c) Qtol.
Definition close1 (a : Q) : bool := Qle_bool (Qabs (a - 1)) (Qtol + (1 # 100000)).
Definition round_half_even (q : Q) : Z :=
  let f := Qfloor q in
  match Qcompare (q - inject_Z f) (1 # 2) with
  | Lt => f | Gt => (f + 1)%Z | Eq => if Z.even f then f else (f + 1)%Z
  end.
Definition fmt4 (q : Q) : Z := round_half_even (q * 10000).
Definition format_term (c : Q) (b : list (string * nat)) : shown :=
  mkShown (negb (close0 c) && negb (Qle_bool 0 c))
          (if close1 (Qabs c) then None else Some (if close0 c then 0%Z else fmt4 (Qabs c)))
          b.
(** chromosome_to_latex (dlga_eq2latex.py:92-144): left side and terms, in order; the names
    default to the internal ones.  A module without coefficient is skipped. *)
Definition latex_terms (names : list string) (chrom : genome) (coefs : list Q) : list shown :=
  map (fun p => format_term (snd p) (base_parts names (fst p))) (combine chrom coefs).
Definition chromosome_to_latex (names : list string) (lhs : string) (chrom : genome) (coefs : list Q) : string * list shown :=
  (style lhs, latex_terms names chrom coefs).
(** dlga_eq2latex (dlga_eq2latex.py:148-194): operator_names is printed but not passed on. *)
Definition dlga_eq2latex (operator_names : option (list string)) (lhs : string) (chrom : genome) (coefs : list Q) : string * list shown :=
  chromosome_to_latex dlga_names lhs chrom coefs.

(** ** Training data *)
(** np.random.shuffle with a given state applies the same rearrangement to arrays of the same
    length: [perm n] lists the old index of each new position (dlga.py:122-125). *)
Definition rearrange {A} (perm : nat -> list nat) (l : list A) : list A :=
  flat_map (fun i => match nth_error l i with Some x => [x] | None => [] end) (perm (List.length l)).
(** X[0:k], X[k:k+j] with k = int(n * train_ratio), j = int(n * valid_ratio) (dlga.py:128-137);
    the lengths are those of X, y is sliced with the same bounds *)
Definition slice {A} (a b : nat) (l : list A) : list A := firstn (b - a) (skipn a l).
Definition cut (n : nat) (r : Q) : nat := Z.to_nat (Qfloor (inject_Z (Z.of_nat n) * r)).
Record split (A B : Type) := mkSplit { x_train : list A; y_train : list B; x_valid : list A; y_valid : list B }.
Arguments mkSplit {A B}. Arguments x_train {A B}. Arguments y_train {A B}. Arguments x_valid {A B}. Arguments y_valid {A B}.
Definition split_data {A B} (perm : nat -> list nat) (rt rv : Q) (X : list A) (y : list B) : split A B :=
  let X' := rearrange perm X in let y' := rearrange perm y in
  let k := cut (List.length X') rt in let j := cut (List.length X') rv in
  mkSplit (slice 0 k X') (slice 0 k y') (slice k (k + j) X') (slice k (k + j) y').

(** fit_dataset (kd_dlga.py:311-324) as far as the data set is concerned: the values of usol
    in C order, and whether usol is C-contiguous, so that usol.reshape(-1, 1) is a view of it.
    [pick] are the indices drawn by dataset.sample (fancy indexing copies).  train_NN then
    shuffles y in place.  Result: the training targets and the values of usol afterwards. *)
Definition fit_dataset_usol {B} (perm : nat -> list nat) (contiguous : bool) (pick : option (list nat)) (usol : list B) : list B * list B :=
  match pick with
  | None => let y := rearrange perm usol in (y, if contiguous then y else usol)
  | Some idx => (rearrange perm (flat_map (fun i => match nth_error usol i with Some x => [x] | None => [] end) idx), usol)
  end.

(** ** Checkpoints *)
(** train_NN's loop (dlga.py:158-187).  [w i] are the weights after i steps, [verr] the
    validation error of weights.  The error recorded at step i+1 is measured before the
    step (line 163 before line 167); the weights saved are those after it.  [every] is 500.
    Files: iteration number -> weights, newest first; [old] is what the directory held. *)
Section Train.
Context {W : Type}.
Variables (verr : W -> num) (w : nat -> W) (every : nat).
Fixpoint train_loop (k i : nat) (errs : list num) (files : list (nat * W)) : list num * list (nat * W) :=
  match k with
  | 0 => (errs, files)
  | S k' =>
      let ve := verr (w i) in
      if Nat.eqb ((S i) mod every) 0 then train_loop k' (S i) (errs ++ [ve]) ((S i, w (S i)) :: files)
      else train_loop k' (S i) errs files
  end.
(** validate_error.index(min(validate_error)) *)
Definition first_min (l : list num) : res nat := do m <- pymin l ; index l m.
Definition train_NN (max_iter : nat) (old : list (nat * W)) : res (nat * list (nat * W)) :=
  let '(errs, files) := train_loop max_iter 0 [] old in
  match errs with
  | [] => Ok (max_iter, (max_iter, w max_iter) :: files)
  | _ => do i <- first_min errs ; Ok ((i + 1) * every, files)
  end.
(** torch.load(f"model_save/Net_{best_epoch}.pkl") (dlga.py:204) *)
Fixpoint load (files : list (nat * W)) (e : nat) : res W :=
  match files with [] => Err OtherError | (k, x) :: l => if Nat.eqb k e then Ok x else load l e end.
End Train.
