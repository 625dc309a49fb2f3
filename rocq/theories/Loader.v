(** Model of dataset loading: load_pde (kd/dataset/__init__.py:32-101), load_pde_dataset
    (kd/dataset/_base.py:701-771), the runner's upload loader (kd/runner.py:40-83), the dataset
    registry (kd/dataset/_registry.py:42-213) and the model list of the web page (app.py:50-56,
    89-102).  File contents are arguments; values are [num]; metadata (names, domain, epi) is not
    kept. *)
From Coq Require Import QArith.
From Verif Require Import Base Num Arrays Dataset.
Local Open Scope nat_scope.
Local Open Scope string_scope.
Local Open Scope list_scope.

(** PDEDataset(x=x, t=t, usol=u) *)
Definition pde_dataset (x t : list num) (u : array) : res dataset := construct (mkArgs None (Some x) (Some t) (Some u) None None None "u" "t" []).
(** if u.shape == (len(t), len(x)): u = u.T *)
Definition transposed (u : array) : array := transpose NaN u [1; 0].
Definition orient (nx nt : nat) (u : array) : array := if natlist_eqb (shape u) [nt; nx] then transposed u else u.
(** load_pde, three .npy files (__init__.py:46-62) *)
Definition load_files (x t u : array) : res dataset :=
  pde_dataset (flat x) (flat t) (orient (List.length (flat x)) (List.length (flat t)) u).
(** load_pde_dataset (_base.py:733-771): None on any failure *)
Definition read_mat (file : res (list (string * array))) (xk tk uk : string) : res dataset :=
  do raw <- file ;
  match sget raw xk, sget raw tk, sget raw uk with
  | Some x, Some t, Some u => load_files x t u
  | _, _, _ => Err KeyError
  end.
Definition load_pde_dataset (file : res (list (string * array))) (xk tk uk : string) : option dataset :=
  match read_mat file xk tk uk with Ok d => Some d | Err _ => None end.
(** a.reshape(shape) *)
Definition reshape (u : array) (s : list nat) : res array := if Nat.eqb (List.length (flat u)) (prod s) then Ok (mkArr s (flat u)) else Err ValueError.
(** load_pde, one .npy file (__init__.py:63-93); [lin] is np.linspace over the registered bounds *)
Definition load_npy (lx lt : nat -> list num) (target : option (list nat)) (u : array) : res dataset :=
  do v <- match target with
          | None => Ok u
          | Some s => if natlist_eqb (shape u) (rev s) then Ok (transpose NaN u (rev (seq 0 (List.length (shape u))))) else if natlist_eqb (shape u) s then Ok u else reshape u s
          end ;
  match shape v with
  | [nx; nt] => pde_dataset (lx nx) (lt nt) v
  | _ => Err ValueError
  end.
(** the runner on an uploaded .npy file (runner.py:63-75): always reshape *)
Definition run_npy (lx lt : nat -> list num) (s : option (list nat)) (u : array) : res dataset :=
  match s with
  | Some [nx; nt] => do v <- reshape u [nx; nt] ; pde_dataset (lx nx) (lt nt) v
  | _ => Err ValueError
  end.
(** ** The registry (_registry.py:42-204) *)
Inductive kind := Files | Npy (shape : list nat) | Mat (xk tk uk : string).
Record entry := mkEntry { e_name : string; e_kind : kind; e_models : list (string * bool); e_active : bool }.
Definition flags (sga discover spr dlga : bool) : list (string * bool) := [("sga", sga); ("discover", discover); ("discover_spr", spr); ("dlga", dlga)].
Definition registry : list entry := [
  mkEntry "chafee-infante" Files (flags true true false true) true;
  mkEntry "burgers" (Mat "x" "t" "usol") (flags true true true true) true;
  mkEntry "burgers-reflib" (Mat "x" "t" "usol") (flags true true true true) true;
  mkEntry "kdv" (Mat "x" "tt" "uu") (flags true true false true) true;
  mkEntry "PDE_divide" (Npy [100; 251]) (flags false true false false) true;
  mkEntry "PDE_compound" (Npy [100; 251]) (flags false true false false) true;
  mkEntry "fisher" (Mat "x" "t" "U") (flags false true false false) true;
  mkEntry "fisher_linear" (Mat "x" "t" "U") (flags false true false false) true;
  mkEntry "advection_diffusion" (Mat "x" "t" "u") (flags false false false false) false ].
Definition find_entry (name : string) : option entry := find (fun e => String.eqb (e_name e) name) registry.
(** the content of a registered file *)
Record disk := mkDisk { f_files : res (array * array * array); f_npy : res array; f_mat : res (list (string * array)); f_lx : nat -> list num; f_lt : nat -> list num }.
(** load_pde (__init__.py:32-101); ValueError for an unknown name (_registry.py:206-212) *)
Definition load_pde (dk : disk) (name : string) : res (option dataset) :=
  match find_entry name with
  | None => Err ValueError
  | Some e =>
      match e_kind e with
      | Files => do r <- f_files dk ; let '(x, t, u) := r in do d <- load_files x t u ; Ok (Some d)
      | Npy s => do u <- f_npy dk ; do d <- load_npy (f_lx dk) (f_lt dk) (Some s) u ; Ok (Some d)
      | Mat xk tk uk => Ok (load_pde_dataset (f_mat dk) xk tk uk)
      end
  end.
(** ** app.py *)
Definition model_keys : list (string * string) := [("KD_SGA", "sga"); ("KD_DLGA", "dlga"); ("KD_DSCV", "dscv"); ("KD_DSCV_SPR", "dscv_spr"); ("KD_EqGPT", "eqgpt")].
(** get_compatible_models (app.py:89-102) *)
Definition get_compatible_models (name : string) : list string :=
  if String.eqb name "" then []
  else
    let flags := match find_entry name with Some e => e_models e | None => [] end in
    let result := map fst (filter (fun dk => match sget flags (snd dk) with Some b => b | None => false end) model_keys) in
    if existsb (String.eqb "KD_EqGPT") result then result else result ++ ["KD_EqGPT"].
(** ACTIVE_DATASETS (app.py:58-61), unsorted *)
Definition active_datasets : list string := map e_name (filter e_active registry).

(** ** Specification *)
(** a file holds the values of u at (x_i, t_j): row i column j, or row j column i *)
Definition holds (u : array) (nx nt : nat) (v : nat -> nat -> num) : Prop :=
  wfa u /\ ((shape u = [nx; nt] /\ forall i j, i < nx -> j < nt -> get u [i; j] = Some (v i j)) \/ (shape u = [nt; nx] /\ forall i j, i < nx -> j < nt -> get u [j; i] = Some (v i j))).
(** the dataset has those coordinates and values *)
Definition carries (d : dataset) (x t : list num) (v : nat -> nat -> num) : Prop :=
  d_x d = Some x /\ d_t d = Some t /\ shape (d_usol d) = [List.length x; List.length t] /\ forall i j, i < List.length x -> j < List.length t -> field_at d i j = Some (v i j).
