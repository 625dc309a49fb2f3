(** Model of the tabular data sets (kd/dataset/__init__.py:103-153, _REGRESSION_REGISTRY and load_regression) and of
    the names the package exports (kd/dataset/__init__.py:3-13, 156-186).  A file is a table of rows of any values; np.load
    returns a new array for every call.  meta["var_names"] is the list object of the registry: [names] holds the two
    lists as they are now. *)
From Verif Require Import Base.
Local Open Scope string_scope.
Local Open Scope list_scope.

(** one entry of _REGRESSION_REGISTRY (103-122) *)
Record entry := mkEntry { e_file : string; e_x : list nat; e_y : nat; e_names : list string; e_target : string; e_description : string; e_source : string }.
Definition registry : list (string * entry) :=
  [("tlc_cc_t1", mkEntry "tlc_cc_Rf_t1.npy" [0; 1] 2 ["R_F"; "r"] "mean(V_S)" "TLC-CC: Rf vs start retention volume (mean)" "Nature Comm. 2025:16:832");
   ("tlc_cc_t2", mkEntry "tlc_cc_Rf_t2.npy" [0; 1] 2 ["R_F"; "r"] "mean(V_E)" "TLC-CC: Rf vs end retention volume (mean)" "Nature Comm. 2025:16:832")].
Fixpoint lookup {A} (k : string) (l : list (string * A)) : option A :=
  match l with [] => None | (n, x) :: l' => if String.eqb n k then Some x else lookup k l' end.
Record meta := mkMeta { var_names : list string; target_name : string; description : string; source : string }.
(** the registry's var_names lists, by entry *)
Definition names0 : list (string * list string) := map (fun p => (fst p, e_names (snd p))) registry.

Section Load.
Context {V : Type}.
(** np.load of a file of the package: None is FileNotFoundError *)
Variable file : string -> option (list (list V)).
(** data[:, k] and data[:, ks]: an index past the width is an IndexError, also without rows ([width] is data.shape[1]) *)
Definition column (width : nat) (d : list (list V)) (k : nat) : res (list V) :=
  if Nat.ltb k width then mapM (fun r => match nth_error r k with Some x => Ok x | None => Err OtherError end) d else Err IndexError.
Definition columns (width : nat) (d : list (list V)) (ks : list nat) : res (list (list V)) :=
  if forallb (fun k => Nat.ltb k width) ks then mapM (fun r => mapM (fun k => match nth_error r k with Some x => Ok x | None => Err OtherError end) ks) d else Err IndexError.
(** load_regression (125-153) in a process whose var_names lists are [names] *)
Definition load_regression (width : string -> nat) (names : list (string * list string)) (name : string) : res (list (list V) * list V * meta) :=
  match lookup name registry with
  | None => Err ValueError
  | Some e =>
      match file (e_file e) with
      | None => Err OtherError
      | Some d =>
          do X <- columns (width (e_file e)) d (e_x e) ; do y <- column (width (e_file e)) d (e_y e) ;
          Ok (X, y, mkMeta (match lookup name names with Some l => l | None => [] end) (e_target e) (e_description e) (e_source e))
      end
  end.
(** What a program does: load, write into arrays it was given (which are its own), edit the var_names of a meta it got
    for [name]. *)
Inductive action := Load (name : string) | EditArrays | EditNames (name : string) (f : list string -> list string).
Definition step (width : string -> nat) (names : list (string * list string)) (a : action) : list (string * list string) * option (res (list (list V) * list V * meta)) :=
  match a with
  | Load n => (names, Some (load_regression width names n))
  | EditArrays => (names, None)
  | EditNames n f => (map (fun p => (fst p, if String.eqb (fst p) n then f (snd p) else snd p)) names, None)
  end.
Fixpoint program (width : string -> nat) (names : list (string * list string)) (acts : list action) : list (string * list string) :=
  match acts with [] => names | a :: acts' => program width (fst (step width names a)) acts' end.
End Load.

(** the names bound in kd/dataset/__init__.py (3-13, 16, 31, 103, 125) and the submodules of the package *)
Definition bound : list string :=
  ["Optional"; "PDEDataset"; "load_burgers_equation"; "load_kdv_equation"; "load_pde_dataset"; "load_mat_file"; "PDE_REGISTRY"; "get_dataset_info"; "list_available_datasets";
   "get_dataset_sym_true"; "np"; "resources"; "_tag_dataset"; "load_pde"; "_REGRESSION_REGISTRY"; "load_regression"; "_base"; "_info"; "_registry"; "data"].
(** __all__ (156-186) *)
Definition exported : list string :=
  ["PDEDataset"; "load_pde"; "load_burgers_equation"; "load_mat_file"; "load_kdv_equation"; "load_pde_dataset"; "list_available_datasets"; "get_dataset_sym_true";
   "Burgers_equation_shock"; "KdV_equation"; "KdV_equation_sine"; "Chaffee_Infante_equation"; "KG_equation"; "Allen_Cahn_equation"; "Convection_diffusion_equation_solution";
   "Convection_diffusion_equation_simulation"; "Wave_equation"; "KS_equation"; "Beam_equation"; "Heat_equation"; "Heat_equation_sin"; "Diffusion_equation";
   "Parametric_convection_diffusion"; "Parametric_Burgers_equation"; "Parametric_wave_equation"; "Burgers_2D"; "load_regression"].
(** from kd.dataset import a, b, ... : ImportError (OtherError) at the first unknown name; from kd.dataset import * :
    AttributeError at the first unknown name of __all__ *)
Definition import_names (l : list string) : res (list string) := mapM (fun n => if existsb (String.eqb n) bound then Ok n else Err OtherError) l.
Definition import_star : res (list string) := mapM (fun n => if existsb (String.eqb n) bound then Ok n else Err AttributeError) exported.
