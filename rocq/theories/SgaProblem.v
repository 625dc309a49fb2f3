(** Model of the problem settings of an SGA run: the label and the solver settings KD_SGA.fit_dataset derives
    from a data set (kd/model/kd_sga.py:94-200), SGADataAdapter.to_solver_kwargs (kd/model/sga/adapter.py:20-66),
    SolverConfig.__post_init__, _load_problem_config and _normalize_problem_name
    (kd/model/sga/sgapde/config.py:109-265), KD_SGA.plot_results (kd_sga.py:201-225) and the figures of
    plot_figures (kd/model/sga/sgapde/visualizer.py:7-162).  Strings are ASCII. *)
From Coq Require Import Ascii QArith.
From Verif Require Import Base Info.
Local Open Scope string_scope.
Local Open Scope list_scope.

(** ** _normalize_problem_name (config.py:247-262) *)
Definition lower_char (c : ascii) : ascii := let n := nat_of_ascii c in if Nat.leb 65 n && Nat.leb n 90 then ascii_of_nat (n + 32) else c.
(** .replace('_', '-').replace(' ', '-'), one character *)
Definition dash_char (c : ascii) : ascii := if Ascii.eqb c "_" then "-"%char else if Ascii.eqb c " " then "-"%char else c.
Fixpoint smap (f : ascii -> ascii) (s : string) : string := match s with String c s' => String (f c) (smap f s') | EmptyString => "" end.
Definition slug (name : string) : string := smap dash_char (smap lower_char (strip name)).
(** alias_map (config.py:251-260) *)
Definition alias_map : list (string * string) := [
  ("burgers2", "burgers"); ("burgers-equation", "burgers"); ("chafee-infante", "chafee-infante"); ("chafeeinfante", "chafee-infante");
  ("kdv-equation", "kdv"); ("kdv_equation", "kdv"); ("kdv-equation-sine", "kdv") ].
Fixpoint sassoc {A} (d : list (string * A)) (k : string) : option A := match d with (k', v) :: d' => if String.eqb k' k then Some v else sassoc d' k | [] => None end.
Definition normalize (name : string) : string :=
  if String.eqb name "" then name else match sassoc alias_map (slug name) with Some v => v | None => slug name end.

(** ** The templates (config.py:185-232).  A right-hand side is a function of u, u_x, u_xx, u_xxx at one point;
    the left-hand sides are ut and ut_origin. *)
Definition rhs := Q -> Q -> Q -> Q -> Q.
(** [t_rhs] is evaluated on the prepared fields, [t_rhs_origin] on the loaded ones *)
Record template := mkTemplate { t_rhs : rhs; t_rhs_origin : rhs }.
Definition chafee_template : template := mkTemplate
  (fun u ux uxx uxxx => - (10008 # 10000) * u + (10004 # 10000) * (u * u * u))%Q
  (fun u ux uxx uxxx => uxx - u + u * u * u)%Q.
Definition burgers_template : template := mkTemplate
  (fun u ux uxx uxxx => - u * ux + (1 # 10) * uxx)%Q
  (fun u ux uxx uxxx => - (1) * u * ux + (1 # 10) * uxx)%Q.
Definition kdv_template : template := mkTemplate
  (fun u ux uxx uxxx => - (25 # 10000) * uxxx - u * ux)%Q
  (fun u ux uxx uxxx => - (25 # 10000) * uxxx - u * ux)%Q.

(** ** Solver settings *)
Section Run.
(** field data and coordinates *)
Context {A : Type}.
(** where u, x, t come from: the caller's arrays, the N-D dictionaries, or files (the names tried in order) *)
Inductive source := Inline (u x t : A) | Grid (fields coords : A) | FromFiles (candidates : list (list string)).
Record settings := mkSettings { s_label : string; s_data : source; s_template : option template; s_truth : bool; s_path : string }.

Fixpoint digits (fuel n : nat) (acc : string) : string :=
  match fuel with
  | 0 => acc
  | S f => let acc' := String (ascii_of_nat (48 + n mod 10)) acc in if Nat.ltb n 10 then acc' else digits f (n / 10) acc'
  end.
Definition str_of_nat (n : nat) : string := digits (S n) n "".
(** the default checkpoint name (config.py:114-119); max_epoch a non-negative int below 2^53, so that
    int(max_epoch/1000) is the quotient *)
Definition default_path (label : string) (max_epoch : nat) : string :=
  String.append label (String.append "_sine_sin_50_3fc2_" (String.append (str_of_nat (max_epoch / 1000)) "k_Adam.pkl")).

(** SolverConfig(problem_name=..., u_data=..., x_data=..., t_data=..., fields_data=..., coords_1d=..., model_path=...)
    (config.py:109-136, 164-245).  Drawing the seed is left out. *)
Record request := mkReq { r_label : string; r_u : option A; r_x : option A; r_t : option A; r_fields : option A; r_coords : option A; r_path : option string; r_epochs : nat }.
Definition inline_of (r : request) : option source := match r_u r, r_x r, r_t r with Some u, Some x, Some t => Some (Inline u x t) | _, _, _ => None end.
Definition benchmark (name : string) : option (template * list (list string)) :=
  if String.eqb name "chafee-infante" then Some (chafee_template, [["chafee_infante_CI.npy"]; ["chafee_infante_x.npy"]; ["chafee_infante_t.npy"]])
  else if String.eqb name "burgers" then Some (burgers_template, [["burgers.mat"; "burgers2.mat"]])
  else if String.eqb name "kdv" then Some (kdv_template, [["KdV.mat"; "Kdv.mat"; "KdV_equation.mat"]])
  else None.
Definition solver_config (r : request) : res settings :=
  let path := match r_path r with Some p => p | None => default_path (r_label r) (r_epochs r) end in
  match r_fields r, r_coords r with
  | None, None =>
      match benchmark (normalize (r_label r)) with
      | Some (tpl, files) => Ok (mkSettings (r_label r) (match inline_of r with Some d => d | None => FromFiles files end) (Some tpl) true path)
      | None => match inline_of r with Some d => Ok (mkSettings (r_label r) d None false path) | None => Err ValueError end
      end
  | Some f, Some c => Ok (mkSettings (r_label r) (Grid f c) None false path)
  | _, _ => Ok (mkSettings (r_label r) (FromFiles []) None false path) (* not reached from fit_dataset *)
  end.

(** A data set: the attributes the adapter reads.  In the legacy layout x, t and usol, in the N-D layout
    fields_data and coords_1d (one of them may be missing only if the object was tampered with).  [d_aliases]
    is the registry's dictionary (kd/dataset/__init__.py:16-29), empty for data sets built by hand. *)
Record dset := mkDset { d_name : string; d_x : A; d_t : A; d_u : A; d_shape : list nat; d_nx : nat; d_nt : nat; d_fields : option A; d_coords : option A; d_aliases : list (string * string) }.
(** a or b or ... on strings (None and "" are false) *)
Definition str_or (a : option string) (b : string) : string := match a with Some s => if String.eqb s "" then b else s | None => b end.
(** to_solver_kwargs (adapter.py:20-66): the keyword arguments for the data, and the problem name *)
Definition adapter (d : dset) : res (request * string) :=
  let name := str_or (Some (d_name d)) "custom_dataset" in
  match d_fields d, d_coords d with
  | Some f, Some c => Ok (mkReq "" None None None (Some f) (Some c) None 0, name)
  | None, None => if list_eq_dec Nat.eq_dec (d_shape d) [d_nx d; d_nt d] then Ok (mkReq "" (Some (d_u d)) (Some (d_x d)) (Some (d_t d)) None None None 0, name) else Err ValueError
  | _, _ => Err ValueError
  end.
(** problem_label (kd_sga.py:133-137) *)
Definition problem_label (override : option string) (aliases : list (string * string)) (inferred : string) : string :=
  str_or override (str_or (sassoc aliases "sga_problem") (str_or (sassoc aliases "legacy") (str_or (Some inferred) "custom_dataset"))).
(** the settings of fit_dataset (kd_sga.py:121-181), for an instance of PDEDataset and without explicit
    target_field / lhs_axis (those are C58) *)
Definition fit_settings (d : dset) (override : option string) (epochs : nat) : res settings :=
  do (r, inferred) <- adapter d ;
  solver_config (mkReq (problem_label override (d_aliases d) inferred) (r_u r) (r_x r) (r_t r) (r_fields r) (r_coords r) None epochs).

(** what load_pde attaches to the data set of a registry entry (kd/dataset/__init__.py:16-29, 41-101,
    _registry.py:42-204): the equation name is the entry's name, the aliases are the entry's *)
Definition registry_aliases (name : string) : list (string * string) :=
  if String.eqb name "burgers" then [("legacy", "Burgers2"); ("sga_problem", "burgers")]
  else if String.eqb name "burgers-reflib" then [("legacy", "BurgersReflib"); ("sga_problem", "burgers")]
  else if String.eqb name "kdv" then [("legacy", "Kdv"); ("sga_problem", "kdv")]
  else [].

(** plot_results (kd_sga.py:201-225): None before a fit; Ok false = the message that nothing is drawn *)
Definition plot_results (fitted : option settings) : res bool :=
  match fitted with
  | None => Err RuntimeError
  | Some s => Ok (existsb (String.eqb (normalize (s_label s))) ["chafee-infante"; "burgers"; "kdv"] && s_truth s)
  end.
End Run.
Arguments source : clear implicits. Arguments settings : clear implicits. Arguments request : clear implicits. Arguments dset : clear implicits.

(** ** The curves of plot_figures (visualizer.py:74-144) *)
(** np.linspace(0, stop, n) *)
Definition linspace0 (stop : Q) (n : nat) : list Q := map (fun i => if Nat.eqb n 1 then 0%Q else ((inject_Z (Z.of_nat i) / inject_Z (Z.of_nat (n - 1))) * stop)%Q) (seq 0 n).
(** a curve is a list of points; column [c] of a field given as function of row and column *)
Definition column (stop : Q) (rows c : nat) (f : nat -> nat -> Q) : list (Q * Q) := combine (linspace0 stop rows) (map (fun i => f i c) (seq 0 rows)).
(** the prepared fields (n x m) and the loaded ones *)
Record pic := mkPic { p_n : nat; p_m : nat; p_u : nat -> nat -> Q; p_ut : nat -> nat -> Q; p_ux : nat -> nat -> Q; p_uxx : nat -> nat -> Q; p_rhs : nat -> nat -> Q; p_n1 : nat; p_n2 : nat; p_m1 : nat; p_m2 : nat }.
(** file name, the curve of the prepared data (only with use_metadata), the curve of the raw data *)
Definition slice_figures (use_metadata : bool) (a o : pic) : list (string * option (list (Q * Q)) * list (Q * Q)) :=
  let full name sa so (f g : nat -> nat -> Q) := (name, (if use_metadata then Some (column sa (p_n a) (p_m a / 2) f) else None), column so (p_n o) (p_m o / 2) g) in
  [ full "ut_slice.png" 100%Q 256%Q (p_ut a) (p_ut o);
    full "ux_slice.png" 100%Q 256%Q (p_ux a) (p_ux o);
    full "uxx_slice.png" 100%Q 100%Q (p_uxx a) (p_uxx o);
    full "u_slice.png" 100%Q 100%Q (p_u a) (p_u o);
    ("rhs_slice.png", (if use_metadata then Some (column 100%Q (p_n2 a - p_n1 a) ((p_m2 a - p_m1 a) / 2) (fun i j => p_rhs a (p_n1 a + i) (p_m1 a + j))) else None),
       column 100%Q (p_n2 o - p_n1 o) ((p_m2 o - p_m1 o) / 2) (fun i j => p_rhs o (p_n1 o + i) (p_m1 o + j)));
    full "residual_slice.png" 100%Q 100%Q (fun i j => p_ut a i j - p_rhs a i j)%Q (fun i j => p_ut o i j - p_rhs o i j)%Q ].
(** all files in order (visualizer.py:57-162) below output_dir or ./artifacts/legacy_sga, in the directory of the label *)
Definition figure_files : list string := ["metadata_field.png"; "original_field.png"; "ut_slice.png"; "ux_slice.png"; "uxx_slice.png"; "u_slice.png"; "rhs_slice.png"; "residual_slice.png"; "metadata_residual_heatmap.png"; "original_residual_heatmap.png"].
