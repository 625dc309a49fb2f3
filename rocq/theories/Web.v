(** Model of the training and plotting part of the web page app.py: _run_local (242-333), the
    parameters of a GPU job (336-366) and what kd/runner.py makes of them (81-121), the field
    groups (112-135), and run_viz (448-484).  Training, rendering and the file system are
    arguments; figures are opaque. *)
From Coq Require Import QArith.
From Verif Require Import Base Num.
From Verif Require Info Job Loader VizCore.
Local Open Scope string_scope.
Local Open Scope list_scope.

(** A number field of the page: empty, or a number. *)
Inductive pyval := VNone | VNum (q : num).
(** int(v): truncation towards zero; TypeError for None, ValueError for NaN, OverflowError (here
    OtherError) for an infinity *)
Definition trunc (q : Q) : Z := Z.quot (Qnum q) (Zpos (Qden q)).
Definition num_int (n : num) : res Z := match n with Fin q => Ok (trunc q) | NaN => Err ValueError | _ => Err OtherError end.
Definition to_int (v : pyval) : res Z := match v with VNone => Err TypeError | VNum n => num_int n end.
Definition to_float (v : pyval) : res num := match v with VNone => Err TypeError | VNum n => Ok n end.
(** if v *)
Definition zero_num (n : num) : bool := match n with Fin q => Qeq_bool q 0 | _ => false end.
Definition truthy (v : pyval) : bool := match v with VNone => false | VNum n => negb (zero_num n) end.

(** the input fields of the page (app.py:215-231) *)
Record page := mkPage {
  sga_run : pyval; sga_num : pyval; sga_depth : pyval; sga_seed : pyval;
  dlga_ops : string; dlga_epi : pyval; dlga_max_iter : pyval; dlga_sample : pyval;
  dscv_binary : string; dscv_unary : string; dscv_batch : pyval; dscv_epochs : pyval; dscv_seed : pyval;
  spr_ratio : pyval; spr_epochs : pyval;
  eqgpt_epochs : pyval; eqgpt_samples : pyval; eqgpt_cases : string }.

(** constructor and fit call of a model *)
Inductive call :=
| CallEqGPT (epochs samples : Z) (case_filter : string)
| CallSGA (run num depth seed : Z)
| CallDLGA (ops : list string) (epi : num) (input_dim max_iter : Z) (sample : option Z)
| CallDSCV (binary unary : list string) (batch seed epochs : Z)
| CallSPR (binary unary : list string) (batch seed epochs : Z) (ratio : num).

(** substring test `a in b` *)
Fixpoint sprefix (a b : string) : bool :=
  match a, b with EmptyString, _ => true | String c a', String d b' => Ascii.eqb c d && sprefix a' b' | _, _ => false end.
Fixpoint contains (a b : string) : bool := sprefix a b || match b with EmptyString => false | String _ b' => contains a b' end.

(** app.py:256-320: the call made for each model; None for an unknown name.  Errors of a
    constructor are counted with those of fitting. *)
Definition local_call (name : string) (p : page) : option (res call) :=
  if String.eqb name "KD_EqGPT" then
    Some (do e <- to_int (eqgpt_epochs p) ; do s <- to_int (eqgpt_samples p) ; Ok (CallEqGPT e s (if contains "N only" (eqgpt_cases p) then "N" else "all")))
  else if String.eqb name "KD_SGA" then
    Some (do r <- to_int (sga_run p) ; do n <- to_int (sga_num p) ; do d <- to_int (sga_depth p) ; do s <- to_int (sga_seed p) ; Ok (CallSGA r n d s))
  else if String.eqb name "KD_DLGA" then
    Some (do e <- to_float (dlga_epi p) ; do m <- to_int (dlga_max_iter p) ;
          do s <- (if truthy (dlga_sample p) then do k <- to_int (dlga_sample p) ; Ok (Some k) else Ok None) ;
          Ok (CallDLGA (Info.parse_ops (dlga_ops p)) e 2 m s))
  else if String.eqb name "KD_DSCV" then
    Some (do b <- to_int (dscv_batch p) ; do s <- to_int (dscv_seed p) ; do n <- to_int (dscv_epochs p) ;
          Ok (CallDSCV (Info.parse_ops (dscv_binary p)) (Info.parse_ops (dscv_unary p)) b s n))
  else if String.eqb name "KD_DSCV_SPR" then
    Some (do b <- to_int (dscv_batch p) ; do s <- to_int (dscv_seed p) ; do n <- to_int (spr_epochs p) ; do r <- to_float (spr_ratio p) ;
          Ok (CallSPR (Info.parse_ops (dscv_binary p)) (Info.parse_ops (dscv_unary p)) b s n r))
  else None.
(** the module each model is imported from (app.py:257, 269, 279, 291, 303) *)
Definition module_of (name : string) : string :=
  if String.eqb name "KD_EqGPT" then "kd.model.kd_eqgpt" else if String.eqb name "KD_SGA" then "kd.model.kd_sga"
  else if String.eqb name "KD_DLGA" then "kd.model.kd_dlga" else "kd.model.kd_dscv".
(** the modules of the package kd.model (directory kd/model and kd/model/__init__.py) *)
Definition shipped : list string := ["kd.model.dlga"; "kd.model.kd_discover"; "kd.model.kd_discover_regression"; "kd.model.kd_dlga"; "kd.model.kd_eqgpt"; "kd.model.kd_pysr"; "kd.model.kd_sga"].

Section Run.
Context {D M : Type}.
Record machine := mkMachine {
  m_module : string -> bool;                      (* can be imported *)
  m_load : string -> res D;                       (* load_pde *)
  m_fit : call -> option D -> res (M * string);   (* constructor, fit and _get_equation_text *)
  m_caps : M -> list string;                      (* list_capabilities *)
  m_spr : M -> bool }.                            (* isinstance(model, KD_DSCV_SPR) *)
(** ModuleNotFoundError is OtherError *)
Definition import (m : machine) (name : string) : res unit := if m_module m name then Ok tt else Err OtherError.
(** _get_model_capabilities (app.py:155-165); the equation figure never raises (168-193) *)
Definition capabilities (m : machine) (x : M) : res (list string) :=
  do _ <- import m "kd.model.kd_dscv" ;
  Ok (VizCore.sorted (if m_spr m x then m_caps m x else filter (fun c => negb (sprefix "spr_" c)) (m_caps m x))).
Inductive local := Trained (x : M) (equation : string) (plots : list string) | Failed (e : exn) | UnknownModel.
(** _run_local *)
Definition run_local (m : machine) (dataset name : string) (p : page) : local :=
  let finish (withdata : option D) :=
    match local_call name p with
    | None => UnknownModel
    | Some c =>
        match (do _ <- import m (module_of name) ; do k <- c ; do r <- m_fit m k withdata ;
               do caps <- (if String.eqb name "KD_EqGPT" then Ok [] else capabilities m (fst r)) ; Ok (r, caps)) with
        | Ok (x, eq, caps) => Trained x eq caps
        | Err e => Failed e
        end
    end in
  if String.eqb name "KD_EqGPT" then finish None
  else match m_load m dataset with Ok d => finish (Some d) | Err e => Failed e end.
End Run.
Arguments machine : clear implicits. Arguments local : clear implicits.

(** ** GPU jobs *)
(** JSON values of the parameters *)
Inductive jval := JNull | JStr (s : string) | JInt (z : Z) | JNum (n : num).
Definition params := list (string * jval).
Fixpoint pget (ps : params) (k : string) (d : jval) : jval := match ps with [] => d | (k', v) :: r => if String.eqb k k' then v else pget r k d end.
(** _submit_gpu_training (app.py:344-366): outside its try block *)
Definition gpu_params (name : string) (p : page) : res (string * params) :=
  if String.eqb name "KD_DLGA" then
    do e <- to_float (dlga_epi p) ; do m <- to_int (dlga_max_iter p) ;
    do s <- (if truthy (dlga_sample p) then do k <- to_int (dlga_sample p) ; Ok (JInt k) else Ok JNull) ;
    Ok ("dlga", [("operators", JStr (dlga_ops p)); ("epi", JNum e); ("max_iter", JInt m); ("sample", s)])
  else
    do b <- to_int (dscv_batch p) ; do s <- to_int (dscv_seed p) ; do n <- to_int (spr_epochs p) ; do r <- to_float (spr_ratio p) ;
    Ok ("dscv_spr", [("binary_operators", JStr (dscv_binary p)); ("unary_operators", JStr (dscv_unary p)); ("n_samples_per_batch", JInt b);
                     ("seed", JInt s); ("n_epochs", JInt n); ("sample_ratio", JNum r)]).
(** int, float and `if` of a JSON value; a string is not parsed here (ValueError) *)
Definition j_int (v : jval) : res Z := match v with JInt z => Ok z | JNum n => num_int n | JNull => Err TypeError | JStr _ => Err ValueError end.
Definition j_float (v : jval) : res num := match v with JInt z => Ok (Fin (inject_Z z)) | JNum n => Ok n | JNull => Err TypeError | JStr _ => Err ValueError end.
Definition j_true (v : jval) : bool := match v with JNull => false | JStr s => negb (String.eqb s "") | JInt z => negb (Z.eqb z 0) | JNum n => negb (zero_num n) end.
(** runner._parse_ops (runner.py:33-37) of a string; list(ops) of anything else is TypeError *)
Definition j_ops (v : jval) : res (list string) := match v with JStr s => Ok (Info.parse_ops s) | _ => Err TypeError end.
(** run_dlga, run_dscv_spr (runner.py:81-121): the call made *)
Definition runner_call (model : string) (ps : params) : res call :=
  if String.eqb model "dlga" then
    do o <- j_ops (pget ps "operators" (JStr "u,u_x,u_xx,u_xxx")) ; do e <- j_float (pget ps "epi" (JNum (Fin (1 # 10)))) ;
    do d <- j_int (pget ps "input_dim" (JInt 2)) ; do m <- j_int (pget ps "max_iter" (JInt 3000)) ;
    let s := pget ps "sample" JNull in
    do s' <- (if j_true s then do k <- j_int s ; Ok (Some k) else Ok None) ;
    Ok (CallDLGA o e d m s')
  else if String.eqb model "dscv_spr" then
    do b <- j_ops (pget ps "binary_operators" (JStr "add_t,mul_t,div_t,diff_t,diff2_t")) ; do u <- j_ops (pget ps "unary_operators" (JStr "n2_t")) ;
    do n <- j_int (pget ps "n_samples_per_batch" (JInt 200)) ; do s <- j_int (pget ps "seed" (JInt 0)) ;
    do e <- j_int (pget ps "n_epochs" (JInt 5)) ; do r <- j_float (pget ps "sample_ratio" (JNum (Fin (1 # 10)))) ;
    Ok (CallSPR b u n s e r)
  else Err KeyError.

(** run_training (app.py:205-239): the whole click.  [gpu]: on the platform with cookies;
    [submit] the platform's answer to a submission.  The result is an exception only when the
    parameters of a GPU job cannot be built. *)
Definition gpu_models : list string := ["KD_DLGA"; "KD_DSCV_SPR"].
Inductive shown {M : Type} := Session (s : Job.session M) | Text (s : string).
Arguments shown : clear implicits.
Definition train {D M} (m : machine D M) (gpu : bool) (submit : string -> string -> params -> res Z) (dataset name : string) (p : page) : res (shown M) :=
  if String.eqb dataset "" || String.eqb name "" then Ok (Session (Job.run_training M false false (Err OtherError) (Err OtherError)))
  else if existsb (String.eqb name) gpu_models && gpu then
    do q <- gpu_params name p ; Ok (Session (Job.run_training M true true (submit (fst q) dataset (snd q)) (Err OtherError)))
  else match run_local m dataset name p with
       | Trained x eq _ => Ok (Session (Job.run_training M true false (Err OtherError) (Ok (x, eq))))
       | Failed e => Ok (Session (Job.run_training M true false (Err OtherError) (Err e)))
       | UnknownModel => Ok (Text ("Unknown model: " ++ name)%string)
       end.

(** ** Field groups (app.py:112-135) *)
Inductive group := GSga | GDlga | GDscv | GSpr | GEqgpt.
Definition visible (name : string) (g : group) : bool :=
  match g with
  | GSga => String.eqb name "KD_SGA" | GDlga => String.eqb name "KD_DLGA"
  | GDscv => existsb (String.eqb name) ["KD_DSCV"; "KD_DSCV_SPR"] | GSpr => String.eqb name "KD_DSCV_SPR" | GEqgpt => String.eqb name "KD_EqGPT"
  end.
Definition preset_binary (name : string) : string := if String.eqb name "KD_DSCV_SPR" then "add_t, mul_t, div_t, diff_t, diff2_t" else "add, mul, diff".
Definition preset_unary (name : string) : string := if String.eqb name "KD_DSCV_SPR" then "n2_t" else "n2".
(** the model list, the two operator boxes, and the events that change them (app.py:105-109, 596-605) *)
Record boxes := mkBoxes { bx_choices : list string; bx_model : option string; bx_binary : string; bx_unary : string }.
Inductive ui := PickDataset (d : string) | PickModel (m : string) | TypeBinary (s : string) | TypeUnary (s : string).
(** on_dataset_change, on_model_change; a change of the dataset sets the model, which is a
    change of the model if it differs from the one before *)
Definition set_model (m : option string) (b : boxes) : boxes :=
  match m with
  | Some n => mkBoxes (bx_choices b) m (preset_binary n) (preset_unary n)
  | None => mkBoxes (bx_choices b) m "add, mul, diff" "n2"
  end.
Definition same_model (a b : option string) : bool := match a, b with Some x, Some y => String.eqb x y | None, None => true | _, _ => false end.
Definition ui_step (b : boxes) (e : ui) : boxes :=
  match e with
  | PickDataset d =>
      let ms := Loader.get_compatible_models d in
      let b' := mkBoxes ms (bx_model b) (bx_binary b) (bx_unary b) in
      if same_model (hd_error ms) (bx_model b) then b' else set_model (hd_error ms) b'
  | PickModel m => if same_model (Some m) (bx_model b) then b else set_model (Some m) b
  | TypeBinary s => mkBoxes (bx_choices b) (bx_model b) s (bx_unary b)
  | TypeUnary s => mkBoxes (bx_choices b) (bx_model b) (bx_binary b) s
  end.
(** the page before it is loaded (app.py:502-552) *)
Definition ui_start : boxes := mkBoxes [] None "add, mul, diff" "n2".
Definition ui_run (es : list ui) : boxes := fold_left ui_step es ui_start.

(** ** run_viz (app.py:448-484) *)
Section Viz.
Context {F : Type}.
(** what render gives: a figure, saved files and warnings *)
Record vres := mkVres { v_figure : option F; v_paths : list string; v_warnings : list string }.
Inductive vmsg := TrainFirst | Warned (ws : list string) | Generated | NoOutput | VizError (e : exn).
(** the viz configuration and the existing directories *)
Record vstate := mkVS { vs_cfg : VizCore.st; vs_dirs : list string }.
Definition set_dir (m : VizCore.mpl) (d : option string) (s : vstate) : vstate := mkVS (fst (VizCore.configure m None d None (vs_cfg s))) (vs_dirs s).
(** [tmp]: the fresh temporary directory; [render] may use and change the directories; [imread] reads an image *)
Definition run_viz (m : VizCore.mpl) (tmp : string) (trained : bool) (render : vstate -> list string * res vres) (imread : string -> res F) (s : vstate)
  : vstate * option F * vmsg :=
  if negb trained then (s, None, TrainFirst) else
  let s1 := set_dir m (Some tmp) (mkVS (vs_cfg s) (tmp :: vs_dirs s)) in
  let '(dirs, r) := render s1 in
  let out :=
    match r with
    | Err e => (None, VizError e)
    | Ok v =>
        match v_warnings v, v_figure v, v_paths v with
        | (_ :: _) as ws, _, _ => (None, Warned ws)
        | [], Some f, _ => (Some f, Generated)
        | [], None, q :: _ => match imread q with Ok f => (Some f, Generated) | Err e => (None, VizError e) end
        | [], None, [] => (None, NoOutput)
        end
    end in
  let s2 := set_dir m None (mkVS (vs_cfg s1) dirs) in
  (mkVS (vs_cfg s2) (filter (fun d => negb (String.eqb d tmp)) (vs_dirs s2)), fst out, snd out).
End Viz.
Arguments vres : clear implicits.
