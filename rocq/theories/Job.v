(** Model of the remote GPU jobs: kd/job.py (submission, polling, download), kd/runner.py (the
    program run by the job) and the job part of the web front end app.py (205-443).
    The platform, the file system and the models are inputs: every call that may raise is given
    by its result.  Strings shown to the user are constructors with their arguments; elapsed times,
    log output and figures are not modelled; the config JSON is read back as written. *)
From Verif Require Import Base.
Local Open Scope string_scope.
Local Open Scope list_scope.

(** ** job.py *)
(** JOB_STATUS_MAP.get(code, "Unknown(code)") (job.py:27-32, 143) *)
Inductive status := Known (text : string) | Unknown (code : Z).
Definition status_text (code : Z) : status :=
  match code with
  | 0 => Known "Pending" | 1 => Known "Running" | 2 => Known "Packaging" | 3 => Known "Submitted"
  | 4 => Known "Running" | 5 => Known "Running" | 6 => Known "Running" | 7 => Known "Running"
  | 8 => Known "Running" | 9 => Known "DownloadOutput" | 10 => Known "Finished"
  | 11 => Known "Finished" | 12 => Known "Failed" | 13 => Known "Error"
  | c => Unknown c
  end%Z.
(** job.py:141-147 *)
Record jstatus := mkJS { j_code : Z; j_text : status; j_finished : bool; j_failed : bool }.
Definition check_job (detail : res Z) : res jstatus :=
  do code <- detail ;
  Ok (mkJS code (status_text code) (existsb (Z.eqb code) [10; 11]%Z) (existsb (Z.eqb code) [12; 13]%Z)).

Section Params.
Variable P : Type. (* the model parameters, JSON *)
(** A key of a JSON object: absent, null or a string *)
Inductive field := Absent | Null | Str (s : string).
Definition fget (f : field) : option string := match f with Str s => Some s | _ => None end.
(** `if s` for a string or None *)
Definition truthy (o : option string) : bool := match o with Some s => negb (String.eqb s "") | None => false end.
(** the runner's config *)
Record config := mkCfg { c_model : field; c_outdir : field; c_params : P; c_name : field; c_file : field }.
(** what is sent to the platform *)
Record submission := mkSub { s_project : Z; s_config : config; s_inputs : list string; s_uploads : list (string * string) }.

(** The environment of submit_gpu_job: the imports, cookies and client (job.py:71-75), mkstemp,
    writing the config, os.path.exists, list_project, submit, and whether os.unlink succeeds *)
Record world := mkWorld {
  w_client : res unit; w_mkstemp : res string; w_write : res unit; w_exists : string -> bool;
  w_projects : res (list Z); w_submit : submission -> res Z; w_unlink : bool }.
(** submit_gpu_job (job.py:53-126): the temporary files left, what was submitted, the job id *)
Definition resolve_project (w : world) (project_id : option Z) (default : Z) : res Z :=
  match project_id with
  | Some p => if Z.eqb p 0 then (if Z.eqb default 0 then do l <- w_projects w ; match l with p :: _ => Ok p | [] => Err RuntimeError end else Ok default) else Ok p
  | None => if Z.eqb default 0 then do l <- w_projects w ; match l with p :: _ => Ok p | [] => Err RuntimeError end else Ok default
  end.
Definition submit_gpu_job (w : world) (model : string) (name : option string) (params : P) (project_id : option Z) (default : Z) (file : option string) (fs : list string)
  : list string * list submission * res Z :=
  match w_client w with
  | Err e => (fs, [], Err e)
  | Ok _ =>
      let cfg := mkCfg (Str model) (Str "output") params (match name with Some n => if truthy name then Str n else Absent | None => Absent end) Absent in
      match w_mkstemp w with
      | Err e => (fs, [], Err e)
      | Ok path =>
          let fs1 := path :: fs in
          let '(subs, r) :=
            match w_write w with
            | Err e => ([], Err e)
            | Ok _ =>
                let up := match file with Some f => if truthy file && w_exists w f then [("dataset_file", f)] else [] | None => [] end in
                match resolve_project w project_id default with
                | Err e => ([], Err e)
                | Ok pid =>
                    let sub := mkSub pid cfg (["config"; "output_dir"] ++ map fst up) (("config", path) :: up) in
                    match w_submit w sub with Ok j => ([sub], Ok j) | Err e => ([sub], Err e) end
                end
            end in
          ((if w_unlink w then remove string_dec path fs1 else fs1), subs, r)
      end
  end.

(** ** runner.py *)
(** load_dataset (runner.py:40-86): where the data comes from *)
Inductive source := FromFile (path : string) | FromName (name : string).
Definition load_source (exists_ : string -> bool) (c : config) : res source :=
  match fget (c_file c) with
  | Some f => if truthy (Some f) && exists_ f then Ok (FromFile f)
              else if truthy (fget (c_name c)) then match fget (c_name c) with Some n => Ok (FromName n) | None => Err ValueError end else Err ValueError
  | None => if truthy (fget (c_name c)) then match fget (c_name c) with Some n => Ok (FromName n) | None => Err ValueError end else Err ValueError
  end.
(** result.json (runner.py:141-162) *)
Record result := mkRes { r_model : string; r_dataset : field; r_equation : string; r_status : string; r_params : P; r_error : option string }.
Definition build_result (model : string) (info : field) (equation : string) (params : P) (error : option string) : result :=
  mkRes model info equation (if truthy error then "error" else "success") params (if truthy error then error else None).
(** config.get("dataset_name") or config.get("dataset_file", "unknown") (runner.py:221) *)
Definition dataset_info (c : config) : field :=
  if truthy (fget (c_name c)) then c_name c else match c_file c with Absent => Str "unknown" | f => f end.
(** RUNNERS (runner.py:129-132) *)
Definition runners : list string := ["dlga"; "dscv_spr"].
(** The models and the file system: [m_load] reads a dataset, [m_run] trains and returns the
    equation, [m_save k] says whether the k-th save_output succeeds, [m_exists] is os.path.exists.
    An exception has a traceback. *)
Variable D : Type.
Record machine := mkMachine { m_exists : string -> bool; m_load : source -> res D; m_run : string -> D -> P -> res string; m_save : nat -> res unit; m_detail : exn -> string }.
Definition traceback (m : machine) (e : exn) : string := ("Traceback (most recent call last):" ++ m_detail m e)%string.
(** main (runner.py:202-249): the result.json left in the output directory and the exit code.
    A failed write leaves no readable result.json; save_viz raises nothing (runner.py:165-197). *)
Definition main (m : machine) (c : config) : option result * Z :=
  match fget (c_model c) with
  | None => (None, 1%Z)
  | Some name =>
      if negb (truthy (Some name)) then (None, 1%Z)
      else if negb (existsb (String.eqb name) runners) then (None, 1%Z)
      else
        let first : res string := do s <- load_source (m_exists m) c ; do d <- m_load m s ; do eq <- m_run m name d (c_params c) ; do _ <- m_save m 0 ; Ok eq in
        match first with
        | Ok eq => (Some (build_result name (dataset_info c) eq (c_params c) None), 0%Z)
        | Err e =>
            match m_save m 1 with
            | Ok _ => (Some (build_result name (dataset_info c) "(error)" (c_params c) (Some (traceback m e))), 1%Z)
            | Err _ => (None, 1%Z)
            end
        end
  end.
(** download_result (job.py:150-174): [fetched] is the result.json the platform delivers *)
Definition download_result (download : res unit) (fetched : option result) : res (string * string) :=
  do _ <- download ;
  match fetched with Some r => Ok (r_status r, r_equation r) | None => Ok ("error", "(result.json not found)") end.

(** ** app.py *)
Variable M : Type. (* trained models *)
Inductive message := Welcome | SelectFirst | Equation (s : string) | TrainError (e : exn) | Submitted (id : Z) | SubmitError (e : exn) | NoActiveJob | StatusError (e : exn)
  | JobFailed (id : Z) (t : status) | StillRunning (id : Z) (t : status) | DownloadFailed (e : exn) | Cancelled.
(** the job line of the page *)
Inductive label := Hidden | JobLine (id : Z) (t : status) | ErrorLine (e : exn) | FinishedLine (id : Z).
Record session := mkSession { ss_text : message; ss_model : option M; ss_job : option Z; ss_label : label; ss_check : bool }.
Definition initial : session := mkSession Welcome None None Hidden false.
Definition no_gpu (t : message) (m : option M) : session := mkSession t m None Hidden false.
(** run_training (app.py:205-333): [selected] = dataset and model chosen, [remote] = a GPU model on
    the platform, [submit] = submit_gpu_job's result, [local] = the trained model and its equation *)
Definition run_training (selected remote : bool) (submit : res Z) (local : res (M * string)) : session :=
  if negb selected then no_gpu SelectFirst None
  else if remote then
    match submit with
    | Ok id => mkSession (Submitted id) None (Some id) (JobLine id (Known "Submitted")) true
    | Err e => no_gpu (SubmitError e) None
    end
  else match local with Ok (m, eq) => no_gpu (Equation eq) (Some m) | Err e => no_gpu (TrainError e) None end.
(** check_gpu_status (app.py:378-443) *)
Definition check_gpu_status (job : option Z) (detail : res Z) (download : res (string * string)) : session :=
  match job with
  | None => no_gpu NoActiveJob None
  | Some id =>
      if Z.eqb id 0 then no_gpu NoActiveJob None else
      match check_job detail with
      | Err e => mkSession (StatusError e) None (Some id) (ErrorLine e) true
      | Ok s =>
          if j_failed s then mkSession (JobFailed id (j_text s)) None None (JobLine id (j_text s)) false
          else if negb (j_finished s) then mkSession (StillRunning id (j_text s)) None (Some id) (JobLine id (j_text s)) true
          else match download with
               | Ok (_, eq) => mkSession (Equation eq) None None (FinishedLine id) false
               | Err e => no_gpu (DownloadFailed e) None
               end
      end
  end.
(** the three buttons (app.py:617-652), with everything they depend on *)
Inductive event := Train (selected remote : bool) (submit : res Z) (local : res (M * string)) | Cancel | Check (detail : res Z) (download : res (string * string)).
Definition step (s : session) (e : event) : session :=
  match e with
  | Train a b c d => run_training a b c d
  | Cancel => no_gpu Cancelled None
  | Check d r => check_gpu_status (ss_job s) d r
  end.
Definition play (es : list event) : session := fold_left step es initial.
End Params.
