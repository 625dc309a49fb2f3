(** Model of the PySR estimator (kd/model/kd_pysr.py), of the rendering of an equation text
    (kd/viz/equation_renderer.py:12-66) and of the PySR plots (kd/viz/_adapters/pysr.py).

    The third-party PySRRegressor appears as what the wrapper can see of it.  Arrays are those of
    VizData.v.  A file system is the list of files written; the content of a picture is the text or data drawn. *)
From Coq Require Import QArith Ascii.
From Verif Require Import Base Info VizData VizCore.
Local Open Scope string_scope.

(** ** The back end as seen by the wrapper *)
(** A keyword argument value. *)
Inductive kwval := KInt (z : Z) | KOps (l : list string) | KOther (n : nat).
Definition kwargs := list (string * kwval).
(** getattr(model, name, None) followed by a call: no such callable, or the outcome of the call. *)
Inductive attr (A : Type) := NoAttr | Call (r : res A).
Arguments NoAttr {A}. Arguments Call {A}.
(** What get_best() returns: str(best["equation"]) and str(best). *)
Record bestrow := mkRow { row_eq : res string; row_str : res string }.
(** What latex() returns: a string or something else. *)
Inductive pyval := PStr (s : string) | PElse.
(** A back end object after some training attempt.  A SymPy expression is represented by what
    sympy.latex makes of it (kd_pysr.py:245-247). *)
Record view := mkView {
  v_best : attr bestrow; v_sympy : attr (option (res string)); v_str : res string;
  v_latex : attr pyval; v_predict : arr -> res arr }.

(** ** The estimator *)
Record est := mkP {
  p_niter : Z; p_bin : option (list string); p_un : option (list string); p_extra : kwargs;
  p_model : option view; p_best : option string; p_sympy : option (res string);
  p_X : option arr; p_y : option arr }.
(** kd_pysr.py:39-74 *)
Definition est_init (n : Z) (b u : option (list string)) (extra : option kwargs) : est :=
  mkP n b u (match extra with Some e => e | None => [] end) None None None None None.

(** d[k] = v and d.get(k) on a Python dict *)
Fixpoint kset (k : string) (v : kwval) (d : kwargs) : kwargs :=
  match d with
  | [] => [(k, v)]
  | (k', v') :: r => if String.eqb k k' then (k', v) :: r else (k', v') :: kset k v r
  end.
Fixpoint kget (k : string) (d : kwargs) : option kwval :=
  match d with [] => None | (k', v') :: r => if String.eqb k k' then Some v' else kget k r end.
(** d.update(e) *)
Definition kupdate (d e : kwargs) : kwargs := fold_left (fun d p => kset (fst p) (snd p) d) e d.

(** _build_backend, kd_pysr.py:110-116: the arguments of the constructor *)
Definition build_kwargs (s : est) : kwargs :=
  let k0 := [("niterations", KInt (p_niter s))] in
  let k1 := match p_bin s with Some l => kset "binary_operators" (KOps l) k0 | None => k0 end in
  let k2 := match p_un s with Some l => kset "unary_operators" (KOps l) k1 | None => k1 end in
  kupdate k2 (p_extra s).

(** _update_equation_info, kd_pysr.py:128-143: the text from get_best() *)
Definition best_text (v : view) : option string :=
  match v_best v with
  | NoAttr => None
  | Call (Err _) => None
  | Call (Ok row) =>
      match row_eq row with
      | Ok s => Some s
      | Err _ => match row_str row with Ok s => Some s | Err _ => None end
      end
  end.
(** kd_pysr.py:152-157: str(model) as a last resort *)
Definition equation_text (v : view) : option string :=
  match best_text v with
  | Some s => Some s
  | None => match v_str v with Ok s => Some s | Err _ => None end
  end.
(** kd_pysr.py:145-150 *)
Definition sympy_of (v : view) : option (res string) :=
  match v_sympy v with NoAttr => None | Call (Err _) => None | Call (Ok e) => e end.

(** A call of fit and what the outside world does during it: the conversions np.asarray, whether
    pysr can be imported, the constructor and the training. *)
Record fitcall := mkFit {
  f_conv : option exn; f_X : arr; f_y : arr; f_importable : bool;
  f_ctor : kwargs -> option exn; f_train : kwargs -> arr -> arr -> option exn * view }.

(** y.reshape(-1) *)
Definition flat (a : arr) : arr := vector (ravel a).

(** kd_pysr.py:176-185 *)
Definition validate (f : fitcall) : res unit :=
  match f_conv f with
  | Some e => Err e
  | None => match shape (f_X f) with
            | [n; _] => if Nat.eqb n (size (f_y f)) then Ok tt else Err ValueError
            | _ => Err ValueError
            end
  end.

(** fit, kd_pysr.py:166-193.  [imported]: the module global _PySRRegressor is already set
    (kd_pysr.py:88-106); the new value of that global is returned too. *)
Definition fit (f : fitcall) (imported : bool) (s : est) : res unit * bool * est :=
  match validate f with
  | Err e => (Err e, imported, s)
  | Ok _ =>
      let X := f_X f in let y := flat (f_y f) in
      let s1 := mkP (p_niter s) (p_bin s) (p_un s) (p_extra s) (p_model s) (p_best s) (p_sympy s) (Some X) (Some y) in
      if negb (imported || f_importable f) then (Err RuntimeError, imported, s1)
      else
        let k := build_kwargs s1 in
        match f_ctor f k with
        | Some e => (Err e, true, s1)
        | None =>
            match f_train f k X y with
            | (Some e, v) => (Err e, true, mkP (p_niter s) (p_bin s) (p_un s) (p_extra s) (Some v) (p_best s) (p_sympy s) (Some X) (Some y))
            | (None, v) => (Ok tt, true, mkP (p_niter s) (p_bin s) (p_un s) (p_extra s) (Some v) (equation_text v) (sympy_of v) (Some X) (Some y))
            end
        end
  end.

(** predict, kd_pysr.py:195-203; the argument after np.asarray *)
Definition predict (s : est) (X : arr) : res arr :=
  match p_model s with None => Err RuntimeError | Some v => v_predict v X end.

(** equation_latex, kd_pysr.py:205-258 *)
Definition equation_latex (s : est) (lhs : string) : res string :=
  match p_model s with
  | None => Err RuntimeError
  | Some v =>
      let own := match v_latex v with
                 | Call (Ok (PStr c)) => if String.eqb (strip c) "" then None else Some c
                 | _ => None
                 end in
      let l2 := match own with
                | Some c => Some c
                | None => match p_sympy s with
                          | Some (Ok rhs) => Some (lhs ++ " = " ++ rhs)
                          | _ => None
                          end
                end in
      match l2 with
      | Some c => Ok c
      | None => match p_best s with
                | Some b => if String.eqb b "" then v_str v else Ok b
                | None => v_str v
                end
      end
  end.

(** A history of calls of fit on one estimator. *)
Record world := mkW { w_imp : bool; w_est : est }.
Definition step (w : world) (f : fitcall) : world :=
  let '(_, i, s) := fit f (w_imp w) (w_est w) in mkW i s.
Definition result (w : world) (f : fitcall) : res unit := fst (fst (fit f (w_imp w) (w_est w))).
Definition run (w : world) (fs : list fitcall) : world := fold_left step fs w.

(** ** render_latex_to_image, equation_renderer.py:12-66 *)
(** str.startswith('$') / str.endswith('$') *)
Definition starts_dollar (s : string) : bool := match s with String c _ => Ascii.eqb c "$" | "" => false end.
Fixpoint ends_dollar (s : string) : bool :=
  match s with "" => false | String c "" => Ascii.eqb c "$" | String _ s' => ends_dollar s' end.
(** _ensure_math_mode, equation_renderer.py:12-18, on a string (its only caller applies str() first) *)
Definition ensure_math_mode (s : string) : string :=
  let t := strip s in
  if (starts_dollar t && ends_dollar t && Nat.leb 2 (String.length t))%bool then s else "$" ++ s ++ "$".
(** equation_renderer.py:36-38: figure width for a text of [n] characters *)
Definition figure_width (base : Q) (n : nat) : Q :=
  let grown := (base + inject_Z (Z.of_nat (n - 50)) / 15)%Q in
  let m := (if Qle_bool grown 40 then grown else 40)%Q in
  if Qle_bool base m then m else base.

(** What a picture shows: a text, the points of a parity plot, the values of a histogram. *)
Inductive picture := PicText (s : string) | PicPoints (l : list (Q * Q)) | PicHist (l : list Q).
(** A file system: path and content, newest first. *)
Definition files := list (string * picture).
(** The file at a path, if any. *)
Fixpoint file_at (p : string) (d : files) : option picture :=
  match d with [] => None | (p', c) :: r => if String.eqb p p' then Some c else file_at p r end.

(** render_latex_to_image, equation_renderer.py:21-66, called with a string, an output path and
    show=False.  [draw] is the outcome of drawing and saving by matplotlib; every exception is
    caught (56-58), so that the call always returns. *)
Definition render_latex_to_image (draw : string -> option exn) (latex path : string) (d : files) : files :=
  let t := ensure_math_mode latex in
  match draw t with None => (path, PicText t) :: d | Some _ => d end.

(** ** The plots, kd/viz/_adapters/pysr.py.  Directories can always be created. *)
(** pathlib's b / n: an absolute second part replaces the first. *)
Definition join (b n : string) : string :=
  match n with
  | String c _ => if Ascii.eqb c "/" then n else b ++ "/" ++ n
  | "" => b
  end.
(** _resolve_output, pysr.py:57-75, with the subdirectory "pysr" *)
Definition plot_path (cwd : string) (out_dir save_dir : option string) (file : string) : string :=
  match out_dir with
  | Some b => join (join b "pysr") file
  | None => resolve_output_path cwd ("pysr/" ++ file) save_dir
  end.

(** The request's options used by the plots, and the configured directory. *)
Record options := mkO { o_X : option arr; o_y : option arr; o_out : option string; o_save : option string; o_cwd : string }.

(** _get_training_data, pysr.py:77-90; X.shape[0] of a 0-d array raises IndexError *)
Definition training_data (s : est) (o : options) : res (option (arr * arr)) :=
  let '(X, y) := match o_X o, o_y o with
                 | Some X, Some y => (Some X, Some y)
                 | _, _ => (p_X s, p_y s)
                 end in
  match X, y with
  | Some X, Some y =>
      match shape X with
      | [] => Err IndexError
      | n :: _ => if Nat.eqb n (size y) then Ok (Some (X, flat y)) else Ok None
      end
  | _, _ => Ok None
  end.

(** A VizResult (core.py:29-39) as far as used here. *)
Record vresult := mkR { r_paths : list string; r_warned : bool; r_latex : option string; r_mean : option Q }.
Definition warning : vresult := mkR [] true None None.

(** _equation, pysr.py:95-119 *)
Definition plot_equation (draw : string -> option exn) (s : est) (o : options) (d : files) : res vresult * files :=
  match equation_latex s "y" with
  | Err _ => (Ok warning, d)
  | Ok latex =>
      let path := plot_path (o_cwd o) (o_out o) (o_save o) "equation.png" in
      (Ok (mkR [path] false (Some latex) None), render_latex_to_image draw latex path d)
  end.

(** _parity, pysr.py:121-160; [save] is the outcome of savefig.  .min() of an empty array raises
    ValueError, which is not caught. *)
Definition plot_parity (save : option exn) (s : est) (o : options) (d : files) : res vresult * files :=
  match training_data s o with
  | Err e => (Err e, d)
  | Ok None => (Ok warning, d)
  | Ok (Some (X, y)) =>
      match predict s X with
      | Err _ => (Ok warning, d)
      | Ok p =>
          match parity_from y (flat p) with
          | VOk (a, q, _) =>
              match a with
              | [] => (Err ValueError, d)
              | _ => let path := plot_path (o_cwd o) (o_out o) (o_save o) "parity.png" in
                     match save with
                     | Some e => (Err e, d)
                     | None => (Ok (mkR [path] false None None), (path, PicPoints (combine a q)) :: d)
                     end
              end
          | _ => (Ok warning, d)
          end
      end
  end.

(** np.mean of a list; NaN (None) when it is empty *)
Definition mean (l : list Q) : option Q :=
  match l with [] => None | _ => Some (fold_right Qplus 0%Q l / inject_Z (Z.of_nat (List.length l)))%Q end.

(** _residual, pysr.py:162-212 *)
Definition plot_residual (save : option exn) (s : est) (o : options) (d : files) : res vresult * files :=
  match training_data s o with
  | Err e => (Err e, d)
  | Ok None => (Ok warning, d)
  | Ok (Some (X, y)) =>
      match predict s X with
      | Err _ => (Ok warning, d)
      | Ok p =>
          match residual_from y (flat p) None with
          | VOk r =>
              let path := plot_path (o_cwd o) (o_out o) (o_save o) "residual.png" in
              match save with
              | Some e => (Err e, d)
              | None => (Ok (mkR [path] false None (mean (ravel (r_residuals r)))), (path, PicHist (ravel (r_residuals r))) :: d)
              end
          | _ => (Ok warning, d)
          end
      end
  end.
