(** Model of kd/viz/api.py: the plot helpers build the adapter's options from the keyword arguments,
    call render and report the outcome in one printed line. *)
From Coq Require Import QArith List String Bool Arith ZArith.
From Verif Require Import Base VizData DlgaPlot.
Import ListNotations.
Local Open Scope string_scope.
Local Open Scope list_scope.

(** Values of keyword arguments, as far as the adapters tell them apart. *)
Inductive value := VNone | VArr (a : arr) | VNums (l : list Q) | VInt (z : Z) | VStr (s : string) | VBool (b : bool).
Definition is_none (v : value) : bool := match v with VNone => true | _ => false end.
(** Keyword arguments and option dictionaries; Python makes keys unique. *)
Definition kwargs := list (string * value).
Fixpoint lookup (k : string) (d : kwargs) : option value :=
  match d with [] => None | (k', v) :: r => if String.eqb k' k then Some v else lookup k r end.
(** d[k] = v *)
Fixpoint assign (k : string) (v : value) (d : kwargs) : kwargs :=
  match d with [] => [(k, v)] | (k', v') :: r => if String.eqb k' k then (k', v) :: r else (k', v') :: assign k v r end.

(** A named parameter of a helper: its name, its default (None: required), and whether the helper puts
    it into the payload even when it is None. *)
Record param := mkP { p_name : string; p_default : option value; p_always : bool }.
Definition optional (n : string) : param := mkP n (Some VNone) false.
Definition required (n : string) : param := mkP n None true.
(** The helpers (api.py:10-134): intent and named parameters in the order of the assignments to the payload. *)
Definition helpers : list (string * (string * list param)) :=
  [("plot_training_curve", ("training_curve", [])); ("plot_validation_curve", ("validation_curve", []));
   ("plot_search_evolution", ("search_evolution", [])); ("plot_optimization", ("optimization", []));
   ("render_equation", ("equation", []));
   ("plot_time_slices", ("time_slices", [optional "spatial_coords"; optional "x_coords"; required "t_coords"; required "true_field"; required "predicted_field"; optional "slice_times"]));
   ("plot_residuals", ("residual", [required "actual"; required "predicted"; optional "coordinates"]));
   ("plot_field_comparison", ("field_comparison", [optional "spatial_coords"; optional "x_coords"; required "t_coords"; required "true_field"; required "predicted_field"; optional "residual_field"]));
   ("plot_derivative_relationships", ("derivative_relationships", [mkP "top_n_terms" (Some (VInt 4)) true]));
   ("plot_parity", ("parity", [optional "title"]))].

(** The value bound to a parameter; None: TypeError for a missing required one *)
Definition bound (p : param) (kw : kwargs) : option value := match lookup (p_name p) kw with Some v => Some v | None => p_default p end.
(** **options: the keyword arguments that are neither named parameters nor show_info *)
Definition rest (ps : list param) (kw : kwargs) : kwargs :=
  filter (fun e => negb (existsb (fun p => String.eqb (p_name p) (fst e)) ps) && negb (String.eqb "show_info" (fst e)))%bool kw.
(** payload = dict(options); then the assignments *)
Fixpoint fill (ps : list param) (kw : kwargs) (d : kwargs) : option kwargs :=
  match ps with
  | [] => Some d
  | p :: r => match bound p kw with
              | None => None
              | Some v => fill r kw (if (p_always p || negb (is_none v))%bool then assign (p_name p) v d else d)
              end
  end.
(** The helper of a name *)
Definition helper_of (h : string) : option (string * list param) := option_map snd (find (fun e => String.eqb (fst e) h) helpers).
(** The request a helper makes (VizRequest, api.py:137): intent and options; None is TypeError *)
Definition request (h : string) (kw : kwargs) : option (string * kwargs) :=
  match helper_of h with
  | Some (kind, ps) => match fill ps kw (rest ps kw) with Some d => Some (kind, d) | None => None end
  | None => None
  end.

(** ** The printed line (api.py:134-151) *)
(** VizResult as far as it is reported *)
Record result := mkR { r_warnings : list string; r_paths : list string; r_figure : bool }.
(** truth value of show_info, True by default *)
Definition show_info (kw : kwargs) : bool :=
  match lookup "show_info" kw with
  | None => true
  | Some VNone => false
  | Some (VBool b) => b
  | Some (VInt z) => negb (Z.eqb z 0)
  | Some (VStr s) => negb (String.eqb s "")
  | Some (VNums l) => match l with [] => false | _ => true end
  | Some (VArr a) => negb (Nat.eqb (size a) 0)
  end.
Definition tag (kind : string) : string := ("[kd.viz." ++ kind ++ "] ")%string.
Definition info_line (kind : string) (r : result) : string :=
  match r_warnings r, r_paths r with
  | w :: ws, _ => (tag kind ++ "warning: " ++ String.concat "; " (w :: ws))%string
  | [], p :: ps => (tag kind ++ "saved: " ++ String.concat ", " (p :: ps))%string
  | [], [] => if r_figure r then (tag kind ++ "figure ready")%string else (tag kind ++ "produced no output")%string
  end.
(** lines printed by _dispatch *)
Definition printed (kind : string) (kw : kwargs) (r : result) : list string := if show_info kw then [info_line kind r] else [].

(** ** The DLGA adapter behind the helper *)
Definition arr_opt (o : option value) : option arr := match o with Some (VArr a) => Some a | Some (VNums l) => Some (vector l) | _ => None end.
Definition nums_opt (o : option value) : option (list Q) := match o with Some (VNums l) => Some l | Some (VArr a) => Some (ravel a) | _ => None end.
Definition int_opt (o : option value) : option Z := match o with Some (VInt z) => Some z | _ => None end.
(** DLGAVizAdapter._time_slices reads these options (_adapters/dlga.py:527-541) *)
Definition dlga_time_slices (d : kwargs) : vres (option (list panel)) :=
  time_slices (arr_opt (lookup "x_coords" d)) (arr_opt (lookup "t_coords" d)) (arr_opt (lookup "true_field" d)) (arr_opt (lookup "predicted_field" d))
    (nums_opt (lookup "slice_times" d)) (int_opt (lookup "num_slices" d)).
