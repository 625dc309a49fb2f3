(** Model of the visualization facade: kd/viz/core.py (render, configure,
    list_capabilities), kd/viz/_style.py, kd/viz/_helpers.py.

    matplotlib appears as [mpl]: which style assignments are accepted and what
    value is stored ([conv], matplotlib's validators), and which back ends can
    be activated ([usable], giving the stored name).  Style values are opaque
    strings.  Simplifications: an adapter may change rcParams arbitrarily and
    return or raise, but does not call [configure] (none of the shipped ones
    does); the "auto backend" sentinel of rcParams is not modelled; creation
    of directories by [save_path] is not modelled. *)
From Coq Require Import List String Ascii Bool Arith Lia.
Import ListNotations.
Local Open Scope string_scope.

Record mpl := { conv : string -> string -> option string; usable : string -> option string }.

(** A Python dict with string keys, in insertion order. *)
Definition dict := list (string * string).

(** Python [d[k] = v] (used at _style.py:44-45, 60-61 and by rcParams). *)
Fixpoint dset (k v : string) (d : dict) : dict :=
  match d with
  | [] => [(k, v)]
  | (k', v') :: r => if String.eqb k k' then (k', v) :: r else (k', v') :: dset k v r
  end.

(** Python [d.get(k)]. *)
Fixpoint dget (k : string) (d : dict) : option string :=
  match d with
  | [] => None
  | (k', v') :: r => if String.eqb k k' then Some v' else dget k r
  end.

(** Python [d.update(e)] on a plain dict (_style.py:45, :61). *)
Definition dupdate (d e : dict) : dict := fold_left (fun d p => dset (fst p) (snd p) d) e d.

(** matplotlib [rcParams.update(e)] (_style.py:62, :65): one validated
    assignment after the other, stopping at the first rejected one; the flag
    says whether all were accepted. *)
Fixpoint rcupdate (m : mpl) (rc e : dict) : dict * bool :=
  match e with
  | [] => (rc, true)
  | (k, v) :: r =>
      match conv m k v with
      | None => (rc, false)
      | Some v' => rcupdate m (dset k v' rc) r
      end
  end.

(** kd/viz/_style.py:12-20 [DEFAULT_STYLE] *)
Definition default_style : dict :=
  [("font.size", "12"); ("figure.titlesize", "14"); ("axes.labelsize", "12");
   ("xtick.labelsize", "10"); ("ytick.labelsize", "10"); ("savefig.dpi", "300");
   ("savefig.bbox", "tight")].

(** kd/viz/_style.py:23-27 [VizConfig] *)
Record config := { style : dict; save_dir : option string; cfg_backend : option string }.

(** kd/viz/_style.py:30 [_CONFIG] at import *)
Definition initial_config : config := {| style := default_style; save_dir := None; cfg_backend := None |}.

(** Process state: the global config and matplotlib's rcParams. *)
Record st := { cfg : config; rc : dict }.

(** kd/viz/_style.py:33-50 [configure] (and core.py:59-65, which forwards);
    the flag is false when [matplotlib.use] raised (lines 47-48). *)
Definition configure (m : mpl) (sty : option dict) (sd : option string) (b : option string)
           (s : st) : st * bool :=
  let style1 := match sty with
                | None => style (cfg s)
                | Some e => dupdate default_style e
                end in
  let sd1 := match sd with None => save_dir (cfg s) | Some d => Some d end in
  match b with
  | None => ({| cfg := {| style := style1; save_dir := sd1; cfg_backend := cfg_backend (cfg s) |}; rc := rc s |}, true)
  | Some b =>
      match usable m b with
      | None => ({| cfg := {| style := style1; save_dir := sd1; cfg_backend := cfg_backend (cfg s) |}; rc := rc s |}, false)
      | Some name =>
          ({| cfg := {| style := style1; save_dir := sd1; cfg_backend := Some b |};
              rc := dset "backend" name (rc s) |}, true)
      end
  end.

(** kd/viz/core.py:29-39 [VizResult]; the figure and paths are abstracted to
    whether there is any ([has_content], 37-39). *)
Record vizresult := { intent : string; has_content : bool; warnings : list string;
                      md_capabilities : option (list string) }.

Inductive outcome := Returned (r : vizresult) | Raises (e : string).

(** kd/viz/core.py:42-46 [VizContext] (options are those of the request). *)
Record context := { ctx_config : config; ctx_backend : string }.

(** An adapter object (registry.py:8-12): its class name, capabilities and
    [render], a function of the rcParams in force, the request's kind and the
    context. *)
Record adapter := {
  acls : string;
  capabilities : list string;
  arender : dict -> string -> context -> dict * outcome
}.

(** Python [sorted] on strings (core.py:98). *)
Fixpoint insert_sorted (x : string) (l : list string) : list string :=
  match l with
  | [] => [x]
  | y :: r => if String.leb x y then x :: l else y :: insert_sorted x r
  end.
(** Python [sorted] on strings (core.py:98). *)
Definition sorted (l : list string) : list string := fold_right insert_sorted [] l.

(** Python truthiness of an optional string ([or] at core.py:75). *)
Definition truthy (o : option string) : bool :=
  match o with Some "" => false | Some _ => true | None => false end.

(** kd/viz/_style.py:57-66 [style_context] around a body. *)
Definition style_context (m : mpl) (extra : option dict) (body : dict -> dict * outcome) (s : st)
  : st * outcome * bool :=
  let original := rc s in
  let combined := match extra with None => style (cfg s) | Some e => dupdate (style (cfg s)) e end in
  let '(rc1, ok) := rcupdate m (rc s) combined in
  let '(rc2, out) := if ok then body rc1 else (rc1, Raises "rcParams") in
  let '(rc3, ok3) := rcupdate m rc2 original in
  ({| cfg := cfg s; rc := rc3 |}, if ok3 then out else Raises "rcParams", ok).

(** kd/viz/core.py:68-102 [render].  [ad] is what [registry.get_adapter] gave
    for the target (modelled in VizReg.v), [tname] the target's class name.
    The third component records the state in which the adapter's [render] was
    entered, if it was. *)
Definition render (m : mpl) (ad : option adapter) (tname kind : string) (extra : option dict)
           (backend : string) (s : st) : st * outcome * option (st * context) :=
  let requested := if String.eqb backend "matplotlib" then None else Some backend in
  let need := truthy requested && negb (match requested, cfg_backend (cfg s) with
                                        | Some a, Some b => String.eqb a b | _, _ => false end) in
  let '(s1, ok) := if need then configure m None None requested s else (s, true) in
  if negb ok then (s1, Raises "matplotlib.use", None) else
  let active := if truthy requested then backend
                else if truthy (cfg_backend (cfg s1))
                     then match cfg_backend (cfg s1) with Some b => b | None => "" end
                     else "matplotlib" in
  let ctx := {| ctx_config := cfg s1; ctx_backend := active |} in
  match ad with
  | None => (s1, Returned {| intent := kind; has_content := false;
               warnings := ["No visualization adapter registered for " ++ tname ++ "."];
               md_capabilities := None |}, None)
  | Some a =>
      if negb (existsb (String.eqb kind) (capabilities a)) then
        (s1, Returned {| intent := kind; has_content := false;
             warnings := ["Adapter " ++ acls a ++ " does not support intent '" ++ kind ++ "'."];
             md_capabilities := Some (sorted (capabilities a)) |}, None)
      else
        let entered := fst (rcupdate m (rc s1)
              (match extra with None => style (cfg s1) | Some e => dupdate (style (cfg s1)) e end)) in
        let '(s2, out, called) := style_context m extra (fun r => arender a r kind ctx) s1 in
        (s2, out, if called then Some ({| cfg := cfg s1; rc := entered |}, ctx) else None)
  end.

(** kd/viz/core.py:105-109 [list_capabilities] *)
Definition list_capabilities (ad : option adapter) : list string :=
  match ad with None => [] | Some a => capabilities a end.

(** kd/viz/_helpers.py:9-15 [resolve_output_path] (core.py:48-49 [save_path]):
    [base / filename], pathlib style (an absolute file name replaces the
    base); [cwd] is the working directory. *)
Definition resolve_output_path (cwd : string) (filename : string) (sd : option string) : string :=
  let base := match sd with Some d => d | None => cwd end in
  match filename with
  | String c _ => if Ascii.eqb c "/"%char then filename else base ++ "/" ++ filename
  | EmptyString => base
  end.

(** One public call (configure / render). *)
Inductive vcall :=
| VConfigure (sty : option dict) (sd : option string) (b : option string)
| VRender (ad : option adapter) (tname kind : string) (extra : option dict) (backend : string).

(** Its effect on the process state (core.py:59-102). *)
Definition vstep (m : mpl) (s : st) (c : vcall) : st :=
  match c with
  | VConfigure a b c => fst (configure m a b c s)
  | VRender ad t k e b => fst (fst (render m ad t k e b s))
  end.
(** A history of such calls. *)
Definition vrun (m : mpl) (h : list vcall) (s : st) : st := fold_left (vstep m) h s.
