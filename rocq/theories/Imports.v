(** Model of Python's import machinery executing the package's own import
    graph: kd/__init__.py, kd/model/__init__.py, kd/viz/__init__.py,
    kd/viz/adapters.py and the modules they pull in.

    A module body is the list of its import-relevant statements, in source
    order.  Semantics (CPython import system): an imported module is put into
    sys.modules before its body runs and is removed if the body raises; a
    successfully imported submodule becomes an attribute of its package;
    [from m import n] looks for an attribute (also through a module-level
    [__getattr__]), then for a submodule.  Third-party packages are grouped
    ([ext]); whether each group is installed is a parameter.  Simplifications:
    names that play no role are left out; library packages and the internal
    modules of kd.dataset, kd.model.discover and kd.model.sga are summarised
    by what they define and which third-party group they need (none of them
    imports kd.viz or kd.model.*dlga). *)
From Coq Require Import List Bool Arith Lia.
Import ListNotations.

(** Modules of the package. *)
Inductive md :=
| Kd | KdBase | KdData | KdDataset | KdUtils | KdUtilsGA
| KdModel | Dlga | KdDlga | KdDiscover | KdDiscoverReg | KdSga | KdPysr | KdEqgpt
| Discover | DiscoverProgram | SgaPde
| Viz | VizCoreM | VizRegistry | VizContracts | VizHelpers | VizStyle | VizApi | VizAdapters
| Ads | AdsDlga | AdsDiscover | AdsSga | AdsPysr
| DlgaViz | DiscoverViz | EqRenderer | DlgaEq2latex | DiscoverEq2latex.

(** Names: what modules define, and the short names of submodules. *)
Inductive nm :=
| n_base | n_data | n_dataset | n_utils | n_utils_GA
| n_model | n_dlga | n_kd_dlga | n_kd_discover | n_kd_discover_regression | n_kd_sga | n_kd_pysr | n_kd_eqgpt
| n_discover | n_program | n_sgapde
| n_viz | n_core | n_registry | n_contracts | n_helpers | n_style | n_api | n_adapters
| n__adapters | n_pysr | n_sga
| n_dlga_viz | n_discover_viz | n_equation_renderer | n_dlga_eq2latex | n_discover_eq2latex
| BaseEstimator | load_burgers_equation | load_mat_file | RegularData
| c_DLGA | c_KD_DLGA | c_KD_Discover | c_KD_Discover_SPR | c_KD_Discover_Regression | c_KD_SGA | c_KD_PySR | c_KD_EqGPT
| Program | evaluate_mse | VizResult | render | register_adapter | contracts | resolve_output_path | configure | plot_api
| register_default_adapters | DLGAVizAdapter | DiscoverVizAdapter | SGAVizAdapter | PySRVizAdapter
| render_latex_to_image | dlga_eq2latex | _format_full_latex_term | discover_program_to_latex.

Definition md_eq_dec : forall a b : md, {a = b} + {a <> b}. Proof. decide equality. Defined.
Definition nm_eq_dec : forall a b : nm, {a = b} + {a <> b}. Proof. decide equality. Defined.
Definition md_eqb a b := if md_eq_dec a b then true else false.
Definition nm_eqb a b := if nm_eq_dec a b then true else false.

(** Third-party groups: [EProgram] = torch, sympy, seaborn, Pillow, ... needed
    by kd/viz/discover_viz.py:1-11; [EDiscover] = commentjson, pathos, ...
    needed by kd/model/kd_discover.py:8-33; [ESga] = scikit-learn, ... needed
    by kd/model/kd_sga.py:5-11. *)
Inductive ext := EProgram | EDiscover | ESga.

Inductive stmt :=
| SImport (m : md)                       (** import m   (or: from m import * ) *)
| SFrom (m : md) (n : nm)                (** from m import n *)
| SDef (n : nm)                          (** def / class at module level *)
| SExt (e : ext)                         (** import of third-party packages *)
| STry (body orelse : list stmt)         (** try: body  except Exception: pass  else: orelse *)
| SRegister (c : nm)                     (** register_adapter(c, ...) *)
| SLazy.                                 (** register_lazy_adapter("KD_PySR", ...) *)

(** Package of a module and its short name there (directory layout of kd/). *)
Definition parent (m : md) : option (md * nm) :=
  match m with
  | Kd => None
  | KdBase => Some (Kd, n_base) | KdData => Some (Kd, n_data) | KdDataset => Some (Kd, n_dataset)
  | KdUtils => Some (Kd, n_utils) | KdUtilsGA => Some (KdUtils, n_utils_GA)
  | KdModel => Some (Kd, n_model) | Dlga => Some (KdModel, n_dlga) | KdDlga => Some (KdModel, n_kd_dlga)
  | KdDiscover => Some (KdModel, n_kd_discover) | KdDiscoverReg => Some (KdModel, n_kd_discover_regression)
  | KdSga => Some (KdModel, n_kd_sga) | KdPysr => Some (KdModel, n_kd_pysr) | KdEqgpt => Some (KdModel, n_kd_eqgpt)
  | Discover => Some (KdModel, n_discover) | DiscoverProgram => Some (Discover, n_program)
  | SgaPde => Some (KdModel, n_sgapde)
  | Viz => Some (Kd, n_viz) | VizCoreM => Some (Viz, n_core) | VizRegistry => Some (Viz, n_registry)
  | VizContracts => Some (Viz, n_contracts) | VizHelpers => Some (Viz, n_helpers) | VizStyle => Some (Viz, n_style)
  | VizApi => Some (Viz, n_api) | VizAdapters => Some (Viz, n_adapters)
  | Ads => Some (Viz, n__adapters) | AdsDlga => Some (Ads, n_dlga) | AdsDiscover => Some (Ads, n_discover)
  | AdsSga => Some (Ads, n_sga) | AdsPysr => Some (Ads, n_pysr)
  | DlgaViz => Some (Viz, n_dlga_viz) | DiscoverViz => Some (Viz, n_discover_viz)
  | EqRenderer => Some (Viz, n_equation_renderer) | DlgaEq2latex => Some (Viz, n_dlga_eq2latex)
  | DiscoverEq2latex => Some (Viz, n_discover_eq2latex)
  end.

Definition all_md : list md :=
  [Kd; KdBase; KdData; KdDataset; KdUtils; KdUtilsGA; KdModel; Dlga; KdDlga; KdDiscover; KdDiscoverReg; KdSga; KdPysr; KdEqgpt;
   Discover; DiscoverProgram; SgaPde; Viz; VizCoreM; VizRegistry; VizContracts; VizHelpers; VizStyle; VizApi; VizAdapters;
   Ads; AdsDlga; AdsDiscover; AdsSga; AdsPysr; DlgaViz; DiscoverViz; EqRenderer; DlgaEq2latex; DiscoverEq2latex].

(** The submodule [m.n], if there is one (directory layout of kd/). *)
Definition submodule (m : md) (n : nm) : option md :=
  find (fun x => match parent x with Some (p, k) => md_eqb p m && nm_eqb k n | None => false end) all_md.

(** kd/viz/adapters.py:16-41 [register_default_adapters] *)
Definition register_default : list stmt :=
  [STry [SFrom KdDlga c_KD_DLGA] [SRegister c_KD_DLGA];
   STry [SFrom KdDiscover c_KD_Discover] [SRegister c_KD_Discover];
   STry [SFrom KdSga c_KD_SGA] [SRegister c_KD_SGA];
   SFrom VizRegistry register_adapter; SLazy].

(** Module bodies. *)
Definition code (m : md) : list stmt :=
  match m with
  | Kd => [SFrom KdDataset load_burgers_equation; SFrom KdDataset load_mat_file]   (* kd/__init__.py:11 *)
  | KdBase => [SDef BaseEstimator]                                                 (* kd/base.py:13 *)
  | KdData => [SImport KdUtils; SDef RegularData]                                  (* kd/data.py:16-89 *)
  | KdDataset => [SDef load_burgers_equation; SDef load_mat_file]                  (* kd/dataset/__init__.py:3-7 *)
  | KdUtils => []                                                                  (* kd/utils/__init__.py *)
  | KdUtilsGA => []                                                                (* kd/utils/utils_GA.py *)
  | KdModel => []                                                                  (* kd/model/__init__.py *)
  | Dlga => [SFrom KdBase BaseEstimator; SImport KdUtilsGA; SFrom Viz n_equation_renderer; SDef c_DLGA] (* kd/model/dlga.py:12-38 *)
  | KdDlga => [SFrom Dlga c_DLGA; SDef c_KD_DLGA]                                  (* kd/model/kd_dlga.py:9-11 *)
  | KdDiscover => [SFrom KdBase BaseEstimator; SExt EDiscover; SFrom DiscoverProgram Program; SFrom KdData RegularData;
                   SDef c_KD_Discover; SDef c_KD_Discover_SPR]                     (* kd/model/kd_discover.py:8-54, 469 *)
  | KdDiscoverReg => [SFrom KdDiscover c_KD_Discover; SDef c_KD_Discover_Regression] (* kd/model/kd_discover_regression.py:8 *)
  | KdSga => [SFrom KdBase BaseEstimator; SExt ESga; SFrom SgaPde evaluate_mse; SDef c_KD_SGA] (* kd/model/kd_sga.py:5-14 *)
  | KdPysr => [SFrom KdBase BaseEstimator; SDef c_KD_PySR]                         (* kd/model/kd_pysr.py:18-27 *)
  | KdEqgpt => [SDef c_KD_EqGPT]                                                   (* kd/model/kd_eqgpt.py *)
  | Discover => []                                                                 (* kd/model/discover/__init__.py *)
  | DiscoverProgram => [SExt EProgram; SDef Program]                               (* kd/model/discover/program.py:3-18 *)
  | SgaPde => [SExt ESga; SDef evaluate_mse]                                       (* kd/model/sga/sgapde/pde.py *)
  | Viz => [SFrom Viz n_core; SFrom VizCoreM VizResult; SFrom VizCoreM configure; SFrom VizCoreM render;
            SFrom VizRegistry register_adapter; SFrom VizApi plot_api;
            STry [SFrom VizAdapters DLGAVizAdapter; SFrom VizAdapters DiscoverVizAdapter; SFrom VizAdapters register_default_adapters]
                 register_default;
            SFrom Viz n_dlga_viz; SFrom Viz n_discover_viz; SFrom Viz n_equation_renderer;
            SFrom Viz n_dlga_eq2latex; SFrom Viz n_discover_eq2latex]               (* kd/viz/__init__.py:5-57 *)
  | VizCoreM => [SFrom Viz n_registry; SFrom VizContracts contracts; SFrom VizHelpers resolve_output_path; SFrom VizStyle configure;
                 SDef VizResult; SDef render]                                      (* kd/viz/core.py:9-68 *)
  | VizRegistry => [SDef register_adapter]                                         (* kd/viz/registry.py *)
  | VizContracts => [SDef contracts]                                               (* kd/viz/_contracts.py *)
  | VizHelpers => [SDef resolve_output_path]                                       (* kd/viz/_helpers.py *)
  | VizStyle => [SDef configure]                                                   (* kd/viz/_style.py *)
  | VizApi => [SFrom VizCoreM VizResult; SFrom VizCoreM render; SDef plot_api]     (* kd/viz/api.py:7 *)
  | VizAdapters => [SFrom Ads DLGAVizAdapter; SFrom Ads DiscoverVizAdapter; SFrom Ads PySRVizAdapter; SFrom Ads SGAVizAdapter;
                    SFrom VizRegistry register_adapter; SDef register_default_adapters] (* kd/viz/adapters.py:5-16 *)
  | Ads => [SFrom AdsDlga DLGAVizAdapter; SFrom AdsDiscover DiscoverVizAdapter; SFrom AdsSga SGAVizAdapter; SFrom AdsPysr PySRVizAdapter] (* kd/viz/_adapters/__init__.py:3-6 *)
  | AdsDlga => [SFrom Viz n_dlga_viz; SFrom VizContracts contracts; SFrom VizCoreM VizResult; SFrom DlgaEq2latex dlga_eq2latex;
                SFrom EqRenderer render_latex_to_image; SDef DLGAVizAdapter]       (* kd/viz/_adapters/dlga.py:10-26 *)
  | AdsDiscover => [SFrom Viz n_discover_viz; SFrom VizContracts contracts; SFrom VizCoreM VizResult;
                    SFrom DiscoverEq2latex discover_program_to_latex; SFrom EqRenderer render_latex_to_image; SDef DiscoverVizAdapter] (* kd/viz/_adapters/discover.py:9-22 *)
  | AdsSga => [SFrom EqRenderer render_latex_to_image; SFrom VizCoreM VizResult; SFrom VizContracts contracts;
               STry [SFrom SgaPde evaluate_mse] []; SDef SGAVizAdapter]            (* kd/viz/_adapters/sga.py:12-22 *)
  | AdsPysr => [SFrom VizContracts contracts; SFrom VizCoreM VizResult; SFrom EqRenderer render_latex_to_image; SDef PySRVizAdapter] (* kd/viz/_adapters/pysr.py:11-16 *)
  | DlgaViz => []                                                                  (* kd/viz/dlga_viz.py *)
  | DiscoverViz => [SExt EProgram; SFrom DiscoverProgram Program]                  (* kd/viz/discover_viz.py:1-11 *)
  | EqRenderer => [SFrom DlgaEq2latex dlga_eq2latex; SFrom DiscoverEq2latex discover_program_to_latex; SDef render_latex_to_image] (* kd/viz/equation_renderer.py:7-22 *)
  | DlgaEq2latex => [SDef dlga_eq2latex; SDef _format_full_latex_term]             (* kd/viz/dlga_eq2latex.py *)
  | DiscoverEq2latex => [SExt EProgram; SFrom DlgaEq2latex _format_full_latex_term; SDef discover_program_to_latex] (* kd/viz/discover_eq2latex.py:4-10 *)
  end.

(** Module-level [__getattr__]: kd/__init__.py:32-40 and
    kd/model/__init__.py:15-40.  [None] = AttributeError. *)
Definition module_getattr (m : md) (n : nm) : option (list stmt) :=
  match m, n with
  | Kd, n_viz => Some [SFrom Kd n_viz]                   (* from . import viz as _viz *)
  | Kd, (c_DLGA | c_KD_DLGA | c_KD_Discover | c_KD_Discover_SPR | c_KD_Discover_Regression) =>
      Some [SFrom Kd n_model; SFrom KdModel n]           (* from . import model; getattr(_model, name) *)
  | KdModel, c_DLGA => Some [SFrom Dlga c_DLGA]
  | KdModel, c_KD_DLGA => Some [SFrom KdDlga c_KD_DLGA]
  | KdModel, c_KD_Discover => Some [SFrom KdDiscover c_KD_Discover]
  | KdModel, c_KD_Discover_SPR => Some [SFrom KdDiscover c_KD_Discover_SPR]
  | KdModel, c_KD_Discover_Regression => Some [SFrom KdDiscoverReg c_KD_Discover_Regression]
  | KdModel, c_KD_SGA => Some [SFrom KdSga c_KD_SGA]
  | KdModel, c_KD_PySR => Some [SFrom KdPysr c_KD_PySR]
  | KdModel, c_KD_EqGPT => Some [SFrom KdEqgpt c_KD_EqGPT]
  | _, _ => None
  end.

(** Process state: sys.modules (present modules with their attributes, kept
    in the fixed order of [all_md] so that equal contents are equal states),
    the classes with a registered adapter, and whether the lazy PySR entry
    was registered. *)
Record proc := { mods : list (option (list nm)); registered : list nm; lazy_pysr : bool }.

(** A fresh interpreter. *)
Definition fresh : proc := {| mods := map (fun _ => None) all_md; registered := []; lazy_pysr := false |}.

(** Position of a module in [all_md] / name order: bookkeeping for canonical states. *)
Definition midx (m : md) : nat :=
  match m with
  | Kd => 0 | KdBase => 1 | KdData => 2 | KdDataset => 3 | KdUtils => 4 | KdUtilsGA => 5
  | KdModel => 6 | Dlga => 7 | KdDlga => 8 | KdDiscover => 9 | KdDiscoverReg => 10 | KdSga => 11 | KdPysr => 12 | KdEqgpt => 13
  | Discover => 14 | DiscoverProgram => 15 | SgaPde => 16
  | Viz => 17 | VizCoreM => 18 | VizRegistry => 19 | VizContracts => 20 | VizHelpers => 21 | VizStyle => 22 | VizApi => 23 | VizAdapters => 24
  | Ads => 25 | AdsDlga => 26 | AdsDiscover => 27 | AdsSga => 28 | AdsPysr => 29
  | DlgaViz => 30 | DiscoverViz => 31 | EqRenderer => 32 | DlgaEq2latex => 33 | DiscoverEq2latex => 34
  end.

Fixpoint update {A} (i : nat) (x : A) (l : list A) : list A :=
  match l, i with
  | [], _ => []
  | _ :: r, 0 => x :: r
  | y :: r, S i => y :: update i x r
  end.

(** sys.modules operations. *)
Definition attrs (s : proc) (m : md) : option (list nm) := nth (midx m) (mods s) None.
Definition put (s : proc) (m : md) (o : option (list nm)) : proc :=
  {| mods := update (midx m) o (mods s); registered := registered s; lazy_pysr := lazy_pysr s |}.
Definition loaded (s : proc) (m : md) : bool := match attrs s m with Some _ => true | None => false end.
Definition has (s : proc) (m : md) (n : nm) : bool :=
  match attrs s m with Some l => existsb (nm_eqb n) l | None => false end.

(** All names, in a fixed order: attribute sets are kept in this order. *)
Definition all_nm : list nm :=
  [n_base; n_data; n_dataset; n_utils; n_utils_GA; n_model; n_dlga; n_kd_dlga; n_kd_discover; n_kd_discover_regression; n_kd_sga; n_kd_pysr; n_kd_eqgpt;
   n_discover; n_program; n_sgapde; n_viz; n_core; n_registry; n_contracts; n_helpers; n_style; n_api; n_adapters; n__adapters; n_pysr; n_sga;
   n_dlga_viz; n_discover_viz; n_equation_renderer; n_dlga_eq2latex; n_discover_eq2latex;
   BaseEstimator; load_burgers_equation; load_mat_file; RegularData; c_DLGA; c_KD_DLGA; c_KD_Discover; c_KD_Discover_SPR; c_KD_Discover_Regression;
   c_KD_SGA; c_KD_PySR; c_KD_EqGPT; Program; evaluate_mse; VizResult; render; register_adapter; contracts; resolve_output_path; configure; plot_api;
   register_default_adapters; DLGAVizAdapter; DiscoverVizAdapter; SGAVizAdapter; PySRVizAdapter; render_latex_to_image; dlga_eq2latex;
   _format_full_latex_term; discover_program_to_latex].

(** Insert a name into an ordered attribute set. *)
Fixpoint ins_in (order : list nm) (n : nm) (l : list nm) : list nm :=
  match order with
  | [] => l
  | x :: o =>
      match l with
      | [] => [n]
      | y :: r => if nm_eqb x n then (if nm_eqb y n then l else n :: l)
                  else if nm_eqb x y then y :: ins_in o n r else ins_in o n l
      end
  end.
Definition ins := ins_in all_nm.

(** Bind a name in a module's namespace (no-op for user code outside the
    package, and for a module no longer in sys.modules). *)
Definition bind_in (s : proc) (cur : option md) (n : nm) : proc :=
  match cur with
  | None => s
  | Some m => match attrs s m with Some l => put s m (Some (ins n l)) | None => s end
  end.

Inductive out := Done | Exc | NoFuel.

(** Work items of the interpreter. *)
Inductive job :=
| JImport (m : md)
| JFrom (cur : option md) (m : md) (n : nm)
| JBody (cur : option md) (l : list stmt).

(** The interpreter: CPython's import system (importlib._bootstrap
    [_find_and_load], [_handle_fromlist], IMPORT_FROM) on the bodies above.
    [NoFuel] is not an exception: it means that more than the given number of
    nested steps are needed. *)
Fixpoint exec (avail : ext -> bool) (fuel : nat) (j : job) (s : proc) {struct fuel} : proc * out :=
  match fuel with
  | 0 => (s, NoFuel)
  | S fuel =>
      match j with
      | JImport m =>
          if loaded s m then (s, Done) else
          let '(s1, o1) := match parent m with
                           | Some (p, _) => exec avail fuel (JImport p) s
                           | None => (s, Done)
                           end in
          match o1 with
          | Done =>
              if loaded s1 m then (s1, Done) else
              let '(s2, o2) := exec avail fuel (JBody (Some m) (code m)) (put s1 m (Some [])) in
              match o2 with
              | Done => (match parent m with Some (p, k) => bind_in s2 (Some p) k | None => s2 end, Done)
              | Exc => (put s2 m None, Exc)
              | NoFuel => (s2, NoFuel)
              end
          | o => (s1, o)
          end
      | JFrom cur m n =>
          let '(s1, o1) := exec avail fuel (JImport m) s in
          match o1 with
          | Done =>
              if has s1 m n then (bind_in s1 cur n, Done) else
              match module_getattr m n with
              | Some body =>
                  let '(s2, o2) := exec avail fuel (JBody None body) s1 in
                  match o2 with Done => (bind_in s2 cur n, Done) | o => (s2, o) end
              | None =>
                  match submodule m n with
                  | Some sub =>
                      let '(s2, o2) := exec avail fuel (JImport sub) s1 in
                      match o2 with Done => (bind_in s2 cur n, Done) | o => (s2, o) end
                  | None => (s1, Exc)
                  end
              end
          | o => (s1, o)
          end
      | JBody cur [] => (s, Done)
      | JBody cur (x :: r) =>
          let '(s1, o1) :=
            match x with
            | SImport m => exec avail fuel (JImport m) s
            | SFrom m n => exec avail fuel (JFrom cur m n) s
            | SDef n => (bind_in s cur n, Done)
            | SExt e => (s, if avail e then Done else Exc)
            | STry b e =>
                let '(s2, o2) := exec avail fuel (JBody cur b) s in
                match o2 with
                | Done => exec avail fuel (JBody cur e) s2
                | Exc => (s2, Done)
                | NoFuel => (s2, NoFuel)
                end
            | SRegister c => ({| mods := mods s; registered := ins c (registered s); lazy_pysr := lazy_pysr s |}, Done)
            | SLazy => ({| mods := mods s; registered := registered s; lazy_pysr := true |}, Done)
            end in
          match o1 with Done => exec avail fuel (JBody cur r) s1 | o => (s1, o) end
      end
  end.

(** What user code can write: an import of a module, or a [from] import (an
    attribute access [m.n] after [import m] resolves names the same way). *)
Inductive entry := EImport (m : md) | EFrom (m : md) (n : nm).
Definition job_of (e : entry) : job :=
  match e with EImport m => JImport m | EFrom m n => JFrom None m n end.

(** Enough for every terminating import of this package. *)
Definition budget : nat := 120.
Definition do_entry (avail : ext -> bool) (s : proc) (e : entry) : proc := fst (exec avail budget (job_of e) s).
(** A session: a sequence of imports, the user surviving failed ones. *)
Definition session (avail : ext -> bool) (h : list entry) : proc := fold_left (do_entry avail) h fresh.
