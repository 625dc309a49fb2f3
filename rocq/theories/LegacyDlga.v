(** Model of the older DLGA figures, kd/viz/dlga_viz.py (plot_pde_parity, plot_equation_terms, plot_evolution), and of
    the residual figure of kd/viz/_adapters/dlga.py.  Numbers are rationals; arrays of model.metadata have shape (N, 1)
    and are given flattened, as in DlgaPlot.v. *)
From Coq Require Import QArith Qabs.
From Verif Require Import Base Dlga DlgaEq VizData TimePick DlgaPlot.
Local Open Scope string_scope.
Local Open Scope nat_scope.
Local Open Scope list_scope.

(** [metadata[operator_names[gene]] for gene in module] (dlga_viz.py:643) *)
Definition term_columns (meta : string -> option column) (ops : list string) (md : modul) : res (list column) :=
  mapM (fun g => match nth_error ops g with
                 | None => Err IndexError
                 | Some o => match meta o with Some c => Ok c | None => Err KeyError end
                 end) md.
(** np.prod(list, axis=0) (dlga_viz.py:250-251, 643): ValueError for different lengths; of no array the number 1.0 *)
Definition product (cols : list column) : res column :=
  match cols with
  | [] => Ok [1%Q]
  | c :: r => if forallb (fun d => Nat.eqb (List.length d) (List.length c)) r then Ok (fold_left times r c) else Err ValueError
  end.
(** y_pred_pde += array (645): in place, so the array may be a single number but not longer *)
Definition add_into (acc t : column) : res column :=
  if List.length acc =? List.length t then Ok (map (fun p => (fst p + snd p)%Q) (combine acc t))
  else match t with [x] => Ok (map (fun y => (y + x)%Q) acc) | _ => Err ValueError end.
(** the loop over the modules (641-645); coefficients[i, 0] is an IndexError past the last coefficient *)
Fixpoint rhs_loop (meta : string -> option column) (ops : list string) (g : genome) (cs : list Q) (acc : column) : res column :=
  match g with
  | [] => Ok acc
  | md :: g' =>
      do cols <- term_columns meta ops md ;
      do p <- product cols ;
      match cs with
      | [] => Err IndexError
      | c :: cs' => do acc' <- add_into acc (map (Qmult c) p) ; rhs_loop meta ops g' cs' acc'
      end
  end.
(** plot_pde_parity (605-673): the horizontal and vertical coordinates of the points; None is the logged warning.  The
    minimum of an empty array (655) is a ValueError.  Attributes are present (a missing metadata is an AttributeError). *)
Definition legacy_parity (m : mdl) : res (option (list Q * list Q)) :=
  match m_chrom m with
  | [] | [] :: _ => Ok None
  | g :: _ =>
      match m_coef m, m_name m, m_meta m with
      | [], _, _ | _, [], _ => Err IndexError
      | _, _, None => Err AttributeError
      | c :: _, n :: _, Some meta =>
          match meta n with
          | None => Ok None
          | Some l => do p <- rhs_loop meta (m_ops m) g c (map (fun _ => 0%Q) l) ;
                      match l with [] => Err ValueError | _ => Ok (Some (p, l)) end
          end
      end
  end.

(** One entry of [terms]: {'vars': [...], 'label': ...}; a missing 'vars' is []. *)
Record axis_term := mkTerm { vars : list string; label : option string }.
(** What plot_equation_terms draws: the scatter's coordinates and colours, its labels, and the histogram *)
Record chart := mkChart { ch_x : column; ch_y : column; ch_color : option column; ch_xlabel : string; ch_ylabel : string; ch_hist : option column }.
Definition recorded (meta : string -> option column) (v : string) : bool := match meta v with Some _ => true | None => false end.
Definition get_all (meta : string -> option column) (l : list string) : list column := flat_map (fun v => match meta v with Some c => [c] | None => [] end) l.
(** plot_equation_terms (207-284); None is a logged warning.  color None models color_var=None.  matplotlib refuses with
    ValueError arrays of different sizes (a colour array of length 3 or 4 that could be read as an RGB colour is not
    treated separately). *)
Definition equation_terms (meta : string -> option column) (x y : axis_term) (color : option string) : res (option chart) :=
  match vars x, vars y with
  | [], _ | _, [] => Ok None
  | xs, ys =>
      let colour := match color with Some c => if String.eqb c "" then [] else [c] | None => [] end in
      if forallb (recorded meta) (xs ++ ys ++ colour) then
        do px <- product (get_all meta xs) ;
        do py <- product (get_all meta ys) ;
        if negb (List.length px =? List.length py) then Err ValueError else
        let cc := match color with Some c => meta c | None => None end in
        let d := mkChart px py cc (match label x with Some s => s | None => joins "-" xs end) (match label y with Some s => s | None => joins "-" ys end) cc in
        match cc with
        | Some col => if List.length col =? List.length px then Ok (Some d) else Err ValueError
        | None => Ok (Some d)
        end
      else Ok None
  end.

(** An entry of evolution_history: its 'fitness' and 'complexity' *)
Record generation := mkGen { g_fitness : option Q; g_complexity : option nat }.
Definition field {A} (f : generation -> option A) (h : list generation) : res (list A) := mapM (fun e => match f e with Some v => Ok v | None => Err KeyError end) h.
(** the summary that is logged: fitness first and last, improvement in percent, complexity first and last *)
Record summary := mkSum { s_first : Q; s_last : Q; s_improvement : option Q; s_cfirst : nat; s_clast : nat }.
(** plot_evolution (287-350): the two curves and the summary (343-350).  The improvement is None where numpy divides by
    zero and prints inf or nan. *)
Definition plot_evolution (h : list generation) : res (list Q * list nat * summary) :=
  match h with
  | [] => Err ValueError
  | _ =>
      do f <- field g_fitness h ;
      do c <- field g_complexity h ;
      let a := hd 0%Q f in let b := last f 0%Q in
      Ok (f, c, mkSum a b (if Qeq_bool a 0 then None else Some ((a - b) / a * 100)%Q) (hd 0 c) (last c 0))
  end.

(** _build_residual_data (_adapters/dlga.py:343-372) without coordinates: None is the warning *)
Definition prefer {A} (a b : option A) : option A := match a with Some _ => a | None => b end.
Definition build_residual (actual actual_values predicted predicted_values residuals : option arr) : vres (option residual_data) :=
  match prefer actual actual_values, prefer predicted predicted_values with
  | Some a, Some p =>
      match (match residuals with None => residual_from a p None | Some r => residual_init a p r None end) with
      | VOk d => VOk (Some d) | VValueError => VValueError | VTypeError => VTypeError | VIndexError => VIndexError
      end
  | _, _ => VOk None
  end.
(** the summary of _residual (234-239): mean, square of the standard deviation, largest absolute value, count *)
Record rsummary := mkRS { rs_mean : Q; rs_var : Q; rs_max : Q; rs_count : nat }.
Definition summarize (r : list Q) : rsummary := mkRS (mean r) (mean (map (fun x => ((x - mean r) * (x - mean r))%Q) r)) (max_abs r) (List.length r).
(** _residual (219-240): the summary reported; the minimum of no points (_plot_residual:404) is a ValueError *)
Definition residual_report (actual actual_values predicted predicted_values residuals : option arr) : vres (option rsummary) :=
  match build_residual actual actual_values predicted predicted_values residuals with
  | VOk None => VOk None
  | VOk (Some d) => match ravel (r_residuals d) with [] => VValueError | r => VOk (Some (summarize r)) end
  | VValueError => VValueError | VTypeError => VTypeError | VIndexError => VIndexError
  end.
