(** Model of the DLGA plots: kd/viz/_adapters/dlga.py (parity, term relationships, time slices,
    field comparison, optimization, equation) and the legacy plot_optimization_analysis of
    kd/viz/dlga_viz.py.  Numbers are rationals.  Arrays of model.metadata have shape (N, 1);
    they are given flattened, as lists of length N. *)
From Coq Require Import QArith Qabs List String Bool Arith ZArith.
From Verif Require Import Base Dlga DlgaEq VizData TimePick.
Import ListNotations.
Local Open Scope string_scope.
Local Open Scope nat_scope.
Local Open Scope list_scope.

(** ** The fitted model as the adapter reads it *)
(** getattr(model, 'Chrom' / 'coef' / 'name' / 'user_operators' / 'metadata') (dlga.py:587-591,
    644-648).  A missing attribute and an empty list are treated alike ("not chrom"), so they
    are both the empty list here; coef[k] is the (m, 1) coefficient column, flattened. *)
Record mdl := mkM {
  m_chrom : list genome; m_coef : list (list Q); m_name : list string; m_ops : list string;
  m_meta : option (string -> option column) }.

(** dlga.py:593-603, 650-660: the first individual, its left side and coefficients; None when
    something is missing or the left side is not in metadata.  [chrom[0]] etc. exist because
    the lists are not empty. *)
Definition first_individual (m : mdl) : option (genome * list Q * string * (string -> option column) * column) :=
  match m_chrom m, m_coef m, m_name m, m_meta m, m_ops m with
  | g :: _, c :: _, n :: _, Some meta, _ :: _ =>
      match meta n with Some l => Some (g, c, n, meta, l) | None => None end
  | _, _, _, _, _ => None
  end.

(** [any(gene >= len(operators) for gene in module)] (dlga.py:609, 665) *)
Definition bad_gene (ops : list string) (md : modul) : bool := existsb (fun g => List.length ops <=? g) md.
(** [np.asarray(metadata[operators[gene]]) for gene in module], None on KeyError
    (dlga.py:611-614, 667-670) *)
Fixpoint term_arrays (meta : string -> option column) (ops : list string) (md : modul) : option (list column) :=
  match md with
  | [] => Some []
  | g :: md' => match meta (nth g ops ""%string), term_arrays meta ops md' with
                | Some c, Some r => Some (c :: r)
                | _, _ => None
                end
  end.
(** np.prod(arrays, axis=0).reshape(-1) for arrays of one length (dlga.py:615, 671); of no
    array it is the single number 1.0 *)
Definition prod_cols (cols : list column) : column :=
  match cols with [] => [1%Q] | c :: r => fold_left times r c end.

(** numpy addition of two 1-D arrays, None for ValueError *)
Definition badd (a b : column) : option column :=
  if List.length a =? List.length b then Some (map (fun p => (fst p + snd p)%Q) (combine a b))
  else match a, b with
       | _, [y] => Some (map (fun x => (x + y)%Q) a)
       | [x], _ => Some (map (fun y => (x + y)%Q) b)
       | _, _ => None
       end.

(** ** Parity *)
(** The loop of _build_parity_data (dlga.py:661-672) from the running [rhs]; it stops at the
    last coefficient. *)
Fixpoint parity_loop (meta : string -> option column) (ops : list string) (g : genome) (cs : list Q) (rhs : column) : option column :=
  match g, cs with
  | md :: g', c :: cs' =>
      if bad_gene ops md then parity_loop meta ops g' cs' rhs
      else match term_arrays meta ops md with
           | None => parity_loop meta ops g' cs' rhs
           | Some arrs => match badd rhs (map (Qmult c) (prod_cols arrs)) with
                          | None => None
                          | Some rhs' => parity_loop meta ops g' cs' rhs'
                          end
           end
  | _, _ => Some rhs
  end.
(** _build_parity_data (dlga.py:643-678): None is the warning of _parity (dlga.py:291-293) *)
Definition parity_data (m : mdl) : vres (option (list Q * list Q * list Q)) :=
  match first_individual m with
  | None => VOk None
  | Some (g, c, _, meta, l) =>
      match parity_loop meta (m_ops m) g c (map (fun _ => 0%Q) l) with
      | None => VValueError
      | Some rhs => match parity_from (vector l) (vector rhs) with
                    | VOk d => VOk (Some d)
                    | VValueError => VValueError
                    | VTypeError => VTypeError
                    | VIndexError => VIndexError
                    end
      end
  end.
(** residual_stats (dlga.py:321-325): mean, maximum absolute value and the square of the RMSE *)
Definition mean (l : list Q) : Q := (fold_right Qplus 0 l / inject_Z (Z.of_nat (List.length l)))%Q.
Definition max_abs (l : list Q) : Q := match map Qabs l with [] => 0%Q | x :: r => qmax x r end.
Definition parity_stats (r : list Q) : Q * Q * Q := (mean r, max_abs r, mean (map (fun x => (x * x)%Q) r)).

(** ** Relationship of the terms to the left side *)
(** TermContribution (_contracts.py:303-310) *)
Record contribution := mkK { k_label : string; k_values : column; k_coef : Q }.
(** [' * '.join(operators[gene] for gene in module) or '1'] (dlga.py:616) *)
Definition term_label (ops : list string) (md : modul) : string :=
  match md with [] => "1"%string | _ => joins " * " (map (fun g => nth g ops ""%string) md) end.
(** the loop of _build_term_relationship_data (dlga.py:605-623) *)
Fixpoint contributions (meta : string -> option column) (ops : list string) (g : genome) (cs : list Q) : list contribution :=
  match g, cs with
  | md :: g', c :: cs' =>
      (if bad_gene ops md then []
       else match term_arrays meta ops md with
            | None => []
            | Some arrs => [mkK (term_label ops md) (prod_cols arrs) c]
            end) ++ contributions meta ops g' cs'
  | _, _ => []
  end.
(** list.sort(key=abs(coefficient), reverse=True) (dlga.py:628): stable, largest first *)
Fixpoint kinsert (x : contribution) (l : list contribution) : list contribution :=
  match l with
  | [] => [x]
  | y :: l' => if Qle_bool (Qabs (k_coef y)) (Qabs (k_coef x)) then x :: l else y :: kinsert x l'
  end.
Definition ksort (l : list contribution) : list contribution := fold_right kinsert [] l.
(** int(ctx.options.get('top_n_terms', 4) or 4), then max(1, .) (dlga.py:629-630) *)
Definition top_n (opt : option Z) : nat :=
  Z.to_nat (Z.max 1 (match opt with None => 4 | Some z => if Z.eqb z 0 then 4 else z end)).
(** TermRelationshipData: left values, left name, shown terms, total_terms (dlga.py:632-641) *)
Record relations := mkRel { rl_lhs : list Q; rl_name : string; rl_terms : list contribution; rl_total : nat }.
Definition term_relationships (m : mdl) (opt : option Z) : vres (option relations) :=
  match first_individual m with
  | None => VOk None
  | Some (g, c, n, meta, l) =>
      match ksort (contributions meta (m_ops m) g c) with
      | [] => VOk None
      | ks => let chosen := firstn (top_n opt) ks in
              match term_relationship_init (vector l) (map (fun k => vector (k_values k)) chosen) with
              | VOk _ => VOk (Some (mkRel l n chosen (List.length ks)))
              | VValueError => VValueError
              | VTypeError => VTypeError
              | VIndexError => VIndexError
              end
      end
  end.
(** the grid of charts (dlga.py:252-261): columns, rows; axes are zipped with the terms *)
Definition ncols (n : nat) : nat := Nat.min 3 n.
Definition nrows (n : nat) : nat := (n + ncols n - 1) / ncols n.
Definition charts (ks : list contribution) : list (nat * contribution) :=
  combine (seq 0 (nrows (List.length ks) * ncols (List.length ks))) ks.

(** ** Time slices *)
(** _build_time_slice_data (dlga.py:567-572): the times asked for *)
Definition slice_requests (t0 : Q) (t : list Q) (slices : option (list Q)) (num : option Z) : list Q :=
  match slices with
  | Some l => l
  | None => let requested := match num with None => 3%Z | Some z => if Z.eqb z 0 then 3%Z else z end in
            let count := Z.to_nat (Z.max 1 (Z.min requested (Z.of_nat (List.length t)))) in
            linspace (qmin t0 t) (qmax t0 t) count
  end.
(** One panel: the number in the title and the column of both fields that is drawn. *)
Record panel := mkPanel { p_title : Q; p_index : nat; p_true : list Q; p_pred : list Q }.
(** field[:, idx] *)
Definition col_at (a : arr) (j : nat) : list Q :=
  match shape a with [n; _] => map (fun i => at_ a [i; j]) (seq 0 n) | _ => [] end.
(** _time_slices (dlga.py:138-186) with one spatial axis.  None is the warning.  An empty
    grid raises in t_arr.min() or in the container; no slice at all raises in plt.subplots. *)
Definition time_slices (x t tf pf : option arr) (slices : option (list Q)) (num : option Z) : vres (option (list panel)) :=
  match x, t, tf, pf with
  | Some x, Some t, Some tf, Some pf =>
      match ravel t with
      | [] => VValueError
      | t0 :: tr =>
          let ts := slice_requests t0 (t0 :: tr) slices num in
          match time_slice_init [x] t tf pf (vector ts) with
          | VOk _ =>
              match ts with
              | [] => VValueError
              | _ => VOk (Some (map (fun v => match nearest (t0 :: tr) v with
                                                | Some i => mkPanel v i (col_at tf i) (col_at pf i)
                                                | None => mkPanel v 0 [] []
                                                end) ts))
              end
          | _ => VValueError
          end
      end
  | _, _, _, _ => VOk None
  end.

(** ** Which picture a reported file shows *)
(** A directory: file name to picture.  Pictures are any data; [None] is no file. *)
Section Files.
Context {P : Type}.
Definition dir := string -> option P.
Definition put (f : string) (p : P) (d : dir) : dir := fun g => if String.eqb g f then Some p else d g.
Definition del (f : string) (d : dir) : dir := fun g => if String.eqb g f then None else d g.
(** The intents and the file each handler saves (dlga.py:73, 81, 89, 102, 171, 210, 225, 280,
    313); savefig overwrites. *)
Definition files : list (string * string) :=
  [("training_curve", "training_loss.png"); ("validation_curve", "validation_loss.png");
   ("search_evolution", "evolution_analysis.png"); ("optimization", "optimization_analysis.png");
   ("time_slices", "time_slices_comparison.png"); ("equation", "equation.png"); ("residual", "residual_analysis.png");
   ("derivative_relationships", "derivative_relationships.png"); ("parity", "pde_parity_plot.png");
   ("field_comparison", "field_comparison.png")].
Definition file_of (kind : string) : option string := option_map snd (find (fun e => String.eqb (fst e) kind) files).
(** _field_comparison (dlga.py:120-136): plot_pde_comparison saves pde_comparison.png
    (dlga_viz.py:197), renamed unless the target exists. *)
Definition save_field_comparison (p : P) (d : dir) : dir :=
  let d1 := put "pde_comparison.png" p d in
  match d1 "field_comparison.png"%string with
  | Some _ => d1
  | None => put "field_comparison.png" p (del "pde_comparison.png" d1)
  end.
(** One successful plot call: the directory afterwards and the reported file.  An intent
    outside [file_of] writes nothing and reports no path. *)
Definition plot (kind : string) (p : P) (d : dir) : dir * option string :=
  match file_of kind with
  | None => (d, None)
  | Some f => (if String.eqb kind "field_comparison" then save_field_comparison p d else put f p d, Some f)
  end.
Definition plots (calls : list (string * P)) (d : dir) : dir :=
  fold_left (fun d c => fst (plot (fst c) (snd c) d)) calls d.
End Files.

(** ** Optimization history *)
(** An entry of evolution_history; None is a missing key or the value None (dlga.py:442-451). *)
Record entry := mkE { e_fitness : option Q; e_objective : option Q; e_complexity : option Q; e_pop : option Q; e_unique : option Q }.
(** [value = entry.get('fitness'); if None: entry.get('objective')] (dlga.py:443-445) *)
Definition entry_value (e : entry) : option Q := match e_fitness e with Some q => Some q | None => e_objective e end.
(** all values, None if one is missing: the early return (dlga.py:446-447) and sanitize (453-456) *)
Fixpoint all_some {A} (l : list (option A)) : option (list A) :=
  match l with
  | [] => Some []
  | Some x :: l' => match all_some l' with Some r => Some (x :: r) | None => None end
  | None :: _ => None
  end.
(** OptimizationHistoryData (dlga.py:458-464) *)
Record optim := mkO { o_steps : list nat; o_objective : list Q; o_complexity : option (list Q); o_pop : option (list Q); o_unique : option (list Q) }.
Definition optimization_data (h : list entry) : option optim :=
  match h with
  | [] => None
  | _ => match all_some (map entry_value h) with
         | None => None
         | Some obj => Some (mkO (seq 0 (List.length h)) obj (all_some (map e_complexity h)) (all_some (map e_pop h)) (all_some (map e_unique h)))
         end
  end.
(** summary (dlga.py:110-115): initial, final, best *)
Definition optimization_summary (o : optim) : option (Q * Q * Q) :=
  match o_objective o with
  | [] => None
  | x :: r => Some (x, last r x, qmin x r)
  end.
(** The curves of the left panel and the legend entries (dlga.py:479-509): the legend pairs
    [lines] with [labels], and only the population curve is put into [lines]. *)
Inductive curve := Population | UniqueModules | Objective.
Definition left_curves (o : optim) : list curve :=
  match o_pop o, o_unique o with
  | None, None => [Objective]
  | p, u => (match p with Some _ => [Population] | None => [] end) ++ (match u with Some _ => [UniqueModules] | None => [] end)
  end.
Definition legend (o : optim) : list (curve * curve) :=
  let lines := match o_pop o with Some _ => [Population] | None => [] end in
  let labels := left_curves o in
  match o_pop o, o_unique o with None, None => [] | _, _ => combine lines labels end.

(** ** plot_optimization_analysis (dlga_viz.py:352-454), the "major changes" interval *)
(** np.abs(np.diff(fitness)) and np.cumsum *)
Fixpoint changes (l : list Q) : list Q :=
  match l with x :: (y :: _) as l' => Qabs (y - x) :: changes l' | _ => [] end.
Fixpoint cumsum (acc : Q) (l : list Q) : list Q :=
  match l with [] => [] | x :: l' => (acc + x)%Q :: cumsum (acc + x)%Q l' end.
(** np.searchsorted(a, v) (side left) on a non-decreasing array: the number of elements below v *)
Fixpoint searchsorted (a : list Q) (v : Q) : nat :=
  match a with [] => 0 | x :: a' => if Qle_bool v x then 0 else S (searchsorted a' v) end.
(** show_gens (dlga_viz.py:394-405).  None: the name is never bound and the log line at 440
    raises UnboundLocalError, after the file has been saved. *)
Definition show_gens (fitness : list Q) : option nat :=
  match changes fitness with
  | [] => None
  | ch => let cs := cumsum 0 ch in
          Some (Nat.min (searchsorted cs ((8 # 10) * last cs 0)%Q + 5) (List.length fitness - 1))
  end.

(** ** Equation *)
(** l[i] for a Python integer index, None for IndexError *)
Definition py_nth {A} (l : list A) (i : Z) : option A :=
  if (0 <=? i)%Z then nth_error l (Z.to_nat i)
  else if (- i <=? Z.of_nat (List.length l))%Z then nth_error l (List.length l - Z.to_nat (- i)) else None.
Inductive eq_out := EqWarning (bad_index : bool) | EqShown (latex : string * list shown) (index : Z).
(** _equation (dlga.py:188-219); solution_index None or 0 means 0 *)
Definition equation (m : mdl) (opt : option Z) : eq_out :=
  match m_chrom m, m_coef m, m_name m with
  | [], _, _ | _, [], _ | _, _, [] => EqWarning false
  | _, _, _ =>
      let i := match opt with Some z => z | None => 0%Z end in
      match py_nth (m_chrom m) i, py_nth (m_coef m) i, py_nth (m_name m) i with
      | Some g, Some c, Some n => EqShown (dlga_eq2latex (match m_ops m with [] => None | o => Some o end) n g c) i
      | _, _, _ => EqWarning true
      end
  end.
