(** Model of the configuration handling of kd/model/kd_discover.py and of
    make_prior (kd/model/discover/dso/prior.py:18-90). *)
From Verif Require Import Base Library.

Section Build.
Context {P : Type}.   (* built priors *)

(** One prior specification of the configuration: the optional key 'on', what
    the class constructor gives for the remaining arguments ([None]:
    TokenNotFoundError), and whether validate() returns no message. *)
Record pspec := mkSpec { sp_on : option bool; sp_build : option P; sp_valid : bool }.

(** prior.py:52-83, body of the double loop: 'on' is popped (default False). *)
Definition take (s : pspec) : list P :=
  match sp_on s with
  | Some true => match sp_build s with Some p => if sp_valid s then [p] else [] | None => [] end
  | _ => []
  end.
Definition popped (s : pspec) : pspec := mkSpec None (sp_build s) (sp_valid s).

(** prior.py:18-90 make_prior: a prior type maps to one or several
    specifications; returns the priors of the JointPrior and the configuration
    as the call leaves it. *)
Definition make_prior (cfg : list (list pspec)) : list P * list (list pspec) :=
  (flat_map (fun l => flat_map take l) cfg, map (map popped) cfg).

(** kd_discover.py: what changes the prior in force.  [Import] is
    import_dataset, [Train] is train. *)
Inductive event := Import | Train.
Record estate := mkE { e_cfg : list (list pspec); e_prior : option (list P) }.
(** kd_discover.py:107-129 setup (the part concerning the prior) *)
Definition setup (s : estate) : estate :=
  let '(ps, cfg') := make_prior (e_cfg s) in mkE cfg' (Some ps).
(** kd_discover.py:154-191 import_dataset calls setup; 262-272 train does not. *)
Definition step_regular (s : estate) (e : event) : estate := match e with Import => setup s | Train => s end.
(** kd_discover.py:503-563 import_dataset calls setup; 704-718 train calls it again. *)
Definition step_spr (s : estate) (e : event) : estate := match e with Import => setup s | Train => setup s end.
Definition run_events step (cfg : list (list pspec)) (es : list event) : estate := fold_left step es (mkE cfg None).

(** What the configuration asks for: every specification switched on whose
    tokens exist and which validates, in order. *)
Definition configured (cfg : list (list pspec)) : list P := flat_map (fun l => flat_map take l) cfg.
End Build.
Arguments pspec : clear implicits. Arguments estate : clear implicits.

(** ** Function set selection (kd_discover.py:359-436) *)
Local Open Scope string_scope.
(** kd_discover.py:361-365, 369-373, 375-380 *)
Definition diff_by_dim (n : nat) : option (list string) :=
  match n with 1 => Some ["diff"; "diff2"; "diff3"] | 2 => Some ["Diff"; "Diff2"; "lap"]
             | 3 => Some ["Diff_3"; "Diff2_3"; "lap_3"] | _ => None end.
Definition diff_torch_by_dim (n : nat) : option (list string) :=
  match n with 1 => Some ["diff_t"; "diff2_t"; "diff3_t"] | 2 => Some ["lap_t"] | 3 => Some ["lap_t"] | _ => None end.
Definition all_diff_tokens : list string :=
  ["diff"; "diff2"; "diff3"; "diff4"; "Diff"; "Diff2"; "lap"; "Diff_3"; "Diff2_3"; "lap_3";
   "diff_t"; "diff2_t"; "diff3_t"; "diff4_t"; "lap_t"].
Local Close Scope string_scope.
Definition smem (s : string) (l : list string) : bool := existsb (String.eqb s) l.
(** str.endswith("_t") *)
Fixpoint ends_t (s : string) : bool :=
  match s with
  | EmptyString => false
  | String _ s' => String.eqb s "_t" || ends_t s'
  end.
(** dict.fromkeys: first occurrences, in order. *)
Fixpoint dedup (seen l : list string) : list string :=
  match l with
  | [] => []
  | s :: l' => if smem s seen then dedup seen l' else s :: dedup (s :: seen) l'
  end.
(** kd_discover.py:399-436 _auto_select_function_set: [n] is n_input_dim
    (default 1; [None] stands for a missing data_class). *)
Definition auto_function_set (base : list string) (n : option nat) : list string :=
  match n with
  | None => base
  | Some n =>
      if Nat.leb n 1 then base else
      match (if existsb ends_t base then diff_torch_by_dim n else diff_by_dim n) with
      | None => base
      | Some new => dedup [] (new ++ filter (fun t => negb (smem t all_diff_tokens)) base)
      end
  end.
(** kd_discover.py:382-397 set_task: a non-empty operator list wins.  The value
    stored in config_task["function_set"] before is irrelevant: the argument
    [_old] is not used. *)
Definition set_function_set (operators base : list string) (_old : list string) (n : option nat) : list string :=
  match operators with [] => auto_function_set base n | _ => operators end.

(** ** N-D configuration of the sparse model (kd_discover.py:565-590) *)
Record ndcfg := mkNd { nd_input_dim : nat; nd_generation : string; nd_n_input_var : nat;
                       nd_n_param_var : nat; nd_param_names : option (list string) }.
Record nddata := mkNdd { dt_n_input_dim : nat; dt_n_param_var : nat; dt_param_names : list string }.
Definition inject_nd (base old : ndcfg) (d : nddata) : ndcfg :=
  let c := mkNd (nd_input_dim base) (nd_generation base) (nd_n_input_var base) 0 None in
  let c := if Nat.ltb 1 (dt_n_input_dim d)
           then mkNd (dt_n_input_dim d + 1) "multi_AD"%string (dt_n_input_dim d) (nd_n_param_var c) (nd_param_names c) else c in
  if Nat.ltb 0 (dt_n_param_var d)
  then mkNd (nd_input_dim c) (nd_generation c) (nd_n_input_var c) (dt_n_param_var d) (Some (dt_param_names d)) else c.
