(** Model of kd/model/discover/searcher.py: elite selection and the bookkeeping of the
    best program. *)
From Coq Require Import QArith Qround.
From Verif Require Import Base Num.
Local Open Scope nat_scope.

(** What the searcher reads of a Program (program.py:250-262, 610-622): its identity, its
    cached reward r_ridge, whether its evaluation failed, originally_on_policy. *)
Record prog := mkProg { p_id : nat; p_r : num; p_invalid : bool; p_on : bool }.

(** np.quantile(r, q, method="higher") of a NaN-free array: element ceil((n-1)q) of the
    sorted array (numpy; exact arithmetic instead of floating point for the index). *)
Definition np_quantile (r : list num) (q : Q) : res num :=
  if Qle_bool 0 q && Qle_bool q 1 then
    match nth_error (nsort r) (Z.to_nat (Qceiling (inject_Z (Z.of_nat (List.length r) - 1) * q))) with
    | Some x => Ok x
    | None => Err IndexError
    end
  else Err ValueError.

Record selection (A B C : Type) := mkSel {
  e_programs : list prog; e_r : list num; e_full_valid : list num;
  e_priors : list C; e_on : list bool; e_obs : list B; e_actions : list A; e_quantile : num }.
Arguments mkSel {A B C}. Arguments e_programs {A B C}. Arguments e_r {A B C}. Arguments e_full_valid {A B C}.
Arguments e_priors {A B C}. Arguments e_on {A B C}. Arguments e_obs {A B C}. Arguments e_actions {A B C}. Arguments e_quantile {A B C}.

(** searcher.py:22-97 quantile_select.  Rows of actions, obs and priors are opaque.  The
    string representations and lengths, which are filtered in the same way and dropped,
    are left out. *)
Definition quantile_select {A B C} (actions : list A) (obs : list B) (priors : list C) (programs : list prog)
    (r0 : list num) (epsilon : Q) : res (option (selection A B C)) :=
  let r := map nan0 r0 in
  let on_policy := map p_on programs in
  let invalid := map p_invalid programs in
  let valid_full := map (fun p => andb (fst p) (snd p)) (combine (map negb invalid) (map (nlt (Fin 0)) r)) in
  do r_full_valid <- bindex valid_full r ;
  do quantile <- np_quantile r (1 - epsilon) ;
  let keep := map (nle quantile) r in
  do invalid <- bindex keep invalid ;
  do r <- bindex keep r ;
  let programs := compress programs keep in
  do actions <- bindex keep actions ;
  do obs <- bindex keep obs ;
  do priors <- bindex keep priors ;
  do on_policy <- bindex keep on_policy ;
  let valid := map negb invalid in
  do actions <- bindex valid actions ;
  do obs <- bindex valid obs ;
  do priors <- bindex valid priors ;
  do on_policy <- bindex valid on_policy ;
  do r <- bindex valid r ;
  let programs := compress programs valid in
  if Nat.ltb (List.length actions) 1 then Ok None
  else Ok (Some (mkSel programs (map (nclip (-(1000000)) 1000000) r) (map (nclip (-(1000000)) 1000000) r_full_valid)
                       priors on_policy obs actions quantile)).

(** np.argmax: the first maximum (a NaN counts as the maximum; the only caller has none). *)
Fixpoint argmax_from (i best : nat) (b : num) (l : list num) : nat :=
  match l with
  | [] => best
  | x :: l' => if nlt b x then argmax_from (S i) i x l' else argmax_from (S i) best b l'
  end.
Definition argmax (l : list num) : nat := match l with [] => 0 | x :: l' => argmax_from 1 0 x l' end.

(** searcher.py:114-128 set_up: the attributes that concern the best program; [s_queued] is
    len(self.pq) > 0. *)
Record sstate := mkS { s_rbest : num; s_prev : option num; s_best : option prog; s_queued : bool }.
Definition set_up : sstate := mkS NInf None None false.

(** One sampled batch: the arrays of sample_episodes, the programs built from them, and
    what the aggregator returned ([None]: there is no aggregator). *)
Record batch (A B C : Type) := mkBatch {
  b_actions : list A; b_obs : list B; b_priors : list C; b_programs : list prog; b_agg : option (list prog) }.
Arguments mkBatch {A B C}. Arguments b_actions {A B C}. Arguments b_obs {A B C}. Arguments b_priors {A B C}.
Arguments b_programs {A B C}. Arguments b_agg {A B C}.

(** searcher.py:138-250 search_one_step.  [last r] is np.argsort(r)[-1]: numpy leaves open
    which of several equal maxima it is.  Training the controller and the content of the
    priority queue are elsewhere.  Returns the new state and the program of result_info. *)
Definition search_one_step {A B C} (epsilon : Q) (last : list num -> nat) (b : batch A B C) (s : sstate)
  : res (sstate * option prog) :=
  let programs := b_programs b in
  let r := map p_r programs in
  do reserved <- quantile_select (b_actions b) (b_obs b) (b_priors b) programs r epsilon ;
  match reserved with
  | None =>
      match programs with
      | [] => Ok (s, None)
      | _ =>
          let r_safe := map (fun a => if is_fin a then a else NInf) r in
          let best_idx := argmax r_safe in
          match nth_error r best_idx, nth_error programs best_idx with
          | Some rb, Some p =>
              if is_fin rb && (match s_best s with None => true | Some _ => nlt (s_rbest s) rb end)
              then Ok (mkS rb (s_prev s) (Some p) (s_queued s), None)
              else Ok (s, None)
          | _, _ => Err IndexError
          end
      end
  | Some e =>
      do r_max <- npmax (e_full_valid e) ;
      let r_best := pymax r_max (s_rbest s) in
      do x <- match b_agg b with
              | Some ((_ :: _) as agg) =>
                  let r := e_r e ++ map p_r agg in
                  do m <- npmax r ; Ok (e_programs e ++ agg, r, m, pymax m r_best)
              | _ => Ok (e_programs e, e_r e, r_max, r_best)
              end ;
      let '(programs, r, r_max, r_best) := x in
      match nth_error programs (last r) with
      | None => Err IndexError
      | Some cur =>
          let new := match s_prev s with None => true | Some p => nlt p r_max end in
          Ok (mkS r_best (Some r_best) (if new then Some cur else s_best s) true, Some cur)
      end
  end.

(** The epochs of one search. *)
Fixpoint epochs {A B C} (epsilon : Q) (last : list num -> nat) (bs : list (batch A B C)) (s : sstate) : res sstate :=
  match bs with
  | [] => Ok s
  | b :: bs' => do r <- search_one_step epsilon last b s ; epochs epsilon last bs' (fst r)
  end.
(** searcher.py:252-327 search.  [stable]: the candidate chosen by stability selection, if
    it is switched on and the queue gave candidates.  Returns the reported reward and
    program. *)
Definition search {A B C} (epsilon : Q) (last : list num -> nat) (keep_history : bool) (stable : option prog)
    (bs : list (batch A B C)) (s : sstate) : res (sstate * (num * prog)) :=
  let s0 := if negb keep_history && s_queued s then set_up else s in
  do s1 <- epochs epsilon last bs s0 ;
  let s2 := match stable with Some p => mkS (s_rbest s1) (s_prev s1) (Some p) (s_queued s1) | None => s1 end in
  match s_best s2 with
  | None => Err AttributeError                                  (* None has no r_ridge *)
  | Some p => Ok (s2, (p_r p, p))
  end.

(** make_pde_metric (task/pde/pde.py:254-321) and its use (pde.py:168): the parameters of
    the call metric(ut, y_hat, n). *)
Record metric_entry := mkMet { me_params : nat; me_args : nat; me_subscriptable : bool }.
Definition all_metrics : list (string * metric_entry) :=
  [("inv_nrmse", mkMet 2 1 true); ("pde_reward", mkMet 3 1 true); ("correlation", mkMet 3 1 true); ("R2", mkMet 3 0 false)]%string.
Definition invalid_rewards : list (string * Q) := [("inv_nrmse", 0%Q); ("pde_reward", 0%Q); ("correlation", 0%Q)]%string.
Fixpoint lookup {A} (k : string) (l : list (string * A)) : option A :=
  match l with [] => None | (k', v) :: l' => if String.eqb k k' then Some v else lookup k l' end.
(** Returns the number of parameters the metric takes. *)
Definition make_pde_metric (name : string) (nargs : nat) : res nat :=
  match lookup name all_metrics with
  | None => Err AssertionError
  | Some m =>
      if negb (me_subscriptable m) then Err TypeError              (* 'function' object is not subscriptable *)
      else if negb (Nat.eqb nargs (me_args m)) then Err AssertionError
      else match lookup name invalid_rewards with None => Err KeyError | Some _ => Ok (me_params m) end
  end.
Definition call_metric (name : string) (nargs : nat) : res unit :=
  do k <- make_pde_metric name nargs ; if Nat.eqb k 3 then Ok tt else Err TypeError.

(** The value of pde_reward (pde.py:287): [a] the complexity coefficient, [n] the number of
    terms, [s] the square root of the normalised mean squared error. *)
Definition pde_reward (a : Q) (n : nat) (s : Q) : Q := (1 - a * inject_Z (Z.of_nat n)) / (1 + s).
