(** Model of KD_Discover_SPR: stability selection, the training loops of the network, the
    refinement loop, the data of the search and the settings of a run.
    Networks, optimisers, least squares and the search itself are arguments. *)
From Coq Require Import QArith Qround Qabs.
From Verif Require Import Base Num Aggregator.
From Verif Require EqGpt.
Local Open Scope nat_scope.

(** ** Stability selection (searcher.py:266-303) *)

(** mse_list[i] * cv_list[i] (utils.py:31-35, criterion with type 'multiply'; rows of equal length) *)
Definition criterion_multiply (mse cv : list num) : list num := map (fun p => EqGpt.nmul (fst p) (snd p)) (combine mse cv).
(** column k of the matrix of criteria *)
Definition column (rows : list (list num)) (k : nat) : list num := map (fun r => nth k r NaN) rows.
(** np.bincount *)
Definition bincount (l : list nat) : list nat :=
  match l with [] => [] | _ => map (fun k => count (Nat.eqb k) l) (seq 0 (S (fold_right Nat.max 0 l))) end.
(** np.argmax of integers: the first maximum (ValueError when empty) *)
Fixpoint argmax_nat_from (i best b : nat) (l : list nat) : nat :=
  match l with [] => best | x :: l' => if Nat.ltb b x then argmax_nat_from (S i) i x l' else argmax_nat_from (S i) best b l' end.
Definition argmax_nat (l : list nat) : option nat := match l with [] => None | x :: l' => Some (argmax_nat_from 1 0 x l') end.
(** searcher.py:291-298: [first col] is np.argsort(col)[0] (numpy leaves open which of several
    equal minima it is); ranking has one entry per resampling.  An exception gives 0. *)
Definition best_ind (first : list num -> nat) (rows : list (list num)) (repeats : nat) : nat :=
  match argmax_nat (bincount (map (fun k => first (column rows k)) (seq 0 repeats))) with Some i => i | None => 0 end.
(** searcher.py:266-303.  [queue]: the programs of the priority queue, largest score first;
    [nmse] the evaluated error of a program (numbers; an invalid program's None is not
    modelled), [len] the length of its traversal, [test] the two lists of stability_test. *)
Section Stability.
Context {P : Type} (first : list num -> nat) (len : P -> nat) (nmse : P -> Q) (test : P -> list num * list num) (repeats : nat).
Definition candidates (queue : list P) : res (list P) :=
  do r <- drop_duplicates len queue (map (fun p => [nmse p]) queue) ; Ok (map fst r).
Definition stable_choice (selection : Z) (queue : list P) : res (option P) :=
  if Z.leb selection 0 then Ok None else
  do cand <- candidates queue ;
  match cand with
  | [] => Ok None
  | _ =>
      let tested := firstn (Z.to_nat selection) cand in
      let rows := map (fun p => criterion_multiply (fst (test p)) (snd (test p))) tested in
      match nth_error cand (best_ind first rows repeats) with Some p => Ok (Some p) | None => Err IndexError end
  end.
End Stability.

(** ** The residual of an equation (stridge.py:613-641 calculate_RHS) *)
Notation col := (list Q).
(** results[i] * coefs[i] added up; every column has as many rows as ut *)
Definition col_add (a b : col) : col := map (fun p => fst p + snd p)%Q (combine a b).
Definition col_scale (q : Q) (c : col) : col := map (fun v => v * q)%Q c.
Definition col_sub (a b : col) : col := map (fun p => fst p - snd p)%Q (combine a b).
Fixpoint rhs_sum (acc : col) (coefs : list Q) (terms : list col) : res col :=
  match coefs, terms with
  | [], _ => Ok acc
  | _ :: _, [] => Err IndexError
  | w :: ws, c :: cs => rhs_sum (col_add acc (col_scale w c)) ws cs
  end.
(** extra_gradient: every term is differentiated with respect to each x[j] in turn;
    [dx j c] is torch_diff(c, x[j]) *)
Definition rhs_terms (dx : nat -> col -> col) (nx : nat) (extra : bool) (terms : list col) : list col :=
  if extra then map (fun c => fold_left (fun c j => dx j c) (seq 0 nx) c) terms else terms.
Definition residual (dx : nat -> col -> col) (nx : nat) (extra : bool) (ut : col) (coefs : list Q) (terms : list col) : res col :=
  do rhs <- rhs_sum (map (fun _ => 0%Q) ut) coefs (rhs_terms dx nx extra terms) ; Ok (col_sub ut rhs).
(** loss.py:27-33: torch.mean(torch.pow(residual, 2)) *)
Definition mean_square (r : col) : Q := (fold_right Qplus 0 (map (fun v => v * v) r) / inject_Z (Z.of_nat (List.length r)))%Q.
Definition pinn_loss dx nx extra ut coefs terms : res Q := do r <- residual dx nx extra ut coefs terms ; Ok (mean_square r).

(** ** Training loops (pinn.py) *)
Section Training.
Context {net : Type}.
Definition big : num := Fin 100000000.                                   (* best_loss = 1e8 *)
(** pinn.py:226-261, the loop of pretrain at epoch [i] with [fuel] epochs left; [step] is
    backward and optimizer step, [vloss] the validation loss of a network.  The check point
    is written before the step.  Returns the network, the check point and the number of
    epochs run. *)
Fixpoint pretrain_loop (step : net -> net) (vloss : net -> num) (duration : Z) (fuel i : nat)
    (best : num) (imp : nat) (ckpt : option net) (g : net) : net * option net * nat :=
  match fuel with
  | O => (g, ckpt, i)
  | S f =>
      let better := nlt (vloss g) best in
      let best' := if better then vloss g else best in
      let imp' := if better then i else imp in
      let ckpt' := if better then Some g else ckpt in
      let g' := step g in
      if Z.ltb duration (Z.of_nat i - Z.of_nat imp') then (g', ckpt', S i)
      else pretrain_loop step vloss duration f (S i) best' imp' ckpt' g'
  end.
(** pinn.py:226-279 pretrain: [load] is the network loaded from the configured pretrain_path *)
Definition pretrain (load : option net) step vloss duration epochs (g : net) : net * option net * nat :=
  match load with
  | Some g' => (g', None, 0)
  | None => pretrain_loop step vloss duration epochs 0 big 0 None g
  end.
(** pinn.py:276-279: the observations used from then on *)
Definition merged {A} (train val : list A) : list A := train ++ val.

(** pinn.py:304-322, the PDE part of the loss of a network: [res i] the residual loss of
    equation i at the collocation points, [loc i] at the observations (None: local_sample is
    off).  pde_loss is set to 0 again for every equation. *)
Definition one_pde (r : num) (l : option num) : num :=
  let a := EqGpt.nadd (Fin 0) (nan0 r) in match l with Some v => EqGpt.nadd a v | None => a end.
Fixpoint pde_loss (cur : option num) (eqs : list (num * option num)) : option num :=
  match eqs with [] => cur | (r, l) :: eqs' => pde_loss (Some (one_pde r l)) eqs' end.
(** coef*(pde_loss)+loss_mse; without equations pde_loss is not bound *)
Definition total_loss (coef : Q) (mse : num) (eqs : list (num * option num)) : res num :=
  match pde_loss None eqs with None => Err UnboundLocalError | Some p => Ok (EqGpt.nadd (EqGpt.nmul (Fin coef) p) mse) end.
(** pinn.py:301-345 train_pinn at epoch [i]: [loss] is the total loss as a function of the
    network, [step f g] a step of the optimizer on [f] from [g].  With [last] the check
    point "_best" is written after the step; last_improvement ([imp]) has no value at first. *)
Fixpoint pinn_loop (step : (net -> res num) -> net -> net) (loss : net -> res num) (last : bool) (fuel i : nat)
    (best : num) (imp : option nat) (ckpt : option net) (g : net) : res (net * option net * nat) :=
  match fuel with
  | O => Ok (g, ckpt, i)
  | S f =>
      do l <- loss g ;
      let g' := step loss g in
      if last then
        let better := nlt l best in
        let best' := if better then l else best in
        let imp' := if better then Some i else imp in
        let ckpt' := if better then Some g' else ckpt in
        match imp' with
        | None => Err UnboundLocalError
        | Some k => if Z.ltb 200 (Z.of_nat i - Z.of_nat k) then Ok (g', ckpt', S i)
                    else pinn_loop step loss last f (S i) best' imp' ckpt' g'
        end
      else pinn_loop step loss last f (S i) best imp ckpt g'
  end.
(** [eqs g]: the losses of the equations for network [g] *)
Definition train_pinn step coef (mse : net -> num) (eqs : net -> list (num * option num)) last epochs (g : net) : res (net * option net * nat) :=
  pinn_loop step (fun h => total_loss coef (mse h) (eqs h)) last epochs 0 big None None g.
End Training.

(** ** callIterPINN (kd_discover.py:641-695) *)
Section Iteration.
Context {net tok : Type}.
(** a Program: its tokens and its cached reward *)
Record sprog := mkSP { sp_tok : tok; sp_r : num }.
(** [score g t]: the reward of tokens t on the data made from network g; [find k g] the
    program reported by the k-th search; [refine k last t g] train_pinn with count k. *)
Context (score : net -> tok -> num) (find : nat -> net -> sprog) (refine : nat -> bool -> tok -> net -> res net).
(** 675-683: from_tokens after clear_cache gives a program scored on the current data *)
Definition pick (g : net) (prev : option tok) (new : sprog) : sprog :=
  match prev with
  | None => new
  | Some t => let old := mkSP t (score g t) in if nlt (sp_r new) (sp_r old) then old else new
  end.
(** one entry per iteration: the network whose data were searched, the program found, the
    program embedded *)
Record round := mkRound { rd_net : net; rd_found : sprog; rd_embedded : sprog; rd_last : bool }.
Fixpoint iterate (iter_num n i : nat) (prev : option tok) (g : net) : res (net * list round) :=
  match n with
  | O => Ok (g, [])
  | S n' =>
      let new := find i g in
      let p := pick g prev new in
      let last := Nat.eqb (i + 1) iter_num in
      do g' <- refine (i + 1) last (sp_tok p) g ;
      do r <- iterate iter_num n' (S i) (Some (sp_tok p)) g' ;
      Ok (fst r, mkRound g new p last :: snd r)
  end.
(** the result: the final search on the data of the last network; and self.best_p *)
Record outcome := mkOutcome { oc_net : net; oc_rounds : list round; oc_result : sprog; oc_best : option sprog }.
Definition call_iter (iter_num : nat) (g : net) : res outcome :=
  do r <- iterate iter_num iter_num 0 None g ;
  Ok (mkOutcome (fst r) (snd r) (find iter_num (fst r)) (option_map rd_embedded (nth_error (snd r) (iter_num - 1)))).
End Iteration.
Arguments sprog : clear implicits. Arguments round : clear implicits. Arguments outcome : clear implicits.

(** ** The data of the search *)

(** np.quantile of a column (default method, linear interpolation between the sorted values) *)
Fixpoint qins (x : Q) (l : list Q) : list Q := match l with [] => [x] | y :: l' => if Qle_bool x y then x :: y :: l' else y :: qins x l' end.
Fixpoint qsort (l : list Q) : list Q := match l with [] => [] | x :: l' => qins x (qsort l') end.
Definition quantile (l : list Q) (q : Q) : res Q :=
  if Qle_bool 0 q && Qle_bool q 1 then
    match l with
    | [] => Err IndexError
    | _ =>
        let v := (inject_Z (Z.of_nat (List.length l - 1)) * q)%Q in
        let lo := Z.to_nat (Qfloor v) in
        let fr := (v - inject_Z (Qfloor v))%Q in
        let a := nth lo (qsort l) 0%Q in
        let b := nth (Nat.min (S lo) (List.length l - 1)) (qsort l) 0%Q in
        Ok (a + (b - a) * fr)%Q
    end
  else Err ValueError.
Definition qlt (a b : Q) : bool := negb (Qle_bool b a).
(** utils_noise.py:10-32 cut_bound_quantile: strict in the x coordinates, not in t.  [xs]: one
    column per coordinate; [mask_of] the rows kept. *)
Definition x_inside (lo up : Q) (v : Q) : bool := qlt lo v && qlt v up.
Definition t_inside (lo up : Q) (v : Q) : bool := Qle_bool lo v && Qle_bool v up.
Definition band (a b : list bool) : list bool := map (fun p => fst p && snd p) (combine a b).
Definition cut_bound_quantile (xs : list col) (t : col) (q : Q) : res (list col * col) :=
  do lows <- mapM (fun c => quantile c q) xs ; do lt <- quantile t q ;
  do ups <- mapM (fun c => quantile c (1 - q)) xs ; do ut <- quantile t (1 - q) ;
  match xs with
  | [] => Err IndexError                                              (* len(x[0]) *)
  | x0 :: _ =>
      let step m c := band (map (x_inside (fst (snd c)) (snd (snd c))) (fst c)) m in
      let limit := band (fold_left step (combine xs (combine lows ups)) (map (fun _ => true) x0)) (map (t_inside lt ut) t) in
      do xs' <- mapM (bindex limit) xs ; do t' <- bindex limit t ; Ok (xs', t')
  end.

(** pde_pinn.py:121-147 _refresh_param_refs: one parameter field (flattened), [n] collocation
    points.  np.allclose(raw, raw.flat[0]). *)
Definition allclose_to (c : Q) (l : list Q) : bool := forallb (fun v => Qle_bool (Qabs (v - c)) ((1 # 100000000) + (1 # 100000) * Qabs c)) l.
Definition refresh_param (raw : list Q) (n : nat) : res (list Q) :=
  match raw with
  | [] => Err IndexError
  | c :: _ => if allclose_to c raw then Ok (repeat c n) else Err NotImplementedError
  end.

(** pinn.py:372-376 net_u: the scaled input 2 (X - lb)/(ub - lb) - 1 of one row *)
Fixpoint scaled (lb ub row : list Q) : list Q :=
  match lb, ub, row with l :: lb', u :: ub', r :: row' => (2 * (r - l) / (u - l) - 1)%Q :: scaled lb' ub' row' | _, _, _ => [] end.

(** ** Settings of a run (kd_discover.py:488-501, 566-596) *)
Record settings := mkSet { st_input_dim : Z; st_generation : string; st_n_input_var : Z; st_n_param_var : nat; st_param_names : option (list string) }.
(** the baseline taken by set_config *)
Record baseline := mkBase { bl_input_dim : Z; bl_generation : string; bl_n_input_var : Z }.
(** what the adapter's data say: n_input_dim (absent for x/t/usol data), param_names *)
Record ddata := mkData { dd_dim : option Z; dd_params : list string }.
(** _inject_nd_config *)
Definition inject (b : baseline) (s : settings) (d : ddata) : settings :=
  let s1 := mkSet (bl_input_dim b) (bl_generation b) (bl_n_input_var b) 0 None in
  let n := match dd_dim d with Some n => n | None => 1%Z end in
  let s2 := if Z.ltb 1 n then mkSet (n + 1) "multi_AD" n (st_n_param_var s1) (st_param_names s1) else s1 in
  match dd_params d with
  | [] => s2
  | ps => mkSet (st_input_dim s2) (st_generation s2) (st_n_input_var s2) (List.length ps) (Some ps)
  end.

(** ** The arrays of the network object (pinn.py:127-151, 153-198) *)
Record pinn_data := mkPD { pd_x : list col; pd_t : col; pd_xf : list col; pd_tf : col; pd_xv : list col; pd_tv : col; pd_u : list (list Q); pd_uv : list (list Q); pd_lb : list Q; pd_ub : list Q }.
Record observations := mkObs { ob_train : list (list Q); ob_u : list (list Q); ob_colloc : list (list Q); ob_val : list (list Q); ob_uv : list (list Q); ob_lb : list Q; ob_ub : list Q }.
(** X[:, i:i+1] for i < d - 1, and X[:, -1:]; [d] is X.shape[-1] *)
Definition x_columns (d : nat) (X : list (list Q)) : list col := map (fun i => map (fun r => nth i r 0%Q) X) (seq 0 (d - 1)).
Definition t_column (d : nat) (X : list (list Q)) : col := map (fun r => nth (d - 1) r 0%Q) X.
(** import_outter_data: every attribute used in training is assigned *)
Definition import_data (d : nat) (old : option pinn_data) (o : observations) : pinn_data :=
  mkPD (x_columns d (ob_train o)) (t_column d (ob_train o)) (x_columns d (ob_colloc o)) (t_column d (ob_colloc o))
       (x_columns d (ob_val o)) (t_column d (ob_val o)) (ob_u o) (ob_uv o) (ob_lb o) (ob_ub o).
