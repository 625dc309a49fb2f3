(** Model of kd/model/discover/controller.py (the policy network: sampling of expressions and the training loss), of
    kd/model/discover/state_manager.py (its inputs) and of HierarchicalTask (kd/model/discover/task/task.py:113-173).
    The recurrent cell is an argument [cell]: state -> input -> (output, new state); the random draws are an argument.
    One row of a batch is modelled: rows are independent, and all of them stop at the same time (controller.py:284-286).
    Program.n_objects is 1. *)
From Coq Require Import QArith.
From Verif Require Import Base Num Library Subroutines Prior EqGpt.
Local Open Scope nat_scope.
Local Open Scope list_scope.

(** ** State manager (state_manager.py) *)
(** An observation (task.py:120 OBS_DIM = 4: action, parent, sibling, dangling) *)
Record ob := mkOb { ob_action : nat; ob_parent : Z; ob_sibling : nat; ob_dangling : Z }.
(** The arguments of HierarchicalStateManager (state_manager.py:95-128); embedding_size does not matter *)
Record manager := mkM { m_parent : bool; m_sibling : bool; m_action : bool; m_dangling : bool; m_embedding : bool }.
(** the assertion of state_manager.py:124-125 *)
Definition make_manager (m : manager) : res manager :=
  if m_action m || m_parent m || m_sibling m || m_dangling m then Ok m else Err AssertionError.
(** torch.nn.functional.one_hot(z, num_classes=n): an index outside 0..n-1 is refused *)
Definition one_hot (n : nat) (z : Z) : res (list Z) :=
  if ((z <? 0) || (Z.of_nat n <=? z))%Z then Err RuntimeError
  else Ok (map (fun i => if (Z.of_nat i =? z)%Z then 1%Z else 0%Z) (seq 0 n)).
(** one categorical observation (state_manager.py:163-182): with embedding=True an nn.Parameter is called *)
Definition categorical (embedding : bool) (n : nat) (z : Z) : res (list Z) :=
  if embedding then Err TypeError else one_hot n z.
(** n_action_inputs, n_parent_inputs, n_sibling_inputs (library.py:200-205) *)
Definition n_action_inputs (lib : library) : nat := lEMPTY_ACTION lib + 1.
Definition n_parent_inputs (lib : library) : nat := lEMPTY_PARENT lib + 1.
Definition n_sibling_inputs (lib : library) : nat := lEMPTY_SIBLING lib + 1.
(** state_manager.py:153-190 get_tensor_input, one row.  [array]: the observation is a numpy array, whose columns have
    no unsqueeze *)
Definition get_tensor_input (lib : library) (m : manager) (array : bool) (o : ob) : res (list Z) :=
  do a <- (if m_action m then categorical (m_embedding m) (n_action_inputs lib) (Z.of_nat (ob_action o)) else Ok []) ;
  do p <- (if m_parent m then categorical (m_embedding m) (n_parent_inputs lib) (ob_parent o) else Ok []) ;
  do s <- (if m_sibling m then categorical (m_embedding m) (n_sibling_inputs lib) (Z.of_nat (ob_sibling o)) else Ok []) ;
  do d <- (if m_dangling m then if array then Err AttributeError else Ok [ob_dangling o] else Ok []) ;
  Ok (a ++ p ++ s ++ d).

(** ** Settings (controller.py:136-231) *)
Record settings := mkC {
  c_cell : string; c_layers : nat; c_initializer : string; c_optimizer : string; c_max_length : option nat;
  c_entropy_weight : Q; c_entropy_gamma : option Q; c_pqt : bool; c_pqt_weight : Q; c_pqt_use_pg : bool }.
(** Priors as far as the constructor looks at them (controller.py:164-170): for each prior, [Some max] if it is a
    LengthConstraint.  The loop stops at the first LengthConstraint. *)
Fixpoint prior_max_length (priors : list (option (option nat))) : option nat :=
  match priors with
  | [] => None
  | None :: l => prior_max_length l
  | Some mx :: _ => mx
  end.
(** controller.py:164-183 *)
Definition resolve_max_length (c : settings) (priors : list (option (option nat))) : res nat :=
  match prior_max_length priors with
  | Some n => Ok n
  | None => match c_max_length c with Some n => Ok n | None => Err AssertionError end
  end.
(** StructureAwareLSTM.__init__ (controller.py:13-51); at least one layer.  An unknown cell leaves self.cell unset, an
    unknown initializer gives None to call, and 'var_scale' asks kaiming_uniform_ for a mode it does not have. *)
Definition build_cell (c : settings) : res unit :=
  if negb (String.eqb (c_cell c) "lstm" || String.eqb (c_cell c) "gru") then Err AttributeError
  else if String.eqb (c_initializer c) "zeros" then Ok tt
  else if String.eqb (c_initializer c) "var_scale" then Err ValueError
  else Err TypeError.
(** The initial observation (task.py:159-173) *)
Definition initial_ob (lib : library) : ob := mkOb (lEMPTY_ACTION lib) (Z.of_nat (lEMPTY_PARENT lib)) (lEMPTY_SIBLING lib) 1.
(** Controller.__init__: the maximal length *)
Definition make_controller (lib : library) (m : manager) (c : settings) (priors : list (option (option nat))) : res nat :=
  do n <- resolve_max_length c priors ;
  do _ <- get_tensor_input lib m true (initial_ob lib) ;
  do _ <- build_cell c ;
  Ok n.
(** The first call of the cell with the state (h_0, c_0) of shape (1, batch, units) (controller.py:240-242, 388):
    nn.GRU takes no tuple, and more layers need a larger state *)
Definition cell_callable (c : settings) : res unit :=
  if String.eqb (c_cell c) "gru" then Err AttributeError
  else if c_layers c =? 1 then Ok tt else Err RuntimeError.
(** self.optimizer stays the name unless it is one of two (controller.py:225-230); train_step calls zero_grad (404) *)
Definition optimizer_usable (c : settings) : res unit :=
  if String.eqb (c_optimizer c) "adam" || String.eqb (c_optimizer c) "sgd" then Ok tt else Err AttributeError.

(** ** Sampling (controller.py:233-308, 374-400) *)
Definition logit := option Q.                                          (* None: -inf *)
(** logits = cell_output + prior *)
Definition add_logits (out : list Q) (prior : list logit) : list logit :=
  map2 (fun o p => match p with Some q => Some (o + q)%Q | None => None end) out prior.
(** JointPrior (prior.py:135-165, 183-215): hard priors [ps] give -inf, the others a finite number *)
Definition init_logits (lib : library) (ps : list prior) (soft0 : nat -> Q) : list logit :=
  map (fun i => if existsb (fun p => memb i (pr_init p)) ps then None else Some (soft0 i)) (seq 0 (lL lib)).
Definition prior_logits (lib : library) (ps : list prior) (soft : pobs -> nat -> Q) (o : pobs) : list logit :=
  map (fun i => if existsb (fun p => memb i (pr_forb p o)) ps then None else Some (soft o i)) (seq 0 (lL lib)).
(** torch.multinomial(softmax(logits), 1): some token of non-zero probability, [k] says which; if there is none the
    probabilities are NaN and torch refuses *)
Definition multinomial (k : nat) (lg : list logit) : res nat :=
  match indices is_some lg with
  | [] => Err RuntimeError
  | ((_ :: _) as l) => Ok (nth (k mod List.length l) l 0)
  end.

Section Sampling.
Variables (H : Type) (cell : H -> list Z -> list Q * H) (zero : H).
Variables (lib : library) (m : manager) (ps : list prior) (soft0 : nat -> Q) (soft : pobs -> nat -> Q).
Variables (draw : nat -> nat) (max_length : nat).

(** task.py:125-157 get_next_obs: the next observation, the next prior and the OLD observation, whose last entry has
    been updated in place (141: dangling is a view of obs) *)
Definition get_next_obs (actions : list nat) (o : ob) : res (ob * list logit * ob) :=
  let a := last actions 0 in
  do ps' <- parents_siblings (ar_of lib) (padj_of lib) (Z.of_nat (lEMPTY_PARENT lib)) (lEMPTY_SIBLING lib) actions ;
  let d := (ob_dangling o + (Z.of_nat (ar_of lib a) - 1))%Z in
  Ok (mkOb a (fst ps') (snd ps') d,
      prior_logits lib ps soft (mkObs actions (fst ps') (snd ps') d),
      mkOb (ob_action o) (ob_parent o) (ob_sibling o) d).

(** loop_state of controller.py:250-257 *)
Record lstate := mkL { l_actions : list nat; l_obs : list ob; l_priors : list (list logit);
                       l_cur : ob; l_prior : list logit; l_len : nat; l_fin : bool }.
(** controller.py:235-257 *)
Definition loop_start : lstate := mkL [] [] [] (initial_ob lib) (init_logits lib ps soft0) 1 false.
(** controller.py:258-308; obs.numpy() shares the memory of obs, so obs_ta receives the updated observation *)
Definition loop_step (time : nat) (out : list Q) (s : lstate) : res lstate :=
  do a <- multinomial (draw time) (add_logits out (l_prior s)) ;
  let actions := l_actions s ++ [a] in
  do x <- get_next_obs actions (l_cur s) ;
  let '(next_obs, next_prior, obs) := x in
  let fin := l_fin s || (max_length <=? time) in
  Ok (mkL actions (l_obs s ++ [obs]) (l_priors s ++ [l_prior s]) next_obs next_prior (if fin then l_len s else S time) fin).
(** controller.py:386-391: the loop of sample_episodes.  The cell is called with [state], which no iteration assigns
    ((finished, next_input, next_state, ...) = self.loop_fn(...)).  [array]: only the initial observation is an array. *)
Fixpoint sample_loop (fuel time : nat) (state : H) (s : lstate) : res lstate :=
  if l_fin s then Ok s
  else match fuel with
       | O => Err OtherError                                           (* never: C126 *)
       | S f =>
           do x <- get_tensor_input lib m (time =? 0) (l_cur s) ;
           let (out, next_state) := cell state x in
           do s' <- loop_step (S time) out s ;
           sample_loop f (S time) state s'
       end.
(** controller.py:374-400 sample_episodes *)
Definition sample_episode : res lstate := sample_loop (S max_length) 0 zero loop_start.

(** ** The loss (controller.py:329-371, 402-424) *)
(** the recurrent network run over a whole sequence, from the zero state *)
Fixpoint unroll (h : H) (xs : list (list Z)) : list (list Q) :=
  match xs with [] => [] | x :: r => let (o, h') := cell h x in o :: unroll h' r end.
(** one row of a Batch (dso/memory.py): actions, obs, priors, length, reward *)
Record row := mkRow { r_actions : list nat; r_obs : list ob; r_priors : list (list logit); r_len : nat; r_reward : num }.
(** controller.py:330-334 *)
Definition train_logits (r : row) : res (list (list logit)) :=
  do xs <- mapM (get_tensor_input lib m false) (r_obs r) ;
  Ok (map2 add_logits (unroll zero xs) (r_priors r)).

(** softmax and log_softmax *)
Variables (softmax log_softmax : list logit -> list num).
Definition nneg (a : num) : num := nmul (Fin (-1)) a.
Definition nsum (l : list num) : num := fold_right nadd (Fin 0) l.
(** controller.py:324-326 *)
Definition safe_cross_entropy (p logq : list num) : num :=
  nneg (nsum (map2 (fun p q => nmul p (if num_eqb p (Fin 0) then Fin 1 else q)) p logq)).
(** F.one_hot(action).float() *)
Definition hot (a n : nat) : list num := map (fun i => if i =? a then Fin 1 else Fin 0) (seq 0 n).
(** (torch.arange(max_length) < length).float() *)
Definition mask (len : nat) : list num := map (fun t => if t <? len then Fin 1 else Fin 0) (seq 0 max_length).
(** controller.py:188-191 entropy_gamma_decay *)
Definition gamma_of (g : option Q) : Q := match g with Some q => q | None => 1 end.
Fixpoint qpow (q : Q) (n : nat) : Q := match n with O => 1 | S k => q * qpow q k end.
Definition decay (g : option Q) : list num := map (fun t => Fin (qpow (gamma_of g) t)) (seq 0 max_length).
(** neglogp_per_step and entropy_per_step *)
Definition neglogp_steps (n : nat) (lgs : list (list logit)) (actions : list nat) : list num :=
  map2 (fun lg a => safe_cross_entropy (hot a n) (log_softmax lg)) lgs actions.
Definition entropy_steps (lgs : list (list logit)) : list num :=
  map (fun lg => safe_cross_entropy (softmax lg) (log_softmax lg)) lgs.
(** controller.py:329-371 make_neglogp_and_entropy, one row *)
Definition neglogp_entropy (g : option Q) (r : row) : res (num * num) :=
  do lgs <- train_logits r ;
  Ok (nsum (map2 nmul (neglogp_steps (lL lib) lgs (r_actions r)) (mask (r_len r))),
      nsum (map2 nmul (entropy_steps lgs) (map2 nmul (decay g) (mask (r_len r))))).
(** torch.mean *)
Definition nmean (l : list num) : num := ndiv (nsum l) (Fin (inject_Z (Z.of_nat (List.length l)))).
(** controller.py:402-424 train_step: the loss that is minimized *)
Definition train_loss (c : settings) (b : num) (sampled pqt : list row) : res num :=
  do _ <- optimizer_usable c ;
  do ne <- mapM (neglogp_entropy (c_entropy_gamma c)) sampled ;
  let entropy_loss := nmul (nneg (Fin (c_entropy_weight c))) (nmean (map snd ne)) in
  let loss := if negb (c_pqt c) || (c_pqt c && c_pqt_use_pg c)
              then nadd entropy_loss (nmean (map2 nmul (map (fun r => nadd (r_reward r) (nneg b)) sampled) (map fst ne)))
              else entropy_loss in
  if c_pqt c then
    do nq <- mapM (neglogp_entropy (c_entropy_gamma c)) pqt ;
    Ok (nadd loss (nmul (Fin (c_pqt_weight c)) (nmean (map fst nq))))
  else Ok loss.
End Sampling.

(** ** The shipped settings *)
(** "controller" of config_pde.json:125-155 and of config_regression.json:51-69 (the same but for max_length, which the
    length prior overrides) *)
Definition default_settings : settings := mkC "lstm" 1 "zeros" "adam" (Some 64) (3 # 100) (Some (7 # 10)) true 0 false.
(** "controller" of config_pde_pinn.json:134-145, the rest from the constructor's defaults *)
Definition spr_settings : settings := mkC "lstm" 1 "zeros" "adam" (Some 30) (3 # 100) (Some (7 # 10)) true 0 true.
(** "state_manager" of config_pde.json:157-166 and config_regression.json:70-78; config_pde_pinn.json has none, and the
    arguments default to the same values (state_manager.py:95-97) *)
Definition default_manager : manager := mkM true true false false false.
