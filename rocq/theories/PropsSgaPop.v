(** Properties of the SGA population: C22, C54, C55. *)
From Coq Require Import QArith Permutation.
From Verif Require Import Base Num SgaNames SgaPop SgaPopFacts.
Local Open Scope nat_scope.

Section C22.
Context {T : Type}.
Variables (tname : T -> string) (keep : T -> bool) (aic : list T -> num) (argsort : list num -> list nat).
Local Notation init := (init keep aic argsort).
Local Notation generation := (generation tname keep aic argsort).
Local Notation evolve := (evolve tname keep aic argsort).
Local Notation run := (run tname keep aic argsort).
(** A freshly drawn individual has as many terms as its width says. *)
Definition drawn (slots : list (list (indiv T))) (n : nat) : Prop :=
  List.length slots = n /\ Forall (Forall (fun c => wid c = List.length (terms c))) slots.

(** *** C22 *)
(** Whatever is drawn, after any number of generations the population has its size, is sorted,
    every individual stands beside its own score, and the scores are the best ones among all
    that were ever accepted: the initial draws that were not rejected and everything scored
    since (err_lib).  Nothing raises.  (No initial individual may score NaN: see below.) *)
Theorem C22_population num top lib0 errs0 slots gs p0 :
  argsort_ok argsort -> drawn slots num -> Forall shuffles gs ->
  init num lib0 errs0 slots = Some (Ok p0) -> Forall (fun e => is_nan e = false) (mses p0) ->
  exists p initial later, evolve num top gs p0 = Ok p /\
    errs p0 = errs0 ++ initial /\ errs p = errs p0 ++ later /\
    List.length (eqs p) = num /\ List.length (mses p) = num /\ nsorted (mses p) /\
    mses p = map (fun e => score aic (terms e)) (eqs p) /\
    Forall (fun e => wid e = List.length (terms e) /\ terms e <> []) (eqs p) /\
    n_best num (filter (fun e => negb (rejected e)) initial ++ later) (mses p).
Proof.
  intros Hs [Ls Ss] Hg Hi Hn.
  destruct (init_spec tname keep aic argsort Hs num lib0 errs0 slots _ Ls Ss Hi) as (q & l & E & A & L & S & Ee & N & R).
  injection E as <-.
  assert (G : good keep aic num p0) by (split; [exact A|split; [exact L|apply not_rejected_scored; assumption]]).
  destruct (evolve_ok tname keep aic argsort Hs num top gs p0 G S Hg) as (p & Ep & Gp & Sp & new & En & Np).
  exists p, l, new. pose proof Gp as ([Ap Fp] & Lp & Scp).
  repeat (split; [assumption|]). split; [rewrite Ap, map_length; exact Lp|]. split; [exact Sp|]. split; [exact Ap|]. split.
  - pose proof (scored_nonempty keep aic p (proj1 Gp) Scp) as NE. apply Forall_forall. intros e He. rewrite Forall_forall in NE, Fp. split; [apply Fp|apply NE]; exact He.
  - eapply n_best_step; eauto.
Qed.
(** The k-th best score never gets worse from one generation to the next; in particular the best. *)
Theorem C22_elitist num top lib0 errs0 slots gs g p0 p p' k a b :
  argsort_ok argsort -> drawn slots num -> Forall shuffles gs -> shuffles g ->
  init num lib0 errs0 slots = Some (Ok p0) -> Forall (fun e => is_nan e = false) (mses p0) ->
  evolve num top gs p0 = Ok p -> generation num top g p = Ok p' ->
  nth_error (mses p) k = Some a -> nth_error (mses p') k = Some b -> nle b a = true.
Proof.
  intros Hs [Ls Ss] Hg Hg' Hi Hn He Hge Ha Hb.
  destruct (init_spec tname keep aic argsort Hs num lib0 errs0 slots _ Ls Ss Hi) as (q & l & E & A & L & S & Ee & N & R).
  injection E as <-.
  assert (G : good keep aic num p0) by (split; [exact A|split; [exact L|apply not_rejected_scored; assumption]]).
  destruct (evolve_ok tname keep aic argsort Hs num top gs p0 G S Hg) as (p2 & Ep & Gp & Sp & _). rewrite He in Ep. injection Ep as <-.
  destruct (generation_ok tname keep aic argsort Hs num top g p Gp Hg') as (p3 & Ep & Gp' & Sp' & new & En & Np). rewrite Hge in Ep. injection Ep as <-.
  assert (X : sle b a = true).
  { eapply n_best_improves; [apply (n_best_self num (mses p)); [|exact Sp]|exact Np|exact Ha|exact Hb].
    destruct Gp as ([Ap _] & Lp & _). rewrite Ap, map_length. exact Lp. }
  unfold sle in X. destruct Gp as (_ & _ & Sc). unfold scored in Sc. rewrite Forall_forall in Sc. specialize (Sc a (nth_error_In _ _ Ha)).
  destruct a; cbn in *; auto; discriminate.
Qed.
(** What run returns is an individual of the final population with its score, and no score
    accepted initially or obtained later is better. *)
Theorem C22_best num top lib0 errs0 slots gs p0 :
  argsort_ok argsort -> 0 < num -> drawn slots num -> Forall shuffles gs ->
  init num lib0 errs0 slots = Some (Ok p0) -> Forall (fun e => is_nan e = false) (mses p0) ->
  exists p e m initial later, evolve num top gs p0 = Ok p /\ run num top gs p0 = Ok (e, m) /\
    In e (eqs p) /\ m = score aic (terms e) /\ is_nan m = false /\
    errs p0 = errs0 ++ initial /\ errs p = errs p0 ++ later /\
    (forall s, In s initial -> rejected s = false -> sle m s = true) /\ (forall s, In s later -> sle m s = true).
Proof.
  intros Hs Hpos [Ls Ss] Hg Hi Hn.
  destruct (init_spec tname keep aic argsort Hs num lib0 errs0 slots _ Ls Ss Hi) as (q & l & E & A & L & S & Ee & N & R).
  injection E as <-.
  assert (G : good keep aic num p0) by (split; [exact A|split; [exact L|apply not_rejected_scored; assumption]]).
  destruct (evolve_ok tname keep aic argsort Hs num top gs p0 G S Hg) as (p & Ep & Gp & Sp & new & En & Np).
  destruct num as [|num]; [lia|]. destruct (the_best_sorted keep aic num p Gp Sp) as (e & m & Eb & Em & Hin & Hm).
  exists p, e, m, l, new. split; [exact Ep|]. split; [unfold SgaPop.run; rewrite Ep; exact Eb|]. split; [exact Hin|]. split; [exact Hm|].
  split; [destruct Gp as (_ & _ & Sc); apply scored_notnan in Sc; rewrite Forall_forall in Sc; apply Sc; eapply nth_error_In; exact Em|].
  split; [exact Ee|]. split; [exact En|].
  pose proof (n_best_step _ _ _ _ _ N Np) as (_ & Sb & r & P & H).
  assert (X : forall s, In s (filter (fun e => negb (rejected e)) l ++ new) -> sle m s = true).
  { intros s Hs'. apply (Permutation_in _ P) in Hs'. apply in_app_or in Hs' as [H1|H1].
    - apply In_nth_error in H1 as [i Hi']. eapply (Sb 0 i); eauto. lia.
    - apply H; [eapply nth_error_In; exact Em|exact H1]. }
  split.
  - intros s H1 H2. apply X. apply in_or_app. left. apply filter_In. split; [exact H1|]. rewrite H2. reflexivity.
  - intros s H1. apply X. apply in_or_app. right. exact H1.
Qed.
(** *** C54 *)
(** If no term is ever deleted by the evaluation, the search does not score two candidates with
    the same printed form (each score after the initial population records one new name).
    For candidates losing terms and for initial individuals this fails: refuted below. *)
Theorem C54_scored_once num top slots gs p0 p :
  (forall t, keep t = true) ->
  init num [] [] slots = Some (Ok p0) -> evolve num top gs p0 = Ok p ->
  NoDup (lnames (lib p)) /\ List.length (errs p) = List.length (errs p0) + List.length (lnames (lib p)).
Proof.
  intros Hk Hi He. destruct (evolve_recorded tname keep aic argsort Hk num top gs p0 p He) as (new & A & B & C).
  pose proof (init_lnames keep aic argsort num [] [] slots p0 Hi) as D. cbn in D. rewrite D in *. cbn in A. split; [apply C; constructor|].
  rewrite B, A. reflexivity.
Qed.
(** *** C55 *)
(** A run on a solver that has been used before starts from the library [lib0] and the scores
    [errs0] left behind: of all forms recorded, before and now, none is scored again, and the
    second run records one new form per score after its initial population. *)
Theorem C55_second_run_skips num top lib0 errs0 slots gs p0 p :
  (forall t, keep t = true) -> NoDup (lnames lib0) ->
  init num lib0 errs0 slots = Some (Ok p0) -> evolve num top gs p0 = Ok p ->
  exists new, lnames (lib p) = lnames lib0 ++ new /\ NoDup new /\ (forall s, In s new -> ~ In s (lnames lib0)) /\
    List.length (errs p) = List.length (errs p0) + List.length new.
Proof.
  intros Hk N Hi He. destruct (evolve_recorded tname keep aic argsort Hk num top gs p0 p He) as (new & A & B & C).
  pose proof (init_lnames keep aic argsort num lib0 errs0 slots p0 Hi) as D. rewrite D in *. specialize (C N). rewrite A in C.
  exists new. split; [exact A|]. clear - C B. induction (lnames lib0) as [|y l IH]; cbn in *; [auto|]. apply NoDup_cons_iff in C as [C1 C2].
  destruct (IH C2) as (I1 & I2 & I3). split; [exact I1|]. split; [|exact I3]. intros s Hs [->|H]; [|exact (I2 s Hs H)]. apply C1. apply in_or_app. auto.
Qed.
End C22.
Print Assumptions C55_second_run_skips.
Print Assumptions C22_population.
Print Assumptions C22_elitist.
Print Assumptions C22_best.
Print Assumptions C54_scored_once.

(** ** A concrete search: terms are numbers, term 0 is deleted, the score is the sum. *)
Definition nm (t : nat) : string := match t with 0 => "a" | 1 => "b" | 2 => "c" | 3 => "d" | _ => "e" end.
Definition kp (t : nat) : bool := negb (Nat.eqb t 0).
Definition total (l : list nat) : num := if existsb (Nat.eqb 9) l then NaN else Fin (inject_Z (Z.of_nat (fold_right Nat.add 0 l))).
Definition ind (l : list nat) : indiv nat := mkInd l (List.length l).
Definition plain_draws (m : nat -> nat -> nat -> nat) (r : nat -> option (nat * nat)) : draws nat := mkDraws (fun l => l) (fun _ => 0) (fun _ => 1) m r.
Definition dec : draws nat := plain_draws (fun _ _ t => t - 1) (fun _ => None).
Definition same : draws nat := plain_draws (fun _ _ t => t) (fun _ => None).
Lemma plain_shuffles m r : shuffles (plain_draws m r).
Proof. intros l. apply Permutation_refl. Qed.
Example C22_example : exists p0 p, init kp total argsort_ref 3 [] [] [[ind [3; 4]]; [ind [0]; ind [1; 0; 2]]; [ind [4]]] = Some (Ok p0) /\
  map terms (eqs p0) = [[1; 2]; [4]; [3; 4]] /\ Forall (fun e => is_nan e = false) (mses p0) /\ Forall shuffles [dec; dec] /\
  drawn [[ind [3; 4]]; [ind [0]; ind [1; 0; 2]]; [ind [4]]] 3 /\
  evolve nm kp total argsort_ref 3 2 [dec; dec] p0 = Ok p /\ map terms (eqs p) = [[1]; [1]; [1; 1]] /\ mses p = [Fin 1; Fin 1; Fin 2].
Proof.
  eexists _, _. split; [vm_compute; reflexivity|]. split; [reflexivity|]. split; [repeat constructor|].
  split; [repeat constructor; apply plain_shuffles|]. split; [split; [reflexivity|repeat constructor]|].
  split; [vm_compute; reflexivity|]. split; reflexivity.
Qed.
(** A NaN score passes the rejection test (NaN < -100 and NaN == inf are both false), and
    np.argmin then returns it as the best although a finite score is in the population. *)
Theorem C22_nan_best_refuted : exists slots p0 e m, drawn slots 2 /\
  init kp total argsort_ref 2 [] [] slots = Some (Ok p0) /\ In (Fin 1) (mses p0) /\
  run nm kp total argsort_ref 2 0 [] p0 = Ok (e, m) /\ m = NaN.
Proof.
  exists [[ind [9]]; [ind [1]]]. eexists _, _, _. split; [split; [reflexivity|repeat constructor]|]. split; [vm_compute; reflexivity|].
  split; [cbn; tauto|]. split; vm_compute; reflexivity.
Qed.
(** A NaN individual can be displaced by one without terms, whose replacement (or crossover) then raises. *)
Theorem C22_nan_crash_refuted : exists slots p0 gs, drawn slots 2 /\ Forall shuffles gs /\
  init kp total argsort_ref 2 [] [] slots = Some (Ok p0) /\ evolve nm kp total argsort_ref 2 0 gs p0 = Err ValueError.
Proof.
  exists [[ind [9]]; [ind [1]]]. eexists. exists [plain_draws (fun i _ t => if Nat.eqb t 9 then 0 else t) (fun _ => None); plain_draws (fun _ _ t => t) (fun _ => Some (0, 1))].
  split; [split; [reflexivity|repeat constructor]|]. split; [repeat constructor; intros l; apply Permutation_refl|]. split; [vm_compute; reflexivity|].
  vm_compute. reflexivity.
Qed.
(** A perfect fit (score below -100) drawn initially is thrown away: the run may return a worse
    equation than one it has scored. *)
Theorem C22_perfect_discarded_refuted : exists aic slots p0 e m s, drawn slots 1 /\
  init kp aic argsort_ref 1 [] [] slots = Some (Ok p0) /\ run nm kp aic argsort_ref 1 0 [] p0 = Ok (e, m) /\
  In s (errs p0) /\ nlt s m = true.
Proof.
  exists (fun l => match l with [1] => Fin (-200) | _ => Fin 5 end), [[ind [1]; ind [2]]]. eexists _, _, _, (Fin (-200)).
  split; [split; [reflexivity|repeat constructor]|]. split; [vm_compute; reflexivity|]. split; [vm_compute; reflexivity|]. split; [cbn; tauto|reflexivity].
Qed.
Print Assumptions C22_nan_best_refuted.
Print Assumptions C22_nan_crash_refuted.
Print Assumptions C22_perfect_discarded_refuted.

(** *** C54 *)
Example C54_example : exists p0 p, init (fun _ => true) total argsort_ref 2 [] [] [[ind [3]]; [ind [2]]] = Some (Ok p0) /\
  evolve nm (fun _ => true) total argsort_ref 2 2 [dec; dec] p0 = Ok p /\ lnames (lib p) = ["c"; "d"; "b"]%string /\ List.length (errs p) = 5.
Proof. eexists _, _. split; [vm_compute; reflexivity|]. split; [vm_compute; reflexivity|]. split; reflexivity. Qed.
(** An initial individual is recorded as an object, not under its name: the first offspring equal
    to it is scored again and stands in the population a second time. *)
Theorem C54_initial_refuted : exists slots p0 p g, drawn slots 3 /\ shuffles g /\
  init (fun _ => true) total argsort_ref 3 [] [] slots = Some (Ok p0) /\ NoDup (map terms (eqs p0)) /\
  generation nm (fun _ => true) total argsort_ref 3 2 g p0 = Ok p /\ ~ NoDup (map terms (eqs p)).
Proof.
  exists [[ind [1]]; [ind [2]]; [ind [4]]]. eexists _, _, same. split; [split; [reflexivity|repeat constructor]|]. split; [apply plain_shuffles|].
  split; [vm_compute; reflexivity|]. split; [cbn; repeat constructor; cbn; intuition discriminate|]. split; [vm_compute; reflexivity|].
  cbn. intros N. inversion_clear N as [|? ? N1 _]. apply N1. cbn. tauto.
Qed.
(** The name is tested before the evaluation deletes terms and recorded afterwards: the same
    candidate is scored, and enters the population, again and again. *)
Theorem C54_deletion_refuted : exists slots p0 p gs, drawn slots 2 /\ Forall shuffles gs /\
  init kp total argsort_ref 2 [] [] slots = Some (Ok p0) /\ evolve nm kp total argsort_ref 2 0 gs p0 = Ok p /\
  lnames (lib p) = ["b"; "b"]%string /\ map terms (eqs p) = [[1]; [1]].
Proof.
  exists [[ind [3; 3]]; [ind [2; 4]]]. eexists _, _.
  exists [plain_draws (fun _ j _ => match j with 0 => 0 | _ => 1 end) (fun _ => None);
          plain_draws (fun _ j _ => match j with 0 => 0 | _ => 1 end) (fun _ => None)].
  split; [split; [reflexivity|repeat constructor]|]. split; [repeat constructor; intros l; apply Permutation_refl|].
  split; [vm_compute; reflexivity|]. vm_compute. split; [reflexivity|]. split; reflexivity.
Qed.
Print Assumptions C54_initial_refuted.
Print Assumptions C54_deletion_refuted.

(** *** C55 *)
(** SGAPDE_Solver.run (solver.py:41-80) keeps pde_lib and err_lib of the solver: the next run
    starts with them.  Two runs of the same search on the same data and draws, the second one on
    the same solver: an equation found by the first run is skipped by the second. *)
Theorem C55_second_run_refuted : exists slots gs p0 p best q0 best2, drawn slots 2 /\ Forall shuffles gs /\
  init (fun _ => true) total argsort_ref 2 [] [] slots = Some (Ok p0) /\
  evolve nm (fun _ => true) total argsort_ref 2 0 gs p0 = Ok p /\
  run nm (fun _ => true) total argsort_ref 2 0 gs p0 = Ok best /\
  init (fun _ => true) total argsort_ref 2 (lib p) (errs p) slots = Some (Ok q0) /\
  run nm (fun _ => true) total argsort_ref 2 0 gs q0 = Ok best2 /\ nlt (snd best) (snd best2) = true.
Proof.
  exists [[ind [3]]; [ind [2]]], [plain_draws (fun _ _ t => t - 2) (fun _ => None)]. eexists _, _, _, _, _.
  split; [split; [reflexivity|repeat constructor]|]. split; [repeat constructor; intros l; apply Permutation_refl|].
  split; [vm_compute; reflexivity|]. split; [vm_compute; reflexivity|]. split; [vm_compute; reflexivity|].
  split; [vm_compute; reflexivity|]. split; [vm_compute; reflexivity|]. reflexivity.
Qed.
Print Assumptions C55_second_run_refuted.
