(** The DLGA search: C38 (operators and best individual), C67 (which runs go through),
    C68 (individuals are separate). *)
From Coq Require Import QArith Permutation Sorted.
From Verif Require Import Base Num Dlga DlgaFacts.
Local Open Scope nat_scope.

Section Props.
Context {C : Type}.
Variables (fit : genome -> num * (C * string)) (nocoef : C).
Notation eval := (eval fit nocoef).
Notation select := (select fit nocoef).
Notation generation := (generation fit nocoef).
Notation generations := (generations fit nocoef).
Notation evolution := (evolution fit nocoef).
Notation start := (start fit nocoef).

(** Scores are numbers. *)
Definition scored (c : cfg) : Prop := forall g, is_nan (fst (eval c g)) = false.
(** Every individual of the population is a well-formed genome. *)
Definition all_well_formed (c : cfg) (s : ga C) : Prop :=
  List.length (chrom s) = psize c /\ forall i, i < psize c -> exists g, ind s i = Ok g /\ wf_genome c g.

Lemma sound_awf c s : sound c (psize c) s -> all_well_formed c s.
Proof. intros S. split; [apply S|]. intros i Hi. destruct (sound_ind c _ s i S Hi) as (a & g & _ & _ & _ & _ & E & W). eauto. Qed.

Lemma start_ok c d0 h : usable c -> exists s, start c d0 h = Ok s /\ sound c (psize c) s.
Proof.
  intros U. unfold Dlga.start. apply (delete_duplicates_ok c (psize c)); [|lia]. unfold sound. cbn [store chrom]. rewrite map_length, !seq_length. split; [|split; [|reflexivity]].
  - apply Forall_forall. intros g Hg. apply in_map_iff in Hg as (i & <- & _). apply random_genome_wf. exact U.
  - apply Forall_forall. intros a Ha. apply in_seq in Ha. lia.
Qed.
Lemma generations_ok c ds s : runnable c -> scored c -> sound c (psize c) s -> exists s', generations c ds s = Ok s' /\ sound c (psize c) s'.
Proof.
  intros R NN. revert s. induction ds as [|d ds IH]; intros s S; cbn [Dlga.generations]; [eauto|].
  destruct (generation_ok fit nocoef c d s R S NN) as (s4 & s' & _ & E & S' & _). rewrite E. cbn [bind]. apply IH. exact S'.
Qed.
Lemma generations_app c ds1 ds2 s : generations c (ds1 ++ ds2) s = do s' <- generations c ds1 s ; generations c ds2 s'.
Proof. revert s. induction ds1 as [|d ds1 IH]; intros s; cbn; [reflexivity|]. destruct (generation c d s) as [s'|]; cbn; [apply IH|reflexivity]. Qed.

(** State after at least one generation: the first individual is the best of the last
    evaluated population and the reported values are its own. *)
Definition settled (c : cfg) (s : ga C) : Prop := exists g f k n cs ns,
  ind s 0 = Ok g /\ nth_error (fitn s) 0 = Some f /\ coefs s = Some cs /\ nth_error cs 0 = Some k /\
  names s = Some ns /\ nth_error ns 0 = Some n /\ eval c g = (f, (k, n)).
Lemma selected_settled c d s s' : selected fit nocoef c d s s' -> 2 <= psize c -> settled c s'.
Proof.
  intros Sel P2. assert (1 <= psize c / 2) as C2 by (apply Nat.div_le_lower_bound; lia).
  destruct (sel_kept _ _ _ _ _ _ Sel 0 ltac:(lia)) as (j & g & _ & _ & _ & E & F & (cs & Ec & _ & Nc) & (ns & En & _ & Nn)).
  exists g, (fst (eval c g)), (fst (snd (eval c g))), (snd (snd (eval c g))), cs, ns. repeat split; auto.
  destruct (eval c g) as [? [? ?]]. reflexivity.
Qed.

(** A random module can be any list of 1 to max_length genes of the library, and nothing else. *)
Theorem C38_random_modules c m : usable c ->
  (exists d, random_module c d = m) <-> 1 <= List.length m <= mlen c /\ Forall (fun g => g < nlib c) m.
Proof.
  intros [Un Um]. split; [intros [d <-]; exact (module_loop_wf _ _ _ _ Un Um)|]. intros [L F]. unfold random_module.
  exists (fun i => (nth i m 0, List.length m <=? S i)).
  assert (G : forall r k i, skipn i m = r -> i + List.length r = List.length m -> 1 <= List.length r <= k -> module_loop (nlib c) k i (fun i => (nth i m 0, List.length m <=? S i)) = r); [|apply (G m (mlen c) 0); [reflexivity|reflexivity|exact L]].
  induction r as [|g r IH]; intros k i Es El Lr; [cbn in Lr; lia|]. destruct k as [|k]; [cbn in Lr; lia|]. cbn [module_loop]. replace (nlib c =? 0) with false by (symmetry; apply Nat.eqb_neq; lia). cbn [fst snd].
  assert (Hn : nth i m 0 = g). { rewrite <- (firstn_skipn i m), Es. rewrite app_nth2; rewrite firstn_length; cbn [List.length] in El; [|lia]. replace (i - Nat.min i (List.length m)) with 0 by lia. reflexivity. }
  rewrite Hn, Nat.mod_small by (rewrite Forall_forall in F; apply F; rewrite <- Hn; apply nth_In; cbn [List.length] in El; lia). f_equal.
  cbn [List.length] in El, Lr. destruct (List.length m <=? S i) eqn:E.
  - apply Nat.leb_le in E. destruct r; [reflexivity|cbn [List.length] in El; lia].
  - apply Nat.leb_gt in E. apply IH; [|lia|lia]. clear - Es. revert i Es. induction m as [|x m IHm]; intros [|i] Es; cbn [skipn] in *; try discriminate; [congruence|]. exact (IHm i Es).
Qed.
(** C38: every run of a usable configuration, whatever is drawn, gives a population of
    well-formed genomes, and returns one of them with its own score, coefficients and name. *)
Theorem C38_run_returns_well_formed_best c d0 ds h : runnable c -> scored c -> 1 <= List.length ds ->
  exists s g k f n, evolution c d0 ds h = Ok (s, (g, k, f, n)) /\ all_well_formed c s /\ wf_genome c g /\ eval c g = (f, (k, n)).
Proof.
  intros R NN L. destruct (start_ok c d0 h (proj1 R)) as (s0 & E0 & S0).
  destruct (exists_last (l := ds)) as (ds' & d & ->); [destruct ds; [cbn in L; lia|congruence]|].
  destruct (generations_ok c ds' s0 R NN S0) as (s1 & E1 & S1). destruct (generation_ok fit nocoef c d s1 R S1 NN) as (s4 & s2 & _ & E2 & S2 & S4 & _ & _ & _ & Sel).
  destruct (selected_settled c d s4 s2 Sel) as (g & f & k & n & cs & ns & Ei & Ef & Ec & Ek & En & Nn & Ev); [apply R|].
  exists s2, g, k, f, n. assert (wf_genome c g) as W.
  { destruct (sound_ind c _ s2 0 S2) as (a & g' & _ & _ & _ & _ & E & W); [destruct R; lia|]. assert (g' = g) by congruence. congruence. }
  split; [|split; [apply sound_awf; exact S2|split; [exact W|exact Ev]]].
  unfold Dlga.evolution. rewrite E0. cbn [bind]. rewrite generations_app, E1. cbn [bind Dlga.generations]. rewrite E2. cbn [bind].
  unfold answer. destruct S2 as (_ & _ & Ls). assert (kd c && (List.length (chrom s2) =? 0) = false) as ->.
  { destruct (List.length (chrom s2) =? 0) eqn:Z; [apply Nat.eqb_eq in Z; destruct R as (_ & R & _); lia|apply andb_false_r]. }
  rewrite Ei, Ec, En. cbn [bind]. apply at_some in Ek, Ef, Nn. rewrite Ek, Ef. cbn [bind]. rewrite Nn. reflexivity.
Qed.

(** C38: one operator at a time, on every sound population. *)
Theorem C38_operators_keep_genomes_well_formed c d (s : ga C) : usable c -> sound c (psize c) s -> ngen c / 2 <= psize c / 2 ->
  (exists s', cross_over c d s = Ok s' /\ sound c (psize c) s') /\
  (exists s', mutation c d s = Ok s' /\ sound c (psize c) s') /\
  (exists s', delete_duplicates c s = Ok s' /\ sound c (psize c) s').
Proof.
  intros U S H. split; [|split].
  - destruct (cross_over_ok c _ d s S H) as (s' & E & S' & _). eauto.
  - destruct (mutation_ok c _ d s U S ltac:(lia)) as (s' & E & S' & _). eauto.
  - exact (delete_duplicates_ok c _ s S ltac:(lia)).
Qed.

(** C38: crossing exchanges one module between the individuals 2i and 2i+1 for i below
    n_generations / 2 and touches no other individual, provided no two individuals are the
    same object. *)
Theorem C38_crossover_exchanges_modules c d (s : ga C) : sound c (psize c) s -> NoDup (chrom s) -> ngen c / 2 <= psize c / 2 ->
  exists s', cross_over c d s = Ok s' /\
    (forall i, i < ngen c / 2 -> exists g1 g2 n1 n2 x y,
       ind s (2 * i) = Ok g1 /\ ind s (2 * i + 1) = Ok g2 /\ nth_error g1 n1 = Some x /\ nth_error g2 n2 = Some y /\
       ind s' (2 * i) = Ok (upd g1 n1 y) /\ ind s' (2 * i + 1) = Ok (upd g2 n2 x)) /\
    (forall j, 2 * (ngen c / 2) <= j < psize c -> ind s' j = ind s j).
Proof.
  intros S ND H. unfold cross_over.
  assert (forall k, k <= psize c / 2 -> exists s', loop (cross_one d) (seq 0 k) s = Ok s' /\ sound c (psize c) s' /\ chrom s' = chrom s /\
    (forall i, i < k -> exists g1 g2 n1 n2 x y,
       ind s (2 * i) = Ok g1 /\ ind s (2 * i + 1) = Ok g2 /\ nth_error g1 n1 = Some x /\ nth_error g2 n2 = Some y /\
       ind s' (2 * i) = Ok (upd g1 n1 y) /\ ind s' (2 * i + 1) = Ok (upd g2 n2 x)) /\
    (forall j, 2 * k <= j < psize c -> ind s' j = ind s j)) as G.
  2: { destruct (G _ H) as (s' & E & _ & _ & A & B). exists s'. auto. }
  induction k as [|k IH]; intros Hk.
  { exists s. cbn. split; [reflexivity|]. split; [exact S|]. split; [reflexivity|]. split; [intros; lia|reflexivity]. }
  destruct (IH ltac:(lia)) as (s1 & E1 & S1 & C1 & A1 & B1). replace (Datatypes.S k) with (k + 1) by lia. rewrite seq_app, loop_app, E1. cbn [bind seq loop]. replace (0 + k) with k by lia.
  pose proof (Nat.div_mod (psize c) 2 ltac:(lia)) as DM.
  destruct (sound_ind c _ s1 (2 * k) S1 ltac:(lia)) as (a & g & Na & Ea & La & Eg & Ig & [Wg _]).
  destruct (sound_ind c _ s1 (2 * k + 1) S1 ltac:(lia)) as (b & g' & Nb & Eb & Lb & Eg' & Ig' & [Wg' _]).
  assert (a <> b) as Nab.
  { intros <-. rewrite C1 in Na, Nb. pose proof (proj1 (NoDup_nth_error (chrom s)) ND (2 * k) (2 * k + 1)) as D.
    assert (2 * k = 2 * k + 1); [|lia]. apply D; [apply nth_error_Some; congruence|congruence]. }
  destruct (at_ok g (d_x1 d k mod List.length g)) as (x & Ex & Nx); [apply Nat.mod_upper_bound; lia|].
  destruct (at_ok g' (d_x2 d k mod List.length g')) as (y & Ey & Ny); [apply Nat.mod_upper_bound; lia|].
  remember (d_x1 d k mod List.length g) as n1 eqn:En1. remember (d_x2 d k mod List.length g') as n2 eqn:En2.
  assert (cross_one d s1 k = Ok (set_store s1 (upd (upd (store s1) a (upd g n1 y)) b (upd g' n2 x)))) as E2.
  { unfold cross_one. rewrite Ea. cbn [bind]. rewrite Eg. cbn [bind]. destruct (List.length g =? 0) eqn:Z1; [apply Nat.eqb_eq in Z1; lia|].
    rewrite Eb. cbn [bind]. rewrite Eg'. cbn [bind]. destruct (List.length g' =? 0) eqn:Z2; [apply Nat.eqb_eq in Z2; lia|].
    rewrite <- En1, <- En2, Ex. cbn [bind]. rewrite Ey. cbn [bind].
    assert (at_ (upd (store s1) a (upd g n1 y)) b = Ok g') as ->; [|reflexivity].
    apply at_some. rewrite nth_upd_other by exact Nab. apply at_some. exact Eg'. }
  destruct (cross_one_ok c _ d s1 k S1 ltac:(lia)) as (s2 & E2' & S2 & C2). assert (s2 = set_store s1 (upd (upd (store s1) a (upd g n1 y)) b (upd g' n2 x))) as Q by congruence.
  rewrite E2'. cbn [bind]. exists s2. split; [reflexivity|]. split; [exact S2|]. split; [congruence|].
  assert (Other : forall j, j <> 2 * k -> j <> 2 * k + 1 -> j < psize c -> ind s2 j = ind s1 j).
  { intros j J1 J2 J3. rewrite Q. unfold ind. cbn [chrom store set_store]. destruct (sound_ind c _ s1 j S1 J3) as (e & ge & Ne & Ee & _). rewrite Ee. cbn [bind].
    assert (a <> e) as Nae.
    { intros <-. rewrite C1 in Na, Ne. pose proof (proj1 (NoDup_nth_error (chrom s)) ND (2 * k) j) as D. assert (2 * k = j); [|lia]. apply D; [apply nth_error_Some; congruence|congruence]. }
    assert (b <> e) as Nbe.
    { intros <-. rewrite C1 in Nb, Ne. pose proof (proj1 (NoDup_nth_error (chrom s)) ND (2 * k + 1) j) as D. assert (2 * k + 1 = j); [|lia]. apply D; [apply nth_error_Some; congruence|congruence]. }
    unfold at_. rewrite nth_upd_other by exact Nbe. rewrite nth_upd_other by exact Nae. reflexivity. }
  split.
  - intros i Hi. destruct (Nat.eq_dec i k) as [->|Ni].
    + exists g, g', n1, n2, x, y. rewrite <- (B1 (2 * k)), <- (B1 (2 * k + 1)) by lia. repeat (split; [assumption|]).
      rewrite Q. unfold ind. cbn [chrom store set_store]. rewrite Ea, Eb. cbn [bind]. split; apply at_some.
      * rewrite nth_upd_other by congruence. apply nth_upd_same. exact La.
      * apply nth_upd_same. rewrite upd_length. exact Lb.
    + destruct (A1 i ltac:(lia)) as (h1 & h2 & m1 & m2 & u & v & I1 & I2 & N1 & N2 & J1 & J2).
      exists h1, h2, m1, m2, u, v. repeat (split; [assumption|]). rewrite !Other by lia. auto.
  - intros j Hj. rewrite Other by lia. apply B1. lia.
Qed.

(** C38: removing duplicates sorts the modules of each individual and keeps one of each set
    of modules with the same genes; it loses no module. *)
Theorem C38_delete_duplicates_exact c (s s' : ga C) i g : sound c (psize c) s -> delete_duplicates c s = Ok s' -> i < psize c -> ind s i = Ok g ->
  exists g', ind s' i = Ok g' /\
    (forall m, In m g' -> StronglySorted le m /\ exists m0, In m0 g /\ Permutation m m0) /\
    (forall m0, In m0 g -> exists m, In m g' /\ Permutation m m0) /\
    (forall p q m1 m2, nth_error g' p = Some m1 -> nth_error g' q = Some m2 -> Permutation m1 m2 -> p = q).
Proof.
  intros S E Hi Hg. destruct (dedup_ind c _ s S (Nat.le_refl _) s' E i Hi) as (g0 & E0 & E1). assert (g0 = g) as -> by congruence.
  exists (dedup g []). split; [exact E1|].
  assert (forall m, In m (dedup g []) <-> exists x, In x g /\ m = sorted x) as D.
  { intros m. rewrite dedup_In. cbn. intuition auto. }
  split; [|split].
  - intros m I. apply D in I as (x & I & ->). split; [apply sorted_sorted|]. exists x. split; [exact I|apply sorted_perm].
  - intros m0 I. exists (sorted m0). split; [apply D; eauto|apply sorted_perm].
  - intros p q m1 m2 Hp Hq P. assert (NoDup (dedup g [])) as ND by (apply dedup_NoDup; constructor).
    assert (m1 = m2) as ->.
    { assert (In m1 (dedup g [])) as I1 by (eapply nth_error_In; eauto). assert (In m2 (dedup g [])) as I2 by (eapply nth_error_In; eauto).
      apply D in I1 as (x1 & _ & ->). apply D in I2 as (x2 & _ & ->). apply sorted_unique; try apply sorted_sorted. exact P. }
    apply (proj1 (NoDup_nth_error _) ND); [apply nth_error_Some; congruence|congruence].
Qed.

(** C38: selection keeps the pop_size / 2 best: each kept individual is an old one with its
    own score, coefficients and name, in order of score; for every threshold, as many kept
    scores lie at or below it as scores of the population do, up to pop_size / 2. *)
Theorem C38_selection_keeps_the_best c d s : usable c -> sound c (psize c) s -> 2 <= psize c -> scored c ->
  exists s' fl, select c d s = Ok s' /\
    mapM (fun j => do g <- ind s j ; Ok (fst (eval c g))) (seq 0 (psize c)) = Ok fl /\
    List.length (fitn s') = psize c / 2 /\ nsorted (fitn s') /\
    (forall x, count (fun a => nle a x) (fitn s') = Nat.min (psize c / 2) (count (fun a => nle a x) fl)) /\
    (forall i, i < psize c / 2 -> exists j g f k n cs ns, j < psize c /\ ind s j = Ok g /\ ind s' i = Ok g /\ eval c g = (f, (k, n)) /\
       nth_error (fitn s') i = Some f /\ coefs s' = Some cs /\ nth_error cs i = Some k /\ names s' = Some ns /\ nth_error ns i = Some n).
Proof.
  intros U S P2 NN. destruct (select_ok fit nocoef c _ d s U S ltac:(lia) ltac:(lia) NN) as (s' & E & Sel & _).
  destruct (mapM_ok (fun j => do g <- ind s j ; Ok (fst (eval c g))) (seq 0 (psize c))) as (fl & Efl).
  { intros i Hi. apply in_seq in Hi. destruct (sound_ind c _ s i S ltac:(lia)) as (? & g' & _ & _ & _ & _ & Ei & _). rewrite Ei. cbn. eauto. }
  exists s', fl. split; [exact E|]. split; [exact Efl|]. split; [apply Sel|]. split; [apply Sel|]. split; [exact (sel_best _ _ _ _ _ _ Sel fl Efl)|].
  intros i Hi. destruct (sel_kept _ _ _ _ _ _ Sel i Hi) as (j & g & Hj & _ & Ej & Ei & Ef & (cs & Ec & _ & Nc) & (ns & En & _ & Nn)).
  exists j, g, (fst (eval c g)), (fst (snd (eval c g))), (snd (snd (eval c g))), cs, ns. repeat split; auto.
  destruct (eval c g) as [? [? ?]]. reflexivity.
Qed.

(** C38: once there has been a generation, the best is never lost: the best score of every
    later generation is at most it, and at most the score of every individual scored then. *)
Lemma best_step c d s s' f : runnable c -> scored c -> sound c (psize c) s -> settled c s -> nth_error (fitn s) 0 = Some f -> generation c d s = Ok s' ->
  exists f', nth_error (fitn s') 0 = Some f' /\ nle f' f = true /\ settled c s' /\ exists m, hist s' = hist s ++ [m] /\ neq m f'.
Proof.
  intros R NN S St Hf E. destruct (generation_ok fit nocoef c d s R S NN) as (s4 & s2 & _ & E2 & S2 & S4 & I4 & H4 & _ & Sel).
  assert (s2 = s') as -> by congruence. pose proof (selected_settled c d s4 s' Sel ltac:(apply R)) as St'.
  destruct St as (g & f0 & k & n & cs & ns & Ei & Ef & _ & _ & _ & _ & Ev). assert (f0 = f) as -> by congruence.
  destruct St' as (g' & f' & St'). exists f'. assert (nth_error (fitn s') 0 = Some f') as Ef' by (destruct St' as (?&?&?&?&?&?&_); assumption).
  split; [exact Ef'|]. split; [|split; [exists g', f'; exact St'|]].
  - rewrite Ei in I4. pose proof (selected_min fit nocoef c d s4 s' f' 0 g Sel S4 ltac:(apply R) NN Ef' ltac:(destruct R; lia) I4) as Q.
    rewrite Ev in Q. exact Q.
  - destruct (sel_hist _ _ _ _ _ _ Sel f' Ef') as (m & Hm & Q & _). rewrite H4 in Hm. eauto.
Qed.
Theorem C38_best_score_never_gets_worse c d0 ds1 ds2 h s0 s1 s2 : runnable c -> scored c -> 1 <= List.length ds1 ->
  start c d0 h = Ok s0 -> generations c ds1 s0 = Ok s1 -> generations c ds2 s1 = Ok s2 ->
  exists f1 f2, nth_error (fitn s1) 0 = Some f1 /\ nth_error (fitn s2) 0 = Some f2 /\ nle f2 f1 = true.
Proof.
  intros R NN L E0 E1 E2. destruct (start_ok c d0 h (proj1 R)) as (s0' & E0' & S0). assert (s0' = s0) as -> by congruence.
  destruct (exists_last (l := ds1)) as (ds' & d & ->); [destruct ds1; [cbn in L; lia|congruence]|].
  destruct (generations_ok c ds' s0 R NN S0) as (sp & Ep & Sp). rewrite generations_app, Ep in E1. cbn [bind Dlga.generations] in E1.
  destruct (generation_ok fit nocoef c d sp R Sp NN) as (s4 & s1' & _ & E1' & S1 & _ & _ & _ & _ & Sel). rewrite E1' in E1. cbn [bind] in E1. assert (s1' = s1) as -> by congruence.
  pose proof (selected_settled c d s4 s1 Sel ltac:(apply R)) as St. clear - R NN S1 St E2.
  destruct St as (g & f1 & St). assert (nth_error (fitn s1) 0 = Some f1) as Ef by (destruct St as (?&?&?&?&?&?&_); assumption).
  assert (settled c s1) as St' by (exists g, f1; exact St). exists f1. clear St g.
  assert (is_nan f1 = false) as Nf. { destruct St' as (g & f & k & n & cs & ns & _ & Ef' & _ & _ & _ & _ & Ev). specialize (NN g). rewrite Ev in NN. cbn in NN. congruence. }
  assert (forall f, nle f f1 = true -> nth_error (fitn s1) 0 = Some f -> exists f2, Some f1 = Some f1 /\ nth_error (fitn s2) 0 = Some f2 /\ nle f2 f1 = true) as G.
  2: { destruct (G f1 (nle_refl _ Nf) Ef) as (f2 & _ & Q). exists f2. auto. }
  clear Ef. revert s1 S1 St' E2. induction ds2 as [|d ds2 IH]; intros s1 S1 St E2 f Lf Ef; cbn [Dlga.generations] in E2.
  - assert (s1 = s2) as -> by congruence. exists f. auto.
  - destruct (generation_ok fit nocoef c d s1 R S1 NN) as (_ & s3 & _ & E3 & S3 & _). rewrite E3 in E2. cbn [bind] in E2.
    destruct (best_step c d s1 s3 f R NN S1 St Ef E3) as (f3 & Ef3 & L3 & St3 & _).
    apply (IH s3 S3 St3 E2 f3); [eapply nle_trans; eauto|exact Ef3].
Qed.

(** C38: the returned score is at most the score of every individual scored in any
    generation of the run. *)
Theorem C38_answer_beats_every_scored_individual c d0 ds1 d ds2 h s0 s1 s4 s2 j g : runnable c -> scored c ->
  start c d0 h = Ok s0 -> generations c ds1 s0 = Ok s1 -> offspring c d s1 = Ok s4 -> generations c (d :: ds2) s1 = Ok s2 ->
  j < psize c -> ind s4 j = Ok g -> exists f2, nth_error (fitn s2) 0 = Some f2 /\ nle f2 (fst (eval c g)) = true.
Proof.
  intros R NN E0 E1 EO E2 Hj Hg. destruct (start_ok c d0 h (proj1 R)) as (s0' & E0' & S0). assert (s0' = s0) as -> by congruence.
  destruct (generations_ok c ds1 s0 R NN S0) as (s1' & E1' & S1). assert (s1' = s1) as -> by congruence.
  cbn [Dlga.generations] in E2. destruct (generation_ok fit nocoef c d s1 R S1 NN) as (s4' & s3 & EO' & E3 & S3 & S4 & _ & _ & _ & Sel). rewrite E3 in E2. cbn [bind] in E2.
  assert (s4' = s4) as -> by congruence.
  pose proof (selected_settled c d s4 s3 Sel ltac:(apply R)) as St. destruct St as (gb & fb & Q). assert (nth_error (fitn s3) 0 = Some fb) as Ef by (destruct Q as (?&?&?&?&?&?&_); assumption).
  pose proof (selected_min fit nocoef c d s4 s3 fb j g Sel S4 ltac:(apply R) NN Ef Hj Hg) as M.
  assert (E03 : generations c (ds1 ++ [d]) s0 = Ok s3). { rewrite generations_app, E1. cbn [bind Dlga.generations]. rewrite E3. reflexivity. }
  destruct (C38_best_score_never_gets_worse c d0 (ds1 ++ [d]) ds2 h s0 s3 s2 R NN ltac:(rewrite app_length; cbn; lia) E0 E03 E2) as (f1 & f2 & Ef1 & Ef2 & L).
  exists f2. split; [exact Ef2|]. assert (f1 = fb) as -> by congruence. eapply nle_trans; eauto.
Qed.

(** C38: the recorded history of a run is one entry per generation, never increasing, and
    ends with the returned score. *)
Theorem C38_history_is_non_increasing c d0 ds h s g k f n : runnable c -> scored c -> 1 <= List.length ds ->
  evolution c d0 ds h = Ok (s, (g, k, f, n)) ->
  exists l, hist s = h ++ l /\ List.length l = List.length ds /\
    (forall i j a b, i <= j -> nth_error l i = Some a -> nth_error l j = Some b -> nle b a = true) /\
    (exists m, nth_error l (List.length ds - 1) = Some m /\ neq m f).
Proof.
  intros R NN L E. unfold Dlga.evolution in E. destruct (start_ok c d0 h (proj1 R)) as (s0 & E0 & S0). rewrite E0 in E. cbn [bind] in E.
  assert (hist s0 = h) as H0.
  { unfold Dlga.start in E0. apply dedup_keeps in E0. exact (proj1 E0). }
  destruct (generations c ds s0) as [s'|] eqn:E1; cbn [bind] in E; [|discriminate].
  assert (nth_error (fitn s') 0 = Some f /\ s' = s) as [Ef ->].
  { unfold answer in E. destruct (kd c && (List.length (chrom s') =? 0)) eqn:Z.
    - exfalso. apply andb_true_iff in Z as [_ Z]. apply Nat.eqb_eq in Z. destruct (generations_ok c ds s0 R NN S0) as (s1 & E1' & (_ & _ & Ls)).
      assert (s1 = s') as -> by congruence. destruct R as (_ & R & _). lia.
    - destruct (ind s' 0); cbn [bind] in E; [|discriminate]. destruct (coefs s') as [cs|]; cbn [bind] in E; [|discriminate].
      destruct (at_ cs 0); cbn [bind] in E; [|discriminate]. destruct (at_ (fitn s') 0) eqn:Ef; cbn [bind] in E; [|discriminate].
      destruct (names s') as [ns|]; cbn [bind] in E; [|discriminate]. destruct (at_ ns 0); cbn [bind] in E; [|discriminate].
      injection E as -> _ _ -> _. apply at_some in Ef. auto. }
  clear E E0. subst h.
  (* from a state that need not be settled: one generation settles it *)
  assert (forall ds s0 s, 1 <= List.length ds -> sound c (psize c) s0 -> generations c ds s0 = Ok s ->
    settled c s /\ sound c (psize c) s /\ exists l f, nth_error (fitn s) 0 = Some f /\ hist s = hist s0 ++ l /\ List.length l = List.length ds /\
    (forall i j a b, i <= j -> nth_error l i = Some a -> nth_error l j = Some b -> nle b a = true) /\
    (exists m, nth_error l (List.length ds - 1) = Some m /\ neq m f)) as G.
  2: { destruct (G ds s0 s L S0 E1) as (_ & _ & l & f' & Ef' & Hl & Ll & Mono & Last). exists l. assert (f' = f) as -> by congruence. auto. }
  clear - R NN. intros ds. induction ds as [|d ds IH] using rev_ind; intros s0 s L S0 E; [cbn in L; lia|].
  rewrite generations_app in E. destruct ds as [|d' ds'].
  - cbn [Dlga.generations bind] in E. destruct (generation_ok fit nocoef c d s0 R S0 NN) as (s4 & s1 & _ & E1 & S1 & S4 & _ & H4 & _ & Sel).
    rewrite E1 in E. cbn [bind] in E. assert (s1 = s) as -> by congruence. pose proof (selected_settled c d s4 s Sel ltac:(apply R)) as St.
    split; [exact St|]. split; [exact S1|]. destruct St as (g & f & k & n & cs & ns & _ & Ef & _ & _ & _ & _ & Ev).
    destruct (sel_hist _ _ _ _ _ _ Sel f Ef) as (m & Hm & Q & _). exists [m], f. split; [exact Ef|]. split; [congruence|]. split; [reflexivity|]. split.
    + intros i j a b _ Ha Hb. destruct i as [|[|?]], j as [|[|?]]; cbn in Ha, Hb; try discriminate. assert (a = b) as -> by congruence. assert (m = b) as <- by congruence.
      apply nle_refl. destruct (nle_notnan _ _ (proj1 Q)). assumption.
    + exists m. split; [reflexivity|exact Q].
  - remember (d' :: ds') as ds eqn:Eds. destruct (generations c ds s0) as [s1|] eqn:E1; cbn [bind Dlga.generations] in E; [|discriminate].
    destruct (IH s0 s1 ltac:(subst ds; cbn; lia) S0 E1) as (St1 & S1 & l & f1 & Ef1 & Hl & Ll & Mono & (m1 & Hm1 & Q1)). clear IH.
    destruct (generation c d s1) as [s2|] eqn:E2; cbn [bind] in E; [|discriminate]. assert (s2 = s) as -> by congruence.
    destruct (best_step c d s1 s f1 R NN S1 St1 Ef1 E2) as (f2 & Ef2 & L2 & St2 & (m2 & Hm2 & Q2)).
    split; [exact St2|]. split. { destruct (generation_ok fit nocoef c d s1 R S1 NN) as (_ & s2' & _ & E2' & S2 & _). congruence. }
    exists (l ++ [m2]), f2. split; [exact Ef2|]. split; [rewrite Hm2, Hl, app_assoc; reflexivity|]. split; [rewrite !app_length, Ll; reflexivity|].
    assert (nle m2 m1 = true) as L12 by exact (nle_trans _ _ _ (proj1 Q2) (nle_trans _ _ _ L2 (proj2 Q1))).
    split.
    + intros i j a b Hij Ha Hb. destruct (Nat.lt_ge_cases j (List.length l)) as [Lj|Lj].
      * rewrite nth_error_app1 in Ha, Hb by lia. exact (Mono i j a b Hij Ha Hb).
      * assert (j = List.length l) as ->. { assert (j < List.length (l ++ [m2])) by (apply nth_error_Some; congruence). rewrite app_length in H. cbn in H. lia. }
        rewrite nth_error_app2, Nat.sub_diag in Hb by lia. cbn in Hb. assert (m2 = b) as <- by congruence.
        destruct (Nat.eq_dec i (List.length l)) as [->|Ni].
        -- rewrite nth_error_app2, Nat.sub_diag in Ha by lia. cbn in Ha. assert (m2 = a) as <- by congruence. apply nle_refl. destruct (nle_notnan _ _ L12). assumption.
        -- rewrite nth_error_app1 in Ha by lia. eapply nle_trans; [exact L12|]. eapply (Mono i (List.length ds - 1)); [|exact Ha|exact Hm1]. lia.
    + exists m2. split; [|exact Q2]. rewrite app_length, nth_error_app2 by (cbn; lia). cbn [List.length]. replace (List.length ds + 1 - 1 - List.length l) with 0 by lia. reflexivity.
Qed.

(** C67: with more crossings than pairs (n_generations / 2 > pop_size / 2) no run succeeds, whatever is drawn. *)
Theorem C67_more_generations_than_individuals_refuted c d0 d ds h : usable c -> 1 <= psize c -> psize c / 2 < ngen c / 2 ->
  evolution c d0 (d :: ds) h = Err IndexError.
Proof.
  intros U P1 H. unfold Dlga.evolution. destruct (start_ok c d0 h U) as (s0 & E0 & S0). rewrite E0. cbn [bind Dlga.generations].
  unfold Dlga.generation, offspring. assert (kd c && (List.length (chrom s0) =? 0) = false) as ->.
  { destruct S0 as (_ & _ & L). destruct (List.length (chrom s0) =? 0) eqn:Z; [apply Nat.eqb_eq in Z; lia|apply andb_false_r]. }
  destruct (sound_ind c _ s0 0 S0 ltac:(lia)) as (? & g & _ & _ & _ & _ & E & _). rewrite E. cbn [bind].
  rewrite (cross_over_err c _ d s0 S0 H). reflexivity.
Qed.
(** C67: DLGA with an odd population loses an individual in the first selection and fails in
    the second generation, whatever is drawn. *)
Theorem C67_odd_population_refuted c d0 d1 d2 ds h : usable c -> kd c = false -> 2 <= psize c -> Nat.even (psize c) = false ->
  ngen c / 2 <= psize c / 2 -> scored c -> evolution c d0 (d1 :: d2 :: ds) h = Err IndexError.
Proof.
  intros U K P2 O CR NN. unfold Dlga.evolution. destruct (start_ok c d0 h U) as (s0 & E0 & S0). rewrite E0. cbn [bind Dlga.generations].
  assert (2 * (psize c / 2) < psize c) as Lt.
  { destruct (div2_even (psize c)) as [Q|Q]; [|lia]. exfalso. assert (Nat.even (psize c) = true); [|congruence]. apply Nat.even_spec. exists (psize c / 2). lia. }
  assert (exists s1, generation c d1 s0 = Ok s1 /\ sound c (2 * (psize c / 2)) s1) as (s1 & E1 & S1).
  { unfold Dlga.generation, offspring. rewrite K. cbn [andb]. destruct (sound_ind c _ s0 0 S0 ltac:(lia)) as (? & g & _ & _ & _ & _ & E & W). rewrite E. cbn [bind].
    destruct (cross_over_ok c _ d1 s0 S0 CR) as (x1 & X1 & SX1 & _). rewrite X1. cbn [bind].
    destruct (mutation_ok c _ d1 x1 U SX1 ltac:(lia)) as (x2 & X2 & SX2 & _). rewrite X2. cbn [bind].
    destruct (delete_duplicates_ok c _ x2 SX2 ltac:(lia)) as (x3 & X3 & SX3). rewrite X3. cbn [bind].
    match goal with |- exists s1, select c d1 ?x = _ /\ _ => assert (sound c (psize c) x) as SX4 end.
    { destruct SX3 as (A & B & L). unfold sound, set_pop; cbn [store chrom]. split; [|split].
      - apply Forall_app. split; [exact A|]. constructor; [exact W|constructor].
      - apply Forall_upd; [|rewrite app_length; cbn; lia]. eapply Forall_impl; [|exact B]. cbn. intros y Hy. rewrite app_length. lia.
      - rewrite upd_length. exact L. }
    destruct (select_ok fit nocoef c _ d1 _ U SX4 ltac:(lia) ltac:(lia) NN) as (s1 & E1 & _ & S1). rewrite K in S1. eauto. }
  rewrite E1. cbn [bind]. assert (1 <= psize c / 2) as C2 by (apply Nat.div_le_lower_bound; lia).
  assert (generation c d2 s1 = Err IndexError) as ->; [|reflexivity].
  unfold Dlga.generation, offspring. rewrite K. cbn [andb]. destruct (sound_ind c _ s1 0 S1 ltac:(lia)) as (? & g & _ & _ & _ & _ & E & W). rewrite E. cbn [bind].
  destruct (cross_over_ok c _ d2 s1 S1) as (x1 & X1 & SX1 & _). { rewrite (Nat.mul_comm 2), Nat.div_mul by lia. exact CR. }
  rewrite X1. cbn [bind]. rewrite (mutation_err c _ d2 x1 U SX1 Lt). reflexivity.
Qed.
(** C67: no generation, no answer. *)
Theorem C67_zero_generations_refuted c d0 h : usable c -> 1 <= psize c -> evolution c d0 [] h = Err AttributeError.
Proof.
  intros U P1. unfold Dlga.evolution. destruct (start_ok c d0 h U) as (s0 & E0 & S0). rewrite E0. cbn [bind Dlga.generations].
  unfold answer. assert (kd c && (List.length (chrom s0) =? 0) = false) as ->.
  { destruct S0 as (_ & _ & L). destruct (List.length (chrom s0) =? 0) eqn:Z; [apply Nat.eqb_eq in Z; lia|apply andb_false_r]. }
  destruct (sound_ind c _ s0 0 S0 ltac:(lia)) as (? & g & _ & _ & _ & _ & E & _). rewrite E. cbn [bind].
  assert (coefs s0 = None) as ->; [|reflexivity].
  unfold Dlga.start in E0. apply dedup_keeps in E0. exact (proj2 E0).
Qed.
(** C67: every other run goes through, with a population of the same size. *)
Theorem C67_runs_complete c d0 ds h : runnable c -> scored c -> 1 <= List.length ds ->
  exists s r, evolution c d0 ds h = Ok (s, r) /\ List.length (chrom s) = psize c.
Proof.
  intros R NN L. destruct (C38_run_returns_well_formed_best c d0 ds h R NN L) as (s & g & k & f & n & E & (W & _) & _). exists s, (g, k, f, n). auto.
Qed.

(** C68: mutating individual i leaves every individual that is another object unchanged. *)
Theorem C68_mutation_is_local c d (s s' : ga C) i j a b : at_ (chrom s) i = Ok a -> at_ (chrom s) j = Ok b -> a <> b ->
  mutate_one c d s i = Ok s' -> ind s' j = ind s j.
Proof.
  intros Ea Eb N E. unfold mutate_one in E. rewrite Ea in E. cbn [bind] in E. destruct (at_ (store s) a) as [g|]; cbn [bind] in E; [|discriminate].
  destruct (mut_step c (d_mut d i) (del_step (d_del d i) (add_step c (d_add d i) g))) as [g'|]; cbn [bind] in E; [|discriminate].
  assert (s' = set_store s (upd (store s) a g')) as -> by congruence. unfold ind. cbn [chrom store set_store]. rewrite Eb. cbn [bind].
  unfold at_. rewrite nth_upd_other by exact N. reflexivity.
Qed.
(** C68: individuals that were built by delete_duplicates or drawn afresh are separate objects. *)
Theorem C68_separate_after_delete_duplicates c (s s' : ga C) : sound c (psize c) s -> delete_duplicates c s = Ok s' -> NoDup (chrom s').
Proof.
  intros S E. unfold delete_duplicates in E.
  assert (forall k s', k <= psize c -> loop dedup_one (seq 0 k) s = Ok s' -> List.length (chrom s') = psize c /\
    List.length (store s') = List.length (store s) + k /\ forall i, i < k -> nth_error (chrom s') i = Some (List.length (store s) + i)) as G.
  { clear E s'. induction k as [|k IH]; intros s' Hk E.
    - cbn in E. assert (s = s') as <- by congruence. split; [apply S|]. split; [lia|]. intros; lia.
    - replace (Datatypes.S k) with (k + 1) in E by lia. rewrite seq_app, loop_app in E. destruct (loop dedup_one (seq 0 k) s) as [s1|] eqn:E1; cbn [bind] in E; [|discriminate].
      destruct (IH s1 ltac:(lia) eq_refl) as (L1 & L2 & L3). cbn [seq loop] in E. replace (0 + k) with k in E by lia. unfold dedup_one in E. destruct (ind s1 k) as [g|]; cbn [bind] in E; [|discriminate].
      assert (s' = set_pop s1 (store s1 ++ [dedup g []]) (upd (chrom s1) k (List.length (store s1)))) as -> by congruence. cbn [chrom store set_pop].
      rewrite upd_length, app_length. cbn [List.length]. split; [exact L1|]. split; [lia|]. intros i Hi. destruct (Nat.eq_dec i k) as [->|Ni].
      + rewrite nth_upd_same by lia. f_equal. lia.
      + rewrite nth_upd_other by lia. apply L3. lia. }
  destruct (G _ s' (Nat.le_refl _) E) as (L & _ & H). apply NoDup_nth_error. intros i j Hi Hij. rewrite L in Hi.
  assert (j < psize c) as Hj. { rewrite <- L. apply nth_error_Some. rewrite <- Hij. apply nth_error_Some. lia. }
  rewrite (H i Hi), (H j Hj) in Hij. injection Hij. lia.
Qed.
End Props.

(** ** Concrete runs *)
Definition one_gene (g : nat) : mdraw := fun _ => (g, true).
Definition one_module (g : nat) : gdraw := fun _ => (one_gene g, true).
Definition no_change (fill : nat -> gdraw) : draws := mkDraws (fun _ => 0) (fun _ => 0) (fun _ => None) (fun _ => None) (fun _ => None) fill.
(** The score of a genome: its genes added up. *)
Definition sum_fit (g : genome) : num * (genome * string) := (Fin (inject_Z (Z.of_nat (list_sum (List.concat g)))), (g, "u_t"%string)).
Definition small : cfg := mkCfg true 5 3 4 2.
Example small_runnable : runnable small /\ scored sum_fit [] small.
Proof. split; [repeat split; cbn; auto; lia|]. intros g. unfold eval, small. cbn. destruct (List.length g =? 0); reflexivity. Qed.
Definition d0_desc : nat -> gdraw := fun i => one_module (4 - i).   (* initial genes 4, 3, 2, 1 *)
Example small_run : exists s, evolution sum_fit [] small d0_desc [no_change (fun _ => one_module 4); no_change (fun _ => one_module 2)] [] =
  Ok (s, ([[1]], [[1]], Fin 1, "u_t"%string)).
Proof. eexists. vm_compute. reflexivity. Qed.

(** C38: the best individual of the initial population can be lost: it is not in position 0
    when the first generation saves "the best", and mutation overwrites it. *)
Definition spoil : draws := mkDraws (fun _ => 0) (fun _ => 0) (fun _ => None) (fun _ => None) (fun i => Some (0, 0, 4)) (fun _ => one_module 4).
Theorem C38_initial_best_can_be_lost_refuted : exists c d0 ds s0 s r, runnable c /\ scored sum_fit [] c /\
  start sum_fit [] c d0 [] = Ok s0 /\ ind s0 3 = Ok [[1]] /\
  evolution sum_fit [] c d0 ds [] = Ok (s, r) /\ nlt (fst (sum_fit [[1]])) (snd (fst r)) = true.
Proof.
  exists small, d0_desc, [spoil]. do 3 eexists. split; [apply small_runnable|]. split; [apply small_runnable|].
  split; [reflexivity|]. split; [reflexivity|]. split; [vm_compute; reflexivity|]. vm_compute. reflexivity.
Qed.
(** C68: two individuals with equal scores: selection keeps the same object twice, and in the
    next generation mutating one changes the other. *)
Definition tie_d0 : nat -> gdraw := fun _ => one_module 2.
Theorem C68_ties_share_one_object_refuted : exists c d0 d s0 s1 s2 g, runnable c /\ scored sum_fit [] c /\
  start sum_fit [] c d0 [] = Ok s0 /\ generation sum_fit [] c d s0 = Ok s1 /\
  nth_error (chrom s1) 0 = nth_error (chrom s1) 1 /\
  mutate_one c spoil s1 1 = Ok s2 /\ ind s1 0 = Ok [[2]] /\ ind s2 0 = Ok g /\ g <> [[2]].
Proof.
  exists small, tie_d0, (no_change (fun _ => one_module 2)). do 4 eexists. split; [apply small_runnable|]. split; [apply small_runnable|].
  split; [vm_compute; reflexivity|]. split; [vm_compute; reflexivity|]. split; [reflexivity|]. split; [vm_compute; reflexivity|]. split; [reflexivity|]. split; [reflexivity|]. discriminate.
Qed.
(** The configurations of C67 exist: the defaults of DLGA with 500 generations, and 5 individuals. *)
Example many_generations : usable (mkCfg false 4 5 400 500) /\ 400 / 2 < 500 / 2.
Proof. repeat split; cbn; lia. Qed.
Example odd_population : usable (mkCfg false 4 5 5 4) /\ Nat.even 5 = false /\ 4 / 2 <= 5 / 2.
Proof. repeat split; cbn; lia. Qed.
Example default_runnable : runnable (mkCfg false 4 5 400 100).
Proof. repeat split; try (cbn; lia); try (right; reflexivity). Qed.
Example crossing_small : exists s', cross_over small (no_change (fun _ => one_module 0)) (mkGa (C:=nat) [[[1];[2]]; [[3]]; [[4]]; [[0]]] [0;1;2;3] [] None None []) = Ok s' /\
  ind s' 0 = Ok [[3];[2]] /\ ind s' 1 = Ok [[1]].
Proof. eexists. vm_compute. repeat split. Qed.
Example dedup_small : delete_duplicates (mkCfg true 5 3 1 2) (mkGa (C:=nat) [[[2;1];[0];[1;2]]] [0] [] None None []) =
  Ok (mkGa [[[2;1];[0];[1;2]]; [[1;2];[0]]] [1] [] None None []).
Proof. reflexivity. Qed.
Print Assumptions C38_run_returns_well_formed_best.
Print Assumptions C38_operators_keep_genomes_well_formed.
Print Assumptions C38_crossover_exchanges_modules.
Print Assumptions C38_delete_duplicates_exact.
Print Assumptions C38_selection_keeps_the_best.
Print Assumptions C38_best_score_never_gets_worse.
Print Assumptions C38_answer_beats_every_scored_individual.
Print Assumptions C38_history_is_non_increasing.
Print Assumptions C67_more_generations_than_individuals_refuted.
Print Assumptions C67_odd_population_refuted.
Print Assumptions C67_zero_generations_refuted.
Print Assumptions C67_runs_complete.
Print Assumptions C68_mutation_is_local.
Print Assumptions C68_separate_after_delete_duplicates.
Print Assumptions C38_initial_best_can_be_lost_refuted.
Print Assumptions C68_ties_share_one_object_refuted.
Print Assumptions C38_random_modules.
