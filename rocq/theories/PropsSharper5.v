(** Further statements for C31, C38 and C112, added after automatic edits of the model that the earlier ones accepted. *)
From Coq Require Import QArith Sorted.
From Verif Require Import Base.
From Verif Require Params DiscoverViz PropsParams.
From Verif Require Import Dlga DlgaFacts PropsDlga.
Local Open Scope string_scope.
Local Open Scope nat_scope.
Local Open Scope list_scope.

(** ** C38: the individuals that can be drawn are exactly those of at most the maximal number of modules, each an
    ascending list of at most the maximal number of operators. *)
Lemma genome_loop_draw c (U : usable c) g : Forall (fun m => (exists d, random_module c d = m) /\ StronglySorted le m) g -> forall k i, 1 <= List.length g <= k ->
  exists d, genome_loop c k i d = g.
Proof.
  induction 1 as [|m g (M & Hs) F IH]; intros k i L; [cbn in L; lia|]. destruct k as [|k]; [cbn in L; lia|]. destruct M as (dm & Em).
  assert (NE : m <> []) by (intros ->; pose proof (random_module_wf c dm U) as [W _]; rewrite Em in W; cbn in W; lia).
  assert (So : sorted m = m) by (apply sorted_unique; [apply sorted_sorted|exact Hs|apply sorted_perm]).
  assert (EXT : forall k i d d', (forall j, i <= j -> d j = d' j) -> genome_loop c k i d = genome_loop c k i d').
  { clear. induction k as [|k IH]; intros i d d' H; [reflexivity|]. cbn [genome_loop]. rewrite (H i (Nat.le_refl i)). f_equal. destruct (snd (d' i)); [reflexivity|]. apply IH. intros j J. apply H. lia. }
  destruct g as [|m' g].
  - exists (fun _ => (dm, true)). cbn [genome_loop fst snd]. rewrite Em, So. destruct m; [congruence|]. reflexivity.
  - destruct (IH k (S i)) as (d & Ed); [cbn in *; lia|]. exists (fun j => if j =? i then (dm, false) else d j). cbn [genome_loop]. rewrite Nat.eqb_refl. cbn [fst snd]. rewrite Em, So.
    rewrite (EXT k (S i) _ d), Ed; [destruct m; [congruence|]; reflexivity|]. intros j J. destruct (Nat.eqb_spec j i); [lia|reflexivity].
Qed.
Theorem C38_random_genomes c g : usable c ->
  ((exists d, random_genome c d = g) <-> 1 <= List.length g <= mlen c /\
    Forall (fun m => 1 <= List.length m <= mlen c /\ Forall (fun k => k < nlib c) m /\ StronglySorted le m) g).
Proof.
  intros U. split.
  - intros (d & <-). unfold random_genome. destruct (genome_loop_wf c (mlen c) 0 d U) as [[A B] L]; [apply U|]. split; [lia|].
    clear A L. assert (S : Forall (StronglySorted le) (genome_loop c (mlen c) 0 d)).
    { generalize (mlen c), 0. clear. intros k. induction k as [|k IH]; intros i; [constructor|]. cbn [genome_loop]. apply Forall_app. split.
      - destruct (random_module c (fst (d i))) as [|a l]; [constructor|]. constructor; [apply sorted_sorted|constructor].
      - destruct (snd (d i)); [constructor|apply IH]. }
    rewrite Forall_forall in *. intros m I. destruct (B m I) as [B1 B2]. auto.
  - intros [L F]. unfold random_genome. apply genome_loop_draw; [exact U| |exact L]. eapply Forall_impl; [|exact F]. cbv beta. intros m (A & B & D). split; [|exact D].
    apply (C38_random_modules c m U). auto.
Qed.
Example C38_random_genomes_case : exists d, random_genome (mkCfg true 3 2 10 5) d = [[0; 2]; [1]].
Proof.
  apply C38_random_genomes; [split; cbn; lia|]. split; [cbn; lia|]. repeat constructor; cbn; lia.
Qed.

(** ** C112: what the plot draws where it and the search differ. *)
Section Plot.
Context (shape : list nat) (u : list nat -> Q) (fn : string -> Q -> Q) (num_of : string -> option Q) (xs : list Q) (spat : option (list (list Q) * list Q)).
Notation plot := (DiscoverViz.plot_eval shape u fn num_of xs spat).
(** A quotient a / b is drawn as a / (b + 1e-8), an inverse as 1 / (a + 1e-8). *)
Theorem C112_plotted_quotient a b v w : plot a = Ok v -> plot b = Ok w ->
  (exists q, plot (DiscoverViz.Nd "div" [a; b]) = Ok q /\ forall idx, (DiscoverViz.entry q idx == DiscoverViz.entry v idx / (DiscoverViz.entry w idx + 0.00000001))%Q) /\
  (exists q, plot (DiscoverViz.Nd "inv" [a]) = Ok q /\ forall idx, (DiscoverViz.entry q idx == 1 / (DiscoverViz.entry v idx + 0.00000001))%Q).
Proof.
  intros A B. split; cbn [DiscoverViz.plot_eval DiscoverViz.emap]; rewrite A; try rewrite B; cbn [bind].
  - eexists. split; [reflexivity|]. intros idx. destruct v, w; reflexivity.
  - eexists. split; [reflexivity|]. intros idx. destruct v; reflexivity.
Qed.
End Plot.
(** On two or three space axes the Laplacian of a field is drawn as the sum of the second derivatives drawn along the
    axes. *)
Theorem C112_plotted_laplacian shape u fn num_of xs cs dxs a r : (List.length dxs = 2 \/ List.length dxs = 3) ->
  let plot := DiscoverViz.plot_eval shape u fn num_of xs (Some (cs, dxs)) in let axes := firstn (List.length dxs) ["x1"; "x2"; "x3"] in
  (forall x, In x axes -> exists v, plot (DiscoverViz.Nd x []) = Ok v) ->
  plot (DiscoverViz.Nd "lap" [a]) = Ok r ->
  exists (f : list nat -> Q) (gs : list (list nat -> Q)), r = DiscoverViz.Ar f /\
    Forall2 (fun (x : string) (g : list nat -> Q) => plot (DiscoverViz.Nd "Diff2" [a; DiscoverViz.Nd x []]) = Ok (DiscoverViz.Ar g)) axes gs /\
    forall idx, (f idx == fold_right Qplus 0 (map (fun g : list nat -> Q => g idx) gs))%Q.
Proof.
  intros D plot axes C H. unfold plot in *. cbn [DiscoverViz.plot_eval DiscoverViz.emap] in H.
  destruct (DiscoverViz.plot_eval shape u fn num_of xs (Some (cs, dxs)) a) as [v|e] eqn:E; cbn [bind] in H; [|discriminate].
  change (DiscoverViz.plot_op shape fn xs (Some (cs, dxs)) (DiscoverViz.base_name "lap") [a] [v]) with (DiscoverViz.plot_lap shape xs (Some (cs, dxs)) v) in H.
  assert (P : forall x ax dx f g, In x axes -> DiscoverViz.axis_of (DiscoverViz.Nd x []) = Ok ax -> nth_error dxs ax = Some dx -> v = DiscoverViz.Ar f -> DiscoverViz.gradients shape 2 f dx ax = Ok g ->
     DiscoverViz.plot_eval shape u fn num_of xs (Some (cs, dxs)) (DiscoverViz.Nd "Diff2" [a; DiscoverViz.Nd x []]) = Ok (DiscoverViz.Ar g)).
  { intros x ax dx f g I Ax Dx -> G. destruct (C x I) as (w & W). change (DiscoverViz.plot_eval shape u fn num_of xs (Some (cs, dxs)) (DiscoverViz.Nd "Diff2" [a; DiscoverViz.Nd x []]))
      with (do vs <- (do y <- DiscoverViz.plot_eval shape u fn num_of xs (Some (cs, dxs)) a ; do ys <- (do y <- DiscoverViz.plot_eval shape u fn num_of xs (Some (cs, dxs)) (DiscoverViz.Nd x []) ; do ys <- Ok [] ; Ok (y :: ys)) ; Ok (y :: ys)) ; DiscoverViz.plot_op shape fn xs (Some (cs, dxs)) (DiscoverViz.base_name "Diff2") [a; DiscoverViz.Nd x []] vs).
    rewrite E, W. cbn [bind]. change (DiscoverViz.plot_op shape fn xs (Some (cs, dxs)) (DiscoverViz.base_name "Diff2") [a; DiscoverViz.Nd x []] [DiscoverViz.Ar f; w]) with (DiscoverViz.plot_partial shape xs (Some (cs, dxs)) 2 (DiscoverViz.Ar f) (DiscoverViz.Nd x [])).
    unfold DiscoverViz.plot_partial. rewrite Ax. cbn [bind]. unfold DiscoverViz.arg. rewrite Dx. cbn [bind]. rewrite G. reflexivity. }
  unfold DiscoverViz.plot_lap in H. destruct v as [q|f]; [discriminate|]. remember (DiscoverViz.gradients shape 2) as GR eqn:EG.
  destruct D as [D|D]; unfold axes in *; rewrite D in *; cbn [seq mapM firstn] in *.
  - destruct dxs as [|d0 [|d1 [|]]]; try discriminate. cbn [nth] in H. destruct (GR f d0 0) as [g0|] eqn:G0; [|discriminate]. cbn [bind] in H. destruct (GR f d1 1) as [g1|] eqn:G1; [|discriminate]. cbn [bind] in H. injection H as <-.
    eexists _, [g0; g1]. split; [reflexivity|]. split.
    + constructor; [apply (P "x1" 0 d0 f); auto; cbn; auto|]. constructor; [apply (P "x2" 1 d1 f); auto; cbn; auto|]. constructor.
    + intros idx. cbn [fold_left map fold_right]. ring.
  - destruct dxs as [|d0 [|d1 [|d2 [|]]]]; try discriminate. cbn [nth] in H. destruct (GR f d0 0) as [g0|] eqn:G0; [|discriminate]. cbn [bind] in H. destruct (GR f d1 1) as [g1|] eqn:G1; [|discriminate]. cbn [bind] in H.
    destruct (GR f d2 2) as [g2|] eqn:G2; [|discriminate]. cbn [bind] in H. injection H as <-.
    eexists _, [g0; g1; g2]. split; [reflexivity|]. split.
    + constructor; [apply (P "x1" 0 d0 f); auto; cbn; auto|]. constructor; [apply (P "x2" 1 d1 f); auto; cbn; auto|]. constructor; [apply (P "x3" 2 d2 f); auto; cbn; auto|]. constructor.
    + intros idx. cbn [fold_left map fold_right]. ring.
Qed.
Example C112_plotted_case : let g := [0; 1; 2]%Q in let f idx := inject_Z (Z.of_nat (nth 0 idx 0 * nth 0 idx 0 + nth 1 idx 0)) in
  let plot := DiscoverViz.plot_eval [3; 3] f (fun _ x => x) (fun _ => None) g (Some ([g; g], [1; 1]%Q)) in
  (exists r, plot (DiscoverViz.Nd "lap" [DiscoverViz.Nd "u1" []]) = Ok r) /\ (exists v, plot (DiscoverViz.Nd "x1" []) = Ok v) /\ (exists v, plot (DiscoverViz.Nd "x2" []) = Ok v).
Proof. split; [|split]; eexists; reflexivity. Qed.

(** ** C31: the settings of the estimators, written out. *)
(** A new KD_PySR object lists exactly four settings; KD_Discover and KD_DLGA fail to list theirs because these arguments
    of their constructors are not kept under their own names. *)
Theorem C31_settings : (forall h names, h 0 = Params.fresh Params.pysr_attrs -> names 0 = Ok Params.pysr_params ->
    exists d, Params.get_params names 1 h 0 true = Ok d /\ map fst d = ["binary_operators"; "extra_model_kwargs"; "niterations"; "unary_operators"]) /\
  (forall a, In a Params.discover_params /\ ~ In a Params.discover_attrs <-> In a ["binary_operators"; "config_out"; "unary_operators"]) /\
  (forall a, In a Params.dlga_params /\ ~ In a Params.dlga_attrs <-> In a ["input_dim"; "operators"]) /\
  (forall a, In a Params.discover_params /\ In a Params.discover_attrs <-> In a ["core_num"; "n_iterations"; "n_samples_per_batch"; "out_path"; "seed"]) /\
  (forall a, In a Params.dlga_params /\ In a Params.dlga_attrs <-> In a ["epi"; "verbose"]).
Proof.
  assert (SPLIT : forall (P A N Y : list string), (forall a, In a P <-> In a N \/ In a Y) -> (forall a, In a N -> ~ In a A) -> (forall a, In a Y -> In a A) ->
    (forall a, In a P /\ ~ In a A <-> In a N) /\ (forall a, In a P /\ In a A <-> In a Y)).
  { intros P A N Y H1 H2 H3. split; intros a; rewrite H1; specialize (H2 a); specialize (H3 a); tauto. }
  assert (MEM : forall (l : list string) a, In a l <-> existsb (String.eqb a) l = true).
  { intros l a. rewrite existsb_exists. split; [intros I; exists a; split; [exact I|apply String.eqb_refl]|intros (x & I & Q); apply String.eqb_eq in Q as ->; exact I]. }
  assert (ALL : forall l A b, forallb (fun a => Bool.eqb (existsb (String.eqb a) A) b) l = true -> forall a, In a l -> existsb (String.eqb a) A = b).
  { intros l A b H a I. rewrite forallb_forall in H. apply Bool.eqb_prop, H, I. }
  destruct (SPLIT Params.discover_params Params.discover_attrs ["binary_operators"; "config_out"; "unary_operators"] ["core_num"; "n_iterations"; "n_samples_per_batch"; "out_path"; "seed"]) as [D1 D2].
  { intros a. cbn. tauto. }
  { intros a I J. apply MEM in J. rewrite (ALL ["binary_operators"; "config_out"; "unary_operators"] Params.discover_attrs false) in J; [discriminate|vm_compute; reflexivity|exact I]. }
  { intros a I. apply MEM. apply (ALL ["core_num"; "n_iterations"; "n_samples_per_batch"; "out_path"; "seed"]); [vm_compute; reflexivity|exact I]. }
  destruct (SPLIT Params.dlga_params Params.dlga_attrs ["input_dim"; "operators"] ["epi"; "verbose"]) as [E1 E2].
  { intros a. cbn. tauto. }
  { intros a I J. apply MEM in J. rewrite (ALL ["input_dim"; "operators"] Params.dlga_attrs false) in J; [discriminate|vm_compute; reflexivity|exact I]. }
  { intros a I. apply MEM. apply (ALL ["epi"; "verbose"]); [vm_compute; reflexivity|exact I]. }
  split; [intros h names H1 H2; exact (proj2 PropsParams.C31_new_objects h names H1 H2)|]. auto.
Qed.
Example C31_settings_case : exists d, Params.get_params (fun _ => Ok Params.pysr_params) 1 (fun _ => Params.fresh Params.pysr_attrs) 0 true = Ok d /\ List.length d = 4.
Proof.
  destruct (proj1 C31_settings (fun _ => Params.fresh Params.pysr_attrs) (fun _ => Ok Params.pysr_params) eq_refl eq_refl) as (d & E & M).
  exists d. split; [exact E|]. rewrite <- (map_length fst d), M. reflexivity.
Qed.
Print Assumptions C38_random_genomes.
Print Assumptions C112_plotted_quotient.
Print Assumptions C112_plotted_laplacian.
Print Assumptions C31_settings.
