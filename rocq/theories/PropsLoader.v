(** *** C63, C64: loading datasets; the models offered for a dataset *)
From Coq Require Import QArith.
From Verif Require Import Base Num Arrays Dataset PropsDataset Loader.
Local Open Scope nat_scope.
Local Open Scope string_scope.
Local Open Scope list_scope.

Lemma natlist_eqb_ok a b : natlist_eqb a b = true <-> a = b.
Proof. revert b. induction a as [|x a IH]; intros [|y b]; cbn; try (split; congruence). rewrite andb_true_iff, Nat.eqb_eq, IH. split; [intros [-> ->]; reflexivity|intros [= -> ->]; auto]. Qed.
Lemma pde_dataset_ok x t u : shape u = [List.length x; List.length t] -> pde_dataset x t u = Ok (mkDs (Some x) (Some t) u None []).
Proof. intros S. unfold pde_dataset. apply C27_accepts_legacy; try reflexivity; [exact S|intros n p []]. Qed.
Lemma pde_dataset_inv x t u d : pde_dataset x t u = Ok d -> shape u = [List.length x; List.length t] /\ d = mkDs (Some x) (Some t) u None [].
Proof.
  intros H. destruct (list_eq_dec Nat.eq_dec (shape u) [List.length x; List.length t]) as [E|N]; [split; [exact E|]; rewrite pde_dataset_ok in H by exact E; congruence|]. exfalso. unfold pde_dataset, construct in H. cbn in H. unfold init_legacy in H. destruct (natlist_eqb (shape u) [List.length x; List.length t]) eqn:E; [apply natlist_eqb_ok in E; contradiction|discriminate].
Qed.
Lemma transposed_shape u n m : shape u = [n; m] -> shape (transposed u) = [m; n].
Proof. intros S. unfold transposed, transpose, tabulate. cbn [shape]. rewrite S. reflexivity. Qed.
Lemma transposed_get u n m i j : wfa u -> shape u = [n; m] -> i < n -> j < m -> get (transposed u) [j; i] = get u [i; j].
Proof.
  intros W S Hi Hj. unfold transposed. assert (IP : is_perm [1; 0]). { split; [repeat constructor; cbn; intuition discriminate|]. intros k [<-|[<-|[]]]; cbn; lia. }
  pose proof (transpose_get NaN u [1; 0] [i; j] IP) as T. rewrite S in T. specialize (T eq_refl W). apply T. repeat constructor; assumption.
Qed.
Lemma carries_of x t u v : wfa u -> shape u = [List.length x; List.length t] -> (forall i j, i < List.length x -> j < List.length t -> get u [i; j] = Some (v i j)) -> carries (mkDs (Some x) (Some t) u None []) x t v.
Proof. intros W S H. split; [reflexivity|]. split; [reflexivity|]. split; [exact S|]. intros i j Hi Hj. unfold field_at. cbn. auto. Qed.
(** Files with different numbers of x and t points: whichever way round the values are stored, the
    dataset has each value at its coordinates.  Any other shape is an error. *)
Theorem C63_files x t u v : List.length (flat x) <> List.length (flat t) -> holds u (List.length (flat x)) (List.length (flat t)) v ->
  exists d, load_files x t u = Ok d /\ carries d (flat x) (flat t) v.
Proof.
  intros N [W [[S H]|[S H]]]; unfold load_files, orient.
  - destruct (natlist_eqb (shape u) _) eqn:E; [apply natlist_eqb_ok in E; rewrite S in E; injection E as E1 E2; congruence|]. rewrite pde_dataset_ok by exact S. eexists. split; [reflexivity|]. now apply carries_of.
  - rewrite (proj2 (natlist_eqb_ok _ _) S). pose proof (transposed_shape u _ _ S) as ST. rewrite pde_dataset_ok by exact ST. eexists. split; [reflexivity|]. apply carries_of; [apply tabulate_wf|exact ST|]. intros i j Hi Hj. rewrite (transposed_get u _ _ j i W S) by assumption. now apply H.
Qed.
Theorem C63_bad_shape x t u : shape u <> [List.length (flat x); List.length (flat t)] -> shape u <> [List.length (flat t); List.length (flat x)] -> load_files x t u = Err ValueError.
Proof.
  intros N1 N2. unfold load_files, orient. destruct (natlist_eqb (shape u) _) eqn:E; [apply natlist_eqb_ok in E; contradiction|]. destruct (pde_dataset (flat x) (flat t) u) as [d|e] eqn:P; [apply pde_dataset_inv in P; destruct P; contradiction|]. apply C27_errors in P. congruence.
Qed.
(** Equal numbers of points: values stored with x along the rows come out transposed. *)
Theorem C63_square_refuted : exists x t u v d, holds u (List.length (flat x)) (List.length (flat t)) v /\ shape u = [List.length (flat x); List.length (flat t)] /\ (forall i j, get u [i; j] = Some (v i j) \/ 2 <= i \/ 2 <= j) /\ load_files x t u = Ok d /\ ~ carries d (flat x) (flat t) v.
Proof.
  exists (mkArr [2] [Fin 0; Fin 1]%Q), (mkArr [2] [Fin 0; Fin 5]%Q), (mkArr [2; 2] [Fin 1; Fin 2; Fin 3; Fin 4]%Q), (fun i j => match i, j with 0, 0 => Fin (1 # 1)%Q | 0, _ => Fin (2 # 1)%Q | _, 0 => Fin (3 # 1)%Q | _, _ => Fin (4 # 1)%Q end).
  eexists. split; [split; [reflexivity|]; left; split; [reflexivity|]; cbn; intros [|[|i]] [|[|j]] Hi Hj; try lia; reflexivity|]. split; [reflexivity|]. split; [intros [|[|i]] [|[|j]]; auto; right; lia|]. split; [vm_compute; reflexivity|]. intros (_ & _ & _ & H). specialize (H 0 1 ltac:(cbn; lia) ltac:(cbn; lia)). vm_compute in H. discriminate.
Qed.
(** the same for MATLAB files: the dataset, or None; never an exception *)
Theorem C63_mat raw xk tk uk x t u v : sget raw xk = Some x -> sget raw tk = Some t -> sget raw uk = Some u -> List.length (flat x) <> List.length (flat t) -> holds u (List.length (flat x)) (List.length (flat t)) v ->
  exists d, load_pde_dataset (Ok raw) xk tk uk = Some d /\ carries d (flat x) (flat t) v.
Proof. intros E1 E2 E3 N H. destruct (C63_files x t u v N H) as (d & E & C). exists d. split; [|exact C]. unfold load_pde_dataset, read_mat. cbn [bind]. rewrite E1, E2, E3, E. reflexivity. Qed.
Theorem C63_mat_missing raw xk tk uk : sget raw xk = None \/ sget raw tk = None \/ sget raw uk = None -> load_pde_dataset (Ok raw) xk tk uk = None /\ read_mat (Ok raw) xk tk uk = Err KeyError.
Proof. intros H. assert (E : read_mat (Ok raw) xk tk uk = Err KeyError) by (unfold read_mat; cbn [bind]; destruct (sget raw xk), (sget raw tk), (sget raw uk); auto; destruct H as [H|[H|H]]; discriminate). unfold load_pde_dataset. rewrite E. auto. Qed.
(** a .npy matrix with a registered shape (nx, nt), nx <> nt *)
Theorem C63_npy lx lt nx nt u v : nx <> nt -> List.length (lx nx) = nx -> List.length (lt nt) = nt -> holds u nx nt v -> exists d, load_npy lx lt (Some [nx; nt]) u = Ok d /\ carries d (lx nx) (lt nt) v.
Proof.
  intros N LX LT [W [[S H]|[S H]]]; unfold load_npy.
  - cbn [rev app]. destruct (natlist_eqb (shape u) [nt; nx]) eqn:E; [apply natlist_eqb_ok in E; rewrite S in E; congruence|]. rewrite (proj2 (natlist_eqb_ok _ _) S). cbn [bind]. rewrite S. rewrite pde_dataset_ok by (rewrite S; congruence). eexists. split; [reflexivity|]. apply carries_of; [exact W|congruence|]. intros i j Hi Hj. apply H; congruence.
  - cbn [rev app]. rewrite (proj2 (natlist_eqb_ok _ _) S). rewrite S. change (rev (seq 0 (List.length [nt; nx]))) with [1; 0]. cbn [bind]. change (transpose NaN u [1; 0]) with (transposed u). pose proof (transposed_shape u _ _ S) as ST. rewrite ST. rewrite pde_dataset_ok by (rewrite ST; congruence). eexists. split; [reflexivity|]. apply carries_of; [apply tabulate_wf|congruence|]. intros i j Hi Hj. rewrite (transposed_get u _ _ j i W S) by congruence. apply H; congruence.
Qed.
(** The runner on an uploaded .npy file: values stored with x along the rows are read correctly... *)
Theorem C63_upload_npy lx lt nx nt u v : List.length (lx nx) = nx -> List.length (lt nt) = nt -> wfa u -> shape u = [nx; nt] -> (forall i j, i < nx -> j < nt -> get u [i; j] = Some (v i j)) -> exists d, run_npy lx lt (Some [nx; nt]) u = Ok d /\ carries d (lx nx) (lt nt) v.
Proof.
  intros LX LT W S H. unfold run_npy, reshape. assert (L : List.length (flat u) = prod [nx; nt]) by (rewrite <- S; exact W). rewrite L, Nat.eqb_refl. cbn [bind]. rewrite pde_dataset_ok by (cbn; congruence). eexists. split; [reflexivity|]. apply carries_of; [exact L|cbn; congruence|]. intros i j Hi Hj. rewrite <- H by congruence. unfold get. now rewrite S.
Qed.
(** ... but values stored with t along the rows, which load_pde accepts, are scrambled. *)
Theorem C63_upload_npy_refuted : exists nx nt u v d d', nx <> nt /\ holds u nx nt v /\ load_npy (fun n => repeat (Fin 0) n) (fun n => repeat (Fin 0) n) (Some [nx; nt]) u = Ok d /\ carries d (repeat (Fin 0) nx) (repeat (Fin 0) nt) v /\
  run_npy (fun n => repeat (Fin 0) n) (fun n => repeat (Fin 0) n) (Some [nx; nt]) u = Ok d' /\ ~ carries d' (repeat (Fin 0) nx) (repeat (Fin 0) nt) v.
Proof.
  exists 2, 3, (mkArr [3; 2] [Fin 1; Fin 2; Fin 3; Fin 4; Fin 5; Fin 6]%Q), (fun i j => match i, j with 0, 0 => Fin (1 # 1)%Q | 0, 1 => Fin (3 # 1)%Q | 0, _ => Fin (5 # 1)%Q | _, 0 => Fin (2 # 1)%Q | _, 1 => Fin (4 # 1)%Q | _, _ => Fin (6 # 1)%Q end).
  assert (HH : holds (mkArr [3; 2] [Fin 1; Fin 2; Fin 3; Fin 4; Fin 5; Fin 6]%Q) 2 3 (fun i j => match i, j with 0, 0 => Fin (1 # 1)%Q | 0, 1 => Fin (3 # 1)%Q | 0, _ => Fin (5 # 1)%Q | _, 0 => Fin (2 # 1)%Q | _, 1 => Fin (4 # 1)%Q | _, _ => Fin (6 # 1)%Q end)).
  { split; [reflexivity|]. right. split; [reflexivity|]. intros [|[|i]] [|[|[|j]]] Hi Hj; try lia; reflexivity. }
  destruct (C63_npy (fun n => repeat (Fin 0) n) (fun n => repeat (Fin 0) n) 2 3 _ _ ltac:(discriminate) eq_refl eq_refl HH) as (d & E & C). exists d. eexists. split; [discriminate|]. split; [exact HH|]. split; [exact E|]. split; [exact C|]. split; [vm_compute; reflexivity|].
  intros (_ & _ & _ & H). specialize (H 0 1 ltac:(cbn; lia) ltac:(cbn; lia)). vm_compute in H. discriminate.
Qed.
(** load_pde: ValueError exactly for names that are not registered; a registered MATLAB dataset
    that cannot be read gives None instead of an exception. *)
Theorem C63_unknown dk name : (~ In name (map e_name registry)) -> load_pde dk name = Err ValueError.
Proof.
  intros H. unfold load_pde, find_entry. destruct (find _ registry) as [e|] eqn:E; [|reflexivity]. apply find_some in E. destruct E as [I E]. apply String.eqb_eq in E. exfalso. apply H. subst name. now apply in_map.
Qed.
Theorem C63_load_pde dk name d : load_pde dk name = Ok (Some d) -> In name (map e_name registry) /\ exists x t, d_x d = Some x /\ d_t d = Some t /\ shape (d_usol d) = [List.length x; List.length t].
Proof.
  unfold load_pde, find_entry. destruct (find _ registry) as [e|] eqn:E; [|discriminate]. apply find_some in E. destruct E as [I E]. apply String.eqb_eq in E. subst name. intros H. split; [now apply in_map|].
  assert (X : forall x t u d0, pde_dataset x t u = Ok d0 -> exists x0 t0, d_x d0 = Some x0 /\ d_t d0 = Some t0 /\ shape (d_usol d0) = [List.length x0; List.length t0]) by (intros x t u d0 P; apply pde_dataset_inv in P; destruct P as [S ->]; exists x, t; auto).
  destruct (e_kind e) as [|s|xk tk uk].
  - destruct (f_files dk) as [[[x t] u]|]; [|discriminate]. cbn [bind] in H. destruct (load_files x t u) as [d0|] eqn:L; [|discriminate]. cbn [bind] in H. assert (d0 = d) by congruence. subst d0. eapply X. exact L.
  - destruct (f_npy dk) as [u|]; [|discriminate]. cbn [bind] in H. destruct (load_npy _ _ (Some s) u) as [d0|] eqn:L; [|discriminate]. cbn [bind] in H. assert (d0 = d) by congruence. subst d0. unfold load_npy in L. destruct (if natlist_eqb (shape u) (rev s) then _ else _) as [w|]; [|discriminate]. cbn [bind] in L. destruct (shape w) as [|a [|b [|? ?]]]; try discriminate. eapply X. exact L.
  - unfold load_pde_dataset in H. destruct (read_mat (f_mat dk) xk tk uk) as [d0|] eqn:L; [|discriminate]. assert (d0 = d) by congruence. subst d0. unfold read_mat in L. destruct (f_mat dk) as [raw|]; [|discriminate]. cbn [bind] in L. destruct (sget raw xk), (sget raw tk), (sget raw uk); try discriminate. eapply X. exact L.
Qed.
Theorem C63_unreadable_is_none_refuted : forall dk e, f_mat dk = Err e -> load_pde dk "burgers" = Ok None.
Proof. intros dk e H. unfold load_pde. cbn. unfold load_pde_dataset, read_mat. rewrite H. reflexivity. Qed.
(** registered shapes are not square, so registered .npy files are always read correctly *)
Theorem C63_registered_npy e nx nt : In e registry -> e_kind e = Npy [nx; nt] -> nx <> nt.
Proof. intros I. repeat (destruct I as [<-|I]; [cbn; intros E; try discriminate; injection E as <- <-; discriminate|]). destruct I. Qed.
(** The shipped .mat files (headers of kd/dataset/data/burgers2.mat, burgers_reflib.mat,
    KdV_equation.mat, fisher_nonlin_groundtruth.mat, fisher_groundtruth.mat): names and shapes of
    the arrays of the coordinates and of the field. *)
Record shipped := mkShipped { sh_name : string; sh_x : string * list nat; sh_t : string * list nat; sh_u : string * list nat }.
Definition shipped_mats : list shipped := [
  mkShipped "burgers" ("x", [1; 256]) ("t", [101; 1]) ("usol", [256; 101]);
  mkShipped "burgers-reflib" ("x", [1; 256]) ("t", [1; 201]) ("usol", [256; 201]);
  mkShipped "kdv" ("x", [1; 512]) ("tt", [1; 201]) ("uu", [512; 201]);
  mkShipped "fisher" ("x", [1; 201]) ("t", [101; 1]) ("U", [101; 201]);
  mkShipped "fisher_linear" ("x", [1; 201]) ("t", [101; 1]) ("U", [101; 201]) ].
(** Each of them loads, with the values of its own arrays at their coordinates. *)
Theorem C63_shipped_mats sh dk raw x t u v : In sh shipped_mats -> f_mat dk = Ok raw ->
  sget raw (fst (sh_x sh)) = Some x -> wfa x -> shape x = snd (sh_x sh) ->
  sget raw (fst (sh_t sh)) = Some t -> wfa t -> shape t = snd (sh_t sh) ->
  sget raw (fst (sh_u sh)) = Some u -> shape u = snd (sh_u sh) -> holds u (List.length (flat x)) (List.length (flat t)) v ->
  exists d, load_pde dk (sh_name sh) = Ok (Some d) /\ carries d (flat x) (flat t) v.
Proof.
  intros I F Gx Wx Sx Gt Wt St Gu Su H.
  assert (LN : List.length (flat x) <> List.length (flat t)) by (unfold wfa in Wx, Wt; rewrite Wx, Wt, Sx, St; repeat (destruct I as [<-|I]; [vm_compute; discriminate|]); destruct I).
  unfold load_pde. repeat (destruct I as [<-|I]; [cbn [sh_name sh_x sh_t sh_u fst snd] in *; match goal with |- context [find_entry ?n] => destruct (find_entry n) as [e|] eqn:FE; [|discriminate FE]; vm_compute in FE; injection FE as <- end; cbn [e_kind];
    destruct (C63_mat raw _ _ _ x t u v Gx Gt Gu LN H) as (d & L & C); exists d; rewrite F, L; auto|]). destruct I.
Qed.
(** every active dataset read from a .mat file is one of them *)
Theorem C63_shipped_all e xk tk uk : In e registry -> e_active e = true -> e_kind e = Mat xk tk uk -> exists sh, In sh shipped_mats /\ sh_name sh = e_name e.
Proof.
  intros I A K. destruct (find (fun sh => String.eqb (sh_name sh) (e_name e)) shipped_mats) as [sh|] eqn:F.
  - apply find_some in F. destruct F as [F1 F2]. apply String.eqb_eq in F2. eauto.
  - exfalso. cbn [registry] in I. repeat (destruct I as [<-|I]; [first [discriminate A|discriminate K|discriminate F]|]). destruct I.
Qed.
(** A .npy array of neither registered shape but of the right size is taken in memory order. *)
Theorem C63_npy_other lx lt nx nt u : shape u <> [nx; nt] -> shape u <> [nt; nx] -> List.length (lx nx) = nx -> List.length (lt nt) = nt ->
  (List.length (flat u) = nx * nt -> exists d, load_npy lx lt (Some [nx; nt]) u = Ok d /\ d_x d = Some (lx nx) /\ d_t d = Some (lt nt) /\ shape (d_usol d) = [nx; nt] /\ flat (d_usol d) = flat u) /\
  (List.length (flat u) <> nx * nt -> load_npy lx lt (Some [nx; nt]) u = Err ValueError).
Proof.
  intros N1 N2 LX LT. unfold load_npy. cbn [rev app].
  destruct (natlist_eqb (shape u) [nt; nx]) eqn:E; [apply natlist_eqb_ok in E; contradiction|]. destruct (natlist_eqb (shape u) [nx; nt]) eqn:E2; [apply natlist_eqb_ok in E2; contradiction|].
  unfold reshape. replace (prod [nx; nt]) with (nx * nt) by (cbn; lia). split; intros L.
  - rewrite L, Nat.eqb_refl. cbn [bind shape]. rewrite pde_dataset_ok by (cbn; congruence). eexists. repeat split.
  - destruct (Nat.eqb_spec (List.length (flat u)) (nx * nt)); [contradiction|reflexivity].
Qed.
Example C63_example : exists d, load_files (mkArr [2] [Fin 0; Fin 1]%Q) (mkArr [1; 3] [Fin 0; Fin 5; Fin 6]%Q) (mkArr [3; 2] [Fin 1; Fin 2; Fin 3; Fin 4; Fin 5; Fin 6]%Q) = Ok d /\ field_at d 1 2 = Some (Fin 6)%Q /\ field_at d 0 1 = Some (Fin 3)%Q.
Proof. eexists. split; [vm_compute; reflexivity|]. split; vm_compute; reflexivity. Qed.

(** ** C64 *)
(** The models offered for a dataset: for each of KD_SGA and KD_DLGA, exactly if the registry says
    the dataset supports it; KD_EqGPT always, once; nothing when no dataset is selected. *)
Theorem C64_offered name : name <> "" -> let l := get_compatible_models name in
  NoDup l /\ In "KD_EqGPT" l /\ (forall m, In m l -> In m (map fst model_keys)) /\
  forall disp key, In (disp, key) [("KD_SGA", "sga"); ("KD_DLGA", "dlga")] -> (In disp l <-> exists e, In e registry /\ e_name e = name /\ In (key, true) (e_models e)).
Proof.
  intros N. cbv zeta. unfold get_compatible_models. destruct (String.eqb_spec name ""); [contradiction|].
  destruct (find_entry name) as [e|] eqn:F.
  - unfold find_entry in F. apply find_some in F. destruct F as [I E]. apply String.eqb_eq in E. subst name.
    assert (U : forall e', In e' registry -> e_name e' = e_name e -> e' = e). { intros e' I' E'. repeat (destruct I as [<-|I]; [repeat (destruct I' as [<-|I']; [first [reflexivity|discriminate E']|]); destruct I'|]). destruct I. }
    assert (K : forall e', In e' registry /\ e_name e' = e_name e /\ True <-> e' = e) by (intros e'; split; [intros (A & B & _); auto|intros ->; auto]).
    assert (R : forall key, (exists e', In e' registry /\ e_name e' = e_name e /\ In (key, true) (e_models e')) <-> In (key, true) (e_models e)) by (intros key; split; [intros (e' & A & B & C); rewrite (U e' A B) in C; exact C|intros C; exists e; auto]).
    clear K U. assert (G : forall l, (In "KD_SGA" l <-> In ("sga", true) (e_models e)) -> (In "KD_DLGA" l <-> In ("dlga", true) (e_models e)) -> forall disp key, In (disp, key) [("KD_SGA", "sga"); ("KD_DLGA", "dlga")] -> (In disp l <-> exists e0, In e0 registry /\ e_name e0 = e_name e /\ In (key, true) (e_models e0))).
    { intros l G1 G2 disp key [K|[K|[]]]; injection K as <- <-; rewrite R; assumption. }
    cbn [registry] in I. destruct I as [<-|[<-|[<-|[<-|[<-|[<-|[<-|[<-|[<-|[]]]]]]]]]]; (split; [vm_compute; repeat constructor; cbn; intuition discriminate|]); (split; [vm_compute; tauto|]); (split; [vm_compute; intros m Im; intuition|]); (apply G; vm_compute; intuition discriminate).
  - cbn. split; [repeat constructor; intros []|]. split; [auto|]. split; [intros m [<-|[]]; tauto|]. intros disp key K. split.
    + intros [<-|[]]. destruct K as [K|[K|[]]]; discriminate.
    + intros (e & I & E & _). unfold find_entry in F. pose proof (find_none _ _ F e I) as X. cbv beta in X. rewrite E, String.eqb_refl in X. discriminate.
Qed.
Theorem C64_none : get_compatible_models "" = []. Proof. reflexivity. Qed.
(** The registry's names for DISCOVER are not the ones looked up: KD_DSCV and KD_DSCV_SPR are never
    offered, although the registry says every active dataset works with DISCOVER. *)
Theorem C64_discover_refuted : (forall name, ~ In "KD_DSCV" (get_compatible_models name) /\ ~ In "KD_DSCV_SPR" (get_compatible_models name)) /\ forall n, In n active_datasets -> exists e, In e registry /\ e_name e = n /\ In ("discover", true) (e_models e).
Proof.
  split.
  - intros name. unfold get_compatible_models. destruct (String.eqb name ""); [split; intros []|]. destruct (find_entry name) as [e|] eqn:F; [|cbn; intuition discriminate]. unfold find_entry in F. apply find_some in F. destruct F as [I _]. cbn [registry] in I. destruct I as [<-|[<-|[<-|[<-|[<-|[<-|[<-|[<-|[<-|[]]]]]]]]]]; vm_compute; intuition discriminate.
  - intros n I. unfold active_datasets in I. apply in_map_iff in I. destruct I as (e & <- & I). apply filter_In in I. destruct I as [I A]. exists e. split; [exact I|]. split; [reflexivity|]. cbn [registry] in I. destruct I as [<-|[<-|[<-|[<-|[<-|[<-|[<-|[<-|[<-|[]]]]]]]]]]; try discriminate A; vm_compute; tauto.
Qed.
Example C64_example : get_compatible_models "kdv" = ["KD_SGA"; "KD_DLGA"; "KD_EqGPT"] /\ get_compatible_models "fisher" = ["KD_EqGPT"].
Proof. split; reflexivity. Qed.
Print Assumptions C63_files.
Print Assumptions C63_bad_shape.
Print Assumptions C63_square_refuted.
Print Assumptions C63_mat.
Print Assumptions C63_mat_missing.
Print Assumptions C63_npy.
Print Assumptions C63_upload_npy.
Print Assumptions C63_upload_npy_refuted.
Print Assumptions C63_unknown.
Print Assumptions C63_load_pde.
Print Assumptions C63_unreadable_is_none_refuted.
Print Assumptions C63_registered_npy.
Print Assumptions C64_offered.
Print Assumptions C64_none.
Print Assumptions C64_discover_refuted.
Print Assumptions C63_shipped_mats.
Print Assumptions C63_shipped_all.
Print Assumptions C63_npy_other.
