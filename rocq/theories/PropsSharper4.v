(** Sharper statements for C150, C153 and C154, added after wrong programs that the earlier ones accepted. *)
From Coq Require Import QArith.
From Verif Require Import Base.
From Verif Require RegData Network.
From Verif Require Import Trees TreeFacts TreePos Library LibraryFacts Prior PriorSpec PriorFacts LengthFacts ExampleLib NamedPriors PropsNamedPriors.
Local Open Scope string_scope.
Local Open Scope nat_scope.
Local Open Scope list_scope.

(** ** C150: with diff_descedent no addition, subtraction or constant occurs in the expression a derivative is taken of. *)
Theorem C150_descendants lib ps t rest a b : usual lib -> In (diff_des_prior lib) ps -> respects (ar_of lib) t -> sampled lib ps (preorder t ++ rest) ->
  derivative lib a -> inside_first t a b -> forall s, In s ["add"; "add_t"; "sub"; "sub_t"; "const"] -> ~ called lib b s.
Proof.
  intros (L & N & _ & D & _) I R S' A (c & Hn & Hc) s Hs B.
  refine (sampled_descendant lib ps (diff_des_targets lib) (ldiff lib) t rest L _ I R S' b c Hn _).
  - intros e E. apply (diff_iff lib L) in E. rewrite (D e E). lia.
  - split; [|exists a; split; [apply diff_iff; auto|exact Hc]]. unfold diff_des_targets. apply in_app_iff.
    destruct (string_dec s "const") as [->|NC].
    + right. rewrite (called_const lib b L N B). left. reflexivity.
    + left. apply indices_spec. destruct B as (tk & E & <-). exists tk. split; [exact E|]. apply existsb_exists. exists (tname tk). split; [|apply String.eqb_refl].
      cbn in Hs. cbn. intuition congruence.
Qed.
Example C150_descendants_case : derivative (mk case_toks) 4 /\ called (mk case_toks) 5 "const" /\
  permittedb (mk case_toks) [diff_des_prior (mk case_toks)] [4; 0; 6] 5 = false /\ permittedb (mk case_toks) [diff_des_prior (mk case_toks)] [4; 0; 6] 6 = true.
Proof.
  split; [eexists; split; [eexists; split; reflexivity|]; left; vm_compute; reflexivity|]. split; [eexists; split; reflexivity|]. vm_compute. auto.
Qed.

(** ** C153: the activation between the layers of a new network is the one asked for; a rational one starts as
    (1.1915 + 1.5957 x + 0.5 x^2 + 0.0218 x^3) / (2.383 + x^2). *)
Theorem C153_activation draw c n tanh sin x : Network.make draw c = Network.Made n ->
  List.length (Network.acts n) = Z.to_nat (Network.hidden c) /\
  (forall f, In f (Network.acts n) ->
    (Network.act_name c = "Tanh" -> Network.apply_act tanh sin f x = tanh x) /\
    (Network.act_name c = "Sin" -> Network.apply_act tanh sin f x = sin x) /\
    (Network.act_name c = "Rational" -> (Network.apply_act tanh sin f x == (1.1915 + 1.5957 * x + 0.5 * x ^ 2 + 0.0218 * x ^ 3) / (2.383 + x ^ 2))%Q)).
Proof.
  intros H. unfold Network.make in H. destruct (negb _ || _ || _ || _) in H; [discriminate|].
  assert (C : exists f0, n = Network.mkNet (Network.chain draw 0 (Network.widths c)) (repeat f0 (Z.to_nat (Network.hidden c))) /\
    ((Network.act_name c = "Tanh" /\ f0 = Network.Tanh) \/ (Network.act_name c = "Sin" /\ f0 = Network.Sine) \/ (Network.act_name c = "Rational" /\ f0 = Network.rational0))).
  { destruct (String.eqb_spec (Network.act_name c) "Tanh") as [E|_]; [injection H as <-; eauto 6|].
    destruct (String.eqb_spec (Network.act_name c) "Sin") as [E|_]; [injection H as <-; eauto 7|].
    destruct (String.eqb_spec (Network.act_name c) "Rational") as [E|_]; [injection H as <-; eauto 7|discriminate]. }
  destruct C as (f0 & -> & C). cbn [Network.acts]. split; [apply repeat_length|]. intros f I. apply repeat_spec in I as ->.
  destruct C as [(E & ->)|[(E & ->)|(E & ->)]]; rewrite E; (split; [|split]); try discriminate; intros _; try reflexivity.
  unfold Network.rational0, Network.apply_act. apply Qmult_comp; [|apply Qinv_comp]; cbn [Qpower Qpower_positive pow_pos]; ring.
Qed.
Example C153_activation_case : exists n, Network.make (fun _ _ _ => 0%Q) (Network.mkCfg 2 3 2 1 "Rational") = Network.Made n /\ List.length (Network.acts n) = 2.
Proof. eexists. split; reflexivity. Qed.

(** ** C154: the names one can import from kd.dataset, and the exported ones one cannot. *)
Definition package_names : list string :=
  ["PDEDataset"; "load_pde"; "load_regression"; "load_burgers_equation"; "load_kdv_equation"; "load_pde_dataset"; "load_mat_file"; "PDE_REGISTRY"; "get_dataset_info";
   "list_available_datasets"; "get_dataset_sym_true"; "np"; "resources"; "Optional"; "_tag_dataset"; "_REGRESSION_REGISTRY"; "_base"; "_info"; "_registry"; "data"].
Definition missing_names : list string :=
  ["Burgers_equation_shock"; "KdV_equation"; "KdV_equation_sine"; "Chaffee_Infante_equation"; "KG_equation"; "Allen_Cahn_equation"; "Convection_diffusion_equation_solution";
   "Convection_diffusion_equation_simulation"; "Wave_equation"; "KS_equation"; "Beam_equation"; "Heat_equation"; "Heat_equation_sin"; "Diffusion_equation";
   "Parametric_convection_diffusion"; "Parametric_Burgers_equation"; "Parametric_wave_equation"; "Burgers_2D"].
Theorem C154_importable n : (RegData.import_names [n] = Ok [n] <-> In n package_names) /\
  (In n RegData.exported <-> In n missing_names \/ In n ["PDEDataset"; "load_pde"; "load_burgers_equation"; "load_mat_file"; "load_kdv_equation"; "load_pde_dataset"; "list_available_datasets"; "get_dataset_sym_true"; "load_regression"]) /\
  (In n missing_names -> RegData.import_names [n] = Err OtherError).
Proof.
  assert (P : existsb (String.eqb n) RegData.bound = true <-> In n package_names).
  { rewrite existsb_exists. split.
    - intros (s & I & E). apply String.eqb_eq in E as <-. cbn in I. cbn. tauto.
    - intros I. exists n. split; [|apply String.eqb_refl]. cbn in I. cbn. tauto. }
  split; [|split].
  - unfold RegData.import_names. cbn [mapM]. destruct (existsb (String.eqb n) RegData.bound).
    + cbn. split; intros _; [apply P|]; reflexivity.
    + cbn. split; intros H; [discriminate|]. apply P in H. discriminate.
  - cbn. tauto.
  - intros I. unfold RegData.import_names. cbn [mapM]. assert (existsb (String.eqb n) RegData.bound = false) as ->; [|reflexivity].
    cbn in I. repeat (destruct I as [<-|I]; [vm_compute; reflexivity|]). destruct I.
Qed.
Example C154_importable_case : In "PDE_REGISTRY" package_names /\ In "Burgers_2D" missing_names /\ RegData.import_names ["load_regression"] = Ok ["load_regression"].
Proof. split; [cbn; tauto|]. split; [cbn; tauto|reflexivity]. Qed.
Print Assumptions C150_descendants.
Print Assumptions C153_activation.
Print Assumptions C154_importable.
