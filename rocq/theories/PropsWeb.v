(** C122-C125: training and plotting in the web page. *)
From Coq Require Import QArith Lqa Ascii.
From Verif Require Import Base Num Web.
From Verif Require Info Job Loader VizCore.
Local Open Scope string_scope.
Local Open Scope list_scope.

(** *** C122 *)
Section C122.
Context {D M : Type}.
(** With every module present (as the page assumes) training succeeds exactly when the
    dataset loads, the fields are numbers and fitting succeeds; the model and its equation
    are shown, and the plots offered are those of the model, sorted, without the spr_ ones
    unless it is an SPR model. *)
Definition plots_of (m : machine D M) (x : M) : list string := VizCore.sorted (filter (fun c => m_spr m x || negb (sprefix "spr_" c)) (m_caps m x)).
Theorem C122_training (m : machine D M) dataset name p x eq plots : (forall s, m_module m s = true) -> name <> "KD_EqGPT" ->
  (run_local m dataset name p = Trained x eq plots <->
   exists d c, m_load m dataset = Ok d /\ local_call name p = Some (Ok c) /\ m_fit m c (Some d) = Ok (x, eq) /\ plots = plots_of m x).
Proof.
  intros HM HN. unfold run_local. apply String.eqb_neq in HN. rewrite HN.
  assert (PL : forall y, (if m_spr m y then m_caps m y else filter (fun c => negb (sprefix "spr_" c)) (m_caps m y)) = filter (fun c => m_spr m y || negb (sprefix "spr_" c)) (m_caps m y)).
  { intros y. destruct (m_spr m y); [|reflexivity]. induction (m_caps m y) as [|a l IH]; [reflexivity|]. cbn. f_equal. exact IH. }
  destruct (m_load m dataset) as [d|e]; [|split; [discriminate|intros (d & c & X & _); discriminate]].
  destruct (local_call name p) as [[c|e]|].
  - unfold capabilities, import. rewrite !HM. cbn [bind]. destruct (m_fit m c (Some d)) as [[y q]|e] eqn:F; cbn [bind fst].
    + split.
      * intros H. injection H as <- <- <-. exists d, c. rewrite PL. auto.
      * intros (d' & c' & X & Y & Z & ->). injection X as <-. injection Y as <-. rewrite F in Z. injection Z as <- <-. unfold plots_of. rewrite PL. reflexivity.
    + split; [discriminate|]. intros (d' & c' & X & Y & Z & _). injection X as <-. injection Y as <-. congruence.
  - unfold import. rewrite HM. cbn [bind]. split; [discriminate|]. intros (d' & c' & X & Y & _). discriminate.
  - split; [discriminate|]. intros (d' & c' & X & Y & _). discriminate.
Qed.
(** EqGPT needs no dataset. *)
Theorem C122_eqgpt (m : machine D M) dataset p x eq plots : m_module m "kd.model.kd_eqgpt" = true ->
  (run_local m dataset "KD_EqGPT" p = Trained x eq plots <->
   exists e s, to_int (eqgpt_epochs p) = Ok e /\ to_int (eqgpt_samples p) = Ok s /\
     m_fit m (CallEqGPT e s (if contains "N only" (eqgpt_cases p) then "N" else "all")) None = Ok (x, eq) /\ plots = []).
Proof.
  intros HM. unfold run_local. cbn [String.eqb Ascii.eqb Bool.eqb local_call module_of]. unfold import. rewrite HM. cbn [bind].
  destruct (to_int (eqgpt_epochs p)) as [e|e1]; cbn [bind]; [|split; [discriminate|intros (e & s & X & _); discriminate]].
  destruct (to_int (eqgpt_samples p)) as [s|e1]; cbn [bind]; [|split; [discriminate|intros (e' & s & _ & X & _); discriminate]].
  match goal with |- context [m_fit m ?c None] => destruct (m_fit m c None) as [[y q]|e1] eqn:F end; cbn [bind].
  - split.
    + intros H. injection H as <- <- <-. exists e, s. rewrite F. auto.
    + intros (e' & s' & X & Y & Z & ->). injection X as <-. injection Y as <-. rewrite F in Z. injection Z as <- <-. reflexivity.
  - split; [discriminate|]. intros (e' & s' & X & Y & Z & _). injection X as <-. injection Y as <-. congruence.
Qed.
(** In the package as shipped only EqGPT can be trained on the page: every other model ends
    in an error, even after its training succeeded, because kd.model.kd_dscv does not exist. *)
Theorem C122_local_training_refuted (m : machine D M) dataset name p : (forall s, m_module m s = existsb (String.eqb s) shipped) -> name <> "KD_EqGPT" ->
  (forall x eq plots, run_local m dataset name p <> Trained x eq plots) /\
  (forall d c r, m_load m dataset = Ok d -> local_call name p = Some (Ok c) -> m_fit m c (Some d) = Ok r -> run_local m dataset name p = Failed OtherError).
Proof.
  intros HM HN. unfold run_local. apply String.eqb_neq in HN. rewrite HN.
  assert (forall y, capabilities m y = Err OtherError) as CP by (intros y; unfold capabilities, import; rewrite HM; reflexivity).
  split.
  - intros x eq plots. destruct (m_load m dataset) as [d|e]; [|discriminate]. destruct (local_call name p) as [c|]; [|discriminate].
    destruct (import m (module_of name)) as [[]|e]; cbn [bind]; [|discriminate]. destruct c as [c|e]; cbn [bind]; [|discriminate].
    destruct (m_fit m c (Some d)) as [[y q]|e]; cbn [bind fst]; [|discriminate]. rewrite CP. discriminate.
  - intros d c r -> -> F. unfold import. destruct (m_module m (module_of name)); cbn [bind]; [|reflexivity]. rewrite F. cbn [bind]. rewrite CP. reflexivity.
Qed.
End C122.
Lemma sprefix_spec a : forall b, sprefix a b = true <-> exists r, b = String.append a r.
Proof.
  induction a as [|c a IH]; intros b; [split; [exists b; reflexivity|reflexivity]|]. destruct b as [|d b]; cbn; [split; [discriminate|intros (r & H); discriminate]|].
  rewrite andb_true_iff, IH. split.
  - intros [E (r & ->)]. apply Ascii.eqb_eq in E as ->. exists r. reflexivity.
  - intros (r & H). injection H as -> ->. split; [apply Ascii.eqb_refl|exists r; reflexivity].
Qed.
(** The case filter is "N" exactly when the chosen entry contains "N only". *)
Theorem C122_case_filter a b : contains a b = true <-> exists l r, b = String.append l (String.append a r).
Proof.
  induction b as [|c b IH].
  - cbn [contains]. rewrite orb_false_r, sprefix_spec. split.
    + intros (r & H). exists "", r. exact H.
    + intros (l & r & H). destruct l; [exists r; exact H|discriminate].
  - cbn [contains]. rewrite orb_true_iff, sprefix_spec, IH. split.
    + intros [(r & H)|(l & r & H)]; [exists "", r; exact H|exists (String c l), r; cbn; f_equal; exact H].
    + intros (l & r & H). destruct l as [|d l]; [left; exists r; exact H|]. right. cbn in H. injection H as -> ->. exists l, r. reflexivity.
Qed.
(** The parameters of each model are those of its fields (whole numbers are passed on as
    they are). *)
Definition whole_field (v : pyval) (z : Z) : Prop := v = VNum (Fin (inject_Z z)).
Theorem C122_parameters p a b c d e f g h i j k l r : 
  whole_field (sga_run p) a -> whole_field (sga_num p) b -> whole_field (sga_depth p) c -> whole_field (sga_seed p) d ->
  whole_field (dlga_max_iter p) e -> whole_field (dlga_sample p) f -> f <> 0%Z -> dlga_epi p = VNum r ->
  whole_field (dscv_batch p) g -> whole_field (dscv_epochs p) h -> whole_field (dscv_seed p) i -> whole_field (spr_epochs p) j -> spr_ratio p = VNum r ->
  whole_field (eqgpt_epochs p) k -> whole_field (eqgpt_samples p) l ->
  local_call "KD_SGA" p = Some (Ok (CallSGA a b c d)) /\
  local_call "KD_DLGA" p = Some (Ok (CallDLGA (Info.parse_ops (dlga_ops p)) r 2 e (Some f))) /\
  local_call "KD_DSCV" p = Some (Ok (CallDSCV (Info.parse_ops (dscv_binary p)) (Info.parse_ops (dscv_unary p)) g i h)) /\
  local_call "KD_DSCV_SPR" p = Some (Ok (CallSPR (Info.parse_ops (dscv_binary p)) (Info.parse_ops (dscv_unary p)) g i j r)) /\
  local_call "KD_EqGPT" p = Some (Ok (CallEqGPT k l (if contains "N only" (eqgpt_cases p) then "N" else "all"))).
Proof.
  intros A B C D E F NF R G H I J R' K L. unfold whole_field in *. unfold local_call. cbn [String.eqb Ascii.eqb Bool.eqb]. rewrite A, B, C, D, E, F, R, G, H, I, J, R', K, L.
  cbn [to_int num_int to_float]. unfold trunc. cbn [inject_Z Qnum Qden]. rewrite !Z.quot_1_r. cbn [bind]. repeat split.
  unfold truthy, zero_num. assert (Qeq_bool (inject_Z f) 0 = false) as ->. { apply not_true_iff_false. rewrite Qeq_bool_iff. change 0%Q with (inject_Z 0). rewrite inject_Z_injective. exact NF. }
  reflexivity.
Qed.
(** Other numbers are cut off towards zero. *)
Theorem C122_cut_off q z : to_int (VNum (Fin q)) = Ok z -> ((0 <= q)%Q -> (inject_Z z <= q)%Q /\ (q < inject_Z (z + 1))%Q) /\ ((q <= 0)%Q -> (q <= inject_Z z)%Q /\ (inject_Z (z - 1) < q)%Q).
Proof.
  cbn. intros H. injection H as <-. unfold trunc, Qle, Qlt. destruct q as [n d]. cbn. pose proof (Z.quot_rem' n (Zpos d)) as E.
  pose proof (Z.rem_bound_pos_pos n (Zpos d)) as B1. pose proof (Z.rem_bound_neg_pos n (Zpos d)) as B2. split; intros S; nia.
Qed.
Definition c122_page : page := mkPage (VNum (Fin 3)) (VNum (Fin 10)) (VNum (Fin 3)) (VNum (Fin 0)) "u, u_x" (VNum (Fin (1 # 10))) (VNum (Fin 3000)) (VNum (Fin 500))
  "add_t, mul_t" "n2_t" (VNum (Fin 200)) (VNum (Fin 5)) (VNum (Fin 0)) (VNum (Fin (1 # 10))) (VNum (Fin 7)) (VNum (Fin 5)) (VNum (Fin 400)) "N only (12 cases)".
Definition c122_machine (all : bool) : machine nat string := mkMachine (fun s => all || existsb (String.eqb s) shipped) (fun _ => Ok 0) (fun _ _ => Ok ("model", "u_t = u")) (fun _ => ["spr_residual"; "tree"; "parity"]) (fun _ => false).
Example C122_example : run_local (c122_machine true) "burgers" "KD_SGA" c122_page = Trained "model" "u_t = u" ["parity"; "tree"] /\
  run_local (c122_machine false) "burgers" "KD_SGA" c122_page = Failed OtherError /\
  run_local (c122_machine false) "" "KD_EqGPT" c122_page = Trained "model" "u_t = u" [] /\
  local_call "KD_EqGPT" c122_page = Some (Ok (CallEqGPT 5 400 "N")).
Proof. repeat split; vm_compute; reflexivity. Qed.

(** *** C123 *)
(** A sample field as the page gives it: empty, zero, or at least one in size. *)
Definition whole (v : pyval) : Prop := forall k, to_int v = Ok k -> truthy v = true -> k <> 0%Z.
(** The job started on the platform trains with exactly the parameters the page would use
    itself; if a field is not a number both fail with the same exception. *)
Theorem C123_same_parameters name p : In name gpu_models -> whole (dlga_sample p) ->
  local_call name p = Some (do q <- gpu_params name p ; runner_call (fst q) (snd q)).
Proof.
  intros [<-|[<-|[]]] W; unfold local_call, gpu_params; cbn [String.eqb Ascii.eqb Bool.eqb]; f_equal.
  - destruct (to_float (dlga_epi p)) as [e|]; cbn [bind]; [|reflexivity]. destruct (to_int (dlga_max_iter p)) as [mi|]; cbn [bind]; [|reflexivity].
    unfold whole in W. destruct (truthy (dlga_sample p)).
    + destruct (to_int (dlga_sample p)) as [k|]; cbn [bind]; [|reflexivity]. specialize (W k eq_refl eq_refl). cbn. apply Z.eqb_neq in W. rewrite W. reflexivity.
    + reflexivity.
  - destruct (to_int (dscv_batch p)) as [b|]; cbn [bind]; [|reflexivity]. destruct (to_int (dscv_seed p)) as [s|]; cbn [bind]; [|reflexivity].
    destruct (to_int (spr_epochs p)) as [n|]; cbn [bind]; [|reflexivity]. destruct (to_float (spr_ratio p)) as [r|]; cbn [bind]; reflexivity.
Qed.
(** Whole numbers (what the page's number box delivers) meet the condition. *)
Theorem C123_whole_numbers z : whole (VNum (Fin (inject_Z z))) /\ whole VNone.
Proof.
  split; intros k E T; [|discriminate]. cbn in E. injection E as <-. unfold trunc. cbn. rewrite Z.quot_1_r. intros ->. discriminate.
Qed.
Example C123_example : local_call "KD_DLGA" c122_page = Some (Ok (CallDLGA ["u"; "u_x"] (Fin (1 # 10)) 2 3000 (Some 500%Z))) /\
  (exists q, gpu_params "KD_DSCV_SPR" c122_page = Ok q /\ runner_call (fst q) (snd q) = Ok (CallSPR ["add_t"; "mul_t"] ["n2_t"] 200 0 7 (Fin (1 # 10)))).
Proof. split; [vm_compute; reflexivity|]. eexists. split; reflexivity. Qed.
(** A sample of one half means 0 points locally but all points on the platform. *)
Theorem C123_fractional_sample_refuted : exists v, to_int v = Ok 0%Z /\ truthy v = true /\
  forall p q, dlga_sample p = v -> gpu_params "KD_DLGA" p = Ok q ->
    (exists o e m, local_call "KD_DLGA" p = Some (Ok (CallDLGA o e 2 m (Some 0%Z)))) /\ (exists o e m, runner_call (fst q) (snd q) = Ok (CallDLGA o e 2 m None)).
Proof.
  exists (VNum (Fin (1 # 2))). split; [reflexivity|]. split; [reflexivity|]. intros p q E. unfold gpu_params, local_call. cbn [String.eqb Ascii.eqb Bool.eqb]. rewrite E.
  destruct (to_float (dlga_epi p)) as [e|]; cbn [bind]; [|discriminate]. destruct (to_int (dlga_max_iter p)) as [mi|]; cbn [bind]; [|discriminate].
  intros H. injection H as <-. split; do 3 eexists; reflexivity.
Qed.
(** Pressing the button: without a selection a hint; a GPU model on the platform is
    submitted once with the page's parameters; everything else is trained here. *)
Theorem C123_button {D M} (m : machine D M) gpu submit dataset name p :
  train m gpu submit dataset name p =
  if String.eqb dataset "" || String.eqb name "" then Ok (Session (Job.mkSession M Job.SelectFirst None None Job.Hidden false))
  else if existsb (String.eqb name) gpu_models && gpu then
    match gpu_params name p with
    | Err e => Err e
    | Ok q => Ok (Session (match submit (fst q) dataset (snd q) with
                           | Ok id => Job.mkSession M (Job.Submitted id) None (Some id) (Job.JobLine id (Job.Known "Submitted")) true
                           | Err e => Job.mkSession M (Job.SubmitError e) None None Job.Hidden false
                           end))
    end
  else match run_local m dataset name p with
       | Trained x eq _ => Ok (Session (Job.mkSession M (Job.Equation eq) (Some x) None Job.Hidden false))
       | Failed e => Ok (Session (Job.mkSession M (Job.TrainError e) None None Job.Hidden false))
       | UnknownModel => Ok (Text ("Unknown model: " ++ name)%string)
       end.
Proof.
  unfold train. destruct (String.eqb dataset "" || String.eqb name ""); [reflexivity|]. destruct (existsb (String.eqb name) gpu_models && gpu).
  - destruct (gpu_params name p) as [q|e]; [|reflexivity]. cbn [bind]. unfold Job.run_training. cbn [negb]. destruct (submit (fst q) dataset (snd q)); reflexivity.
  - destruct (run_local m dataset name p) as [x eq pl|e|]; reflexivity.
Qed.
(** An empty number field is reported on the page when training here, but escapes as an
    exception when a job is submitted. *)
Theorem C123_empty_field_refuted : exists p, (forall (D M : Type) (m : machine D M) submit d, d <> "" -> train m true submit d "KD_DLGA" p = Err TypeError) /\
  (forall (D M : Type) (m : machine D M) submit d, d <> "" -> exists s, train m false submit d "KD_DLGA" p = Ok s).
Proof.
  set (p := mkPage VNone VNone VNone VNone "" VNone VNone VNone "" "" VNone VNone VNone VNone VNone VNone VNone ""). exists p. split.
  - intros D M m submit d N. apply String.eqb_neq in N. unfold train. rewrite N. reflexivity.
  - intros D M m submit d N. apply String.eqb_neq in N. unfold train. rewrite N. cbn [orb String.eqb Ascii.eqb Bool.eqb]. rewrite andb_false_r.
    destruct (run_local m d "KD_DLGA" p); eexists; reflexivity.
Qed.

(** *** C124 *)
(** Two pages agree on a group of fields. *)
Definition agree (g : group) (p q : page) : Prop :=
  match g with
  | GSga => sga_run p = sga_run q /\ sga_num p = sga_num q /\ sga_depth p = sga_depth q /\ sga_seed p = sga_seed q
  | GDlga => dlga_ops p = dlga_ops q /\ dlga_epi p = dlga_epi q /\ dlga_max_iter p = dlga_max_iter q /\ dlga_sample p = dlga_sample q
  | GDscv => dscv_binary p = dscv_binary q /\ dscv_unary p = dscv_unary q /\ dscv_batch p = dscv_batch q /\ dscv_epochs p = dscv_epochs q /\ dscv_seed p = dscv_seed q
  | GSpr => spr_ratio p = spr_ratio q /\ spr_epochs p = spr_epochs q
  | GEqgpt => eqgpt_epochs p = eqgpt_epochs q /\ eqgpt_samples p = eqgpt_samples q /\ eqgpt_cases p = eqgpt_cases q
  end.
(** Hidden fields have no influence on the training, here or on the platform. *)
Theorem C124_hidden_fields name p q : (forall g, visible name g = true -> agree g p q) ->
  local_call name p = local_call name q /\ (In name gpu_models -> gpu_params name p = gpu_params name q).
Proof.
  intros H. split.
  - unfold local_call.
    destruct (String.eqb name "KD_EqGPT") eqn:E1. { destruct (H GEqgpt E1) as (A & B & C). rewrite A, B, C. reflexivity. }
    destruct (String.eqb name "KD_SGA") eqn:E2. { destruct (H GSga E2) as (A & B & C & F). rewrite A, B, C, F. reflexivity. }
    destruct (String.eqb name "KD_DLGA") eqn:E3. { destruct (H GDlga E3) as (A & B & C & F). rewrite A, B, C, F. reflexivity. }
    destruct (String.eqb name "KD_DSCV") eqn:E4.
    { destruct (H GDscv) as (A & B & C & F & G). { unfold visible. cbn [existsb]. rewrite E4. reflexivity. } rewrite A, B, C, F, G. reflexivity. }
    destruct (String.eqb name "KD_DSCV_SPR") eqn:E5; [|reflexivity].
    destruct (H GDscv) as (A & B & C & F & G). { unfold visible. cbn [existsb]. rewrite E4, E5. reflexivity. }
    destruct (H GSpr E5) as (I & J). rewrite A, B, C, G, I, J. reflexivity.
  - intros [<-|[<-|[]]]; unfold gpu_params; cbn [String.eqb Ascii.eqb Bool.eqb].
    + destruct (H GDlga eq_refl) as (A & B & C & F). rewrite A, B, C, F. reflexivity.
    + destruct (H GDscv eq_refl) as (A & B & C & F & G). destruct (H GSpr eq_refl) as (I & J). rewrite A, B, C, G, I, J. reflexivity.
Qed.
(** One visible field has none either: the number of search epochs shown for an SPR model. *)
Theorem C124_search_epochs_refuted p q : agree GSpr p q -> dscv_binary p = dscv_binary q -> dscv_unary p = dscv_unary q -> dscv_batch p = dscv_batch q -> dscv_seed p = dscv_seed q ->
  visible "KD_DSCV_SPR" GDscv = true /\ local_call "KD_DSCV_SPR" p = local_call "KD_DSCV_SPR" q.
Proof. intros (A & B) C E F G. split; [reflexivity|]. unfold local_call. cbn [String.eqb Ascii.eqb Bool.eqb]. rewrite A, B, C, E, F, G. reflexivity. Qed.
(** Which groups are shown. *)
Theorem C124_groups name g : visible name g = true <->
  In (name, g) [("KD_SGA", GSga); ("KD_DLGA", GDlga); ("KD_DSCV", GDscv); ("KD_DSCV_SPR", GDscv); ("KD_DSCV_SPR", GSpr); ("KD_EqGPT", GEqgpt)].
Proof.
  split.
  - destruct g; cbn [visible existsb]; rewrite ?orb_true_iff, ?String.eqb_eq; intros H; repeat (destruct H as [H|H]; try discriminate); subst; cbn; tauto.
  - cbn. intros H. repeat (destruct H as [H|H]; [injection H as <- <-; reflexivity|]). destruct H.
Qed.
(** The operator boxes: as long as nothing is typed they hold the presets of the model. *)
Definition typed (e : ui) : bool := match e with TypeBinary _ | TypeUnary _ => true | _ => false end.
Definition fits (b : boxes) : Prop :=
  match bx_model b with Some n => bx_binary b = preset_binary n /\ bx_unary b = preset_unary n | None => bx_binary b = "add, mul, diff" /\ bx_unary b = "n2" end.
Theorem C124_presets es : (forall e, In e es -> typed e = false) -> fits (ui_run es).
Proof.
  unfold ui_run. assert (fits ui_start) as F0 by (cbn; auto). revert F0. generalize ui_start. induction es as [|e es IH]; intros b F H; [exact F|]. cbn [fold_left]. apply IH; [|intros e' He; apply H; right; exact He].
  specialize (H e ltac:(left; reflexivity)). destruct e as [d|n|s|s]; try discriminate; cbn [ui_step].
  - destruct (same_model (hd_error (Loader.get_compatible_models d)) (bx_model b)); [exact F|]. unfold fits, set_model. destruct (hd_error (Loader.get_compatible_models d)); cbn; auto.
  - destruct (same_model (Some n) (bx_model b)); [exact F|]. cbn. auto.
Qed.
(** Choosing another model always brings its presets, whatever was typed before. *)
Theorem C124_switch es n : bx_model (ui_run es) <> Some n -> fits (ui_run (es ++ [PickModel n])) /\ bx_model (ui_run (es ++ [PickModel n])) = Some n.
Proof.
  intros H. unfold ui_run in *. rewrite fold_left_app. cbn [fold_left ui_step]. set (b := fold_left ui_step es ui_start) in *.
  destruct (same_model (Some n) (bx_model b)) eqn:S; [|cbn; auto]. exfalso. apply H. cbn in S. destruct (bx_model b) as [k|]; [|discriminate]. apply String.eqb_eq in S as ->. reflexivity.
Qed.
(** The presets of SPR models are torch operators, those of the others are not. *)
Theorem C124_preset_operators : Info.parse_ops (preset_binary "KD_DSCV_SPR") = ["add_t"; "mul_t"; "div_t"; "diff_t"; "diff2_t"] /\ Info.parse_ops (preset_unary "KD_DSCV_SPR") = ["n2_t"] /\
  forall n, n <> "KD_DSCV_SPR" -> Info.parse_ops (preset_binary n) = ["add"; "mul"; "diff"] /\ Info.parse_ops (preset_unary n) = ["n2"].
Proof.
  split; [vm_compute; reflexivity|]. split; [vm_compute; reflexivity|]. intros n N. apply String.eqb_neq in N. unfold preset_binary, preset_unary. rewrite N. split; vm_compute; reflexivity.
Qed.
(** The model shown is always one of the list, as long as models are chosen from the list. *)
Inductive session_of : list ui -> Prop :=
| so_nil : session_of []
| so_dataset es d : session_of es -> session_of (es ++ [PickDataset d])
| so_model es n : session_of es -> In n (bx_choices (ui_run es)) -> session_of (es ++ [PickModel n])
| so_binary es s : session_of es -> session_of (es ++ [TypeBinary s])
| so_unary es s : session_of es -> session_of (es ++ [TypeUnary s]).
Theorem C124_model_listed es n : session_of es -> bx_model (ui_run es) = Some n -> In n (bx_choices (ui_run es)).
Proof.
  intros S. revert n. induction S as [|es d S IH|es m S IH I|es s S IH|es s S IH]; intros n; unfold ui_run in *; rewrite ?fold_left_app; cbn [fold_left ui_step].
  - discriminate.
  - set (b := fold_left ui_step es ui_start) in *. destruct (same_model (hd_error (Loader.get_compatible_models d)) (bx_model b)) eqn:E; cbn [bx_model bx_choices set_model].
    + intros H. rewrite H in E. destruct (Loader.get_compatible_models d) as [|a l]; [discriminate|]. cbn in E. apply String.eqb_eq in E as ->. left. reflexivity.
    + destruct (Loader.get_compatible_models d) as [|a l]; cbn; [discriminate|]. intros H. injection H as <-. left. reflexivity.
  - set (b := fold_left ui_step es ui_start) in *. destruct (same_model (Some m) (bx_model b)); [apply IH|]. cbn. intros H. injection H as <-. exact I.
  - cbn. apply IH.
  - cbn. apply IH.
Qed.
(** After a dataset is chosen there is a model. *)
Theorem C124_default_model es d : d <> "" -> exists n, bx_model (ui_run (es ++ [PickDataset d])) = Some n /\ hd_error (Loader.get_compatible_models d) = Some n.
Proof.
  intros N. unfold ui_run. rewrite fold_left_app. cbn [fold_left ui_step]. set (b := fold_left ui_step es ui_start).
  assert (exists n, hd_error (Loader.get_compatible_models d) = Some n) as (n & HN).
  { unfold Loader.get_compatible_models. apply String.eqb_neq in N. rewrite N. match goal with |- context [existsb ?f ?l] => set (r := l) end.
    destruct (existsb (String.eqb "KD_EqGPT") r) eqn:E; destruct r as [|a l]; [discriminate|exists a; reflexivity|exists "KD_EqGPT"; reflexivity|exists a; reflexivity]. }
  exists n. split; [|exact HN]. rewrite HN. destruct (same_model (Some n) (bx_model b)) eqn:S; [|reflexivity]. cbn in S |- *.
  destruct (bx_model b) as [k|]; [|discriminate]. apply String.eqb_eq in S as ->. reflexivity.
Qed.
Example C124_example : let b := ui_run [PickDataset "burgers"; TypeBinary "sub"; PickModel "KD_DSCV_SPR"; TypeUnary "n3_t"] in
  bx_model b = Some "KD_DSCV_SPR" /\ bx_binary b = "add_t, mul_t, div_t, diff_t, diff2_t" /\ bx_unary b = "n3_t".
Proof. repeat split; vm_compute; reflexivity. Qed.

(** *** C125 *)
Section C125.
Context {F : Type} (m : VizCore.mpl) (tmp : string) (imread : string -> res F).
(** A plot shows the figure, or the first saved file, unless there is a warning; and says
    what happened otherwise. *)
Theorem C125_output render s s' f msg : run_viz m tmp true render imread s = (s', f, msg) ->
  exists dirs r, render (set_dir m (Some tmp) (mkVS (vs_cfg s) (tmp :: vs_dirs s))) = (dirs, r) /\
    (msg = Generated <-> f <> None) /\ msg <> TrainFirst /\
    (forall e, r = Err e -> msg = VizError e) /\
    (forall v, r = Ok v -> v_warnings v <> [] -> msg = Warned (v_warnings v)) /\
    (forall v g, r = Ok v -> v_warnings v = [] -> v_figure v = Some g -> f = Some g) /\
    (forall v q l, r = Ok v -> v_warnings v = [] -> v_figure v = None -> v_paths v = q :: l -> (forall g, imread q = Ok g -> f = Some g) /\ (forall e, imread q = Err e -> msg = VizError e)) /\
    (forall v, r = Ok v -> v_warnings v = [] -> v_figure v = None -> v_paths v = [] -> msg = NoOutput).
Proof.
  unfold run_viz. cbn [negb]. destruct (render _) as [dirs r] eqn:R. intros H. exists dirs, r. split; [reflexivity|]. injection H as _ <- <-.
  assert (INJ : forall a b : vres F, @Ok (vres F) a = Ok b -> a = b) by congruence.
  destruct r as [[fg ps ws]|e].
  - destruct ws as [|w ws]; [destruct fg as [fg|]; [|destruct ps as [|q0 ps]; [|destruct (imread q0) as [g0|e0] eqn:I]]|]; cbn [fst snd v_figure v_paths v_warnings]; rewrite ?I; cbn [fst snd];
      (split; [split; intros X; (reflexivity || discriminate || (exfalso; apply X; reflexivity))|]); (split; [discriminate|]); (split; [intros e' E; discriminate|]);
      repeat split; intros; repeat match goal with H : @Ok (vres F) _ = Ok ?v |- _ => apply INJ in H; subst v end; cbn [v_figure v_paths v_warnings] in *;
      first [reflexivity | congruence | exfalso; match goal with H : ?x <> ?x |- _ => apply H; reflexivity end].
  - cbn. split; [split; intros X; [discriminate|exfalso; apply X; reflexivity]|]. split; [discriminate|]. split; [congruence|]. repeat split; intros; discriminate.
Qed.
(** Style and back end of the session are not touched, the temporary directory is gone
    afterwards and other directories stay as the plot left them. *)
Theorem C125_session render s s' f msg : run_viz m tmp true render imread s = (s', f, msg) ->
  VizCore.style (VizCore.cfg (vs_cfg s')) = VizCore.style (VizCore.cfg (vs_cfg s)) /\ VizCore.cfg_backend (VizCore.cfg (vs_cfg s')) = VizCore.cfg_backend (VizCore.cfg (vs_cfg s)) /\
  ~ In tmp (vs_dirs s') /\ forall d, d <> tmp -> (In d (vs_dirs s') <-> In d (fst (render (set_dir m (Some tmp) (mkVS (vs_cfg s) (tmp :: vs_dirs s)))))).
Proof.
  unfold run_viz. cbn [negb]. destruct (render _) as [dirs r]. intros H. injection H as <- _ _. cbn. repeat split; auto.
  - intros I. apply filter_In in I as [_ I]. rewrite String.eqb_refl in I. discriminate.
  - intros I. apply filter_In in I as [I _]. exact I.
  - intros I. apply filter_In. split; [exact I|]. apply negb_true_iff, String.eqb_neq. assumption.
Qed.
(** Without a trained model nothing happens. *)
Theorem C125_untrained render s : run_viz m tmp false render imread s = (s, None, TrainFirst).
Proof. reflexivity. Qed.
(** The directory for saved plots is not restored: it stays the temporary one, which no
    longer exists, whatever it was before. *)
Theorem C125_directory_restored_refuted render s s' f msg : run_viz m tmp true render imread s = (s', f, msg) ->
  VizCore.save_dir (VizCore.cfg (vs_cfg s')) = Some tmp /\ ~ In tmp (vs_dirs s').
Proof.
  intros H. split; [|apply (C125_session render s s' f msg H)]. unfold run_viz in H. cbn [negb] in H. destruct (render _) as [dirs r]. injection H as <- _ _. reflexivity.
Qed.
End C125.
Definition c125_mpl : VizCore.mpl := {| VizCore.conv := fun _ v => Some v; VizCore.usable := fun b => Some b |}.
Definition c125_start : vstate := mkVS {| VizCore.cfg := VizCore.initial_config; VizCore.rc := [] |} ["/home"].
Example C125_example : exists s', run_viz c125_mpl "/tmp/a" true (fun s => (vs_dirs s, Ok (mkVres (@None nat) ["/tmp/a/x.png"] []))) (fun _ => Ok 3) c125_start = (s', Some 3, Generated) /\
  vs_dirs s' = ["/home"] /\ VizCore.save_dir (VizCore.cfg (vs_cfg c125_start)) = None.
Proof. eexists. split; [reflexivity|]. split; reflexivity. Qed.
Print Assumptions C122_training.
Print Assumptions C122_eqgpt.
Print Assumptions C122_parameters.
Print Assumptions C122_cut_off.
Print Assumptions C122_local_training_refuted.
Print Assumptions C122_case_filter.
Print Assumptions C123_same_parameters.
Print Assumptions C123_whole_numbers.
Print Assumptions C123_fractional_sample_refuted.
Print Assumptions C123_button.
Print Assumptions C123_empty_field_refuted.
Print Assumptions C124_hidden_fields.
Print Assumptions C124_search_epochs_refuted.
Print Assumptions C124_groups.
Print Assumptions C124_presets.
Print Assumptions C124_switch.
Print Assumptions C124_preset_operators.
Print Assumptions C124_model_listed.
Print Assumptions C124_default_model.
Print Assumptions C125_output.
Print Assumptions C125_session.
Print Assumptions C125_untrained.
Print Assumptions C125_directory_restored_refuted.
