(** *** C32, C61, C62: remote jobs, the runner's result file, the web session *)
From Verif Require Import Base Job.
Local Open Scope string_scope.
Local Open Scope list_scope.

(** ** C32 *)
(** A job is never both failed and finished; it is one of them exactly for the codes 10-13; codes
    outside 0..13 have no name and are treated as still running. *)
Theorem C32_status code s : check_job (Ok code) = Ok s ->
  j_code s = code /\ (j_finished s = true <-> code = 10 \/ code = 11)%Z /\ (j_failed s = true <-> code = 12 \/ code = 13)%Z /\
  ~ (j_finished s = true /\ j_failed s = true) /\ ((exists t, j_text s = Known t) <-> (0 <= code <= 13)%Z) /\ ((code < 0 \/ 13 < code)%Z -> j_text s = Unknown code /\ j_finished s = false /\ j_failed s = false).
Proof.
  unfold check_job. cbn [bind]. intros E. assert (s = mkJS code (status_text code) (existsb (Z.eqb code) [10; 11]%Z) (existsb (Z.eqb code) [12; 13]%Z)) by congruence. subst s. clear E. cbn [j_code j_finished j_failed j_text existsb].
  split; [reflexivity|]. split; [|split; [|split; [|split]]].
  - lia.
  - lia.
  - lia.
  - split.
    + intros (t & E). destruct (Z.le_gt_cases 0 code) as [L1|L1]; [|destruct code; cbn in E; try discriminate; lia]. destruct (Z.le_gt_cases code 13) as [L2|L2]; [lia|]. exfalso. unfold status_text in E. destruct code as [|p|p]; [lia| |lia]. do 4 (destruct p as [p|p|]; try (discriminate E || lia)).
    + intros [L1 L2]. assert (C : (code = 0 \/ code = 1 \/ code = 2 \/ code = 3 \/ code = 4 \/ code = 5 \/ code = 6 \/ code = 7 \/ code = 8 \/ code = 9 \/ code = 10 \/ code = 11 \/ code = 12 \/ code = 13)%Z) by lia. repeat (destruct C as [->|C]; [eexists; reflexivity|]). subst. eexists. reflexivity.
  - intros H. split; [|lia]. unfold status_text. destruct code as [|p|p]; [lia| |reflexivity]. do 4 (try (destruct p as [p|p|]; try reflexivity; try lia)).
Qed.
Theorem C32_status_error e : check_job (Err e) = Err e. Proof. reflexivity. Qed.
Example C32_example : check_job (Ok 11%Z) = Ok (mkJS 11 (Known "Finished") true false) /\ check_job (Ok 13%Z) = Ok (mkJS 13 (Known "Error") false true) /\ check_job (Ok 42%Z) = Ok (mkJS 42 (Unknown 42) false false).
Proof. repeat split. Qed.

Section Submit.
Context {P : Type}.
Implicit Types (w : world P) (fs : list string).
(** The files on disk after submit_gpu_job are those before, whatever fails, if the temporary file
    can be deleted; at most one job is submitted; success means exactly one. *)
Theorem C32_temp_files w model name params pid default file fs fs' subs r : w_unlink _ w = true -> (forall p, w_mkstemp _ w = Ok p -> ~ In p fs) ->
  submit_gpu_job P w model name params pid default file fs = (fs', subs, r) -> fs' = fs.
Proof.
  unfold submit_gpu_job. intros U F. destruct (w_client P w); [|congruence]. destruct (w_mkstemp P w) as [p|]; [|congruence]. rewrite U.
  assert (R : remove string_dec p (p :: fs) = fs). { cbn. destruct (string_dec p p); [|congruence]. apply notin_remove. now apply F. } rewrite R. destruct (match w_write P w with Ok _ => _ | Err e => _ end) as [x y]. congruence.
Qed.
Theorem C32_submits_once w model name params pid default file fs fs' subs r : submit_gpu_job P w model name params pid default file fs = (fs', subs, r) ->
  List.length subs <= 1 /\ forall id, r = Ok id -> exists s, subs = [s] /\ w_submit _ w s = Ok id.
Proof.
  unfold submit_gpu_job. destruct (w_client P w) as [|e]; [|intros E; assert (subs = [] /\ r = Err e) as [-> ->] by (split; congruence); split; [cbn; lia|discriminate]].
  destruct (w_mkstemp P w) as [p|e]; [|intros E; assert (subs = [] /\ r = Err e) as [-> ->] by (split; congruence); split; [cbn; lia|discriminate]].
  destruct (w_write P w) as [|e]; [|intros E; assert (subs = [] /\ r = Err e) as [-> ->] by (split; congruence); split; [cbn; lia|discriminate]].
  destruct (resolve_project P w pid default) as [q|e]; [|intros E; assert (subs = [] /\ r = Err e) as [-> ->] by (split; congruence); split; [cbn; lia|discriminate]].
  match goal with |- context [w_submit P w ?x] => set (sub := x) end. destruct (w_submit P w sub) as [j|e] eqn:S; intros E.
  - assert (subs = [sub] /\ r = Ok j) as [-> ->] by (split; congruence). split; [cbn; lia|]. intros id [= <-]. eauto.
  - assert (subs = [sub] /\ r = Err e) as [-> ->] by (split; congruence). split; [cbn; lia|discriminate].
Qed.
(** What is submitted: the model, its parameters, the dataset name, and the project: the given one
    if it is not 0, else the configured one, else the user's first. *)
Definition project_of w (pid : option Z) (default : Z) (p : Z) : Prop :=
  (pid = Some p /\ p <> 0%Z) \/ ((pid = None \/ pid = Some 0%Z) /\ ((default <> 0%Z /\ p = default) \/ (default = 0%Z /\ exists l, w_projects _ w = Ok (p :: l)))).
Theorem C32_submission w model name params pid default file fs fs' sub r : submit_gpu_job P w model name params pid default file fs = (fs', [sub], r) ->
  c_model _ (s_config _ sub) = Str model /\ c_params _ (s_config _ sub) = params /\ project_of w pid default (s_project _ sub) /\
  (forall n, name = Some n -> n <> "" -> c_name _ (s_config _ sub) = Str n) /\ ((name = None \/ name = Some "") -> c_name _ (s_config _ sub) = Absent) /\
  exists path, w_mkstemp _ w = Ok path /\ In ("config", path) (s_uploads _ sub) /\
  forall f, In ("dataset_file", f) (s_uploads _ sub) <-> file = Some f /\ f <> "" /\ w_exists _ w f = true.
Proof.
  unfold submit_gpu_job. destruct (w_client P w); [|discriminate]. destruct (w_mkstemp P w) as [path|]; [|discriminate]. destruct (w_write P w); [|discriminate].
  destruct (resolve_project P w pid default) as [q|e] eqn:RP; [|discriminate].
  match goal with |- context [w_submit P w ?x] => intros E; assert (ES : sub = x) by (destruct (w_submit P w x); congruence) end. clear E. rewrite ES. cbn [c_model c_params c_name s_config s_project s_uploads].
  split; [reflexivity|]. split; [reflexivity|]. split; [|split; [|split]].
  - unfold resolve_project in RP. unfold project_of. destruct pid as [z|].
    + destruct (Z.eqb_spec z 0) as [->|N]; [|left; split; congruence]. right. split; [auto|]. destruct (Z.eqb_spec default 0) as [->|N]; [|left; split; congruence]. right. split; [reflexivity|]. destruct (w_projects P w) as [[|p l]|]; try discriminate. cbn in RP. exists l. congruence.
    + right. split; [auto|]. destruct (Z.eqb_spec default 0) as [->|N]; [|left; split; congruence]. right. split; [reflexivity|]. destruct (w_projects P w) as [[|p l]|]; try discriminate. cbn in RP. exists l. congruence.
  - intros n -> N. cbn. destruct (String.eqb_spec n ""); [contradiction|reflexivity].
  - intros [->| ->]; reflexivity.
  - exists path. split; [reflexivity|]. split; [now left|]. intros f. destruct file as [g|]; cbn [truthy].
    + destruct (String.eqb_spec g "") as [->|N]; cbn [negb andb].
      * split; [intros [X|[]]; discriminate|]. intros ([= <-] & X & _). congruence.
      * destruct (w_exists P w g) eqn:EX; cbn [In].
        -- split; [intros [X|[X|[]]]; [discriminate|]; assert (g = f) by congruence; subst; auto|]. intros ([= <-] & _ & _). auto.
        -- split; [intros [X|[]]; discriminate|]. intros ([= <-] & _ & X). congruence.
    + split; [intros [X|[]]; discriminate|intros (X & _); discriminate].
Qed.
Theorem C32_no_project w model name params pid default file fs path : w_client _ w = Ok tt -> w_mkstemp _ w = Ok path -> w_write _ w = Ok tt -> pid = None -> default = 0%Z -> w_projects _ w = Ok [] ->
  exists fs', submit_gpu_job P w model name params pid default file fs = (fs', [], Err RuntimeError).
Proof. intros A B C -> -> D. unfold submit_gpu_job, resolve_project. rewrite A, B, C. cbn [Z.eqb]. rewrite D. cbn. eauto. Qed.
End Submit.
Example C32_submit_example :
  let w := mkWorld nat (Ok tt) (Ok "/tmp/kd_cfg_1.json") (Ok tt) (fun _ => true) (Ok [7; 8]%Z) (fun _ => Ok 5%Z) true in
  submit_gpu_job nat w "dlga" (Some "burgers") 3 None 0 None ["/tmp/other"] =
  (["/tmp/other"], [mkSub nat 7 (mkCfg nat (Str "dlga") (Str "output") 3 (Str "burgers") Absent) ["config"; "output_dir"] [("config", "/tmp/kd_cfg_1.json")]], Ok 5%Z).
Proof. reflexivity. Qed.
(** A user's data file is uploaded but never read: the submitted config has no dataset_file, so the
    runner uses the dataset name, and fails without one. *)
Theorem C32_uploaded_file_refuted : forall P D (w : world P) model name params pid default f fs fs' sub r (m : machine P D),
  submit_gpu_job P w model name params pid default (Some f) fs = (fs', [sub], r) -> w_exists _ w f = true -> f <> "" ->
  In ("dataset_file", f) (s_uploads _ sub) /\ load_source P (m_exists _ _ m) (s_config _ sub) <> Ok (FromFile f) /\ (name = None -> load_source P (m_exists _ _ m) (s_config _ sub) = Err ValueError).
Proof.
  intros P D w model name params pid default f fs fs' sub r m H EX NF. destruct (C32_submission w model name params pid default (Some f) fs fs' sub r H) as (_ & _ & _ & N1 & N2 & path & _ & _ & U). split; [apply U; auto|].
  assert (CF : c_file P (s_config P sub) = Absent). { unfold submit_gpu_job in H. destruct (w_client P w); [|discriminate]. destruct (w_mkstemp P w); [|discriminate]. destruct (w_write P w); [|discriminate]. destruct (resolve_project P w pid default); [|discriminate]. match type of H with context [w_submit P w ?x] => assert (ES : sub = x) by (destruct (w_submit P w x); congruence) end. now rewrite ES. }
  unfold load_source. rewrite CF. cbn [fget]. split.
  - destruct (c_name P (s_config P sub)) as [| |n]; cbn; try discriminate. destruct (negb (String.eqb n "")); discriminate.
  - intros ->. rewrite N2 by auto. reflexivity.
Qed.

(** ** C61: the runner's result file *)
Section Runner.
Context {P D : Type}.
Implicit Types (m : machine P D) (c : config P).
(** which data the runner reads: the file if it exists, else the named dataset, else an error *)
Theorem C61_source m c : (forall f, load_source P (m_exists _ _ m) c = Ok (FromFile f) <-> c_file _ c = Str f /\ f <> "" /\ m_exists _ _ m f = true) /\
  (forall n, load_source P (m_exists _ _ m) c = Ok (FromName n) <-> c_name _ c = Str n /\ n <> "" /\ forall f, c_file _ c = Str f -> f = "" \/ m_exists _ _ m f = false) /\
  (forall e, load_source P (m_exists _ _ m) c = Err e -> e = ValueError).
Proof.
  unfold load_source. destruct c as [cm co cp cn cf]. cbn [c_file c_name].
  assert (NM : forall r, (r = if truthy (fget cn) then match fget cn with Some n => Ok (FromName n) | None => Err ValueError end else Err ValueError) -> (forall f, r <> Ok (FromFile f)) /\ (forall n, r = Ok (FromName n) <-> cn = Str n /\ n <> "") /\ forall e, r = Err e -> e = ValueError).
  { intros r ->. destruct cn as [| |n]; cbn [fget truthy].
    - split; [discriminate|]. split; [|congruence]. intros; split; [discriminate|intros [? _]; discriminate].
    - split; [discriminate|]. split; [|congruence]. intros; split; [discriminate|intros [? _]; discriminate].
    - destruct (String.eqb_spec n "") as [->|N]; cbn [negb]; (split; [discriminate|]); (split; [|congruence]); intros n0; (split; [intros E|intros [E1 E2]]); try discriminate; try congruence; try (split; congruence). }
  destruct cf as [| |f]; cbn [fget].
  - destruct (NM _ eq_refl) as (A & B & C). split; [intros f; split; [intros E; destruct (A _ E)|intros (? & _); discriminate]|]. split; [|exact C]. intros n. rewrite B. split; [intros [? ?]; repeat split; auto; discriminate|tauto].
  - destruct (NM _ eq_refl) as (A & B & C). split; [intros f; split; [intros E; destruct (A _ E)|intros (? & _); discriminate]|]. split; [|exact C]. intros n. rewrite B. split; [intros [? ?]; repeat split; auto; discriminate|tauto].
  - cbn [truthy]. destruct (String.eqb_spec f "") as [->|N]; cbn [negb andb].
    + destruct (NM _ eq_refl) as (A & B & C). split; [intros g; split; [intros E; destruct (A _ E)|intros ([= <-] & X & _); congruence]|]. split; [|exact C]. intros n. rewrite B. split; [intros [? ?]; repeat split; auto; intros g [= <-]; auto|tauto].
    + destruct (m_exists P D m f) eqn:EX.
      * split; [intros g; split; [intros E; assert (f = g) by congruence; subst; auto|intros ([= <-] & _); reflexivity]|]. split; [|discriminate]. intros n. split; [discriminate|]. intros (_ & _ & X). destruct (X f eq_refl); congruence.
      * destruct (NM _ eq_refl) as (A & B & C). split; [intros g; split; [intros E; destruct (A _ E)|intros ([= <-] & _ & X); congruence]|]. split; [|exact C]. intros n. rewrite B. split; [intros [? ?]; repeat split; auto; intros g [= <-]; auto|tauto].
Qed.
(** the equation the model finds for a config, or the first exception *)
Definition training m c (name : string) : res string := do s <- load_source P (m_exists _ _ m) c ; do d <- m_load _ _ m s ; m_run _ _ m name d (c_params _ c).
(** Exit code 0: result.json says "success", with the equation of a completed training; and a
    result.json that says "success" is only left with exit code 0. *)
Theorem C61_success m c r code : main P D m c = (r, code) ->
  (code = 0%Z <-> exists x, r = Some x /\ r_status _ x = "success") /\
  (forall x, r = Some x -> r_status _ x = "success" -> exists name, c_model _ c = Str name /\ In name runners /\ r_model _ x = name /\ training m c name = Ok (r_equation _ x) /\ r_params _ x = c_params _ c /\ r_error _ x = None).
Proof.
  unfold main. destruct (c_model P c) as [| |name] eqn:EM; cbn [fget].
  1,2: intros E; assert (r = None /\ code = 1%Z) as [-> ->] by (split; congruence); (split; [split; [discriminate|intros (x & ? & _); discriminate]|discriminate]).
  destruct (negb (truthy (Some name))); [intros E; assert (r = None /\ code = 1%Z) as [-> ->] by (split; congruence); (split; [split; [discriminate|intros (x & ? & _); discriminate]|discriminate])|].
  destruct (existsb (String.eqb name) runners) eqn:ER; cbn [negb]; [|intros E; assert (r = None /\ code = 1%Z) as [-> ->] by (split; congruence); (split; [split; [discriminate|intros (x & ? & _); discriminate]|discriminate])].
  assert (IR : In name runners) by (apply existsb_exists in ER; destruct ER as (y & I & E); apply String.eqb_eq in E; congruence).
  destruct (bind (load_source P (m_exists P D m) c) _) as [eq|e] eqn:EF.
  - intros E. assert (r = Some (build_result P name (dataset_info P c) eq (c_params P c) None) /\ code = 0%Z) as [-> ->] by (split; congruence). split; [split; [eauto|reflexivity]|].
    intros x [= <-] _. exists name. cbn. split; [reflexivity|]. split; [exact IR|]. split; [reflexivity|]. split; [|auto]. unfold training. destruct (load_source P (m_exists P D m) c) as [s|]; [|discriminate]. cbn [bind] in *. destruct (m_load P D m s) as [d|]; [|discriminate]. cbn [bind] in *. destruct (m_run P D m name d (c_params P c)) as [q|]; [|discriminate]. cbn [bind] in *. destruct (m_save P D m 0); [|discriminate]. exact EF.
  - destruct (m_save P D m 1); intros E.
    + match type of E with (Some ?y, _) = _ => assert (r = Some y /\ code = 1%Z) as [-> ->] by (split; congruence) end. split; [split; [discriminate|intros (x & [= <-] & X); cbn in X; discriminate]|intros x [= <-] X; cbn in X; discriminate].
    + assert (r = None /\ code = 1%Z) as [-> ->] by (split; congruence). split; [split; [discriminate|intros (x & ? & _); discriminate]|discriminate].
Qed.
(** A known model and a disk that can be written: result.json is always left, with status
    "success" or "error", the latter exactly when training raised, with its traceback. *)
Theorem C61_result m c name : c_model _ c = Str name -> In name runners -> (forall k, m_save _ _ m k = Ok tt) ->
  exists x code, main P D m c = (Some x, code) /\ match training m c name with
    | Ok eq => code = 0%Z /\ r_status _ x = "success" /\ r_equation _ x = eq
    | Err e => code = 1%Z /\ r_status _ x = "error" /\ r_equation _ x = "(error)" /\ r_error _ x = Some (traceback P D m e) end.
Proof.
  intros EM IR SV. unfold main, training. rewrite EM. cbn [fget]. assert (T : truthy (Some name) = true) by (destruct IR as [<-|[<-|[]]]; reflexivity). rewrite T. cbn [negb].
  assert (ER : existsb (String.eqb name) runners = true) by (apply existsb_exists; exists name; split; [exact IR|apply String.eqb_refl]). rewrite ER. cbn [negb]. rewrite !SV.
  destruct (load_source P (m_exists P D m) c) as [s|e]; cbn [bind]; [|do 2 eexists; split; [reflexivity|cbn; auto]]. destruct (m_load P D m s) as [d|e]; cbn [bind]; [|do 2 eexists; split; [reflexivity|cbn; auto]]. destruct (m_run P D m name d (c_params P c)) as [q|e]; cbn [bind]; (do 2 eexists; split; [reflexivity|cbn; auto]).
Qed.
(** an unknown model leaves no result.json and exit code 1, which is then reported as an error *)
Theorem C61_unknown_model m c : (forall name, c_model _ c = Str name -> ~ In name runners) -> main P D m c = (None, 1%Z) /\ download_result P (Ok tt) None = Ok ("error", "(result.json not found)").
Proof.
  intros H. split; [|reflexivity]. unfold main. destruct (c_model P c) as [| |name] eqn:E; cbn [fget]; [reflexivity|reflexivity|]. destruct (negb (truthy (Some name))); [reflexivity|]. destruct (existsb (String.eqb name) runners) eqn:ER; [|reflexivity]. exfalso. apply (H name eq_refl). apply existsb_exists in ER. destruct ER as (y & I & X). apply String.eqb_eq in X. congruence.
Qed.
End Runner.
Example C61_example : let m := mkMachine nat nat (fun _ => false) (fun s => match s with FromName "kdv" => Ok 1 | _ => Err ValueError end) (fun _ d _ => if Nat.eqb d 1 then Ok "u_t = u" else Err OtherError) (fun _ => Ok tt) (fun _ => "x") in
  main nat nat m (mkCfg nat (Str "dlga") Absent 0 (Str "kdv") Absent) = (Some (mkRes nat "dlga" (Str "kdv") "u_t = u" "success" 0 None), 0%Z) /\
  (exists x, main nat nat m (mkCfg nat (Str "dlga") Absent 0 (Str "zzz") Absent) = (Some x, 1%Z) /\ r_status _ x = "error").
Proof. split; [reflexivity|eexists; split; reflexivity]. Qed.
(** From the page to the page: a submitted GPU training whose data and model work and whose output
    the platform delivers shows the equation the model found on the named dataset. *)
Theorem C61_end_to_end P D M (w : world P) (m : machine P D) model n params pid default fs fs' subs id s d eq (detail : Z) :
  In model runners -> n <> "" -> submit_gpu_job P w model (Some n) params pid default None fs = (fs', subs, Ok id) -> id <> 0%Z ->
  m_load _ _ m (FromName n) = Ok d -> m_run _ _ m model d params = Ok eq -> (forall k, m_save _ _ m k = Ok tt) -> (detail = 10 \/ detail = 11)%Z ->
  subs = [s] -> ss_text M (check_gpu_status M (Some id) (Ok detail) (download_result P (Ok tt) (fst (main P D m (s_config _ s))))) = Equation eq.
Proof.
  intros IM Nn H Nid LD RN SV DT ->. destruct (C32_submission w model (Some n) params pid default None fs fs' s (Ok id) H) as (E1 & E2 & _ & E3 & _). specialize (E3 n eq_refl Nn).
  assert (CF : c_file P (s_config P s) = Absent). { unfold submit_gpu_job in H. destruct (w_client P w); [|discriminate]. destruct (w_mkstemp P w); [|discriminate]. destruct (w_write P w); [|discriminate]. destruct (resolve_project P w pid default); [|discriminate]. match type of H with context [w_submit P w ?x] => assert (ES : s = x) by (destruct (w_submit P w x); congruence) end. now rewrite ES. }
  destruct (C61_result m (s_config P s) model E1 IM SV) as (x & code & EM & T).
  assert (TR : training m (s_config P s) model = Ok eq). { unfold training, load_source. rewrite CF, E3. cbn [fget truthy]. destruct (String.eqb_spec n ""); [contradiction|]. cbn [negb bind]. rewrite LD. cbn [bind]. rewrite E2. exact RN. }
  rewrite TR in T. destruct T as (_ & _ & EQ). rewrite EM. cbn [fst download_result bind]. unfold check_gpu_status. destruct (Z.eqb_spec id 0); [contradiction|]. unfold check_job. cbn [bind j_failed j_finished].
  destruct DT as [->| ->]; cbn; now rewrite EQ.
Qed.

(** ** C62: the web session *)
Section Session.
Context {M : Type}.
Implicit Types (s : session M) (e : event M).
(** After any sequence of clicks: the check button is shown exactly when a job is tracked, and then
    no locally trained model is selected for plots. *)
Theorem C62_consistent (es : list (event M)) : let s := play M es in (ss_check _ s = true <-> ss_job _ s <> None) /\ (ss_model _ s <> None -> ss_job _ s = None /\ ss_label _ s = Hidden).
Proof.
  unfold play. induction es as [|e l _] using rev_ind; [split; cbn; [split; congruence|congruence]|]. rewrite fold_left_app. cbn [fold_left]. set (s := fold_left _ l _). clearbody s.
  assert (NG : forall t m, let s := no_gpu M t m in (ss_check _ s = true <-> ss_job _ s <> None) /\ (ss_model _ s <> None -> ss_job _ s = None /\ ss_label _ s = Hidden)) by (intros; cbn; split; [split; congruence|auto]).
  destruct e as [a b c d| |d r]; cbn [step].
  - unfold run_training. destruct a; cbn [negb]; [|apply NG]. destruct b; [destruct c as [id|x]; [cbn; split; [split; congruence|congruence]|apply NG]|]. destruct d as [[mo q]|x]; apply NG.
  - apply NG.
  - unfold check_gpu_status. destruct (ss_job M s) as [id|]; [|apply NG]. destruct (Z.eqb id 0); [apply NG|]. destruct (check_job d) as [js|x]; [|cbn; split; [split; congruence|congruence]]. destruct (j_failed js); [cbn; split; [split; congruence|congruence]|]. destruct (j_finished js); cbn [negb]; [|cbn; split; [split; congruence|congruence]]. destruct r as [[? q]|x]; [cbn; split; [split; congruence|congruence]|apply NG].
Qed.
(** Polling: a tracked job stays tracked exactly while its status cannot be read or is not one of
    the terminal codes 10-13; no other click keeps it. *)
Theorem C62_polling s detail r id : ss_job _ s = Some id -> id <> 0%Z -> 
  (ss_job _ (step M s (Check M detail r)) = Some id <-> forall code, detail = Ok code -> (code < 10 \/ 13 < code)%Z) /\ (ss_job _ (step M s (Check M detail r)) = Some id \/ ss_job _ (step M s (Check M detail r)) = None).
Proof.
  intros E N. cbn [step]. rewrite E. unfold check_gpu_status. destruct (Z.eqb_spec id 0); [contradiction|]. destruct detail as [code|x]; cbn [check_job bind].
  2:{ cbn. split; [split; [discriminate|reflexivity]|auto]. }
  cbn [j_failed j_finished j_text]. destruct (existsb (Z.eqb code) [12; 13]%Z) eqn:F; cbn [existsb] in F.
  - cbn. split; [split; [discriminate|]|auto]. intros H. specialize (H code eq_refl). lia.
  - destruct (existsb (Z.eqb code) [10; 11]%Z) eqn:G; cbn [existsb] in G; cbn [negb].
    + destruct r as [[? q]|x]; cbn; (split; [split; [discriminate|]|auto]); intros H; specialize (H code eq_refl); lia.
    + cbn. split; [split; [|reflexivity]|auto]. intros _ c [= <-]. lia.
Qed.
(** What a check shows: a failed job never shows an equation; an equation is only shown for a
    finished job whose output was downloaded, and is the downloaded one. *)
Theorem C62_shown s detail r eq : ss_text _ (step M s (Check M detail r)) = Equation eq -> exists id code st, ss_job _ s = Some id /\ detail = Ok code /\ (code = 10 \/ code = 11)%Z /\ r = Ok (st, eq).
Proof.
  cbn [step]. unfold check_gpu_status. destruct (ss_job M s) as [id|]; [|discriminate]. destruct (Z.eqb id 0); [discriminate|]. destruct detail as [code|x]; cbn [check_job bind]; [|discriminate]. cbn [j_failed j_finished]. destruct (existsb (Z.eqb code) [12; 13]%Z); [discriminate|]. destruct (existsb (Z.eqb code) [10; 11]%Z) eqn:G; cbn [existsb] in G; cbn [negb]; [|discriminate].
  destruct r as [[st q]|x]; [|discriminate]. cbn. intros H. assert (q = eq) by congruence. subst q. exists id, code, st. repeat split; auto. lia.
Qed.
(** the tracked job is the last one submitted *)
Theorem C62_last_submitted s e id : ss_job _ (step M s e) = Some id -> (exists l, e = Train M true true (Ok id) l) \/ ((exists d r, e = Check M d r) /\ ss_job _ s = Some id).
Proof.
  destruct e as [a b c d| |d r]; cbn [step]; [|discriminate|].
  - unfold run_training. destruct a; [|discriminate]. destruct b; [|destruct d as [[? ?]|]; discriminate]. destruct c as [i|x]; [|discriminate]. cbn. intros E. assert (i = id) by congruence. subst. left. eauto.
  - intros H. right. split; [eauto|]. unfold check_gpu_status in H. destruct (ss_job M s) as [i|]; [|discriminate]. destruct (Z.eqb i 0); [discriminate|]. destruct (check_job d) as [js|x]; [|exact H]. destruct (j_failed js); [discriminate|]. destruct (j_finished js); cbn [negb] in H; [|exact H]. destruct r as [[? ?]|]; discriminate.
Qed.
End Session.
Example C62_example : let es := [Train nat true true (Ok 9%Z) (Err OtherError); Check nat (Ok 4%Z) (Err OtherError); Check nat (Err OtherError) (Err OtherError); Check nat (Ok 10%Z) (Ok ("success", "u_t = u_xx"))] in
  ss_text _ (play nat es) = Equation "u_t = u_xx" /\ ss_job _ (play nat (firstn 3 es)) = Some 9%Z /\ ss_job _ (play nat es) = None.
Proof. repeat split. Qed.
(** A finished job whose download fails once is dropped: its result can no longer be fetched. *)
Theorem C62_download_failure_refuted : exists es id r, ss_job _ (play nat es) = Some id /\ ss_text _ (play nat (es ++ [Check nat (Ok 10%Z) (Err OtherError); Check nat (Ok 10%Z) (Ok ("success", r))])) = NoActiveJob.
Proof. exists [Train nat true true (Ok 9%Z) (Err OtherError)], 9%Z, "u_t = u_xx". split; reflexivity. Qed.
(** A run that ended in an error is announced as finished, when the platform reports it finished:
    the status in result.json is not looked at. *)
Theorem C62_error_shown_finished_refuted : forall s id r, ss_job nat s = Some id -> id <> 0%Z -> ss_label _ (step nat s (Check nat (Ok 10%Z) (download_result nat (Ok tt) (Some (mkRes nat "dlga" Absent "(error)" "error" 0 (Some r)))))) = FinishedLine id.
Proof. intros s id r E N. cbn [step]. rewrite E. unfold check_gpu_status. destruct (Z.eqb_spec id 0); [contradiction|]. reflexivity. Qed.
(** A local training (or a second submission) forgets a job that is still running. *)
Theorem C62_forgets_refuted : exists es id e, ss_job nat (play nat es) = Some id /\ ss_job _ (play nat (es ++ [e])) = None /\ e <> Cancel nat.
Proof. exists [Train nat true true (Ok 9%Z) (Err OtherError)], 9%Z, (Train nat true false (Err OtherError) (Ok (1, "u_t = u"))). split; [reflexivity|]. split; [reflexivity|discriminate]. Qed.
Print Assumptions C32_status.
Print Assumptions C32_status_error.
Print Assumptions C32_temp_files.
Print Assumptions C32_submits_once.
Print Assumptions C32_submission.
Print Assumptions C32_no_project.
Print Assumptions C32_uploaded_file_refuted.
Print Assumptions C61_source.
Print Assumptions C61_success.
Print Assumptions C61_result.
Print Assumptions C61_unknown_model.
Print Assumptions C61_end_to_end.
Print Assumptions C62_consistent.
Print Assumptions C62_polling.
Print Assumptions C62_shown.
Print Assumptions C62_last_submitted.
Print Assumptions C62_download_failure_refuted.
Print Assumptions C62_error_shown_finished_refuted.
Print Assumptions C62_forgets_refuted.
