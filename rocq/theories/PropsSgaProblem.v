(** C149: which ground truth, data and figures an SGA run gets. *)
From Coq Require Import Ascii QArith Lqa.
From Verif Require Import Base Info PropsInfo.
From Verif Require Loader.
From Verif Require Import SgaProblem.
Local Open Scope string_scope.
Local Open Scope list_scope.

(** ** Specification *)
(** character [d] stands for [c]: the same, or the capital of a letter, or one of the three separators *)
Definition like_char (c d : ascii) : Prop := d = c \/ (65 <= nat_of_ascii d <= 90 /\ nat_of_ascii c = nat_of_ascii d + 32) \/ (c = "-"%char /\ (d = "_"%char \/ d = " "%char)).
Fixpoint like (w m : string) : Prop :=
  match w, m with EmptyString, EmptyString => True | String c w', String d m' => like_char c d /\ like w' m' | _, _ => False end.
(** [name] is the word up to capitals, separators and blanks around it *)
Definition spelled (w name : string) : Prop := exists p m q, name = (p ++ m ++ q)%string /\ blank p = true /\ blank q = true /\ like w m.
(** the accepted spellings of the three benchmarks *)
Definition spellings : list (string * list string) := [
  ("chafee-infante", ["chafee-infante"; "chafeeinfante"]);
  ("burgers", ["burgers"; "burgers2"; "burgers-equation"]);
  ("kdv", ["kdv"; "kdv-equation"; "kdv-equation-sine"]) ].
Definition names_benchmark (b name : string) : Prop := exists ws, In (b, ws) spellings /\ exists w, In w ws /\ spelled w name.
(** the equations u_t = ... of the three benchmarks, as functions of u, u_x, u_xx, u_xxx *)
Definition equations : list (string * rhs) := [
  ("chafee-infante", (fun u ux uxx uxxx => uxx - u + u * u * u)%Q);
  ("burgers", (fun u ux uxx uxxx => (1 # 10) * uxx - u * ux)%Q);
  ("kdv", (fun u ux uxx uxxx => - (1 # 400) * uxxx - u * ux)%Q) ].
Definition same_rhs (f g : rhs) : Prop := forall u ux uxx uxxx, (f u ux uxx uxxx == g u ux uxx uxxx)%Q.
(** the first of the names that is there and not empty *)
Inductive first_name : list (option string) -> string -> Prop :=
| fn_here s l : s <> "" -> first_name (Some s :: l) s
| fn_none l s : first_name l s -> first_name (None :: l) s
| fn_empty l s : first_name l s -> first_name (Some "" :: l) s.

(** ** Names *)
Definition plain (c : ascii) : bool := negb (Ascii.eqb c "_") && negb (is_space c) && negb (Nat.leb 65 (nat_of_ascii c) && Nat.leb (nat_of_ascii c) 90).
Fixpoint all_plain (w : string) : bool := match w with String c w' => plain c && all_plain w' | EmptyString => true end.
Lemma nat_ascii_inj a b : nat_of_ascii a = nat_of_ascii b -> a = b.
Proof. intros H. rewrite <- (ascii_nat_embedding a), <- (ascii_nat_embedding b). now rewrite H. Qed.
Lemma plain_dash c : plain c = true -> dash_char (lower_char c) = c.
Proof. destruct c as [[] [] [] [] [] [] [] []]; vm_compute; congruence. Qed.
Lemma lower_upper c d : 65 <= nat_of_ascii d <= 90 -> nat_of_ascii c = nat_of_ascii d + 32 -> lower_char d = c.
Proof. intros R E. unfold lower_char. rewrite (proj2 (Nat.leb_le _ _) (proj1 R)), (proj2 (Nat.leb_le _ _) (proj2 R)). cbn [andb]. rewrite <- E. apply ascii_nat_embedding. Qed.
Lemma like_char_spec c d : plain c = true -> (dash_char (lower_char d) = c <-> like_char c d).
Proof.
  intros P. split.
  - intros <-. unfold lower_char at 1. destruct (Nat.leb 65 (nat_of_ascii d) && Nat.leb (nat_of_ascii d) 90) eqn:U.
    + right; left. apply andb_true_iff in U. destruct U as [U1 U2]. apply Nat.leb_le in U1, U2. split; [lia|].
      clear P. destruct d as [[] [] [] [] [] [] [] []]; vm_compute in U1, U2; try lia; vm_compute; reflexivity.
    + unfold dash_char. destruct (Ascii.eqb_spec d "_") as [->|]; [right; right; auto|]. destruct (Ascii.eqb_spec d " ") as [->|]; [right; right; auto|left; reflexivity].
  - intros [-> | [[R E]|[-> [-> | ->]]]]; [now apply plain_dash| |reflexivity|reflexivity].
    rewrite (lower_upper c d R E). clear -P R E. unfold dash_char. destruct (Ascii.eqb_spec c "_") as [->|]; [discriminate P|]. destruct (Ascii.eqb_spec c " ") as [->|]; [discriminate P|reflexivity].
Qed.
Lemma like_spec w : all_plain w = true -> forall m, smap dash_char (smap lower_char m) = w <-> like w m.
Proof.
  induction w as [|c w IH]; intros P [|d m]; cbn [smap like]; try (split; [discriminate|tauto]); [tauto|].
  cbn [all_plain] in P. apply andb_true_iff in P. destruct P as [P1 P2]. rewrite <- (IH P2 m), <- (like_char_spec c d P1). split; [intros E; injection E; auto|intros [-> ->]; reflexivity].
Qed.
Lemma like_char_nonspace c d : plain c = true -> c <> "-"%char -> like_char c d -> is_space d = false.
Proof.
  intros P N [-> | [[R E]|[C _]]]; [| |contradiction].
  - unfold plain in P. destruct (is_space c); [|reflexivity]. rewrite andb_false_r in P. discriminate P.
  - unfold is_space. destruct (Nat.leb_spec (nat_of_ascii d) 13); [lia|]. destruct (Nat.leb_spec (nat_of_ascii d) 32); [lia|]. rewrite !andb_false_r. reflexivity.
Qed.
Fixpoint ends_well (w : string) : bool := match w with EmptyString => false | String c EmptyString => negb (Ascii.eqb c "-") | String _ w' => ends_well w' end.
Definition starts_well (w : string) : bool := match w with EmptyString => false | String c _ => negb (Ascii.eqb c "-") end.
Lemma like_rstrip w : all_plain w = true -> ends_well w = true -> forall m, like w m -> rstrip m = m /\ m <> "".
Proof.
  induction w as [|c w IH]; [discriminate|]. intros P E [|d m] L; [destruct L|]. destruct L as [L1 L2]. cbn [all_plain] in P. apply andb_true_iff in P. destruct P as [P1 P2]. split; [|discriminate].
  destruct w as [|c2 w].
  - destruct m; [|destruct L2]. cbn [ends_well] in E. cbn [rstrip blank]. rewrite (like_char_nonspace c d P1); [reflexivity| |exact L1]. intros ->. discriminate E.
  - destruct (IH P2 E m L2) as [R N]. cbn [rstrip]. rewrite R. destruct (blank (String d m)) eqn:B; [|reflexivity]. exfalso. cbn [blank] in B. apply andb_true_iff in B. destruct B as [_ B]. rewrite (rstrip_blank m B) in R. congruence.
Qed.
Lemma like_strip w m : all_plain w = true -> starts_well w = true -> ends_well w = true -> like w m -> strip m = m /\ m <> "".
Proof.
  intros P S0 E L. destruct (like_rstrip w P E m L) as [R N]. split; [|exact N]. destruct w as [|c w], m as [|d m]; try discriminate; try destruct L; try congruence.
  cbn [all_plain] in P. apply andb_true_iff in P. destruct P as [P1 _]. unfold strip. cbn [lstrip]. rewrite (like_char_nonspace c d P1); [exact R| |assumption]. intros ->. discriminate S0.
Qed.
Lemma strip_parts s : exists p q, s = (p ++ strip s ++ q)%string /\ blank p = true /\ blank q = true.
Proof.
  assert (L : exists p, s = (p ++ lstrip s)%string /\ blank p = true).
  { induction s as [|c s (p & E & B)]; [exists ""; auto|]. cbn [lstrip]. destruct (is_space c) eqn:S0; [|exists ""; auto]. exists (String c p). cbn [append blank]. rewrite S0, <- E, B. auto. }
  assert (R : forall t, exists q, t = (rstrip t ++ q)%string /\ blank q = true).
  { induction t as [|c t (q & E & B)]; [exists ""; auto|]. cbn [rstrip]. destruct (blank (String c t)) eqn:S0; [exists (String c t); auto|]. exists q. cbn [append]. rewrite <- E. auto. }
  destruct L as (p & E & B). destruct (R (lstrip s)) as (q & E2 & B2). exists p, q. unfold strip. rewrite <- E2. auto.
Qed.
Lemma slug_spelled w name : all_plain w = true -> starts_well w = true -> ends_well w = true -> slug name = w <-> spelled w name.
Proof.
  intros P S0 E. unfold slug. rewrite (like_spec w P). split.
  - intros L. destruct (strip_parts name) as (p & q & N & B & B2). exists p, (strip name), q. auto.
  - intros (p & m & q & -> & B & B2 & L). destruct (like_strip w m P S0 E L) as [St N]. rewrite (C66_blanks p q m B B2 St N). exact L.
Qed.
Lemma slug_empty : slug "" = "". Proof. reflexivity. Qed.
Lemma normalize_slug name b : b <> "" -> normalize name = b <-> match sassoc alias_map (slug name) with Some v => v | None => slug name end = b.
Proof. intros N. unfold normalize. destruct (String.eqb_spec name "") as [->|]; [|tauto]. cbn. tauto. Qed.
Lemma slug_no_us name : slug name <> "kdv_equation".
Proof.
  unfold slug. generalize (smap lower_char (strip name)). intros s. destruct s as [|a [|b [|c [|d s]]]]; try discriminate. cbn [smap]. intros H. injection H. intros _ D _ _ _. unfold dash_char in D. destruct (Ascii.eqb_spec d "_"); [discriminate D|]. destruct (Ascii.eqb_spec d " "); [discriminate D|contradiction].
Qed.
(** A name stands for a benchmark exactly when it is one of the accepted spellings up to capitals, the choice
    of '-', '_' or blank as separator, and blanks around it. *)
Theorem C149_names name b : In b ["chafee-infante"; "burgers"; "kdv"] -> (normalize name = b <-> names_benchmark b name).
Proof.
  intros I. assert (NB : b <> "") by (intros ->; repeat (destruct I as [I|I]; [discriminate|]); destruct I).
  rewrite (normalize_slug name b NB). unfold names_benchmark.
  assert (K : (match sassoc alias_map (slug name) with Some v => v | None => slug name end = b) <-> exists ws, In (b, ws) spellings /\ In (slug name) ws).
  { pose proof (slug_no_us name) as NU. generalize dependent (slug name). intros sl NU.
    assert (W : forall ws, In (b, ws) spellings -> (match sassoc alias_map sl with Some v => v | None => sl end = b <-> In sl ws)).
    { intros ws J. unfold alias_map, sassoc. cbn [In spellings] in J.
      destruct J as [J|[J|[J|[]]]]; injection J as <- <-; cbn [In];
      repeat match goal with |- context [String.eqb ?k sl] => destruct (String.eqb_spec k sl) as [<- |]; [first [exfalso; exact (NU eq_refl)|split; [intros E; first [discriminate E|tauto]|intros E; first [reflexivity|exfalso; repeat (destruct E as [E|E]; [discriminate E|]); exact E]]]|] end;
      intuition congruence. }
    split; [|intros (ws & J & H); now apply (W ws J)]. intros E. assert (X : exists ws, In (b, ws) spellings) by (destruct I as [<- |[<- |[<- |[]]]]; eexists; cbn; eauto). destruct X as (ws & J). exists ws. split; [exact J|]. now apply (W ws J). }
  rewrite K. split; intros (ws & J & H); exists ws; (split; [exact J|]).
  - exists (slug name). split; [exact H|]. apply slug_spelled; try reflexivity; repeat (destruct J as [J|J]; [injection J; intros; subst; repeat (destruct H as [<- |H]; [reflexivity|]); destruct H|]); destruct J.
  - destruct H as (w & H & Sp). apply slug_spelled in Sp; [now rewrite Sp| | |]; repeat (destruct J as [J|J]; [injection J; intros; subst; repeat (destruct H as [<- |H]; [reflexivity|]); destruct H|]); destruct J.
Qed.
Example C149_names_example : normalize " Chafee_Infante " = "chafee-infante" /\ normalize "KdV equation" = "kdv" /\ normalize "Burgers 2" = "burgers-2" /\ spelled "kdv-equation" " KdV_Equation".
Proof. repeat (split; [reflexivity|]). apply slug_spelled; reflexivity. Qed.

(** ** The label *)
Lemma str_or_first o l s : first_name l s -> first_name (o :: l) (str_or o s).
Proof. intros F. destruct o as [a|]; cbn [str_or]; [|now constructor]. destruct (String.eqb_spec a "") as [->|N]; now constructor. Qed.
(** The label of a run is the first name that is given and not empty: the problem_name argument, the data set's
    SGA alias, its legacy alias, its equation name, "custom_dataset". *)
Theorem C149_label override aliases name : first_name [override; sassoc aliases "sga_problem"; sassoc aliases "legacy"; Some name; Some "custom_dataset"] (problem_label override aliases name).
Proof. unfold problem_label. repeat apply str_or_first. constructor. discriminate. Qed.
Lemma first_name_det l s1 s2 : first_name l s1 -> first_name l s2 -> s1 = s2.
Proof. intros F. revert s2. induction F; intros s2 G; inversion G; subst; auto; congruence. Qed.

Section Fit.
Context {A : Type}.
Implicit Types d : dset A.
Definition legacy d : Prop := d_fields d = None /\ d_coords d = None /\ d_shape d = [d_nx d; d_nt d].
Definition label_of d override (s : settings A) : Prop := first_name [override; sassoc (d_aliases d) "sga_problem"; sassoc (d_aliases d) "legacy"; Some (d_name d); Some "custom_dataset"] (s_label s).
Lemma name_twice override aliases name : problem_label override aliases (str_or (Some name) "custom_dataset") = problem_label override aliases name.
Proof. unfold problem_label, str_or. destruct (String.eqb_spec name "") as [->|N]; [reflexivity|]. destruct (String.eqb_spec name ""); [contradiction|reflexivity]. Qed.
Lemma benchmark_known name : (exists b t fs, In b ["chafee-infante"; "burgers"; "kdv"] /\ name = b /\ benchmark name = Some (t, fs) /\ exists f, In (b, f) equations /\ same_rhs (t_rhs_origin t) f) \/ (benchmark name = None /\ ~ In name ["chafee-infante"; "burgers"; "kdv"]).
Proof.
  unfold benchmark. destruct (String.eqb_spec name "chafee-infante") as [->|N1].
  { left. exists "chafee-infante". do 2 eexists. split; [cbn; auto|]. split; [reflexivity|]. split; [reflexivity|]. eexists. split; [cbn; eauto|]. intros u ux uxx uxxx. cbn. ring. }
  destruct (String.eqb_spec name "burgers") as [->|N2].
  { left. exists "burgers". do 2 eexists. split; [cbn; auto|]. split; [reflexivity|]. split; [reflexivity|]. eexists. split; [cbn; eauto|]. intros u ux uxx uxxx. cbn. ring. }
  destruct (String.eqb_spec name "kdv") as [->|N3].
  { left. exists "kdv". do 2 eexists. split; [cbn; auto|]. split; [reflexivity|]. split; [reflexivity|]. eexists. split; [cbn; eauto|]. intros u ux uxx uxxx. cbn. setoid_replace (25 # 10000)%Q with (1 # 400)%Q by reflexivity. ring. }
  right. split; [reflexivity|]. cbn. intuition congruence.
Qed.
(** A data set with x, t and usol is fitted on exactly these arrays, never on a file, under its label; the run
    has a ground truth exactly if the label is a spelling of a benchmark, and then the template for the loaded
    data is that benchmark's equation. *)
Theorem C149_legacy d override epochs : legacy d -> exists s, fit_settings d override epochs = Ok s /\ label_of d override s /\ s_data s = Inline (d_u d) (d_x d) (d_t d) /\
  (s_truth s = true <-> exists b, names_benchmark b (s_label s)) /\ (s_truth s = true <-> s_template s <> None) /\
  forall b f, names_benchmark b (s_label s) -> In (b, f) equations -> exists t, s_template s = Some t /\ same_rhs (t_rhs_origin t) f.
Proof.
  intros (F & C & Sh). unfold fit_settings, adapter. rewrite F, C. destruct (list_eq_dec Nat.eq_dec (d_shape d) [d_nx d; d_nt d]) as [_|X]; [|contradiction]. cbn [bind r_u r_x r_t r_fields r_coords].
  rewrite name_twice. unfold solver_config, inline_of. cbn [r_u r_x r_t r_fields r_coords r_label r_path r_epochs].
  pose proof (C149_label override (d_aliases d) (d_name d)) as L. set (lab := problem_label override (d_aliases d) (d_name d)) in *.
  assert (BK : forall b, names_benchmark b lab -> In b ["chafee-infante"; "burgers"; "kdv"]).
  { intros b (ws & J & _). repeat (destruct J as [J|J]; [injection J; intros; subst; cbn; auto|]). destruct J. }
  destruct (benchmark_known (normalize lab)) as [(b & t & fs & I & N & E & f & IF & SR)|[E NI]]; rewrite E.
  - assert (NB : names_benchmark b lab) by (apply (proj1 (C149_names lab b I)); exact N).
    eexists. split; [reflexivity|]. cbn [s_label s_data s_truth s_template label_of]. split; [exact L|]. split; [reflexivity|]. split; [split; [intros _; exists b; exact NB|reflexivity]|]. split; [split; [discriminate|reflexivity]|].
    intros b2 f2 NB2 IF2. exists t. split; [reflexivity|]. assert (b2 = b) as -> by (apply (proj2 (C149_names lab b2 (BK b2 NB2))) in NB2; congruence).
    assert (f2 = f) as ->; [|exact SR]. clear -IF IF2. cbn [In equations] in IF, IF2. destruct IF as [X|[X|[X|[]]]], IF2 as [Y|[Y|[Y|[]]]]; injection X as X1 X2; injection Y as Y1 Y2; subst; try discriminate; reflexivity.
  - eexists. split; [reflexivity|]. cbn [s_label s_data s_truth s_template label_of]. split; [exact L|]. split; [reflexivity|]. split; [split; [discriminate|]|].
    + intros (b & NB). exfalso. apply NI. rewrite (proj2 (C149_names lab b (BK b NB)) NB). exact (BK b NB).
    + split; [split; [discriminate|congruence]|]. intros b f NB. exfalso. apply NI. rewrite (proj2 (C149_names lab b (BK b NB)) NB). exact (BK b NB).
Qed.
(** An N-D data set is fitted on its own dictionaries and never has a ground truth, whatever its name. *)
Theorem C149_nd d override epochs f c : d_fields d = Some f -> d_coords d = Some c ->
  exists s, fit_settings d override epochs = Ok s /\ label_of d override s /\ s_data s = Grid f c /\ s_truth s = false /\ s_template s = None.
Proof.
  intros F C. unfold fit_settings, adapter. rewrite F, C. cbn [bind r_u r_x r_t r_fields r_coords]. rewrite name_twice. eexists. split; [reflexivity|]. split; [apply C149_label|]. auto.
Qed.
(** Settings are found unless exactly one of the two dictionaries is there, or the shape of usol is not
    (len x, len t): then ValueError. *)
Theorem C149_errors d override epochs : ~ legacy d -> (forall f c, ~ (d_fields d = Some f /\ d_coords d = Some c)) -> fit_settings d override epochs = Err ValueError.
Proof.
  intros NL NN. unfold fit_settings, adapter. destruct (d_fields d) as [f|] eqn:F, (d_coords d) as [c|] eqn:C; try reflexivity; [exfalso; exact (NN f c (conj eq_refl eq_refl))|].
  destruct (list_eq_dec Nat.eq_dec (d_shape d) [d_nx d; d_nt d]) as [E|_]; [exfalso; apply NL; split; auto|reflexivity].
Qed.
(** The ground truth does not look at the data: two data sets of the same name and aliases get the same template. *)
Theorem C149_truth_by_name_only d1 d2 override e1 e2 s1 s2 : legacy d1 -> legacy d2 -> d_name d1 = d_name d2 -> d_aliases d1 = d_aliases d2 ->
  fit_settings d1 override e1 = Ok s1 -> fit_settings d2 override e2 = Ok s2 -> s_template s1 = s_template s2 /\ s_truth s1 = s_truth s2.
Proof.
  intros (F1 & C1 & S1) (F2 & C2 & S2) N Al. unfold fit_settings, adapter. rewrite F1, C1, F2, C2. destruct (list_eq_dec Nat.eq_dec (d_shape d1) [d_nx d1; d_nt d1]); [|contradiction]. destruct (list_eq_dec Nat.eq_dec (d_shape d2) [d_nx d2; d_nt d2]); [|contradiction].
  cbn [bind r_u r_x r_t r_fields r_coords]. rewrite !name_twice, N, Al. unfold solver_config, inline_of. cbn [r_u r_x r_t r_fields r_coords r_label r_path r_epochs].
  destruct (benchmark _) as [[t fs]|]; intros E1 E2; injection E1 as <-; injection E2 as <-; auto.
Qed.
(** plot_results: RuntimeError before a fit; afterwards it draws exactly if the run has a ground truth. *)
Theorem C149_plot d override epochs s : plot_results (A := A) None = Err RuntimeError /\ (fit_settings d override epochs = Ok s -> plot_results (Some s) = Ok (s_truth s)).
Proof.
  split; [reflexivity|]. unfold fit_settings. destruct (adapter d) as [[r inf]|]; [|discriminate]. cbn [bind]. unfold solver_config, inline_of. cbn [r_u r_x r_t r_fields r_coords r_label r_path r_epochs]. unfold plot_results.
  destruct (r_fields r), (r_coords r); try (intros E; injection E as <-; cbn [s_label s_truth]; now rewrite andb_false_r).
  destruct (benchmark_known (normalize (problem_label override (d_aliases d) inf))) as [(b & t & fs & I & N & E & _)|[E _]]; rewrite E; intros H.
  - injection H as <-. cbn [s_label s_truth]. rewrite N. repeat (destruct I as [<- |I]; [reflexivity|]). destruct I.
  - destruct (r_u r), (r_x r), (r_t r); try discriminate. injection H as <-. cbn [s_label s_truth]. now rewrite andb_false_r.
Qed.
(** The data sets of the registry: those validated for SGA, and only those, get a ground truth; it is the
    equation of the entry. *)
Theorem C149_registry e d epochs s : In e Loader.registry -> legacy d -> d_name d = Loader.e_name e -> d_aliases d = registry_aliases (Loader.e_name e) -> fit_settings d None epochs = Ok s ->
  s_truth s = existsb (fun m => String.eqb (fst m) "sga" && snd m) (Loader.e_models e) /\
  forall b f, In (Loader.e_name e, b) [("chafee-infante", "chafee-infante"); ("burgers", "burgers"); ("burgers-reflib", "burgers"); ("kdv", "kdv")] -> In (b, f) equations -> exists t, s_template s = Some t /\ same_rhs (t_rhs_origin t) f.
Proof.
  intros I L N Al E. destruct (C149_legacy d None epochs L) as (s' & E' & La & _ & T1 & _ & T2). assert (s' = s) as -> by congruence. clear E'.
  destruct L as (F & C & Sh). unfold fit_settings, adapter in E. rewrite F, C in E. destruct (list_eq_dec Nat.eq_dec (d_shape d) [d_nx d; d_nt d]) as [_|X]; [|contradiction]. cbn [bind r_u r_x r_t r_fields r_coords] in E. rewrite N, Al in E.
  split.
  - repeat (destruct I as [<- |I]; [vm_compute in E; injection E as <-; reflexivity|]). destruct I.
  - intros b f J IF. apply (T2 b f); [|exact IF]. assert (IB : In b ["chafee-infante"; "burgers"; "kdv"]) by (repeat (destruct J as [J|J]; [injection J; intros; subst; cbn; auto|]); destruct J).
    apply (C149_names (s_label s) b IB). repeat (destruct I as [<- |I]; [vm_compute in E; injection E as <-; cbn [Loader.e_name] in J; repeat (destruct J as [J|J]; [injection J; intros; subst; try discriminate; reflexivity|]); destruct J|]). destruct I.
Qed.
End Fit.
(** A user's own data set called "Burgers_equation" is compared with u_t = 0.1 u_xx - u u_x whatever its data are. *)
Example C149_own_data_refuted : exists s, fit_settings (mkDset "Burgers_equation" 1 2 3 [4; 5] 4 5 None None []) None 1000 = Ok s /\ s_truth s = true /\ s_template s = Some burgers_template.
Proof. eexists. split; [reflexivity|split; reflexivity]. Qed.
(** the hypotheses of the theorems are met *)
Example C149_legacy_example : legacy (mkDset "burgers" 1 2 3 [4; 5] 4 5 None None (registry_aliases "burgers")). Proof. split; [reflexivity|split; reflexivity]. Qed.

(** ** The template for the prepared data *)
(** For Burgers and KdV it is the benchmark's equation as well ... *)
Theorem C149_prepared b f t fs : In b ["burgers"; "kdv"] -> In (b, f) equations -> benchmark b = Some (t, fs) -> same_rhs (t_rhs t) f.
Proof.
  intros I J E. cbn [In equations] in J. destruct I as [<- |[<- |[]]]; destruct J as [J|[J|[J|[]]]]; try discriminate J; injection J as <-; unfold benchmark in E; cbn [String.eqb Ascii.eqb Bool.eqb] in E; injection E as <- _; intros u ux uxx uxxx; cbn; [ring|]. setoid_replace (25 # 10000)%Q with (1 # 400)%Q by reflexivity. ring.
Qed.
(** ... for Chafee-Infante it lacks the diffusion term: the error printed and the residual drawn for the prepared
    data are those of another equation. *)
Theorem C149_prepared_refuted : exists f t fs, In ("chafee-infante", f) equations /\ benchmark "chafee-infante" = Some (t, fs) /\
  (forall u ux uxx uxxx uxx', t_rhs t u ux uxx uxxx = t_rhs t u ux uxx' uxxx) /\ (forall ux uxxx, t_rhs t 0 ux 1 uxxx == 0 /\ f 0 ux 1 uxxx == 1)%Q.
Proof. do 3 eexists. split; [cbn; eauto|]. split; [reflexivity|]. split; [reflexivity|]. intros ux uxxx. split; cbn; ring. Qed.

(** ** The default check point *)
Fixpoint val (s : string) (v : nat) : nat := match s with String c s' => val s' (v * 10 + (nat_of_ascii c - 48)) | EmptyString => v end.
Fixpoint all_digits (s : string) : bool := match s with String c s' => Nat.leb 48 (nat_of_ascii c) && Nat.leb (nat_of_ascii c) 57 && all_digits s' | EmptyString => true end.
Lemma val_app a b v : val (a ++ b) v = val b (val a v). Proof. revert v. induction a as [|c a IH]; intros v; [reflexivity|]. cbn [append val]. apply IH. Qed.
Lemma digit_nat n : nat_of_ascii (ascii_of_nat (48 + n mod 10)) = 48 + n mod 10. Proof. apply nat_ascii_embedding. pose proof (Nat.mod_upper_bound n 10). lia. Qed.
Lemma all_digits_app a b : all_digits (a ++ b) = all_digits a && all_digits b. Proof. induction a as [|c a IH]; [reflexivity|]. cbn [append all_digits]. rewrite IH, andb_assoc. reflexivity. Qed.
Lemma app_nil_r_s s : (s ++ "")%string = s. Proof. induction s as [|c s IH]; [reflexivity|]. cbn [append]. now rewrite IH. Qed.
Lemma app_assoc_s a b c : ((a ++ b) ++ c)%string = (a ++ b ++ c)%string. Proof. induction a as [|x a IH]; [reflexivity|]. cbn [append]. now rewrite IH. Qed.
Lemma digits_spec fuel : forall n acc, n < fuel -> exists p, digits fuel n acc = (p ++ acc)%string /\ all_digits p = true /\ val p 0 = n.
Proof.
  induction fuel as [|f IH]; intros n acc H; [lia|]. cbn [digits]. pose proof (Nat.mod_upper_bound n 10 ltac:(lia)) as M.
  set (c := ascii_of_nat (48 + n mod 10)). assert (C : nat_of_ascii c = 48 + n mod 10) by apply digit_nat.
  assert (D : Nat.leb 48 (nat_of_ascii c) && Nat.leb (nat_of_ascii c) 57 && true = true) by (rewrite C; rewrite (proj2 (Nat.leb_le _ _)) by lia; rewrite (proj2 (Nat.leb_le _ _)) by lia; reflexivity).
  destruct (Nat.ltb_spec n 10) as [L|L].
  - exists (String c ""). split; [reflexivity|]. split; [exact D|]. cbn [val]. rewrite C. rewrite Nat.mod_small by exact L. lia.
  - destruct (IH (n / 10) (String c acc)) as (p & E & Dp & V). { assert (n / 10 < n) by (apply Nat.div_lt; lia). lia. }
    exists (p ++ String c "")%string. rewrite app_assoc_s. split; [exact E|]. rewrite all_digits_app, Dp. split; [exact D|]. rewrite val_app, V. cbn [val]. rewrite C. pose proof (Nat.div_mod n 10 ltac:(lia)). lia.
Qed.
Lemma str_of_nat_inj a b : str_of_nat a = str_of_nat b -> a = b.
Proof.
  unfold str_of_nat. destruct (digits_spec (S a) a "" ltac:(lia)) as (p & E & _ & V), (digits_spec (S b) b "" ltac:(lia)) as (q & E2 & _ & V2). rewrite E, E2, !app_nil_r_s. congruence.
Qed.
Fixpoint count_us (s : string) : nat := match s with String c s' => (if Ascii.eqb c "_" then 1 else 0) + count_us s' | EmptyString => 0 end.
Lemma count_us_app a b : count_us (a ++ b) = count_us a + count_us b. Proof. induction a as [|c a IH]; [reflexivity|]. cbn [append count_us]. rewrite IH. lia. Qed.
Lemma count_us_digits s : all_digits s = true -> count_us s = 0.
Proof. induction s as [|c s IH]; [reflexivity|]. cbn [all_digits count_us]. intros H. apply andb_true_iff in H. destruct H as [H H2]. rewrite (IH H2). destruct (Ascii.eqb_spec c "_") as [->|]; [discriminate H|reflexivity]. Qed.
Lemma app_cancel_r a b t : (a ++ t)%string = (b ++ t)%string -> a = b.
Proof.
  assert (LA : forall x y, String.length (x ++ y) = String.length x + String.length y) by (induction x as [|c x IH]; intros y; [reflexivity|cbn [append String.length]; now rewrite IH]).
  revert b. induction a as [|c a IH]; intros [|d b] H; [reflexivity| | |].
  - exfalso. apply (f_equal String.length) in H. change ("" ++ t)%string with t in H. rewrite LA in H. cbn [String.length] in H. lia.
  - exfalso. apply (f_equal String.length) in H. change ("" ++ t)%string with t in H. rewrite LA in H. cbn [String.length] in H. lia.
  - cbn [append] in H. injection H as -> H. f_equal. now apply IH.
Qed.
(** Two runs have the same default check point exactly if they have the same label and the same number of whole
    thousands of epochs; so a run with 1000 epochs finds and reuses the file of a run with 1999. *)
Theorem C149_path l1 l2 e1 e2 : default_path l1 e1 = default_path l2 e2 <-> l1 = l2 /\ e1 / 1000 = e2 / 1000.
Proof.
  split; [|intros [-> H]; unfold default_path; now rewrite H].
  unfold default_path. generalize (e1 / 1000) (e2 / 1000). intros n1 n2.
  assert (Z1 : count_us (str_of_nat n1) = 0). { unfold str_of_nat. destruct (digits_spec (S n1) n1 "" ltac:(lia)) as (p & E & D & _). rewrite E, app_nil_r_s. now apply count_us_digits. }
  assert (Z2 : count_us (str_of_nat n2) = 0). { unfold str_of_nat. destruct (digits_spec (S n2) n2 "" ltac:(lia)) as (p & E & D & _). rewrite E, app_nil_r_s. now apply count_us_digits. }
  change (String.append l1 (String.append "_sine_sin_50_3fc2_" (String.append (str_of_nat n1) "k_Adam.pkl"))) with (l1 ++ ("_sine_sin_50_3fc2_" ++ str_of_nat n1 ++ "k_Adam.pkl"))%string.
  change (String.append l2 (String.append "_sine_sin_50_3fc2_" (String.append (str_of_nat n2) "k_Adam.pkl"))) with (l2 ++ ("_sine_sin_50_3fc2_" ++ str_of_nat n2 ++ "k_Adam.pkl"))%string.
  assert (W1 : count_us ("_sine_sin_50_3fc2_" ++ str_of_nat n1 ++ "k_Adam.pkl")%string = 6) by (rewrite !count_us_app, Z1; reflexivity).
  assert (W2 : count_us ("_sine_sin_50_3fc2_" ++ str_of_nat n2 ++ "k_Adam.pkl")%string = 6) by (rewrite !count_us_app, Z2; reflexivity).
  remember ("_sine_sin_50_3fc2_" ++ str_of_nat n1 ++ "k_Adam.pkl")%string as T1 eqn:ET1. remember ("_sine_sin_50_3fc2_" ++ str_of_nat n2 ++ "k_Adam.pkl")%string as T2 eqn:ET2.
  revert l2. induction l1 as [|c l1 IH]; intros [|d l2] H.
  - split; [reflexivity|]. change ("" ++ T1)%string with T1 in H. change ("" ++ T2)%string with T2 in H. rewrite ET1, ET2 in H. cbn [append] in H. repeat (injection H as H). apply app_cancel_r in H. now apply str_of_nat_inj.
  - exfalso. change ("" ++ T1)%string with T1 in H. pose proof (f_equal count_us H) as K. rewrite count_us_app, W1, W2 in K. assert (d = "_"%char) as ->. { rewrite ET1 in H. cbn [append] in H. injection H; auto. } cbn [count_us] in K. change (Ascii.eqb "_" "_") with true in K. cbv iota in K. lia.
  - exfalso. change ("" ++ T2)%string with T2 in H. pose proof (f_equal count_us H) as K. rewrite count_us_app, W1, W2 in K. assert (c = "_"%char) as ->. { rewrite ET2 in H. cbn [append] in H. injection H; auto. } cbn [count_us] in K. change (Ascii.eqb "_" "_") with true in K. cbv iota in K. lia.
  - cbn [append] in H. injection H as -> H. destruct (IH l2 H) as [-> R]. auto.
Qed.
Example C149_path_example : default_path "kdv" 4321 = "kdv_sine_sin_50_3fc2_4k_Adam.pkl". Proof. vm_compute. reflexivity. Qed.
Theorem C149_epochs_refuted label : default_path label 1000 = default_path label 1999. Proof. apply C149_path. split; [reflexivity|]. vm_compute. reflexivity. Qed.

(** ** The slices *)
Lemma linspace0_nth stop n i : i < n -> 1 < n -> nth i (linspace0 stop n) 0%Q = ((inject_Z (Z.of_nat i) / inject_Z (Z.of_nat (n - 1))) * stop)%Q.
Proof.
  intros H N. unfold linspace0. set (g := fun i => if Nat.eqb n 1 then 0%Q else ((inject_Z (Z.of_nat i) / inject_Z (Z.of_nat (n - 1))) * stop)%Q).
  rewrite (nth_indep (map g (seq 0 n)) 0%Q (g 0)) by (rewrite map_length, seq_length; exact H). rewrite (map_nth g), seq_nth by exact H. unfold g. destruct (Nat.eqb_spec n 1); [lia|reflexivity].
Qed.
Lemma column_points stop rows c f i : i < rows -> 1 < rows -> nth_error (column stop rows c f) i = Some ((inject_Z (Z.of_nat i) / inject_Z (Z.of_nat (rows - 1))) * stop, f i c)%Q.
Proof.
  intros H R. unfold column. rewrite (nth_error_nth' (combine _ _) (0%Q, f 0 c)) by (rewrite combine_length; unfold linspace0; rewrite !map_length, !seq_length; lia).
  rewrite combine_nth by (unfold linspace0; now rewrite !map_length, !seq_length). rewrite linspace0_nth by assumption.
  rewrite (map_nth (fun i => f i c)), seq_nth by exact H. reflexivity.
Qed.
Lemma column_len stop rows c f : List.length (column stop rows c f) = rows. Proof. unfold column, linspace0. rewrite combine_length, !map_length, !seq_length. lia. Qed.
(** what a slice shows: the value at row i of the middle time, at the fraction of the axis where row i lies *)
Definition shows (curve : list (Q * Q)) (stop : Q) (rows : nat) (v : nat -> Q) : Prop :=
  List.length curve = rows /\ forall i, i < rows -> 1 < rows -> exists x, nth_error curve i = Some (x, v i) /\ (x * inject_Z (Z.of_nat (rows - 1)) == inject_Z (Z.of_nat i) * stop)%Q.
Lemma column_shows stop rows c f : shows (column stop rows c f) stop rows (fun i => f i c).
Proof. split; [apply column_len|]. intros i H R. eexists. split; [apply column_points; assumption|]. field. intros Z0. apply (proj1 (inject_Z_injective _ 0)) in Z0. lia. Qed.
Definition raw_of (figs : list (string * option (list (Q * Q)) * list (Q * Q))) (name : string) : option (list (Q * Q)) := option_map snd (find (fun p => String.eqb (fst (fst p)) name) figs).
Definition meta_of (figs : list (string * option (list (Q * Q)) * list (Q * Q))) (name : string) : option (list (Q * Q)) := match find (fun p => String.eqb (fst (fst p)) name) figs with Some p => snd (fst p) | None => None end.
(** Every slice shows the loaded quantity it is named after, at the middle time; with use_metadata also the
    prepared quantity, and without it no such curve. *)
Theorem C149_slices um a o name (q : pic -> nat -> nat -> Q) stop :
  In (name, q, stop) [("ut_slice.png", p_ut, 256%Q); ("ux_slice.png", p_ux, 256%Q); ("uxx_slice.png", p_uxx, 100%Q); ("u_slice.png", p_u, 100%Q); ("residual_slice.png", (fun p i j => p_ut p i j - p_rhs p i j)%Q, 100%Q)] ->
  (exists c, raw_of (slice_figures um a o) name = Some c /\ shows c stop (p_n o) (fun i => q o i (p_m o / 2))) /\
  (um = true -> exists c, meta_of (slice_figures um a o) name = Some c /\ shows c 100%Q (p_n a) (fun i => q a i (p_m a / 2))) /\ (um = false -> meta_of (slice_figures um a o) name = None).
Proof.
  intros I. repeat (destruct I as [I|I]; [injection I as <- <- <-; split; [eexists; split; [reflexivity|apply column_shows]|split; [intros ->; eexists; split; [reflexivity|apply column_shows]|intros ->; reflexivity]]|]). destruct I.
Qed.
(** The right-hand side inside the cut edges. *)
Theorem C149_rhs_slice um a o : exists c, raw_of (slice_figures um a o) "rhs_slice.png" = Some c /\ shows c 100%Q (p_n2 o - p_n1 o) (fun i => p_rhs o (p_n1 o + i) (p_m1 o + (p_m2 o - p_m1 o) / 2)).
Proof. eexists. split; [reflexivity|]. apply (column_shows 100 _ _ (fun i j => p_rhs o (p_n1 o + i) (p_m1 o + j))). Qed.
(** In the u, u_xx and residual slices the two curves are aligned: rows at the same fraction of the axis are at
    the same abscissa.  In the u_t and u_x slices they are not: with use_metadata the last row is drawn at 100 in
    one curve and at 256 in the other. *)
Theorem C149_aligned c1 c2 r1 r2 v1 v2 i j x1 x2 y1 y2 : shows c1 100%Q r1 v1 -> shows c2 100%Q r2 v2 -> 1 < r1 -> 1 < r2 -> i < r1 -> j < r2 -> i * (r2 - 1) = j * (r1 - 1) ->
  nth_error c1 i = Some (x1, y1) -> nth_error c2 j = Some (x2, y2) -> (x1 == x2)%Q.
Proof.
  intros [_ S1] [_ S2] R1 R2 I J E N1 N2. destruct (S1 i I R1) as (a & A1 & A2), (S2 j J R2) as (b & B1 & B2). assert (a = x1) as -> by congruence. assert (b = x2) as -> by congruence.
  assert (P1 : (0 < inject_Z (Z.of_nat (r1 - 1)))%Q) by (change 0%Q with (inject_Z 0); rewrite <- Zlt_Qlt; lia). assert (P2 : (0 < inject_Z (Z.of_nat (r2 - 1)))%Q) by (change 0%Q with (inject_Z 0); rewrite <- Zlt_Qlt; lia).
  assert (EQ : (inject_Z (Z.of_nat i) * inject_Z (Z.of_nat (r2 - 1)) == inject_Z (Z.of_nat j) * inject_Z (Z.of_nat (r1 - 1)))%Q). { rewrite <- !inject_Z_mult, <- !Nat2Z.inj_mul, E. reflexivity. }
  set (p := inject_Z (Z.of_nat (r1 - 1))) in *. set (q := inject_Z (Z.of_nat (r2 - 1))) in *. set (zi := inject_Z (Z.of_nat i)) in *. set (zj := inject_Z (Z.of_nat j)) in *.
  assert (NZ : (~ p * q == 0)%Q) by (intros Z0; assert (0 < p * q)%Q by (now apply Qmult_lt_0_compat); lra). apply (proj1 (Qmult_inj_r x1 x2 (p * q) NZ)).
  transitivity (zi * q * 100)%Q; [transitivity (x1 * p * q)%Q; [ring|rewrite A2; ring]|]. rewrite EQ. transitivity (x2 * q * p)%Q; [rewrite B2; ring|ring].
Qed.
Theorem C149_aligned_refuted a o : p_n a = 2 -> p_n o = 2 -> forall name, In name ["ut_slice.png"; "ux_slice.png"] ->
  exists cm cr y1 y2 x1 x2, meta_of (slice_figures true a o) name = Some cm /\ raw_of (slice_figures true a o) name = Some cr /\ nth_error cm 1 = Some (x1, y1) /\ nth_error cr 1 = Some (x2, y2) /\ (x1 == 100)%Q /\ (x2 == 256)%Q.
Proof.
  intros Na No name I. assert (S0 : In name ["ut_slice.png"; "ux_slice.png"]) by exact I. destruct I as [<- |[<- |[]]]; (do 6 eexists; split; [reflexivity|]; split; [reflexivity|]; rewrite Na, No; split; [reflexivity|]; split; [reflexivity|]; split; reflexivity).
Qed.
(** the files are different *)
Theorem C149_files um a o : NoDup figure_files /\ incl (map (fun p => fst (fst p)) (slice_figures um a o)) figure_files.
Proof. split; [repeat constructor; cbn; intuition discriminate|]. intros x I. cbn in I. repeat (destruct I as [<- |I]; [cbn; auto 12|]). destruct I. Qed.
Print Assumptions C149_names.
Print Assumptions C149_label.
Print Assumptions C149_legacy.
Print Assumptions C149_nd.
Print Assumptions C149_errors.
Print Assumptions C149_truth_by_name_only.
Print Assumptions C149_plot.
Print Assumptions C149_registry.
Print Assumptions C149_prepared.
Print Assumptions C149_prepared_refuted.
Print Assumptions C149_path.
Print Assumptions C149_epochs_refuted.
Print Assumptions C149_slices.
Print Assumptions C149_rhs_slice.
Print Assumptions C149_aligned.
Print Assumptions C149_aligned_refuted.
Print Assumptions C149_files.
