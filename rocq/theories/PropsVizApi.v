(** C103: the plot helpers hand on the user's arguments and report the outcome. *)
From Coq Require Import QArith List String Bool Arith ZArith Lia.
From Verif Require Import Base VizData DlgaPlot VizApi.
Import ListNotations.
Local Open Scope string_scope.
Local Open Scope nat_scope.
Local Open Scope list_scope.

Lemma lookup_assign k v d k' : lookup k' (assign k v d) = if String.eqb k k' then Some v else lookup k' d.
Proof.
  induction d as [|(a, w) d IH]; cbn.
  - destruct (String.eqb k k'); reflexivity.
  - destruct (String.eqb a k) eqn:E.
    + apply String.eqb_eq in E. subst a. cbn. destruct (String.eqb k k'); reflexivity.
    + cbn. rewrite IH. destruct (String.eqb a k') eqn:F; [|reflexivity]. apply String.eqb_eq in F. subst a. rewrite String.eqb_sym, E. reflexivity.
Qed.
Lemma lookup_rest ps kw k : lookup k (rest ps kw) =
  if (existsb (fun p => String.eqb (p_name p) k) ps || String.eqb "show_info" k)%bool then None else lookup k kw.
Proof.
  unfold rest. induction kw as [|(a, v) kw IH]; [destruct (_ || _)%bool; reflexivity|]. cbn [filter fst lookup].
  destruct (String.eqb a k) eqn:E.
  - apply String.eqb_eq in E. subst a. destruct (existsb (fun p => String.eqb (p_name p) k) ps); cbn [negb andb orb] in *; [exact IH|].
    destruct (String.eqb "show_info" k); cbn [negb] in *; [exact IH|]. cbn [lookup]. rewrite String.eqb_refl. reflexivity.
  - destruct (negb _ && negb _)%bool; [|exact IH]. cbn [lookup]. rewrite E. exact IH.
Qed.
Lemma fill_none ps : forall kw d, fill ps kw d = None <-> exists p, In p ps /\ p_default p = None /\ lookup (p_name p) kw = None.
Proof.
  induction ps as [|p ps IH]; intros kw d; cbn [fill].
  - split; [discriminate|intros (p & [] & _)].
  - unfold bound. destruct (lookup (p_name p) kw) as [v|] eqn:L.
    + rewrite IH. split; intros (q & I & D & E); [exists q; split; [now right|auto]|]. destruct I as [<-|I]; [congruence|eauto].
    + destruct (p_default p) as [v|] eqn:D.
      * rewrite IH. split; intros (q & I & D' & E); [exists q; split; [now right|auto]|]. destruct I as [<-|I]; [congruence|eauto].
      * split; [intros _; exists p; split; [now left|auto]|reflexivity].
Qed.
Lemma fill_lookup ps : NoDup (map p_name ps) -> forall kw d d', fill ps kw d = Some d' ->
  (forall k, ~ In k (map p_name ps) -> lookup k d' = lookup k d) /\
  (forall p v, In p ps -> bound p kw = Some v -> lookup (p_name p) d' = if (p_always p || negb (is_none v))%bool then Some v else lookup (p_name p) d).
Proof.
  induction ps as [|p ps IH]; intros N kw d d' E; cbn [fill] in E.
  - injection E as <-. split; [reflexivity|intros p v []].
  - cbn in N. inversion N as [|? ? N1 N2]; subst. destruct (bound p kw) as [v|] eqn:B; [|discriminate].
    destruct (IH N2 kw _ _ E) as [A C]. split.
    + intros k Hk. cbn in Hk. rewrite A by tauto. destruct (p_always p || negb (is_none v))%bool; [|reflexivity]. rewrite lookup_assign.
      destruct (String.eqb (p_name p) k) eqn:Q; [|reflexivity]. apply String.eqb_eq in Q. tauto.
    + intros q w [<-|I] Bq.
      * assert (w = v) by congruence. subst. rewrite A by exact N1. destruct (p_always p || negb (is_none v))%bool; [|reflexivity]. rewrite lookup_assign, String.eqb_refl. reflexivity.
      * rewrite (C q w I Bq). destruct (p_always q || negb (is_none w))%bool; [reflexivity|]. destruct (p_always p || negb (is_none v))%bool; [|reflexivity].
        rewrite lookup_assign. destruct (String.eqb (p_name p) (p_name q)) eqn:Q; [|reflexivity]. apply String.eqb_eq in Q. exfalso. apply N1. rewrite Q. apply in_map. exact I.
Qed.

(** The helpers and what each requires. *)
Definition intent_of : list (string * string) :=
  [("plot_training_curve", "training_curve"); ("plot_validation_curve", "validation_curve"); ("plot_search_evolution", "search_evolution");
   ("plot_optimization", "optimization"); ("render_equation", "equation"); ("plot_time_slices", "time_slices"); ("plot_residuals", "residual");
   ("plot_field_comparison", "field_comparison"); ("plot_derivative_relationships", "derivative_relationships"); ("plot_parity", "parity")].
Definition must_give (h : string) : list string :=
  if String.eqb h "plot_time_slices" then ["t_coords"; "true_field"; "predicted_field"]
  else if String.eqb h "plot_field_comparison" then ["t_coords"; "true_field"; "predicted_field"]
  else if String.eqb h "plot_residuals" then ["actual"; "predicted"] else [].
(** A helper that omits a None: the option is then absent instead of None. *)
Definition drops_none (h k : string) : bool :=
  existsb (String.eqb k) (if String.eqb h "plot_time_slices" then ["spatial_coords"; "x_coords"; "slice_times"]
  else if String.eqb h "plot_field_comparison" then ["spatial_coords"; "x_coords"; "residual_field"]
  else if String.eqb h "plot_residuals" then ["coordinates"] else if String.eqb h "plot_parity" then ["title"] else []).

Lemma names_inj ps : NoDup (map p_name ps) -> forall p q, In p ps -> In q ps -> p_name q = p_name p -> q = p.
Proof.
  induction ps as [|a ps IH]; intros N p q Ip Iq E; [destruct Ip|]. cbn in N. inversion N as [|? ? N1 N2]; subst.
  destruct Ip as [<-|Ip], Iq as [<-|Iq]; [reflexivity| | |exact (IH N2 p q Ip Iq E)]; exfalso; apply N1; [rewrite <- E|rewrite E]; apply in_map; assumption.
Qed.
Lemma existsb_eqb k l : existsb (String.eqb k) l = true <-> In k l.
Proof.
  rewrite existsb_exists. split; [intros (x & X & E); apply String.eqb_eq in E; subst; exact X|]. intros X. exists k. split; [exact X|apply String.eqb_refl].
Qed.
Definition no_default (p : param) : bool := match p_default p with None => true | _ => false end.
(** The table of helpers against the specification above. *)
Lemma table_facts h kind : In (h, kind) intent_of -> exists ps, helper_of h = Some (kind, ps) /\ NoDup (map p_name ps) /\ ~ In "show_info" (map p_name ps) /\
  must_give h = map p_name (filter no_default ps) /\
  (forall k, drops_none h k = true <-> In k (map p_name (filter (fun p => negb (p_always p)) ps))) /\
  (forall p, In p ps -> p_default p = None \/ p_default p = Some VNone /\ p_always p = false \/ h = "plot_derivative_relationships" /\ p_name p = "top_n_terms" /\ p_default p = Some (VInt 4) /\ p_always p = true) /\
  (h = "plot_derivative_relationships" -> In "top_n_terms" (map p_name ps)).
Proof.
  intros I. cbn [In intent_of] in I.
  repeat (destruct I as [I|I]; [injection I as <- <-; eexists; split; [reflexivity|]; split; [repeat constructor; cbn; intuition discriminate|]; split; [cbn; intuition discriminate|];
    split; [reflexivity|]; split; [intros k; unfold drops_none; rewrite existsb_eqb; reflexivity|]; split;
    [intros p X; cbn [In] in X; repeat (destruct X as [<-|X]; [cbn; tauto|]); destruct X|intros X; first [discriminate X|cbn; tauto]]|]).
  destruct I.
Qed.

(** The adapter is asked for the helper's intent with exactly the user's keyword arguments: every argument except show_info arrives
    under its own name with its own value (an optional one given as None is left out), nothing else is added but top_n_terms = 4.
    Without a required argument the call is a TypeError. *)
Theorem C103_arguments h kind kw : In (h, kind) intent_of ->
  (request h kw = None <-> exists k, In k (must_give h) /\ lookup k kw = None) /\
  forall kind' d, request h kw = Some (kind', d) -> kind' = kind /\
    forall k, lookup k d =
      if String.eqb k "show_info" then None
      else match lookup k kw with
           | Some v => if (drops_none h k && is_none v)%bool then None else Some v
           | None => if (String.eqb h "plot_derivative_relationships" && String.eqb k "top_n_terms")%bool then Some (VInt 4) else None
           end.
Proof.
  intros I. assert (exists ps, helper_of h = Some (kind, ps) /\ NoDup (map p_name ps) /\ ~ In "show_info" (map p_name ps) /\
    (forall k, In k (must_give h) <-> exists p, In p ps /\ p_name p = k /\ p_default p = None) /\
    (forall p, In p ps -> p_always p = negb (drops_none h (p_name p)) /\
        (p_default p = None \/ p_default p = Some VNone /\ p_always p = false \/ h = "plot_derivative_relationships" /\ p_name p = "top_n_terms" /\ p_default p = Some (VInt 4) /\ p_always p = true)) /\
    (forall k, drops_none h k = true -> In k (map p_name ps)) /\
    (h = "plot_derivative_relationships" -> In "top_n_terms" (map p_name ps))) as (ps & Eh & ND & NS & MG & AL & DR & TOP).
  { destruct (table_facts h kind I) as (ps & E & N & S & M & D & F & T). exists ps. split; [exact E|]. split; [exact N|]. split; [exact S|].
    split. { intros k. rewrite M, in_map_iff. split.
      - intros (p & <- & X). apply filter_In in X as [X Y]. exists p. split; [exact X|]. split; [reflexivity|]. unfold no_default in Y. destruct (p_default p); [discriminate|reflexivity].
      - intros (p & X & <- & Y). exists p. split; [reflexivity|]. apply filter_In. split; [exact X|]. unfold no_default. rewrite Y. reflexivity. }
    split. { intros p X. split; [|apply F; exact X]. destruct (p_always p) eqn:A; symmetry; [apply negb_true_iff, not_true_iff_false|apply negb_false_iff].
      - intros Y. apply D in Y. apply in_map_iff in Y as (q & Eq & Y). apply filter_In in Y as [Y Z].
        assert (q = p) by (eapply names_inj; eauto). subst q. rewrite A in Z. discriminate.
      - apply D. apply in_map. apply filter_In. split; [exact X|rewrite A; reflexivity]. }
    split; [|exact T]. intros k Y. apply D in Y. apply in_map_iff in Y as (q & <- & Y). apply filter_In in Y as [Y _]. apply in_map. exact Y. }
  unfold request. rewrite Eh. split.
  - destruct (fill ps kw (rest ps kw)) as [d|] eqn:F.
    + split; [discriminate|]. intros (k & Hk & L). apply MG in Hk as (p & Ip & <- & Dp). exfalso.
      assert (fill ps kw (rest ps kw) = None); [apply fill_none; eauto|congruence].
    + split; [|reflexivity]. intros _. apply fill_none in F as (p & Ip & Dp & L). exists (p_name p). split; [apply MG; eauto|exact L].
  - intros kind' d E. destruct (fill ps kw (rest ps kw)) as [d'|] eqn:F; [|discriminate]. injection E as <- <-. split; [reflexivity|]. intros k.
    destruct (fill_lookup ps ND kw _ _ F) as [A B]. destruct (in_dec string_dec k (map p_name ps)) as [Ik|Nk].
    + apply in_map_iff in Ik as (p & <- & Ip). destruct (AL p Ip) as [Al Df].
      assert (String.eqb (p_name p) "show_info" = false) as ->. { apply String.eqb_neq. intros X. apply NS. rewrite <- X. apply in_map. exact Ip. }
      assert (LR : lookup (p_name p) (rest ps kw) = None).
      { rewrite lookup_rest. assert (existsb (fun q => String.eqb (p_name q) (p_name p)) ps = true) as ->; [|reflexivity]. apply existsb_exists. exists p. split; [exact Ip|apply String.eqb_refl]. }
      destruct (lookup (p_name p) kw) as [v|] eqn:L.
      * rewrite (B p v Ip) by (unfold bound; rewrite L; reflexivity). rewrite LR, Al. destruct (drops_none h (p_name p)), (is_none v); reflexivity.
      * destruct Df as [Df|[[Df Pa]|(-> & Pn & Df & Pa)]].
        -- exfalso. assert (fill ps kw (rest ps kw) = None); [apply fill_none; eauto|congruence].
        -- rewrite (B p VNone Ip) by (unfold bound; rewrite L; exact Df). rewrite LR, Pa. cbn [orb negb is_none].
           destruct (String.eqb h "plot_derivative_relationships" && String.eqb (p_name p) "top_n_terms")%bool eqn:X; [|reflexivity].
           apply andb_prop in X as [X Y]. apply String.eqb_eq in X, Y. exfalso. rewrite Y in Al. subst h. cbn in Al. congruence.
        -- rewrite (B p (VInt 4) Ip) by (unfold bound; rewrite L; exact Df). rewrite Pa, Pn. reflexivity.
    + rewrite A by exact Nk. rewrite lookup_rest.
      assert (existsb (fun q => String.eqb (p_name q) k) ps = false) as ->.
      { apply not_true_iff_false. intros X. apply existsb_exists in X as (q & Iq & Eq). apply String.eqb_eq in Eq. apply Nk. rewrite <- Eq. apply in_map. exact Iq. }
      cbn [orb]. rewrite (String.eqb_sym "show_info" k). destruct (String.eqb k "show_info"); [reflexivity|]. destruct (lookup k kw) as [v|].
      * destruct (drops_none h k) eqn:D; [exfalso; apply Nk, DR; exact D|reflexivity].
      * destruct (String.eqb h "plot_derivative_relationships" && String.eqb k "top_n_terms")%bool eqn:X; [|reflexivity].
        apply andb_prop in X as [X Y]. apply String.eqb_eq in X, Y. exfalso. subst. apply Nk, TOP. reflexivity.
Qed.
(** One line is printed unless show_info is switched off: all warnings if there are any, else all saved paths, else whether there is a figure. *)
Theorem C103_one_line kind kw r : 
  (show_info kw = false -> printed kind kw r = []) /\
  (show_info kw = true -> exists s, printed kind kw r = [("[kd.viz." ++ kind ++ "] " ++ s)%string] /\
     (r_warnings r <> [] -> s = ("warning: " ++ String.concat "; " (r_warnings r))%string) /\
     (r_warnings r = [] -> r_paths r <> [] -> s = ("saved: " ++ String.concat ", " (r_paths r))%string) /\
     (r_warnings r = [] -> r_paths r = [] -> s = if r_figure r then "figure ready" else "produced no output")) /\
  (lookup "show_info" kw = None -> show_info kw = true).
Proof.
  assert (A : forall a b c, ((a ++ b) ++ c = a ++ (b ++ c))%string) by (intros a b c; induction a; cbn; congruence).
  split; [unfold printed; intros ->; reflexivity|]. split; [|unfold show_info; intros ->; reflexivity].
  unfold printed. intros ->. unfold info_line, tag. destruct (r_warnings r) as [|w ws].
  - destruct (r_paths r) as [|p ps]; [destruct (r_figure r)|]; rewrite !A; (eexists; split; [reflexivity|]); repeat split; congruence || reflexivity.
  - rewrite !A. eexists; split; [reflexivity|]. repeat split; congruence || reflexivity.
Qed.
(** "One-dimensional coordinates may be given as spatial_coords or as x_coords" (the two names the helper offers) is false for DLGA:
    without x_coords the answer is only a warning. *)
Theorem C103_dlga_spatial_coords_refuted kw kind d x : lookup "x_coords" kw = None -> lookup "spatial_coords" kw = Some (VArr x) ->
  request "plot_time_slices" kw = Some (kind, d) -> dlga_time_slices d = VOk None.
Proof.
  intros H S E. destruct (proj2 (C103_arguments "plot_time_slices" "time_slices" kw ltac:(cbn; tauto)) _ _ E) as [_ L].
  unfold dlga_time_slices. rewrite (L "x_coords"), H. reflexivity.
Qed.
Example C103_case : request "plot_time_slices" [("t_coords", VNums [0; 1]%Q); ("num_slices", VInt 2); ("true_field", VNums []); ("show_info", VBool false); ("slice_times", VNone); ("predicted_field", VNums [])]
  = Some ("time_slices", [("num_slices", VInt 2); ("t_coords", VNums [0; 1]%Q); ("true_field", VNums []); ("predicted_field", VNums [])]) /\
  request "plot_residuals" [("actual", VNums [])] = None /\ request "plot_derivative_relationships" [] = Some ("derivative_relationships", [("top_n_terms", VInt 4)]).
Proof. repeat split. Qed.
Example C103_line_case : printed "parity" [] (mkR [] ["a.png"; "b.png"] true) = ["[kd.viz.parity] saved: a.png, b.png"]. Proof. reflexivity. Qed.
Print Assumptions C103_arguments.
Print Assumptions C103_one_line.
Print Assumptions C103_dlga_spatial_coords_refuted.
