(** *** C65, C66: dataset metadata; comma-separated lists *)
From Coq Require Import Ascii.
From Verif Require Import Base Params PropsParams Info.
Local Open Scope string_scope.
Local Open Scope list_scope.

(** ** Strings *)
Lemma has_comma_cons c s : has_comma (String c s) = is_comma c || has_comma s. Proof. reflexivity. Qed.
Lemma split_ne s : split s <> []. Proof. destruct s as [|c s]; cbn; [discriminate|]. destruct (is_comma c); [discriminate|]. destruct (split s); discriminate. Qed.
Lemma is_comma_eq c : is_comma c = true -> c = ","%char. Proof. apply Ascii.eqb_eq. Qed.
(** split: joining the parts with commas gives the text back, and no part has a comma *)
Lemma split_spec s : commas (split s) = s /\ Forall (fun w => has_comma w = false) (split s).
Proof.
  induction s as [|c s [IH1 IH2]]; [split; [reflexivity|repeat constructor]|]. cbn [split]. destruct (is_comma c) eqn:E.
  - apply is_comma_eq in E. subst c. split; [|constructor; [reflexivity|exact IH2]]. destruct (split s) as [|w ws] eqn:ES; [exfalso; exact (split_ne s ES)|]. change (commas ("" :: w :: ws)) with ("" ++ "," ++ commas (w :: ws))%string. rewrite IH1. reflexivity.
  - destruct (split s) as [|w ws] eqn:ES; [exfalso; exact (split_ne s ES)|]. split; [|constructor; [rewrite has_comma_cons, E; exact (Forall_inv IH2)|exact (Forall_inv_tail IH2)]]. destruct ws as [|w2 ws]; cbn [commas append] in *; congruence.
Qed.
Lemma has_comma_app a b : has_comma (a ++ b) = has_comma a || has_comma b.
Proof. induction a as [|c a IH]; [reflexivity|]. cbn [append]. rewrite !has_comma_cons, IH, orb_assoc. reflexivity. Qed.
Lemma split_word w : has_comma w = false -> split w = [w].
Proof. induction w as [|c w IH]; [reflexivity|]. rewrite has_comma_cons. intros H. apply orb_false_iff in H. destruct H as [H1 H2]. cbn [split]. rewrite H1, (IH H2). reflexivity. Qed.
Lemma split_app w s : has_comma w = false -> split (w ++ "," ++ s) = w :: split s.
Proof. induction w as [|c w IH]; [reflexivity|]. rewrite has_comma_cons. intros H. apply orb_false_iff in H. destruct H as [H1 H2]. change ((String c w ++ "," ++ s)%string) with (String c (w ++ "," ++ s)%string). cbn [split]. rewrite H1, (IH H2). reflexivity. Qed.
Lemma split_commas l : l <> [] -> Forall (fun w => has_comma w = false) l -> split (commas l) = l.
Proof.
  induction l as [|a l IH]; [congruence|]. intros _ F. destruct l as [|b l]; [apply split_word; exact (Forall_inv F)|]. change (commas (a :: b :: l)) with (a ++ "," ++ commas (b :: l))%string. rewrite split_app by exact (Forall_inv F). f_equal. apply IH; [discriminate|exact (Forall_inv_tail F)].
Qed.
Lemma rstrip_blank s : blank s = true -> rstrip s = "". Proof. destruct s; [reflexivity|]. intros H. cbn [rstrip]. rewrite H. reflexivity. Qed.
Lemma rstrip_idem s : rstrip (rstrip s) = rstrip s.
Proof.
  induction s as [|c s IH]; [reflexivity|]. cbn [rstrip]. destruct (blank (String c s)) eqn:B; [reflexivity|]. cbn [rstrip]. destruct (blank (String c (rstrip s))) eqn:B2; [|now rewrite IH]. exfalso. cbn [blank] in B, B2. apply andb_true_iff in B2. destruct B2 as [B1 B2]. rewrite B1 in B. cbn [andb] in B.
  clear IH. destruct s as [|d s]; [discriminate|]. cbn [rstrip] in B2. rewrite B in B2. revert B2. cbn [blank] in *. destruct (is_space d); cbn [andb] in *; [|discriminate]. revert B. clear. intros B B2. induction s as [|e s IH]; [discriminate|]. cbn [rstrip] in B2. rewrite B in B2. cbn [blank] in *. destruct (is_space e); cbn [andb] in *; [|discriminate]. auto.
Qed.
Lemma rstrip_head c s : is_space c = false -> exists r, rstrip (String c s) = String c r.
Proof. intros H. cbn [rstrip blank]. rewrite H. cbn [andb]. eauto. Qed.
Lemma lstrip_head s : lstrip s = "" \/ exists c r, lstrip s = String c r /\ is_space c = false.
Proof. induction s as [|c s IH]; [auto|]. cbn [lstrip]. destruct (is_space c) eqn:E; [exact IH|right; eauto]. Qed.
Lemma strip_idem s : strip (strip s) = strip s.
Proof.
  unfold strip. destruct (lstrip_head s) as [E|(c & r & E & S)]; rewrite E; [reflexivity|]. destruct (rstrip_head c r S) as (r' & E'). rewrite E'. cbn [lstrip]. rewrite S. rewrite <- E'. apply rstrip_idem.
Qed.
Lemma rstrip_comma s : has_comma s = false -> has_comma (rstrip s) = false.
Proof. induction s as [|c s IH]; [reflexivity|]. rewrite has_comma_cons. intros H. apply orb_false_iff in H. destruct H as [H1 H2]. cbn [rstrip]. destruct (blank (String c s)); [reflexivity|]. rewrite has_comma_cons, H1. auto. Qed.
Lemma lstrip_comma s : has_comma s = false -> has_comma (lstrip s) = false.
Proof. induction s as [|c s IH]; [reflexivity|]. intros H0. pose proof H0 as H. rewrite has_comma_cons in H. apply orb_false_iff in H. destruct H as [H1 H2]. cbn [lstrip]. destruct (is_space c); auto. Qed.
Lemma strip_comma s : has_comma s = false -> has_comma (strip s) = false. Proof. intros H. apply rstrip_comma. now apply lstrip_comma. Qed.

(** ** C66: comma-separated operator lists *)
(** The parsed list: for every comma-separated part, in order, the part without the white space
    around it, unless nothing is left. *)
Theorem C66_parse text : parse_ops text = filter (fun op => negb (String.eqb op "")) (map strip (split text)) /\ commas (split text) = text /\ Forall neat (parse_ops text).
Proof.
  split; [|split; [apply split_spec|]].
  - unfold parse_ops. induction (split text) as [|w ws IH]; [reflexivity|]. cbn [filter map]. destruct (negb (String.eqb (strip w) "")); cbn [map]; rewrite IH; reflexivity.
  - unfold parse_ops. apply Forall_forall. intros x I. apply in_map_iff in I. destruct I as (w & <- & I). apply filter_In in I. destruct I as [I N]. apply negb_true_iff in N. destruct (split_spec text) as [_ F]. rewrite Forall_forall in F. split; [now apply String.eqb_neq|]. split; [apply strip_comma; auto|apply strip_idem].
Qed.
(** Typing the names with commas gives exactly the names, and parsing is stable. *)
Theorem C66_roundtrip l : Forall neat l -> parse_ops (commas l) = l.
Proof.
  intros F. destruct l as [|a l]; [reflexivity|]. rewrite (proj1 (C66_parse _)). rewrite split_commas; [|discriminate|eapply Forall_impl; [|exact F]; intros w (_ & H & _); exact H].
  revert F. generalize (a :: l). clear. induction l as [|w l IH]; intros F; [reflexivity|]. destruct (Forall_inv F) as (N & _ & S). cbn [map filter]. rewrite S. destruct (String.eqb_spec w ""); [contradiction|]. cbn [negb]. rewrite (IH (Forall_inv_tail F)). reflexivity.
Qed.
Theorem C66_stable text : parse_ops (commas (parse_ops text)) = parse_ops text.
Proof. apply C66_roundtrip. apply C66_parse. Qed.
(** blanks around the names and empty parts do not matter *)
Lemma blank_lstrip b s : blank b = true -> lstrip (b ++ s) = lstrip s.
Proof. induction b as [|c b IH]; [reflexivity|]. cbn [blank append lstrip]. intros H. apply andb_true_iff in H. destruct H as [H1 H2]. rewrite H1. auto. Qed.
Lemma blank_app a b : blank (a ++ b) = blank a && blank b.
Proof. induction a as [|c a IH]; [reflexivity|]. cbn [append blank]. rewrite IH, andb_assoc. reflexivity. Qed.
Lemma blank_rstrip b s : blank b = true -> rstrip (s ++ b) = rstrip s.
Proof.
  intros H. induction s as [|c s IH]; [now apply rstrip_blank|]. change ((String c s ++ b)%string) with (String c (s ++ b)%string). cbn [rstrip]. rewrite IH. change (String c (s ++ b)%string) with (String c s ++ b)%string. rewrite blank_app, H, andb_true_r. reflexivity.
Qed.
Theorem C66_blanks a b w : blank a = true -> blank b = true -> strip w = w -> w <> "" -> strip (a ++ w ++ b) = w.
Proof.
  intros A B S N. unfold strip. rewrite blank_lstrip by exact A. unfold strip in S.
  assert (L : lstrip (w ++ b) = (lstrip w ++ b)%string).
  { destruct (lstrip_head w) as [E|(c & r & E & SP)]; [rewrite E in S; cbn in S; congruence|]. clear S N. revert E. induction w as [|d w IH]; cbn [lstrip append]; [discriminate|]. destruct (is_space d) eqn:D; [exact IH|]. intros _. reflexivity. }
  rewrite L, blank_rstrip by exact B. exact S.
Qed.
Example C66_example : parse_ops " add, mul_t ,,diff , " = ["add"; "mul_t"; "diff"] /\ parse_ops "" = []. Proof. split; reflexivity. Qed.

(** ** C65: DatasetInfo *)
Lemma existsb_name k l : existsb (String.eqb k) l = true <-> In k l.
Proof. rewrite existsb_exists. split; [intros (x & I & E); apply String.eqb_eq in E; congruence|intros I; exists k; split; [exact I|apply String.eqb_refl]]. Qed.
Lemma normal_idem v : normal_keywords (normal_keywords v) = normal_keywords v. Proof. destruct v; reflexivity. Qed.
Lemma dget_map_fields {B} (g : string * ivalue -> B) k : dget (map (fun f => (fst f, g f)) fields) k = option_map (fun v => g (k, v)) (dget fields k).
Proof. induction fields as [|[x v] l IH]; [reflexivity|]. cbn [map dget fst]. destruct (String.eqb_spec x k) as [->|]; [reflexivity|exact IH]. Qed.
(** The constructor: every field has the given value or its default, keywords as a list; an unknown
    keyword is a TypeError. *)
Theorem C65_build kw : (exists i, build kw = Ok i /\ well_formed i /\ forall k v, In (k, v) fields -> dget i k = Some (let w := match dget kw k with Some w => w | None => v end in if String.eqb k "keywords" then normal_keywords w else w)) \/
  (build kw = Err TypeError /\ exists k, In k (map fst kw) /\ ~ In k (map fst fields)).
Proof.
  unfold build. destruct (forallb _ kw) eqn:F.
  - left. eexists. split; [reflexivity|].
    assert (D : forall k v, In (k, v) fields -> dget (map (fun f => (fst f, let w := match dget kw (fst f) with Some w => w | None => snd f end in if String.eqb (fst f) "keywords" then normal_keywords w else w)) fields) k = Some (let w := match dget kw k with Some w => w | None => v end in if String.eqb k "keywords" then normal_keywords w else w)).
    { intros k v I. rewrite dget_map_fields. rewrite (in_dget fields k v); [reflexivity| |exact I]. repeat constructor; cbn; intuition discriminate. }
    split; [|exact D]. split; [rewrite map_map; reflexivity|]. intros v E. assert (E2 := D "keywords" (IList []) ltac:(cbn; tauto)). assert (X : v = normal_keywords (match dget kw "keywords" with Some w => w | None => IList [] end)). { assert (X0 : Some v = Some (normal_keywords (match dget kw "keywords" with Some w => w | None => IList [] end))) by (rewrite <- E; exact E2). congruence. } rewrite X. apply normal_idem.
  - right. split; [reflexivity|]. assert (X : exists p, In p kw /\ existsb (String.eqb (fst p)) (map fst fields) = false).
    { clear -F. induction kw as [|p kw IH]; [discriminate|]. cbn [forallb] in F. destruct (existsb (String.eqb (fst p)) (map fst fields)) eqn:E; [|exists p; split; [now left|exact E]]. destruct (IH F) as (q & I & Q). exists q. split; [now right|exact Q]. }
    destruct X as (p & I & E). exists (fst p). split; [now apply in_map|]. intros C. apply existsb_name in C. congruence.
Qed.
Lemma dget_filter {B} (f : string -> bool) (d : list (string * B)) k : f k = true -> dget (filter (fun p => f (fst p)) d) k = dget d k.
Proof. intros H. induction d as [|[x v] d IH]; [reflexivity|]. cbn [filter fst]. destruct (f x) eqn:E; cbn [dget]; [destruct (String.eqb x k); auto|]. destruct (String.eqb_spec x k); [congruence|exact IH]. Qed.
(** What becomes of the keywords: a comma-separated text becomes the list of its entries without
    surrounding white space, None becomes the empty list, a list stays. *)
Theorem C65_keywords kw v : (forall p, In p kw -> In (fst p) (map fst fields)) -> dget kw "keywords" = Some v -> exists i, build kw = Ok i /\
  dget i "keywords" = Some (match v with INone => IList [] | IStr s => IList (map (fun k => IStr (strip k)) (split s)) | _ => v end).
Proof.
  intros H K. destruct (C65_build kw) as [(i & B & W & G)|(B & k & I & N)].
  - exists i. split; [exact B|]. specialize (G "keywords" (IList [])). rewrite G by (cbn; tauto). rewrite K. cbn. destruct v; reflexivity.
  - exfalso. apply in_map_iff in I. destruct I as ((a & b) & <- & I). apply N. apply (H (a, b) I).
Qed.
(** from_dict never fails; keys that are no fields are ignored, the others are taken. *)
Theorem C65_from_dict d : exists i, from_dict d = Ok i /\ well_formed i /\ forall k v, In (k, v) fields -> dget i k = Some (let w := match dget d k with Some w => w | None => v end in if String.eqb k "keywords" then normal_keywords w else w).
Proof.
  unfold from_dict. set (kw := filter _ d). destruct (C65_build kw) as [(i & E & W & D)|(E & k & I & N)].
  - exists i. split; [exact E|]. split; [exact W|]. intros k v I. rewrite (D k v I). unfold kw. rewrite (dget_filter (fun k => existsb (String.eqb k) (map fst fields))); [reflexivity|]. apply existsb_name. apply (in_map fst) in I. exact I.
  - exfalso. apply in_map_iff in I. destruct I as ([x v] & <- & I). apply filter_In in I. destruct I as [_ I]. apply existsb_name in I. contradiction.
Qed.
Lemma same_names (l i : list (string * ivalue)) : map fst i = map fst l -> NoDup (map fst l) -> map (fun f => (fst f, match dget i (fst f) with Some v => v | None => snd f end)) l = i.
Proof.
  revert i. induction l as [|[x v] l IH]; intros [|[y w] i] E ND; try discriminate; [reflexivity|]. cbn [map fst snd] in *. assert (y = x) by congruence. subst y. cbn [dget]. rewrite String.eqb_refl. f_equal. inversion ND as [|? ? Nx Nl]; subst.
  transitivity (map (fun f => (fst f, match dget i (fst f) with Some v => v | None => snd f end)) l); [|apply IH; [congruence|exact Nl]]. apply map_ext_in. intros [k u] I. cbn [fst snd]. f_equal. destruct (String.eqb_spec x k) as [->|]; [|reflexivity]. exfalso. apply Nx. apply (in_map fst) in I. exact I.
Qed.
Lemma fields_nodup : NoDup (map fst fields). Proof. repeat constructor; cbn; intuition discriminate. Qed.
Lemma to_dict_id i : map fst i = map fst fields -> to_dict i = i. Proof. intros E. apply same_names; [exact E|apply fields_nodup]. Qed.
Lemma build_id i : well_formed i -> build i = Ok i.
Proof.
  intros [E K]. unfold build. assert (F : forallb (fun p => existsb (String.eqb (fst p)) (map fst fields)) i = true). { apply forallb_forall. intros p I. apply existsb_name. rewrite <- E. now apply in_map. } rewrite F. f_equal.
  transitivity (map (fun f => (fst f, match dget i (fst f) with Some v => v | None => snd f end)) fields); [|exact (same_names fields i E fields_nodup)]. apply map_ext_in. intros [k v] I. cbn [fst snd]. f_equal. destruct (String.eqb_spec k "keywords") as [->|]; [|reflexivity]. destruct (dget i "keywords") as [w|] eqn:D; [auto|]. exfalso. apply dget_none in D. apply D. rewrite E. cbn. tauto.
Qed.
(** For instances as the constructor makes them: to_dict and from_dict are inverse, and a copy is
    equal to the original. *)
Theorem C65_roundtrip i : well_formed i -> from_dict (to_dict i) = Ok i /\ copy i = Ok i /\ to_dict i = i.
Proof.
  intros W. pose proof W as [E K]. rewrite (to_dict_id i E). split; [|split; [|reflexivity]].
  - unfold from_dict. replace (filter _ i) with i; [now apply build_id|]. symmetry. assert (F : forall p, In p i -> existsb (String.eqb (fst p)) (map fst fields) = true) by (intros p I; apply existsb_name; rewrite <- E; now apply in_map). clear -F. induction i as [|p i IH]; [reflexivity|]. cbn [filter]. rewrite (F p (or_introl eq_refl)). f_equal. apply IH. intros q I. apply F. now right.
  - unfold copy. rewrite E. cbn. now apply build_id.
Qed.
(** update with known fields (keywords not given as a string or None): the given values are set, the
    others are unchanged, and the instance is still well formed. *)
Theorem C65_update dunder i kw : well_formed i -> NoDup (map fst kw) -> (forall k v, In (k, v) kw -> In k (map fst fields) /\ (k = "keywords" -> normal_keywords v = v)) ->
  exists i', update dunder i kw = (i', Ok tt) /\ well_formed i' /\ (forall k v, In (k, v) kw -> dget i' k = Some v) /\ forall k, ~ In k (map fst kw) -> dget i' k = dget i k.
Proof.
  revert i. induction kw as [|[k v] kw IH]; intros i W ND H; [exists i; split; [reflexivity|]; split; [exact W|]; split; [intros ? ? []|auto]|]. inversion ND as [|? ? Nk Nl]; subst. destruct W as [E K]. destruct (H k v (or_introl eq_refl)) as [IF KV].
  cbn [update]. unfold hasattr. assert (X : existsb (String.eqb k) (map fst i) = true) by (apply existsb_name; congruence). rewrite X. cbn [orb].
  assert (E' : map fst (dset i k v) = map fst fields). { rewrite <- E. apply existsb_name in X. revert X. clear. induction i as [|[x w] i IH]; intros X; [destruct X|]. cbn [dset map fst]. destruct (String.eqb_spec x k) as [->|NE]; cbn [map fst]; [reflexivity|]. f_equal. apply IH. destruct X as [X|X]; [cbn in X; congruence|assumption]. }
  destruct (IH (dset i k v)) as (i' & U & W' & S & R); [split; [exact E'|]|exact Nl|intros; apply H; now right|].
  { intros w Ew. destruct (string_dec k "keywords") as [->|NE]; [rewrite dget_dset_same in Ew; assert (w = v) by congruence; subst; auto|]. rewrite dget_dset_other in Ew by exact NE. auto. }
  exists i'. split; [exact U|]. split; [exact W'|]. split.
  - intros k0 v0 [Eq|I]; [|auto]. assert (k0 = k /\ v0 = v) as [-> ->] by (split; congruence). rewrite R by exact Nk. apply dget_dset_same.
  - intros k0 N. cbn in N. rewrite R by tauto. apply dget_dset_other. tauto.
Qed.
Example C65_example : exists i, from_dict [("author", IStr "me"); ("keywords", IStr "pde, heat"); ("extra", IOther 1)] = Ok i /\ dget i "keywords" = Some (IList [IStr "pde"; IStr "heat"]) /\ dget i "license" = Some (IStr "").
Proof. eexists. split; [reflexivity|]. split; reflexivity. Qed.
(** A rejected update has already changed earlier fields. *)
Theorem C65_update_atomic_refuted : exists i kw i', well_formed i /\ update (fun _ => false) i kw = (i', Err AttributeError) /\ dget i' "author" <> dget i "author".
Proof. exists fields, [("author", IStr "me"); ("title", IStr "x")]. eexists. split; [split; [reflexivity|cbn; intros v0 [= <-]; reflexivity]|]. split; [reflexivity|cbn; discriminate]. Qed.
(** update does not normalise keywords: afterwards a copy, or from_dict of to_dict, is a different
    instance. *)
Theorem C65_update_keywords_refuted : exists i i' c, well_formed i /\ update (fun _ => false) i [("keywords", IStr "a,b")] = (i', Ok tt) /\ copy i' = Ok c /\ to_dict c <> to_dict i' /\ from_dict (to_dict i') = Ok c.
Proof. exists fields. do 2 eexists. split; [split; [reflexivity|cbn; intros v0 [= <-]; reflexivity]|]. split; [reflexivity|]. split; [reflexivity|]. split; [cbn; discriminate|reflexivity]. Qed.
(** update accepts the names of methods, which then no longer work. *)
Theorem C65_update_method_refuted : forall dunder i v, well_formed i -> exists i', update dunder i [("copy", v)] = (i', Ok tt) /\ copy i' = Err TypeError.
Proof.
  intros dunder i v [E _]. cbn [update]. unfold hasattr. cbn [methods existsb]. rewrite String.eqb_refl, !orb_true_r. cbn [orb]. eexists. split; [reflexivity|]. unfold copy. assert (X : existsb (String.eqb "copy") (map fst (dset i "copy" v)) = true); [|now rewrite X]. apply existsb_name. apply dset_keys. now left.
Qed.
Print Assumptions C66_parse.
Print Assumptions C66_roundtrip.
Print Assumptions C66_stable.
Print Assumptions C66_blanks.
Print Assumptions C65_build.
Print Assumptions C65_from_dict.
Print Assumptions C65_roundtrip.
Print Assumptions C65_update.
Print Assumptions C65_update_atomic_refuted.
Print Assumptions C65_update_keywords_refuted.
Print Assumptions C65_update_method_refuted.
Print Assumptions C65_keywords.
