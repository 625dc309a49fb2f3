(** Names and derivative keys of SGA: C24, C56. *)
From Coq Require Import Permutation.
From Verif Require Import Base SgaNaming SgaNamingFacts.
Local Open Scope nat_scope.
Local Notation "'<<' s '>>'" := (lit s%string) (format "'<<' s '>>'").

(** ** Specification *)
(** an identifier: a letter, then letters, digits and underscores *)
Definition identifier (s : pystr) : Prop := exists c r, s = c :: r /\ letter c = true /\ Forall (fun x => word x = true) r.
Definition valid_field (f : pystr) : Prop := identifier f /\ ~ In f DEFAULT_RESERVED.
Definition valid_axis (a : pystr) : Prop := identifier a /\ ~ In a DEFAULT_RESERVED /\ ~ In underscore a.
(** the axis word [a] written [k] times, as in u_xx *)
Fixpoint written (a : pystr) (k : nat) : pystr := match k with 0 => [] | S j => a ++ written a j end.
Lemma written_times a k : written a k = times a k.
Proof. induction k; cbn; [reflexivity|]. rewrite IHk. reflexivity. Qed.
Lemma word_not_newline c : word c = true -> c <> newline.
Proof. intros H ->. discriminate. Qed.
Lemma tail_ok_spec r : tail_ok r = true <-> Forall (fun x => word x = true) r \/ exists r', r = r' ++ [newline] /\ Forall (fun x => word x = true) r'.
Proof.
  induction r as [|c r IH]; [split; [left; constructor|reflexivity]|]. destruct r as [|d r].
  - cbn [tail_ok]. rewrite orb_true_iff, Nat.eqb_eq. split.
    + intros [H| ->]; [left; constructor; auto|right; exists []; split; [reflexivity|constructor]].
    + intros [H|(r' & E & H)]; [left; exact (Forall_inv H)|]. destruct r' as [|x [|y r']]; cbn in E; try discriminate. injection E as <-. right. reflexivity.
  - change (tail_ok (c :: d :: r)) with (word c && tail_ok (d :: r)). rewrite andb_true_iff, IH. split.
    + intros [Hc [H|(r' & E & H)]]; [left; constructor; auto|right; exists (c :: r'); rewrite E; split; [reflexivity|constructor; auto]].
    + intros [H|(r' & E & H)]; [split; [exact (Forall_inv H)|left; exact (Forall_inv_tail H)]|].
      destruct r' as [|x r']; cbn in E; [discriminate|]. injection E as <- E. split; [exact (Forall_inv H)|right; exists r'; split; [exact E|exact (Forall_inv_tail H)]].
Qed.
(** *** C24: which names are accepted *)
(** validate_name accepts the identifiers that are not reserved - and, because of how `$` matches,
    the same followed by one newline. *)
Theorem C24_names s : (exists t, validate_name [] s = Ok t) <->
  (identifier s \/ exists i, identifier i /\ s = i ++ [newline]) /\ ~ In s DEFAULT_RESERVED.
Proof.
  unfold validate_name. change (res_or []) with DEFAULT_RESERVED. assert (R : name_re s = true <-> (identifier s \/ exists i, identifier i /\ s = i ++ [newline])).
  { destruct s as [|c s]; cbn [name_re].
    - split; [discriminate|]. intros [(c & r & E & _)|(i & (c & r & -> & _) & E)]; discriminate.
    - rewrite andb_true_iff, tail_ok_spec. split.
      + intros [Hc [H|(r' & -> & H)]]; [left; exists c, s; auto|right; exists (c :: r'); split; [exists c, r'; auto|reflexivity]].
      + intros [(x & r & E & Hx & H)|(i & (x & r & -> & Hx & H) & E)]; cbn in E; injection E as <- ->; split; auto. right. eauto. }
  destruct (name_re s) eqn:E.
  - rewrite <- R. destruct (inl s DEFAULT_RESERVED) eqn:I.
    + apply inl_In in I. split; [intros [t H]; discriminate|tauto].
    + apply inl_nIn in I. split; [auto|eauto].
  - split; [intros [t H]; discriminate|]. intros [H _]. apply R in H. discriminate.
Qed.
Lemma field_valid f : valid_field f -> validate_name [] f = Ok f.
Proof. intros [H N]. destruct (proj2 (C24_names f)) as [t E]; [auto|]. apply validate_name_ok in E as X. destruct X as (-> & _). exact E. Qed.
Lemma axis_valid a : valid_axis a -> validate_axis_name [] a = Ok a.
Proof. intros (H & N & U). unfold validate_axis_name. rewrite field_valid by (split; auto). cbn [bind]. apply us_nIn in U. rewrite U. reflexivity. Qed.
Theorem C24_newline_refuted : validate_name [] (<<"u">> ++ [newline]) = Ok (<<"u">> ++ [newline]) /\ ~ identifier (<<"u">> ++ [newline]).
Proof.
  split; [reflexivity|]. intros (c & r & E & _ & H). injection E as <- <-. apply Forall_inv in H. discriminate.
Qed.
(** Every derivative of valid names has a key: field_axis...axis. *)
Theorem C24_build f a k : valid_field f -> valid_axis a -> 1 <= k -> build_key f a k = Ok (f ++ <<"_">> ++ written a k).
Proof. intros Hf Ha K. rewrite written_times. apply build_complete; [apply field_valid|apply axis_valid|]; assumption. Qed.
Theorem C24_build_order f a : build_key f a 0 = Err ValueError.
Proof.
  unfold build_key. destruct (validate_name [] f) eqn:E; cbn [bind]; [|apply validate_name_err in E as ->; reflexivity].
  destruct (validate_axis_name [] a) eqn:E2; cbn [bind]; [|apply validate_axis_err in E2 as ->]; reflexivity.
Qed.
(** Parsing with the list of axes: the key gives back exactly (field, axis, order) when the axis
    is the only listed one some repetition of which spells the suffix, and raises otherwise. *)
Theorem C24_roundtrip f a k key known : build_key f a k = Ok key -> known <> [] -> Forall valid_axis known ->
  ((exists l1 l2, known = l1 ++ a :: l2 /\ forall b j, In b (l1 ++ l2) -> written b j <> written a k) <-> parse_key known key = Ok (f, a, k)).
Proof.
  intros B Hk Hv. apply build_ok in B. destruct B as (-> & Vf & Va & K). pose proof (axis_nonempty _ _ _ Va) as Na. apply validate_axis_ok in Va as Va'. destruct Va' as (_ & _ & Ua).
  unfold parse_key. rewrite rsplit_key by exact Ua. rewrite Vf. cbn [bind].
  pose proof (times_nonempty a k Na K) as Nt. destruct (times a k) as [|c tok] eqn:Et; [congruence|]. destruct known as [|k0 kn] eqn:Ek; [congruence|]. rewrite <- Ek in *. clear Ek k0 kn Hk.
  assert (HA : all_axes known) by (eapply Forall_impl; [|exact Hv]; intros; apply axis_valid; assumption).
  rewrite scan_axes_ok by exact HA. cbn [bind]. rewrite <- Et in *.
  assert (T : forall b, In b known -> axis_test (times a k) b = true <-> exists j, times a k = times b j).
  { intros b Hb. apply axis_test_ok; [|rewrite Et; congruence]. eapply axis_nonempty. apply (proj1 (Forall_forall _ _) HA b Hb). }
  split.
  - intros (l1 & l2 & E & U). assert (F : filter (axis_test (times a k)) known = [a]).
    { apply filter_one. exists l1, l2. split; [exact E|]. split; [apply T; [rewrite E; apply in_app_iff; cbn; auto|eauto]|].
      intros b Hb. destruct (axis_test (times a k) b) eqn:Tb; [|reflexivity]. exfalso. apply T in Tb; [|rewrite E; apply in_app_iff in Hb; apply in_app_iff; cbn; tauto].
      destruct Tb as [j Ej]. apply (U b j Hb). rewrite !written_times. congruence. }
    rewrite F. cbn [map]. rewrite (axis_test_order (times a k) a k Na eq_refl). reflexivity.
  - intros H. destruct (filter (axis_test (times a k)) known) as [|b [|b' l]] eqn:F; cbn [map] in H; try discriminate. injection H as -> H.
    apply filter_one in F. destruct F as (l1 & l2 & E & Tb & U). exists l1, l2. split; [exact E|]. intros b' j Hb' W. rewrite !written_times in W.
    specialize (U b' Hb'). assert (X : axis_test (times a k) b' = true) by (apply T; [rewrite E; apply in_app_iff in Hb'; apply in_app_iff; cbn; tauto|eauto]). congruence.
Qed.
(** In particular whenever the axes begin with different letters (x, y, z, t ...). *)
Theorem C24_roundtrip_distinct_initials f a k known : valid_field f -> 1 <= k -> In a known -> Forall valid_axis known -> NoDup (map (hd 0) known) ->
  exists key, build_key f a k = Ok key /\ parse_key known key = Ok (f, a, k).
Proof.
  intros Hf K Ia Hv ND. assert (Ha : valid_axis a) by (apply (proj1 (Forall_forall _ _) Hv a Ia)). eexists. split; [apply C24_build; assumption|].
  apply (C24_roundtrip f a k _ known (C24_build f a k Hf Ha K)); [intros ->; exact Ia|exact Hv|].
  destruct (in_split _ _ Ia) as (l1 & l2 & ->). exists l1, l2. split; [reflexivity|]. intros b j Hb W. rewrite !written_times in W.
  rewrite map_app in ND. cbn [map] in ND. apply NoDup_remove_2 in ND. apply ND. rewrite <- map_app. apply in_map_iff. exists b. split; [|exact Hb].
  assert (Hb' : valid_axis b) by (apply (proj1 (Forall_forall _ _) Hv); apply in_app_iff in Hb; apply in_app_iff; cbn; tauto).
  assert (Nb : b <> []) by (destruct Hb' as ((c & r & -> & _) & _); discriminate). assert (Na : a <> []) by (destruct Ha as ((c & r & -> & _) & _); discriminate).
  assert (J : 1 <= j). { destruct j; [|lia]. cbn in W. exfalso. symmetry in W. exact (times_nonempty a k Na K W). }
  rewrite <- (times_hd b j 0 Nb J), W. apply times_hd; assumption.
Qed.
(** Without a list of axes: exact for one-letter axes. *)
Theorem C24_default f c k : valid_field f -> valid_axis [c] -> 1 <= k -> exists key, build_key f [c] k = Ok key /\ parse_key [] key = Ok (f, [c], k).
Proof.
  intros Hf Ha K. eexists. split; [apply C24_build; assumption|]. rewrite written_times. cbn [app]. unfold parse_key. destruct Ha as (I & N & U).
  change (lit "_" ++ times [c] k) with (underscore :: times [c] k). rewrite rsplit_key by exact U. rewrite (field_valid f Hf). cbn [bind].
  destruct k; [lia|]. change (times [c] (Datatypes.S k)) with (c :: times [c] k). cbn [List.length]. rewrite times_length. cbn [List.length]. rewrite Nat.mul_1_r.
  change (times [c] (Datatypes.S k)) with (c :: times [c] k). rewrite streq_refl. reflexivity.
Qed.
(** The other axes are misread or rejected, and two axes may share a key. *)
Theorem C24_multiletter_refuted :
  (exists key, build_key <<"u">> <<"xx">> 1 = Ok key /\ parse_key [] key = Ok (<<"u">>, <<"x">>, 2)) /\
  (exists key, build_key <<"u">> <<"xy">> 1 = Ok key /\ parse_key [] key = Err ValueError) /\
  (exists key, build_key <<"u">> <<"xx">> 1 = Ok key /\ build_key <<"u">> <<"x">> 2 = Ok key /\ parse_key [<<"x">>; <<"xx">>] key = Err ValueError).
Proof. repeat split; eexists; repeat split; reflexivity. Qed.
(** Different derivatives have different keys as soon as the axes have the same length or begin
    with different letters; in general the field and the spelled-out suffix are determined. *)
Theorem C24_injective f a k f' a' k' key : build_key f a k = Ok key -> build_key f' a' k' = Ok key ->
  f = f' /\ written a k = written a' k' /\ hd 0 a = hd 0 a' /\ (List.length a = List.length a' -> a = a' /\ k = k').
Proof.
  intros B B'. apply build_ok in B, B'. destruct B as (-> & Vf & Va & K), B' as (E & Vf' & Va' & K').
  pose proof (axis_nonempty _ _ _ Va) as Na. pose proof (axis_nonempty _ _ _ Va') as Na'. apply validate_axis_ok in Va, Va'.
  pose proof (rsplit_key f a k (proj2 (proj2 Va))) as R. rewrite E, (rsplit_key f' a' k' (proj2 (proj2 Va'))) in R. injection R as -> R.
  split; [reflexivity|]. rewrite !written_times. split; [auto|]. split; [rewrite <- (times_hd a k 0 Na K), <- (times_hd a' k' 0 Na' K'); congruence|].
  intros L. apply (times_len_inj a a' k k'); auto.
Qed.
(** What parses is a key: building it again gives the same string. *)
Theorem C24_parse_sound known key f a k : known <> [] -> parse_key known key = Ok (f, a, k) -> In a known /\ build_key f a k = Ok key.
Proof.
  intros Hk. unfold parse_key. destruct (rsplit key) as [[f' tok]|] eqn:R; [|discriminate]. apply rsplit_ok in R. destruct R as [-> U].
  destruct (validate_name [] f') as [x|] eqn:Vf; [|discriminate]. cbn [bind]. destruct tok as [|c tl] eqn:Et; [discriminate|]. rewrite <- Et in *.
  destruct known as [|k0 kn] eqn:Ek; [congruence|]. rewrite <- Ek in *. clear Ek k0 kn.
  destruct (all_axes_dec known) as [HA|HA]; [|rewrite scan_axes_err by exact HA; discriminate]. rewrite scan_axes_ok by exact HA. cbn [bind].
  destruct (filter _ known) as [|b [|b' l]] eqn:F; cbn [map]; try discriminate. intros [= <- <- <-].
  assert (X : In b (filter (axis_test tok) known)) by (rewrite F; left; reflexivity). apply filter_In in X. destruct X as [Ib Tb].
  assert (Vb : validate_axis_name [] b = Ok b) by (apply (proj1 (Forall_forall _ _) HA b Ib)). pose proof (axis_nonempty _ _ _ Vb) as Nb.
  apply axis_test_ok in Tb; [|exact Nb|rewrite Et; congruence]. destruct Tb as [j Ej]. split; [exact Ib|]. rewrite (axis_test_order tok b j Nb Ej).
  assert (J : 1 <= j) by (destruct j; [rewrite Ej in Et; discriminate|lia]). apply validate_name_ok in Vf as X. destruct X as (-> & _). rewrite Ej. apply build_complete; assumption.
Qed.
(** Without the list the axis need not even be a name. *)
Theorem C24_parse_sound_default_refuted : parse_key [] <<"u_1">> = Ok (<<"u">>, <<"1">>, 1) /\ build_key <<"u">> <<"1">> 1 = Err ValueError.
Proof. split; reflexivity. Qed.

(** Legacy keys (uxx).  [splits] : the key is the field followed by repetitions of the axis. *)
Definition splits (key f a : pystr) : Prop := exists k, 1 <= k /\ key = f ++ written a k.
Lemma splits_test key f a : a <> [] -> legacy_test key f a = true <-> splits key f a.
Proof. intros H. rewrite legacy_test_ok by exact H. unfold splits. split; intros (k & K & E); exists k; split; auto; rewrite written_times in *; auto. Qed.
Lemma normalize_unfold fields axes key : Forall valid_field fields -> Forall valid_axis axes -> ~ In underscore key ->
  normalize_legacy fields axes key =
  match List.concat (map (fun f => map (fun _ => match strip_prefix f key with Some r => f ++ underscore :: r | None => [] end) (filter (legacy_test key f) (sort_len axes))) fields) with
  | [] => Ok key | [k] => Ok k | _ => Err ValueError end.
Proof.
  intros Hf Ha U. unfold normalize_legacy. apply us_nIn in U. rewrite U.
  assert (HA : all_axes (sort_len axes)).
  { eapply Permutation_Forall; [symmetry; apply sort_len_perm|]. eapply Forall_impl; [|exact Ha]. intros a H. apply axis_valid, H. }
  assert (HF : Forall (fun f => validate_name [] f = Ok f) fields) by (eapply Forall_impl; [|exact Hf]; intros f H; apply field_valid, H).
  rewrite (mapM_all _ _ HA). cbn [bind]. rewrite (mapM_all _ _ HF). cbn [bind]. destruct (legacy_fields_ok key (sort_len axes) fields HF HA) as (l & -> & ->). reflexivity.
Qed.
(** A key that splits in no way is returned unchanged; one that splits in exactly one way becomes
    the canonical key; one with several splittings raises.  A key with an underscore is untouched. *)
Theorem C24_legacy fields axes key : NoDup fields -> NoDup axes -> Forall valid_field fields -> Forall valid_axis axes -> ~ In underscore key ->
  ((forall f a, In f fields -> In a axes -> ~ splits key f a) -> normalize_legacy fields axes key = Ok key) /\
  (forall f a k, In f fields -> In a axes -> 1 <= k -> key = f ++ written a k ->
     (forall f' a', In f' fields -> In a' axes -> splits key f' a' -> f' = f /\ a' = a) -> normalize_legacy fields axes key = build_key f a k) /\
  ((exists f a f' a', In f fields /\ In a axes /\ In f' fields /\ In a' axes /\ splits key f a /\ splits key f' a' /\ (f, a) <> (f', a')) -> normalize_legacy fields axes key = Err ValueError).
Proof.
  intros NF NA HF HA U. rewrite (normalize_unfold fields axes key HF HA U).
  set (axes' := sort_len axes). assert (PA : Permutation axes' axes) by apply sort_len_perm.
  assert (IA : forall a, In a axes' <-> In a axes) by (intros a; split; apply Permutation_in; [exact PA|symmetry; exact PA]).
  assert (NA' : NoDup axes') by (eapply Permutation_NoDup; [symmetry; exact PA|exact NA]).
  assert (NE : forall a, In a axes' -> a <> []).
  { intros a H. apply IA in H. apply (proj1 (Forall_forall _ _) HA) in H. destruct H as ((c & r & -> & _) & _). discriminate. }
  assert (T : forall f a, In a axes' -> legacy_test key f a = true <-> splits key f a) by (intros f a H; apply splits_test, NE, H).
  clearbody axes'. clear PA.
  set (one := fun f => map (fun _ : pystr => match strip_prefix f key with Some r => f ++ underscore :: r | None => [] end) (filter (legacy_test key f) axes')).
  assert (ONE0 : forall f, (forall a, In a axes' -> ~ splits key f a) -> one f = []).
  { intros f H. unfold one. destruct (filter (legacy_test key f) axes') as [|a l] eqn:E; [reflexivity|]. exfalso.
    assert (X : In a (filter (legacy_test key f) axes')) by (rewrite E; left; reflexivity). apply filter_In in X. destruct X as [X1 X2]. apply (H a X1). apply T; assumption. }
  assert (ONELEN : forall f, List.length (one f) = List.length (filter (legacy_test key f) axes')) by (intros; apply map_length).
  split; [|split].
  - intros H. assert (E : List.concat (map one fields) = []).
    { clear -H ONE0 IA. induction fields as [|f fields IH]; cbn; [reflexivity|]. rewrite ONE0; [|intros a Ha; apply H; [left; reflexivity|apply IA, Ha]]. cbn. apply IH. intros g a Hg. apply H. right. exact Hg. }
    rewrite E. reflexivity.
  - intros f a k Hf Ha K E Uq. apply IA in Ha as Ha'.
    assert (Of : one f = [f ++ underscore :: times a k]).
    { unfold one. replace (filter (legacy_test key f) axes') with [a].
      - cbn [map]. replace (strip_prefix f key) with (Some (times a k)); [reflexivity|]. symmetry. apply strip_prefix_ok. rewrite E, written_times. reflexivity.
      - symmetry. apply filter_one. destruct (in_split _ _ Ha') as (l1 & l2 & El). exists l1, l2. split; [exact El|]. split; [apply T; [exact Ha'|exists k; auto]|].
        intros b Hb. destruct (legacy_test key f b) eqn:Tb; [|reflexivity]. exfalso. assert (Ib : In b axes') by (rewrite El; apply in_app_iff in Hb; apply in_app_iff; cbn; tauto).
        apply T in Tb; [|exact Ib]. destruct (Uq f b Hf (proj1 (IA b) Ib) Tb) as [_ ->]. rewrite El in NA'. apply NoDup_remove_2 in NA'. contradiction. }
    assert (Og : forall g, In g fields -> g <> f -> one g = []).
    { intros g Hg N. apply ONE0. intros b Hb Sb. apply N. apply (Uq g b Hg (proj1 (IA b) Hb) Sb). }
    assert (C : List.concat (map one fields) = one f).
    { destruct (in_split _ _ Hf) as (l1 & l2 & El). rewrite El in *. rewrite map_app. cbn [map]. rewrite concat_app. cbn [List.concat].
      assert (Z : forall l, (forall g, In g l -> one g = []) -> List.concat (map one l) = []) by (clear; induction l as [|g l IH]; intros H; cbn; [reflexivity|]; rewrite H by (left; reflexivity); apply IH; intros; apply H; right; assumption).
      apply NoDup_remove_2 in NF. rewrite (Z l1), (Z l2); [rewrite app_nil_r; reflexivity| |]; intros g Hg; apply Og; [apply in_app_iff; cbn; auto|intros ->; apply NF, in_app_iff; auto|apply in_app_iff; auto|intros ->; apply NF, in_app_iff; auto]. }
    rewrite C, Of. symmetry. apply build_complete; [apply field_valid|apply axis_valid|exact K].
    + apply (proj1 (Forall_forall _ _) HF f Hf).
    + apply (proj1 (Forall_forall _ _) HA a Ha).
  - intros (f & a & f' & a' & Hf & Ha & Hf' & Ha' & S1 & S2 & N). apply IA in Ha, Ha'.
    assert (L : 2 <= List.length (List.concat (map one fields))).
    { assert (LEN : forall l g, In g l -> List.length (one g) <= List.length (List.concat (map one l))).
      { clear. induction l as [|h l IH]; intros g []; cbn; rewrite app_length; [subst; lia|]. specialize (IH g H). lia. }
      destruct (list_eq_dec Nat.eq_dec f f') as [->|D].
      - assert (Na : a <> a') by congruence. specialize (LEN fields f' Hf). rewrite ONELEN in LEN.
        assert (X : incl [a; a'] (filter (legacy_test key f') axes')) by (intros z [<-|[<-|[]]]; apply filter_In; split; auto; apply T; auto).
        apply NoDup_incl_length in X; [cbn in X; lia|]. constructor; [intros [H|[]]; congruence|]. constructor; [intros []|constructor].
      - destruct (in_split _ _ Hf) as (l1 & l2 & El). rewrite El in *. rewrite map_app, concat_app, app_length. cbn [map List.concat]. rewrite app_length.
        assert (O1 : 1 <= List.length (one f)) by (rewrite ONELEN; destruct (filter (legacy_test key f) axes') as [|z zs] eqn:E; [|cbn; lia]; assert (X : In a (filter (legacy_test key f) axes')) by (apply filter_In; split; auto; apply T; auto); rewrite E in X; destruct X).
        assert (O2 : 1 <= List.length (one f')) by (rewrite ONELEN; destruct (filter (legacy_test key f') axes') as [|z zs] eqn:E; [|cbn; lia]; assert (X : In a' (filter (legacy_test key f') axes')) by (apply filter_In; split; auto; apply T; auto); rewrite E in X; destruct X).
        apply in_app_iff in Hf'. destruct Hf' as [Hf'|[Hf'|Hf']]; [specialize (LEN l1 f' Hf'); lia|congruence|specialize (LEN l2 f' Hf'); lia]. }
    destruct (List.concat (map one fields)) as [|x [|y l]]; cbn in L; try lia. reflexivity.
Qed.
Theorem C24_legacy_underscore fields axes key : In underscore key -> normalize_legacy fields axes key = Ok key.
Proof. intros H. unfold normalize_legacy. apply us_In in H. rewrite H. reflexivity. Qed.
(** A key that is itself the name of a field is converted all the same; and two splittings with
    the same canonical key count as ambiguous. *)
Theorem C24_legacy_field_refuted : normalize_legacy [<<"u">>; <<"ux">>] [<<"x">>] <<"ux">> = Ok <<"u_x">> /\
  normalize_legacy [<<"u">>] [<<"x">>; <<"xx">>] <<"uxx">> = Err ValueError.
Proof. split; reflexivity. Qed.

(** *** C56: resolved field names never collide *)
Lemma resolve_loop_ok reserved prefix : forall fields used r, resolve_loop reserved prefix used fields = Ok r ->
  map fst r = fields /\ NoDup (map snd r) /\ (forall c, In c (map snd r) -> ~ In c used /\ validate_name reserved c = Ok c).
Proof.
  induction fields as [|f fields IH]; intros used r; cbn [resolve_loop].
  - intros [= <-]. cbn. repeat split; try constructor; destruct H.
  - destruct (validate_name reserved f) as [x|] eqn:Vf; [|discriminate]. cbn [bind].
    destruct (next_free used _ _ 1 _) as [c|] eqn:Nf; [|discriminate]. cbn [bind].
    destruct (validate_name reserved c) as [y|] eqn:Vc; [|discriminate]. cbn [bind].
    destruct (resolve_loop reserved prefix (c :: used) fields) as [rest|] eqn:R; [|discriminate]. cbn [bind]. intros [= <-].
    destruct (IH _ _ R) as (E & N & D). apply validate_name_ok in Vc as Vc'. destruct Vc' as (-> & _).
    assert (Fc : ~ In c used).
    { clear -Nf. revert Nf. generalize (if inl f used then prefix ++ f else f). generalize 1. generalize (Datatypes.S (List.length used)).
      intros fuel. induction fuel as [|fuel IH]; intros k cand; cbn [next_free]; destruct (inl cand used) eqn:E; try discriminate; try (intros [= <-]; apply inl_nIn, E). apply IH. }
    cbn [map fst snd]. split; [congruence|]. split.
    + constructor; [|exact N]. intros X. destruct (D c X) as [Y _]. apply Y. left. reflexivity.
    + intros d [<-|Hd]; [split; assumption|]. destruct (D d Hd) as [Y Z]. split; [intros W; apply Y; right; exact W|exact Z].
Qed.
Theorem C56_no_collisions reserved prefix fields coords r : resolve_conflicts reserved prefix fields coords = Ok r ->
  map fst r = fields /\ NoDup (map snd r ++ coords) /\
  (forall c, In c (map snd r) -> name_re c = true /\ ~ In c (res_or reserved)).
Proof.
  unfold resolve_conflicts. destruct (distinctb fields) eqn:Df; [|discriminate]. cbn [negb].
  destruct (mapM (validate_axis_name (res_or reserved)) coords) eqn:Vc; [|discriminate]. cbn [bind]. destruct (distinctb coords) eqn:Dc; [|discriminate]. cbn [negb].
  destruct (existsb _ coords); [discriminate|]. intros H. apply resolve_loop_ok in H. destruct H as (E & N & D). split; [exact E|]. apply distinctb_NoDup in Dc. split.
  - clear -N D Dc. revert N D. generalize (map snd r). induction l as [|c l IH]; intros N D; cbn; [exact Dc|]. inversion N; subst. constructor.
    + rewrite in_app_iff. intros [X|X]; [contradiction|]. destruct (D c) as [Y _]; [left; reflexivity|]. apply Y, in_app_iff. auto.
    + apply IH; [assumption|]. intros d Hd. apply D. right. exact Hd.
  - intros c Hc. destruct (D c Hc) as [Y Z]. apply validate_name_ok in Z. split; [tauto|]. intros W. apply Y, in_app_iff. auto.
Qed.
(** A field whose name is neither a coordinate nor taken by an earlier field keeps it. *)
Lemma resolve_loop_keeps reserved prefix : forall fields used r, resolve_loop reserved prefix used fields = Ok r ->
  forall l1 f c l2, r = l1 ++ (f, c) :: l2 -> ~ In f used -> ~ In f (map snd l1) -> c = f.
Proof.
  induction fields as [|f fields IH]; intros used r; cbn [resolve_loop].
  - intros [= <-] [|] *; discriminate.
  - destruct (validate_name reserved f) as [x|] eqn:Vf; [|discriminate]. cbn [bind].
    destruct (next_free used _ _ 1 _) as [c|] eqn:Nf; [|discriminate]. cbn [bind].
    destruct (validate_name reserved c) as [y|] eqn:Vc; [|discriminate]. cbn [bind].
    destruct (resolve_loop reserved prefix (c :: used) fields) as [rest|] eqn:R; [|discriminate]. cbn [bind]. intros [= <-] l1 g d l2 E Hu Hl.
    destruct l1 as [|p l1]; cbn in E.
    + injection E as <- <- <-. apply inl_nIn in Hu. rewrite Hu in Nf. cbn [next_free] in Nf. rewrite Hu in Nf. congruence.
    + injection E as <- E. eapply IH; [exact R|exact E| |].
      * intros [->|X]; [|contradiction]. apply Hl. left. reflexivity.
      * intros X. apply Hl. right. exact X.
Qed.
Theorem C56_keeps_free_names reserved prefix fields coords l1 f c l2 : resolve_conflicts reserved prefix fields coords = Ok (l1 ++ (f, c) :: l2) ->
  ~ In f coords -> ~ In f (map snd l1) -> c = f.
Proof.
  unfold resolve_conflicts. destruct (distinctb fields) eqn:Df; [|discriminate]. cbn [negb].
  destruct (mapM (validate_axis_name (res_or reserved)) coords) eqn:Vc; [|discriminate]. cbn [bind]. destruct (distinctb coords) eqn:Dc; [|discriminate]. cbn [negb].
  destruct (existsb _ coords); [discriminate|]. intros H Hc Hl. eapply resolve_loop_keeps; [exact H|reflexivity| |exact Hl].
  rewrite in_app_iff. intros [X|X]; [contradiction|].
  assert (W : validate_name (res_or reserved) f = Ok f).
  { clear -H. revert H. generalize (coords ++ res_or reserved). revert l1. induction fields as [|g fields IH]; intros l1 used; cbn [resolve_loop]; [destruct l1; discriminate|].
    destruct (validate_name (res_or reserved) g) as [x|] eqn:Vf; [|discriminate]. cbn [bind].
    destruct (next_free used _ _ 1 _) as [d|]; [|discriminate]. cbn [bind]. destruct (validate_name (res_or reserved) d) as [y|]; [|discriminate]. cbn [bind].
    destruct (resolve_loop _ prefix (d :: used) fields) as [rest|] eqn:R; [|discriminate]. cbn [bind]. intros E. destruct l1 as [|p l1]; cbn in E.
    - injection E as -> -> ->. apply validate_name_ok in Vf as X. destruct X as (-> & _). exact Vf.
    - injection E as _ E. subst rest. eapply IH. exact R. }
  apply validate_name_ok in W. destruct W as (_ & _ & W). apply W. replace (res_or (res_or reserved)) with (res_or reserved); [exact X|]. destruct reserved; reflexivity.
Qed.
(** It always succeeds (the search for a free name ends): distinct identifiers as fields, distinct
    identifiers without underscore as coordinates, none of them reserved, and an identifier as
    prefix. *)
Lemma identifier_re s : identifier s -> name_re s = true.
Proof. intros (c & r & -> & Hc & Hr). cbn [name_re]. rewrite Hc. cbn. apply tail_ok_spec. left. exact Hr. Qed.
Lemma identifier_app p s : identifier p -> Forall (fun x => word x = true) s -> identifier (p ++ s).
Proof. intros (c & r & -> & Hc & Hr) Hs. exists c, (r ++ s). split; [reflexivity|]. split; [exact Hc|]. apply Forall_app. auto. Qed.
Lemma identifier_word s : identifier s -> Forall (fun x => word x = true) s.
Proof. intros (c & r & -> & Hc & Hr). constructor; [unfold word; rewrite Hc; reflexivity|exact Hr]. Qed.
Lemma validate_custom reserved s : identifier s -> ~ In s (res_or reserved) -> validate_name reserved s = Ok s.
Proof. intros H N. unfold validate_name. rewrite (identifier_re s H). apply inl_nIn in N. rewrite N. reflexivity. Qed.
Theorem C56_total reserved prefix fields coords : identifier prefix -> NoDup fields -> NoDup coords ->
  Forall (fun f => identifier f /\ ~ In f (res_or reserved)) fields ->
  Forall (fun c => identifier c /\ ~ In c (res_or reserved) /\ ~ In underscore c) coords ->
  exists r, resolve_conflicts reserved prefix fields coords = Ok r.
Proof.
  intros Hp Nf Nc Hf Hc. unfold resolve_conflicts. apply distinctb_NoDup in Nf, Nc. rewrite Nf. cbn [negb].
  assert (RR : res_or (res_or reserved) = res_or reserved) by (destruct reserved; reflexivity).
  rewrite (mapM_all (validate_axis_name (res_or reserved)) coords).
  2: { eapply Forall_impl; [|exact Hc]. intros c (H1 & H2 & H3). unfold validate_axis_name. rewrite validate_custom by (try rewrite RR; assumption). cbn [bind]. apply us_nIn in H3. rewrite H3. reflexivity. }
  cbn [bind]. rewrite Nc. cbn [negb].
  replace (existsb (fun c => inl c (res_or reserved)) coords) with false.
  2: { symmetry. apply not_true_iff_false. intros X. apply existsb_exists in X. destruct X as (c & Ic & X). apply inl_In in X. apply (proj1 (Forall_forall _ _) Hc) in Ic. tauto. }
  assert (INC : incl (res_or reserved) (coords ++ res_or reserved)) by (intros z Hz; apply in_app_iff; auto).
  revert INC. generalize (coords ++ res_or reserved). clear Nc Hc Nf coords. induction fields as [|f fields IH]; intros used INC; cbn [resolve_loop]; [eauto|].
  destruct (Forall_inv Hf) as [If Rf]. rewrite (validate_custom (res_or reserved) f If) by (rewrite RR; exact Rf). cbn [bind].
  assert (Np : 1 <= List.length prefix) by (destruct Hp as (c & r & -> & _); cbn; lia).
  set (cand := if inl f used then prefix ++ f else f).
  destruct (next_free_ok used (prefix ++ f) (Datatypes.S (List.length used)) 1 cand) with (seen := @nil pystr) as (c & Ec & Fc & Dc).
  - intros j Hj E. apply (f_equal (@List.length nat)) in E. rewrite app_length in E. cbn in E. subst cand. destruct (inl f used); rewrite ?app_length in E; lia.
  - constructor.
  - intros z [].
  - intros j _ [].
  - intros [].
  - cbn. lia.
  - rewrite Ec. cbn [bind].
    assert (Ic : identifier c).
    { destruct Dc as [->|(j & _ & ->)].
      - subst cand. destruct (inl f used); [apply identifier_app; [exact Hp|apply identifier_word; exact If]|exact If].
      - apply identifier_app; [apply identifier_app; [exact Hp|apply identifier_word; exact If]|]. constructor; [reflexivity|].
        eapply Forall_impl; [|apply str_nat_digits]. intros x Hx. unfold word. rewrite Hx. apply orb_true_iff. left. apply orb_true_r. }
    rewrite (validate_custom (res_or reserved) c Ic) by (rewrite RR; intros X; apply Fc, INC, X). cbn [bind].
    destruct (IH (Forall_inv_tail Hf) (c :: used)) as (r & Er); [intros z Hz; right; apply INC, Hz|]. rewrite Er. cbn [bind]. eauto.
Qed.
(** Limits.  A reserved field name is rejected rather than renamed; a field may lose a name that
    conflicts with nothing in the input, because an earlier field took it; and a name ending in a
    newline can make the numbered candidate invalid. *)
Theorem C56_reserved_refuted : resolve_conflicts [] <<"f_">> [<<"d">>] [<<"x">>] = Err ValueError.
Proof. reflexivity. Qed.
Theorem C56_renamed_bystander_refuted : resolve_conflicts [] <<"f_">> [<<"x">>; <<"f_x">>] [<<"x">>] = Ok [(<<"x">>, <<"f_x">>); (<<"f_x">>, <<"f_f_x">>)].
Proof. reflexivity. Qed.
Example C24_example : build_key <<"u_1">> <<"x">> 3 = Ok <<"u_1_xxx">> /\ parse_key [<<"t">>; <<"x">>; <<"xy">>] <<"u_1_xxx">> = Ok (<<"u_1">>, <<"x">>, 3) /\
  normalize_legacy [<<"u">>; <<"v">>] [<<"x">>; <<"t">>] <<"vtt">> = Ok <<"v_tt">>.
Proof. repeat split; reflexivity. Qed.
Example C24_valid_example : valid_field <<"u_1">> /\ valid_axis <<"x">> /\ valid_axis <<"xy">>.
Proof.
  assert (I : forall s, name_re s = true -> ~ In newline s -> identifier s).
  { intros [|c s]; [discriminate|]. cbn [name_re]. rewrite andb_true_iff, tail_ok_spec. intros [H [X|(r & -> & X)]] N; [exists c, s; auto|]. exfalso. apply N. right. apply in_app_iff. right. left. reflexivity. }
  assert (NR : forall s, inl s DEFAULT_RESERVED = false -> ~ In s DEFAULT_RESERVED) by (intros s H; apply inl_nIn, H).
  repeat split; try (apply I; [reflexivity|intros H; cbn in H; intuition discriminate]); try (apply NR; reflexivity); intros H; cbn in H; intuition discriminate.
Qed.
Example C56_example : resolve_conflicts [] <<"f_">> [<<"u">>; <<"t">>; <<"f_t_1">>; <<"f_t">>] [<<"x">>; <<"t">>] =
  Ok [(<<"u">>, <<"u">>); (<<"t">>, <<"f_t">>); (<<"f_t_1">>, <<"f_t_1">>); (<<"f_t">>, <<"f_f_t">>)].
Proof. reflexivity. Qed.
Print Assumptions C24_names.
Print Assumptions C24_newline_refuted.
Print Assumptions C24_build.
Print Assumptions C24_build_order.
Print Assumptions C24_roundtrip.
Print Assumptions C24_roundtrip_distinct_initials.
Print Assumptions C24_default.
Print Assumptions C24_multiletter_refuted.
Print Assumptions C24_injective.
Print Assumptions C24_parse_sound.
Print Assumptions C24_parse_sound_default_refuted.
Print Assumptions C24_legacy.
Print Assumptions C24_legacy_underscore.
Print Assumptions C24_legacy_field_refuted.
Print Assumptions C56_no_collisions.
Print Assumptions C56_keeps_free_names.
Print Assumptions C56_total.
Print Assumptions C56_reserved_refuted.
Print Assumptions C56_renamed_bystander_refuted.
