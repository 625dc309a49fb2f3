(** Facts about SgaNaming.v. *)
From Coq Require Import Decimal DecimalNat Permutation.
From Verif Require Import Base SgaNaming.
Local Open Scope nat_scope.

Lemma streq_eq : forall a b, streq a b = true <-> a = b.
Proof.
  induction a as [|x a IH]; intros [|y b]; cbn; try (split; congruence). rewrite andb_true_iff, Nat.eqb_eq, IH. split; [intros [-> ->]; reflexivity|intros [= -> ->]; auto].
Qed.
Lemma streq_refl a : streq a a = true. Proof. apply streq_eq. reflexivity. Qed.
Lemma streq_ne a b : streq a b = false <-> a <> b.
Proof. rewrite <- streq_eq. destruct (streq a b); split; congruence. Qed.
Lemma inl_In s l : inl s l = true <-> In s l.
Proof.
  unfold inl. rewrite existsb_exists. split; [intros (x & H & E); apply streq_eq in E; subst; exact H|intros H; exists s; split; [exact H|apply streq_refl]].
Qed.
Lemma inl_nIn s l : inl s l = false <-> ~ In s l.
Proof. rewrite <- inl_In. destruct (inl s l); split; congruence. Qed.
Lemma distinctb_NoDup l : distinctb l = true <-> NoDup l.
Proof.
  induction l as [|s l IH]; cbn; [split; constructor|]. rewrite andb_true_iff, negb_true_iff, inl_nIn, IH. split; [intros [A B]; constructor; auto|intros H; inversion H; auto].
Qed.
Lemma us_In s : existsb (Nat.eqb underscore) s = true <-> In underscore s.
Proof. apply existsb_eqb_In. Qed.
Lemma us_nIn s : existsb (Nat.eqb underscore) s = false <-> ~ In underscore s.
Proof. rewrite <- us_In. destruct (existsb _ s); split; congruence. Qed.

Lemma validate_name_ok r s t : validate_name r s = Ok t -> t = s /\ name_re s = true /\ ~ In s (res_or r).
Proof. unfold validate_name. destruct (name_re s) eqn:E; [|discriminate]. destruct (inl s (res_or r)) eqn:I; [discriminate|]. intros [= <-]. apply inl_nIn in I. auto. Qed.
Lemma validate_name_err r s e : validate_name r s = Err e -> e = ValueError.
Proof. unfold validate_name. destruct (name_re s); [destruct (inl s _)|]; congruence. Qed.
Lemma validate_axis_ok r s t : validate_axis_name r s = Ok t -> t = s /\ validate_name r s = Ok s /\ ~ In underscore s.
Proof.
  unfold validate_axis_name. destruct (validate_name r s) eqn:E; [|discriminate]. cbn [bind]. destruct (existsb _ s) eqn:U; [discriminate|]. intros [= <-].
  apply validate_name_ok in E as E'. destruct E' as (-> & _). apply us_nIn in U. auto.
Qed.
Lemma validate_axis_err r s e : validate_axis_name r s = Err e -> e = ValueError.
Proof. unfold validate_axis_name. destruct (validate_name r s) eqn:E; cbn [bind]; [destruct (existsb _ s); congruence|]. intros [= <-]. eapply validate_name_err, E. Qed.
Lemma name_re_nonempty s : name_re s = true -> s <> []. Proof. destruct s; cbn; congruence. Qed.
Lemma valid_nonempty r s t : validate_name r s = Ok t -> s <> [].
Proof. intros H. apply validate_name_ok in H. apply name_re_nonempty. tauto. Qed.
Lemma axis_nonempty r s t : validate_axis_name r s = Ok t -> s <> [].
Proof. intros H. apply validate_axis_ok in H as (_ & H & _). eapply valid_nonempty, H. Qed.

(** ** times *)
Lemma times_length s k : List.length (times s k) = k * List.length s.
Proof. unfold times. induction k; cbn; [reflexivity|]. rewrite app_length, IHk. reflexivity. Qed.
Lemma times_In c s k : In c (times s k) -> In c s.
Proof. unfold times. induction k; cbn; [tauto|]. rewrite in_app_iff. tauto. Qed.
Lemma times_nonempty s k : s <> [] -> 1 <= k -> times s k <> [].
Proof. intros H K E. apply (f_equal (@List.length nat)) in E. rewrite times_length in E. cbn in E. destruct s; [congruence|]. cbn in E. destruct k; [lia|]. cbn in E. lia. Qed.
Lemma times_inj s j k : s <> [] -> times s j = times s k -> j = k.
Proof. intros H E. apply (f_equal (@List.length nat)) in E. rewrite !times_length in E. destruct s; [congruence|]. cbn in E. nia. Qed.
Lemma times_len_inj a b j k : List.length a = List.length b -> a <> [] -> times a j = times b k -> 1 <= k -> a = b /\ j = k.
Proof.
  intros L H E K. assert (j = k).
  { apply (f_equal (@List.length nat)) in E. rewrite !times_length, <- L in E. destruct a; [congruence|]. cbn in E. nia. }
  subst j. split; [|reflexivity]. destruct k; [lia|]. unfold times in E. cbn [repeat List.concat] in E.
  pose proof (f_equal (firstn (List.length a)) E) as F. rewrite firstn_app, Nat.sub_diag, firstn_O, app_nil_r, firstn_all in F.
  rewrite L, firstn_app, Nat.sub_diag, firstn_O, app_nil_r, firstn_all in F. exact F.
Qed.
Lemma times_hd a k d : a <> [] -> 1 <= k -> hd d (times a k) = hd d a.
Proof. intros H K. destruct k; [lia|]. destruct a; [congruence|]. reflexivity. Qed.

(** ** rsplit *)
Lemma rsplit_none s : rsplit s = None <-> ~ In underscore s.
Proof.
  induction s as [|c s IH]; cbn; [tauto|]. destruct (rsplit s) as [[a b]|] eqn:E.
  - split; [discriminate|]. intros H. exfalso. assert (X : ~ In underscore s) by tauto. apply IH in X. discriminate.
  - destruct (Nat.eqb_spec c underscore); [split; [discriminate|tauto]|]. split; [intros _ [H|H]; [congruence|]|]; [apply IH in H; auto|reflexivity].
Qed.
Lemma rsplit_ok s a b : rsplit s = Some (a, b) <-> s = a ++ underscore :: b /\ ~ In underscore b.
Proof.
  revert a b. induction s as [|c s IH]; intros a b; cbn; [split; [discriminate|intros [H _]; destruct a; discriminate]|].
  destruct (rsplit s) as [[a' b']|] eqn:E.
  - destruct (proj1 (IH a' b') eq_refl) as [-> Nb]. split.
    + intros [= <- <-]. auto.
    + intros [H Hb]. destruct a as [|c' a]; cbn in H; injection H as -> H.
      * exfalso. apply Hb. rewrite <- H. apply in_app_iff. right. left. reflexivity.
      * pose proof (proj2 (IH a b) (conj H Hb)) as X. injection X as -> ->. reflexivity.
  - apply rsplit_none in E. split.
    + destruct (Nat.eqb_spec c underscore) as [->|]; [|discriminate]. intros [= <- <-]. auto.
    + intros [H Hb]. destruct a as [|c' a]; cbn in H; injection H as -> H; [rewrite Nat.eqb_refl; congruence|].
      exfalso. apply E. rewrite H. apply in_app_iff. right. left. reflexivity.
Qed.

(** ** the axis test *)
Definition axis_test (tok a : pystr) : bool :=
  Nat.eqb (List.length tok mod List.length a) 0 && Nat.leb 1 (List.length tok / List.length a) && streq tok (times a (List.length tok / List.length a)).
Lemma axis_test_ok tok a : a <> [] -> tok <> [] -> axis_test tok a = true <-> exists k, tok = times a k.
Proof.
  intros Ha Ht. assert (La : List.length a <> 0) by (destruct a; cbn; congruence). unfold axis_test. rewrite !andb_true_iff, Nat.eqb_eq, Nat.leb_le, streq_eq. split.
  - intros (_ & E). eauto.
  - intros (k & ->). rewrite times_length, Nat.div_mul, Nat.mod_mul by exact La. repeat split; auto. destruct k; [|lia]. exfalso. apply Ht. reflexivity.
Qed.
Lemma axis_test_order tok a k : a <> [] -> tok = times a k -> List.length tok / List.length a = k.
Proof. intros Ha ->. rewrite times_length. apply Nat.div_mul. destruct a; cbn; congruence. Qed.
Definition all_axes (axes : list pystr) : Prop := Forall (fun a => validate_axis_name [] a = Ok a) axes.
Lemma scan_axes_ok tok axes : all_axes axes -> scan_axes tok axes = Ok (map (fun a => (a, List.length tok / List.length a)) (filter (axis_test tok) axes)).
Proof.
  induction axes as [|a axes IH]; intros H; cbn; [reflexivity|]. rewrite (Forall_inv H). cbn [bind]. rewrite IH by exact (Forall_inv_tail H). cbn [bind].
  unfold axis_test. destruct (Nat.eqb (List.length tok mod List.length a) 0); cbn [negb andb]; [|reflexivity].
  destruct (_ && _); reflexivity.
Qed.
Lemma scan_axes_err tok axes : ~ all_axes axes -> scan_axes tok axes = Err ValueError.
Proof.
  induction axes as [|a axes IH]; intros H; cbn; [exfalso; apply H; constructor|].
  destruct (validate_axis_name [] a) as [b|e] eqn:E; cbn [bind]; [|apply validate_axis_err in E as ->; reflexivity].
  rewrite IH; [reflexivity|]. intros A. apply H. constructor; [|exact A]. apply validate_axis_ok in E as E'. destruct E' as (-> & _). exact E.
Qed.
Lemma all_axes_dec axes : all_axes axes \/ ~ all_axes axes.
Proof.
  induction axes as [|a axes IH]; [left; constructor|].
  destruct (validate_axis_name [] a) as [b|e] eqn:E.
  - apply validate_axis_ok in E as E'. destruct E' as (-> & _). destruct IH as [IH|IH]; [left; constructor; auto|right; intros H; apply IH; exact (Forall_inv_tail H)].
  - right. intros H. pose proof (Forall_inv H) as X. cbn in X. congruence.
Qed.
Lemma filter_one {A} (f : A -> bool) l x : filter f l = [x] <-> exists l1 l2, l = l1 ++ x :: l2 /\ f x = true /\ forall y, In y (l1 ++ l2) -> f y = false.
Proof.
  split.
  - induction l as [|y l IH]; cbn; [discriminate|]. destruct (f y) eqn:E.
    + intros [= -> H]. exists [], l. split; [reflexivity|]. split; [exact E|]. intros z Hz. cbn in Hz. destruct (f z) eqn:Z; [|reflexivity].
      assert (X : In z (filter f l)) by (apply filter_In; auto). rewrite H in X. destruct X.
    + intros H. destruct (IH H) as (l1 & l2 & -> & Hx & Hy). exists (y :: l1), l2. split; [reflexivity|]. split; [exact Hx|]. intros z [<-|Hz]; auto.
  - intros (l1 & l2 & -> & Hx & Hy). rewrite filter_app. cbn. rewrite Hx.
    assert (E : forall l, (forall y, In y l -> f y = false) -> filter f l = []).
    { clear. induction l as [|y l IH]; intros H; cbn; [reflexivity|]. rewrite (H y (or_introl eq_refl)). apply IH. intros z Hz. apply H. right. exact Hz. }
    rewrite (E l1), (E l2); [reflexivity| |]; intros y Hin; apply Hy; apply in_app_iff; auto.
Qed.

Lemma build_ok f a k key : build_key f a k = Ok key -> key = f ++ underscore :: times a k /\ validate_name [] f = Ok f /\ validate_axis_name [] a = Ok a /\ 1 <= k.
Proof.
  unfold build_key. destruct (validate_name [] f) as [f'|] eqn:E; [|discriminate]. destruct (validate_axis_name [] a) as [a'|] eqn:E2; [|discriminate]. cbn [bind].
  destruct (Nat.ltb_spec k 1); [discriminate|]. intros [= <-]. apply validate_name_ok in E as X. destruct X as (-> & _). apply validate_axis_ok in E2 as X. destruct X as (-> & _). auto.
Qed.
Lemma build_complete f a k : validate_name [] f = Ok f -> validate_axis_name [] a = Ok a -> 1 <= k -> build_key f a k = Ok (f ++ underscore :: times a k).
Proof. intros H1 H2 H3. unfold build_key. rewrite H1, H2. cbn [bind]. destruct (Nat.ltb_spec k 1); [lia|]. reflexivity. Qed.
Lemma rsplit_key f a k : ~ In underscore a -> rsplit (f ++ underscore :: times a k) = Some (f, times a k).
Proof. intros H. apply rsplit_ok. split; [reflexivity|]. intros X. apply H. eapply times_In, X. Qed.

(** ** sort_len is a permutation *)
Lemma insert_len_perm s l : Permutation (insert_len s l) (s :: l).
Proof. induction l as [|t l IH]; cbn; [reflexivity|]. destruct (Nat.leb _ _); [reflexivity|]. rewrite IH. apply perm_swap. Qed.
Lemma sort_len_perm l : Permutation (sort_len l) l.
Proof. induction l as [|s l IH]; cbn; [reflexivity|]. rewrite insert_len_perm. constructor. exact IH. Qed.

(** ** legacy keys *)
Lemma strip_prefix_ok p s r : strip_prefix p s = Some r <-> s = p ++ r.
Proof.
  revert s. induction p as [|x p IH]; intros s; cbn; [split; congruence|]. destruct s as [|y s]; [split; discriminate|].
  destruct (Nat.eqb_spec x y) as [->|N]; [rewrite IH; split; congruence|]. split; [discriminate|]. intros [= <- ?]. congruence.
Qed.
Definition legacy_test (key f a : pystr) : bool :=
  match strip_prefix f key with Some (c :: r) => axis_test (c :: r) a | _ => false end.
Lemma legacy_axes_ok f c rem axes : validate_name [] f = Ok f -> all_axes axes ->
  legacy_axes f (c :: rem) axes = Ok (map (fun _ => f ++ underscore :: c :: rem) (filter (axis_test (c :: rem)) axes)).
Proof.
  intros Hf. induction axes as [|a axes IH]; intros H; [reflexivity|]. cbn [legacy_axes filter].
  specialize (IH (Forall_inv_tail H)). rewrite IH. pose proof (Forall_inv H) as Ha. cbn in Ha. clear IH.
  unfold axis_test at 2. destruct (Nat.eqb (List.length (c :: rem) mod List.length a) 0); cbn [negb andb bind app]; [|reflexivity].
  destruct (Nat.leb 1 _) eqn:Eo; cbn [andb bind app]; [|reflexivity].
  destruct (streq (c :: rem) _) eqn:Es; cbn [bind app]; [|reflexivity].
  rewrite (build_complete f a _ Hf Ha) by (apply Nat.leb_le; exact Eo). cbn [bind app]. apply streq_eq in Es. rewrite <- Es. reflexivity.
Qed.
Lemma legacy_fields_ok key axes fields : Forall (fun f => validate_name [] f = Ok f) fields -> all_axes axes ->
  exists l, legacy_fields key axes fields = Ok (List.concat l) /\
  l = map (fun f => map (fun _ => match strip_prefix f key with Some r => f ++ underscore :: r | None => [] end) (filter (legacy_test key f) axes)) fields.
Proof.
  intros Hf Ha. induction fields as [|f fields IH]; cbn; [exists []; auto|]. destruct (IH (Forall_inv_tail Hf)) as (l & E & El). rewrite E. subst l.
  eexists. split; [|reflexivity]. pose proof (Forall_inv Hf) as Hv. cbn in Hv.
  assert (Z : forall l, (forall y, In y l -> legacy_test key f y = false) -> filter (legacy_test key f) l = []).
  { clear. induction l as [|y l IH]; intros H; cbn; [reflexivity|]. rewrite (H y (or_introl eq_refl)). apply IH. intros z Hz. apply H. right. exact Hz. }
  destruct (strip_prefix f key) as [[|c r]|] eqn:Es; cbn [bind app].
  - rewrite Z by (intros; unfold legacy_test; rewrite Es; reflexivity). reflexivity.
  - rewrite (legacy_axes_ok f c r axes Hv Ha). cbn [bind List.concat]. f_equal. f_equal. f_equal. apply filter_ext. intros a. unfold legacy_test. rewrite Es. reflexivity.
  - rewrite Z by (intros; unfold legacy_test; rewrite Es; reflexivity). reflexivity.
Qed.
Lemma legacy_test_ok key f a : a <> [] -> legacy_test key f a = true <-> exists k, 1 <= k /\ key = f ++ times a k.
Proof.
  intros Ha. unfold legacy_test. destruct (strip_prefix f key) as [[|c r]|] eqn:E.
  - apply strip_prefix_ok in E. rewrite app_nil_r in E. split; [discriminate|]. intros (k & K & E2). exfalso. subst f.
    apply (times_nonempty a k Ha K). destruct (times a k); [reflexivity|]. apply (f_equal (@List.length nat)) in E2. rewrite app_length in E2. cbn in E2. lia.
  - apply strip_prefix_ok in E. rewrite axis_test_ok by congruence. split; intros (k & H).
    + exists k. subst key. rewrite H. split; [destruct k; [discriminate|lia]|reflexivity].
    + exists k. destruct H as [_ H]. subst key. apply app_inv_head in H. exact H.
  - split; [discriminate|]. intros (k & K & E2). apply strip_prefix_ok in E2. congruence.
Qed.
Lemma mapM_ok {A B} (f : A -> res B) l ys : mapM f l = Ok ys -> Forall2 (fun x y => f x = Ok y) l ys.
Proof. revert ys. induction l as [|x l IH]; intros ys; cbn; [intros [= <-]; constructor|]. destruct (f x) eqn:E; [|discriminate]. destruct (mapM f l); [|discriminate]. cbn. intros [= <-]. constructor; auto. Qed.
Lemma mapM_valid r l ys : mapM (validate_name r) l = Ok ys -> Forall (fun s => validate_name r s = Ok s) l.
Proof. intros H. apply mapM_ok in H. induction H; constructor; auto. apply validate_name_ok in H as H'. destruct H' as (-> & _). exact H. Qed.
Lemma mapM_axis r l ys : mapM (validate_axis_name r) l = Ok ys -> Forall (fun s => validate_axis_name r s = Ok s) l.
Proof. intros H. apply mapM_ok in H. induction H; constructor; auto. apply validate_axis_ok in H as H'. destruct H' as (-> & _). exact H. Qed.
Lemma mapM_all {A} (f : A -> res A) l : Forall (fun s => f s = Ok s) l -> mapM f l = Ok l.
Proof. induction 1; cbn; [reflexivity|]. rewrite H. cbn. rewrite IHForall. reflexivity. Qed.

(** ** str() *)
Lemma uint_str_inj : forall u v, uint_str u = uint_str v -> u = v.
Proof. induction u; intros []; cbn; intros H; try discriminate; try reflexivity; injection H as H; f_equal; auto. Qed.
Lemma str_nat_inj a b : str_nat a = str_nat b -> a = b.
Proof. intros H. apply uint_str_inj in H. apply Unsigned.to_uint_inj in H. exact H. Qed.
Lemma str_nat_digits n : Forall (fun c => digit c = true) (str_nat n).
Proof. unfold str_nat. generalize (Nat.to_uint n). induction u; cbn; constructor; auto. Qed.

(** ** the search for a free name ends *)
Lemma next_free_ok used stem : forall fuel counter cand, 
  (forall j, counter <= j -> ~ cand = stem ++ underscore :: str_nat j) ->
  forall seen, NoDup seen -> incl seen used -> (forall j, counter <= j -> ~ In (stem ++ underscore :: str_nat j) seen) -> ~ In cand seen ->
  List.length used < List.length seen + S fuel -> exists c, next_free used stem cand counter fuel = Ok c /\ ~ In c used /\ (c = cand \/ exists j, counter <= j /\ c = stem ++ underscore :: str_nat j).
Proof.
  induction fuel as [|fuel IH]; intros counter cand Hc seen Hn Hi Hs Hcs L; cbn; destruct (inl cand used) eqn:E.
  - exfalso. apply inl_In in E. assert (X : List.length (cand :: seen) <= List.length used) by (apply NoDup_incl_length; [constructor; auto|intros z [<-|Hz]; auto]). cbn in X. lia.
  - exists cand. apply inl_nIn in E. auto.
  - apply inl_In in E. destruct (IH (S counter) (stem ++ underscore :: str_nat counter)) with (seen := cand :: seen) as (c & Ec & Nc & D).
    + intros j Hj H. apply app_inv_head in H. injection H as H. apply str_nat_inj in H. lia.
    + constructor; auto.
    + intros z [<-|Hz]; auto.
    + intros j Hj [H|H]; [apply (Hc j); [lia|auto]|apply (Hs j); [lia|exact H]].
    + intros [H|H]; [apply (Hc counter); [lia|auto]|apply (Hs counter); [lia|exact H]].
    + cbn. lia.
    + exists c. split; [exact Ec|]. split; [exact Nc|]. right. destruct D as [D|(j & Hj & D)]; [exists counter; auto|exists j; split; [lia|exact D]].
  - exists cand. apply inl_nIn in E. auto.
Qed.
