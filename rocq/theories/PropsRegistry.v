(** The variable registry of SGA: C57, C58. *)
From Coq Require Import QArith Lqa.
From Verif Require Import Base SgaNaming SgaNamingFacts PropsNaming SgaRegistry.
Local Open Scope nat_scope.
Local Notation "'<<' s '>>'" := (lit s%string) (format "'<<' s '>>'").

(** ** Specification *)
(** strictly increasing or strictly decreasing *)
Definition increasing (l : list Q) : Prop := forall i, Datatypes.S i < List.length l -> (nth i l 0 < nth (Datatypes.S i) l 0)%Q.
Definition decreasing (l : list Q) : Prop := forall i, Datatypes.S i < List.length l -> (nth (Datatypes.S i) l 0 < nth i l 0)%Q.
(** the key of the first derivative of a field along an axis *)
Definition dkey (f a : pystr) : pystr := f ++ underscore :: a.

Lemma times_1 a : times a 1 = a. Proof. unfold times. cbn. apply app_nil_r. Qed.
Lemma build_dkey f a k : build_key f a 1 = Ok k -> k = dkey f a.
Proof. intros H. apply build_ok in H. destruct H as (-> & _). rewrite times_1. reflexivity. Qed.
Lemma dget_In {B} (d : list (pystr * B)) k v : dget d k = Some v -> In (k, v) d.
Proof. induction d as [|[x w] d IH]; cbn; [discriminate|]. destruct (streq x k) eqn:E; [apply streq_eq in E as ->; intros [= ->]; auto|auto]. Qed.
Lemma dget_some {B} (d : list (pystr * B)) k v : NoDup (keys d) -> In (k, v) d -> dget d k = Some v.
Proof.
  induction d as [|[x w] d IH]; cbn; [intros _ []|]. intros N [[= -> ->]|H]; [rewrite streq_refl; reflexivity|]. inversion N as [|? ? N1 N2]. subst.
  destruct (streq x k) eqn:E; [|auto]. apply streq_eq in E as ->. exfalso. apply N1. apply in_map_iff. exists (k, v). auto.
Qed.
Lemma diffs_nth : forall l i, Datatypes.S i < List.length l -> nth i (diffs l) 0%Q = (nth (Datatypes.S i) l 0 - nth i l 0)%Q.
Proof.
  induction l as [|x l IH]; intros i H; cbn in H; [lia|]. destruct l as [|y l]; cbn in H; [lia|]. destruct i as [|i]; [reflexivity|].
  change (diffs (x :: y :: l)) with ((y - x)%Q :: diffs (y :: l)). cbn [nth]. rewrite IH by (cbn; lia). reflexivity.
Qed.
Lemma diffs_length l : List.length (diffs l) = List.length l - 1.
Proof. induction l as [|x l IH]; [reflexivity|]. destruct l as [|y l]; [reflexivity|]. change (diffs (x :: y :: l)) with ((y - x)%Q :: diffs (y :: l)). cbn [List.length] in *. rewrite IH. lia. Qed.
Lemma pos_true q : pos q = true <-> (0 < q)%Q.
Proof. unfold pos. rewrite negb_true_iff. destruct (Qle_bool q 0) eqn:E; [apply Qle_bool_iff in E; split; [discriminate|intros; lra]|]. split; [intros _|reflexivity]. apply Qnot_le_lt. intros X. apply Qle_bool_iff in X. congruence. Qed.
Lemma neg_true q : neg q = true <-> (q < 0)%Q.
Proof. unfold neg. rewrite negb_true_iff. destruct (Qle_bool 0 q) eqn:E; [apply Qle_bool_iff in E; split; [discriminate|intros; lra]|]. split; [intros _|reflexivity]. apply Qnot_le_lt. intros X. apply Qle_bool_iff in X. congruence. Qed.
Lemma delta_ok c d : compute_delta c = Ok d -> (increasing c \/ decreasing c) /\ (2 <= List.length c -> d = (nth 1 c 0 - nth 0 c 0)%Q).
Proof.
  unfold compute_delta. pose proof (diffs_length c) as L. destruct (diffs c) as [|d0 ds] eqn:E.
  - intros [= <-]. cbn in L. split; [left; intros i H; lia|lia].
  - rewrite <- E in *. destruct (existsb Qzero (diffs c)); [discriminate|].
    destruct (forallb pos (diffs c)) eqn:P; [|destruct (forallb neg (diffs c)) eqn:N; [|discriminate]]; cbn [orb]; intros [= <-].
    + split; [left|].
      * intros i H. assert (X : In (nth i (diffs c) 0%Q) (diffs c)) by (apply nth_In; lia). apply (proj1 (forallb_forall _ _) P) in X. apply pos_true in X. rewrite diffs_nth in X by exact H. lra.
      * intros H. pose proof (diffs_nth c 0 ltac:(lia)) as X. rewrite E in X. exact X.
    + split; [right|].
      * intros i H. assert (X : In (nth i (diffs c) 0%Q) (diffs c)) by (apply nth_In; lia). apply (proj1 (forallb_forall _ _) N) in X. apply neg_true in X. rewrite diffs_nth in X by exact H. lra.
      * intros H. pose proof (diffs_nth c 0 ltac:(lia)) as X. rewrite E in X. exact X.
Qed.
Lemma delta_total c : increasing c \/ decreasing c -> exists d, compute_delta c = Ok d.
Proof.
  intros H. unfold compute_delta. destruct (diffs c) as [|d0 ds] eqn:E; [eauto|]. rewrite <- E.
  assert (N : forall d, In d (diffs c) -> exists i, Datatypes.S i < List.length c /\ d = (nth (Datatypes.S i) c 0 - nth i c 0)%Q).
  { intros d Hd. apply (In_nth _ _ 0%Q) in Hd. destruct Hd as (i & Hi & <-). rewrite diffs_length in Hi. exists i. split; [lia|]. apply diffs_nth. lia. }
  destruct (existsb Qzero (diffs c)) eqn:Z.
  - exfalso. apply existsb_exists in Z. destruct Z as (d & Hd & Z). apply Qeq_bool_iff in Z. destruct (N d Hd) as (i & Hi & ->). destruct H as [H|H]; specialize (H i Hi); lra.
  - replace (forallb pos (diffs c) || forallb neg (diffs c)) with true; [eauto|]. symmetry. apply orb_true_iff. destruct H as [H|H]; [left|right]; apply forallb_forall; intros d Hd; destruct (N d Hd) as (i & Hi & ->); specialize (H i Hi); [apply pos_true|apply neg_true]; lra.
Qed.
Lemma list_eqb_eq : forall a b, list_eqb a b = true <-> a = b.
Proof. induction a as [|x a IH]; intros [|y b]; cbn; try (split; congruence). rewrite andb_true_iff, Nat.eqb_eq, IH. split; [intros [-> ->]; reflexivity|intros [= -> ->]; auto]. Qed.

Section R.
Context {A : Type}.
Variables (shp : A -> list nat) (fd : A -> Q -> nat -> res A) (grid : list Q -> nat -> list nat -> A) (zeros : list nat -> A).
Local Notation config := (@config A).
Local Notation make_context := (make_context shp fd grid zeros).

(** everything make_context has checked *)
Lemma make_ok (cf : config) T : make_context cf = Ok T ->
  exists u ux grad primary, let axes := t_axes T in let dl a := match dget (t_delta T) a with Some d => d | None => 0%Q end in
  axes = (match c_axis_order cf with [] => keys (c_coords cf) | l => l end) /\
  validate_names cf axes = Ok tt /\ validate_grid shp cf axes = Ok tt /\
  mapM (fun a => do d <- compute_delta (match dget (c_coords cf) a with Some c => c | None => [] end) ; Ok (a, d)) axes = Ok (t_delta T) /\
  dget (c_fields cf) (c_target cf) = Some u /\ resolve_primary cf axes = Ok primary /\ inl (c_lhs cf) axes = true /\
  fd u (dl (c_lhs cf)) (index_of (c_lhs cf) axes) = Ok (t_ut T) /\ fd u (dl primary) (index_of primary axes) = Ok ux /\
  grad_loop fd cf axes (t_delta T) primary ux (list_prod (c_fields cf) axes) [] = Ok grad /\
  t_shape T = grid_shape cf axes /\ t_vars T = build_vars grid zeros cf axes (t_shape T) grad /\ t_den T = coord_entries grid cf axes (t_shape T) /\
  ~ In (c_lhs cf) (keys (t_vars T)) /\ t_primary T = primary.
Proof.
  unfold SgaRegistry.make_context. set (axes := match c_axis_order cf with [] => keys (c_coords cf) | l => l end).
  destruct axes as [|a0 al] eqn:Ea; [discriminate|]. rewrite <- Ea in *. clearbody axes. clear Ea a0 al.
  destruct (validate_names cf axes) as [[]|] eqn:V1; [|discriminate]. cbn [bind].
  destruct (validate_grid shp cf axes) as [[]|] eqn:V2; [|discriminate]. cbn [bind].
  destruct (mapM _ axes) as [deltas|] eqn:M; [|discriminate]. cbn [bind].
  destruct (dget (c_fields cf) (c_target cf)) as [u|] eqn:U; [|discriminate].
  destruct (resolve_primary cf axes) as [primary|] eqn:P; [|discriminate]. cbn [bind].
  destruct (coord_entries grid cf axes (grid_shape cf axes)) as [|c0 cl] eqn:Ce; [discriminate|]. rewrite <- Ce in *. clear Ce c0 cl.
  destruct (inl (c_lhs cf) axes) eqn:L; [|discriminate]. cbn [negb].
  destruct (fd u _ (index_of (c_lhs cf) axes)) as [ut|] eqn:F1; [|discriminate]. cbn [bind].
  destruct (fd u _ (index_of primary axes)) as [ux|] eqn:F2; [|discriminate]. cbn [bind].
  destruct (grad_loop fd cf axes deltas primary ux _ []) as [grad|] eqn:G; [|discriminate]. cbn [bind].
  destruct (mapM _ (c_fields cf)) as [forb|]; [|discriminate]. cbn [bind]. destruct (existsb _ forb); [discriminate|].
  destruct (inl (c_lhs cf) (keys _)) eqn:LV; [discriminate|]. intros [= <-]. apply inl_nIn in LV.
  exists u, ux, grad, primary. cbn [t_axes t_delta t_shape t_vars t_den t_ut t_primary]. repeat (split; [first [reflexivity|assumption]|]). reflexivity.
Qed.
Lemma names_ok (cf : config) axes : validate_names cf axes = Ok tt ->
  all_axes axes /\ all_axes (keys (c_coords cf)) /\ Forall (fun f => validate_name [] f = Ok f) (keys (c_fields cf)) /\
  (forall f, In f (keys (c_fields cf)) -> ~ In f (keys (c_coords cf))) /\
  (forall f g a, In f (keys (c_fields cf)) -> In g (keys (c_fields cf)) -> In a axes -> f <> dkey g a) /\ ~ In <<"ux">> (keys (c_fields cf)).
Proof.
  unfold validate_names. destruct (mapM (validate_axis_name []) axes) eqn:M1; [|discriminate]. cbn [bind].
  destruct (mapM (validate_axis_name []) (keys (c_coords cf))) eqn:M2; [|discriminate]. cbn [bind].
  destruct (mapM (validate_name []) (keys (c_fields cf))) eqn:M3; [|discriminate]. cbn [bind].
  destruct (existsb _ (keys (c_fields cf))) eqn:C1; [discriminate|].
  destruct (mapM _ (list_prod _ axes)) as [dk|] eqn:M4; [|discriminate]. cbn [bind].
  match goal with |- (if ?b then _ else _) = _ -> _ => destruct b eqn:C2; [discriminate|] end. match goal with |- (if ?b then _ else _) = _ -> _ => destruct b; [discriminate|] end. match goal with |- (if ?b then _ else _) = _ -> _ => destruct b eqn:C3; [discriminate|] end. intros _.
  split; [eapply mapM_axis, M1|]. split; [eapply mapM_axis, M2|]. split; [eapply mapM_valid, M3|].
  assert (EX : forall p l, existsb p l = false -> forall x : pystr, In x l -> p x = false).
  { intros p l H x Hx. destruct (p x) eqn:E; [|reflexivity]. rewrite <- H. symmetry. apply existsb_exists. eauto. }
  split; [intros f Hf; apply (EX _ _ C1) in Hf; apply inl_nIn, Hf|]. split; [|apply inl_nIn, C3].
  intros f g b Hf Hg Hb. apply (EX _ _ C2) in Hf. apply inl_nIn in Hf. intros ->. apply Hf. apply mapM_ok in M4.
  assert (X : In (g, b) (list_prod (keys (c_fields cf)) axes)) by (apply in_prod; assumption). revert X. clear -M4. induction M4 as [|p k ps ks H HF IH]; [intros []|]. intros [->|X]; [|right; auto].
  left. apply build_dkey in H. exact H.
Qed.
Lemma grid_ok (cf : config) axes : validate_grid shp cf axes = Ok tt -> NoDup axes /\ (forall a, In a axes <-> In a (keys (c_coords cf))) /\
  (forall f v, In (f, v) (c_fields cf) -> shp v = grid_shape cf axes) /\ (c_uniform cf = true -> forall a c, In a axes -> dget (c_coords cf) a = Some c -> uniform c = true).
Proof.
  unfold validate_grid. destruct (distinctb axes) eqn:D; [|discriminate]. cbn [negb]. destruct (subset axes _) eqn:S1; [|discriminate]. destruct (subset _ axes) eqn:S2; [|discriminate]. cbn [andb negb].
  destruct (existsb _ (c_fields cf)) eqn:E; [discriminate|]. destruct (c_uniform cf && _) eqn:Un; [discriminate|]. intros _. apply distinctb_NoDup in D. split; [exact D|].
  unfold subset in *. rewrite forallb_forall in S1, S2. split; [intros a; split; intros H; [apply S1 in H|apply S2 in H]; apply inl_In in H; exact H|]. split.
  - intros f v H. destruct (list_eqb (shp v) (grid_shape cf axes)) eqn:L; [apply list_eqb_eq, L|]. exfalso. assert (X : existsb (fun f => negb (list_eqb (shp (snd f)) (grid_shape cf axes))) (c_fields cf) = true) by (apply existsb_exists; exists (f, v); split; [exact H|cbn; rewrite L; reflexivity]). congruence.
  - intros HU a c Ha Hc. rewrite HU in Un. cbn [andb] in Un. destruct (uniform c) eqn:X; [reflexivity|]. exfalso.
    assert (Y : existsb (fun a => match dget (c_coords cf) a with Some c => negb (uniform c) | None => false end) axes = true) by (apply existsb_exists; exists a; split; [exact Ha|rewrite Hc, X; reflexivity]). congruence.
Qed.
(** the derivative table *)
Section Grad.
Variables (cf : config) (axes : list pystr) (deltas : list (pystr * Q)) (primary : pystr) (u ux : A).
Local Notation dl a := (match dget deltas a with Some d => d | None => 0%Q end).
Hypothesis Hf : NoDup (keys (c_fields cf)).
Hypothesis Hu : dget (c_fields cf) (c_target cf) = Some u.
Hypothesis Hux : fd u (dl primary) (index_of primary axes) = Ok ux.
Lemma grad_loop_ok : forall ps g g', (forall p, In p ps -> In (fst p) (c_fields cf)) -> NoDup (keys g) -> grad_loop fd cf axes deltas primary ux ps g = Ok g' ->
  NoDup (keys g') /\ incl g g' /\
  (forall k v, In (k, v) g' -> In (k, v) g \/ exists f w a, In ((f, w), a) ps /\ a <> c_lhs cf /\ k = dkey f a /\ build_key f a 1 = Ok k /\ fd w (dl a) (index_of a axes) = Ok v) /\
  (forall f w a, In ((f, w), a) ps -> a <> c_lhs cf -> In (dkey f a) (keys g')).
Proof.
  induction ps as [|[[f w] a] ps IH]; intros g g' Hp Ng; cbn [grad_loop].
  - intros [= <-]. split; [exact Ng|]. split; [apply incl_refl|]. split; [auto|intros ? ? ? []].
  - unfold grad_one. destruct (streq a (c_lhs cf)) eqn:EL.
    + apply streq_eq in EL. subst a. cbn [bind]. intros H. destruct (IH g g' (fun p X => Hp p (or_intror X)) Ng H) as (N' & I' & S' & C'). split; [exact N'|]. split; [exact I'|]. split.
      * intros k v Hk. destruct (S' k v Hk) as [X|(f' & w' & a' & X & Y)]; [auto|]. right. exists f', w', a'. split; [right; exact X|exact Y].
      * intros f' w' a' [[= <- <- <-]|X] Na; [congruence|eapply C'; eassumption].
    + apply streq_ne in EL. cbn [fst snd]. destruct (build_key f a 1) as [key|] eqn:B; [|discriminate]. cbn [bind]. pose proof (build_dkey _ _ _ B) as Kk.
      destruct (inl key (keys g)) eqn:Ik.
      * cbn [bind]. intros H. destruct (IH g g' (fun p X => Hp p (or_intror X)) Ng H) as (N' & I' & S' & C'). split; [exact N'|]. split; [exact I'|]. split.
        -- intros k v Hk. destruct (S' k v Hk) as [X|(f' & w' & a' & X & Y)]; [auto|]. right. exists f', w', a'. split; [right; exact X|exact Y].
        -- intros f' w' a' [[= <- <- <-]|X] Na; [|eapply C'; eassumption]. apply inl_In in Ik. rewrite Kk in Ik. apply in_map_iff in Ik. destruct Ik as (e & E1 & E2). apply in_map_iff. exists e. split; [exact E1|apply I', E2].
      * apply inl_nIn in Ik. destruct (if streq f (c_target cf) && streq a primary then Ok ux else _) as [v|] eqn:V; [|discriminate]. cbn [bind]. intros H.
        assert (Vf : fd w (dl a) (index_of a axes) = Ok v).
        { destruct (streq f (c_target cf)) eqn:E1; [|exact V]. destruct (streq a primary) eqn:E2; [|exact V]. cbn [andb] in V. injection V as <-. apply streq_eq in E1, E2. subst f a.
          pose proof (dget_some _ _ _ Hf (Hp _ (or_introl eq_refl))) as D. cbn in D. replace w with u by congruence. exact Hux. }
        assert (Ng' : NoDup (keys (g ++ [(key, v)]))).
        { unfold keys. rewrite map_app. cbn [map fst]. apply NoDup_rev in Ng. rewrite <- (rev_involutive (map fst g ++ [key])). apply NoDup_rev. rewrite rev_app_distr. cbn. constructor; [rewrite <- in_rev; exact Ik|exact Ng]. }
        destruct (IH _ _ (fun p X => Hp p (or_intror X)) Ng' H) as (N' & I' & S' & C'). split; [exact N'|]. split; [intros e He; apply I', in_app_iff; auto|]. split.
        -- intros k v' Hk. destruct (S' k v' Hk) as [X|(f' & w' & a' & X & Y)].
           ++ apply in_app_iff in X. destruct X as [X|[[= <- <-]|[]]]; [auto|]. right. exists f, w, a. split; [left; reflexivity|]. auto.
           ++ right. exists f', w', a'. split; [right; exact X|exact Y].
        -- intros f' w' a' [[= <- <- <-]|X] Na; [|eapply C'; eassumption]. apply in_map_iff. exists (key, v). split; [exact Kk|]. apply I', in_app_iff. right. left. reflexivity.
Qed.
End Grad.
Lemma dkey_us f a : In underscore (dkey f a). Proof. unfold dkey. apply in_app_iff. right. left. reflexivity. Qed.
Lemma dkey_inj f a g b : ~ In underscore a -> ~ In underscore b -> dkey f a = dkey g b -> f = g /\ a = b.
Proof.
  intros Ha Hb E. unfold dkey in E. pose proof (proj2 (rsplit_ok (f ++ underscore :: a) f a) (conj eq_refl Ha)) as R1.
  rewrite E in R1. rewrite (proj2 (rsplit_ok (g ++ underscore :: b) g b) (conj eq_refl Hb)) in R1. injection R1 as -> ->. auto.
Qed.

(** *** C57 *)
(** What an accepted problem looks like: the axes are distinct and are those of the coordinates,
    every field has the shape of the coordinates in axis order, every coordinate is strictly
    monotonic and the spacing used for it is its first step. *)
Theorem C57_grid cf T : make_context cf = Ok T -> NoDup (keys (c_coords cf)) ->
  NoDup (t_axes T) /\ (forall a, In a (t_axes T) <-> In a (keys (c_coords cf))) /\ In (c_lhs cf) (t_axes T) /\ In (c_target cf) (keys (c_fields cf)) /\
  List.length (t_shape T) = List.length (t_axes T) /\
  (forall f v, In (f, v) (c_fields cf) -> shp v = t_shape T) /\
  (forall a c, In (a, c) (c_coords cf) -> nth (index_of a (t_axes T)) (t_shape T) 0 = List.length c /\ (increasing c \/ decreasing c) /\
     exists d, dget (t_delta T) a = Some d /\ (2 <= List.length c -> d = (nth 1 c 0 - nth 0 c 0)%Q)).
Proof.
  intros H Hc. destruct (make_ok cf T H) as (u & ux & grad & primary & _ & _ & V2 & M & U & _ & L & _ & _ & _ & Sh & _).
  destruct (grid_ok _ _ V2) as (N & I & F & _). split; [exact N|]. split; [exact I|]. split; [apply inl_In, L|]. split; [apply dget_In in U; apply in_map_iff; exists (c_target cf, u); auto|].
  rewrite Sh. split; [apply map_length|]. split; [exact F|]. intros a c Hac.
  assert (Ha : In a (t_axes T)) by (apply I, in_map_iff; exists (a, c); auto). pose proof (dget_some _ _ _ Hc Hac) as D.
  split; [|].
  - unfold grid_shape. assert (X : forall l, In a l -> nth (index_of a l) (map (fun a => match dget (c_coords cf) a with Some c => List.length c | None => 0 end) l) 0 = List.length c).
    { clear -D. induction l as [|b l IH]; intros []; cbn; [subst; rewrite streq_refl, D; reflexivity|]. destruct (streq b a) eqn:E; [apply streq_eq in E; subst; rewrite D; reflexivity|auto]. }
    apply X, Ha.
  - assert (X : exists d, compute_delta c = Ok d /\ dget (t_delta T) a = Some d).
    { revert M Ha. generalize (t_delta T). generalize (t_axes T). clear -D. induction l as [|b l IH]; intros ds; cbn; [intros _ []|].
      destruct (compute_delta (match dget (c_coords cf) b with Some c => c | None => [] end)) as [d|] eqn:E; [|discriminate]. cbn [bind]. destruct (mapM _ l) as [ds'|] eqn:M; [|discriminate]. cbn [bind]. intros [= <-] Hb. cbn [dget].
      destruct (streq b a) eqn:Eb; [apply streq_eq in Eb; subst b; rewrite D in E; eauto|]. destruct Hb as [->|Hb]; [rewrite streq_refl in Eb; discriminate|]. apply (IH _ eq_refl Hb). }
    destruct X as (d & E & Ed). apply delta_ok in E. destruct E as [E1 E2]. split; [exact E1|]. exists d. auto.
Qed.
Lemma coord_entries_keys cf axes shape : keys (coord_entries grid cf axes shape) = filter (fun a => negb (streq a (c_lhs cf))) axes.
Proof. unfold keys, coord_entries. rewrite map_map. cbn. apply map_id. Qed.
(** Every field, every other axis and every first derivative of a field along another axis is a
    terminal under its own name, with its own values; and without parameter fields there is
    nothing else but 0. *)
Theorem C57_terminals cf T : make_context cf = Ok T -> NoDup (keys (c_fields cf)) -> NoDup (keys (c_coords cf)) ->
  incl (c_fields cf) (t_vars T) /\ incl (c_params cf) (t_vars T) /\
  (forall f v a c d, In (f, v) (c_fields cf) -> In (a, c) (c_coords cf) -> a <> c_lhs cf -> dget (t_delta T) a = Some d ->
     (exists w, fd v d (index_of a (t_axes T)) = Ok w /\ In (dkey f a, w) (t_vars T)) /\
     In (a, grid c (index_of a (t_axes T)) (t_shape T)) (t_vars T)) /\
  (forall k w, In (k, w) (t_vars T) -> In (k, w) (c_fields cf) \/ In (k, w) (c_params cf) \/ k = <<"0">> \/
     (exists c, In (k, c) (c_coords cf) /\ k <> c_lhs cf /\ w = grid c (index_of k (t_axes T)) (t_shape T)) \/
     (exists f v a d, In (f, v) (c_fields cf) /\ In a (t_axes T) /\ a <> c_lhs cf /\ k = dkey f a /\ dget (t_delta T) a = Some d /\ fd v d (index_of a (t_axes T)) = Ok w)).
Proof.
  intros H Hf Hc. pose proof (C57_grid cf T H Hc) as (N & I & _ & _ & _ & _ & GD).
  destruct (make_ok cf T H) as (u & ux & grad & primary & _ & V1 & _ & _ & U & _ & _ & _ & Ux & G & _ & Ev & _).
  destruct (names_ok _ _ V1) as (AA & _).
  assert (HP : forall p, In p (list_prod (c_fields cf) (t_axes T)) -> In (fst p) (c_fields cf)) by (intros [f a] X; apply in_prod_iff in X; tauto).
  destruct (grad_loop_ok cf (t_axes T) (t_delta T) primary u ux Hf U Ux _ [] grad HP (NoDup_nil _) G) as (NG & _ & GS & GC).
  assert (DA : forall a c, In (a, c) (c_coords cf) -> In a (t_axes T)) by (intros a c X; apply I, in_map_iff; exists (a, c); auto).
  rewrite Ev. unfold build_vars. split; [intros e He; apply in_app_iff; auto|]. split; [intros e He; rewrite !in_app_iff; auto|]. split.
  - intros f v a c d Hfv Hac Na Hd. pose proof (DA _ _ Hac) as Ha. split.
    + assert (X : In (dkey f a) (keys grad)) by (apply (GC f v a); [apply in_prod; assumption|exact Na]). apply in_map_iff in X. destruct X as ([k w] & E & X). cbn in E. subst k.
      destruct (GS _ _ X) as [[]|(f' & w' & a' & Y1 & Y2 & Y3 & Y4 & Y5)]. apply in_prod_iff in Y1. destruct Y1 as [Y1 Y1'].
      assert (Ua : forall b, In b (t_axes T) -> ~ In underscore b) by (intros b Hb; apply (proj1 (Forall_forall _ _) AA) in Hb; apply validate_axis_ok in Hb; tauto).
      destruct (dkey_inj _ _ _ _ (Ua a Ha) (Ua a' Y1') Y3) as [-> ->]. exists w. split; [|rewrite !in_app_iff; auto 6].
      rewrite Hd in Y5. replace v with w'; [exact Y5|]. pose proof (dget_some _ _ _ Hf Hfv). pose proof (dget_some _ _ _ Hf Y1). congruence.
    + rewrite !in_app_iff. right. left. unfold coord_entries. apply in_map_iff. exists a. split; [rewrite (dget_some _ _ _ Hc Hac); reflexivity|]. apply filter_In. split; [exact Ha|]. apply negb_true_iff, streq_ne, Na.
  - intros k w Hk. rewrite !in_app_iff in Hk. destruct Hk as [Hk|[Hk|[Hk|[Hk|Hk]]]]; [auto| |auto|destruct Hk as [Hk|[]]; injection Hk as <- _; auto|].
    + right. right. right. left. unfold coord_entries in Hk. apply in_map_iff in Hk. destruct Hk as (a & E & Ha). injection E as <- <-. apply filter_In in Ha. destruct Ha as [Ha Nl]. apply negb_true_iff, streq_ne in Nl.
      apply I in Ha. apply in_map_iff in Ha. destruct Ha as ([b c] & E & Hb). cbn in E. subst b. exists c. rewrite (dget_some _ _ _ Hc Hb). auto.
    + right. right. right. right. destruct (GS _ _ Hk) as [[]|(f & v & a & Y1 & Y2 & Y3 & Y4 & Y5)]. apply in_prod_iff in Y1. destruct Y1 as [Y1 Y1'].
      assert (X : exists c, In (a, c) (c_coords cf)) by (apply I in Y1'; apply in_map_iff in Y1'; destruct Y1' as ([b c] & E & Hb); cbn in E; subst b; eauto). destruct X as (c & Hac).
      destruct (GD a c Hac) as (_ & _ & d & Hd & _). exists f, v, a, d. rewrite Hd in Y5. auto 8.
Qed.
(** Without parameter fields the names of the terminals are all different, no terminal is the
    left-hand axis or a derivative along it, and the denominators are the other axes. *)
Theorem C57_names cf T : make_context cf = Ok T -> NoDup (keys (c_fields cf)) -> NoDup (keys (c_coords cf)) -> c_params cf = [] ->
  NoDup (keys (t_vars T)) /\ ~ In (c_lhs cf) (keys (t_vars T)) /\
  (forall f, In f (keys (c_fields cf)) -> ~ In (dkey f (c_lhs cf)) (keys (t_vars T))).
Proof.
  intros H Hf Hc Hp. pose proof (C57_grid cf T H Hc) as (N & I & LA & _).
  destruct (make_ok cf T H) as (u & ux & grad & primary & _ & V1 & _ & _ & U & _ & _ & _ & Ux & G & _ & Ev & _ & NL & _).
  destruct (names_ok _ _ V1) as (AA & AC & AF & D1 & D2 & _).
  assert (HP : forall p, In p (list_prod (c_fields cf) (t_axes T)) -> In (fst p) (c_fields cf)) by (intros [f a] X; apply in_prod_iff in X; tauto).
  destruct (grad_loop_ok cf (t_axes T) (t_delta T) primary u ux Hf U Ux _ [] grad HP (NoDup_nil _) G) as (NG & _ & GS & GC).
  assert (Ua : forall b, In b (t_axes T) -> ~ In underscore b) by (intros b Hb; apply (proj1 (Forall_forall _ _) AA) in Hb; apply validate_axis_ok in Hb; tauto).
  assert (GK : forall k, In k (keys grad) -> exists f a, In f (keys (c_fields cf)) /\ In a (t_axes T) /\ a <> c_lhs cf /\ k = dkey f a).
  { intros k Hk. apply in_map_iff in Hk. destruct Hk as ([k' v] & E & Hk). cbn in E. subst k'. destruct (GS _ _ Hk) as [[]|(f & w & a & Y1 & Y2 & Y3 & _)]. apply in_prod_iff in Y1. exists f, a. split; [apply in_map_iff; exists (f, w); tauto|tauto]. }
  assert (Z : forall k, (exists t, validate_name [] k = Ok t) -> k <> <<"0">>) by (intros k [t Hk] ->; discriminate).
  assert (EK : keys (t_vars T) = keys (c_fields cf) ++ filter (fun a => negb (streq a (c_lhs cf))) (t_axes T) ++ <<"0">> :: keys grad).
  { rewrite Ev. unfold build_vars. rewrite Hp. unfold keys. rewrite !map_app. cbn [map app]. fold (keys (coord_entries grid cf (t_axes T) (t_shape T))). rewrite coord_entries_keys. reflexivity. }
  split; [|split; [exact NL|]].
  - rewrite EK. assert (NDapp : forall l1 l2 : list pystr, NoDup l1 -> NoDup l2 -> (forall x, In x l1 -> ~ In x l2) -> NoDup (l1 ++ l2)).
    { clear. induction l1 as [|x l1 IH]; intros l2 N1 N2 D; cbn; [exact N2|]. inversion N1; subst. constructor; [rewrite in_app_iff; intros [X|X]; [contradiction|]; apply (D x); [left; reflexivity|exact X]|]. apply IH; auto. intros y Hy. apply D. right. exact Hy. }
    apply NDapp; [exact Hf| |].
    + apply NDapp; [apply NoDup_filter, N| |].
      * constructor; [|exact NG]. intros X. destruct (GK _ X) as (f & a & _ & _ & _ & E). pose proof (dkey_us f a) as Y. rewrite <- E in Y. cbn in Y. destruct Y as [Y|[]]; discriminate.
      * intros a Ha [<-|X].
        -- apply filter_In in Ha. destruct Ha as [Ha _]. apply (proj1 (Forall_forall _ _) AA) in Ha. discriminate.
        -- apply filter_In in Ha. destruct Ha as [Ha _]. destruct (GK _ X) as (f & b & _ & _ & _ & ->). apply (Ua _ Ha). apply dkey_us.
    + intros f Hff. rewrite in_app_iff. intros [X|[<-|X]].
      * apply filter_In in X. destruct X as [X _]. apply I in X. exact (D1 f Hff X).
      * apply (proj1 (Forall_forall _ _) AF) in Hff. discriminate.
      * destruct (GK _ X) as (g & b & Hg & Hb & _ & E). exact (D2 f g b Hff Hg Hb E).
  - intros f Hff. rewrite EK, in_app_iff. intros [X|X]; [exact (D2 _ f (c_lhs cf) X Hff LA eq_refl)|]. rewrite in_app_iff in X. destruct X as [X|[X|X]].
    + apply filter_In in X. destruct X as [X _]. apply (Ua _ X), dkey_us.
    + pose proof (dkey_us f (c_lhs cf)) as Y. rewrite <- X in Y. cbn in Y. destruct Y as [Y|[]]; discriminate.
    + destruct (GK _ X) as (g & b & _ & Hb & Nb & E). destruct (dkey_inj _ _ _ _ (Ua _ LA) (Ua _ Hb) E) as [_ E']. congruence.
Qed.
Theorem C57_denominators cf T : make_context cf = Ok T -> keys (t_den T) = filter (fun a => negb (streq a (c_lhs cf))) (t_axes T) /\ ~ In (c_lhs cf) (keys (t_den T)).
Proof.
  intros H. destruct (make_ok cf T H) as (u & ux & grad & primary & _ & _ & _ & _ & _ & _ & _ & _ & _ & _ & _ & _ & Ed & _). rewrite Ed, coord_entries_keys. split; [reflexivity|].
  intros X. apply filter_In in X. destruct X as [_ X]. rewrite streq_refl in X. discriminate.
Qed.
(** Nothing more is required: every problem with valid, non-conflicting names on a matching,
    monotonic (and, if asked, uniform) grid is accepted, provided the difference routine succeeds. *)
Theorem C57_accepts cf : let axes := match c_axis_order cf with [] => keys (c_coords cf) | l => l end in
  NoDup (keys (c_fields cf)) -> NoDup (keys (c_coords cf)) -> NoDup axes -> (forall a, In a axes <-> In a (keys (c_coords cf))) ->
  Forall valid_axis axes -> Forall valid_field (keys (c_fields cf)) ->
  (forall f, In f (keys (c_fields cf)) -> ~ In f axes /\ f <> <<"ux">> /\ f <> c_target cf ++ c_lhs cf /\ forall g a, In g (keys (c_fields cf)) -> In a axes -> f <> dkey g a) ->
  (forall f v, In (f, v) (c_fields cf) -> shp v = grid_shape cf axes) ->
  (forall a c, In (a, c) (c_coords cf) -> (increasing c \/ decreasing c) /\ (c_uniform cf = true -> uniform c = true)) ->
  In (c_target cf) (keys (c_fields cf)) -> In (c_lhs cf) axes -> (exists a, In a axes /\ a <> c_lhs cf) ->
  (forall p, c_primary cf = Some p -> In p axes /\ p <> c_lhs cf) -> ~ In (c_lhs cf) (keys (c_params cf)) ->
  (forall v d i, exists w, fd v d i = Ok w) -> exists T, make_context cf = Ok T.
Proof.
  intros axes Nf Nc Na Sa Va Vf Cf Sf Mc Ht Hl (a1 & Ha1 & Ha1') Hp Hpar Fd.
  assert (NE : forall p (l : list pystr), (forall x, In x l -> p x = false) -> existsb p l = false).
  { intros p l H. apply not_true_iff_false. intros X. apply existsb_exists in X. destruct X as (x & Hx & X). rewrite (H x Hx) in X. discriminate. }
  assert (VA : all_axes axes) by (eapply Forall_impl; [|exact Va]; intros; apply axis_valid; assumption).
  assert (VAc : all_axes (keys (c_coords cf))) by (apply Forall_forall; intros a Ha; apply Sa in Ha; exact (proj1 (Forall_forall _ _) VA a Ha)).
  assert (VF : Forall (fun f => validate_name [] f = Ok f) (keys (c_fields cf))) by (eapply Forall_impl; [|exact Vf]; intros; apply field_valid; assumption).
  assert (Ua : forall b, In b axes -> ~ In underscore b) by (intros b Hb; apply (proj1 (Forall_forall _ _) Va) in Hb; destruct Hb as (_ & _ & X); exact X).
  assert (BK : forall f a, In f (keys (c_fields cf)) -> In a axes -> build_key f a 1 = Ok (dkey f a)).
  { intros f a Hf Ha. rewrite build_complete; [rewrite times_1; reflexivity| | |lia]; [exact (proj1 (Forall_forall _ _) VF f Hf)|exact (proj1 (Forall_forall _ _) VA a Ha)]. }
  assert (MT : forall {X Y} (g : X -> res Y) l, (forall x, In x l -> exists y, g x = Ok y) -> exists ys, mapM g l = Ok ys).
  { intros X Y g. induction l as [|x l IH]; intros H; cbn; [eauto|]. destruct (H x (or_introl eq_refl)) as [y Ey]. destruct IH as [ys Eys]; [intros z Hz; apply H; right; exact Hz|]. rewrite Ey. cbn. rewrite Eys. cbn. eauto. }
  unfold SgaRegistry.make_context. fold axes. destruct axes as [|a0 al] eqn:Ea; [destruct Hl|]. rewrite <- Ea in *. clear a0 al Ea.
  assert (V1 : validate_names cf axes = Ok tt).
  { unfold validate_names. rewrite (mapM_all _ _ VA). cbn [bind]. rewrite (mapM_all _ _ VAc). cbn [bind]. rewrite (mapM_all _ _ VF). cbn [bind].
    rewrite NE by (intros f Hf; apply inl_nIn; intros X; apply Sa in X; exact (proj1 (Cf f Hf) X)).
    destruct (MT _ _ (fun p => build_key (fst p) (snd p) 1) (list_prod (keys (c_fields cf)) axes)) as [dk Ed].
    { intros [f a] X. apply in_prod_iff in X. cbn. rewrite BK by tauto. eauto. }
    rewrite Ed. cbn [bind]. apply mapM_ok in Ed.
    assert (DK : forall k, In k dk -> exists f a, In f (keys (c_fields cf)) /\ In a axes /\ k = dkey f a).
    { intros k Hk. assert (X : exists p, In p (list_prod (keys (c_fields cf)) axes) /\ build_key (fst p) (snd p) 1 = Ok k).
      { revert Hk. clear -Ed. induction Ed as [|p q ps qs H HF IH]; [intros []|]. intros [<-|Hk]; [exists p; split; [left; reflexivity|exact H]|]. destruct (IH Hk) as (p' & Y & Z). exists p'. split; [right; exact Y|exact Z]. }
      destruct X as ([f a] & X & Y). apply in_prod_iff in X. exists f, a. cbn in Y. rewrite BK in Y by tauto. injection Y as <-. tauto. }
    rewrite NE by (intros f Hf; apply inl_nIn; intros X; destruct (DK _ X) as (g & a & Hg & Ha & E); destruct (Cf f Hf) as (_ & _ & _ & Y); exact (Y g a Hg Ha E)).
    replace (inl (c_target cf ++ c_lhs cf) (keys (c_fields cf))) with false by (symmetry; apply inl_nIn; intros X; destruct (Cf _ X) as (_ & _ & Y & _); congruence).
    rewrite andb_false_r. replace (inl ux_name (keys (c_fields cf))) with false by (symmetry; apply inl_nIn; intros X; destruct (Cf _ X) as (_ & Y & _); apply Y; reflexivity). reflexivity. }
  rewrite V1. cbn [bind].
  assert (DG : forall a, In a axes -> exists c, In (a, c) (c_coords cf) /\ dget (c_coords cf) a = Some c).
  { intros a Ha. apply Sa in Ha. apply in_map_iff in Ha. destruct Ha as ([b c] & E & Hb). cbn in E. subst b. exists c. split; [exact Hb|apply dget_some; assumption]. }
  assert (V2 : validate_grid shp cf axes = Ok tt).
  { unfold validate_grid. rewrite (proj2 (distinctb_NoDup axes) Na). cbn [negb].
    replace (subset axes (keys (c_coords cf)) && subset (keys (c_coords cf)) axes) with true by (symmetry; apply andb_true_iff; split; apply forallb_forall; intros x Hx; apply inl_In, Sa, Hx). cbn [negb].
    replace (existsb _ (c_fields cf)) with false.
    2: { symmetry. apply not_true_iff_false. intros X. apply existsb_exists in X. destruct X as ([f v] & Hfv & X). cbn in X. rewrite (Sf f v Hfv) in X. apply negb_true_iff in X. assert (Y : list_eqb (grid_shape cf axes) (grid_shape cf axes) = true) by (apply list_eqb_eq; reflexivity). congruence. }
    destruct (c_uniform cf) eqn:U; [|reflexivity]. cbn [andb]. rewrite NE; [reflexivity|]. intros a Ha. destruct (DG a Ha) as (c & Hc & ->). destruct (Mc a c Hc) as [_ X]. rewrite X by reflexivity. reflexivity. }
  rewrite V2. cbn [bind].
  destruct (MT _ _ (fun a => do d <- compute_delta (match dget (c_coords cf) a with Some c => c | None => [] end) ; Ok (a, d)) axes) as [deltas Ed].
  { intros a Ha. destruct (DG a Ha) as (c & Hc & ->). destruct (delta_total c) as [d E]; [apply (Mc a c Hc)|]. rewrite E. cbn. eauto. }
  rewrite Ed. cbn [bind].
  assert (U : exists u, dget (c_fields cf) (c_target cf) = Some u).
  { apply in_map_iff in Ht. destruct Ht as ([b u] & E & Hb). cbn in E. subst b. exists u. apply dget_some; assumption. }
  destruct U as [u U]. rewrite U.
  assert (SP : In a1 (filter (fun a => negb (streq a (c_lhs cf))) axes)) by (apply filter_In; split; [exact Ha1|apply negb_true_iff, streq_ne, Ha1']).
  assert (P : exists p, resolve_primary cf axes = Ok p).
  { unfold resolve_primary. destruct (filter _ axes) as [|s0 sl] eqn:E; [destruct SP|]. destruct (c_primary cf) as [p|]; [|eauto]. destruct (Hp p eq_refl) as [H1 H2]. apply inl_In in H1. rewrite H1. apply streq_ne in H2. rewrite H2. eauto. }
  destruct P as [primary P]. rewrite P. cbn [bind].
  assert (CE : coord_entries grid cf axes (grid_shape cf axes) <> []).
  { intros E. apply (f_equal keys) in E. rewrite coord_entries_keys in E. rewrite E in SP. destruct SP. }
  destruct (coord_entries grid cf axes (grid_shape cf axes)) as [|c0 cl] eqn:Ec; [congruence|]. rewrite <- Ec in *. clear CE c0 cl Ec.
  rewrite (proj2 (inl_In (c_lhs cf) axes) Hl). cbn [negb].
  destruct (Fd u (match dget deltas (c_lhs cf) with Some d => d | None => 0%Q end) (index_of (c_lhs cf) axes)) as [ut E1]. rewrite E1. cbn [bind].
  destruct (Fd u (match dget deltas primary with Some d => d | None => 0%Q end) (index_of primary axes)) as [ux E2]. rewrite E2. cbn [bind].
  assert (G : exists g, grad_loop fd cf axes deltas primary ux (list_prod (c_fields cf) axes) [] = Ok g).
  { assert (X : forall ps g, (forall p, In p ps -> In (fst p) (c_fields cf) /\ In (snd p) axes) -> exists g', grad_loop fd cf axes deltas primary ux ps g = Ok g').
    { induction ps as [|[[f w] a] ps IH]; intros g H; cbn [grad_loop]; [eauto|]. unfold grad_one. destruct (H _ (or_introl eq_refl)) as [H1 H2]. cbn [fst snd] in *.
      specialize (fun g => IH g (fun p X => H p (or_intror X))). destruct (streq a (c_lhs cf)); [cbn [bind]; apply IH|]. rewrite BK; [|apply in_map_iff; exists (f, w); auto|exact H2]. cbn [bind].
      destruct (inl _ (keys g)); [cbn [bind]; apply IH|]. destruct (_ && _); cbn [bind]; [apply IH|]. destruct (Fd w (match dget deltas a with Some d => d | None => 0%Q end) (index_of a axes)) as [v Ev]. rewrite Ev. cbn [bind]. apply IH. }
    apply X. intros [f a] Y. apply in_prod_iff in Y. exact Y. }
  destruct G as [grad G]. rewrite G. cbn [bind].
  destruct (MT _ _ (fun f => build_key (fst f) (c_lhs cf) 1) (c_fields cf)) as [forb Ef].
  { intros [f v] X. cbn. rewrite BK; [eauto|apply in_map_iff; exists (f, v); auto|exact Hl]. }
  rewrite Ef. cbn [bind].
  assert (HP : forall p, In p (list_prod (c_fields cf) axes) -> In (fst p) (c_fields cf)) by (intros [f a] X; apply in_prod_iff in X; tauto).
  destruct (grad_loop_ok cf axes deltas primary u ux Nf U E2 _ [] grad HP (NoDup_nil _) G) as (_ & _ & GS & _).
  assert (GK : forall k, In k (keys grad) -> exists f a, In a axes /\ a <> c_lhs cf /\ k = dkey f a).
  { intros k Hk. apply in_map_iff in Hk. destruct Hk as ([k' v] & E & Hk). cbn in E. subst k'. destruct (GS _ _ Hk) as [[]|(f & w & a & Y1 & Y2 & Y3 & _)]. apply in_prod_iff in Y1. exists f, a. tauto. }
  rewrite NE.
  2: { intros k Hk. apply inl_nIn. intros X. destruct (GK _ X) as (f & a & Ha & Nl & E). apply mapM_ok in Ef.
       assert (Y : exists g, k = dkey g (c_lhs cf)) by (revert Hk; clear -Ef; induction Ef as [|p q ps qs H HF IH]; [intros []|]; intros [<-|Hk]; [exists (fst p); apply build_dkey in H; exact H|auto]).
       destruct Y as [g Eg]. rewrite Eg in E. destruct (dkey_inj _ _ _ _ (Ua _ Hl) (Ua _ Ha) E) as [_ Z]. congruence. }
  replace (inl (c_lhs cf) (keys (build_vars grid zeros cf axes (grid_shape cf axes) grad))) with false; [eauto|]. symmetry. apply inl_nIn. unfold build_vars, keys. rewrite !map_app. fold (keys (coord_entries grid cf axes (grid_shape cf axes))). rewrite coord_entries_keys, !in_app_iff. cbn [map In fst].
  intros [X|[X|[X|[[X|[]]|X]]]].
  - exact (proj1 (Cf _ X) Hl).
  - apply filter_In in X. destruct X as [_ X]. rewrite streq_refl in X. discriminate.
  - contradiction.
  - apply (proj1 (Forall_forall _ _) Va) in Hl. destruct Hl as ((c & r & E & Hc & _) & _). rewrite E in X. injection X as <- _. discriminate.
  - destruct (GK _ X) as (f & a & _ & _ & E). apply (Ua _ Hl). rewrite E. apply dkey_us.
Qed.
End R.

(** A concrete array type for the witnesses: a shape and a tag that records what was computed. *)
Definition arr := (list nat * string)%type.
Definition tagd (a : arr) (d : Q) (i : nat) : res arr := Ok (fst a, ("d" ++ snd a)%string).
Definition demo (params : list (pystr * arr)) : @config arr :=
  mkConfig [(<<"u">>, ([2; 3], "U"%string)); (<<"v">>, ([2; 3], "V"%string))] [(<<"x">>, [0; 1]%Q); (<<"t">>, [0; 1; 2]%Q)] [] <<"u">> <<"t">> None params true.
Definition run_demo p := make_context fst tagd (fun _ _ s => (s, "grid"%string)) (fun s => (s, "zero"%string)) (demo p).
Example C57_example : exists T, run_demo [] = Ok T /\ keys (t_vars T) = [<<"u">>; <<"v">>; <<"x">>; <<"0">>; <<"u_x">>; <<"v_x">>] /\ keys (t_den T) = [<<"x">>] /\ t_shape T = [2; 3].
Proof. eexists. repeat split; reflexivity. Qed.
(** Parameter fields are not checked: a parameter named like a field, a derivative or even the
    left-hand derivative itself becomes a second terminal of that name. *)
Theorem C57_params_refuted :
  (exists T, run_demo [(<<"u">>, ([2; 3], "P"%string))] = Ok T /\ ~ NoDup (keys (t_vars T))) /\
  (exists T, run_demo [(<<"u_x">>, ([2; 3], "P"%string))] = Ok T /\ ~ NoDup (keys (t_vars T))) /\
  (exists T, run_demo [(<<"u_t">>, ([7], "P"%string))] = Ok T /\ In <<"u_t">> (keys (t_vars T))).
Proof.
  split; [|split]; eexists; (split; [reflexivity|]).
  - intros N. apply distinctb_NoDup in N. discriminate.
  - intros N. apply distinctb_NoDup in N. discriminate.
  - apply inl_In. reflexivity.
Qed.

(** *** C58: explicit target_field / lhs_axis of KD_SGA *)
(** When the estimator leaves both open, the dataset's choice is used, with u and t as defaults. *)
Theorem C58_inferred kw : fit_config None None kw =
  Ok (match kw_target kw with Some (c :: s) => c :: s | _ => <<"u">> end, match kw_lhs kw with Some (c :: s) => c :: s | _ => <<"t">> end).
Proof. reflexivity. Qed.
(** With a two-dimensional dataset (no such keys from the adapter) explicit choices are honoured. *)
Theorem C58_legacy t l : t <> [] -> l <> [] -> fit_config (Some t) (Some l) (mkKw None None) = Ok (t, l).
Proof. intros Ht Hl. destruct t; [congruence|]. destruct l; [congruence|]. reflexivity. Qed.
(** With an N-D dataset any explicit choice, even one equal to the dataset's, is a TypeError. *)
Theorem C58_explicit_refuted own_t own_l t l : (exists c s, own_t = Some (c :: s)) \/ (exists c s, own_l = Some (c :: s)) ->
  fit_config own_t own_l (mkKw (Some t) (Some l)) = Err TypeError.
Proof.
  intros [(c & s & ->)|(c & s & ->)]; unfold fit_config; cbn [pick snd kw_target kw_lhs fst]; [reflexivity|]. destruct own_t as [[|]|]; reflexivity.
Qed.
Example C58_example : fit_config (Some <<"u">>) None (mkKw (Some <<"u">>) (Some <<"t">>)) = Err TypeError /\ fit_config None None (mkKw (Some <<"rho">>) (Some <<"t">>)) = Ok (<<"rho">>, <<"t">>).
Proof. split; reflexivity. Qed.
Print Assumptions C57_grid.
Print Assumptions C57_terminals.
Print Assumptions C57_names.
Print Assumptions C57_denominators.
Print Assumptions C57_params_refuted.
Print Assumptions C58_inferred.
Print Assumptions C58_legacy.
Print Assumptions C58_explicit_refuted.

Print Assumptions C57_accepts.
