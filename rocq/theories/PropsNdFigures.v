(** C156: the heat maps of an equation found on data with two or more spatial axes show planes of the scored fields. *)
From Coq Require Import String QArith Qabs ZArith List Bool Arith Lia.
From Verif Require Import VizData VizDataFacts PropsVizData NdFigures.
Import ListNotations.
Local Open Scope nat_scope.

(** ** Specification *)
(** an array over time and the spatial axes, time first *)
Definition on_grid (coords : list arr) (t a : arr) : Prop := shape a = size t :: map size coords.
(** no axis is empty *)
Definition nonempty (coords : list arr) (t : arr) : Prop := 0 < size t /\ Forall (fun c => 0 < size c) coords.
(** the middle of the further axes *)
Definition middles (extra : list arr) : list nat := map (fun c => size c / 2) extra.

(** ** Extremes *)
Lemma qmax_bound l : forall x, (x <= qmax x l)%Q /\ (forall y, In y l -> (y <= qmax x l)%Q) /\ In (qmax x l) (x :: l).
Proof.
  induction l as [|y l IH]; intros x; cbn [qmax]; [split; [apply Qle_refl|split; [intros y []|left; reflexivity]]|].
  destruct (Qle_bool x y) eqn:E.
  - apply Qle_bool_iff in E. destruct (IH y) as (A & B & C). split; [eapply Qle_trans; eauto|]. split; [intros z [<-|H]; auto|]. right. exact C.
  - assert (L : (y <= x)%Q). { destruct (Qlt_le_dec x y) as [H|H]; [|exact H]. apply Qlt_le_weak, Qle_bool_iff in H. congruence. }
    destruct (IH x) as (A & B & C). split; [exact A|]. split; [intros z [<-|H]; [eapply Qle_trans; eauto|auto]|]. destruct C as [C|C]; [left|right; right]; exact C.
Qed.
Lemma qmin_bound l : forall x, (qmin x l <= x)%Q /\ (forall y, In y l -> (qmin x l <= y)%Q) /\ In (qmin x l) (x :: l).
Proof.
  induction l as [|y l IH]; intros x; cbn [qmin]; [split; [apply Qle_refl|split; [intros y []|left; reflexivity]]|].
  destruct (Qle_bool x y) eqn:E.
  - apply Qle_bool_iff in E. destruct (IH x) as (A & B & C). split; [exact A|]. split; [intros z [<-|H]; [eapply Qle_trans; eauto|auto]|]. destruct C as [C|C]; [left|right; right]; exact C.
  - assert (L : (y <= x)%Q). { destruct (Qlt_le_dec x y) as [H|H]; [|exact H]. apply Qlt_le_weak, Qle_bool_iff in H. congruence. }
    destruct (IH y) as (A & B & C). split; [eapply Qle_trans; eauto|]. split; [intros z [<-|H]; auto|]. right. exact C.
Qed.
Lemma in_ravel a i : valid i (shape a) -> In (at_ a i) (ravel a).
Proof. intros V. apply in_map. now apply indices_valid. Qed.
Lemma ravel_in a q : In q (ravel a) -> exists i, valid i (shape a) /\ at_ a i = q.
Proof. intros H. apply in_map_iff in H as (i & E & V). exists i. split; [now apply indices_valid|exact E]. Qed.
Lemma ravel_nonempty a : 0 < size a -> exists x l, ravel a = x :: l.
Proof. intros H. rewrite <- ravel_length in H. destruct (ravel a); [cbn in H; lia|eauto]. Qed.

Lemma absmax_ok a : 0 < size a -> exists v, absmax a = VOk v /\ (forall i, valid i (shape a) -> (- v <= at_ a i <= v)%Q) /\ (exists i, valid i (shape a) /\ v = Qabs (at_ a i)).
Proof.
  intros P. destruct (ravel_nonempty a P) as (x & l & R). unfold absmax. rewrite R. cbn [map]. destruct (qmax_bound (map Qabs l) (Qabs x)) as (A & B & C).
  exists (qmax (Qabs x) (map Qabs l)). split; [reflexivity|]. split.
  - intros i V. apply in_ravel in V. rewrite R in V. assert (L : (Qabs (at_ a i) <= qmax (Qabs x) (map Qabs l))%Q). { destruct V as [V|V]; [rewrite <- V; exact A|apply B; now apply in_map]. }
    apply Qabs_Qle_condition in L. exact L.
  - change (Qabs x :: map Qabs l) with (map Qabs (x :: l)) in C. rewrite <- R in C. apply in_map_iff in C as (q & E & I). apply ravel_in in I as (i & V & Ei). exists i. split; [exact V|]. rewrite Ei. now symmetry.
Qed.
Lemma amin_ok a : 0 < size a -> exists v, amin a = VOk v /\ (forall i, valid i (shape a) -> (v <= at_ a i)%Q) /\ exists i, valid i (shape a) /\ v = at_ a i.
Proof.
  intros P. destruct (ravel_nonempty a P) as (x & l & R). unfold amin. rewrite R. destruct (qmin_bound l x) as (A & B & C). exists (qmin x l). split; [reflexivity|]. split.
  - intros i V. apply in_ravel in V. rewrite R in V. destruct V as [V|V]; [rewrite <- V; exact A|now apply B].
  - rewrite <- R in C. apply ravel_in in C as (i & V & E). exists i. split; [exact V|congruence].
Qed.
Lemma amax_ok a : 0 < size a -> exists v, amax a = VOk v /\ (forall i, valid i (shape a) -> (at_ a i <= v)%Q) /\ exists i, valid i (shape a) /\ v = at_ a i.
Proof.
  intros P. destruct (ravel_nonempty a P) as (x & l & R). unfold amax. rewrite R. destruct (qmax_bound l x) as (A & B & C). exists (qmax x l). split; [reflexivity|]. split.
  - intros i V. apply in_ravel in V. rewrite R in V. destruct V as [V|V]; [rewrite <- V; exact A|now apply B].
  - rewrite <- R in C. apply ravel_in in C as (i & V & E). exists i. split; [exact V|congruence].
Qed.

(** ** The middle cut *)
Lemma mid_cut_ok extra : forall P a, shape a = P ++ map size extra -> Forall (fun c => 0 < size c) extra ->
  exists b, mid_cut (length extra) a = VOk b /\ shape b = P /\ forall idx, length idx = length P -> at_ b idx = at_ a (idx ++ middles extra).
Proof.
  induction extra as [|e extra IH] using rev_ind; intros P a E F.
  - exists a. split; [reflexivity|]. split; [rewrite E; apply app_nil_r|]. intros idx _. cbn. now rewrite app_nil_r.
  - apply Forall_app in F as [F1 F2]. inversion F2 as [|? ? He _]; subst. rewrite app_length. cbn [length]. rewrite Nat.add_1_r. cbn [mid_cut].
    assert (SA : shape a = (P ++ map size extra) ++ [size e]) by (rewrite E, map_app, app_assoc; reflexivity).
    assert (L : length (shape a) - 1 = length (P ++ map size extra)) by (rewrite SA, app_length; cbn; lia). rewrite L.
    assert (N : nth (length (P ++ map size extra)) (shape a) 0 = size e) by (rewrite SA, app_nth2, Nat.sub_diag by lia; reflexivity). rewrite N.
    unfold take. rewrite N. assert (H : size e / 2 < size e) by (apply Nat.div_lt; lia). apply Nat.ltb_lt in H. rewrite H. cbn [vbind].
    set (b0 := {| shape := _; at_ := _ |}).
    assert (S0 : shape b0 = P ++ map size extra). { cbn. rewrite SA. change [size e] with (size e :: []). rewrite remove_at_app. apply app_nil_r. }
    destruct (IH P b0 S0 F1) as (b & Eb & Sb & Ab). exists b. split; [exact Eb|]. split; [exact Sb|]. intros idx Li. rewrite (Ab idx Li). cbn.
    f_equal. unfold middles. rewrite map_app. cbn [map]. rewrite app_assoc. rewrite <- (insert_at_app (idx ++ map (fun c => size c / 2) extra) [] (size e / 2)). rewrite app_nil_r.
    f_equal. rewrite !app_length, !map_length. lia.
Qed.

(** ** The residual heat map *)
(** Rows are the first axis, columns the second one, at the grid's coordinates; the values are u_t minus the right-hand side at the middle
    time step and the middle of every further axis; the colours are symmetric around zero and reach the largest residual shown. *)
Theorem C156_residual_map c1 c2 extra t ut yhat : nonempty (c1 :: c2 :: extra) t -> on_grid (c1 :: c2 :: extra) t ut -> on_grid (c1 :: c2 :: extra) t yhat ->
  exists h, residual_map (c1 :: c2 :: extra) t ut yhat = VOk h /\ hm_y h = c1 /\ hm_x h = c2 /\ shape (hm_c h) = [size c1; size c2] /\ hm_time h = at_ t [size t / 2] /\
    (forall i j, i < size c1 -> j < size c2 -> let idx := [size t / 2; i; j] ++ middles extra in at_ (hm_c h) [i; j] = (at_ ut idx - at_ yhat idx)%Q) /\
    hm_lo h = (- hm_hi h)%Q /\ (forall i j, i < size c1 -> j < size c2 -> (hm_lo h <= at_ (hm_c h) [i; j] <= hm_hi h)%Q) /\
    exists i j, i < size c1 /\ j < size c2 /\ hm_hi h = Qabs (at_ (hm_c h) [i; j]).
Proof.
  intros (Pt & F) Eu Ey. inversion F as [|? ? P1 F']; subst. inversion F' as [|? ? P2 F'']; subst. unfold residual_map.
  destruct (sub_same ut yhat ltac:(congruence)) as (r & Er & Sr & Ar). rewrite Er, Sr, Eu. cbn [hd map].
  assert (Hk : size t / 2 < size t) by (apply Nat.div_lt; lia). unfold take. rewrite Sr, Eu. cbn [nth map]. rewrite (proj2 (Nat.ltb_lt _ _) Hk). cbn [vbind remove_at].
  set (s := {| shape := _; at_ := _ |}). cbn [length]. replace (S (S (length extra)) - 2) with (length extra) by lia.
  destruct (mid_cut_ok extra [size c1; size c2] s eq_refl F'') as (c & Ec & Sc & Ac). rewrite Ec. cbn [vbind].
  assert (V : forall i, valid i (shape c) <-> exists a b, i = [a; b] /\ a < size c1 /\ b < size c2).
  { intros i. rewrite Sc. split; [intros H; inversion H as [|a ? i' ? Ha H']; subst; inversion H' as [|b ? i'' ? Hb H'']; subst; inversion H''; subst; eauto|]. intros (a & b & -> & Ha & Hb). repeat constructor; assumption. }
  assert (Pc : 0 < size c) by (unfold size; rewrite Sc; cbn; nia). destruct (absmax_ok c Pc) as (v & Ev & Bv & iv & Vv & Xv). rewrite Ev. cbn [vbind].
  unfold item. rewrite (proj2 (Nat.ltb_lt _ _) Hk). cbn [vbind]. unfold mesh. rewrite Sc, shape_eqb_refl. eexists. split; [reflexivity|]. cbn [hm_x hm_y hm_c hm_lo hm_hi hm_time].
  split; [reflexivity|]. split; [reflexivity|]. split; [exact Sc|]. split; [reflexivity|]. split.
  - intros i j Hi Hj. cbv zeta. rewrite (Ac [i; j] eq_refl). cbn [at_ s insert_at app]. rewrite Ar; [reflexivity|]. rewrite Eu. cbn [map]. constructor; [exact Hk|]. constructor; [exact Hi|]. constructor; [exact Hj|].
    unfold middles. clear - F''. induction F'' as [|e l He _ IH]; cbn [map]; constructor; [apply Nat.div_lt; lia|exact IH].
  - split; [reflexivity|]. split; [intros i j Hi Hj; apply Bv; apply V; eauto|]. apply V in Vv as (a & b & -> & Ha & Hb). exists a, b. repeat split; assumption.
Qed.

(** ** The comparison of both sides *)
(** A heat map with rows at [y], columns at [x], [time] in the title and the values [v row column] *)
Definition shows (h : heatmap) (y x : arr) (time : Q) (v : nat -> nat -> Q) : Prop :=
  hm_y h = y /\ hm_x h = x /\ shape (hm_c h) = [size y; size x] /\ hm_time h = time /\ forall i j, i < size y -> j < size x -> at_ (hm_c h) [i; j] = v i j.
(** One scale [lo, hi] that contains every value *)
Definition on_scale (lo hi : Q) (h : heatmap) : Prop :=
  hm_lo h = lo /\ hm_hi h = hi /\ forall i j, i < size (hm_y h) -> j < size (hm_x h) -> (lo <= at_ (hm_c h) [i; j] <= hi)%Q.

(** The steps: at most three, in order, with the first and the last one; all of them when there are no more than three. *)
Theorem C156_steps nt : (forall k, In k (panel_times nt) -> k < nt) /\ NoDup (panel_times nt) /\ length (panel_times nt) = Nat.min nt 3 /\
  (0 < nt -> hd 0 (panel_times nt) = 0 /\ last (panel_times nt) 0 = nt - 1 /\ In (nt / 2) (panel_times nt)) /\
  (forall a b, a < b < length (panel_times nt) -> nth a (panel_times nt) 0 < nth b (panel_times nt) 0).
Proof.
  unfold panel_times. destruct (Nat.leb_spec nt 3) as [H|H].
  - destruct nt as [|[|[|[|nt]]]]; [| | | |lia]; cbn [seq hd last length In Nat.div Nat.min]; (split; [intros k Hk; cbn in Hk; lia|]); (split; [repeat (constructor; [cbn; lia|]); constructor|]); (split; [reflexivity|]); (split; [intros; try lia; cbn; auto|]); intros a b [L1 L2]; cbn in L2 |- *; try lia;
      destruct a as [|[|[|?]]], b as [|[|[|?]]]; cbn; lia.
  - assert (D : 0 < nt / 2 < nt - 1). { split; [apply Nat.div_str_pos; lia|]. pose proof (Nat.div_mod nt 2 ltac:(lia)). pose proof (Nat.mod_upper_bound nt 2). lia. }
    revert D. generalize (nt / 2). intros m D. repeat apply conj.
    + intros k [<-|[<-|[<-|[]]]]; lia.
    + constructor; [cbn; lia|]. constructor; [cbn; lia|]. constructor; [cbn; lia|constructor].
    + cbn [length]. lia.
    + intros _. cbn. auto.
    + intros a b [L1 L2]. cbn in L2. destruct a as [|[|[|?]]], b as [|[|[|?]]]; cbn; lia.
Qed.

Lemma vmap_ok {A B} (R : A -> B -> Prop) (f : A -> vres B) l : (forall a, In a l -> exists b, f a = VOk b /\ R a b) -> exists r, vmap f l = VOk r /\ Forall2 R l r.
Proof.
  induction l as [|a l IH]; intros H; [exists []; split; [reflexivity|constructor]|]. destruct (H a (or_introl eq_refl)) as (b & Eb & Rb). destruct IH as (r & Er & Rr); [intros a' I; apply H; right; exact I|].
  exists (b :: r). split; [|constructor; assumption]. cbn [vmap]. rewrite Eb. cbn [vbind]. rewrite Er. reflexivity.
Qed.
Lemma insert_last {A} (l : list A) x : insert_at (length l) x l = l ++ [x].
Proof. rewrite <- (app_nil_r l) at 2. apply insert_at_app. Qed.

Lemma panels p c1 c2 : field_wf p -> spatial p = [c1; c2] -> 0 < size c1 -> 0 < size c2 -> 0 < size (t_coords p) ->
  exists cs lo hi, draw_panels p = VOk cs /\
    Forall2 (fun k c => shows (c_true c) c1 c2 (at_ (t_coords p) [k]) (fun i j => at_ (true_f p) [i; j; k]) /\ shows (c_pred c) c1 c2 (at_ (t_coords p) [k]) (fun i j => at_ (pred_f p) [i; j; k]))
      (panel_times (size (t_coords p))) cs /\
    Forall (fun c => on_scale lo hi (c_true c) /\ on_scale lo hi (c_pred c)) cs.
Proof.
  intros (W1 & W2 & _) Sp P1 P2 Pt. unfold expected_shape in W1, W2. rewrite Sp in W1, W2. cbn [map app] in W1, W2. unfold draw_panels. rewrite Sp.
  destruct (C156_steps (size (t_coords p))) as (B & _ & LL & _).
  assert (EK : exists k0 ks, panel_times (size (t_coords p)) = k0 :: ks) by (destruct (panel_times (size (t_coords p))); [cbn in LL; lia|eauto]). destruct EK as (k0 & ks & EK).
  assert (PT : 0 < size (true_f p)) by (unfold size; rewrite W1; cbn; nia). assert (PP : 0 < size (pred_f p)) by (unfold size; rewrite W2; cbn; nia).
  destruct (amin_ok _ PT) as (a & Ea & Ba & _), (amin_ok _ PP) as (b & Eb & Bb & _), (amax_ok _ PT) as (c & Ec & Bc & _), (amax_ok _ PP) as (e & Ee & Be & _).
  set (lo := qmin a [b]). set (hi := qmax c [e]).
  destruct (qmin_bound [b] a) as (L1 & L2 & _). destruct (qmax_bound [e] c) as (H1 & H2 & _). fold lo in L1, L2. fold hi in H1, H2. specialize (L2 b (or_introl eq_refl)). specialize (H2 e (or_introl eq_refl)).
  assert (M : forall X Y : vres (list column), match panel_times (size (t_coords p)) with [] => X | _ :: _ => Y end = Y) by (intros; rewrite EK; reflexivity).
  cbv zeta. rewrite M, Ea, Eb, Ec, Ee. cbn [vbind]. fold lo hi.
  match goal with |- context [vmap ?f _] => set (F := f) end.
  assert (G : exists r, vmap F (panel_times (size (t_coords p))) = VOk r /\ Forall2 (fun k col => (shows (c_true col) c1 c2 (at_ (t_coords p) [k]) (fun i j => at_ (true_f p) [i; j; k]) /\ shows (c_pred col) c1 c2 (at_ (t_coords p) [k]) (fun i j => at_ (pred_f p) [i; j; k])) /\ on_scale lo hi (c_true col) /\ on_scale lo hi (c_pred col)) (panel_times (size (t_coords p))) r).
  { apply vmap_ok. intros k Hk. apply B in Hk. apply Nat.ltb_lt in Hk as Hb. unfold F. rewrite W1, W2. cbn [length Nat.sub]. unfold take. rewrite W1, W2. cbn [nth]. rewrite Hb. cbn [vbind remove_at]. unfold item. rewrite Hb. cbn [vbind]. unfold mesh. cbn [shape]. rewrite shape_eqb_refl. cbn [vbind].
    eexists. split; [reflexivity|]. unfold shows, on_scale. cbn [c_true c_pred hm_x hm_y hm_c hm_lo hm_hi hm_time shape at_ insert_at].
    assert (V : forall i j, i < size c1 -> j < size c2 -> valid [i; j; k] [size c1; size c2; size (t_coords p)]) by (intros; repeat constructor; assumption).
    split; [split; repeat (split; [reflexivity|]); intros i j _ _; destruct i; reflexivity|]. split; (split; [reflexivity|]); (split; [reflexivity|]); intros i j Hi Hj; specialize (V i j Hi Hj).
    - rewrite <- W1 in V. split; [eapply Qle_trans; [exact L1|apply Ba, V]|eapply Qle_trans; [apply Bc, V|exact H1]].
    - rewrite <- W2 in V. split; [eapply Qle_trans; [exact L2|apply Bb, V]|eapply Qle_trans; [apply Be, V|exact H2]]. }
  destruct G as (r & Er & Fr). exists r, lo, hi. split; [exact Er|]. clear - Fr. induction Fr as [|k col ks cols [S O] _ [I1 I2]]; split; constructor; assumption.
Qed.

(** ** field_comparison on a grid *)
Lemma Forall_remove_at {A} (P : A -> Prop) i l : Forall P l -> Forall P (remove_at i l).
Proof. intros F. revert i. induction F as [|x l Hx F IH]; intros [|i]; cbn; try constructor; auto. Qed.
Lemma insert_at_snoc {A} i (x k : A) (l : list A) : i <= length l -> insert_at i x (l ++ [k]) = insert_at i x l ++ [k].
Proof. revert l. induction i as [|i IH]; intros l H; [reflexivity|]. destruct l as [|y l]; [cbn in H; lia|]. cbn. rewrite IH by (cbn in H; lia). reflexivity. Qed.
Lemma at_time_last a idx k : at_ (time_last a) (idx ++ [k]) = at_ a (k :: idx).
Proof. cbn. now rewrite last_last, removelast_last. Qed.
Lemma data_ok coords t ut yhat : coords <> [] -> on_grid coords t ut -> on_grid coords t yhat ->
  exists d, field_new (Some (CList (map CSeq coords))) None t (time_last ut) (time_last yhat) None None = VOk d /\ field_wf d /\ spatial d = coords /\ t_coords d = t /\ true_f d = time_last ut /\ pred_f d = time_last yhat /\
    forall idx k, valid (idx ++ [k]) (map size coords ++ [size t]) -> at_ (resid_f d) (idx ++ [k]) = (at_ ut (k :: idx) - at_ yhat (k :: idx))%Q.
Proof.
  intros N Eu Ey. unfold field_new. assert (NS : normalize_spatial_coords (CList (map CSeq coords)) = VOk coords).
  { destruct coords as [|c cs]; [congruence|]. cbn. f_equal. f_equal. rewrite map_map. apply map_id. }
  rewrite NS. unfold field_init. assert (Su : shape (time_last ut) = expected_shape coords t) by (cbn [time_last shape]; rewrite Eu; reflexivity). assert (Sy : shape (time_last yhat) = expected_shape coords t) by (cbn [time_last shape]; rewrite Ey; reflexivity).
  rewrite Su, Sy, !shape_eqb_refl. cbn [negb]. destruct (sub_same (time_last ut) (time_last yhat) ltac:(congruence)) as (r & Er & Sr & Ar). rewrite Er. eexists. split; [reflexivity|]. cbn [spatial t_coords true_f pred_f resid_f].
  split; [unfold field_wf; cbn [spatial t_coords true_f pred_f resid_f]; repeat split; congruence|]. repeat (split; [reflexivity|]). intros idx k V. rewrite Ar by (rewrite Su; exact V). now rewrite !at_time_last.
Qed.

(** Two spatial axes: the columns show the whole fields at the steps; nothing is cut, whatever the slice options say; the metadata hold all
    values with the time axis last. *)
Theorem C156_comparison_2d c1 c2 t ut yhat sa si : nonempty [c1; c2] t -> on_grid [c1; c2] t ut -> on_grid [c1; c2] t yhat ->
  exists cmp lo hi, field_comparison [c1; c2] t ut yhat sa si = VOk (Some cmp) /\
    Forall2 (fun k c => shows (c_true c) c1 c2 (at_ t [k]) (fun i j => at_ ut [k; i; j]) /\ shows (c_pred c) c1 c2 (at_ t [k]) (fun i j => at_ yhat [k; i; j])) (panel_times (size t)) (cmp_columns cmp) /\
    Forall (fun c => on_scale lo hi (c_true c) /\ on_scale lo hi (c_pred c)) (cmp_columns cmp) /\
    (forall i j k, i < size c1 -> j < size c2 -> k < size t -> at_ (true_f (cmp_data cmp)) [i; j; k] = at_ ut [k; i; j] /\ at_ (pred_f (cmp_data cmp)) [i; j; k] = at_ yhat [k; i; j] /\ at_ (resid_f (cmp_data cmp)) [i; j; k] = (at_ ut [k; i; j] - at_ yhat [k; i; j])%Q).
Proof.
  intros (Pt & F) Eu Ey. inversion F as [|? ? P1 F']; subst. inversion F' as [|? ? P2 _]; subst.
  destruct (data_ok [c1; c2] t ut yhat ltac:(discriminate) Eu Ey) as (d & Ed & W & Sp & Et & ET & EP & R). unfold field_comparison. rewrite Ed. unfold comparison_maps. rewrite Sp. cbn [length Nat.ltb Nat.leb vbind].
  destruct (panels d c1 c2 W Sp P1 P2) as (cs & lo & hi & E & F2 & FS); [now rewrite Et|]. rewrite E. cbn [vbind]. exists (mkCmp cs d), lo, hi. split; [reflexivity|]. cbn [cmp_columns cmp_data]. rewrite Et, ET, EP in F2. split; [exact F2|]. split; [exact FS|].
  intros i j k Hi Hj Hk. rewrite ET, EP. split; [reflexivity|]. split; [reflexivity|]. apply (R [i; j] k). cbn. repeat constructor; assumption.
Qed.

(** Three or more: the columns show one plane, given by the options (slice_axis and slice_index, clamped as in C80: axis [ax], place [ix])
    and the middle of the further axes, the same for both fields and every step; the metadata hold the uncut fields. *)
Theorem C156_comparison coords c1 c2 extra t ut yhat sa si : let n := length coords in let ax := axis_of n sa in let ix := index_of (size (nth ax coords dflt)) si in
  remove_at ax coords = c1 :: c2 :: extra -> nonempty coords t -> on_grid coords t ut -> on_grid coords t yhat ->
  let plane k i j := k :: insert_at ax ix ([i; j] ++ middles extra) in
  exists cmp lo hi, field_comparison coords t ut yhat sa si = VOk (Some cmp) /\
    Forall2 (fun k c => shows (c_true c) c1 c2 (at_ t [k]) (fun i j => at_ ut (plane k i j)) /\ shows (c_pred c) c1 c2 (at_ t [k]) (fun i j => at_ yhat (plane k i j))) (panel_times (size t)) (cmp_columns cmp) /\
    Forall (fun c => on_scale lo hi (c_true c) /\ on_scale lo hi (c_pred c)) (cmp_columns cmp) /\
    spatial (cmp_data cmp) = coords /\
    (forall idx k, valid idx (map size coords) -> k < size t -> at_ (true_f (cmp_data cmp)) (idx ++ [k]) = at_ ut (k :: idx) /\ at_ (pred_f (cmp_data cmp)) (idx ++ [k]) = at_ yhat (k :: idx) /\ at_ (resid_f (cmp_data cmp)) (idx ++ [k]) = (at_ ut (k :: idx) - at_ yhat (k :: idx))%Q).
Proof.
  intros n ax ix Rm (Pt & F) Eu Ey plane.
  assert (N : coords <> []) by (intros ->; destruct ax; discriminate Rm). destruct (data_ok coords t ut yhat N Eu Ey) as (d & Ed & W & Sp & Et & ET & EP & R).
  assert (Hn : 0 < n) by (unfold n; destruct coords; [congruence|cbn; lia]). assert (Hax : ax < n) by (apply clamp_lt; exact Hn).
  assert (Ln : n = S (S (S (length extra)))). { pose proof (remove_at_length ax coords Hax) as L. rewrite Rm in L. cbn in L. unfold n in *. lia. }
  assert (Psz : 0 < size (nth ax coords dflt)) by (rewrite Forall_forall in F; apply F, nth_In; exact Hax).
  assert (FE : Forall (fun c => 0 < size c) (c1 :: c2 :: extra)). { rewrite <- Rm. apply Forall_remove_at. exact F. }
  pose proof (Forall_inv FE) as P1. pose proof (Forall_inv (Forall_inv_tail FE)) as P2. pose proof (Forall_inv_tail (Forall_inv_tail FE)) as FX. cbv beta in P1, P2.
  destruct (C80_slice_values d sa si c1 c2 extra W) as (p & Ep & Wp & Spp & Ttp & V).
  { rewrite Sp. exact Rm. } { rewrite Sp. exact Psz. } { exact FX. }
  destruct (panels p c1 c2 Wp Spp P1 P2) as (cs & lo & hi & E & F2 & FS); [now rewrite Ttp, Et|].
  unfold field_comparison. rewrite Ed. unfold comparison_maps. assert (T : Nat.ltb 2 (length (spatial d)) = true) by (rewrite Sp; fold n; rewrite Ln; reflexivity). rewrite T. rewrite Ep. cbn [vbind]. rewrite E. cbn [vbind]. exists (mkCmp cs d), lo, hi. split; [reflexivity|]. cbn [cmp_columns cmp_data].
  split; [|split; [exact FS|split; [exact Sp|]]].
  - rewrite Ttp, Et in F2.
    assert (G : forall i j k, at_ (true_f p) [i; j; k] = at_ ut (plane k i j) /\ at_ (pred_f p) [i; j; k] = at_ yhat (plane k i j)).
    { intros i j k. specialize (V i j k). cbv zeta in V. rewrite Sp in V. fold n ax ix in V. destruct V as (V1 & V2 & _). rewrite V1, V2, ET, EP.
      assert (I : insert_at ax ix ([i; j] ++ map (fun c => size c / 2) extra ++ [k]) = insert_at ax ix ([i; j] ++ middles extra) ++ [k]).
      { unfold middles. rewrite app_assoc. apply insert_at_snoc. rewrite app_length, map_length. cbn [length]. lia. }
      rewrite I, !at_time_last. split; reflexivity. }
    clear - F2 G. induction F2 as [|k c ks cs' [S1 S2] _ IH]; constructor; [|exact IH]. destruct S1 as (A1 & A2 & A3 & A4 & A5), S2 as (B1 & B2 & B3 & B4 & B5). split; (split; [assumption|]); (split; [assumption|]); (split; [assumption|]); (split; [assumption|]); intros i j Hi Hj; [rewrite A5 by assumption|rewrite B5 by assumption]; apply G.
  - intros idx k Vi Hk. rewrite ET, EP, !at_time_last. split; [reflexivity|]. split; [reflexivity|]. apply R. apply Forall2_app; [exact Vi|repeat constructor; exact Hk].
Qed.

(** Without slice options both figures show the same plane: at the middle step, which has a column of its own, the residual map is the
    difference of the two panels, cell by cell. *)
Theorem C156_same_plane c1 c2 extra t ut yhat : nonempty (c1 :: c2 :: extra) t -> on_grid (c1 :: c2 :: extra) t ut -> on_grid (c1 :: c2 :: extra) t yhat ->
  exists h cmp c, residual_map (c1 :: c2 :: extra) t ut yhat = VOk h /\ field_comparison (c1 :: c2 :: extra) t ut yhat (-1) None = VOk (Some cmp) /\ In c (cmp_columns cmp) /\
    hm_time h = hm_time (c_true c) /\ hm_x h = hm_x (c_true c) /\ hm_y h = hm_y (c_true c) /\
    forall i j, i < size c1 -> j < size c2 -> at_ (hm_c h) [i; j] = (at_ (hm_c (c_true c)) [i; j] - at_ (hm_c (c_pred c)) [i; j])%Q.
Proof.
  intros Pn Eu Ey. destruct (C156_residual_map c1 c2 extra t ut yhat Pn Eu Ey) as (h & Eh & Hy & Hx & _ & Ht & Hv & _).
  assert (G : exists cmp, field_comparison (c1 :: c2 :: extra) t ut yhat (-1) None = VOk (Some cmp) /\
    Forall2 (fun k c => shows (c_true c) c1 c2 (at_ t [k]) (fun i j => at_ ut ([k; i; j] ++ middles extra)) /\ shows (c_pred c) c1 c2 (at_ t [k]) (fun i j => at_ yhat ([k; i; j] ++ middles extra))) (panel_times (size t)) (cmp_columns cmp)).
  { destruct extra as [|e extra] using rev_ind; [destruct (C156_comparison_2d c1 c2 t ut yhat (-1) None Pn Eu Ey) as (cmp & lo & hi & E & F & _); exists cmp; split; [exact E|exact F]|]. clear IHextra.
    assert (Ax : axis_of (length (c1 :: c2 :: extra ++ [e])) (-1) = length (c1 :: c2 :: extra)). { cbn [length]. rewrite app_length. cbn [length]. unfold axis_of, clamp. cbn [Z.ltb Z.compare]. lia. }
    assert (Rm : remove_at (axis_of (length (c1 :: c2 :: extra ++ [e])) (-1)) (c1 :: c2 :: extra ++ [e]) = c1 :: c2 :: extra).
    { rewrite Ax. change (c1 :: c2 :: extra ++ [e]) with ((c1 :: c2 :: extra) ++ e :: []). rewrite remove_at_app. apply app_nil_r. }
    destruct (C156_comparison _ c1 c2 extra t ut yhat (-1) None Rm Pn Eu Ey) as (cmp & lo & hi & E & F & _). exists cmp. split; [exact E|]. rewrite Ax in F.
    assert (Ne : nth (length (c1 :: c2 :: extra)) (c1 :: c2 :: extra ++ [e]) dflt = e) by (change (c1 :: c2 :: extra ++ [e]) with ((c1 :: c2 :: extra) ++ [e]); rewrite app_nth2, Nat.sub_diag by lia; reflexivity). rewrite Ne in F.
    assert (Pe : 0 < size e). { destruct Pn as (_ & Fp). rewrite Forall_forall in Fp. apply Fp. cbn. right. right. apply in_or_app. right. left. reflexivity. }
    assert (Ix : index_of (size e) None = size e / 2). { unfold index_of, clamp. assert (size e / 2 < size e) by (apply Nat.div_lt; lia). lia. } rewrite Ix in F.
    assert (I : forall i j, insert_at (length (c1 :: c2 :: extra)) (size e / 2) ([i; j] ++ middles extra) = [i; j] ++ middles (extra ++ [e])).
    { intros i j. replace (length (c1 :: c2 :: extra)) with (length ([i; j] ++ middles extra)) by (unfold middles; rewrite app_length, map_length; reflexivity). rewrite insert_last. unfold middles. rewrite map_app, <- app_assoc. reflexivity. }
    clear - F I. induction F as [|k c ks cs' [S1 S2] _ IH]; constructor; [|exact IH]. destruct S1 as (A1 & A2 & A3 & A4 & A5), S2 as (B1 & B2 & B3 & B4 & B5). split; (split; [assumption|]); (split; [assumption|]); (split; [assumption|]); (split; [assumption|]); intros i j Hi Hj; [rewrite A5 by assumption|rewrite B5 by assumption]; rewrite I; reflexivity. }
  destruct G as (cmp & E & F). destruct (C156_steps (size t)) as (_ & _ & _ & M & _). destruct (M (proj1 Pn)) as (_ & _ & Im).
  assert (H : exists c, In c (cmp_columns cmp) /\ shows (c_true c) c1 c2 (at_ t [size t / 2]) (fun i j => at_ ut ([size t / 2; i; j] ++ middles extra)) /\ shows (c_pred c) c1 c2 (at_ t [size t / 2]) (fun i j => at_ yhat ([size t / 2; i; j] ++ middles extra))).
  { clear - F Im. induction F as [|k c ks cs' S _ IH]; [destruct Im|]. destruct Im as [<-|Im]; [exists c; split; [left; reflexivity|exact S]|]. destruct (IH Im) as (c' & I' & S'). exists c'. split; [right; exact I'|exact S']. }
  destruct H as (c & Ic & (A1 & A2 & A3 & A4 & A5) & (B1 & B2 & B3 & B4 & B5)). exists h, cmp, c. split; [exact Eh|]. split; [exact E|]. split; [exact Ic|]. split; [congruence|]. split; [congruence|]. split; [congruence|].
  intros i j Hi Hj. rewrite A5, B5 by assumption. apply Hv; assumption.
Qed.

(** "The residual figure shows the plane the options ask for" is false: only the comparison heeds slice_axis and slice_index.  Here the
    comparison at slice_index 0 shows a field that is right everywhere, the residual figure one that is wrong everywhere. *)
Definition row (l : list Q) : arr := {| shape := [length l]; at_ := fun i => nth (hd 0 i) l 0%Q |}.
Theorem C156_options_refuted : exists coords t ut yhat h cmp, nonempty coords t /\ on_grid coords t ut /\ on_grid coords t yhat /\
  residual_map coords t ut yhat = VOk h /\ field_comparison coords t ut yhat (-1) (Some 0%Z) = VOk (Some cmp) /\
  (forall c, In c (cmp_columns cmp) -> at_ (hm_c (c_true c)) [0; 0] = at_ (hm_c (c_pred c)) [0; 0]) /\ at_ (hm_c h) [0; 0] = 1%Q.
Proof.
  exists [row [0%Q]; row [0%Q]; row [0%Q; 1%Q]], (row [0%Q]), {| shape := [1; 1; 1; 2]; at_ := fun i => match i with [_; _; _; 1] => 1%Q | _ => 0%Q end |}, {| shape := [1; 1; 1; 2]; at_ := fun _ => 0%Q |}.
  eexists. eexists. split; [split; [cbn; lia|repeat constructor]|]. split; [reflexivity|]. split; [reflexivity|]. split; [reflexivity|]. split; [reflexivity|]. split; [|reflexivity]. cbn. intros c [<-|[]]. reflexivity.
Qed.
(** "The titles give the time of the data" depends on the caller: the time axis the fields come with is 0, 1, 2, ... (C112), so the
    figures are labelled with step numbers. *)
Theorem C156_titles c1 c2 extra nt ut yhat : let t := row (map (fun k => inject_Z (Z.of_nat k)) (seq 0 nt)) in
  nonempty (c1 :: c2 :: extra) t -> on_grid (c1 :: c2 :: extra) t ut -> on_grid (c1 :: c2 :: extra) t yhat ->
  exists h, residual_map (c1 :: c2 :: extra) t ut yhat = VOk h /\ hm_time h = inject_Z (Z.of_nat (nt / 2)).
Proof.
  intros t Pn Eu Ey. destruct (C156_residual_map c1 c2 extra t ut yhat Pn Eu Ey) as (h & E & _ & _ & _ & Ht & _). exists h. split; [exact E|]. rewrite Ht.
  assert (St : size t = nt) by (unfold t, row, size; cbn; rewrite map_length, seq_length; lia). rewrite St. destruct Pn as (Pt & _). rewrite St in Pt. cbn. assert (Hk : nt / 2 < nt) by (apply Nat.div_lt; lia).
  rewrite nth_indep with (d' := inject_Z (Z.of_nat 0)) by (rewrite map_length, seq_length; exact Hk). rewrite map_nth with (f := fun k => inject_Z (Z.of_nat k)). rewrite seq_nth by exact Hk. reflexivity.
Qed.
(** Fields whose shape is not that of the grid: the comparison is a warning. *)
Theorem C156_refused coords t ut yhat sa si : shape ut <> [] -> coords <> [] -> shape ut <> size t :: map size coords -> shape yhat = shape ut -> field_comparison coords t ut yhat sa si = VOk None.
Proof.
  intros U N S E. unfold field_comparison, field_new. assert (NS : normalize_spatial_coords (CList (map CSeq coords)) = VOk coords).
  { destruct coords as [|c cs]; [congruence|]. cbn. f_equal. f_equal. rewrite map_map. apply map_id. }
  rewrite NS. unfold field_init. cbn [shape time_last]. rewrite E, shape_eqb_refl. cbn [negb].
  assert (D : shape_eqb (tl (shape ut) ++ [hd 0 (shape ut)]) (expected_shape coords t) = false).
  { destruct (shape_eqb _ _) eqn:X; [|reflexivity]. exfalso. apply shape_eqb_eq in X. unfold expected_shape in X. destruct (shape ut) as [|n s] eqn:Es; [congruence|]. cbn [tl hd] in X. apply app_inj_tail in X as [-> ->]. now apply S. }
  rewrite D. reflexivity.
Qed.
Print Assumptions C156_residual_map.
Print Assumptions C156_steps.
Print Assumptions C156_comparison_2d.
Print Assumptions C156_comparison.
Print Assumptions C156_same_plane.
Print Assumptions C156_options_refuted.
Print Assumptions C156_titles.
Print Assumptions C156_refused.
