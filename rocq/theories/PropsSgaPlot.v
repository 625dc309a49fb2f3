(** C94 (SGA field comparison), C95 (SGA parity plot), C96 (SGA residual plot). *)
From Coq Require Import QArith Lqa Permutation.
From Verif Require Import Base VizData VizDataFacts TimePick TimePickFacts SgaPlot SgaPlotFacts.
Local Open Scope string_scope.
Local Open Scope list_scope.
Local Open Scope nat_scope.

(** ** Points of a named grid *)
(** The array has one value per point of the grid with these axes. *)
Definition on_grid (axes : list string) (coords : string -> list Q) (u : arr) : Prop :=
  shape u = map (fun a => List.length (coords a)) axes.
(** A grid point: an index for every axis. *)
Definition grid_point (axes : list string) (coords : string -> list Q) (p : string -> nat) : Prop :=
  forall a, In a axes -> p a < List.length (coords a).
(** The value of a field at a point. *)
Definition field_at (axes : list string) (u : arr) (p : string -> nat) : Q := at_ u (map p axes).
(** Where a plot in (space, time) layout shows a point. *)
Definition other_axes (axes : list string) (lhs : string) : list string :=
  filter (fun a => if string_dec a lhs then false else true) axes.
Definition shown_at (axes : list string) (lhs : string) (p : string -> nat) : list nat := map p (other_axes axes lhs) ++ [p lhs].

Lemma spatial_other c : spatial_axes c = other_axes (c_axes c) (c_lhs c).
Proof.
  unfold spatial_axes, other_axes. apply filter_ext. intros a. destruct (string_dec a (c_lhs c)) as [->|N]; [rewrite String.eqb_refl; reflexivity|].
  apply String.eqb_neq in N. rewrite N. reflexivity.
Qed.
Lemma axes_perm axes lhs : NoDup axes -> In lhs axes -> Permutation (other_axes axes lhs ++ [lhs]) axes.
Proof.
  intros N I. apply NoDup_Permutation; [|exact N|].
  - eapply Permutation_NoDup; [apply Permutation_cons_append|]. constructor.
    + unfold other_axes. rewrite filter_In. intros [_ X]. destruct (string_dec lhs lhs); congruence.
    + unfold other_axes. apply NoDup_filter. exact N.
  - intros a. rewrite in_app_iff. unfold other_axes. rewrite filter_In. cbn. destruct (string_dec a lhs) as [->|D]; split; intros H; auto.
    destruct H as [[X _]|[E|[]]]; [exact X|congruence].
Qed.
Lemma perm_names c : perm_of c = map (fun a => index_of a (c_axes c)) (other_axes (c_axes c) (c_lhs c) ++ [c_lhs c]).
Proof. unfold perm_of. rewrite map_app, spatial_other. reflexivity. Qed.
Lemma shown_names axes lhs p : shown_at axes lhs p = map p (other_axes axes lhs ++ [lhs]).
Proof. unfold shown_at. rewrite map_app. reflexivity. Qed.
Lemma layout_at c u p : NoDup (c_axes c) -> In (c_lhs c) (c_axes c) ->
  at_ (transpose u (perm_of c)) (shown_at (c_axes c) (c_lhs c) p) = field_at (c_axes c) u p.
Proof. intros N I. rewrite perm_names, shown_names. apply transpose_at; [exact N|apply axes_perm; assumption]. Qed.
Lemma layout_shape c coords u : NoDup (c_axes c) -> In (c_lhs c) (c_axes c) -> on_grid (c_axes c) coords u ->
  shape (transpose u (perm_of c)) = map (fun a => List.length (coords a)) (other_axes (c_axes c) (c_lhs c) ++ [c_lhs c]).
Proof. intros N I G. rewrite perm_names. apply (transpose_shape _ _ _ (fun a => List.length (coords a))); [exact G|apply axes_perm; assumption]. Qed.
Lemma size_vector l : size (vector l) = List.length l.
Proof. unfold size, vector. cbn. lia. Qed.
Lemma layout_expected c coords : 
  expected_shape (map (fun a => vector (coords a)) (other_axes (c_axes c) (c_lhs c))) (vector (coords (c_lhs c)))
  = map (fun a => List.length (coords a)) (other_axes (c_axes c) (c_lhs c) ++ [c_lhs c]).
Proof. unfold expected_shape. rewrite map_map, map_app. cbn [map]. rewrite size_vector. f_equal. apply map_ext. intros a. apply size_vector. Qed.
Lemma shown_valid c coords u p : NoDup (c_axes c) -> In (c_lhs c) (c_axes c) -> on_grid (c_axes c) coords u -> grid_point (c_axes c) coords p ->
  valid (shown_at (c_axes c) (c_lhs c) p) (shape (transpose u (perm_of c))).
Proof.
  intros N I G P. rewrite (layout_shape c coords) by assumption. rewrite shown_names. unfold valid.
  assert (F : forall a, In a (other_axes (c_axes c) (c_lhs c) ++ [c_lhs c]) -> p a < List.length (coords a)).
  { intros a H. apply P. exact (Permutation_in _ (axes_perm _ _ N I) H). }
  induction (other_axes (c_axes c) (c_lhs c) ++ [c_lhs c]) as [|a l IH]; [constructor|]. constructor; [apply F; now left|]. apply IH. intros b H. apply F. now right.
Qed.

(** ** C94 *)
(** With both fields on the grid, whatever the order of its axes, the plot data hold both fields at every
    point, their difference, and the coordinates of the axes in order; the container never rejects them. *)
Theorem C94_same_point c : NoDup (c_axes c) -> In (c_lhs c) (c_axes c) ->
  on_grid (c_axes c) (c_coords c) (c_u c) -> on_grid (c_axes c) (c_coords c) (c_u_origin c) ->
  exists d, field_comparison_data c = VOk d /\
    map ravel (spatial d) = map (c_coords c) (other_axes (c_axes c) (c_lhs c)) /\ ravel (t_coords d) = c_coords c (c_lhs c) /\
    forall p, grid_point (c_axes c) (c_coords c) p ->
      at_ (true_f d) (shown_at (c_axes c) (c_lhs c) p) = field_at (c_axes c) (c_u_origin c) p /\
      at_ (pred_f d) (shown_at (c_axes c) (c_lhs c) p) = field_at (c_axes c) (c_u c) p /\
      at_ (resid_f d) (shown_at (c_axes c) (c_lhs c) p) = (field_at (c_axes c) (c_u_origin c) p - field_at (c_axes c) (c_u c) p)%Q.
Proof.
  intros N I G1 G2. unfold field_comparison_data, field_init. rewrite spatial_other, (layout_expected c (c_coords c)).
  rewrite (layout_shape c (c_coords c) (c_u_origin c)), (layout_shape c (c_coords c) (c_u c)), !shape_eqb_refl by assumption. cbn [negb].
  destruct (sub_same (transpose (c_u_origin c) (perm_of c)) (transpose (c_u c) (perm_of c))) as (r & S & Sr & V).
  { rewrite (layout_shape c (c_coords c) (c_u_origin c)), (layout_shape c (c_coords c) (c_u c)) by assumption. reflexivity. }
  rewrite S. eexists. split; [reflexivity|]. cbn [spatial t_coords true_f pred_f resid_f]. split.
  { rewrite map_map. apply map_ext. intros a. apply ravel_vector. }
  split; [apply ravel_vector|]. intros p P. rewrite !layout_at by assumption. split; [reflexivity|]. split; [reflexivity|].
  rewrite V; [rewrite !layout_at by assumption; reflexivity|]. eapply shown_valid; eassumption.
Qed.
(** Fields of different sizes: the plot raises ValueError. *)
Theorem C94_rejects c : shape (transpose (c_u_origin c) (perm_of c)) <> shape (transpose (c_u c) (perm_of c)) ->
  field_comparison_data c = VValueError.
Proof.
  intros H. unfold field_comparison_data, field_init. destruct (shape_eqb _ _) eqn:E; [|reflexivity]. apply shape_eqb_eq in E. contradiction.
Qed.
(** The panels of the 2-D plot: titles are the times drawn; the first and the last time are among them. *)
Theorem C94_panels d : shape (t_coords d) = [size (t_coords d)] ->
  (forall q, In q (field_panels d) -> nth_error (ravel (t_coords d)) (drawn q) = Some (title q)) /\
  List.length (field_panels d) = Nat.min 3 (size (t_coords d)) /\
  (0 < size (t_coords d) -> (exists q, In q (field_panels d) /\ drawn q = 0) /\ exists q, In q (field_panels d) /\ drawn q = size (t_coords d) - 1).
Proof.
  intros Hs. unfold field_panels, shown_times. set (n := size (t_coords d)) in *.
  assert (V : forall i, i < n -> nth_error (ravel (t_coords d)) i = Some (at_ (t_coords d) [i])).
  { intros i Hi. unfold ravel. rewrite Hs. cbn [indices].
    assert (M : forall s, flat_map (fun i : nat => map (cons i) [[]]) s = map (fun i => [i]) s) by (induction s as [|j s IH]; [reflexivity|cbn in *; now rewrite IH]).
    rewrite M, !nth_error_map. rewrite (nth_error_nth' _ 0) by (rewrite seq_length; exact Hi). rewrite seq_nth by exact Hi. reflexivity. }
  destruct (Nat.leb_spec n 3) as [H|H].
  - split; [|split].
    + intros q I. apply in_map_iff in I as (i & <- & I). apply in_seq in I. cbn [drawn title]. apply V. lia.
    + rewrite map_length, seq_length. lia.
    + intros P. split; [exists (mkPanel (at_ (t_coords d) [0]) 0)|exists (mkPanel (at_ (t_coords d) [n - 1]) (n - 1))];
        (split; [apply in_map_iff; eexists; split; [reflexivity|apply in_seq; lia]|reflexivity]).
  - assert (n / 2 < n) by (apply Nat.div_lt; lia). split; [|split].
    + intros q I. cbn [map In] in I. destruct I as [<-|[<-|[<-|[]]]]; cbn [drawn title]; apply V; lia.
    + cbn [map List.length]. lia.
    + intros _. cbn [map]. split; [exists (mkPanel (at_ (t_coords d) [0]) 0)|exists (mkPanel (at_ (t_coords d) [n - 1]) (n - 1))];
        (split; [cbn; auto|reflexivity]).
Qed.
(** "The plot compares the data with something else": false without metadata and edge deletion, the fit's
    default.  The two fields are the same array and the difference is zero everywhere. *)
Theorem C94_compares_with_itself_refuted g lhs dt tmpl : NoDup (g_axes g) -> In lhs (g_axes g) -> on_grid (g_axes g) (g_coords g) (g_u g) ->
  exists d, field_comparison_data (make_context g (mkPrep None false) lhs dt tmpl) = VOk d /\
    forall p, grid_point (g_axes g) (g_coords g) p -> (at_ (resid_f d) (shown_at (g_axes g) lhs p) == 0)%Q.
Proof.
  intros N I G. destruct (C94_same_point (make_context g (mkPrep None false) lhs dt tmpl) N I G G) as (d & E & _ & _ & V).
  exists d. split; [exact E|]. intros p P. destruct (V p P) as (_ & _ & R). cbn [make_context c_axes c_lhs g_axes after_edges after_metadata delete_edges metadata_on] in R. rewrite R. unfold make_context. cbn [c_u c_u_origin]. cbn [after_edges after_metadata delete_edges metadata_on]. ring.
Qed.
(** "The plot can be drawn for every fitted model": false after edge deletion, whatever the data. *)
Lemma insert_shape ax (s : list nat) k : ax < List.length s -> nth ax (firstn ax s ++ k :: skipn (S ax) s) 0 = k.
Proof. intros H. rewrite app_nth2; rewrite firstn_length_le by lia; [|lia]. rewrite Nat.sub_diag. reflexivity. Qed.
Theorem C94_edge_deletion_refuted g md lhs dt tmpl : NoDup (g_axes g) -> In "x" (g_axes g) -> In lhs (g_axes g) ->
  on_grid (g_axes g) (g_coords g) (g_u g) -> (forall x t u, md = Some (x, t, u) -> shape u = shape (g_u g)) -> 0 < List.length (g_coords g "x") ->
  field_comparison_data (make_context g (mkPrep md true) lhs dt tmpl) = VValueError.
Proof.
  intros N Ix Il G M P. apply C94_rejects.
  set (h := after_metadata g (mkPrep md true)).
  assert (Eax : g_axes h = g_axes g) by (unfold h, after_metadata; cbn; destruct md as [[[x t] u]|]; reflexivity).
  assert (Sh : shape (g_u h) = shape (g_u g)).
  { unfold h, after_metadata. cbn. destruct md as [[[x t] u]|]; [|reflexivity]. cbn. eapply M. reflexivity. }
  unfold make_context. fold h. unfold after_edges. cbn [delete_edges]. set (c := mkC _ _ _ _ _ _ _ _).
  assert (Ac : c_axes c = g_axes g) by (unfold c; cbn; exact Eax).
  assert (Lc : c_lhs c = lhs) by reflexivity.
  intros X. pose proof (axes_perm (g_axes g) lhs N Il) as Pm.
  set (k := index_of "x" (other_axes (g_axes g) lhs ++ [lhs])).
  assert (Ik : In "x" (other_axes (g_axes g) lhs ++ [lhs])) by (eapply Permutation_in; [symmetry; exact Pm|exact Ix]).
  apply (f_equal (fun s => nth k s 0)) in X. cbn [transpose shape] in X. rewrite perm_names, Ac, Lc in X. rewrite !map_map in X.
  assert (T : forall f : string -> nat, nth k (map f (other_axes (g_axes g) lhs ++ [lhs])) 0 = f "x").
  { intros f. apply nth_error_nth. rewrite nth_error_map. unfold k. rewrite index_of_nth by exact Ik. reflexivity. }
  rewrite !T in X. unfold c in X. cbn [c_u c_u_origin g_u] in X. rewrite Eax in X. set (ax := index_of "x" (g_axes g)) in *.
  assert (Hax : ax < List.length (shape (g_u h))). { rewrite Sh, G, map_length. apply index_of_lt. exact Ix. }
  assert (Hn : nth ax (shape (g_u g)) 0 = List.length (g_coords g "x")). { rewrite G. apply nth_error_nth. rewrite nth_error_map. unfold ax. rewrite index_of_nth by exact Ix. reflexivity. }
  cbn [crop shape] in X. rewrite (insert_shape ax (shape (g_u h)) _ Hax) in X. rewrite Sh, Hn in X. set (n := List.length (g_coords g "x")) in *.
  assert (edge_hi n < n) by (unfold edge_hi; apply Nat.div_lt_upper_bound; lia). lia.
Qed.
(** Edge deletion itself is faithful: it keeps the points whose x index is between a tenth and nine
    tenths, with their coordinates and values, on a consistent grid. *)
Definition shift (axis : string) (k : nat) (p : string -> nat) : string -> nat := fun a => if string_dec a axis then k + p a else p a.
Lemma slice_length lo hi (l : list Q) : hi <= List.length l -> List.length (slice lo hi l) = hi - lo.
Proof. intros H. unfold slice. rewrite firstn_length, skipn_length. lia. Qed.
Lemma nth_skipn_q lo : forall (l : list Q) i, nth i (skipn lo l) 0%Q = nth (lo + i) l 0%Q.
Proof. induction lo as [|lo IH]; intros l i; [reflexivity|]. destruct l as [|x l]; [destruct i; reflexivity|]. apply IH. Qed.
Lemma nth_firstn_q k : forall (l : list Q) i, i < k -> nth i (firstn k l) 0%Q = nth i l 0%Q.
Proof. induction k as [|k IH]; intros l i H; [lia|]. destruct l as [|x l]; [reflexivity|]. destruct i as [|i]; [reflexivity|]. cbn [firstn nth]. apply IH. lia. Qed.
Lemma replace_map (f g : string -> nat) axes : NoDup axes -> In "x" axes -> (forall a, a <> "x" -> f a = g a) ->
  firstn (index_of "x" axes) (map f axes) ++ g "x" :: skipn (S (index_of "x" axes)) (map f axes) = map g axes.
Proof.
  intros N I H. induction axes as [|a axes IH]; [destruct I|]. inversion N as [|? ? N1 N2]; subst. cbn [index_of]. destruct (String.eqb "x" a) eqn:E.
  - apply String.eqb_eq in E. subst. cbn [firstn skipn map app]. f_equal. apply map_ext_in. intros b Hb. apply H. intros ->. contradiction.
  - apply String.eqb_neq in E. cbn [firstn skipn map app]. rewrite H by congruence. f_equal. apply IH; [exact N2|]. destruct I; [congruence|assumption].
Qed.
Theorem C94_edge_deletion_keeps_points g md : NoDup (g_axes g) -> In "x" (g_axes g) -> on_grid (g_axes g) (g_coords g) (g_u g) ->
  let n := List.length (g_coords g "x") in let h := after_edges g (mkPrep md true) in
  g_axes h = g_axes g /\ on_grid (g_axes h) (g_coords h) (g_u h) /\ List.length (g_coords h "x") = 9 * n / 10 - n / 10 /\
  (forall a, a <> "x" -> g_coords h a = g_coords g a) /\
  forall p, grid_point (g_axes h) (g_coords h) p -> let p' := shift "x" (n / 10) p in
    grid_point (g_axes g) (g_coords g) p' /\ field_at (g_axes h) (g_u h) p = field_at (g_axes g) (g_u g) p' /\
    nth (p "x") (g_coords h "x") 0%Q = nth (p' "x") (g_coords g "x") 0%Q.
Proof.
  intros N I G n h. unfold h, after_edges. cbn [delete_edges g_axes g_coords g_u]. set (ax := index_of "x" (g_axes g)).
  assert (Hn : nth ax (shape (g_u g)) 0 = n). { rewrite G. apply nth_error_nth. rewrite nth_error_map. unfold ax. rewrite index_of_nth by exact I. reflexivity. }
  rewrite Hn. assert (B : edge_hi n <= n) by (unfold edge_hi; apply Nat.div_le_upper_bound; lia).
  assert (L : List.length (slice (edge_lo n) (edge_hi n) (g_coords g "x")) = edge_hi n - edge_lo n) by (apply slice_length; exact B).
  split; [reflexivity|]. split; [|split; [exact L|split]].
  - unfold on_grid. cbn [crop shape]. rewrite Hn. rewrite Nat.min_l by exact B. rewrite <- L.
    rewrite G. exact (replace_map (fun a => List.length (g_coords g a)) (fun a => List.length (if String.eqb a "x" then slice (edge_lo n) (edge_hi n) (g_coords g a) else g_coords g a)) (g_axes g) N I
      ltac:(intros a Ha; cbv beta; apply String.eqb_neq in Ha; rewrite Ha; reflexivity)).
  - intros a Ha. cbv beta. apply String.eqb_neq in Ha. rewrite Ha. reflexivity.
  - intros p P. cbv zeta. assert (Px : p "x" < edge_hi n - edge_lo n) by (rewrite <- L; exact (P "x" I)). split; [|split].
    + intros a Ha. unfold shift. specialize (P a Ha). cbv beta in P. destruct (string_dec a "x") as [->|Hx]; [rewrite String.eqb_refl, L in P; fold n; unfold edge_lo, edge_hi in *; lia|].
      apply String.eqb_neq in Hx. rewrite Hx in P. exact P.
    + unfold field_at. cbn [crop at_]. f_equal.
      assert (X : nth ax (map p (g_axes g)) 0 = p "x"). { apply nth_error_nth. rewrite nth_error_map. unfold ax. rewrite index_of_nth by exact I. reflexivity. }
      rewrite X. unfold ax. assert (Y : edge_lo n + p "x" = shift "x" (n / 10) p "x") by reflexivity. rewrite Y. apply replace_map; [exact N|exact I|].
      intros a Ha. unfold shift. destruct (string_dec a "x"); [contradiction|reflexivity].
    + unfold shift. destruct (string_dec "x" "x") as [_|C]; [|congruence]. cbv beta. rewrite String.eqb_refl. unfold slice. rewrite nth_firstn_q by exact Px. rewrite nth_skipn_q. reflexivity.
Qed.
Example C94_edges_case : let g := mkG ["x"; "t"] (fun a => if String.eqb a "x" then map inject_Z [0; 1; 2; 3; 4; 5; 6; 7; 8; 9; 10]%Z else [0; 1]%Q) {| shape := [11; 2]; at_ := fun i => inject_Z (Z.of_nat (nth 0 i 0 * 10 + nth 1 i 0)) |} in
  let h := after_edges g (mkPrep None true) in
  on_grid (g_axes g) (g_coords g) (g_u g) /\ g_coords h "x" = map inject_Z [1; 2; 3; 4; 5; 6; 7; 8]%Z /\ field_at (g_axes h) (g_u h) (fun _ => 1) = inject_Z 21.
Proof. vm_compute. repeat split; reflexivity. Qed.
(** The same for metadata generation on a grid of another size. *)
Theorem C94_metadata_refuted g x t u lhs dt tmpl : g_axes g = ["x"; "t"] -> lhs = "t" -> shape u = [List.length x; List.length t] ->
  shape (g_u g) = [List.length (g_coords g "x"); List.length (g_coords g "t")] ->
  (List.length x, List.length t) <> (List.length (g_coords g "x"), List.length (g_coords g "t")) ->
  field_comparison_data (make_context g (mkPrep (Some (x, t, u)) false) lhs dt tmpl) = VValueError.
Proof.
  intros A -> Su Sg D. apply C94_rejects. unfold make_context, after_edges, after_metadata. cbn [delete_edges metadata_on g_u g_axes g_coords c_u c_u_origin].
  rewrite perm_names. cbn [c_axes c_lhs]. rewrite A. cbn. rewrite Sg, Su. cbn. congruence.
Qed.

(** ** C95 *)
Definition details_of (p : arr) : details := mkD (Some p) None [] [].
(** The points of a parity plot: one per grid value, in order, (prediction, target); the target is the one
    named in the report, and it is the original one only when asked for. *)
Theorem C95_points c d asked label pts : parity c (Some d) asked = VOk (ParityPlot label pts) ->
  exists p, prediction d (c_ut c) = Some p /\ pts <> [] /\
    let target := if label then c_ut_origin c else c_ut c in
    shape target = shape p /\ map fst pts = ravel p /\ map snd pts = ravel target /\ (label = true -> asked = true).
Proof.
  unfold parity. destruct (prediction d (c_ut c)) as [p|]; [|discriminate]. intros H. exists p. split; [reflexivity|].
  assert (G : forall target lab, (if negb (shape_eqb (shape target) (shape p)) then VOk ParityWarning else if Nat.eqb (size target) 0 then VValueError else VOk (ParityPlot lab (combine (ravel p) (ravel target)))) = VOk (ParityPlot label pts) ->
    lab = label /\ pts <> [] /\ shape target = shape p /\ map fst pts = ravel p /\ map snd pts = ravel target).
  { intros target lab X. destruct (shape_eqb (shape target) (shape p)) eqn:E; [|discriminate]. apply shape_eqb_eq in E. cbn [negb] in X.
    destruct (Nat.eqb_spec (size target) 0) as [Z|Z]; [discriminate|]. injection X as <- <-.
    assert (L : List.length (ravel p) = List.length (ravel target)) by (rewrite !ravel_length; unfold size; rewrite E; reflexivity).
    assert (Lz : List.length (ravel target) <> 0) by (rewrite ravel_length; exact Z). split; [reflexivity|].
    split; [|split; [exact E|]].
    - destruct (ravel p), (ravel target); cbn in *; congruence.
    - clear - L. revert L. generalize (ravel target). induction (ravel p) as [|a l IH]; intros [|b m] L; cbn in *; try lia; [auto|]. destruct (IH m ltac:(lia)) as [-> ->]. auto. }
  destruct (shape_eqb (shape (if asked then c_ut_origin c else c_ut c)) (shape p)) eqn:E.
  - apply G in H as (-> & H). destruct H as (A & B & C & D). split; [exact A|]. cbv zeta. repeat split; auto.
  - apply G in H as (<- & A & B & C & D). split; [exact A|]. cbv zeta. repeat split; auto. discriminate.
Qed.
(** Value of an equation from the values of its terms and their weights. *)
Fixpoint weighted (row w : list Q) : Q :=
  match row, w with x :: row', k :: w' => (k * x + weighted row' w')%Q | _, _ => 0%Q end.
(** The prediction is the stored right-hand side whenever it has as many values as u_t (in the same order); else
    the re-evaluated terms, when that worked; else the default terms. *)
Theorem C95_prediction_source d ut :
  (forall a, d_cached d = Some a -> size a = size ut -> exists p, prediction d ut = Some p /\ shape p = shape ut /\ ravel p = ravel a) /\
  (forall m w, d_eval d = Some (m, w) -> (forall a, d_cached d = Some a -> size a <> size ut) -> List.length m = size ut ->
     exists p, prediction d ut = Some p /\ shape p = shape ut /\ Forall2 (fun row q => (q == weighted row w)%Q) m (ravel p)) /\
  (d_eval d = None -> (forall a, d_cached d = Some a -> size a <> size ut) -> List.length (default_prediction d) = size ut ->
     exists p, prediction d ut = Some p /\ shape p = shape ut /\ ravel p = default_prediction d).
Proof.
  assert (R : forall a, size a = size ut -> exists p, reshape a (shape ut) = Some p /\ shape p = shape ut /\ ravel p = ravel a).
  { intros a E. destruct (proj2 (reshape_iff a (shape ut)) E) as (b & Hb). destruct (reshape_some _ _ _ Hb) as (_ & ? & ?). eauto. }
  assert (Nn : (forall a, d_cached d = Some a -> size a <> size ut) ->
    match d_cached d with Some a => if shape_eqb (shape a) (shape ut) then Some a else reshape a (shape ut) | None => None end = None).
  { intros H. destruct (d_cached d) as [a|]; [|reflexivity]. specialize (H a eq_refl). destruct (shape_eqb (shape a) (shape ut)) eqn:E.
    - apply shape_eqb_eq in E. exfalso. apply H. unfold size. rewrite E. reflexivity.
    - destruct (reshape a (shape ut)) as [b|] eqn:B; [|reflexivity]. apply reshape_some in B as (B & _). contradiction. }
  split; [|split].
  - intros a E S. unfold prediction. rewrite E. destruct (shape_eqb (shape a) (shape ut)) eqn:Q.
    + apply shape_eqb_eq in Q. exists a. auto.
    + destruct (R a S) as (p & P & X). rewrite P. exists p. auto.
  - intros m w E H L. unfold prediction. rewrite (Nn H), E. destruct (R (vector (map (fun row => qdot row w) m))) as (p & P & X & Y).
    + rewrite size_vector, map_length. exact L.
    + exists p. rewrite ravel_vector in Y. rewrite Y. split; [exact P|]. split; [exact X|]. clear. induction m as [|row m IH]; [constructor|]. cbn [map]. constructor; [|exact IH].
      unfold qdot. clear IH. revert w. induction row as [|x row IH']; intros w; [reflexivity|]. destruct w as [|y w]; [reflexivity|]. cbn [combine map fold_right fst snd weighted]. rewrite IH'. ring.
  - intros E H L. unfold prediction. rewrite (Nn H), E. destruct (R (vector (default_prediction d))) as (p & P & X & Y).
    + rewrite size_vector. exact L.
    + exists p. rewrite ravel_vector in Y. auto.
Qed.
(** "Asking for the original u_t compares with the original u_t": false when it has another shape; then the
    metadata are plotted (and reported as such). *)
Theorem C95_original_refuted c p : shape (c_ut c) = shape p -> size p <> 0 -> shape (c_ut_origin c) <> shape p ->
  parity c (Some (details_of p)) true = VOk (ParityPlot false (combine (ravel p) (ravel (c_ut c)))).
Proof.
  intros E Z D.
  assert (prediction (details_of p) (c_ut c) = Some p) as X by (unfold prediction, details_of; cbn [d_cached]; rewrite E, shape_eqb_refl; reflexivity).
  unfold parity. rewrite X. clear X.
  destruct (shape_eqb (shape (c_ut_origin c)) (shape p)) eqn:Q; [apply shape_eqb_eq in Q; contradiction|].
  rewrite E, shape_eqb_refl. cbn [negb]. assert (size (c_ut c) = size p) as -> by (unfold size; rewrite E; reflexivity).
  destruct (Nat.eqb_spec (size p) 0) as [X|X]; [contradiction|reflexivity].
Qed.
(** "The prediction evaluates the reported equation": the last source leaves out every generated term, and
    gives an unknown label the first column. *)
Theorem C95_last_source_refuted : exists d u ut, 
  d_terms d = [mkT 2 "u_xx" true; mkT 3 "w" false] /\ d_defaults d = [("u", u)] /\
  d_cached d = None /\ d_eval d = None /\ exists p, prediction d ut = Some p /\ forall i x, nth_error u i = Some x -> nth_error (ravel p) i = Some (0 + 3 * x)%Q.
Proof.
  exists (mkD None None [mkT 2 "u_xx" true; mkT 3 "w" false] [("u", [5; 7]%Q)]), [5; 7]%Q, (vector [0; 0]%Q).
  repeat split. eexists. split; [vm_compute; reflexivity|]. intros [|[|i]] x H; cbn in H; [injection H as <-; vm_compute; reflexivity ..|destruct i; discriminate].
Qed.

(** ** C96 *)
(** The residual plot shows u_t minus the right-hand side of the problem's template at every grid point, for the
    field searched on and for the original field. *)
Theorem C96_values c r : NoDup (c_axes c) -> In (c_lhs c) (c_axes c) -> on_grid (c_axes c) (c_coords c) (c_ut c) ->
  residual c = VOk (Some r) ->
  exists rhs rhs_o, c_rhs c = Some (rhs, rhs_o) /\
    forall p, grid_point (c_axes c) (c_coords c) p ->
      at_ (rp_meta r) (shown_at (c_axes c) (c_lhs c) p) = (field_at (c_axes c) (c_ut c) p - field_at (c_axes c) rhs p)%Q /\
      (on_grid (c_axes c) (c_coords c) (c_ut_origin c) ->
       at_ (rp_origin r) (shown_at (c_axes c) (c_lhs c) p) = (field_at (c_axes c) (c_ut_origin c) p - field_at (c_axes c) rhs_o p)%Q).
Proof.
  intros N I G. unfold residual. destruct (c_rhs c) as [[rhs rhs_o]|]; [|discriminate].
  destruct (shape_eqb (shape (c_ut_origin c)) (shape rhs_o)) eqn:E1; [|discriminate]. destruct (shape_eqb (shape (c_ut c)) (shape rhs)) eqn:E2; [|discriminate].
  apply shape_eqb_eq in E1, E2. cbn [andb negb].
  destruct (sub_same _ _ E1) as (ro & S1 & _ & V1), (sub_same _ _ E2) as (rm & S2 & Sh & V). rewrite S1, S2.
  destruct (residual_from _ _ _) as [data| | |]; try discriminate. intros H. injection H as <-. exists rhs, rhs_o. split; [reflexivity|].
  intros p P. cbn [rp_meta rp_origin]. rewrite !layout_at by assumption. unfold field_at.
  assert (W : valid (map p (c_axes c)) (map (fun a => List.length (c_coords c a)) (c_axes c))); [|split; [apply V; rewrite G; exact W|intros G1; apply V1; rewrite G1; exact W]]. clear - P.
  induction (c_axes c) as [|a l IH]; [constructor|]. constructor; [apply P; now left|]. apply IH. intros b H. apply P. now right.
Qed.
(** It can be drawn exactly when the problem has a template and both fields have equally many points. *)
Theorem C96_drawn_iff g prep lhs dt tmpl : (forall u, shape (dt u) = shape u) -> (forall f u, tmpl = Some f -> shape (fst (f u)) = shape u /\ shape (snd (f u)) = shape u) ->
  let c := make_context g prep lhs dt tmpl in
  ((exists r, residual c = VOk (Some r)) <-> tmpl <> None /\ size (c_u c) = size (c_u_origin c)) /\
  (tmpl = None -> residual c = VOk None) /\
  (tmpl <> None -> size (c_u c) <> size (c_u_origin c) -> residual c = VValueError).
Proof.
  intros Hd Ht c. unfold residual, c, make_context. cbn [c_rhs c_ut c_ut_origin c_u c_u_origin]. set (h := after_edges _ _).
  destruct tmpl as [f|]; [|split; [split; [intros (r & X); discriminate|intros [X _]; congruence]|split; [reflexivity|congruence]]].
  destruct (Ht f (g_u h) eq_refl) as [A1 _], (Ht f (g_u g) eq_refl) as [_ A2]. rewrite !Hd, A1, A2, !shape_eqb_refl. cbn [andb negb].
  destruct (sub_same (dt (g_u g)) (snd (f (g_u g)))) as (ro & S1 & _ & _); [rewrite Hd, A2; reflexivity|].
  destruct (sub_same (dt (g_u h)) (fst (f (g_u h)))) as (rm & S2 & _ & _); [rewrite Hd, A1; reflexivity|]. rewrite S1, S2.
  set (va := vector (ravel (dt (g_u g)))). set (vb := vector (ravel (fst (f (g_u h))))).
  assert (La : shape va = [size (g_u g)]) by (unfold va, vector; cbn [shape]; rewrite ravel_length; unfold size; rewrite Hd; reflexivity).
  assert (Lb : shape vb = [size (g_u h)]) by (unfold vb, vector; cbn [shape]; rewrite ravel_length; unfold size; rewrite A1; reflexivity).
  destruct (Nat.eq_dec (size (g_u h)) (size (g_u g))) as [E|E].
  - assert (exists data, residual_from va vb None = VOk data) as (data & Ed).
    { unfold residual_from. destruct (sub_same va vb) as (r & S & Sr & _); [congruence|]. rewrite S. unfold residual_init.
      rewrite Sr, La, Lb, E, !shape_eqb_refl. cbn [negb]. eauto. }
    rewrite Ed. split; [split; [intros _; split; [congruence|exact E]|eauto]|]. split; [congruence|]. intros _ X. contradiction.
  - assert (residual_from va vb None = VValueError) as ->.
    { unfold residual_from. destruct (sub va vb); [|reflexivity]. unfold residual_init. destruct (shape_eqb (shape va) (shape vb)) eqn:X; [|reflexivity].
      apply shape_eqb_eq in X. rewrite La, Lb in X. injection X as X. congruence. }
    split; [split; [intros (r & X); discriminate|intros [_ X]; contradiction]|]. split; [congruence|reflexivity].
Qed.
(** What the model object shows for a fitted model: its context and its equation. *)
Definition residual_of_model (m : context * details) : vres (option residual_plot) := residual (fst m).
(** "The residual plot shows the residual of the discovered equation": the equation is not used. *)
Theorem C96_discovered_equation_refuted :
  ~ (forall m r, residual_of_model m = VOk (Some r) -> shape (c_ut (fst m)) = shape (rp_meta r) ->
       forall p, prediction (snd m) (c_ut (fst m)) = Some p -> forall i, valid i (shape (c_ut (fst m))) -> (at_ (rp_meta r) i == at_ (c_ut (fst m)) i - at_ p i)%Q).
Proof.
  intros H. set (a := {| shape := [1; 1]; at_ := fun _ => 1%Q |}). set (z := {| shape := [1; 1]; at_ := fun _ => 0%Q |}).
  set (c := mkC ["x"; "t"] (fun _ => [0%Q]) "t" a a a a (Some (a, a))).
  destruct (residual c) as [[r|]| | |] eqn:E; try (vm_compute in E; discriminate).
  assert (S : shape (rp_meta r) = [1; 1] /\ (at_ (rp_meta r) [0; 0]%nat == 0)%Q).
  { vm_compute in E. injection E as <-. split; reflexivity. }
  specialize (H (c, details_of z) r E ltac:(symmetry; exact (proj1 S)) z ltac:(vm_compute; reflexivity) [0; 0] ltac:(repeat constructor)).
  destruct S as [_ S]. rewrite S in H. vm_compute in H. discriminate.
Qed.
(** "The residual data of the report are the residuals drawn": they mix the original u_t with the prepared
    field's right-hand side. *)
Theorem C96_reported_data_refuted c r : residual c = VOk (Some r) ->
  forall rhs rhs_o, c_rhs c = Some (rhs, rhs_o) -> ravel (r_actual (rp_data r)) = ravel (c_ut_origin c) /\ ravel (r_predicted (rp_data r)) = ravel rhs.
Proof.
  unfold residual. destruct (c_rhs c) as [[rhs rhs_o]|]; [|discriminate].
  destruct (negb _); [discriminate|]. destruct (sub _ _) as [ro|]; [|discriminate]. destruct (sub (c_ut c) rhs) as [rm|]; [|discriminate].
  destruct (residual_from _ _ _) as [data| | |] eqn:E; try discriminate. intros H. injection H as <-. intros rhs' rhs_o' X. injection X as <- <-. cbn [rp_data].
  unfold residual_from in E. destruct (sub _ _) as [q|]; [|discriminate]. unfold residual_init in E.
  destruct (negb _); [discriminate|]. destruct (negb _); [discriminate|]. injection E as <-. cbn [r_actual r_predicted]. rewrite !ravel_vector. auto.
Qed.
(** With more than two spatial axes the heat map shows the middle of every further axis at the middle time. *)
Lemma take_shape a i ax b : take a i ax = VOk b -> shape b = remove_at ax (shape a) /\ forall idx, at_ b idx = at_ a (insert_at ax i idx).
Proof. unfold take. destruct (Nat.ltb i _); [|discriminate]. intros H. injection H as <-. split; reflexivity. Qed.
Lemma remove_last2 {A} (l : list A) x t : remove_at (List.length l) (l ++ [x; t]) = l ++ [t].
Proof. induction l as [|a l IH]; cbn; [reflexivity|]. f_equal. exact IH. Qed.
Lemma insert_last2 {A} (l : list A) x t : insert_at (List.length l) x (l ++ [t]) = l ++ [x; t].
Proof. induction l as [|a l IH]; cbn; [reflexivity|]. f_equal. exact IH. Qed.
Lemma middle_slices_ok extra : forall fuel a n1 n2 nt, shape a = [n1; n2] ++ extra ++ [nt] -> List.length extra <= fuel -> Forall (lt 0) extra ->
  exists b, middle_slices fuel a = VOk b /\ shape b = [n1; n2; nt] /\ forall i j k, at_ b [i; j; k] = at_ a ([i; j] ++ map (fun n => n / 2) extra ++ [k]).
Proof.
  induction extra as [|n extra IH] using rev_ind; intros fuel a n1 n2 nt S L F.
  - cbn in S. exists a. split; [|split; [exact S|reflexivity]]. destruct fuel; cbn [middle_slices]; rewrite S; reflexivity.
  - rewrite app_length in L. cbn in L. destruct fuel as [|fuel]; [lia|].
    apply Forall_app in F as [F F1]. inversion F1 as [|? ? Hn _]; subst.
    assert (S' : shape a = ([n1; n2] ++ extra) ++ [n; nt]) by (rewrite S; rewrite <- !app_assoc; reflexivity).
    assert (Ln : List.length (shape a) - 2 = List.length ([n1; n2] ++ extra)) by (rewrite S', !app_length; cbn; lia).
    assert (Lg : Nat.leb (List.length (shape a)) 3 = false) by (apply Nat.leb_gt; rewrite S', !app_length; cbn; lia).
    cbn [middle_slices]. rewrite Lg. cbv zeta. rewrite Ln.
    assert (Nn : nth (List.length ([n1; n2] ++ extra)) (shape a) 0 = n) by (rewrite S', app_nth2, Nat.sub_diag by lia; reflexivity).
    rewrite Nn. assert (n / 2 < n) by (apply Nat.div_lt; lia).
    destruct (take a (n / 2) (List.length ([n1; n2] ++ extra))) as [b| | |] eqn:T; unfold take in T; rewrite Nn in T; destruct (Nat.ltb_spec (n / 2) n); try discriminate; try lia.
    injection T as <-.
    destruct (IH fuel {| shape := remove_at (List.length ([n1; n2] ++ extra)) (shape a); at_ := fun idx => at_ a (insert_at (List.length ([n1; n2] ++ extra)) (n / 2) idx) |} n1 n2 nt) as (b & Eb & Sb & V).
    + cbn [shape]. rewrite S', remove_last2, <- app_assoc. reflexivity.
    + lia.
    + exact F.
    + exists b. split; [exact Eb|]. split; [exact Sb|]. intros i j k. rewrite V. cbn [at_]. f_equal.
      replace (List.length ([n1; n2] ++ extra)) with (List.length ([i; j] ++ map (fun n => n / 2) extra)) by (rewrite !app_length, map_length; reflexivity).
      rewrite app_assoc, insert_last2, map_app, <- !app_assoc. reflexivity.
Qed.
Theorem C96_heatmap a n1 n2 extra nt : shape a = [n1; n2] ++ extra ++ [nt] -> Forall (lt 0) extra -> 0 < nt ->
  exists b, residual_heatmap a = VOk b /\ shape b = [n1; n2] /\
    forall i j, at_ b [i; j] = at_ a ([i; j] ++ map (fun n => n / 2) extra ++ [nt / 2]).
Proof.
  intros S F Ht. unfold residual_heatmap. destruct (middle_slices_ok extra (List.length (shape a)) a n1 n2 nt S) as (b & E & Sb & V).
  - rewrite S, !app_length. cbn. lia.
  - exact F.
  - rewrite E, Sb. cbn [last List.length Nat.sub]. unfold take. rewrite Sb. cbn [nth]. assert (nt / 2 < nt) by (apply Nat.div_lt; lia).
    destruct (Nat.ltb_spec (nt / 2) nt); [|lia]. eexists. split; [reflexivity|]. cbn. split; [reflexivity|]. intros i j. rewrite V. reflexivity.
Qed.
(** Histogram bins: at least one, never more than asked for (if that is positive) or than distinct values. *)
Theorem C96_bins l bins : (1 <= safe_bins l bins)%Z /\ ((1 <= bins)%Z -> (safe_bins l bins <= bins)%Z) /\
  (l <> [] -> (safe_bins l bins <= Z.of_nat (List.length (unique l)))%Z).
Proof.
  unfold safe_bins. split; [lia|]. split; [lia|]. intros H. assert (1 <= List.length (unique l)).
  { destruct l as [|x l]; [congruence|]. destruct (unique_has (x :: l) x (or_introl eq_refl)) as (y & Hy & _). destruct (unique (x :: l)); [destruct Hy|cbn; lia]. }
  lia.
Qed.

Example C94_meets :
  let u := {| shape := [3; 2]; at_ := fun i => inject_Z (Z.of_nat (10 * nth 0 i 0 + nth 1 i 0)) |} in
  let g := mkG ["t"; "x"] (fun a => if String.eqb a "t" then [0; 1; 2]%Q else [5; 6]%Q) u in
  let c := make_context g (mkPrep None false) "t" (fun u => u) None in
  NoDup (g_axes g) /\ In "t" (g_axes g) /\ on_grid (g_axes g) (g_coords g) (g_u g) /\
  match field_comparison_data c with VOk d => at_ (true_f d) [1; 2] = inject_Z 21 /\ map ravel (spatial d) = [[5; 6]%Q] | _ => False end.
Proof.
  cbv zeta. split; [repeat constructor; cbn; intuition discriminate|]. split; [now left|]. split; [reflexivity|]. vm_compute. split; reflexivity.
Qed.
Example C95_meets :
  let u := vector [1; 2]%Q in
  parity (mkC ["t"] (fun _ => [0; 1]%Q) "t" u u u (vector [4; 5; 6]%Q) None) (Some (details_of (vector [7; 8]%Q))) true
  = VOk (ParityPlot false [(7%Q, 1%Q); (8%Q, 2%Q)]).
Proof. vm_compute. reflexivity. Qed.
Example C96_meets :
  let u := {| shape := [2; 2]; at_ := fun i => inject_Z (Z.of_nat (10 * nth 0 i 0 + nth 1 i 0)) |} in
  let g := mkG ["x"; "t"] (fun a => [0; 1]%Q) u in
  let c := make_context g (mkPrep None false) "t" (fun u => u) (Some (fun u => ({| shape := shape u; at_ := fun _ => 1%Q |}, u))) in
  match residual c with VOk (Some r) => (at_ (rp_meta r) [1; 0]%nat == 9)%Q /\ (at_ (rp_origin r) [1; 0]%nat == 0)%Q | _ => False end.
Proof. vm_compute. split; reflexivity. Qed.
Print Assumptions C94_same_point.
Print Assumptions C94_rejects.
Print Assumptions C94_panels.
Print Assumptions C94_compares_with_itself_refuted.
Print Assumptions C94_edge_deletion_refuted.
Print Assumptions C94_metadata_refuted.
Print Assumptions C95_points.
Print Assumptions C95_prediction_source.
Print Assumptions C95_original_refuted.
Print Assumptions C95_last_source_refuted.
Print Assumptions C96_values.
Print Assumptions C96_drawn_iff.
Print Assumptions C96_discovered_equation_refuted.
Print Assumptions C96_reported_data_refuted.
Print Assumptions C96_heatmap.
Print Assumptions C96_bins.
Print Assumptions C94_edge_deletion_keeps_points.
