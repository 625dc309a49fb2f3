(** C99 (DLGA time slices), C100 (files reported by DLGA plots), C101 (optimization history),
    C102 (which individual the equation plot shows). *)
From Coq Require Import QArith Qabs List String Bool Arith Lia ZArith Lqa.
From Verif Require Import Base Num Dlga DlgaFacts DlgaEq VizData VizDataFacts TimePick TimePickFacts DlgaPlot PropsVizData.
Import ListNotations.
Local Open Scope string_scope.
Local Open Scope nat_scope.
Local Open Scope list_scope.

(** ** C99 *)
(** The panels drawn for the requests [ts]: one per request, in order, titled with the request,
    showing both fields at the grid time nearest to it. *)
Definition draws (t tf pf : arr) (nx : nat) (v : Q) (p : panel) : Prop :=
  p_title p = v /\ nearest_index (ravel t) v (p_index p) /\
  List.length (p_true p) = nx /\ List.length (p_pred p) = nx /\
  forall i, i < nx -> nth i (p_true p) 0%Q = at_ tf [i; p_index p] /\ nth i (p_pred p) 0%Q = at_ pf [i; p_index p].

Lemma col_at_spec a n m j : shape a = [n; m] -> List.length (col_at a j) = n /\ forall i, i < n -> nth i (col_at a j) 0%Q = at_ a [i; j].
Proof.
  intros S. unfold col_at. rewrite S. split; [rewrite map_length, seq_length; reflexivity|]. intros i H.
  rewrite (nth_indep _ 0%Q (at_ a [0; j])) by (rewrite map_length, seq_length; exact H). rewrite (map_nth (fun i => at_ a [i; j])), seq_nth by exact H. reflexivity.
Qed.
Lemma panels_draw t tf pf nx nt t0 tr ts : ravel t = t0 :: tr -> shape tf = [nx; nt] -> shape pf = [nx; nt] ->
  Forall2 (draws t tf pf nx) ts (map (fun v => match nearest (t0 :: tr) v with Some i => mkPanel v i (col_at tf i) (col_at pf i) | None => mkPanel v 0 [] [] end) ts).
Proof.
  intros R S1 S2. induction ts as [|v ts IH]; [constructor|]. cbn [map]. constructor; [|exact IH].
  destruct (nearest_some (t0 :: tr) v ltac:(discriminate)) as (i & E). rewrite E. apply nearest_spec in E.
  destruct (col_at_spec tf nx nt i S1) as [L1 V1], (col_at_spec pf nx nt i S2) as [L2 V2].
  split; [reflexivity|]. split; [rewrite R; exact E|]. cbn [p_index p_true p_pred]. split; [exact L1|]. split; [exact L2|]. intros j Hj. split; [apply V1|apply V2]; exact Hj.
Qed.
Lemma two_axes x t : expected_shape [x] t = [size x; size t]. Proof. reflexivity. Qed.

(** Requested times inside the range of the grid times are all drawn, one panel each. *)
Theorem C99_requested_panels x t tf pf l num : shape tf = [size x; size t] -> shape pf = [size x; size t] ->
  l <> [] -> (forall v, In v l -> exists lo hi, In lo (ravel t) /\ In hi (ravel t) /\ (lo <= v <= hi)%Q) ->
  exists ps, time_slices (Some x) (Some t) (Some tf) (Some pf) (Some l) num = VOk (Some ps) /\ Forall2 (draws t tf pf (size x)) l ps.
Proof.
  intros S1 S2 NE H. unfold time_slices. destruct (ravel t) as [|t0 tr] eqn:R; [destruct l as [|v l]; [congruence|]; destruct (H v (or_introl eq_refl)) as (lo & _ & [] & _)|].
  cbn [slice_requests]. destruct (C79_time_slices [x] t tf pf (vector l) S1 S2) as [A _]. rewrite A.
  - destruct l as [|v l]; [congruence|]. eexists. split; [reflexivity|]. apply (panels_draw t tf pf (size x) (size t) t0 tr); assumption.
  - rewrite R, ravel_vector. exists (qmin t0 tr), (qmax t0 tr). split; [apply qmin_in|]. split; [apply qmax_in|]. intros q I.
    destruct (H q I) as (lo & hi & Hl & Hh & B1 & B2). destruct (qmin_le t0 tr) as [M1 M2], (qmax_ge t0 tr) as [N1 N2].
    assert (qmin t0 tr <= lo)%Q by (destruct Hl as [<-|Hl]; auto). assert (hi <= qmax t0 tr)%Q by (destruct Hh as [<-|Hh]; auto). lra.
Qed.
(** A requested time before the first or after the last grid time makes the plot fail. *)
Theorem C99_outside_refused x t tf pf l num v : shape tf = [size x; size t] -> shape pf = [size x; size t] ->
  In v l -> ((forall y, In y (ravel t) -> v < y)%Q \/ (forall y, In y (ravel t) -> y < v)%Q) ->
  time_slices (Some x) (Some t) (Some tf) (Some pf) (Some l) num = VValueError.
Proof.
  intros S1 S2 I H. unfold time_slices. destruct (ravel t) as [|t0 tr] eqn:R; [reflexivity|]. cbn [slice_requests].
  destruct (C79_time_slices [x] t tf pf (vector l) S1 S2) as [_ A]. rewrite A; [reflexivity|]. rewrite R, ravel_vector. intros (lo & hi & Hl & Hh & B).
  destruct (B v I) as [B1 B2]. destruct H as [H|H]; [specialize (H lo Hl)|specialize (H hi Hh)]; lra.
Qed.
(** Without requested times: as many panels as asked for (3 by default), at least one and at most
    one per grid time, evenly from the first to the last grid time; never refused. *)
Theorem C99_default_panels x t tf pf num : shape tf = [size x; size t] -> shape pf = [size x; size t] -> 0 < size t ->
  let asked := match num with None => 3%Z | Some 0%Z => 3%Z | Some z => z end in
  let k := Z.to_nat (Z.max 1 (Z.min asked (Z.of_nat (size t)))) in
  exists lo hi ts ps, time_slices (Some x) (Some t) (Some tf) (Some pf) None num = VOk (Some ps) /\ Forall2 (draws t tf pf (size x)) ts ps /\
    In lo (ravel t) /\ In hi (ravel t) /\ (forall y, In y (ravel t) -> lo <= y <= hi)%Q /\ List.length ts = k /\
    (exists y, nth_error ts 0 = Some y /\ (y == lo)%Q) /\ (2 <= k -> exists y, nth_error ts (k - 1) = Some y /\ (y == hi)%Q) /\
    (forall i a b c, nth_error ts i = Some a -> nth_error ts (S i) = Some b -> nth_error ts (S (S i)) = Some c -> (c - b == b - a)%Q).
Proof.
  intros S1 S2 P asked k. unfold time_slices. pose proof (ravel_length t) as L. destruct (ravel t) as [|t0 tr] eqn:R; [cbn in L; lia|].
  set (lo := qmin t0 (t0 :: tr)). set (hi := qmax t0 (t0 :: tr)). set (ts := linspace lo hi k).
  assert (Ets : slice_requests t0 (t0 :: tr) None num = ts).
  { unfold slice_requests, ts, k, asked. rewrite L. destruct num as [[|z|z]|]; reflexivity. }
  rewrite Ets. assert (K1 : 1 <= k) by (unfold k; lia).
  assert (Blo : forall y, In y (t0 :: tr) -> (lo <= y <= hi)%Q).
  { intros y I. destruct (qmin_le t0 (t0 :: tr)) as [_ M], (qmax_ge t0 (t0 :: tr)) as [_ N]. split; [apply M|apply N]; exact I. }
  assert (Ilo : In lo (t0 :: tr)) by (destruct (qmin_in t0 (t0 :: tr)) as [E|E]; [left; exact E|exact E]).
  assert (Ihi : In hi (t0 :: tr)) by (destruct (qmax_in t0 (t0 :: tr)) as [E|E]; [left; exact E|exact E]).
  assert (LH : (lo <= hi)%Q) by (destruct (Blo lo Ilo); assumption).
  destruct (C79_time_slices [x] t tf pf (vector ts) S1 S2) as [A _]. rewrite A.
  2:{ rewrite R, ravel_vector. exists lo, hi. split; [exact Ilo|]. split; [exact Ihi|]. intros q I. apply (linspace_bounds lo hi k); assumption. }
  assert (Lk : List.length ts = k) by (apply linspace_length; exact K1).
  exists lo, hi, ts. destruct ts as [|v vs] eqn:T; [cbn in Lk; lia|]. rewrite <- T in *. eexists. split; [reflexivity|].
  split; [apply (panels_draw t tf pf (size x) (size t) t0 tr); assumption|]. split; [exact Ilo|]. split; [exact Ihi|]. split; [exact Blo|]. split; [exact Lk|].
  assert (Tl : ts = linspace lo hi k) by reflexivity.
  split; [rewrite Tl; apply linspace_first; exact K1|]. split; [intros K2; rewrite Tl; apply linspace_last; exact K2|].
  intros i a b c Ha Hb Hc. rewrite Tl in Ha, Hb, Hc. clear - Ha Hb Hc K1. destruct k as [|[|k]]; [lia|destruct i; discriminate|]. unfold linspace in *.
  rewrite nth_error_map in Ha, Hb, Hc.
  assert (Q : forall j y, option_map (fun i => (lo + inject_Z (Z.of_nat i) * ((hi - lo) / inject_Z (Z.of_nat (S (S k)) - 1)))%Q) (nth_error (seq 0 (S (S k))) j) = Some y -> y = (lo + inject_Z (Z.of_nat j) * ((hi - lo) / inject_Z (Z.of_nat (S (S k)) - 1)))%Q).
  { intros j y E. destruct (nth_error (seq 0 (S (S k))) j) as [q|] eqn:N; [|discriminate]. assert (j < S (S k)) as Hj by (rewrite <- (seq_length (S (S k)) 0); apply nth_error_Some; congruence).
    rewrite (nth_error_nth' _ 0) in N by (rewrite seq_length; exact Hj). rewrite seq_nth in N by exact Hj. injection N as <-. cbn [option_map] in E. injection E as <-. reflexivity. }
  apply Q in Ha, Hb, Hc. subst. rewrite !Nat2Z.inj_succ, <- !Z.add_1_r, !inject_Z_plus. ring.
Qed.
(** Missing coordinates or fields give a warning. *)
Theorem C99_missing_data x t tf pf l num : x = None \/ t = None \/ tf = None \/ pf = None -> time_slices x t tf pf l num = VOk None.
Proof. intros [->|[->|[->| ->]]]; unfold time_slices; [|destruct x|destruct x, t|destruct x, t, tf]; reflexivity. Qed.
(** A request that is a grid time is drawn at that time. *)
Theorem C99_grid_times_exact t tf pf nx v p : In v (ravel t) -> draws t tf pf nx v p ->
  exists y, nth_error (ravel t) (p_index p) = Some y /\ (y == p_title p)%Q.
Proof.
  intros I (-> & (y & Hy & A & _) & _). exists y. split; [exact Hy|]. apply In_nth_error in I as (j & Hj). specialize (A j v Hj).
  assert (Qabs (v - v) == 0)%Q as Z by (setoid_replace (v - v)%Q with 0%Q by ring; reflexivity). rewrite Z in A.
  pose proof (Qabs_nonneg (y - v)). apply Qabs_Qle_condition in A. lra.
Qed.
(** "The title is the time of the data drawn" is false for any other request. *)
Theorem C99_title_refuted : exists x t tf pf p, 
  time_slices (Some x) (Some t) (Some tf) (Some pf) (Some [2 # 5]%Q) None = VOk (Some [p]) /\
  p_title p = (2 # 5)%Q /\ nth_error (ravel t) (p_index p) = Some 0%Q.
Proof.
  exists (vector [0; 1]%Q), (vector [0; 1]%Q), {| shape := [2; 2]; at_ := fun _ => 0%Q |}, {| shape := [2; 2]; at_ := fun _ => 0%Q |}.
  eexists. split; [vm_compute; reflexivity|]. split; reflexivity.
Qed.
Example C99_case : let f := {| shape := [2; 3]; at_ := fun i => inject_Z (Z.of_nat (nth 0 i 0 * 10 + nth 1 i 0)) |} in
  exists p q, time_slices (Some (vector [0; 1]%Q)) (Some (vector [0; 1; 2]%Q)) (Some f) (Some f) (Some [9 # 10; 2]%Q) None = VOk (Some [p; q]) /\
    p_index p = 1 /\ p_true p = [inject_Z 1; inject_Z 11]%Q /\ p_index q = 2.
Proof. eexists _, _. split; [vm_compute; reflexivity|]. repeat split. Qed.
Example C99_default_case : let f := {| shape := [1; 4]; at_ := fun _ => 0%Q |} in
  exists p q r, time_slices (Some (vector [0]%Q)) (Some (vector [0; 1; 2; 4]%Q)) (Some f) (Some f) None None = VOk (Some [p; q; r]) /\
    (p_title q == 2)%Q /\ p_index q = 2 /\ p_index r = 3.
Proof. eexists _, _, _. split; [vm_compute; reflexivity|]. repeat split. Qed.

(** ** C100 *)
Section Files.
Context {P : Type}.
Implicit Types (d : string -> option P) (p : P).
(** Every intent but the field comparison leaves at the reported path the picture just drawn, whatever
    was in the directory, and touches no other file. *)
Theorem C100_reported_file_is_this_plot kind p d f d' : kind <> "field_comparison" -> plot kind p d = (d', Some f) ->
  d' f = Some p /\ forall g, g <> f -> d' g = d g.
Proof.
  intros N E. unfold plot in E. destruct (file_of kind) as [f'|] eqn:F; [|discriminate]. apply String.eqb_neq in N. rewrite N in E. injection E as <- <-.
  unfold put. split; [rewrite String.eqb_refl; reflexivity|]. intros g H. apply String.eqb_neq in H. rewrite H. reflexivity.
Qed.
(** Different intents report different files. *)
Lemma file_in k f : file_of k = Some f -> In (k, f) files.
Proof. unfold file_of. destruct (find _ files) as [(k', f')|] eqn:E; [|discriminate]. cbn. intros [= <-]. apply find_some in E as [I E]. cbn in E. apply String.eqb_eq in E. subst. exact I. Qed.
Lemma file_not_pde k f : file_of k = Some f -> f <> "pde_comparison.png".
Proof. intros H. apply file_in in H. cbn [In files] in H. intros ->. repeat (destruct H as [H|H]; [discriminate|]). exact H. Qed.
Theorem C100_different_files k1 k2 f : file_of k1 = Some f -> file_of k2 = Some f -> k1 = k2.
Proof.
  intros H1 H2. apply file_in in H1, H2. cbn [In files] in H1, H2.
  repeat (destruct H1 as [H1|H1]; [injection H1 as <- <-; repeat (destruct H2 as [H2|H2]; [congruence|]); destruct H2|]). destruct H1.
Qed.
(** The field comparison is right in a directory that has no such file yet. *)
Theorem C100_first_field_comparison p d : d "field_comparison.png" = None ->
  exists d', plot "field_comparison" p d = (d', Some "field_comparison.png") /\ d' "field_comparison.png" = Some p /\ d' "pde_comparison.png" = None /\
    forall g, g <> "field_comparison.png" -> g <> "pde_comparison.png" -> d' g = d g.
Proof.
  intros H. unfold plot. cbn [file_of]. rewrite String.eqb_refl. eexists. split; [reflexivity|]. unfold save_field_comparison, put, del.
  change (String.eqb "field_comparison.png" "pde_comparison.png") with false. cbv iota. rewrite H.
  split; [reflexivity|]. split; [reflexivity|]. intros g A B. apply String.eqb_neq in A, B. rewrite A, B. reflexivity.
Qed.
(** After any history of plots into a fresh directory, the reported field comparison is the FIRST one drawn; the
    latest one, if there were several, is in pde_comparison.png.  All other files show their latest plot. *)
Fixpoint first_of (kind : string) (calls : list (string * P)) : option P :=
  match calls with [] => None | (k, p) :: r => if String.eqb k kind then Some p else first_of kind r end.
Definition last_of (kind : string) (calls : list (string * P)) : option P := first_of kind (rev calls).
Definition count_of (kind : string) (calls : list (string * P)) : nat := List.length (filter (fun c => String.eqb (fst c) kind) calls).

Lemma first_app kind a b : first_of kind (a ++ b) = match first_of kind a with Some p => Some p | None => first_of kind b end.
Proof. induction a as [|(k, p) a IH]; [reflexivity|]. cbn. destruct (String.eqb k kind); auto. Qed.
Lemma first_none kind a : first_of kind a = None <-> count_of kind a = 0.
Proof. unfold count_of. induction a as [|(k, p) a IH]; [split; reflexivity|]. cbn. destruct (String.eqb k kind); [split; discriminate|exact IH]. Qed.
Theorem C100_history calls : let d := plots calls (fun _ => None) in
  d "field_comparison.png" = first_of "field_comparison" calls /\
  d "pde_comparison.png" = (if 2 <=? count_of "field_comparison" calls then last_of "field_comparison" calls else None) /\
  (forall kind f, kind <> "field_comparison" -> file_of kind = Some f -> d f = last_of kind calls).
Proof.
  induction calls as [|(k, p) calls IH] using rev_ind; [repeat split; reflexivity|]. cbv zeta in *.
  unfold plots in *. rewrite fold_left_app. cbn [fold_left fst snd]. set (d := fold_left _ calls _) in *. destruct IH as (I1 & I2 & I3).
  unfold last_of in *. rewrite rev_app_distr. cbn [rev app first_of]. rewrite !first_app. cbn [first_of].
  assert (C : count_of "field_comparison" (calls ++ [(k, p)]) = count_of "field_comparison" calls + (if String.eqb k "field_comparison" then 1 else 0)).
  { unfold count_of. rewrite filter_app, app_length. cbn. destruct (String.eqb k "field_comparison"); reflexivity. }
  rewrite C. unfold plot. destruct (String.eqb k "field_comparison") eqn:K.
  - apply String.eqb_eq in K. subst k. change (file_of "field_comparison") with (Some "field_comparison.png"). cbn [fst]. unfold save_field_comparison.
    assert (E : put "pde_comparison.png" p d "field_comparison.png" = d "field_comparison.png") by reflexivity. rewrite E, I1.
    destruct (first_of "field_comparison" calls) as [q|] eqn:F.
    + assert (count_of "field_comparison" calls <> 0) as Z by (rewrite <- first_none, F; discriminate).
      assert (2 <=? count_of "field_comparison" calls + 1 = true) as -> by (apply Nat.leb_le; lia).
      split; [exact I1|]. split; [reflexivity|].
      intros kind f N Fk. pose proof N as N'. apply String.eqb_neq in N. rewrite String.eqb_sym in N. rewrite N. rewrite <- (I3 kind f N' Fk).
      unfold put. assert (f <> "pde_comparison.png") as D.
      { exact (file_not_pde _ _ Fk). }
      apply String.eqb_neq in D. rewrite D. reflexivity.
    + apply first_none in F. rewrite F. cbn [Nat.leb Nat.add].
      split; [reflexivity|]. split; [reflexivity|].
      intros kind f N Fk. pose proof N as N'. apply String.eqb_neq in N. rewrite String.eqb_sym in N. rewrite N. rewrite <- (I3 kind f N' Fk).
      unfold put, del. assert (f <> "pde_comparison.png" /\ f <> "field_comparison.png") as [D D2].
      { split; [|intros ->; apply N'; apply (C100_different_files kind "field_comparison" _ Fk eq_refl)]. exact (file_not_pde _ _ Fk). }
      apply String.eqb_neq in D, D2. rewrite D, D2. reflexivity.
  - rewrite Nat.add_0_r. destruct (file_of k) as [fk|] eqn:Fk.
    + assert (A : fk <> "field_comparison.png"). { intros ->. apply String.eqb_neq in K. apply K. apply (C100_different_files k "field_comparison" _ Fk eq_refl). }
      assert (B : fk <> "pde_comparison.png").
      { exact (file_not_pde _ _ Fk). }
      cbn [fst]. unfold put. split; [|split].
      * apply not_eq_sym, String.eqb_neq in A. rewrite A, I1. destruct (first_of "field_comparison" calls); reflexivity.
      * apply not_eq_sym, String.eqb_neq in B. rewrite B. exact I2.
      * intros kind f N Ff. destruct (String.eqb k kind) eqn:KK.
        -- apply String.eqb_eq in KK. subst kind. assert (f = fk) by congruence. subst. rewrite String.eqb_refl. reflexivity.
        -- assert (f <> fk) as D. { intros ->. apply String.eqb_neq in KK. apply KK. eapply C100_different_files; eassumption. }
           apply String.eqb_neq in D. rewrite D. apply I3; assumption.
    + cbn [fst]. split; [rewrite I1; destruct (first_of "field_comparison" calls); reflexivity|]. split; [exact I2|].
      intros kind f N Ff. destruct (String.eqb k kind) eqn:KK; [apply String.eqb_eq in KK; congruence|]. apply I3; assumption.
Qed.
End Files.
(** "The reported field comparison shows the data of this call" is false from the second call into
    the same directory on. *)
Theorem C100_second_field_comparison_refuted : forall (old new : nat), old <> new ->
  let d := plots [("field_comparison", old)] (fun _ => None) in
  exists d', plot "field_comparison" new d = (d', Some "field_comparison.png") /\ d' "field_comparison.png" = Some old /\ d' "pde_comparison.png" = Some new.
Proof. intros old new _ d. eexists. split; [reflexivity|]. split; reflexivity. Qed.
Example C100_case : let d := plots [("parity", 1); ("field_comparison", 2); ("parity", 3); ("field_comparison", 4); ("field_comparison", 5)] (fun _ => None) in
  d "pde_parity_plot.png" = Some 3 /\ d "field_comparison.png" = Some 2 /\ d "pde_comparison.png" = Some 5.
Proof. repeat split. Qed.

(** ** C101 *)
Lemma Forall2_impl {A B} (R S : A -> B -> Prop) l r : (forall a b, R a b -> S a b) -> Forall2 R l r -> Forall2 S l r.
Proof. intros H F. induction F; constructor; auto. Qed.
Lemma all_some_spec {A} (l : list (option A)) :
  (forall r, all_some l = Some r <-> map Some r = l) /\ (all_some l = None <-> In None l).
Proof.
  induction l as [|[x|] l [IH1 IH2]]; cbn [all_some].
  - split; [|split; [discriminate|intros []]]. intros [|y r]; split; try discriminate; reflexivity.
  - split.
    + intros r. destruct (all_some l) as [s|].
      * split; [intros [= <-]; cbn; f_equal; apply IH1; reflexivity|]. destruct r as [|y r]; [discriminate|]. cbn. intros [= -> E]. do 2 f_equal. apply IH1 in E. congruence.
      * split; [discriminate|]. destruct r as [|y r]; [discriminate|]. cbn. intros [= -> E]. apply IH1 in E. discriminate.
    + destruct (all_some l) as [s|]; split; try discriminate; try reflexivity.
      * intros [H|H]; [discriminate|]. apply IH2 in H. discriminate.
      * intros _. right. apply IH2. reflexivity.
  - split; [|split; [intros _; now left|reflexivity]]. intros r. split; [discriminate|]. destruct r; discriminate.
Qed.
Lemma all_some_map {A B} (f : A -> option B) h r : all_some (map f h) = Some r <-> Forall2 (fun e x => f e = Some x) h r.
Proof.
  rewrite (proj1 (all_some_spec (map f h))). split.
  - revert r. induction h as [|e h IH]; intros [|x r] E; try discriminate; constructor; cbn in E; injection E as E1 E2; auto.
  - induction 1 as [|e x h r E F IH]; [reflexivity|]. cbn. rewrite E, IH. reflexivity.
Qed.
(** The history shown: one step per entry, numbered from 0, the entry's fitness (its objective when it has
    no fitness); nothing is shown if and only if the history is empty or an entry has neither. *)
Theorem C101_objective h :
  (optimization_data h = None <-> h = [] \/ exists e, In e h /\ e_fitness e = None /\ e_objective e = None) /\
  forall o, optimization_data h = Some o -> o_steps o = seq 0 (List.length h) /\
    Forall2 (fun e x => e_fitness e = Some x \/ e_fitness e = None /\ e_objective e = Some x) h (o_objective o).
Proof.
  split.
  - unfold optimization_data. destruct h as [|e0 h0]; [split; [now left|reflexivity]|]. set (h := e0 :: h0).
    destruct (all_some (map entry_value h)) as [r|] eqn:E.
    + split; [discriminate|]. intros [H|(e & I & F & O)]; [discriminate|]. exfalso.
      assert (all_some (map entry_value h) = None); [|congruence]. apply all_some_spec. apply in_map_iff. exists e. split; [unfold entry_value; rewrite F; exact O|exact I].
    + split; [|reflexivity]. intros _. right. apply all_some_spec in E. apply in_map_iff in E as (e & V & I). exists e. split; [exact I|]. unfold entry_value in V. destruct (e_fitness e); [discriminate|auto].
  - intros o. unfold optimization_data. destruct h as [|e0 h0]; [discriminate|]. set (h := e0 :: h0). destruct (all_some (map entry_value h)) as [r|] eqn:E; [|discriminate].
    intros [= <-]. split; [reflexivity|]. cbn [o_objective]. apply all_some_map in E. eapply Forall2_impl; [|exact E]. cbn. intros e x V. unfold entry_value in V. destruct (e_fitness e); auto.
Qed.
(** An optional series is shown exactly when every entry has it, and then entry by entry. *)
Theorem C101_optional_series h o : optimization_data h = Some o ->
  forall f s, In (f, s) [(e_complexity, o_complexity o); (e_pop, o_pop o); (e_unique, o_unique o)] ->
    (s = None <-> exists e, In e h /\ f e = None) /\ forall r, s = Some r -> Forall2 (fun e x => f e = Some x) h r.
Proof.
  unfold optimization_data. destruct h as [|e0 h0]; [discriminate|]. set (h := e0 :: h0). destruct (all_some (map entry_value h)); [|discriminate]. intros [= <-] f s I.
  assert (s = all_some (map f h)) as ->. { cbn in I. destruct I as [I|[I|[I|[]]]]; injection I as <- <-; reflexivity. }
  split; [|intros r E; apply all_some_map; exact E]. rewrite (proj2 (all_some_spec _)). rewrite in_map_iff. split; intros (e & A & B); eauto.
Qed.
(** The summary: first, last and least objective. *)
Theorem C101_summary h o : optimization_data h = Some o -> exists a b c, optimization_summary o = Some (a, b, c) /\
  nth_error (o_objective o) 0 = Some a /\ nth_error (o_objective o) (List.length (o_objective o) - 1) = Some b /\
  In c (o_objective o) /\ forall x, In x (o_objective o) -> (c <= x)%Q.
Proof.
  intros H. assert (o_objective o <> []) as NE.
  { destruct (proj2 (C101_objective h) o H) as [_ F]. unfold optimization_data in H. destruct h; [discriminate|]. inversion F. discriminate. }
  unfold optimization_summary. destruct (o_objective o) as [|x r]; [congruence|]. eexists _, _, _. split; [reflexivity|]. split; [reflexivity|]. split.
  - cbn [List.length]. rewrite Nat.sub_succ, Nat.sub_0_r. clear. revert x. induction r as [|y r IH]; intros x; [reflexivity|]. cbn [List.length nth_error]. rewrite IH. f_equal. destruct r; [reflexivity|]. cbn. clear. revert q. induction r as [|z r IH]; intros q; [reflexivity|]. cbn. destruct r; [reflexivity|]. apply (IH z).
  - split; [apply qmin_in|]. destruct (qmin_le x r) as [A B]. intros y [<-|I]; auto.
Qed.
(** "The legend names every curve of the left panel" is false: the curve of unique modules is
    drawn but never named. *)
Theorem C101_legend_refuted o : o_unique o <> None -> In UniqueModules (left_curves o) /\ (forall l n, In (l, n) (legend o) -> n <> UniqueModules) /\
  (o_pop o = None -> legend o = []).
Proof.
  intros U. unfold left_curves, legend. destruct (o_unique o) as [u|] eqn:E; [|congruence]. unfold left_curves. rewrite E. destruct (o_pop o) as [q|]; cbn.
  - split; [auto|]. split; [|discriminate]. intros l n [[= <- <-]|[]]. discriminate.
  - split; [auto|]. split; [intros l n []|reflexivity].
Qed.
(** The named curves are named rightly. *)
Theorem C101_legend_right o l n : In (l, n) (legend o) -> l = n.
Proof. unfold legend, left_curves. destruct (o_pop o), (o_unique o); cbn; intros []; try congruence; contradiction. Qed.

(** The legacy analysis plot: the highlighted interval of generations holds at least 80 percent of all
    change of the fitness. *)
Definition total (l : list Q) : Q := fold_right Qplus 0%Q l.
Lemma changes_length l : List.length (changes l) = List.length l - 1.
Proof. induction l as [|x l IH]; [reflexivity|]. destruct l as [|y l]; [reflexivity|]. cbn [changes List.length] in *. lia. Qed.
Lemma changes_nonneg l x : In x (changes l) -> (0 <= x)%Q.
Proof. induction l as [|a l IH]; [intros []|]. destruct l as [|b l]; [intros []|]. cbn [changes]. intros [<-|I]; [apply Qabs_nonneg|apply IH; exact I]. Qed.
Lemma last_cons {A} (x d : A) l : last (x :: l) d = last l x.
Proof. revert x. induction l as [|y l IH]; intros x; [reflexivity|]. change (last (y :: l) d = last (y :: l) x). rewrite (IH y). destruct l as [|z l]; [reflexivity|]. change (last (z :: l) y = last (z :: l) x). clear. revert z. induction l as [|w l IH]; intros z; [reflexivity|]. apply (IH w). Qed.
Lemma cumsum_last l : forall acc d, l <> [] -> (last (cumsum acc l) d == acc + total l)%Q.
Proof.
  induction l as [|x l IH]; intros acc d NE; [congruence|]. cbn [cumsum]. rewrite last_cons. destruct l as [|y l]; [cbn; ring|].
  rewrite IH by discriminate. cbn [total fold_right]. ring.
Qed.
Lemma searchsorted_spec ch : forall acc v, (forall x, In x ch -> 0 <= x)%Q -> (v <= acc + total ch)%Q -> (ch <> [] \/ v <= acc)%Q ->
  searchsorted (cumsum acc ch) v <= List.length ch /\ forall k, searchsorted (cumsum acc ch) v < k -> (v <= acc + total (firstn k ch))%Q.
Proof.
  induction ch as [|x ch IH]; intros acc v H T D; cbn [cumsum searchsorted].
  - split; [lia|]. intros k _. rewrite firstn_nil. exact T.
  - destruct (Qle_bool v (acc + x)) eqn:E.
    + apply Qle_bool_iff in E. split; [lia|]. intros k Hk. destruct k as [|k]; [lia|]. cbn [firstn total fold_right].
      assert (0 <= total (firstn k ch))%Q. { clear - H. assert (forall y, In y (firstn k ch) -> 0 <= y)%Q as G. { intros y I. apply H. right. rewrite <- (firstn_skipn k ch). apply in_or_app. now left. }
        induction (firstn k ch) as [|z l IHl]; [cbn; lra|]. cbn. assert (0 <= z)%Q by (apply G; now left). assert (0 <= total l)%Q by (apply IHl; intros; apply G; now right). unfold total in *. lra. }
      unfold total in *. lra.
    + assert (~ (v <= acc + x)%Q) as E' by (intros X; apply Qle_bool_iff in X; congruence).
      assert (T' : (v <= acc + x + total ch)%Q) by (cbn [total fold_right] in T; unfold total in *; lra).
      destruct (IH (acc + x)%Q v (fun y I => H y (or_intror I)) T') as [A B].
      { left. intros ->. cbn in T'. apply E'. unfold total in T'. cbn in T'. lra. }
      cbn [List.length]. split; [lia|]. intros k Hk. destruct k as [|k]; [lia|]. cbn [firstn total fold_right]. specialize (B k ltac:(lia)). unfold total in *. lra.
Qed.
Lemma searchsorted_lt ch : forall acc v, (forall x, In x ch -> 0 <= x)%Q -> (v <= acc + total ch)%Q -> ch <> [] -> searchsorted (cumsum acc ch) v < List.length ch.
Proof.
  induction ch as [|x ch IH]; intros acc v H T D; [congruence|]. cbn [cumsum searchsorted List.length]. destruct (Qle_bool v (acc + x)) eqn:E; [lia|].
  assert (~ (v <= acc + x)%Q) as E' by (intros X; apply Qle_bool_iff in X; congruence).
  cbn [total fold_right] in T. fold (total ch) in T. destruct ch as [|y ch]; [exfalso; apply E'; cbn in T; lra|]. apply -> Nat.succ_lt_mono.
  apply IH; [intros z I; apply H; now right|lra|discriminate].
Qed.
Theorem C101_major_changes fitness k : show_gens fitness = Some k ->
  1 <= k < List.length fitness /\ ((8 # 10) * total (changes fitness) <= total (firstn k (changes fitness)))%Q.
Proof.
  unfold show_gens. pose proof (changes_length fitness) as L. pose proof (changes_nonneg fitness) as NN. destruct (changes fitness) as [|x ch] eqn:E; [discriminate|]. rewrite <- E in *.
  assert (changes fitness <> []) as NE by (rewrite E; discriminate). assert (0 <= total (changes fitness))%Q as P.
  { clear - NN. induction (changes fitness) as [|x l IH]; [cbn; lra|]. cbn. assert (0 <= x)%Q by (apply NN; now left). assert (0 <= total l)%Q by (apply IH; intros; apply NN; now right). unfold total in *. lra. }
  pose proof (cumsum_last (changes fitness) 0 0 NE) as CL. set (v := ((8 # 10) * last (cumsum 0 (changes fitness)) 0)%Q).
  assert (V : (v <= 0 + total (changes fitness))%Q) by (unfold v; rewrite CL; lra).
  intros K. injection K as <-. pose proof (searchsorted_lt (changes fitness) 0 v NN V NE) as SL.
  assert (1 <= List.length fitness - 1) by (rewrite <- L, E; cbn; lia).
  split; [fold v; lia|]. destruct (searchsorted_spec (changes fitness) 0 v NN V (or_introl NE)) as [_ S].
  assert (SS : searchsorted (cumsum 0 (changes fitness)) v < Nat.min (searchsorted (cumsum 0 (changes fitness)) v + 5) (List.length fitness - 1)) by lia.
  specialize (S _ SS). fold v. unfold v in S at 1. rewrite CL in S. lra.
Qed.
(** "The analysis works for every run": false after a run of a single generation; the summary then
    reads a variable that was never assigned. *)
Theorem C101_single_generation_refuted f : show_gens [f] = None.
Proof. reflexivity. Qed.
Example C101_case : exists o, optimization_data [mkE (Some 5) None (Some 3) (Some 20) (Some 7); mkE None (Some 2) None (Some 20) (Some 9); mkE (Some 4) (Some 1) (Some 2) (Some 20) (Some 8)]%Q = Some o /\
  o_objective o = [5; 2; 4]%Q /\ o_complexity o = None /\ o_pop o = Some [20; 20; 20]%Q /\ optimization_summary o = Some (5, 4, 2)%Q /\ o_unique o <> None.
Proof. eexists. split; [vm_compute; reflexivity|]. repeat split. discriminate. Qed.
Example C101_major_case : show_gens [10; 4; 3; 3; 3; 3; 3; 3; 3; 2]%Q = Some 6. Proof. vm_compute. reflexivity. Qed.

(** ** C102 *)
(** For a solution index k >= 0 the equation shown is that of individual k: its modules, its coefficients, its left side, written with the user's operator names if there are any;
    without an individual k in all three lists the answer is a warning. *)
Theorem C102_shows_individual m opt : m_chrom m <> [] -> m_coef m <> [] -> m_name m <> [] ->
  let k := match opt with Some z => z | None => 0%Z end in (0 <= k)%Z ->
  (forall g c n, nth_error (m_chrom m) (Z.to_nat k) = Some g -> nth_error (m_coef m) (Z.to_nat k) = Some c -> nth_error (m_name m) (Z.to_nat k) = Some n ->
     exists ops, equation m opt = EqShown (dlga_eq2latex ops n g c) k /\ (m_ops m = [] -> ops = None) /\ (m_ops m <> [] -> ops = Some (m_ops m))) /\
  (nth_error (m_chrom m) (Z.to_nat k) = None \/ nth_error (m_coef m) (Z.to_nat k) = None \/ nth_error (m_name m) (Z.to_nat k) = None -> equation m opt = EqWarning true).
Proof.
  intros A B C k K. unfold equation. fold k. unfold py_nth. apply Z.leb_le in K. rewrite K.
  destruct (m_chrom m) as [|g0 gs]; [congruence|]. destruct (m_coef m) as [|c0 cs]; [congruence|]. destruct (m_name m) as [|n0 ns]; [congruence|]. split.
  - intros g c n -> -> ->. eexists. split; [reflexivity|]. destruct (m_ops m); split; congruence.
  - intros [->|[->| ->]]; [reflexivity|destruct (nth_error (g0 :: gs) (Z.to_nat k)); reflexivity|].
    destruct (nth_error (g0 :: gs) (Z.to_nat k)), (nth_error (c0 :: cs) (Z.to_nat k)); reflexivity.
Qed.
Theorem C102_nothing_fitted m opt : m_chrom m = [] \/ m_coef m = [] \/ m_name m = [] -> equation m opt = EqWarning false.
Proof. unfold equation. intros [->|[->| ->]]; [reflexivity|destruct (m_chrom m); reflexivity|destruct (m_chrom m), (m_coef m); reflexivity]. Qed.
(** After a generation (which scores [psize c] individuals, keeps half of them and refills), an index below half the
    population shows a kept individual with its own coefficients and left side; from there on the answer is a warning. *)
Theorem C102_after_a_generation (fit : genome -> num * (list Q * string)) c d s s' opt chroms :
  selected fit [] c d s s' -> 2 <= psize c -> mapM (ind s') (seq 0 (List.length (chrom s'))) = Ok chroms ->
  (forall cs ns, coefs s' = Some cs -> names s' = Some ns ->
   let m := mkM chroms cs ns [] None in
   let k := match opt with Some z => z | None => 0%Z end in
   ((0 <= k < Z.of_nat (psize c / 2))%Z ->
      exists g, In (Ok g) (map (ind s) (seq 0 (psize c))) /\ equation m opt = EqShown (dlga_eq2latex None (snd (snd (eval fit [] c g))) g (fst (snd (eval fit [] c g)))) k)%Z /\
   ((Z.of_nat (psize c / 2) <= k)%Z -> equation m opt = EqWarning true)).
Proof.
  intros S P E cs ns Ec En m k. pose proof (div2_lt (psize c) ltac:(lia)) as Hd. assert (0 < psize c / 2) as H0 by (apply Nat.div_str_pos; lia).
  assert (LC : List.length cs = psize c / 2 /\ List.length ns = psize c / 2).
  { destruct (sel_kept _ _ _ _ _ _ S 0 H0) as (j & g & _ & _ & _ & _ & _ & (cs' & X & Y & _) & (ns' & X' & Y' & _)). split; congruence. }
  destruct LC as [Lc Ln]. assert (Lch : List.length chroms = List.length (chrom s')) by (rewrite (mapM_length _ _ _ E); apply seq_length).
  assert (cs <> [] /\ ns <> []) as [NC NN] by (split; intros ->; cbn in *; lia).
  split.
  - intros K. assert (Hk : Z.to_nat k < psize c / 2) by lia. destruct (sel_kept _ _ _ _ _ _ S (Z.to_nat k) Hk) as (j & g & Hj & _ & Ig & Ig' & _ & (cs' & X & _ & Y) & (ns' & X' & _ & Y')).
    assert (cs' = cs) by congruence. assert (ns' = ns) by congruence. subst cs' ns'. exists g.
    assert (Eg : nth_error chroms (Z.to_nat k) = Some g).
    { assert (Hn : Z.to_nat k < List.length (chrom s')) by (apply nth_error_Some; intros X0; unfold ind in Ig'; unfold Dlga.at_ in Ig' at 1; rewrite X0 in Ig'; discriminate). destruct (nth_error chroms (Z.to_nat k)) as [g'|] eqn:N; [|apply nth_error_None in N; lia].
      assert (W : forall (l : list nat) (r : list genome), mapM (ind s') l = Ok r -> forall i a x, nth_error l i = Some a -> nth_error r i = Some x -> ind s' a = Ok x).
      { clear. induction l as [|b l IH]; intros r H i a x; [destruct i; discriminate|]. cbn in H. destruct (ind s' b) as [y|e] eqn:B; [|discriminate]. cbn in H. destruct (mapM (ind s') l) as [r'|e]; [|discriminate]. cbn in H. injection H as <-.
        destruct i as [|i]; cbn; [intros [= ->] [= ->]; exact B|]. apply IH. reflexivity. }
      assert (ind s' (Z.to_nat k) = Ok g') as W'. { apply (W _ _ E (Z.to_nat k)); [|exact N]. rewrite (nth_error_nth' _ 0) by (rewrite seq_length; exact Hn). rewrite seq_nth by exact Hn. reflexivity. }
      congruence. }
    assert (chroms <> []) as NG by (intros ->; destruct (Z.to_nat k); discriminate).
    destruct (proj1 (C102_shows_individual m opt NG NC NN (proj1 K)) g _ _ Eg Y Y') as (ops & Q & Qn & _). rewrite (Qn eq_refl) in Q. split; [|exact Q].
    apply in_map_iff. exists j. split; [exact Ig|]. apply in_seq. lia.
  - intros K. assert (NG : chroms = [] \/ chroms <> []) by (destruct chroms; [now left|right; discriminate]). 
    assert (NG' : chroms <> []). { intros ->. cbn in Lch. destruct (sel_kept _ _ _ _ _ _ S 0 H0) as (j & g & _ & A & Ij & _). unfold ind in Ij. destruct (chrom s'); [|discriminate].
      unfold Dlga.at_ in Ij. cbn in A. rewrite <- A in Ij. discriminate. }
    apply (proj2 (C102_shows_individual m opt NG' NC NN ltac:(lia))). right. left. apply nth_error_None. cbn [m_coef m]. lia.
Qed.
(** "A negative index counts from the end, like the last equation of the list" is false: the list of individuals is longer than
    those of coefficients and names, so modules of one individual are shown with coefficients of another. *)
Theorem C102_negative_index_refuted : exists m, m_chrom m = [[[0]]; [[1]]; [[2]]; [[1; 1]]] /\ m_coef m = [[5]; [7]]%Q /\ m_name m = ["u_t"; "u_t"] /\
  exists ops, equation m (Some (-1)%Z) = EqShown (dlga_eq2latex ops "u_t" [[1; 1]] [7%Q]) (-1).
Proof. eexists (mkM _ _ _ [] None). do 3 (split; [reflexivity|]). exists None. reflexivity. Qed.
Example C102_case : equation (mkM [[[0]]; [[1]]; [[2]]; [[1; 1]]] [[5]; [7]]%Q ["u_t"; "u_tt"] ["u"] None) (Some 1%Z) = EqShown ("u_tt", [mkShown false (Some 70000%Z) [("u_x", 1)]]) 1
  /\ equation (mkM [[[0]]; [[1]]; [[2]]; [[1; 1]]] [[5]; [7]]%Q ["u_t"; "u_tt"] ["u"] None) (Some 2%Z) = EqWarning true.
Proof. split; vm_compute; reflexivity. Qed.
Example C102_generation_case : let fit := fun g : genome => (Fin (inject_Z (Z.of_nat (list_sum (List.concat g)))), ([inject_Z (Z.of_nat (list_sum (List.concat g)))], "u_t")) in
  exists c d s s' chroms, psize c = 4 /\ selected fit [] c d s s' /\ mapM (ind s') (seq 0 (List.length (chrom s'))) = Ok chroms.
Proof.
  intros fit. set (c := mkCfg true 6 3 4 2).
  set (s := mkGa (C := list Q) [[[3]]; [[1]]; [[5]]; [[0]]] [0; 1; 2; 3] [] None None []).
  set (dd := mkDraws (fun _ => 0) (fun _ => 0) (fun _ => None) (fun _ => None) (fun _ => None) (fun _ _ => ((fun _ => (0, false)), false))).
  destruct (select_ok fit [] c 4 dd s) as (s' & E & S & _).
  - split; cbn; lia.
  - split; [|split; [|reflexivity]].
    + repeat constructor; cbn; lia.
    + repeat constructor; cbn; lia.
  - cbn. lia.
  - left. reflexivity.
  - intros g. unfold eval. destruct (kd c && (List.length g =? 0)); reflexivity.
  - exists c, dd, s, s'. vm_compute in E. injection E as <-. eexists. split; [reflexivity|]. split; [exact S|]. vm_compute. reflexivity.
Qed.
Print Assumptions C99_requested_panels.
Print Assumptions C99_outside_refused.
Print Assumptions C99_default_panels.
Print Assumptions C99_missing_data.
Print Assumptions C99_grid_times_exact.
Print Assumptions C99_title_refuted.
Print Assumptions C100_reported_file_is_this_plot.
Print Assumptions C100_different_files.
Print Assumptions C100_first_field_comparison.
Print Assumptions C100_history.
Print Assumptions C100_second_field_comparison_refuted.
Print Assumptions C101_objective.
Print Assumptions C101_optional_series.
Print Assumptions C101_summary.
Print Assumptions C101_legend_refuted.
Print Assumptions C101_legend_right.
Print Assumptions C101_major_changes.
Print Assumptions C101_single_generation_refuted.
Print Assumptions C102_shows_individual.
Print Assumptions C102_nothing_fitted.
Print Assumptions C102_after_a_generation.
Print Assumptions C102_negative_index_refuted.
