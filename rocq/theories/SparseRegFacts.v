(** Proofs about the sparse regression. *)
From Coq Require Import QArith Qabs Lqa.
From Verif Require Import Base Num SparseReg.
Local Open Scope nat_scope.

Lemma upd_length {A} (l : list A) : forall i x, List.length (upd l i x) = List.length l.
Proof. induction l as [|y l IH]; intros [|i] x; cbn; auto. Qed.
Lemma nth_upd (l : list Q) : forall i j x, nth j (upd l i x) 0%Q = if Nat.eqb i j && Nat.ltb j (List.length l) then x else nth j l 0%Q.
Proof.
  induction l as [|y l IH]; intros [|i] [|j] x; cbn; auto.
  - rewrite andb_false_r. reflexivity.
  - rewrite IH. reflexivity.
Qed.
Lemma scatter_length inds : forall w vals, List.length (scatter w inds vals) = List.length w.
Proof. induction inds as [|i is IH]; intros w [|v vs]; cbn; auto. rewrite IH. apply upd_length. Qed.
Lemma nth_scatter inds : forall w vals j, NoDup inds -> List.length vals = List.length inds -> j < List.length w ->
  nth j (scatter w inds vals) 0%Q = if existsb (Nat.eqb j) inds then lookup j (combine inds vals) else nth j w 0%Q.
Proof.
  induction inds as [|i is IH]; intros w [|v vs] j N L Hj; cbn in *; try discriminate; auto.
  apply NoDup_cons_iff in N as [N1 N2]. rewrite IH by (rewrite ?upd_length; auto; lia). rewrite nth_upd.
  apply Nat.ltb_lt in Hj as Hj'. rewrite Hj', andb_true_r. rewrite Nat.eqb_sym.
  destruct (Nat.eqb_spec i j) as [->|Hij].
  - rewrite Nat.eqb_refl. cbn. destruct (existsb (Nat.eqb j) is) eqn:E; [|reflexivity].
    apply existsb_exists in E as (x & Hx & E). apply Nat.eqb_eq in E. subst. tauto.
  - destruct (Nat.eqb_spec j i); [congruence|]. cbn. reflexivity.
Qed.
Lemma embed_length d S v : List.length (embed d S v) = d.
Proof. unfold embed. rewrite map_length, seq_length. reflexivity. Qed.
Lemma nth_map_seq {A} (f : nat -> A) n i (x : A) : i < n -> nth i (map f (seq 0 n)) x = f i.
Proof. intros H. rewrite nth_indep with (d' := f 0) by (rewrite map_length, seq_length; exact H). rewrite map_nth, seq_nth by exact H. reflexivity. Qed.
Lemma nth_embed d S v i : i < d -> nth i (embed d S v) 0%Q = lookup i (combine S v).
Proof. apply (nth_map_seq (fun i => lookup i (combine S v))). Qed.
Lemma lookup_out i S : forall v, ~ In i S -> lookup i (combine S v) = 0%Q.
Proof. induction S as [|j S IH]; intros [|q v] H; cbn in *; auto. destruct (Nat.eqb_spec i j); [subst; tauto|]. apply IH. tauto. Qed.
Lemma existsb_In i l : existsb (Nat.eqb i) l = true <-> In i l.
Proof. rewrite existsb_exists. split; [intros (x & H & E); apply Nat.eqb_eq in E; subst; exact H|intros H; exists i; rewrite Nat.eqb_refl; auto]. Qed.
Lemma nth_ext0 (a b : list Q) : List.length a = List.length b -> (forall i, i < List.length a -> nth i a 0%Q = nth i b 0%Q) -> a = b.
Proof. intros L H. apply (nth_ext a b 0%Q 0%Q L H). Qed.
Lemma filter_ext_in' {A} (f g : A -> bool) l : (forall x, In x l -> f x = g x) -> filter f l = filter g l.
Proof. induction l as [|x l IH]; intros H; cbn; auto. rewrite (H x (or_introl eq_refl)), IH; auto. intros y Hy; apply H; right; auto. Qed.
Lemma filter_filter {A} (f g : A -> bool) l : (forall x, In x l -> f x = true -> g x = true) -> filter f (filter g l) = filter f l.
Proof.
  induction l as [|x l IH]; intros H; cbn; auto. destruct (g x) eqn:G; cbn.
  - destruct (f x); rewrite IH; auto; intros y Hy; apply H; right; auto.
  - destruct (f x) eqn:F; [rewrite (H x (or_introl eq_refl) F) in G; discriminate|]. apply IH. intros y Hy; apply H; right; auto.
Qed.
Lemma filter_same_length {A} (f : A -> bool) l : List.length (filter f l) = List.length l -> filter f l = l.
Proof.
  induction l as [|x l IH]; cbn; auto. pose proof (filter_length f l). destruct (f x); cbn; intros H1; [f_equal; apply IH; lia|lia].
Qed.

Section STRidgeFacts.
Variables (d : nat) (ridge lsq : list nat -> list Q) (Mreg : option (list Q)) (tol : Q).
Hypothesis Hridge : forall S, List.length (ridge S) = List.length S.
Hypothesis Hlsq : forall S, List.length (lsq S) = List.length S.
Hypothesis Htol : (0 < tol)%Q.
Local Notation surv := (survivors d ridge tol).
Local Notation W k := (embed d (surv k) (ridge (surv k))).

Lemma surv_filter k : exists g, surv k = filter g (seq 0 d).
Proof.
  induction k as [|k [g IH]].
  - exists (fun _ => true). cbn. symmetry. apply filter_all. auto.
  - cbn. rewrite IH. set (f := fun i => Qle_bool tol _). exists (fun i => g i && f i). clear IH. clearbody f. induction (seq 0 d) as [|x l IHl]; cbn; auto.
    destruct (g x); cbn; [destruct (f x); rewrite IHl|]; auto.
Qed.
Lemma surv_NoDup k : NoDup (surv k).
Proof. destruct (surv_filter k) as [g ->]. apply NoDup_filter, seq_NoDup. Qed.
Lemma surv_lt k i : In i (surv k) -> i < d.
Proof. destruct (surv_filter k) as [g ->]. rewrite filter_In, in_seq. lia. Qed.
Lemma W0 : W 0 = ridge (seq 0 d).
Proof.
  cbn. apply nth_ext0; rewrite embed_length; [rewrite Hridge, seq_length; reflexivity|]. intros i Hi. rewrite nth_embed by exact Hi.
  assert (L : List.length (ridge (seq 0 d)) = d) by (rewrite Hridge, seq_length; reflexivity).
  generalize dependent (ridge (seq 0 d)). intros v L.
  assert (X : forall n k v, List.length v = n -> k <= i -> lookup i (combine (seq k n) v) = nth (i - k) v 0%Q).
  { clear. induction n as [|n IH]; intros k [|q v] L Hk; cbn in *; try discriminate; [destruct (i - k); reflexivity|].
    destruct (Nat.eqb_spec i k) as [->|H]; [rewrite Nat.sub_diag; reflexivity|]. rewrite IH by lia. replace (i - k) with (S (i - S k)) by lia. reflexivity. }
  rewrite (X d 0 v L) by lia. rewrite Nat.sub_0_r. reflexivity.
Qed.
Lemma new_big w : new_biginds d tol w = filter (fun i => Qle_bool tol (Qabs (nth i w 0%Q))) (seq 0 d).
Proof.
  unfold new_biginds. apply filter_ext_in'. intros i Hi. unfold smallinds.
  destruct (existsb _ _) eqn:E.
  - apply existsb_In in E. apply filter_In in E as [_ E]. unfold Qltb in E. destruct (Qle_bool tol _); [discriminate|reflexivity].
  - destruct (Qle_bool tol _) eqn:F; [reflexivity|]. exfalso. rewrite <- not_true_iff_false in E. apply E. apply existsb_In, filter_In. split; [exact Hi|]. unfold Qltb. rewrite F. reflexivity.
Qed.
Lemma qle0 : Qle_bool tol (Qabs 0) = false.
Proof. destruct (Qle_bool tol (Qabs 0)) eqn:E; [|reflexivity]. apply Qle_bool_iff in E. change (Qabs 0) with 0%Q in E. lra. Qed.
Lemma new_big_surv k : new_biginds d tol (W k) = surv (S k).
Proof.
  rewrite new_big. cbn [survivors]. set (f := fun i => Qle_bool tol (Qabs (lookup i (combine (surv k) (ridge (surv k)))))).
  rewrite (filter_ext_in' _ f).
  - destruct (surv_filter k) as [g E]. transitivity (filter f (filter g (seq 0 d))); [|rewrite <- E; reflexivity]. symmetry. apply filter_filter. intros i Hi Hf.
    destruct (g i) eqn:G; [reflexivity|]. unfold f in Hf. rewrite lookup_out in Hf; [rewrite qle0 in Hf; discriminate|].
    rewrite E. rewrite filter_In. rewrite G. intros [_ H]; discriminate.
  - intros i Hi. apply in_seq in Hi. unfold f. rewrite nth_embed by lia. reflexivity.
Qed.
Lemma scatter_zero w : List.length w = d ->
  forall i, i < d -> nth i (scatter w (smallinds d tol w) (repeat 0%Q (List.length (smallinds d tol w)))) 0%Q =
  if Qle_bool tol (Qabs (nth i w 0%Q)) then nth i w 0%Q else 0%Q.
Proof.
  intros L i Hi. rewrite nth_scatter; [|apply NoDup_filter, seq_NoDup|apply repeat_length|lia].
  destruct (existsb _ _) eqn:E.
  - apply existsb_In in E. pose proof E as E'. apply filter_In in E as [_ E]. unfold Qltb in E. destruct (Qle_bool tol _); [discriminate|].
    clear. induction (smallinds d tol w) as [|j l IH]; cbn; auto. destruct (Nat.eqb i j); auto.
  - destruct (Qle_bool tol _) eqn:F; [reflexivity|]. exfalso. rewrite <- not_true_iff_false in E. apply E. apply existsb_In, filter_In.
    split; [apply in_seq; lia|]. unfold Qltb. rewrite F. reflexivity.
Qed.
(** putting values on the survivors into a vector that vanishes elsewhere *)
Lemma scatter_embed w S v : List.length w = d -> NoDup S -> List.length v = List.length S -> (forall i, i < d -> ~ In i S -> nth i w 0%Q = 0%Q) ->
  scatter w S v = embed d S v.
Proof.
  intros L N Lv H. apply nth_ext0; rewrite scatter_length; [rewrite embed_length; exact L|]. rewrite L. intros i Hi.
  rewrite nth_scatter, nth_embed by (auto; lia). destruct (existsb _ _) eqn:E; [reflexivity|].
  assert (~ In i S) by (rewrite <- existsb_In, E; discriminate). rewrite lookup_out, H; auto.
Qed.
Lemma step_W k : scatter (scatter (W k) (smallinds d tol (W k)) (repeat 0%Q (List.length (smallinds d tol (W k))))) (surv (S k)) (ridge (surv (S k))) = W (S k).
Proof.
  apply scatter_embed; [rewrite scatter_length; apply embed_length|apply surv_NoDup|apply Hridge|].
  intros i Hi Hn. rewrite scatter_zero by (auto; apply embed_length). destruct (Qle_bool tol _) eqn:E; [|reflexivity]. exfalso. apply Hn.
  rewrite <- new_big_surv, new_big. apply filter_In. split; [apply in_seq; lia|exact E].
Qed.
Lemma thresh_spec fuel : forall k bigs arr, surv (S k) <> [] \/ 0 < k ->
  exists m, k <= m <= k + fuel /\
  thresh d ridge tol fuel k (List.length (surv k)) arr bigs (W k) =
    Done (if Nat.eqb m k then arr else false) (if Nat.eqb m k then bigs else surv m) (W m) /\
  (m = k + fuel \/ surv (S m) = surv m \/ surv (S m) = []) /\ (k < m -> surv m <> []).
Proof.
  induction fuel as [|f IH]; intros k bigs arr Hk; cbn [thresh].
  - exists k. rewrite Nat.eqb_refl. split; [lia|]. split; [reflexivity|]. split; [left; lia|lia].
  - rewrite new_big_surv. destruct (Nat.eqb_spec (List.length (surv k)) (List.length (surv (S k)))) as [E|E].
    + exists k. rewrite Nat.eqb_refl. split; [lia|]. split; [reflexivity|]. split; [|lia]. right; left. cbn [survivors] in *. apply filter_same_length. symmetry. exact E.
    + destruct (Nat.eqb_spec (List.length (surv (S k))) 0) as [E0|E0].
      * apply length_zero_iff_nil in E0. destruct Hk as [Hk|Hk]; [congruence|]. destruct (Nat.eqb_spec k 0); [lia|].
        exists k. rewrite Nat.eqb_refl. split; [lia|]. split; [reflexivity|]. split; [auto|lia].
      * rewrite step_W. destruct (IH (S k) (surv (S k)) false) as (m & Hm & -> & Hend & Hne); [right; lia|].
        exists m. split; [lia|]. destruct (Nat.eqb_spec m k); [lia|]. split; [|split].
        -- destruct (Nat.eqb_spec m (S k)) as [->|]; reflexivity.
        -- destruct Hend as [Hend|Hend]; [left; lia|right; exact Hend].
        -- intros _. destruct (Nat.eq_dec m (S k)) as [->|]; [|apply Hne; lia]. intros E1. rewrite E1 in E0. cbn in E0. congruence.
Qed.
Lemma ridge0_nth i : i < d -> nth i (ridge (seq 0 d)) 0%Q = lookup i (combine (surv 0) (ridge (surv 0))).
Proof. intros H. rewrite <- W0. rewrite nth_embed by exact H. reflexivity. Qed.
(** The result of STRidge, normal case. *)
Lemma stridge_spec c maxit : 0 < maxit -> surv 1 <> [] -> (forall i, i < d -> ~ (Qabs (nth i (ridge (seq 0 d)) 0%Q) == tol)%Q) ->
  (c = Sga \/ surv 1 <> seq 0 d) ->
  exists k, k <= maxit /\ surv k <> [] /\ (k = maxit \/ surv (S k) = surv k \/ surv (S k) = []) /\
  stridge d ridge lsq Mreg tol c maxit = Ok (rescale Mreg (embed d (surv k) (lsq (surv k)))).
Proof.
  intros Hm H1 Htie Hc. unfold stridge. cbv zeta. rewrite <- W0.
  assert (Ld : List.length (surv 0) = d) by (cbn; apply seq_length). 
  destruct (thresh_spec maxit 0 (biginds0 d tol (W 0)) true (or_introl H1)) as (m & Hmm & E & Hend & Hne).
  rewrite Ld in E. replace (thresh d ridge tol maxit 0 d true (biginds0 d tol (W 0)) (W 0)) with
    (Done (if Nat.eqb m 0 then true else false) (if Nat.eqb m 0 then biginds0 d tol (W 0) else surv m) (W m)) by (symmetry; exact E).
  clear E. exists m. split; [lia|].
  assert (S0 : surv 0 <> []).
  { intros E0. apply H1. cbn [survivors] in *. rewrite E0. reflexivity. }
  destruct (Nat.eqb_spec m 0) as [->|Hm0].
  - split; [exact S0|]. split; [exact Hend|].
    destruct Hend as [He|[He|He]]; [lia| |congruence].
    assert (B : biginds0 d tol (W 0) = surv 0).
    { transitivity (surv 1); [|exact He]. rewrite <- new_big_surv, new_big. unfold biginds0. apply filter_ext_in'. intros i Hi. apply in_seq in Hi.
      specialize (Htie i ltac:(lia)). rewrite <- W0 in Htie. unfold Qltb. destruct (Qle_bool (Qabs _) tol) eqn:A1; destruct (Qle_bool tol _) eqn:A2; cbn; auto.
      - apply Qle_bool_iff in A1, A2. exfalso. apply Htie. apply Qle_antisym; assumption.
      - rewrite <- not_true_iff_false, Qle_bool_iff in A1, A2. exfalso. apply Qnot_le_lt in A1, A2. apply Qlt_le_weak in A1. apply (Qlt_irrefl tol). eapply Qle_lt_trans; [exact A1|exact A2]. }
    rewrite B. destruct Hc as [->|Hc]; [|exfalso; apply Hc; exact He].
    assert (L0 : (0 <? Datatypes.length (surv 0)) = true) by (destruct (surv 0); [congruence|reflexivity]).
    unfold refit, bind. rewrite L0. do 2 f_equal. apply scatter_embed; [apply embed_length|apply surv_NoDup|apply Hlsq|].
    intros i Hi Hn. exfalso. apply Hn. cbn. apply in_seq. lia.
  - specialize (Hne ltac:(lia)). split; [exact Hne|]. split; [exact Hend|].
    assert (R : refit c false (surv m) = Ok true) by (unfold refit; destruct (surv m); [congruence|]; destruct c; reflexivity).
    rewrite R. unfold bind. do 2 f_equal. apply scatter_embed; [apply embed_length|apply surv_NoDup|apply Hlsq|].
    intros i Hi Hn. rewrite nth_embed by exact Hi. apply lookup_out. exact Hn.
Qed.
End STRidgeFacts.

(** ** Scaling the columns *)
Lemma times_comm_dot m : forall r v, (dot (times m r) v == dot r (times m v))%Q.
Proof.
  induction m as [|a m IH]; intros [|b r] [|c v]; unfold dot, times in *; cbn; try reflexivity.
  rewrite (IH r v). ring.
Qed.
Lemma fold_plus_eq (l l' : list Q) : Forall2 Qeq l l' -> (fold_right Qplus 0 l == fold_right Qplus 0 l')%Q.
Proof. induction 1; cbn; [reflexivity|]. rewrite H, IHForall2. reflexivity. Qed.
Lemma rss_scale m X0 y v : (rss (map (times m) X0) y v == rss X0 y (times m v))%Q.
Proof.
  unfold rss. revert y. induction X0 as [|r X0 IH]; intros [|b y]; cbn [map combine fold_right fst snd]; try reflexivity. rewrite (IH y), times_comm_dot. reflexivity.
Qed.
Lemma dot_ext r : forall v v', Forall2 Qeq v v' -> (dot r v == dot r v')%Q.
Proof.
  induction r as [|a r IH]; intros v v' H; inversion_clear H; unfold dot, times in *; cbn; try reflexivity. rewrite (IH l l') by assumption. rewrite H0. reflexivity.
Qed.
Lemma rss_ext X y v v' : Forall2 Qeq v v' -> (rss X y v == rss X y v')%Q.
Proof.
  intros H. unfold rss. revert y. induction X as [|r X IH]; intros [|b y]; cbn [map combine fold_right fst snd]; try reflexivity. rewrite (IH y), (dot_ext r v v' H). reflexivity.
Qed.
Lemma Forall2_nth (a b : list Q) : List.length a = List.length b -> (forall i, i < List.length a -> (nth i a 0 == nth i b 0)%Q) -> Forall2 Qeq a b.
Proof.
  revert b. induction a as [|x a IH]; intros [|y b] L H; cbn in *; try discriminate; constructor.
  - apply (H 0). lia.
  - apply IH; [lia|]. intros i Hi. apply (H (S i)). lia.
Qed.
Lemma times_length a b : List.length a = List.length b -> List.length (times a b) = List.length b.
Proof. intros H. unfold times. rewrite map_length, combine_length. lia. Qed.
Lemma nth_times a : forall b i, (nth i (times a b) 0 == nth i a 0 * nth i b 0)%Q.
Proof.
  unfold times. induction a as [|x a IH]; intros [|y b] [|i]; cbn; try ring. apply IH.
Qed.
Lemma lookup_map (f : nat -> Q) S i : In i S -> lookup i (combine S (map f S)) = f i.
Proof. induction S as [|j S IH]; intros H; cbn in *; [tauto|]. destruct (Nat.eqb_spec i j); [subst; reflexivity|]. apply IH. destruct H; [congruence|assumption]. Qed.
(** the refitted coefficients are optimal among all vectors vanishing outside S *)
Lemma refit_optimal X0 y d lsq m S u :
  least_squares (map (times m) X0) y d lsq -> List.length m = d -> Forall (fun q => ~ (q == 0)%Q) m ->
  NoDup S -> (forall i, In i S -> i < d) -> List.length u = d -> (forall i, i < d -> ~ In i S -> (nth i u 0 == 0)%Q) ->
  (rss X0 y (times m (embed d S (lsq S))) <= rss X0 y u)%Q.
Proof.
  intros H Lm Nz ND Hlt Lu Hu. set (v := map (fun i => nth i u 0 / nth i m 0)%Q S).
  specialize (H S v ND Hlt (map_length _ _)). rewrite !rss_scale in H. eapply Qle_trans; [exact H|].
  rewrite (rss_ext X0 y _ u); [apply Qle_refl|]. apply Forall2_nth.
  - rewrite times_length; rewrite embed_length; auto.
  - rewrite times_length by (rewrite embed_length; exact Lm). rewrite embed_length. intros i Hi. rewrite nth_times, nth_embed by exact Hi.
    destruct (in_dec Nat.eq_dec i S) as [HS|HS].
    + unfold v. rewrite (lookup_map (fun i => nth i u 0 / nth i m 0)%Q S i HS). field.
      rewrite Forall_forall in Nz. apply Nz. apply nth_In. lia.
    + rewrite lookup_out by exact HS. rewrite (Hu i Hi HS). ring.
Qed.
Lemma times_ones n v : List.length v = n -> Forall2 Qeq (times (repeat 1%Q n) v) v.
Proof. intros <-. induction v as [|q v IH]; cbn; constructor; [ring|exact IH]. Qed.

(** ** The tolerance search *)
Section SearchFacts.
Variables (str : Q -> res (list Q)) (measure : list Q -> fit).
Definition from (best f : fit) (ts : list Q) : Prop := f = best \/ exists t w, In t ts /\ str t = Ok w /\ f = measure w.
Lemma search_spec n : forall tol dt best tried f ts, (0 < dt)%Q -> (0 < tol)%Q -> is_nan (f_crit best) = false ->
  search str measure n tol dt best tried = Ok (f, ts) ->
  exists new, ts = tried ++ new /\ List.length new = n /\ Forall (fun t => 0 < t)%Q new /\
  nle (f_crit f) (f_crit best) = true /\ from best f new /\
  (forall t, In t new -> exists w, str t = Ok w /\ (is_nan (f_crit (measure w)) = false -> nle (f_crit f) (f_crit (measure w)) = true)).
Proof.
  induction n as [|n IH]; intros tol dt best tried f ts Hd Ht Hb H.
  - cbn in H. injection H as <- <-. exists []. rewrite app_nil_r. repeat split; auto; [apply nle_refl; exact Hb|left; reflexivity|intros t []].
  - cbn [search] in H. destruct (str tol) as [w|] eqn:E; cbn [bind] in H; [|discriminate].
    destruct (nle (f_crit (measure w)) (f_crit best)) eqn:C.
    + pose proof (nle_notnan _ _ C) as [Nw _].
      assert (0 < tol + dt)%Q as Ht' by lra. destruct (IH _ _ _ _ _ _ Hd Ht' Nw H) as (new & -> & L & P & B & F & M).
      exists (tol :: new). rewrite <- app_assoc. split; [reflexivity|]. split; [cbn; lia|]. split; [constructor; assumption|].
      split; [eapply nle_trans; eauto|]. split.
      * right. destruct F as [->|(t & w' & I & E' & ->)]; [exists tol, w; cbn; auto|exists t, w'; cbn; auto].
      * intros t [<-|I]; [exists w; split; auto|apply M; exact I].
    + set (tol1 := if Qle_bool (tol - 2 * dt) 0 then 0%Q else (tol - 2 * dt)%Q) in H.
      set (d1 := (2 * dt / inject_Z (Z.of_nat (S n)))%Q) in H.
      assert (Hd1 : (0 < d1)%Q).
      { unfold d1. apply Qlt_shift_div_l; [reflexivity|]. rewrite Qmult_0_l. lra. }
      assert (Ht1 : (0 < tol1 + d1)%Q).
      { unfold tol1. destruct (Qle_bool _ 0) eqn:Q0; [lra|]. rewrite <- not_true_iff_false, Qle_bool_iff in Q0. apply Qnot_le_lt in Q0. lra. }
      destruct (IH _ _ _ _ _ _ Hd1 Ht1 Hb H) as (new & -> & L & P & B & F & M).
      exists (tol :: new). rewrite <- app_assoc. split; [reflexivity|]. split; [cbn; lia|]. split; [constructor; assumption|].
      split; [exact B|]. split.
      * destruct F as [->|(t & w' & I & E' & ->)]; [left; reflexivity|right; exists t, w'; cbn; auto].
      * intros t [<-|I]; [|apply M; exact I]. exists w. split; [exact E|]. intros Nw.
        eapply nle_trans; [exact B|]. destruct (nle_total (f_crit best) (f_crit (measure w)) Hb Nw) as [X|X]; [exact X|congruence].
Qed.
(** a NaN criterion is never displaced *)
Lemma search_nan n : forall tol dt best tried f ts, is_nan (f_crit best) = true -> search str measure n tol dt best tried = Ok (f, ts) -> f = best.
Proof.
  induction n as [|n IH]; intros tol dt best tried f ts Hb H; cbn [search] in H; [congruence|].
  destruct (str tol) as [w|] eqn:E; cbn [bind] in H; [|discriminate].
  destruct (nle _ _) eqn:C; [destruct (nle_notnan _ _ C); congruence|]. eapply IH; eauto.
Qed.
Lemma search_total n : (forall t, exists w, str t = Ok w) -> forall tol dt best tried, exists r, search str measure n tol dt best tried = Ok r.
Proof.
  intros Hs. induction n as [|n IH]; intros tol dt best tried; cbn [search]; [eauto|]. destruct (Hs tol) as [w ->]. cbn [bind]. destruct (nle _ _); apply IH.
Qed.
End SearchFacts.
Lemma stridge_sga_total d ridge lsq M tol maxit : exists w, stridge d ridge lsq M tol Sga maxit = Ok w.
Proof. unfold stridge. destruct (thresh _ _ _ _ _ _ _ _ _); cbn; eauto. Qed.
