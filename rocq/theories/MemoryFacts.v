(** Proofs about the memory queues. *)
From Verif Require Import Base Memory.
From Coq Require Import Permutation.

(** ** Specification of "most recent distinct pushes" *)
Definition key_in {D} (k : string) (h : list (string * D)) : bool := existsb (fun e => String.eqb k (fst e)) h.
(** Pushes not followed by a push of the same key, oldest first. *)
Fixpoint last_pushes {D} (h : list (string * D)) : list (string * D) :=
  match h with
  | [] => []
  | e :: h' => if key_in (fst e) h' then last_pushes h' else e :: last_pushes h'
  end.
Definition lastn {A} (n : nat) (l : list A) : list A := skipn (List.length l - n) l.
Definition keep_recent {D} (cap : option nat) (l : list (string * D)) : list (string * D) :=
  match cap with Some c => lastn c l | None => l end.

Lemma sin_In k l : sin k l = true <-> In k l.
Proof.
  unfold sin. rewrite existsb_exists. split.
  - intros (y & H & E). apply String.eqb_eq in E. subst. exact H.
  - intros H. exists k. split; [exact H|apply String.eqb_refl].
Qed.
Lemma sin_nIn k l : sin k l = false <-> ~ In k l.
Proof. rewrite <- sin_In. destruct (sin k l); split; congruence. Qed.
Lemma list_del_In k l : NoDup l -> NoDup (list_del k l) /\ forall x, In x (list_del k l) <-> In x l /\ x <> k.
Proof.
  induction 1 as [|y l Hy ND [IH1 IH2]]; cbn [list_del]; [split; [constructor|simpl; tauto]|].
  destruct (String.eqb_spec k y) as [->|Hne].
  - split; [exact ND|]. intros x. simpl. split; [|intros [[->|H] Hn]; tauto].
    intros H. split; [auto|]. intros ->. tauto.
  - split; [constructor; [rewrite IH2; tauto|exact IH1]|]. intros x. simpl. rewrite IH2.
    split; [intros [->|[H1 H2]]; auto|intros [[->|H] Hn]; auto].
Qed.

Definition del {D} (k : string) (l : list (string * D)) := filter (fun e => negb (String.eqb k (fst e))) l.
Lemma key_in_In {D} k (h : list (string * D)) : key_in k h = true <-> In k (map fst h).
Proof.
  unfold key_in. rewrite existsb_exists, in_map_iff. split.
  - intros (e & H & E). apply String.eqb_eq in E. eauto.
  - intros (e & E & H). exists e. split; [exact H|]. apply String.eqb_eq. auto.
Qed.
Lemma last_pushes_snoc {D} (h : list (string * D)) k d : last_pushes (h ++ [(k, d)]) = del k (last_pushes h) ++ [(k, d)].
Proof.
  induction h as [|e h IH]; [reflexivity|]. cbn [app last_pushes].
  unfold key_in. rewrite existsb_app. cbn [existsb fst]. rewrite orb_false_r. fold (key_in (fst e) h).
  destruct (key_in (fst e) h) eqn:E; cbn [orb]; [exact IH|]. rewrite String.eqb_sym.
  cbn [del filter]. destruct (String.eqb k (fst e)); cbn [negb]; rewrite IH; reflexivity.
Qed.
Lemma last_pushes_keys {D} (h : list (string * D)) k : In k (map fst (last_pushes h)) <-> In k (map fst h).
Proof.
  induction h as [|e h IH]; [reflexivity|]. cbn [last_pushes map]. destruct (key_in (fst e) h) eqn:E.
  - apply key_in_In in E. simpl. rewrite IH. split; [auto|]. intros [<-|H]; auto.
  - simpl. rewrite IH. reflexivity.
Qed.
Lemma last_pushes_nodup {D} (h : list (string * D)) : NoDup (map fst (last_pushes h)).
Proof.
  induction h as [|e h IH]; [constructor|]. cbn [last_pushes]. destruct (key_in (fst e) h) eqn:E; [exact IH|].
  cbn [map]. constructor; [|exact IH]. rewrite last_pushes_keys. intros H. apply key_in_In in H. congruence.
Qed.

Lemma filter_all {A} (f : A -> bool) l : (forall x, In x l -> f x = true) -> filter f l = l.
Proof.
  induction l as [|x l IH]; intros H; [reflexivity|]. cbn [filter]. rewrite (H x (or_introl eq_refl)).
  f_equal. apply IH. intros y Hy. apply H. right. exact Hy.
Qed.
Lemma remove_first_del {D} k (l : list (string * D)) : NoDup (map fst l) -> In k (map fst l) ->
  remove_first k l = Ok (del k l).
Proof.
  induction l as [|e l IH]; intros ND Hin; [destruct Hin|]. cbn [remove_first del filter].
  inversion ND as [|? ? H1 H2]; subst. destruct (String.eqb_spec k (fst e)) as [->|Hne]; cbn [negb].
  - f_equal. symmetry. apply filter_all. intros x Hx. apply negb_true_iff. apply String.eqb_neq.
    intros E. apply H1. rewrite E. apply in_map. exact Hx.
  - destruct Hin as [E|Hin]; [symmetry in E; tauto|]. rewrite (IH H2 Hin). reflexivity.
Qed.
Lemma del_notin {D} k (l : list (string * D)) : ~ In k (map fst l) -> del k l = l.
Proof.
  intros H. unfold del. apply filter_all. intros x Hx. apply negb_true_iff, String.eqb_neq.
  intros ->. apply H. apply in_map. exact Hx.
Qed.
Lemma del_length {D} k (l : list (string * D)) : NoDup (map fst l) -> In k (map fst l) ->
  List.length l = S (List.length (del k l)).
Proof.
  induction l as [|e l IH]; intros ND Hin; [destruct Hin|]. inversion ND as [|? ? H1 H2]; subst.
  cbn [del filter]. destruct (String.eqb_spec k (fst e)) as [->|Hne]; cbn [negb].
  - fold (del (fst e) l). rewrite del_notin by exact H1. reflexivity.
  - destruct Hin as [E|Hin]; [symmetry in E; tauto|]. cbn [List.length]. f_equal. exact (IH H2 Hin).
Qed.
Lemma skipn_map {A B} (f : A -> B) n l : skipn n (map f l) = map f (skipn n l).
Proof. revert l. induction n as [|n IH]; intros [|x l]; cbn; auto. Qed.
Lemma del_app {D} k (l1 l2 : list (string * D)) : del k (l1 ++ l2) = del k l1 ++ del k l2.
Proof. apply filter_app. Qed.
Lemma NoDup_app_inv {A} (l1 l2 : list A) : NoDup (l1 ++ l2) -> NoDup l1 /\ NoDup l2 /\ forall x, In x l1 -> ~ In x l2.
Proof.
  induction l1 as [|x l1 IH]; intros H; [split; [constructor|split; [exact H|intros x []]]|].
  inversion H as [|? ? H1 H2]; subst. destruct (IH H2) as (A1 & A2 & A3). rewrite in_app_iff in H1.
  split; [constructor; tauto|]. split; [exact A2|]. intros y [->|Hy]; [tauto|auto].
Qed.

(** One push on the window of the last pushes. *)
Definition UInv {D} (q : uq D) : Prop :=
  NoDup (map fst (uq_heap q)) /\ NoDup (uq_unique q) /\ forall k, In k (uq_unique q) <-> In k (map fst (uq_heap q)).

Lemma uq_pop_ok {D} (q : uq D) : UInv q -> exists q' x, uq_pop q = Ok (q', x) /\ UInv q' /\
  uq_heap q' = tl (uq_heap q) /\ x = hd_error (uq_heap q).
Proof.
  destruct q as [h u]. intros (H1 & H2 & H3). unfold uq_pop. cbn [uq_heap uq_unique] in *. destruct h as [|[k d] h].
  - exists (mkUQ [] u), None. split; [reflexivity|]. split; [|auto]. repeat split; auto; intros; apply H3; auto.
  - cbn [fst]. unfold set_remove. assert (sin k u = true) as -> by (apply sin_In, H3; left; reflexivity). cbn [bind].
    eexists _, _. split; [reflexivity|]. split; [|auto]. cbn [map fst] in H1. inversion H1 as [|? ? A1 A2]; subst.
    destruct (list_del_In k u H2) as [B1 B2]. split; [exact A2|]. split; [exact B1|]. intros x. cbn [uq_heap uq_unique]. rewrite B2, H3.
    cbn [map fst In]. split; [intros [[<-|H] Hn]; [congruence|exact H]|]. intros H. split; [auto|]. intros ->. tauto.
Qed.

Lemma uq_push_ok {D} cap (q : uq D) k d : UInv q -> exists q', uq_push cap q k d = Ok q' /\ UInv q' /\
  uq_heap q' = (if sin k (map fst (uq_heap q)) then del k (uq_heap q)
                else if at_capacity cap (List.length (uq_heap q)) then tl (uq_heap q) else uq_heap q) ++ [(k, d)].
Proof.
  intros HI. pose proof HI as (H1 & H2 & H3). unfold uq_push.
  assert (sin k (uq_unique q) = sin k (map fst (uq_heap q))) as E.
  { destruct (sin k (map fst (uq_heap q))) eqn:Es.
    - apply sin_In, H3, sin_In. exact Es.
    - apply sin_nIn. rewrite H3. apply sin_nIn. exact Es. }
  rewrite E. destruct (sin k (map fst (uq_heap q))) eqn:Es.
  - apply sin_In in Es. rewrite (remove_first_del k _ H1 Es). cbn [bind]. eexists. split; [reflexivity|]. split; [|reflexivity].
    assert (forall x, In x (map fst (del k (uq_heap q) ++ [(k, d)])) <-> In x (map fst (uq_heap q))) as K.
    { intros x. rewrite map_app, in_app_iff. cbn [map fst In]. unfold del. rewrite !in_map_iff. split.
      - intros [(e & E1 & E2)|[<-|[]]]; [apply filter_In in E2; exists e; tauto|]. apply in_map_iff in Es. exact Es.
      - intros (e & E1 & E2). destruct (String.eqb_spec k x) as [->|Hne]; [auto|]. left. exists e. split; [exact E1|].
        apply filter_In. split; [exact E2|]. apply negb_true_iff, String.eqb_neq. congruence. }
    split; [|split; [exact H2|]]; cbn [uq_heap uq_unique].
    + rewrite map_app. cbn [map fst].
      assert (NoDup (k :: map fst (del k (uq_heap q)))) as ND.
      { constructor.
        - intros Hk. apply in_map_iff in Hk as (e & E1 & E2). apply filter_In in E2 as [_ E2]. apply negb_true_iff, String.eqb_neq in E2. congruence.
        - clear - H1. unfold del. induction (uq_heap q) as [|e l IH]; [constructor|]. cbn [filter map] in *. inversion H1 as [|? ? A1 A2]; subst.
          destruct (negb (String.eqb k (fst e))); [|auto]. cbn [map]. constructor; [|auto]. intros Hc. apply A1.
          apply in_map_iff in Hc as (e' & B1 & B2). apply filter_In in B2 as [B2 _]. rewrite <- B1. apply in_map. exact B2. }
      eapply Permutation_NoDup; [|exact ND]. apply Permutation_cons_append.
    + intros x. rewrite K. apply H3.
  - apply sin_nIn in Es.
    assert (exists q1, (if at_capacity cap (List.length (uq_heap q)) then do r <- uq_pop q ; Ok (fst r) else Ok q) = Ok q1 /\ UInv q1 /\
       uq_heap q1 = if at_capacity cap (List.length (uq_heap q)) then tl (uq_heap q) else uq_heap q) as (q1 & E1 & I1 & T1).
    { destruct (at_capacity cap (List.length (uq_heap q))).
      - destruct (uq_pop_ok q HI) as (q' & x & -> & I' & T' & _). cbn [bind fst]. eauto.
      - eauto. }
    rewrite E1. cbn [bind]. eexists. split; [reflexivity|]. split; [|cbn [uq_heap]; rewrite T1; reflexivity].
    destruct I1 as (J1 & J2 & J3).
    assert (~ In k (map fst (uq_heap q1))) as Hk.
    { rewrite T1. destruct (at_capacity cap _); [|exact Es]. intros H. apply Es. destruct (uq_heap q) as [|e h]; [exact H|]. right. exact H. }
    assert (sin k (uq_unique q1) = false) as Hs by (apply sin_nIn; rewrite J3; exact Hk).
    unfold set_add. rewrite Hs. split; [|split]; cbn [uq_heap uq_unique].
    + rewrite map_app. eapply Permutation_NoDup; [apply Permutation_cons_append|]. cbn [map fst]. constructor; auto.
    + constructor; [apply sin_nIn; exact Hs|exact J2].
    + intros x. rewrite map_app, in_app_iff. cbn [map fst In]. rewrite J3. tauto.
Qed.

Lemma uq_run_ok {D} cap : forall ops (q : uq D), UInv q -> exists q', uq_run cap q ops = Ok q' /\ UInv q'.
Proof.
  induction ops as [|o ops IH]; intros q HI; [exists q; auto|]. cbn [uq_run].
  destruct o as [k d|]; cbn [uq_step].
  - destruct (uq_push_ok cap q k d HI) as (q' & -> & I' & _). cbn [bind]. auto.
  - destruct (uq_pop_ok q HI) as (q' & x & -> & I' & _). cbn [bind fst]. auto.
Qed.
Lemma UInv_init {D} : UInv (@uq_init D).
Proof. repeat split; try constructor; intros []. Qed.

Lemma lastn_all {A} n (l : list A) : List.length l <= n -> lastn n l = l.
Proof. intros H. unfold lastn. replace (List.length l - n) with 0 by lia. reflexivity. Qed.
Lemma lastn_length {A} n (l : list A) : List.length (lastn n l) = Nat.min n (List.length l).
Proof. unfold lastn. rewrite skipn_length. lia. Qed.
Lemma skipn_snoc {A} n (l : list A) x : n <= List.length l -> skipn n (l ++ [x]) = skipn n l ++ [x].
Proof. intros H. rewrite skipn_app. replace (n - List.length l) with 0 by lia. reflexivity. Qed.

(** The push step on windows. *)
Lemma window_push {D} c (l : list (string * D)) k d : NoDup (map fst l) -> 1 <= c ->
  (if sin k (map fst (lastn c l)) then del k (lastn c l)
   else if Nat.leb c (List.length (lastn c l)) then tl (lastn c l) else lastn c l) ++ [(k, d)] =
  lastn c (del k l ++ [(k, d)]).
Proof.
  intros ND Hc. set (n := List.length l - c).
  pose proof (firstn_skipn n l) as Hs. set (a := firstn n l) in *. set (b := skipn n l) in *.
  assert (lastn c l = b) as Hb by reflexivity. rewrite Hb.
  assert (List.length a = n) as La by (unfold a; rewrite firstn_length; lia).
  assert (List.length b = Nat.min c (List.length l)) as Lb by (unfold b; rewrite skipn_length; lia).
  rewrite <- Hs, map_app in ND. destruct (NoDup_app_inv _ _ ND) as (N1 & N2 & N3).
  destruct (sin k (map fst b)) eqn:Es.
  - apply sin_In in Es. assert (~ In k (map fst a)) as Ha by (intros H; exact (N3 _ H Es)).
    rewrite <- Hs. rewrite del_app, (del_notin k a Ha). rewrite <- app_assoc. unfold lastn.
    pose proof (del_length k b N2 Es) as Ld. rewrite !app_length. cbn [List.length].
    replace (List.length a + (List.length (del k b) + 1) - c) with (List.length a) by lia.
    rewrite skipn_app, skipn_all, Nat.sub_diag. reflexivity.
  - apply sin_nIn in Es. rewrite <- Hs. rewrite del_app, (del_notin k b Es). unfold lastn. rewrite !app_length. cbn [List.length].
    destruct (Nat.leb_spec c (List.length b)) as [Hle|Hlt].
    + assert (List.length b = c) as Lc by lia.
      destruct b as [|e b']; [simpl in Lc; lia|]. cbn [tl]. cbn [List.length] in *.
      replace (List.length (del k a) + S (List.length b') + 1 - c) with (List.length (del k a) + 1) by lia.
      rewrite skipn_snoc by (rewrite app_length; cbn [List.length]; lia). f_equal.
      rewrite skipn_app. rewrite skipn_all2 by lia. cbn [app].
      replace (List.length (del k a) + 1 - List.length (del k a)) with 1 by lia. reflexivity.
    + assert (n = 0) as Hn by lia. assert (a = []) as -> by (apply length_zero_iff_nil; lia). cbn [del filter app List.length].
      replace (0 + List.length b + 1 - c) with 0 by lia. reflexivity.
Qed.

Definition upushes {D} (h : list (string * D)) : list (uq_op D) := map (fun e => UPush (fst e) (snd e)) h.

Lemma uq_run_app {D} cap : forall o1 o2 (q : uq D), uq_run cap q (o1 ++ o2) = do q1 <- uq_run cap q o1 ; uq_run cap q1 o2.
Proof.
  induction o1 as [|o o1 IH]; intros o2 q; [reflexivity|]. cbn [app uq_run]. destruct (uq_step cap q o) as [q1|e]; cbn [bind]; [apply IH|reflexivity].
Qed.

Lemma uq_lru {D} cap (h : list (string * D)) : (forall c, cap = Some c -> 1 <= c) ->
  exists q, uq_run cap uq_init (upushes h) = Ok q /\ uq_heap q = keep_recent cap (last_pushes h).
Proof.
  intros Hc. induction h as [|[k d] h IH] using rev_ind.
  - exists uq_init. split; [reflexivity|]. destruct cap; reflexivity.
  - destruct IH as (q & E & Hq). unfold upushes in *. rewrite map_app, uq_run_app, E. cbn [bind map uq_run uq_step fst snd].
    assert (UInv q) as HI.
    { destruct (uq_run_ok cap (upushes h) uq_init UInv_init) as (q' & E' & I'). unfold upushes in E'. congruence. }
    destruct (uq_push_ok cap q k d HI) as (q' & -> & _ & Hh). cbn [bind]. exists q'. split; [reflexivity|].
    rewrite Hh, Hq, last_pushes_snoc. destruct cap as [c|]; cbn [keep_recent at_capacity].
    + apply window_push; [apply last_pushes_nodup|auto].
    + destruct (sin k (map fst (last_pushes h))) eqn:Es; [reflexivity|].
      apply sin_nIn in Es. rewrite del_notin by exact Es. reflexivity.
Qed.

Lemma uq_invariants {D} cap ops : (forall c, cap = Some c -> 1 <= c) ->
  exists q : uq D, uq_run cap uq_init ops = Ok q /\ NoDup (map fst (uq_heap q)) /\
    (forall c, cap = Some c -> List.length (uq_heap q) <= c).
Proof.
  intros Hc.
  assert (forall ops (q : uq D), UInv q -> (forall c, cap = Some c -> List.length (uq_heap q) <= c) ->
    exists q', uq_run cap q ops = Ok q' /\ UInv q' /\ (forall c, cap = Some c -> List.length (uq_heap q') <= c)) as G.
  { clear ops. induction ops as [|o ops IH]; intros q HI HB; [exists q; auto|]. cbn [uq_run]. destruct o as [k d|]; cbn [uq_step].
    - destruct (uq_push_ok cap q k d HI) as (q' & -> & I' & Hh). cbn [bind]. apply IH; [exact I'|]. intros c Ec.
      specialize (HB c Ec). specialize (Hc c Ec). rewrite Hh, app_length. cbn [List.length].
      destruct (sin k (map fst (uq_heap q))) eqn:Es.
      + apply sin_In in Es. pose proof (del_length k _ (proj1 HI) Es). lia.
      + rewrite Ec. cbn [at_capacity]. destruct (Nat.leb_spec c (List.length (uq_heap q))); [|lia].
        destruct (uq_heap q); cbn [tl List.length] in *; lia.
    - destruct (uq_pop_ok q HI) as (q' & x & -> & I' & Hh & _). cbn [bind fst]. apply IH; [exact I'|]. intros c Ec. rewrite Hh.
      specialize (HB c Ec). destruct (uq_heap q); cbn [tl List.length] in *; lia. }
  destruct (G ops uq_init UInv_init) as (q & E & I' & B); [intros c Ec; simpl; lia|].
  exists q. split; [exact E|]. split; [exact (proj1 I')|exact B].
Qed.
