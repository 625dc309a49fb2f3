(** push_rm_same histories, push_best, and the counterexamples of the memory module. *)
From Verif Require Import Base Memory MemoryFacts HeapFacts.
From Coq Require Import Permutation.

Section Perm.
Context {A : Type} (dft : A) (lt : A -> A -> bool).
Lemma siftdown_loop_perm : forall fuel h pos new, pos < List.length h ->
  Permutation (siftdown_loop dft lt fuel h pos new) (upd h pos new).
Proof.
  induction fuel as [|f IH]; intros h pos new Hp; cbn [siftdown_loop]; [reflexivity|].
  destruct (Nat.ltb_spec 0 pos) as [Hpos|Hz]; [|reflexivity].
  fold (par pos). pose proof (par_lt pos Hpos). destruct (lt new (get dft h (par pos))); [|reflexivity].
  rewrite IH by (rewrite upd_length; lia). apply swap_perm; lia.
Qed.
Lemma siftup_loop_perm : forall fuel h pos new, pos < List.length h ->
  Permutation (fst (siftup_loop dft lt fuel h pos new)) (upd h pos new) /\
  snd (siftup_loop dft lt fuel h pos new) < List.length h.
Proof.
  induction fuel as [|f IH]; intros h pos new Hp; cbn [siftup_loop]; [split; [reflexivity|exact Hp]|].
  destruct (Nat.ltb_spec (2 * pos + 1) (List.length h)) as [Hc|Hc]; [|split; [reflexivity|exact Hp]].
  set (c := 2 * pos + 1) in *.
  set (cp := if Nat.ltb (c + 1) (List.length h) && negb (lt (get dft h c) (get dft h (c + 1))) then c + 1 else c).
  assert ((cp = c \/ cp = c + 1) /\ cp < List.length h) as [Hcp Hcl].
  { unfold cp. destruct (Nat.ltb_spec (c + 1) (List.length h)); cbn [andb]; [|lia]. destruct (negb _); lia. }
  destruct (IH (upd h pos (get dft h cp)) cp new) as [P L]; [rewrite upd_length; exact Hcl|].
  rewrite upd_length in L. split; [|exact L]. rewrite P. apply swap_perm; lia.
Qed.
Lemma siftup_perm h : 0 < List.length h -> Permutation (siftup dft lt h) h.
Proof.
  intros L. unfold siftup. destruct (siftup_loop_perm (List.length h) h 0 (get dft h 0) L) as [P Lp].
  rewrite upd_get in P. destruct (siftup_loop dft lt (List.length h) h 0 (get dft h 0)) as [h1 p1]. cbn [fst snd] in *.
  unfold siftdown. rewrite siftdown_loop_perm by (rewrite (Permutation_length P); exact Lp). rewrite upd_get. exact P.
Qed.
Lemma heappush_perm h x : Permutation (heappush dft lt h x) (x :: h).
Proof.
  unfold heappush, siftdown. rewrite siftdown_loop_perm by (rewrite app_length; simpl; lia). rewrite upd_get.
  symmetry. apply Permutation_cons_append.
Qed.
Lemma heappushpop_perm h x : Permutation (fst (heappushpop dft lt h x) :: snd (heappushpop dft lt h x)) (x :: h).
Proof.
  unfold heappushpop. destruct h as [|y h]; [reflexivity|]. destruct (lt y x); cbn [fst snd]; [|reflexivity].
  rewrite siftup_perm by (rewrite upd_length; simpl; lia). cbn [upd]. apply perm_swap.
Qed.
End Perm.

Section RmSame.
Context {S D : Type} (ltb : S -> S -> bool) (close : S -> S -> bool) (len : D -> nat).
Definition KInv (q : pq S D) : Prop :=
  NoDup (keys (pq_heap q)) /\ NoDup (pq_unique q) /\ forall k, In k (pq_unique q) <-> In k (keys (pq_heap q)).
Fixpoint rm_run (cap : option nat) (q : pq S D) (xs : list (cont S D)) : res (pq S D) :=
  match xs with [] => Ok q | x :: xs' => do q1 <- push_rm_same ltb close len cap q x ; rm_run cap q1 xs' end.

Lemma evict_inv (h h' : list (cont S D)) u p x : NoDup (keys h) -> NoDup u -> (forall k, In k u <-> In k (keys h)) ->
  ~ In (c_item x) (keys h) -> Permutation (p :: h') (x :: h) ->
  exists u', set_remove (c_item p) (set_add (c_item x) u) = Ok u' /\ KInv (mkPQ h' u').
Proof.
  intros H2 H3 H4 Es A2. pose proof (Permutation_map c_item A2) as PK. cbn [map] in PK.
  assert (sin (c_item x) u = false) as Es' by (apply sin_nIn; rewrite H4; exact Es). unfold set_add. rewrite Es'.
  assert (NoDup (c_item x :: keys h)) as ND by (constructor; assumption).
  assert (NoDup (c_item p :: keys h')) as ND' by (eapply Permutation_NoDup; [symmetry; exact PK|exact ND]).
  assert (sin (c_item p) (c_item x :: u) = true) as Ep.
  { apply sin_In. assert (In (c_item p) (c_item x :: map c_item h)) as X by (eapply Permutation_in; [exact PK|left; reflexivity]).
    destruct X as [X|X]; [left; exact X|right; apply H4; exact X]. }
  unfold set_remove. rewrite Ep.
  assert (NoDup (c_item x :: u)) as NU by (constructor; [rewrite H4; exact Es|exact H3]).
  destruct (list_del_In (c_item p) _ NU) as [B1 B2].
  eexists. split; [reflexivity|]. inversion ND' as [|? ? C1 C2]; subst.
  split; [exact C2|]. split; [exact B1|]. cbn [pq_unique pq_heap]. intros k. rewrite B2.
  assert (In k (c_item x :: u) <-> In k (c_item p :: keys h')) as K.
  { assert (In k (c_item x :: u) <-> In k (c_item x :: keys h)) as K0 by (cbn [In]; rewrite H4; tauto).
    rewrite K0. split; intros X.
    - eapply Permutation_in; [symmetry; exact PK|exact X].
    - eapply Permutation_in in X; [|exact PK]. exact X. }
  rewrite K. cbn [In]. split; [intros [[<-|X] Y]; [congruence|exact X]|]. intros X. split; [auto|]. intros ->. tauto.
Qed.

Definition find_close (x : cont S D) := (fix go (i : nat) (l : list (cont S D)) : option (nat * cont S D) :=
     match l with [] => None | y :: l' => if close (c_score y) (c_score x) then Some (i, y) else go (i + 1) l' end).
Lemma find_close_nth x : forall l i j y, find_close x i l = Some (j, y) ->
  i <= j /\ nth_error l (j - i) = Some y.
Proof.
  induction l as [|z l IH]; intros i j y E; cbn [find_close] in E; [discriminate|].
  destruct (close (c_score z) (c_score x)).
  - injection E as <- <-. rewrite Nat.sub_diag. split; [lia|reflexivity].
  - destruct (IH _ _ _ E) as [A1 A2]. split; [lia|]. replace (j - i) with (Datatypes.S (j - (i + 1))) by lia. exact A2.
Qed.

Lemma push_rm_same_ok cap q x : KInv q -> (forall c, cap = Some c -> List.length (pq_heap q) <= c) ->
  exists q', push_rm_same ltb close len cap q x = Ok q' /\ KInv q' /\ (forall c, cap = Some c -> List.length (pq_heap q') <= c).
Proof.
  intros HI HB. pose proof HI as (H2 & H3 & H4). unfold push_rm_same. fold (find_close x).
  destruct (match find_close x 0 (pq_heap q) with
            | Some (i, y) => if Nat.ltb (len (c_data y)) (len (c_data x)) then (true, None) else (false, Some (i, y))
            | None => (false, None) end) as [same id] eqn:Eid.
  destruct (sin (c_item x) (pq_unique q)) eqn:Es; cbn [orb]; [exists q; auto|].
  destruct same; [exists q; auto|]. pose proof Es as Es'. apply sin_nIn in Es. rewrite H4 in Es.
  destruct (at_capacity cap (List.length (pq_heap q))) eqn:Ec.
  - assert (exists p h', (match id with Some (i, y) => (y, upd (pq_heap q) i x) | None => heappushpop x (clt ltb) (pq_heap q) x end) = (p, h')
       /\ Permutation (p :: h') (x :: pq_heap q)) as (p & h' & E & P).
    { destruct id as [[i y]|].
      - exists y, (upd (pq_heap q) i x). split; [reflexivity|].
        destruct (find_close x 0 (pq_heap q)) as [[i0 y0]|] eqn:Ef; [|discriminate].
        destruct (Nat.ltb _ _); [discriminate|]. injection Eid as <- <-. destruct (find_close_nth x _ _ _ _ Ef) as [_ En].
        rewrite Nat.sub_0_r in En. assert (i0 < List.length (pq_heap q)) as Li by (apply nth_error_Some; congruence).
        pose proof (upd_perm x (pq_heap q) i0 x Li) as P. unfold get in P. rewrite (nth_error_nth _ _ x En) in P. exact P.
      - pose proof (heappushpop_perm x (clt ltb) (pq_heap q) x) as P. destruct (heappushpop x (clt ltb) (pq_heap q) x) as [p h']. eauto. }
    rewrite E. destruct (evict_inv (pq_heap q) h' (pq_unique q) p x H2 H3 H4 Es P) as (u' & -> & K). cbn [bind].
    eexists. split; [reflexivity|]. split; [exact K|]. cbn [pq_heap]. intros c Hc. specialize (HB c Hc). apply Permutation_length in P. cbn [List.length] in P. lia.
  - pose proof (heappush_perm x (clt ltb) (pq_heap q) x) as A2. pose proof (Permutation_map c_item A2) as PK. cbn [map] in PK.
    unfold set_add. rewrite Es'. eexists. split; [reflexivity|]. split.
    + split; [|split]; cbn [pq_heap pq_unique].
      * eapply Permutation_NoDup; [symmetry; exact PK|]. constructor; assumption.
      * constructor; [rewrite H4; exact Es|exact H3].
      * intros k. assert (In k (c_item x :: pq_unique q) <-> In k (c_item x :: keys (pq_heap q))) as K0 by (cbn [In]; rewrite H4; tauto).
        rewrite K0. split; intros X; [eapply Permutation_in; [symmetry; exact PK|exact X]|eapply Permutation_in in X; [|exact PK]; exact X].
    + cbn [pq_heap]. intros c Hc. apply Permutation_length in A2. cbn [List.length] in A2. rewrite Hc in Ec. cbn [at_capacity] in Ec. apply Nat.leb_gt in Ec. lia.
Qed.

Lemma rm_run_ok cap : forall xs q, KInv q -> (forall c, cap = Some c -> List.length (pq_heap q) <= c) ->
  exists q', rm_run cap q xs = Ok q' /\ KInv q' /\ (forall c, cap = Some c -> List.length (pq_heap q') <= c).
Proof.
  induction xs as [|x xs IH]; intros q HI HB; [exists q; auto|]. cbn [rm_run].
  destruct (push_rm_same_ok cap q x HI HB) as (q' & -> & I' & B'). cbn [bind]. auto.
Qed.
End RmSame.

(** np.argmax *)
Lemma argmax_from_ok {S} (ltb : S -> S -> bool) : strict_weak ltb -> forall (l pre : list S) bi best,
  nth_error pre bi = Some best -> (forall x, In x pre -> ltb best x = false) ->
  (forall j x, j < bi -> nth_error pre j = Some x -> ltb x best = true) ->
  exists m, nth_error (pre ++ l) (argmax_from ltb (List.length pre) bi best l) = Some m /\
    (forall x, In x (pre ++ l) -> ltb m x = false) /\
    (forall j x, j < argmax_from ltb (List.length pre) bi best l -> nth_error (pre ++ l) j = Some x -> ltb x m = true).
Proof.
  intros (Irr & Asym & LeT). induction l as [|x l IH]; intros pre bi best H1 H2 H3; cbn [argmax_from].
  - rewrite app_nil_r. eauto.
  - assert (List.length pre + 1 = List.length (pre ++ [x])) as L by (rewrite app_length; reflexivity).
    assert (bi < List.length pre) as Hb by (apply nth_error_Some; congruence).
    replace (pre ++ x :: l) with ((pre ++ [x]) ++ l) by (rewrite <- app_assoc; reflexivity). rewrite L.
    destruct (ltb best x) eqn:El.
    + apply IH.
      * rewrite nth_error_app2, Nat.sub_diag by lia. reflexivity.
      * intros y Hy. apply in_app_iff in Hy as [Hy|[<-|[]]]; [|apply Irr]. apply (LeT y best x); [apply H2; exact Hy|apply Asym; exact El].
      * intros j y Hj Ey. rewrite nth_error_app1 in Ey by exact Hj.
        destruct (ltb y x) eqn:Eyx; [reflexivity|]. exfalso.
        assert (ltb best y = false) as B by (apply H2; eapply nth_error_In; exact Ey).
        assert (ltb best x = false) by (eapply LeT; eassumption). congruence.
    + apply IH.
      * rewrite nth_error_app1 by exact Hb. exact H1.
      * intros y Hy. apply in_app_iff in Hy as [Hy|[<-|[]]]; [apply H2; exact Hy|exact El].
      * intros j y Hj Ey. rewrite nth_error_app1 in Ey by lia. eauto.
Qed.
Lemma argmax_ok {S} (ltb : S -> S -> bool) (l : list S) : strict_weak ltb -> l <> [] ->
  exists i m, argmax ltb l = Some i /\ nth_error l i = Some m /\ (forall x, In x l -> ltb m x = false) /\
    (forall j x, j < i -> nth_error l j = Some x -> ltb x m = true).
Proof.
  intros W H. destruct l as [|x l]; [congruence|]. cbn [argmax].
  destruct (argmax_from_ok ltb W l [x] 0 x eq_refl) as (m & A & B & C).
  - intros y [<-|[]]. apply (proj1 W).
  - intros j y Hj. lia.
  - exists (argmax_from ltb 1 0 x l), m. auto.
Qed.

Lemma Zlt_strict_weak : strict_weak Z.ltb.
Proof.
  split; [|split].
  - intros a. apply Z.ltb_irrefl.
  - intros a b H. apply Z.ltb_lt in H. apply Z.ltb_ge. lia.
  - intros a b c. rewrite !Z.ltb_ge. lia.
Qed.
