(** Lemmas about the model of the DLGA search.  The claims are in PropsDlga. *)
From Coq Require Import Permutation Sorted.
From Verif Require Import Base Num Dlga.
Local Open Scope nat_scope.

(** A module: 1 to max_length genes, all below the size of the library; a genome: at least
    one module. *)
Definition wf_module (c : cfg) (m : modul) : Prop := 1 <= List.length m <= mlen c /\ Forall (fun g => g < nlib c) m.
Definition wf_genome (c : cfg) (g : genome) : Prop := 1 <= List.length g /\ Forall (wf_module c) g.
(** A usable configuration. *)
Definition usable (c : cfg) : Prop := 0 < nlib c /\ 0 < mlen c.

(** ** Lists *)
Lemma at_ok {A} (l : list A) i : i < List.length l -> exists x, at_ l i = Ok x /\ nth_error l i = Some x.
Proof. intros H. unfold at_. apply nth_error_Some in H. destruct (nth_error l i) as [x|]; [exists x; auto|congruence]. Qed.
Lemma at_some {A} (l : list A) i x : at_ l i = Ok x <-> nth_error l i = Some x.
Proof. unfold at_. destruct (nth_error l i); split; intros H; congruence. Qed.
Lemma at_lt {A} (l : list A) i x : at_ l i = Ok x -> i < List.length l.
Proof. rewrite at_some. intros H. apply nth_error_Some. congruence. Qed.
Lemma at_err {A} (l : list A) i : List.length l <= i -> at_ l i = Err IndexError.
Proof. intros H. unfold at_. apply nth_error_None in H. rewrite H. reflexivity. Qed.
Lemma upd_length {A} (l : list A) i x : List.length (upd l i x) = List.length l.
Proof. revert i. induction l as [|y l IH]; intros [|i]; cbn; auto. Qed.
Lemma nth_upd {A} (l : list A) i x j : nth_error (upd l i x) j = if (i =? j) && (j <? List.length l) then Some x else nth_error l j.
Proof.
  revert i j. induction l as [|y l IH]; intros i j.
  - cbn. rewrite andb_false_r. destruct j; reflexivity.
  - destruct i as [|i], j as [|j]; cbn [upd nth_error]; try reflexivity.
    rewrite IH. cbn [Nat.eqb]. cbn [List.length]. replace (S j <? S (List.length l)) with (j <? List.length l) by reflexivity. reflexivity.
Qed.
Lemma nth_upd_same {A} (l : list A) i x : i < List.length l -> nth_error (upd l i x) i = Some x.
Proof. intros H. rewrite nth_upd, Nat.eqb_refl. apply Nat.ltb_lt in H. rewrite H. reflexivity. Qed.
Lemma nth_upd_other {A} (l : list A) i x j : i <> j -> nth_error (upd l i x) j = nth_error l j.
Proof. intros H. rewrite nth_upd. apply Nat.eqb_neq in H. rewrite H. reflexivity. Qed.
Lemma Forall_upd {A} (P : A -> Prop) l i x : Forall P l -> P x -> Forall P (upd l i x).
Proof. intros H Hx. revert i. induction H; intros [|i]; cbn; constructor; auto. Qed.
Lemma Forall_nth_error {A} (P : A -> Prop) l i x : Forall P l -> nth_error l i = Some x -> P x.
Proof. intros H E. rewrite Forall_forall in H. apply H. eapply nth_error_In; eauto. Qed.
Lemma Forall_firstn {A} (P : A -> Prop) l n : Forall P l -> Forall P (firstn n l).
Proof. intros H. revert n. induction H; intros [|n]; cbn; constructor; auto. Qed.
Lemma Forall_skipn {A} (P : A -> Prop) l n : Forall P l -> Forall P (skipn n l).
Proof. intros H. revert n. induction H; intros [|n]; cbn; auto. Qed.
Lemma Forall_pop {A} (P : A -> Prop) l i : Forall P l -> Forall P (pop l i).
Proof. intros H. unfold pop. apply Forall_app. split; [apply Forall_firstn|apply Forall_skipn]; exact H. Qed.
Lemma pop_length {A} (l : list A) i : i < List.length l -> List.length (pop l i) = List.length l - 1.
Proof. intros H. unfold pop. rewrite app_length, firstn_length, skipn_length. lia. Qed.
Lemma mapM_length {A B} (f : A -> res B) l r : mapM f l = Ok r -> List.length r = List.length l.
Proof.
  revert r. induction l as [|x l IH]; intros r H; cbn in H; [injection H as <-; reflexivity|].
  destruct (f x) as [y|]; cbn in H; [|discriminate]. destruct (mapM f l) as [ys|]; cbn in H; [|discriminate].
  injection H as <-. cbn. f_equal. auto.
Qed.
Lemma mapM_nth {A B} (f : A -> res B) l r i x : mapM f l = Ok r -> nth_error l i = Some x ->
  exists y, f x = Ok y /\ nth_error r i = Some y.
Proof.
  revert r i. induction l as [|z l IH]; intros r i H E; [destruct i; discriminate|]. cbn in H.
  destruct (f z) as [y|] eqn:Ez; cbn in H; [|discriminate]. destruct (mapM f l) as [ys|] eqn:El; cbn in H; [|discriminate].
  injection H as <-. destruct i; cbn in E; [injection E as <-; exists y; auto|]. cbn. eauto.
Qed.
Lemma mapM_ok {A B} (f : A -> res B) l : (forall x, In x l -> exists y, f x = Ok y) -> exists r, mapM f l = Ok r.
Proof.
  induction l as [|x l IH]; intros H; cbn; [eauto|]. destruct (H x (or_introl eq_refl)) as (y & Ey). rewrite Ey. cbn.
  destruct IH as (r & Er); [intros z Hz; apply H; right; exact Hz|]. rewrite Er. cbn. eauto.
Qed.
Lemma mapM_seq {A B} (f : nat -> res B) (g : nat -> A) n r i y : mapM f (seq 0 n) = Ok r -> nth_error r i = Some y -> f i = Ok y.
Proof.
  intros H E. assert (i < n) as L. { rewrite <- (seq_length n 0). rewrite <- (mapM_length _ _ _ H). apply nth_error_Some. congruence. }
  assert (nth_error (seq 0 n) i = Some i) as Es.
  { rewrite (nth_error_nth' _ 0) by (rewrite seq_length; exact L). rewrite seq_nth by exact L. reflexivity. }
  destruct (mapM_nth _ _ _ _ _ H Es) as (z & Ez & E'). congruence.
Qed.

(** ** Draws *)
Lemma module_loop_wf n k i d : 0 < n -> 0 < k ->
  1 <= List.length (module_loop n k i d) <= k /\ Forall (fun g => g < n) (module_loop n k i d).
Proof.
  intros Hn. revert i. induction k as [|k IH]; intros i Hk; [lia|]. cbn [module_loop].
  destruct (n =? 0) eqn:E; [apply Nat.eqb_eq in E; lia|].
  assert (fst (d i) mod n < n) by (apply Nat.mod_upper_bound; lia).
  destruct (snd (d i)).
  - cbn. split; [lia|]. repeat constructor; assumption.
  - destruct k as [|k].
    + cbn. split; [lia|]. repeat constructor; assumption.
    + destruct (IH (S i) ltac:(lia)) as [A B]. split; [cbn [List.length]; lia|]. constructor; assumption.
Qed.
Lemma random_module_wf c d : usable c -> wf_module c (random_module c d).
Proof. intros [A B]. exact (module_loop_wf _ _ _ _ A B). Qed.
Lemma insert_perm x l : Permutation (insert x l) (x :: l).
Proof.
  induction l as [|y l IH]; cbn; [reflexivity|]. destruct (x <=? y); [reflexivity|].
  rewrite IH. apply perm_swap.
Qed.
Lemma sorted_perm l : Permutation (sorted l) l.
Proof. induction l as [|x l IH]; cbn; [reflexivity|]. rewrite insert_perm. constructor. exact IH. Qed.
Lemma insert_sorted x l : StronglySorted le l -> StronglySorted le (insert x l).
Proof.
  induction 1 as [|y l Hs IH Hf]; cbn; [repeat constructor|]. destruct (x <=? y) eqn:E.
  - apply Nat.leb_le in E. constructor; [constructor; assumption|]. constructor; [exact E|].
    eapply Forall_impl; [|exact Hf]. cbn. intros; lia.
  - apply Nat.leb_gt in E. constructor; [exact IH|].
    apply (Permutation_Forall (Permutation_sym (insert_perm x l))). constructor; [lia|exact Hf].
Qed.
Lemma sorted_sorted l : StronglySorted le (sorted l).
Proof. induction l as [|x l IH]; cbn; [constructor|]. apply insert_sorted. exact IH. Qed.
(** Two sorted lists with the same elements are equal, so [sorted] decides equality up to order. *)
Lemma sorted_unique l1 l2 : StronglySorted le l1 -> StronglySorted le l2 -> Permutation l1 l2 -> l1 = l2.
Proof.
  revert l2. induction l1 as [|x l1 IH]; intros l2 H1 H2 P.
  - apply Permutation_nil in P. congruence.
  - destruct l2 as [|y l2]; [symmetry in P; apply Permutation_nil_cons in P; destruct P|].
    inversion H1 as [|? ? S1 F1]; subst. inversion H2 as [|? ? S2 F2]; subst.
    assert (x = y) as ->.
    { assert (In x (y :: l2)) as I1 by (eapply Permutation_in; [exact P|left; reflexivity]).
      assert (In y (x :: l1)) as I2 by (eapply Permutation_in; [symmetry; exact P|left; reflexivity]).
      rewrite Forall_forall in F1, F2. destruct I1 as [I1|I1]; [congruence|]. destruct I2 as [I2|I2]; [congruence|].
      specialize (F1 _ I2). specialize (F2 _ I1). lia. }
    f_equal. apply IH; auto. eapply Permutation_cons_inv; eauto.
Qed.
Lemma sorted_eq_iff a b : sorted a = sorted b <-> Permutation a b.
Proof.
  split; intros H.
  - rewrite <- (sorted_perm a), H. apply sorted_perm.
  - apply sorted_unique; try apply sorted_sorted. rewrite !sorted_perm. exact H.
Qed.
Lemma sorted_wf c m : wf_module c m -> wf_module c (sorted m).
Proof.
  intros [A B]. split; [rewrite (Permutation_length (sorted_perm m)); exact A|].
  exact (Permutation_Forall (Permutation_sym (sorted_perm m)) B).
Qed.
Lemma genome_loop_wf c k i d : usable c -> 0 < k -> wf_genome c (genome_loop c k i d) /\ List.length (genome_loop c k i d) <= k.
Proof.
  intros U. revert i. induction k as [|k IH]; intros i Hk; [lia|]. cbn [genome_loop].
  pose proof (random_module_wf c (fst (d i)) U) as W. destruct (random_module c (fst (d i))) as [|g m] eqn:E.
  - destruct W as [[W _] _]. cbn in W. lia.
  - assert (wf_module c (sorted (g :: m))) as Ws by (apply sorted_wf; exact W).
    remember (sorted (g :: m)) as sm. clear Heqsm. cbn [app]. destruct (snd (d i)).
    + cbn. split; [|lia]. split; [cbn; lia|]. repeat constructor; auto; apply Ws.
    + destruct k as [|k].
      * cbn [genome_loop]. cbn [List.length]. split; [|lia]. split; [cbn; lia|]. repeat constructor; apply Ws.
      * destruct (IH (S i) ltac:(lia)) as [[A B] L]. split; [|cbn [List.length]; lia]. split; [cbn [List.length]; lia|]. constructor; [exact Ws|exact B].
Qed.
Lemma random_genome_wf c d : usable c -> wf_genome c (random_genome c d).
Proof. intros U. apply genome_loop_wf; [exact U|apply U]. Qed.

(** ** Duplicates *)
Lemma mod_eqb_eq a b : mod_eqb a b = true <-> a = b.
Proof. unfold mod_eqb. destruct (list_eq_dec Nat.eq_dec a b); split; congruence. Qed.
Lemma inm_In m g : inm m g = true <-> In m g.
Proof.
  unfold inm. rewrite existsb_exists. split.
  - intros (x & I & E). apply mod_eqb_eq in E. congruence.
  - intros I. exists m. split; [exact I|]. apply mod_eqb_eq. reflexivity.
Qed.
Lemma dedup_In g : forall acc m, In m (dedup g acc) <-> In m acc \/ exists x, In x g /\ m = sorted x.
Proof.
  induction g as [|x g IH]; intros acc m; cbn [dedup].
  - split; [auto|]. intros [H|(y & [] & _)]. exact H.
  - rewrite IH. destruct (inm (sorted x) acc) eqn:E.
    + split; [intros [H|(y & H & ->)]; [auto|right; exists y; cbn; auto]|].
      intros [H|(y & [<-|H] & ->)]; [auto| |right; eauto]. apply inm_In in E. auto.
    + rewrite in_app_iff. split.
      * intros [[H|[<-|[]]]|(y & H & ->)]; [auto|right; exists x; cbn; auto|right; exists y; cbn; auto].
      * intros [H|(y & [<-|H] & ->)]; [auto|left; right; cbn; auto|right; eauto].
Qed.
Lemma NoDup_snoc {A} (l : list A) x : NoDup l -> ~ In x l -> NoDup (l ++ [x]).
Proof.
  intros H N. apply (Permutation_NoDup (l := x :: l)); [|constructor; assumption].
  apply Permutation_cons_append.
Qed.
Lemma dedup_NoDup g : forall acc, NoDup acc -> NoDup (dedup g acc).
Proof.
  induction g as [|x g IH]; intros acc H; cbn [dedup]; [exact H|]. apply IH.
  destruct (inm (sorted x) acc) eqn:E; [exact H|]. apply NoDup_snoc; [exact H|].
  rewrite <- inm_In. congruence.
Qed.
Lemma dedup_wf c g : wf_genome c g -> wf_genome c (dedup g []).
Proof.
  intros [A B]. assert (forall m, In m (dedup g []) <-> exists x, In x g /\ m = sorted x) as D.
  { intros m. rewrite dedup_In. cbn. intuition auto. }
  split.
  - destruct g as [|x g]; [cbn in A; lia|]. assert (In (sorted x) (dedup (x :: g) [])) as I by (apply D; exists x; cbn; auto).
    destruct (dedup (x :: g) []); [destruct I|cbn; lia].
  - apply Forall_forall. intros m I. apply D in I as (x & I & ->). apply sorted_wf. rewrite Forall_forall in B. auto.
Qed.

(** ** Mutation steps *)
Lemma add_step_wf c o g : usable c -> wf_genome c g -> wf_genome c (add_step c o g).
Proof.
  intros U [A B]. unfold add_step. destruct o as [md|]; [|split; assumption].
  destruct ((kd c && (List.length (random_module c md) =? 0)) || inm (random_module c md) g); [split; assumption|].
  split; [rewrite app_length; cbn; lia|]. apply Forall_app. split; [exact B|]. constructor; [|constructor]. apply random_module_wf. exact U.
Qed.
Lemma del_step_wf c o g : wf_genome c g -> wf_genome c (del_step o g).
Proof.
  intros [A B]. unfold del_step. destruct o as [r|]; [|split; assumption]. destruct (1 <? List.length g) eqn:E; [|split; assumption].
  apply Nat.ltb_lt in E. split; [|apply Forall_pop; exact B]. rewrite pop_length; [lia|]. apply Nat.mod_upper_bound. lia.
Qed.
Lemma mut_step_wf c o g : usable c -> wf_genome c g -> exists g', mut_step c o g = Ok g' /\ wf_genome c g'.
Proof.
  intros U [A B]. unfold mut_step. destruct o as [[[r1 r2] r3]|]; [|exists g; repeat split; assumption].
  destruct ((kd c && (nlib c =? 0)) || (List.length g =? 0)); [exists g; repeat split; assumption|].
  destruct (at_ok g (r1 mod List.length g)) as (m & E & N); [apply Nat.mod_upper_bound; lia|]. rewrite E. cbn [bind].
  pose proof (Forall_nth_error _ _ _ _ B N) as [L F]. destruct (List.length m =? 0) eqn:Z; [apply Nat.eqb_eq in Z; lia|].
  eexists. split; [reflexivity|]. split; [rewrite upd_length; exact A|]. apply Forall_upd; [exact B|].
  split; [rewrite upd_length; exact L|]. apply Forall_upd; [exact F|]. apply Nat.mod_upper_bound. destruct U. lia.
Qed.

(** ** The population *)
Section Facts.
Context {C : Type}.
Notation ga := (ga C).

(** Every cell of the heap is a well-formed genome and every individual refers to a cell. *)
Definition sound (c : cfg) (n : nat) (s : ga) : Prop :=
  Forall (wf_genome c) (store s) /\ Forall (fun a => a < List.length (store s)) (chrom s) /\ List.length (chrom s) = n.

Lemma sound_ind c n s i : sound c n s -> i < n -> exists a g, nth_error (chrom s) i = Some a /\ at_ (chrom s) i = Ok a /\
  a < List.length (store s) /\ at_ (store s) a = Ok g /\ ind s i = Ok g /\ wf_genome c g.
Proof.
  intros (A & B & L) H. destruct (at_ok (chrom s) i) as (a & Ea & Na); [lia|].
  pose proof (Forall_nth_error _ _ _ _ B Na) as La. cbn in La. destruct (at_ok (store s) a La) as (g & Eg & Ng).
  exists a, g. repeat split; auto. 1: unfold ind; rewrite Ea; exact Eg. all: apply (Forall_nth_error _ _ _ _ A Ng).
Qed.
Lemma loop_inv (P : ga -> Prop) f is s : (forall s i, In i is -> P s -> exists s', f s i = Ok s' /\ P s') -> P s ->
  exists s', loop f is s = Ok s' /\ P s'.
Proof.
  revert s. induction is as [|i is IH]; intros s H Hs; cbn; [eauto|].
  destruct (H s i (or_introl eq_refl) Hs) as (s1 & E & H1). rewrite E. cbn. apply IH; [|exact H1].
  intros s2 j Hj. apply H. right. exact Hj.
Qed.
Lemma loop_app (f : ga -> nat -> res ga) i1 i2 s : loop f (i1 ++ i2) s = do s' <- loop f i1 s ; loop f i2 s'.
Proof. revert s. induction i1 as [|i i1 IH]; intros s; cbn; [reflexivity|]. destruct (f s i) as [s1|]; cbn; [apply IH|reflexivity]. Qed.

Lemma cross_one_ok c n d s i : sound c n s -> 2 * i + 1 < n -> exists s', cross_one d s i = Ok s' /\ sound c n s' /\ chrom s' = chrom s.
Proof.
  intros S H. destruct (sound_ind c n s (2 * i) S ltac:(lia)) as (a & g & _ & Ea & La & Eg & _ & [Wg Fg]).
  destruct (sound_ind c n s (2 * i + 1) S ltac:(lia)) as (b & g' & _ & Eb & Lb & Eg' & _ & [Wg' Fg']).
  destruct S as (A & B & L). unfold cross_one. rewrite Ea. cbn [bind]. rewrite Eg. cbn [bind].
  destruct (List.length g =? 0) eqn:Z1; [apply Nat.eqb_eq in Z1; lia|]. rewrite Eb. cbn [bind]. rewrite Eg'. cbn [bind].
  destruct (List.length g' =? 0) eqn:Z2; [apply Nat.eqb_eq in Z2; lia|].
  destruct (at_ok g (d_x1 d i mod List.length g)) as (f & Ef & Nf); [apply Nat.mod_upper_bound; lia|]. rewrite Ef. cbn [bind].
  destruct (at_ok g' (d_x2 d i mod List.length g')) as (m & Em & Nm); [apply Nat.mod_upper_bound; lia|]. rewrite Em. cbn [bind].
  pose proof (Forall_nth_error _ _ _ _ Fg Nf) as Wf. pose proof (Forall_nth_error _ _ _ _ Fg' Nm) as Wm.
  assert (Forall (wf_genome c) (upd (store s) a (upd g (d_x1 d i mod List.length g) m))) as F1.
  { apply Forall_upd; [exact A|]. split; [rewrite upd_length; exact Wg|]. apply Forall_upd; assumption. }
  destruct (at_ok (upd (store s) a (upd g (d_x1 d i mod List.length g) m)) b) as (g1 & E1 & N1); [rewrite upd_length; exact Lb|].
  rewrite E1. cbn [bind]. pose proof (Forall_nth_error _ _ _ _ F1 N1) as [W1 F1'].
  eexists. split; [reflexivity|]. split; [|reflexivity]. unfold sound, set_store; cbn [store chrom]. split; [|split; [|exact L]].
  - apply Forall_upd; [exact F1|]. split; [rewrite upd_length; exact W1|]. apply Forall_upd; assumption.
  - rewrite !upd_length. exact B.
Qed.
Lemma cross_over_ok c n d s : sound c n s -> ngen c / 2 <= n / 2 -> exists s', cross_over c d s = Ok s' /\ sound c n s' /\ chrom s' = chrom s.
Proof.
  intros S H. unfold cross_over. apply (loop_inv (fun s' => sound c n s' /\ chrom s' = chrom s)); [|auto].
  intros s1 i Hi [S1 E1]. apply in_seq in Hi.
  assert (2 * i + 1 < n). { pose proof (Nat.div_mod n 2 ltac:(lia)). lia. }
  destruct (cross_one_ok c n d s1 i S1 H0) as (s2 & E & S2 & E2). exists s2. rewrite E2. auto.
Qed.
(** Too many generations for the population: the crossing loop leaves the population. *)
Lemma cross_over_err c n d s : sound c n s -> n / 2 < ngen c / 2 -> cross_over c d s = Err IndexError.
Proof.
  intros S H. unfold cross_over. replace (ngen c / 2) with (n / 2 + (ngen c / 2 - n / 2)) by lia. rewrite seq_app, loop_app.
  destruct (loop_inv (fun s' => sound c n s') (cross_one d) (seq 0 (n / 2)) s) as (s1 & E & S1); [|exact S|].
  { intros s2 i Hi S2. apply in_seq in Hi. assert (2 * i + 1 < n) by (pose proof (Nat.div_mod n 2 ltac:(lia)); lia).
    destruct (cross_one_ok c n d s2 i S2 H0) as (s3 & E & S3 & _). eauto. }
  rewrite E. cbn [bind]. destruct (ngen c / 2 - n / 2) as [|k] eqn:K; [lia|]. cbn [seq loop].
  assert (cross_one d s1 (0 + n / 2) = Err IndexError) as ->; [|reflexivity].
  unfold cross_one. pose proof (Nat.div_mod n 2 ltac:(lia)) as DM. pose proof (Nat.mod_upper_bound n 2 ltac:(lia)) as MU.
  destruct (Nat.lt_ge_cases (2 * (0 + n / 2)) n) as [L|L].
  - destruct (sound_ind c n s1 _ S1 L) as (a & g & _ & Ea & La & Eg & _ & [Wg Fg]). rewrite Ea. cbn [bind]. rewrite Eg. cbn [bind].
    destruct (List.length g =? 0) eqn:Z1; [apply Nat.eqb_eq in Z1; lia|]. rewrite at_err; [reflexivity|]. destruct S1 as (_ & _ & L1). lia.
  - rewrite at_err; [reflexivity|]. destruct S1 as (_ & _ & L1). lia.
Qed.
Lemma mutate_one_ok c n d s i : usable c -> sound c n s -> i < n -> exists s', mutate_one c d s i = Ok s' /\ sound c n s' /\ chrom s' = chrom s.
Proof.
  intros U S H. destruct (sound_ind c n s i S H) as (a & g & _ & Ea & La & Eg & _ & W). unfold mutate_one. rewrite Ea. cbn [bind]. rewrite Eg. cbn [bind].
  destruct (mut_step_wf c (d_mut d i) _ U (del_step_wf c (d_del d i) _ (add_step_wf c (d_add d i) _ U W))) as (g' & E & W').
  rewrite E. cbn [bind]. eexists. split; [reflexivity|]. destruct S as (A & B & L). split; [|reflexivity].
  unfold sound, set_store; cbn [store chrom]. split; [apply Forall_upd; assumption|]. rewrite upd_length. auto.
Qed.
Lemma mutation_ok c n d s : usable c -> sound c n s -> psize c <= n -> exists s', mutation c d s = Ok s' /\ sound c n s' /\ chrom s' = chrom s.
Proof.
  intros U S H. unfold mutation. apply (loop_inv (fun s' => sound c n s' /\ chrom s' = chrom s)); [|auto].
  intros s1 i Hi [S1 E1]. apply in_seq in Hi. destruct (mutate_one_ok c n d s1 i U S1 ltac:(lia)) as (s2 & E & S2 & E2).
  exists s2. rewrite E2. auto.
Qed.
Lemma mutation_err c n d s : usable c -> sound c n s -> n < psize c -> mutation c d s = Err IndexError.
Proof.
  intros U S H. unfold mutation. replace (psize c) with (n + (psize c - n)) by lia. rewrite seq_app, loop_app.
  destruct (loop_inv (fun s' => sound c n s') (mutate_one c d) (seq 0 n) s) as (s1 & E & S1); [|exact S|].
  { intros s2 i Hi S2. apply in_seq in Hi. destruct (mutate_one_ok c n d s2 i U S2 ltac:(lia)) as (s3 & E & S3 & _). eauto. }
  rewrite E. cbn [bind]. destruct (psize c - n) as [|k] eqn:K; [lia|]. cbn [seq loop].
  unfold mutate_one. destruct S1 as (_ & _ & L1). rewrite at_err; [reflexivity|lia].
Qed.
Lemma dedup_one_ok c n s i : sound c n s -> i < n -> exists s', dedup_one s i = Ok s' /\ sound c n s'.
Proof.
  intros S H. destruct (sound_ind c n s i S H) as (a & g & _ & _ & _ & _ & Ei & W). unfold dedup_one. rewrite Ei. cbn [bind].
  eexists. split; [reflexivity|]. destruct S as (A & B & L). unfold sound, set_pop; cbn [store chrom]. split; [|split].
  - apply Forall_app. split; [exact A|]. constructor; [|constructor]. apply dedup_wf. exact W.
  - apply Forall_upd; [|rewrite app_length; cbn; lia]. eapply Forall_impl; [|exact B]. cbn. intros x Hx. rewrite app_length. lia.
  - rewrite upd_length. exact L.
Qed.
Lemma delete_duplicates_ok c n s : sound c n s -> psize c <= n -> exists s', delete_duplicates c s = Ok s' /\ sound c n s'.
Proof.
  intros S H. unfold delete_duplicates. apply (loop_inv (sound c n)); [|exact S].
  intros s1 i Hi S1. apply in_seq in Hi. apply dedup_one_ok; [exact S1|lia].
Qed.

Lemma dedup_keeps c (x y : ga) : delete_duplicates c x = Ok y -> hist y = hist x /\ coefs y = coefs x.
Proof.
  unfold delete_duplicates. generalize (seq 0 (psize c)). intros is. revert x. induction is as [|i is IH]; intros x E; cbn in E; [inversion E; auto|].
  destruct (dedup_one x i) as [z|] eqn:Ez; cbn in E; [|discriminate]. destruct (IH z E) as [-> ->].
  unfold dedup_one in Ez. destruct (ind x i); cbn [bind] in Ez; [|discriminate]. inversion Ez. auto.
Qed.
Lemma dedup_ind c n s : sound c n s -> psize c <= n -> forall s', delete_duplicates c s = Ok s' ->
  forall i, i < psize c -> exists g, ind s i = Ok g /\ ind s' i = Ok (dedup g []).
Proof.
  intros S H s' E i Hi. unfold delete_duplicates in E.
  replace (psize c) with (i + (1 + (psize c - i - 1))) in E by lia. rewrite seq_app, loop_app in E.
  (* before i: individual i keeps its reference and its genome *)
  destruct (sound_ind c n s i S ltac:(lia)) as (a & g & Na & _ & La & Eg & Ei & _).
  destruct (loop_inv (fun s1 => sound c n s1 /\ nth_error (chrom s1) i = Some a /\ nth_error (store s1) a = Some g) dedup_one (seq 0 i) s) as (s1 & E1 & S1 & N1 & G1).
  { intros s1 j Hj (S1 & N1 & G1). apply in_seq in Hj. destruct (dedup_one_ok c n s1 j S1 ltac:(lia)) as (s2 & E2 & S2).
    exists s2. split; [exact E2|]. split; [exact S2|]. unfold dedup_one in E2. destruct (ind s1 j) as [gj|]; cbn [bind] in E2; [|discriminate].
    assert (s2 = set_pop s1 (store s1 ++ [dedup gj []]) (upd (chrom s1) j (List.length (store s1)))) as -> by congruence. cbn [chrom store set_pop].
    split; [rewrite nth_upd_other by lia; exact N1|]. rewrite nth_error_app1; [exact G1|]. apply nth_error_Some. congruence. }
  { split; [exact S|]. split; [exact Na|]. apply at_some. exact Eg. }
  rewrite E1 in E. cbn [bind] in E. rewrite seq_app, loop_app in E. cbn [seq loop] in E. replace (0 + i) with i in E by lia.
  assert (ind s1 i = Ok g) as Ei1. { unfold ind. apply at_some in N1. rewrite N1. cbn [bind]. apply at_some. exact G1. }
  assert (dedup_one s1 i = Ok (set_pop s1 (store s1 ++ [dedup g []]) (upd (chrom s1) i (List.length (store s1))))) as E2.
  { unfold dedup_one. rewrite Ei1. reflexivity. }
  destruct (dedup_one_ok c n s1 i S1 ltac:(lia)) as (s2 & E2' & S2). rewrite E2' in E2. rewrite E2' in E. cbn [bind] in E.
  assert (nth_error (chrom s2) i = Some (List.length (store s1)) /\ nth_error (store s2) (List.length (store s1)) = Some (dedup g [])) as [N2 G2].
  { assert (s2 = set_pop s1 (store s1 ++ [dedup g []]) (upd (chrom s1) i (List.length (store s1)))) as -> by congruence. cbn [chrom store set_pop].
    split; [apply nth_upd_same; destruct S1 as (_ & _ & L1); lia|]. rewrite nth_error_app2, Nat.sub_diag by lia. reflexivity. }
  remember (List.length (store s1)) as b eqn:Eb. clear E2 E2' Eb Ei1.
  destruct (loop_inv (fun s3 => sound c n s3 /\ nth_error (chrom s3) i = Some b /\ nth_error (store s3) b = Some (dedup g [])) dedup_one (seq (i + 1) (psize c - i - 1)) s2) as (s3 & E3 & S3 & N3 & G3).
  { intros s3 j Hj (S3 & N3 & G3). apply in_seq in Hj. destruct (dedup_one_ok c n s3 j S3 ltac:(lia)) as (s4 & E4 & S4).
    exists s4. split; [exact E4|]. split; [exact S4|]. unfold dedup_one in E4. destruct (ind s3 j) as [gj|]; cbn [bind] in E4; [|discriminate].
    assert (s4 = set_pop s3 (store s3 ++ [dedup gj []]) (upd (chrom s3) j (List.length (store s3)))) as -> by congruence. cbn [chrom store set_pop].
    split; [rewrite nth_upd_other by lia; exact N3|]. rewrite nth_error_app1; [exact G3|]. apply nth_error_Some. congruence. }
  { auto. }
  assert (s' = s3) as -> by congruence. exists g. split; [exact Ei|].
  unfold ind. apply at_some in N3. rewrite N3. cbn [bind]. apply at_some. exact G3.
Qed.

(** ** Selection *)
Lemma index_spec l x : is_nan x = false -> In x l -> exists i y, index l x = Ok i /\ nth_error l i = Some y /\ neq x y.
Proof.
  intros N. induction l as [|y l IH]; intros I; [destruct I|]. cbn [index]. destruct (nle x y && nle y x) eqn:E.
  - apply andb_true_iff in E. exists 0, y. repeat split; tauto.
  - destruct I as [<-|I]; [rewrite (nle_refl _ N) in E; discriminate|]. destruct (IH I) as (i & z & Ei & Nz & Q).
    exists (S i), z. rewrite Ei. cbn. auto.
Qed.
Lemma seq_nth_error n i x : nth_error (seq 0 n) i = Some x -> x = i /\ i < n.
Proof.
  intros H. assert (i < n) as L by (rewrite <- (seq_length n 0); apply nth_error_Some; congruence).
  rewrite (nth_error_nth' _ 0) in H by (rewrite seq_length; exact L). rewrite seq_nth in H by exact L. injection H as <-. auto.
Qed.
Lemma nth_error_seq0 n i : i < n -> nth_error (seq 0 n) i = Some i.
Proof. intros L. rewrite (nth_error_nth' _ 0) by (rewrite seq_length; exact L). rewrite seq_nth by exact L. reflexivity. Qed.
Lemma nth_firstn {A} (l : list A) k i x : nth_error (firstn k l) i = Some x -> nth_error l i = Some x /\ i < k.
Proof. revert k i. induction l as [|y l IH]; intros [|k] [|i] H; cbn in *; try discriminate; [split; [exact H|lia]|]. apply IH in H as [HA HB]. split; [exact HA|lia]. Qed.

Lemma pymin_spec l : Forall (fun a => is_nan a = false) l -> l <> [] ->
  exists m, pymin l = Ok m /\ In m l /\ is_nan m = false /\ forall y, In y l -> nle m y = true.
Proof.
  destruct l as [|x l]; [congruence|]. intros F _. cbn [pymin]. inversion F as [|? ? Nx Nl]; subst. clear F.
  assert (forall l x, is_nan x = false -> Forall (fun a => is_nan a = false) l ->
     let m := fold_left (fun m y => if nlt y m then y else m) l x in In m (x :: l) /\ is_nan m = false /\ forall y, In y (x :: l) -> nle m y = true) as G.
  { clear. induction l as [|y l IH]; intros x Nx F.
    - cbn. split; [auto|]. split; [exact Nx|]. intros y [<-|[]]. apply nle_refl. exact Nx.
    - inversion F as [|? ? Ny Fl]; subst. cbn [fold_left]. destruct (nlt y x) eqn:E.
      + destruct (IH y Ny Fl) as (A & B & D). split; [destruct A as [A|A]; [right; left; exact A|right; right; exact A]|]. split; [exact B|].
        intros z [<-|Hz]; [|apply D; exact Hz]. eapply nle_trans; [|apply nlt_nle; exact E]. apply D. left. reflexivity.
      + destruct (IH x Nx Fl) as (A & B & D). split; [destruct A as [A|A]; [left; exact A|right; right; exact A]|]. split; [exact B|].
        intros z [<-|[<-|Hz]]; [apply D; left; reflexivity| |apply D; right; exact Hz].
        eapply nle_trans; [apply D; left; reflexivity|]. apply not_nlt_nle; auto. }
  destruct (G l x Nx Nl) as (A & B & D). eexists. split; [reflexivity|]. auto.
Qed.

(** The prefix of a sorted list and a threshold. *)
Lemma count_prefix (f : num -> bool) l k : (forall a b, sle a b = true -> f b = true -> f a = true) -> nsorted l ->
  count f (firstn k l) = Nat.min k (count f l).
Proof.
  intros M. revert k. induction l as [|x l IH]; intros k S; [destruct k; cbn; lia|]. destruct k as [|k]; [reflexivity|].
  destruct (nsorted_tail _ _ S) as [S' H]. cbn [firstn]. unfold count in *. cbn [filter]. destruct (f x) eqn:E.
  - cbn [List.length]. rewrite IH by exact S'. lia.
  - rewrite (filter_none f l), (filter_none f (firstn k l)); [cbn; lia| |]; intros y Hy.
    + destruct (f y) eqn:Ey; [|reflexivity]. rewrite (M x y) in E; [discriminate| |exact Ey]. apply H.
      rewrite <- (firstn_skipn k l). apply in_or_app. left. exact Hy.
    + destruct (f y) eqn:Ey; [|reflexivity]. rewrite (M x y) in E; [discriminate| |exact Ey]. apply H. exact Hy.
Qed.
Lemma count_pointwise (f : num -> bool) l1 : forall l2, (forall a b, neq a b -> f a = f b) -> List.length l1 = List.length l2 ->
  (forall i a b, nth_error l1 i = Some a -> nth_error l2 i = Some b -> neq a b) -> count f l1 = count f l2.
Proof.
  induction l1 as [|x l1 IH]; intros [|y l2] R L H; cbn in L; try discriminate; [reflexivity|].
  pose proof (R _ _ (H 0 x y eq_refl eq_refl)) as E. unfold count in *. cbn [filter]. rewrite E.
  assert (List.length (filter f l1) = List.length (filter f l2)) as Q.
  { apply IH; [exact R|lia|]. intros i a b Ha Hb. exact (H (S i) a b Ha Hb). }
  destruct (f y); cbn; congruence.
Qed.

Variables (fit : genome -> num * (C * string)) (nocoef : C).
Notation eval := (eval fit nocoef).
Notation select := (select fit nocoef).
Notation generation := (generation fit nocoef).
Notation generations := (generations fit nocoef).

(** What select does when no score is NaN: the kept individuals are individuals of the old
    population (the same objects), each with its own score, coefficients and name; scores
    are sorted; for every threshold, as many of the kept scores are at or below it as can be. *)
Record selected (c : cfg) (d : draws) (s s' : ga) : Prop := mkSelected {
  sel_fitn : List.length (fitn s') = psize c / 2;
  sel_kept : forall i, i < psize c / 2 -> exists j g,
     j < psize c /\ nth_error (chrom s') i = nth_error (chrom s) j /\ ind s j = Ok g /\ ind s' i = Ok g /\
     nth_error (fitn s') i = Some (fst (eval c g)) /\
     (exists cs, coefs s' = Some cs /\ List.length cs = psize c / 2 /\ nth_error cs i = Some (fst (snd (eval c g)))) /\
     (exists ns, names s' = Some ns /\ List.length ns = psize c / 2 /\ nth_error ns i = Some (snd (snd (eval c g))));
  sel_sorted : nsorted (fitn s');
  sel_best : forall fl, mapM (fun j => do g <- ind s j ; Ok (fst (eval c g))) (seq 0 (psize c)) = Ok fl ->
     forall x, count (fun a => nle a x) (fitn s') = Nat.min (psize c / 2) (count (fun a => nle a x) fl);
  sel_new : forall i, psize c / 2 <= i < List.length (chrom s') ->
     nth_error (chrom s') i = Some (List.length (store s) + (i - psize c / 2)) /\ ind s' i = Ok (random_genome c (d_fill d (i - psize c / 2)));
  sel_store : exists more, store s' = store s ++ more;
  sel_hist : forall f, nth_error (fitn s') 0 = Some f -> exists m, hist s' = hist s ++ [m] /\ neq m f /\ In m (fitn s') }.

Lemma div2_lt n : 0 < n -> n / 2 < n.
Proof. intros H. apply Nat.div_lt; lia. Qed.
Lemma div2_even n : n / 2 + n / 2 = n \/ n / 2 + n / 2 + 1 = n.
Proof. pose proof (Nat.div_mod n 2 ltac:(lia)). pose proof (Nat.mod_upper_bound n 2 ltac:(lia)). lia. Qed.

Lemma select_ok c n d s : usable c -> sound c n s -> psize c <= n -> (kd c = true \/ 2 <= psize c) ->
  (forall g, is_nan (fst (eval c g)) = false) ->
  exists s', select c d s = Ok s' /\ selected c d s s' /\ sound c (if kd c then psize c else 2 * (psize c / 2)) s'.
Proof.
  intros U S Hn Hp NN. unfold Dlga.select.
  destruct (mapM_ok (ind s) (seq 0 (psize c))) as (gs & Egs).
  { intros i Hi. apply in_seq in Hi. destruct (sound_ind c n s i S ltac:(lia)) as (a & g & _ & _ & _ & _ & E & _). eauto. }
  rewrite Egs. cbn [bind]. set (es := map (eval c) gs). set (fl := map fst es).
  assert (Lgs : List.length gs = psize c) by (rewrite (mapM_length _ _ _ Egs); apply seq_length).
  assert (Les : List.length es = psize c) by (unfold es; rewrite map_length; exact Lgs).
  assert (Lfl : List.length fl = psize c) by (unfold fl; rewrite map_length; exact Les).
  assert (Nfl : Forall (fun a => is_nan a = false) fl).
  { unfold fl, es. rewrite map_map. apply Forall_forall. intros x Hx. apply in_map_iff in Hx as (g & <- & _). apply NN. }
  set (k := psize c / 2). assert (Hk : k <= psize c) by (unfold k; apply Nat.div_le_upper_bound; lia).
  set (vals := firstn k (nsort fl)).
  assert (Lv : List.length vals = k) by (unfold vals; rewrite firstn_length, nsort_length, Lfl; lia).
  assert (Iv : forall x, In x vals -> In x fl).
  { intros x Hx. apply nsort_In. unfold vals in Hx. rewrite <- (firstn_skipn k (nsort fl)). apply in_or_app. left. exact Hx. }
  destruct (mapM_ok (index fl) vals) as (re1 & Ere).
  { intros x Hx. apply Iv in Hx. destruct (index_spec fl x) as (i & y & E & _); [rewrite Forall_forall in Nfl; auto|exact Hx|eauto]. }
  fold vals. rewrite Ere. cbn [bind].
  assert (Lre : List.length re1 = k) by (rewrite (mapM_length _ _ _ Ere); exact Lv).
  assert (Hre : forall i v, nth_error vals i = Some v -> exists j y, nth_error re1 i = Some j /\ nth_error fl j = Some y /\ neq v y).
  { intros i v E. destruct (mapM_nth _ _ _ _ _ Ere E) as (j & Ej & Nj).
    assert (In v fl) as Iv' by (apply Iv; eapply nth_error_In; eauto).
    destruct (index_spec fl v) as (j' & y & Ej' & Ny & Q); [rewrite Forall_forall in Nfl; auto|exact Iv'|].
    exists j, y. assert (j' = j) by congruence. subst j'. auto. }
  assert (Rlt : forall i j, nth_error re1 i = Some j -> j < psize c).
  { intros i j E. assert (i < List.length re1) as Li by (apply nth_error_Some; congruence). rewrite Lre, <- Lv in Li. apply nth_error_Some in Li.
    destruct (nth_error vals i) as [v|] eqn:Ev; [|congruence]. destruct (Hre i v Ev) as (j' & y & Ej' & Ny & _). assert (j' = j) by congruence. subst j'.
    rewrite <- Lfl. apply nth_error_Some. congruence. }
  assert (Lch : List.length (chrom s) = n) by apply S.
  destruct (mapM_ok (at_ (chrom s)) re1) as (refs & Erefs).
  { intros j Hj. apply In_nth_error in Hj as (i & Hi). destruct (at_ok (chrom s) j) as (a & E & _); [pose proof (Rlt _ _ Hi); lia|eauto]. }
  rewrite Erefs. cbn [bind].
  destruct (mapM_ok (at_ fl) re1) as (fs & Efs).
  { intros j Hj. apply In_nth_error in Hj as (i & Hi). destruct (at_ok fl j) as (a & E & _); [rewrite Lfl; apply (Rlt _ _ Hi)|eauto]. }
  rewrite Efs. cbn [bind].
  destruct (mapM_ok (fun i => do e <- at_ es i ; Ok (fst (snd e))) re1) as (cs & Ecs).
  { intros j Hj. apply In_nth_error in Hj as (i & Hi). destruct (at_ok es j) as (a & E & _); [rewrite Les; apply (Rlt _ _ Hi)|]. rewrite E. cbn. eauto. }
  rewrite Ecs. cbn [bind].
  destruct (mapM_ok (fun i => do e <- at_ es i ; Ok (snd (snd e))) re1) as (ns & Ens).
  { intros j Hj. apply In_nth_error in Hj as (i & Hi). destruct (at_ok es j) as (a & E & _); [rewrite Les; apply (Rlt _ _ Hi)|]. rewrite E. cbn. eauto. }
  rewrite Ens. cbn [bind].
  assert (Lrefs : List.length refs = k) by (rewrite (mapM_length _ _ _ Erefs); exact Lre).
  assert (Lfs : List.length fs = k) by (rewrite (mapM_length _ _ _ Efs); exact Lre).
  assert (Lcs : List.length cs = k) by (rewrite (mapM_length _ _ _ Ecs); exact Lre).
  assert (Lns : List.length ns = k) by (rewrite (mapM_length _ _ _ Ens); exact Lre).
  rewrite Lrefs. set (nf := if kd c then psize c - k else k).
  assert (Nfs : Forall (fun a => is_nan a = false) fs).
  { apply Forall_forall. intros x Hx. apply In_nth_error in Hx as (i & Hi).
    assert (i < List.length re1) as Li by (rewrite Lre, <- Lfs; apply nth_error_Some; congruence). apply nth_error_Some in Li.
    destruct (nth_error re1 i) as [j|] eqn:Ej; [|congruence]. destruct (mapM_nth _ _ _ _ _ Efs Ej) as (y & Ey & Ny).
    apply at_some in Ey. assert (x = y) by congruence. subst y. apply (Forall_nth_error _ _ _ _ Nfl Ey). }
  assert (Pfs : forall i a b, nth_error fs i = Some a -> nth_error vals i = Some b -> neq a b).
  { intros i a b Ha Hb. destruct (Hre i b Hb) as (j & y & Ej & Ny & Q). destruct (mapM_nth _ _ _ _ _ Efs Ej) as (z & Ez & Nz).
    apply at_some in Ez. assert (a = y) by congruence. subst. apply neq_sym. exact Q. }
  assert (Sfs : nsorted fs).
  { intros i j a b Hij Ha Hb. assert (exists a', nth_error vals i = Some a') as (a' & Ha').
    { destruct (nth_error vals i) eqn:E; [eauto|]. apply nth_error_None in E. assert (i < List.length fs) by (apply nth_error_Some; congruence). lia. }
    assert (exists b', nth_error vals j = Some b') as (b' & Hb').
    { destruct (nth_error vals j) eqn:E; [eauto|]. apply nth_error_None in E. assert (j < List.length fs) by (apply nth_error_Some; congruence). lia. }
    destruct (nth_firstn _ _ _ _ Ha') as [Ga _]. destruct (nth_firstn _ _ _ _ Hb') as [Gb _].
    pose proof (nsort_sorted fl i j a' b' Hij Ga Gb) as G. destruct (Pfs i a a' Ha Ha') as [Q1 _]. destruct (Pfs j b b' Hb Hb') as [_ Q2].
    unfold sle in *. apply orb_true_iff. right. destruct (nle_notnan _ _ Q2) as [Nb' _]. rewrite Nb' in G. cbn in G.
    exact (nle_trans _ _ _ Q1 (nle_trans _ _ _ G Q2)). }
  set (ch := refs ++ seq (List.length (store s)) nf).
  assert (exists h, (if kd c && ((List.length fs =? 0) || (List.length ch =? 0)) then Ok (hist s) else do m <- pymin fs ; Ok (hist s ++ [m])) = Ok h /\
     (forall f, nth_error fs 0 = Some f -> exists m, h = hist s ++ [m] /\ neq m f /\ In m fs)) as (h & Eh & Hh).
  { assert (fs <> [] -> exists m, pymin fs = Ok m /\ In m fs /\ (forall f, nth_error fs 0 = Some f -> neq m f)) as G.
    { intros NE. destruct (pymin_spec fs Nfs NE) as (m & Em & Im & Nm & Hm). exists m. repeat split; auto.
      - apply Hm. eapply nth_error_In; eauto.
      - apply In_nth_error in Im as (i & Hi). pose proof (Sfs 0 i f m ltac:(lia) H Hi) as Q. unfold sle in Q. rewrite Nm in Q. exact Q. }
    destruct (kd c && ((List.length fs =? 0) || (List.length ch =? 0))) eqn:Q.
    - exists (hist s). split; [reflexivity|]. intros f Hf. exfalso. apply andb_true_iff in Q as [_ Q]. apply orb_true_iff in Q as [Q|Q]; apply Nat.eqb_eq in Q.
      + destruct fs; [discriminate|cbn in Q; lia].
      + unfold ch in Q. rewrite app_length in Q. assert (k = 0) as K0 by lia. rewrite K0 in Lfs. destruct fs; discriminate.
    - destruct G as (m & Em & Im & Hm).
      { intros ->. cbn in Q. change (0 = k) in Lfs. rewrite andb_true_r in Q. destruct Hp as [Hp|Hp]; [congruence|].
        assert (1 <= psize c / 2) as K1 by (apply Nat.div_le_lower_bound; lia). fold k in K1. lia. }
      rewrite Em. cbn [bind]. exists (hist s ++ [m]). split; [reflexivity|]. intros f Hf. exists m. auto. }
  rewrite Eh. cbn [bind]. eexists. split; [reflexivity|].
  assert (Lst : List.length (store s ++ refill c d nf) = List.length (store s) + nf).
  { rewrite app_length. unfold refill. rewrite map_length, seq_length. reflexivity. }
  assert (Lchl : List.length ch = k + nf) by (unfold ch; rewrite app_length, seq_length; lia).
  destruct S as (Sa & Sb & Sc).
  split.
  - constructor; cbn [fitn chrom coefs names hist store].
    + exact Lfs.
    + intros i Hi. assert (i < List.length re1) as Li by (rewrite Lre; exact Hi). apply nth_error_Some in Li.
      destruct (nth_error re1 i) as [j|] eqn:Ej; [|congruence]. clear Li. pose proof (Rlt _ _ Ej) as Hj.
      destruct (mapM_nth _ _ _ _ _ Erefs Ej) as (a & Ea & Na). destruct (mapM_nth _ _ _ _ _ Egs (nth_error_seq0 _ _ Hj)) as (g & Eg & Ng).
      assert (Nes : nth_error es j = Some (eval c g)) by (unfold es; rewrite nth_error_map, Ng; reflexivity).
      assert (Nfl' : nth_error fl j = Some (fst (eval c g))) by (unfold fl; rewrite nth_error_map, Nes; reflexivity).
      exists j, g. split; [exact Hj|]. apply at_some in Ea.
      assert (Nch : nth_error ch i = Some a) by (unfold ch; rewrite nth_error_app1 by lia; exact Na).
      split; [rewrite Nch, Ea; reflexivity|]. split; [exact Eg|]. split.
      { unfold ind in *. cbn [chrom store]. fold ch. apply at_some in Nch. rewrite Nch. apply at_some in Ea. rewrite Ea in Eg. cbn [bind] in *.
        apply at_some. rewrite nth_error_app1 by (eapply at_lt; exact Eg). apply at_some. exact Eg. }
      split. { destruct (mapM_nth _ _ _ _ _ Efs Ej) as (y & Ey & Ny). apply at_some in Ey. congruence. }
      split.
      * exists cs. split; [reflexivity|]. split; [exact Lcs|]. destruct (mapM_nth _ _ _ _ _ Ecs Ej) as (y & Ey & Ny).
        apply at_some in Nes. rewrite Nes in Ey. cbn in Ey. congruence.
      * exists ns. split; [reflexivity|]. split; [exact Lns|]. destruct (mapM_nth _ _ _ _ _ Ens Ej) as (y & Ey & Ny).
        apply at_some in Nes. rewrite Nes in Ey. cbn in Ey. congruence.
    + exact Sfs.
    + intros fl' Efl' x. assert (fl' = fl) as ->.
      { unfold fl, es. rewrite map_map. clear - Egs Efl'. revert gs fl' Egs Efl'. induction (seq 0 (psize c)) as [|j l IH]; intros gs fl' E1 E2; cbn in *.
        - injection E1 as <-. injection E2 as <-. reflexivity.
        - destruct (ind s j) as [g|]; cbn in *; [|discriminate]. destruct (mapM (ind s) l) as [gs'|]; cbn in *; [|discriminate].
          destruct (mapM (fun j0 => do g0 <- ind s j0; Ok (fst (eval c g0))) l) as [fl''|]; cbn in *; [|discriminate].
          injection E1 as <-. injection E2 as <-. cbn. f_equal. apply IH; reflexivity. }
      rewrite (count_pointwise _ fs vals); [|..].
      * unfold vals. rewrite count_prefix; [rewrite nsort_count; reflexivity| |apply nsort_sorted].
        intros a b Hs Hb. destruct (nle_notnan _ _ Hb) as [Nb _]. unfold sle in Hs. rewrite Nb in Hs. cbn in Hs. eapply nle_trans; eauto.
      * intros a b [Q1 Q2]. destruct (nle a x) eqn:E1, (nle b x) eqn:E2; try reflexivity; [rewrite (nle_trans _ _ _ Q2 E1) in E2|rewrite (nle_trans _ _ _ Q1 E2) in E1]; discriminate.
      * lia.
      * exact Pfs.
    + intros i [Hi1 Hi2]. fold ch in Hi2. assert (nth_error ch i = Some (List.length (store s) + (i - k))) as Nch.
      { unfold ch. rewrite nth_error_app2 by lia. rewrite Lrefs. rewrite (nth_error_nth' _ 0) by (rewrite seq_length; lia). rewrite seq_nth by lia. reflexivity. }
      split; [exact Nch|]. unfold ind. cbn [chrom store]. fold ch. apply at_some in Nch. rewrite Nch. cbn [bind]. apply at_some.
      rewrite nth_error_app2 by lia. replace (List.length (store s) + (i - k) - List.length (store s)) with (i - k) by lia.
      unfold refill. rewrite nth_error_map, nth_error_seq0 by lia. reflexivity.
    + eexists. reflexivity.
    + exact Hh.
  - unfold sound. cbn [store chrom]. split; [|split].
    + apply Forall_app. split; [exact Sa|]. unfold refill. apply Forall_forall. intros g Hg. apply in_map_iff in Hg as (i & <- & _). apply random_genome_wf. exact U.
    + fold ch. rewrite Lst. unfold ch. apply Forall_app. split.
      * apply Forall_forall. intros a Ha. apply In_nth_error in Ha as (i & Hi).
        assert (i < List.length re1) as Li by (rewrite Lre, <- Lrefs; apply nth_error_Some; congruence). apply nth_error_Some in Li.
        destruct (nth_error re1 i) as [j|] eqn:Ej; [|congruence]. destruct (mapM_nth _ _ _ _ _ Erefs Ej) as (a' & Ea & Na). apply at_some in Ea.
        assert (a = a') by congruence. subst a'. pose proof (Forall_nth_error _ _ _ _ Sb Ea). cbn in H. lia.
      * apply Forall_forall. intros a Ha. apply in_seq in Ha. lia.
    + fold ch. rewrite Lchl. unfold nf. destruct (kd c); unfold k; lia.
Qed.

(** ** One generation *)
(** Configurations for which a run goes through: a library, modules, at least two
    individuals, an even number of them in DLGA, and not more crossings than pairs. *)
Definition runnable (c : cfg) : Prop :=
  usable c /\ 2 <= psize c /\ (kd c = true \/ Nat.even (psize c) = true) /\ ngen c / 2 <= psize c / 2.

Lemma runnable_size c : runnable c -> (if kd c then psize c else 2 * (psize c / 2)) = psize c.
Proof.
  intros (_ & _ & [H|H] & _).
  - rewrite H. reflexivity.
  - destruct (kd c); [reflexivity|]. apply Nat.even_spec in H as (k & ->). rewrite (Nat.mul_comm 2 k), Nat.div_mul by lia. lia.
Qed.
Lemma generation_ok c d s : runnable c -> sound c (psize c) s -> (forall g, is_nan (fst (eval c g)) = false) ->
  exists s4 s', offspring c d s = Ok s4 /\ generation c d s = Ok s' /\ sound c (psize c) s' /\ sound c (psize c) s4 /\ ind s4 0 = ind s 0 /\ hist s4 = hist s /\
    select c d s4 = Ok s' /\ selected c d s4 s'.
Proof.
  intros R S NN. pose proof (runnable_size c R) as Sz. destruct R as (U & P2 & PE & CR).
  destruct (sound_ind c _ s 0 S ltac:(lia)) as (a & b & _ & _ & _ & _ & Eb & Wb).
  unfold Dlga.generation. unfold offspring. assert (kd c && (List.length (chrom s) =? 0) = false) as ->.
  { destruct S as (_ & _ & L). destruct (List.length (chrom s) =? 0) eqn:Z; [apply Nat.eqb_eq in Z; lia|apply andb_false_r]. }
  rewrite Eb. cbn [bind]. destruct (cross_over_ok c _ d s S CR) as (s1 & E1 & S1 & _). rewrite E1. cbn [bind].
  destruct (mutation_ok c _ d s1 U S1 ltac:(lia)) as (s2 & E2 & S2 & _). rewrite E2. cbn [bind].
  destruct (delete_duplicates_ok c _ s2 S2 ltac:(lia)) as (s3 & E3 & S3). rewrite E3. cbn [bind].
  assert (kd c && (List.length b =? 0) = false) as ->.
  { destruct Wb as [W _]. destruct (List.length b =? 0) eqn:Z; [apply Nat.eqb_eq in Z; lia|apply andb_false_r]. }
  set (s4 := set_pop s3 (store s3 ++ [b]) (upd (chrom s3) 0 (List.length (store s3)))). cbn [bind].
  assert (sound c (psize c) s4) as S4.
  { destruct S3 as (A & B & L). unfold sound, s4, set_pop; cbn [store chrom]. split; [|split].
    - apply Forall_app. split; [exact A|]. constructor; [exact Wb|constructor].
    - apply Forall_upd; [|rewrite app_length; cbn; lia]. eapply Forall_impl; [|exact B]. cbn. intros x Hx. rewrite app_length. lia.
    - rewrite upd_length. exact L. }
  assert (ind s4 0 = Ok b) as I4.
  { unfold ind, s4, set_pop; cbn [store chrom]. assert (nth_error (upd (chrom s3) 0 (List.length (store s3))) 0 = Some (List.length (store s3))) as N.
    { apply nth_upd_same. destruct S3 as (_ & _ & L). lia. }
    apply at_some in N. rewrite N. cbn [bind]. apply at_some. rewrite nth_error_app2, Nat.sub_diag by lia. reflexivity. }
  destruct (select_ok c _ d s4 U S4 ltac:(lia) ltac:(lia) NN) as (s' & E' & Sel & S'). rewrite Sz in S'.
  assert (hist s4 = hist s) as H4.
  { unfold s4. cbn [hist set_pop].
    assert (Lp : forall f is x y, (forall x0 i y0, f x0 i = Ok y0 -> hist y0 = hist x0) -> @loop C f is x = Ok y -> hist y = hist x).
    { clear. intros f is x y Hf. revert x. induction is as [|i is IH]; intros x E; cbn in E; [congruence|].
      destruct (f x i) as [z|] eqn:Ef; cbn in E; [|discriminate]. rewrite (IH _ E). eapply Hf; eauto. }
    transitivity (hist s2); [|transitivity (hist s1)].
    - eapply Lp; [|exact E3]. intros x i y Ey. unfold dedup_one in Ey. destruct (ind x i); cbn [bind] in Ey; [|discriminate].
      inversion Ey. reflexivity.
    - eapply Lp; [|exact E2]. intros x i y Ey. unfold mutate_one in Ey. destruct (at_ (chrom x) i) as [a1|]; cbn [bind] in Ey; [|discriminate].
      destruct (at_ (store x) a1) as [g1|]; cbn [bind] in Ey; [|discriminate].
      destruct (mut_step c (d_mut d i) (del_step (d_del d i) (add_step c (d_add d i) g1))) as [g2|]; cbn [bind] in Ey; [|discriminate].
      inversion Ey. reflexivity.
    - eapply Lp; [|exact E1]. intros x i y Ey. unfold cross_one in Ey. destruct (at_ (chrom x) (2 * i)) as [a1|]; cbn [bind] in Ey; [|discriminate].
      destruct (at_ (store x) a1) as [g1|]; cbn [bind] in Ey; [|discriminate]. destruct (List.length g1 =? 0); [discriminate|].
      destruct (at_ (chrom x) (2 * i + 1)) as [a2|]; cbn [bind] in Ey; [|discriminate].
      destruct (at_ (store x) a2) as [g2|]; cbn [bind] in Ey; [|discriminate]. destruct (List.length g2 =? 0); [discriminate|].
      destruct (at_ g1 (d_x1 d i mod List.length g1)) as [f1|]; cbn [bind] in Ey; [|discriminate].
      destruct (at_ g2 (d_x2 d i mod List.length g2)) as [f2|]; cbn [bind] in Ey; [|discriminate].
      match type of Ey with (do gb1 <- ?X ; _) = _ => destruct X as [g3|]; cbn [bind] in Ey; [|discriminate] end. inversion Ey. reflexivity. }
  exists s4, s'. split; [reflexivity|]. split; [exact E'|]. split; [exact S'|]. split; [exact S4|]. split; [exact I4|]. auto.
Qed.

(** The first kept score is at most the score of every individual of the evaluated population. *)
Lemma selected_min c d s s' f j g : selected c d s s' -> sound c (psize c) s -> 2 <= psize c -> (forall g, is_nan (fst (eval c g)) = false) ->
  nth_error (fitn s') 0 = Some f -> j < psize c -> ind s j = Ok g -> nle f (fst (eval c g)) = true.
Proof.
  intros Sel S P2 NN Hf Hj Hg.
  destruct (mapM_ok (fun j => do g <- ind s j ; Ok (fst (eval c g))) (seq 0 (psize c))) as (fl & Efl).
  { intros i Hi. apply in_seq in Hi. destruct (sound_ind c _ s i S ltac:(lia)) as (? & g' & _ & _ & _ & _ & E & _). rewrite E. cbn. eauto. }
  pose proof (sel_best _ _ _ _ Sel fl Efl (fst (eval c g))) as B.
  destruct (mapM_nth _ _ _ _ _ Efl (nth_error_seq0 _ _ Hj)) as (y & Ey & Ny). rewrite Hg in Ey. cbn in Ey. assert (y = fst (eval c g)) as -> by congruence.
  assert (1 <= count (fun a => nle a (fst (eval c g))) fl) as C1.
  { unfold count. assert (In (fst (eval c g)) (filter (fun a => nle a (fst (eval c g))) fl)) as I.
    { apply filter_In. split; [eapply nth_error_In; eauto|]. apply nle_refl. apply NN. }
    destruct (filter (fun a => nle a (fst (eval c g))) fl); [destruct I|cbn; lia]. }
  assert (1 <= psize c / 2) as C2 by (apply Nat.div_le_lower_bound; lia).
  assert (1 <= count (fun a => nle a (fst (eval c g))) (fitn s')) as C3 by lia.
  unfold count in C3. destruct (filter (fun a => nle a (fst (eval c g))) (fitn s')) as [|z zs] eqn:Ez; [cbn in C3; lia|].
  assert (In z (filter (fun a => nle a (fst (eval c g))) (fitn s'))) as I by (rewrite Ez; left; reflexivity). apply filter_In in I as [I Lz].
  apply In_nth_error in I as (i & Hi). pose proof (sel_sorted _ _ _ _ Sel 0 i f z ltac:(lia) Hf Hi) as Q.
  destruct (nle_notnan _ _ Lz) as [Nz _]. unfold sle in Q. rewrite Nz in Q. cbn in Q. eapply nle_trans; eauto.
Qed.
End Facts.

(** ** Crossing moves modules, it neither creates nor destroys any *)
Lemma perm_upd {A} (l : list A) i x y : nth_error l i = Some x -> Permutation (y :: l) (x :: upd l i y).
Proof.
  revert i. induction l as [|z l IH]; intros [|i] E; cbn in E; try discriminate.
  - injection E as ->. cbn. apply perm_swap.
  - cbn. rewrite perm_swap. rewrite (IH i E). apply perm_swap.
Qed.
Lemma perm_swap_in {A} (l : list A) i j x y : nth_error l i = Some x -> nth_error l j = Some y -> Permutation (upd (upd l i y) j x) l.
Proof.
  intros Hx Hy. apply (Permutation_cons_inv (a := y)). rewrite <- (perm_upd (upd l i y) j y x).
  - symmetry. apply perm_upd. exact Hx.
  - rewrite nth_upd. destruct ((i =? j) && (j <? List.length l)); [reflexivity|exact Hy].
Qed.
Lemma perm_concat_upd {A} (st : list (list A)) a g g' : nth_error st a = Some g ->
  Permutation (g' ++ List.concat st) (g ++ List.concat (upd st a g')).
Proof.
  revert a. induction st as [|z st IH]; intros [|a] E; cbn in E; try discriminate.
  - injection E as ->. cbn. rewrite !app_assoc. apply Permutation_app_tail. apply Permutation_app_comm.
  - cbn. rewrite app_assoc, (Permutation_app_comm g' z), <- app_assoc. rewrite (IH a E).
    rewrite !app_assoc. apply Permutation_app_tail. apply Permutation_app_comm.
Qed.
