(** C133: the training data of the language model. *)
From Coq Require Import QArith Permutation.
From Verif Require Import Base Num EqGpt EqGptAugment.
Local Open Scope nat_scope.
Local Open Scope list_scope.

(** ** Specification *)
(** A sentence is a sum (separator 2) of products (separator 3); [cuts v s l]: [l] are the pieces of [s] between the [v]s. *)
Inductive cuts (v : nat) : list nat -> list (list nat) -> Prop :=
| cut_one p : ~ In v p -> cuts v p [p]
| cut_more p s l : ~ In v p -> cuts v s l -> cuts v (p ++ v :: s) (p :: l).
(** The same sum of the same products, in any order of the summands and of the factors. *)
Definition same_product (a b : list nat) : Prop := exists x y, cuts tTimes a x /\ cuts tTimes b y /\ Permutation x y.
Definition same_sum (a b : list nat) : Prop := exists x y m, cuts tPlus a x /\ cuts tPlus b y /\ Permutation x m /\ Forall2 same_product m y.
(** a sentence without its end symbols *)
Definition without_end (s : list nat) : list nat := filter (fun k => negb (k =? tE)) s.

(** ** Lemmas *)
Lemma split_nonempty v l : split_list v l <> [].
Proof. destruct l as [|k l]; cbn; [discriminate|]. destruct (split_list v l); [discriminate|]. destruct (k =? v); discriminate. Qed.
Lemma split_cuts v l : cuts v l (split_list v l).
Proof.
  induction l as [|k l IH]; cbn [split_list]; [constructor; intros []|].
  destruct (split_list v l) as [|seg r] eqn:E; [exfalso; exact (split_nonempty v l E)|]. destruct (Nat.eqb_spec k v) as [->|N].
  - apply (cut_more v [] l); [intros []|exact IH].
  - inversion IH as [p Np|p s ps Np H]; subst.
    + apply (cut_one v (k :: seg)). intros [X|X]; auto.
    + apply (cut_more v (k :: seg) s r); [intros [X|X]; auto|exact H].
Qed.
Lemma split_no v l : ~ In v l -> split_list v l = [l].
Proof. induction l as [|k l IH]; intros N; [reflexivity|]. cbn [split_list]. rewrite IH by (intros X; apply N; now right). destruct (Nat.eqb_spec k v); [exfalso; apply N; left; auto|reflexivity]. Qed.
Lemma split_app v p s : ~ In v p -> split_list v (p ++ v :: s) = p :: split_list v s.
Proof.
  induction p as [|k p IH]; intros N; cbn [List.app split_list].
  - destruct (split_list v s) as [|seg r] eqn:E; [exfalso; exact (split_nonempty v s E)|]. rewrite Nat.eqb_refl. reflexivity.
  - rewrite IH by (intros X; apply N; now right). destruct (Nat.eqb_spec k v); [exfalso; apply N; left; auto|reflexivity].
Qed.
Lemma cuts_fun v s l : cuts v s l -> l = split_list v s.
Proof. induction 1 as [p N|p s l N H IH]; [symmetry; apply split_no; exact N|]. rewrite split_app by exact N. rewrite IH. reflexivity. Qed.
Lemma combine_cons v p q l : combine_slices v (p :: q :: l) = p ++ v :: combine_slices v (q :: l).
Proof.
  unfold combine_slices. cbn [map List.concat]. rewrite <- app_assoc. cbn [List.app]. set (X := (q ++ [v]) ++ _).
  assert (X <> []) by (unfold X; destruct q; discriminate). rewrite removelast_app by discriminate. f_equal. cbn [removelast]. destruct X; [congruence|reflexivity].
Qed.
Lemma combine_one v p : combine_slices v [p] = p.
Proof. unfold combine_slices. cbn. rewrite app_nil_r. apply removelast_last. Qed.
Lemma split_combine v l : l <> [] -> Forall (fun p => ~ In v p) l -> split_list v (combine_slices v l) = l.
Proof.
  intros N F. induction F as [|p l Np F IH]; [congruence|]. destruct l as [|q l]; [rewrite combine_one; apply split_no; exact Np|].
  rewrite combine_cons, split_app by exact Np. f_equal. apply IH. discriminate.
Qed.
Lemma combine_split v s : combine_slices v (split_list v s) = s.
Proof.
  assert (forall s l, cuts v s l -> combine_slices v l = s) as X; [|apply X, split_cuts]. clear s. induction 1 as [p N|p s l N H IH]; [apply combine_one|].
  destruct l as [|q l]; [inversion H|]. rewrite combine_cons, IH. reflexivity.
Qed.
Lemma split_free v s : Forall (fun p => ~ In v p) (split_list v s).
Proof. generalize (split_cuts v s). generalize (split_list v s). induction 1; repeat constructor; auto. Qed.
Lemma split_incl v s p x : In p (split_list v s) -> In x p -> In x s.
Proof.
  generalize (split_cuts v s). generalize (split_list v s). intros l C. revert p x. induction C as [q N|q s' l N C IH]; intros p x I J.
  - destruct I as [<-|[]]. exact J.
  - apply in_app_iff. destruct I as [<-|I]; [now left|right; right; eauto].
Qed.
Lemma split_filter v f s : f v = true -> split_list v (filter f s) = map (filter f) (split_list v s).
Proof.
  intros Fv. generalize (split_cuts v s). generalize (split_list v s). induction 1 as [p N|p s' l N H IH].
  - cbn. apply split_no. intros X. apply filter_In in X. tauto.
  - rewrite filter_app. cbn [filter]. rewrite Fv. rewrite split_app, IH; [reflexivity|]. intros X. apply filter_In in X. tauto.
Qed.
(** permutations *)
Lemma picks_perm {A} (l : list A) x r : In (x, r) (picks l) -> Permutation (x :: r) l.
Proof.
  revert x r. induction l as [|a l IH]; intros x r I; [destruct I|]. cbn [picks] in I. destruct I as [[= <- <-]|I]; [reflexivity|].
  apply in_map_iff in I as ([y s] & [= <- <-] & I). apply IH in I. rewrite <- I. apply perm_swap.
Qed.
Lemma picks_all {A} (l1 l2 : list A) x : In (x, l1 ++ l2) (picks (l1 ++ x :: l2)).
Proof. induction l1 as [|a l1 IH]; cbn; [now left|]. right. apply in_map_iff. exists (x, l1 ++ l2). split; [reflexivity|exact IH]. Qed.
Lemma perms_n_spec {A} n : forall (l p : list A), List.length l = n -> In p (perms_n n l) <-> Permutation p l.
Proof.
  induction n as [|n IH]; intros l p Hl.
  - destruct l; [|discriminate]. cbn. split; [intros [<-|[]]; reflexivity|]. intros P. apply Permutation_sym, Permutation_nil in P. now left.
  - cbn [perms_n]. rewrite in_flat_map. split.
    + intros ([x r] & I & J). pose proof (picks_perm _ _ _ I) as P. cbn [fst snd] in J. apply in_map_iff in J as (q & <- & J).
      apply IH in J; [rewrite J; exact P|]. apply Permutation_length in P. cbn in P. lia.
    + intros P. destruct p as [|x p]; [apply Permutation_length in P; cbn in P; lia|].
      destruct (in_split x l) as (l1 & l2 & ->). { eapply Permutation_in; [exact P|now left]. }
      exists (x, l1 ++ l2). split; [apply picks_all|]. cbn [fst snd]. apply in_map. apply IH.
      * rewrite app_length in *. cbn in Hl. lia.
      * eapply Permutation_cons_app_inv. exact P.
Qed.
Lemma permutation_spec {A} (l p : list A) : In p (permutation l) <-> Permutation p l.
Proof. apply perms_n_spec. reflexivity. Qed.

(** Swapping the summands gives exactly the sentences with the same summands, in every order. *)
Theorem C133_every_order data r : In r (augment_plus data) <-> exists x y, cuts tPlus data x /\ cuts tPlus r y /\ Permutation y x.
Proof.
  unfold augment_plus. rewrite in_map_iff. split.
  - intros (p & <- & I). apply permutation_spec in I. exists (split_list tPlus data), p. split; [apply split_cuts|]. split; [|exact I].
    assert (p <> []) as Np. { intros ->. apply Permutation_nil in I. exact (split_nonempty _ _ I). }
    rewrite <- (split_combine tPlus p Np) at 2; [apply split_cuts|]. rewrite I. apply split_free.
  - intros (x & y & Cx & Cy & P). apply cuts_fun in Cx. apply cuts_fun in Cy. subst. exists (split_list tPlus r). split; [apply combine_split|].
    apply permutation_spec. exact P.
Qed.
Lemma alternatives_spec s a : In a (alternatives s) -> Permutation (split_list tTimes a) (split_list tTimes s).
Proof.
  unfold alternatives. rewrite in_map_iff. intros (p & <- & I). apply permutation_spec in I.
  rewrite split_combine; [exact I| |rewrite I; apply split_free]. intros ->. apply Permutation_nil in I. exact (split_nonempty _ _ I).
Qed.
Lemma alternatives_last s : Permutation (split_list tTimes (last (alternatives s) s)) (split_list tTimes s).
Proof.
  destruct (alternatives s) as [|a l] eqn:E; [reflexivity|]. apply alternatives_spec. rewrite E.
  rewrite (app_removelast_last s (l := a :: l)) at 2 by discriminate. apply in_app_iff. right. now left.
Qed.
Definition reordered (a b : list nat) : Prop := Permutation (split_list tTimes a) (split_list tTimes b).
Lemma reordered_refl l : Forall2 reordered l l.
Proof. induction l as [|x l IH]; constructor; [apply Permutation_refl|exact IH]. Qed.
Lemma reordered_incl a b x : reordered a b -> In x a -> x = tTimes \/ In x b.
Proof.
  intros P I. destruct (Nat.eq_dec x tTimes) as [E|N]; [now left|]. right.
  assert (exists p, In p (split_list tTimes a) /\ In x p) as (p & I1 & I2).
  { clear P. revert I. generalize (split_cuts tTimes a). generalize (split_list tTimes a). induction 1 as [q Nq|q s l Nq C IH]; intros I; [exists q; split; [now left|exact I]|].
    apply in_app_iff in I as [I|[I|I]]; [exists q; split; [now left|exact I]|congruence|]. destruct (IH I) as (p & I1 & I2). exists p. split; [now right|exact I2]. }
  eapply split_incl; [|exact I2]. eapply Permutation_in; eauto.
Qed.
Lemma multiply_loop_spec todo : forall done orig r, Forall2 reordered done orig -> Forall (fun p => ~ In tPlus p) orig -> Forall (fun p => ~ In tPlus p) todo ->
  In r (multiply_loop done todo) -> exists cur, r = combine_slices tPlus cur /\ Forall2 reordered cur (orig ++ todo) /\ cur <> [].
Proof.
  induction todo as [|s todo IH]; intros done orig r D Fo Ft I; [destruct I|]. inversion Ft as [|? ? Fs Ft']; subst. cbn [multiply_loop] in I.
  assert (forall x, reordered x s -> In r (multiply_loop (done ++ [x]) todo) -> exists cur, r = combine_slices tPlus cur /\ Forall2 reordered cur (orig ++ s :: todo) /\ cur <> []) as Step.
  { intros x Hx I'. replace (orig ++ s :: todo) with ((orig ++ [s]) ++ todo) by (rewrite <- app_assoc; reflexivity).
    apply (IH (done ++ [x])); [apply Forall2_app; [exact D|repeat constructor; exact Hx]|apply Forall_app; split; [exact Fo|repeat constructor; exact Fs]|exact Ft'|exact I']. }
  destruct (existsb (Nat.eqb tTimes) s).
  - apply in_app_iff in I as [I|I].
    + apply in_map_iff in I as (a & <- & I). exists (done ++ a :: todo). split; [reflexivity|]. split; [|destruct done; discriminate].
      apply Forall2_app; [exact D|]. constructor; [apply alternatives_spec; exact I|]. apply reordered_refl.
    + apply (Step _ (alternatives_last s) I).
  - apply (Step s); [apply Permutation_refl|exact I].
Qed.
Lemma augment_multiply_spec data r : In r (augment_multiply data) -> Forall2 reordered (split_list tPlus r) (split_list tPlus data).
Proof.
  unfold augment_multiply. destruct (existsb (Nat.eqb tTimes) data).
  - intros I. destruct (multiply_loop_spec _ [] [] r (Forall2_nil _) (Forall_nil _) (split_free tPlus data) I) as (cur & -> & F & N). cbn [List.app] in F.
    rewrite split_combine; [exact F|exact N|]. pose proof (split_free tPlus data) as Fd. revert Fd F. generalize (split_list tPlus data). clear. intros l Fd F.
    induction F as [|a b cur l R F IH]; constructor; inversion Fd; subst; [|auto]. intros X. apply (reordered_incl a b) in X as [X|X]; [discriminate|auto|exact R].
  - intros [<-|[]]. apply reordered_refl.
Qed.
Lemma without_end_id s : ~ In tE s -> without_end s = s.
Proof. induction s as [|k s IH]; intros N; [reflexivity|]. cbn. destruct (Nat.eqb_spec k tE); [exfalso; apply N; now left|]. cbn. f_equal. apply IH. intros X. apply N. now right. Qed.
Lemma reordered_filter a b : reordered a b -> reordered (without_end a) (without_end b).
Proof. unfold reordered, without_end. intros P. rewrite !split_filter by reflexivity. apply Permutation_map. exact P. Qed.
Lemma F2_map {A B C} (R : A -> B -> Prop) (f : A -> C) (g : B -> C) (S' : C -> C -> Prop) : (forall a b, R a b -> S' (f a) (g b)) -> forall l1 l2, Forall2 R l1 l2 -> Forall2 S' (map f l1) (map g l2).
Proof. intros H l1 l2 F. induction F; constructor; auto. Qed.
Lemma F2_flip {A B} (R : A -> B -> Prop) l1 l2 : Forall2 R l1 l2 -> Forall2 (fun b a => R a b) l2 l1.
Proof. induction 1; constructor; auto. Qed.
Lemma F2_perm {A B} (R : A -> B -> Prop) l1 l2 m2 : Forall2 R l1 l2 -> Permutation l2 m2 -> exists m1, Permutation l1 m1 /\ Forall2 R m1 m2.
Proof. intros F P. destruct (Permutation_Forall2 P (F2_flip _ _ _ F)) as (m1 & P1 & F1). exists m1. split; [exact P1|]. exact (F2_flip _ _ _ F1). Qed.
Lemma reordered_product a b : reordered a b -> same_product a b.
Proof. intros P. exists (split_list tTimes a), (split_list tTimes b). split; [apply split_cuts|]. split; [apply split_cuts|exact P]. Qed.
Lemma expand_incl arr n r : In r (expand_to arr n) -> In r arr.
Proof.
  unfold expand_to. intros I. assert (forall k, In r (List.concat (repeat arr k)) -> In r arr) as X.
  { induction k as [|k IH]; cbn; [intros []|]. intros J. apply in_app_iff in J as [J|J]; auto. }
  apply (X (n / List.length arr + (if n mod List.length arr =? 0 then 0 else 1))). rewrite <- (firstn_skipn n). apply in_app_iff. now left.
Qed.
(** [sample n k] draws [k] different positions below [n] *)
Definition sampler (sample : nat -> nat -> list nat) : Prop :=
  forall n k, k <= n -> List.length (sample n k) = k /\ NoDup (sample n k) /\ Forall (fun i => i < n) (sample n k).
Lemma augment_in sample times data r : sampler sample -> In r (augment sample times data) ->
  exists p, Permutation p (split_list tPlus data) /\ In r (augment_multiply (combine_slices tPlus p ++ [tE])).
Proof.
  intros Hs I. unfold augment in I. set (all := flat_map _ _) in I.
  assert (In r all) as J.
  { destruct (Nat.ltb_spec times (List.length all)) as [Hl|Hl]; [|eapply expand_incl; eauto].
    apply in_map_iff in I as (i & <- & Hi). destruct (Hs (List.length all) times ltac:(lia)) as (_ & _ & F). rewrite Forall_forall in F. apply nth_In. auto. }
  unfold all in J. apply in_flat_map in J as (s & J1 & J2). apply in_map_iff in J1 as (q & <- & J1). unfold augment_plus in J1. apply in_map_iff in J1 as (p & <- & J1).
  exists p. split; [apply permutation_spec; exact J1|exact J2].
Qed.
Lemma combine_snoc v p : p <> [] -> combine_slices v p ++ [tE] = combine_slices v (removelast p ++ [last p [] ++ [tE]]).
Proof.
  intros N. rewrite (app_removelast_last [] N) at 1. generalize (removelast p) (last p []). clear. intros l x. induction l as [|a l IH]; [cbn [List.app]; rewrite !combine_one; reflexivity|].
  destruct l as [|b l]; cbn [List.app] in *; rewrite !combine_cons, <- IH, <- app_assoc; reflexivity.
Qed.

(** Every training sentence made from an equation is, but for the place of the end symbol, the same sum of the same
    products, with summands and factors in another order. *)
Theorem C133_same_equation sample times data r : sampler sample -> ~ In tE data -> In r (augment sample times data) -> same_sum (without_end r) data.
Proof.
  intros Hs NE I. destruct (augment_in _ _ _ _ Hs I) as (p & P & J). clear I. apply augment_multiply_spec in J.
  assert (p <> []) as Np. { intros ->. apply Permutation_nil in P. exact (split_nonempty _ _ P). }
  assert (Forall (fun q => ~ In tPlus q) p) as Fp by (rewrite P; apply split_free).
  assert (Forall (fun q => ~ In tE q) p) as FE. { rewrite P. rewrite Forall_forall. intros q Iq X. apply NE. eapply split_incl; eauto. }
  rewrite combine_snoc in J by exact Np. rewrite split_combine in J.
  2:{ destruct (removelast p); discriminate. }
  2:{ rewrite (app_removelast_last [] Np) in Fp. apply Forall_app in Fp as [F1 F2]. apply Forall_app. split; [exact F1|]. constructor; [|constructor]. inversion F2; subst.
      intros X. apply in_app_iff in X as [X|[X|[]]]; [auto|discriminate]. }
  apply (F2_map _ without_end without_end reordered reordered_filter) in J. rewrite (eq_sym (split_filter tPlus (fun k => negb (k =? tE)) r eq_refl) : map without_end (split_list tPlus r) = split_list tPlus (without_end r)) in J.
  replace (map without_end (removelast p ++ [last p [] ++ [tE]])) with p in J.
  2:{ rewrite (app_removelast_last [] Np) at 1. rewrite map_app. rewrite (app_removelast_last [] Np) in FE. apply Forall_app in FE as [F1 F2]. f_equal.
      - clear - F1. induction F1; cbn [map]; [reflexivity|]. f_equal; [symmetry; apply without_end_id; assumption|assumption].
      - cbn [map]. f_equal. unfold without_end at 1. rewrite filter_app. cbn. rewrite app_nil_r. symmetry. apply without_end_id. inversion F2; assumption. }
  destruct (F2_perm _ _ _ _ J P) as (m & Pm & Fm).
  exists (split_list tPlus (without_end r)), (split_list tPlus data), m. split; [apply split_cuts|]. split; [apply split_cuts|]. split; [exact Pm|].
  clear - Fm. induction Fm; constructor; [apply reordered_product; assumption|assumption].
Qed.
(** There are exactly [times] sentences for each equation, each beginning with the start symbol. *)
Lemma multiply_nonempty data : augment_multiply data <> [].
Proof.
  unfold augment_multiply. destruct (existsb (Nat.eqb tTimes) data) eqn:E; [|discriminate].
  assert (exists s, In s (split_list tPlus data) /\ existsb (Nat.eqb tTimes) s = true) as (s & I & Es).
  { apply existsb_exists in E as (x & I & Ex). apply Nat.eqb_eq in Ex. subst x. revert I. generalize (split_cuts tPlus data). generalize (split_list tPlus data). induction 1 as [q Nq|q s l Nq C IH]; intros I.
    - exists q. split; [now left|]. apply existsb_exists. exists tTimes. split; [exact I|reflexivity].
    - apply in_app_iff in I as [I|[I|I]]; [|discriminate I|destruct (IH I) as (p & I1 & I2); exists p; split; [now right|exact I2]].
      exists q. split; [now left|]. apply existsb_exists. exists tTimes. split; [exact I|reflexivity]. }
  assert (alternatives s <> []) as Na. { intros X. unfold alternatives in X. apply map_eq_nil in X. assert (In (split_list tTimes s) (permutation (split_list tTimes s))) as Y by (apply permutation_spec; reflexivity). rewrite X in Y. destruct Y. }
  revert I. generalize (split_list tPlus data). clear E. intros l I. assert (forall acc, multiply_loop acc l <> []) as G; [|apply G]. revert I. induction l as [|x l IH]; intros I acc; [destruct I|]. cbn [multiply_loop].
  destruct I as [->|I].
  - rewrite Es. destruct (alternatives s); [congruence|discriminate].
  - destruct (existsb (Nat.eqb tTimes) x); [|apply IH; exact I]. intros X. apply app_eq_nil in X as [_ X]. exact (IH I _ X).
Qed.
Lemma all_nonempty data : flat_map augment_multiply (map (fun s => s ++ [tE]) (augment_plus data)) <> [].
Proof.
  assert (In data (augment_plus data)) as I. { apply C133_every_order. exists (split_list tPlus data), (split_list tPlus data). repeat split; [apply split_cuts|apply split_cuts|reflexivity]. }
  intros X. destruct (augment_multiply (data ++ [tE])) as [|r l] eqn:E; [exact (multiply_nonempty _ E)|].
  assert (In r (flat_map augment_multiply (map (fun s => s ++ [tE]) (augment_plus data)))) as Y.
  { apply in_flat_map. exists (data ++ [tE]). split; [apply (in_map (fun s => s ++ [tE])); exact I|]. rewrite E. now left. }
  rewrite X in Y. destruct Y.
Qed.
Lemma concat_repeat_length {A} (l : list A) k : List.length (List.concat (repeat l k)) = k * List.length l.
Proof. induction k as [|k IH]; cbn; [reflexivity|]. rewrite app_length, IH. reflexivity. Qed.
Lemma augment_length sample times data : sampler sample -> List.length (augment sample times data) = times.
Proof.
  intros Hs. unfold augment. pose proof (all_nonempty data) as N. set (all := flat_map _ _) in *. destruct (Nat.ltb_spec times (List.length all)) as [Hl|Hl].
  - rewrite map_length. apply Hs. lia.
  - unfold expand_to. rewrite firstn_length, concat_repeat_length. assert (0 < List.length all) as H0 by (destruct all; [congruence|cbn; lia]).
    pose proof (Nat.div_mod times (List.length all) ltac:(lia)) as D. pose proof (Nat.mod_upper_bound times (List.length all) ltac:(lia)) as M.
    destruct (Nat.eqb_spec (times mod List.length all) 0) as [E|E]; nia.
Qed.
Theorem C133_counts sample name times rows out : sampler sample -> get_train_dataset sample name times rows = Ok out ->
  List.length out = times * List.length (filter (fun r => negb (String.eqb (fst r) "")) rows) /\ Forall (fun s => hd 0 s = tS) out.
Proof.
  intros Hs E. unfold get_train_dataset in E. destruct (mapM (mapM word_id) (read_dataset "" rows)) as [data|e] eqn:Ed; cbn [bind] in E; [|discriminate]. injection E as <-. split.
  - rewrite map_length. assert (List.length data = List.length (read_dataset "" rows)) as El.
    { revert data Ed. generalize (read_dataset "" rows). induction l as [|x l IH]; intros data Ed; cbn [mapM] in Ed; [injection Ed as <-; reflexivity|].
      destruct (mapM word_id x); cbn [bind] in Ed; [|discriminate]. destruct (mapM (mapM word_id) l); cbn [bind] in Ed; [|discriminate]. injection Ed as <-. cbn. f_equal. apply IH. reflexivity. }
    unfold read_dataset in El. rewrite map_length in El. rewrite <- El. clear - Hs. induction data as [|d data IH]; [cbn; lia|]. cbn [flat_map List.length]. rewrite app_length, IH, augment_length by exact Hs. lia.
  - rewrite Forall_forall. intros s I. apply in_map_iff in I as (x & <- & _). reflexivity.
Qed.
(** When there are at most [times] rearrangements all of them are used; the equation itself (with its end symbol) is among
    the rearrangements. *)
Lemma concat_repeat_head {A} (l : list A) k : 0 < k -> exists r, List.concat (repeat l k) = l ++ r.
Proof. destruct k; [lia|]. intros _. cbn. eauto. Qed.
Theorem C133_all_used sample times data r : let all := flat_map augment_multiply (map (fun s => s ++ [tE]) (augment_plus data)) in
  List.length all <= times -> In r all -> In r (augment sample times data).
Proof.
  intros all Hl I. unfold augment. fold all. destruct (Nat.ltb_spec times (List.length all)); [lia|]. unfold expand_to.
  assert (0 < List.length all) as H0 by (destruct all; [destruct I|cbn; lia]).
  destruct (concat_repeat_head all (times / List.length all + (if times mod List.length all =? 0 then 0 else 1))) as [q Eq].
  { pose proof (Nat.div_str_pos times (List.length all) ltac:(lia)). lia. }
  rewrite Eq. rewrite firstn_app. apply in_app_iff. left. rewrite firstn_all2 by exact Hl. exact I.
Qed.
(** Every sentence has exactly one end symbol. *)
Lemma count_combine x v l : count_occ Nat.eq_dec (combine_slices v l) x = (if Nat.eq_dec v x then List.length l - 1 else 0) + list_sum (map (fun p => count_occ Nat.eq_dec p x) l).
Proof.
  induction l as [|p l IH]; [cbn; destruct (Nat.eq_dec v x); reflexivity|]. destruct l as [|q l]; [rewrite combine_one; cbn; destruct (Nat.eq_dec v x); lia|].
  rewrite combine_cons, count_occ_app. cbn [count_occ]. rewrite IH. cbn [map list_sum fold_right List.length]. destruct (Nat.eq_dec v x); lia.
Qed.
Lemma sum_perm l l' : Permutation l l' -> list_sum l = list_sum l'.
Proof. unfold list_sum. induction 1 as [|x l l' P IH|x y l|l l' l'' P1 IH1 P2 IH2]; cbn [fold_right]; [reflexivity|rewrite IH; reflexivity|lia|congruence]. Qed.
Lemma reordered_count a b : reordered a b -> count_occ Nat.eq_dec a tE = count_occ Nat.eq_dec b tE.
Proof.
  intros P. rewrite <- (combine_split tTimes a), <- (combine_split tTimes b), !count_combine.
  rewrite (Permutation_length P). f_equal. apply sum_perm, Permutation_map. exact P.
Qed.
Theorem C133_one_end sample times data r : sampler sample -> ~ In tE data -> In r (augment sample times data) -> count_occ Nat.eq_dec r tE = 1.
Proof.
  intros Hs NE I. destruct (augment_in _ _ _ _ Hs I) as (p & P & J). apply augment_multiply_spec in J.
  assert (count_occ Nat.eq_dec r tE = count_occ Nat.eq_dec (combine_slices tPlus p ++ [tE]) tE) as ->.
  { set (b := combine_slices tPlus p ++ [tE]) in *. rewrite <- (combine_split tPlus r), <- (combine_split tPlus b), !count_combine. f_equal.
    clear - J. induction J as [|x y l l' R J IH]; [reflexivity|]. unfold list_sum in *. cbn [map fold_right]. rewrite (reordered_count _ _ R), IH. reflexivity. }
  rewrite count_occ_app. cbn. rewrite count_combine. cbn [Nat.eq_dec]. rewrite (sum_perm _ _ (Permutation_map _ P)).
  assert (list_sum (map (fun p0 => count_occ Nat.eq_dec p0 tE) (split_list tPlus data)) = 0) as ->; [|reflexivity].
  assert (forall q, In q (split_list tPlus data) -> count_occ Nat.eq_dec q tE = 0) as Z0. { intros q Iq. apply count_occ_not_In. intros X. apply NE. eapply split_incl; eauto. }
  revert Z0. generalize (split_list tPlus data). clear. induction l as [|q l IH]; intros Z0; [reflexivity|]. cbn. rewrite (Z0 q (or_introl eq_refl)). apply IH. intros; apply Z0; now right.
Qed.
(** Each product is brought into every order of its factors: for summand [i] and each order there is a sentence. *)
Lemma alternatives_all s a : Permutation (split_list tTimes a) (split_list tTimes s) -> In a (alternatives s).
Proof. intros P. unfold alternatives. apply in_map_iff. exists (split_list tTimes a). split; [apply combine_split|]. apply permutation_spec. exact P. Qed.
Lemma multiply_loop_all todo : forall done, Forall (fun p => ~ In tPlus p) done -> Forall (fun p => ~ In tPlus p) todo ->
  forall i a, i < List.length todo -> existsb (Nat.eqb tTimes) (nth i todo []) = true -> reordered a (nth i todo []) ->
  exists r, In r (multiply_loop done todo) /\ nth (List.length done + i) (split_list tPlus r) [] = a.
Proof.
  induction todo as [|s todo IH]; intros done Fd Ft i a Hi Hx R; [cbn in Hi; lia|]. inversion Ft as [|? ? Fs Ft']; subst. cbn [multiply_loop].
  destruct i as [|i]; cbn [nth] in Hx, R.
  - rewrite Hx. exists (combine_slices tPlus (done ++ a :: todo)). split.
    + apply in_app_iff. left. apply (in_map (fun d => combine_slices tPlus (done ++ d :: todo))). apply alternatives_all. exact R.
    + rewrite split_combine; [rewrite Nat.add_0_r, app_nth2, Nat.sub_diag by lia; reflexivity|destruct done; discriminate|].
      apply Forall_app. split; [exact Fd|]. constructor; [|exact Ft']. intros X. apply (reordered_incl a s) in X as [X|X]; [discriminate|auto|exact R].
  - assert (forall x, ~ In tPlus x -> exists r, In r (multiply_loop (done ++ [x]) todo) /\ nth (List.length done + S i) (split_list tPlus r) [] = a) as Step.
    { intros x Nx. destruct (IH (done ++ [x])) with (i := i) (a := a) as (r & I & E); [apply Forall_app; auto|exact Ft'|cbn in Hi; lia|exact Hx|exact R|].
      exists r. split; [exact I|]. rewrite <- E. f_equal. rewrite app_length. cbn. lia. }
    destruct (existsb (Nat.eqb tTimes) s).
    + destruct (Step (last (alternatives s) s)) as (r & I & E). { intros X. apply (reordered_incl _ s) in X as [X|X]; [discriminate|auto|apply alternatives_last]. }
      exists r. split; [apply in_app_iff; right; exact I|exact E].
    + apply (Step s Fs).
Qed.
Theorem C133_every_factor_order data x i a : cuts tPlus data x -> i < List.length x -> In tTimes (nth i x []) -> same_product a (nth i x []) ->
  exists r y, In r (augment_multiply data) /\ cuts tPlus r y /\ nth i y [] = a.
Proof.
  intros C Hi Hx (fa & fb & Ca & Cb & P). apply cuts_fun in C. apply cuts_fun in Ca. apply cuts_fun in Cb. subst x fa fb.
  unfold augment_multiply.
  assert (existsb (Nat.eqb tTimes) data = true) as ->. { apply existsb_exists. exists tTimes. split; [|reflexivity]. eapply split_incl; [apply nth_In; exact Hi|exact Hx]. }
  destruct (multiply_loop_all (split_list tPlus data) [] (Forall_nil _) (split_free _ _) i a Hi) as (r & I & E); [apply existsb_exists; exists tTimes; split; [exact Hx|reflexivity]|exact P|].
  exists r, (split_list tPlus r). split; [exact I|]. split; [apply split_cuts|exact E].
Qed.
(** "The end symbol ends the sentence" is false: swapping the factors of the last product moves it into the middle.  Half of the
    training sentences for a single product of two factors look like this. *)
Theorem C133_end_inside_refuted sample : augment sample 2 [tok "u"; tTimes; tok "ux"] =
  [[tok "u"; tTimes; tok "ux"; tE]; [tok "ux"; tE; tTimes; tok "u"]].
Proof. vm_compute. reflexivity. Qed.
(** "The named equation is left out of the training data" is false: the name has no influence. *)
Theorem C133_name_ignored sample name name' times rows : get_train_dataset sample name times rows = get_train_dataset sample name' times rows.
Proof. reflexivity. Qed.
Theorem C133_left_out_refuted sample : get_train_dataset sample "Burgers" 2 [("Burgers", ["ut"; "+"; "ux"])]%string =
  Ok [[tS; tok "ut"; tPlus; tok "ux"; tE]; [tS; tok "ux"; tPlus; tok "ut"; tE]].
Proof. vm_compute. reflexivity. Qed.
Example C133_case : exists sample, sampler sample /\
  augment sample 3 [6; 2; 7; 3; 8] = [[6; 2; 7; 3; 8; 1]; [6; 2; 8; 1; 3; 7]; [7; 3; 8; 2; 6; 1]] /\ same_sum [6; 2; 8; 3; 7] [6; 2; 7; 3; 8].
Proof.
  exists (fun n k => seq 0 k). split; [|split; [vm_compute; reflexivity|]].
  - intros n k Hk. split; [apply seq_length|]. split; [apply seq_NoDup|]. apply Forall_forall. intros i Hi. apply in_seq in Hi. lia.
  - change [6; 2; 8; 3; 7] with (without_end [6; 2; 8; 1; 3; 7]). apply (C133_same_equation (fun n k => seq 0 k) 3).
    + intros n k Hk. split; [apply seq_length|]. split; [apply seq_NoDup|]. apply Forall_forall. intros i Hi. apply in_seq in Hi. lia.
    + cbn. intuition discriminate.
    + vm_compute. right. left. reflexivity.
Qed.
Print Assumptions C133_every_order.
Print Assumptions C133_same_equation.
Print Assumptions C133_counts.
Print Assumptions C133_all_used.
Print Assumptions C133_one_end.
Print Assumptions C133_end_inside_refuted.
Print Assumptions C133_name_ignored.
Print Assumptions C133_left_out_refuted.
Print Assumptions C133_every_factor_order.
