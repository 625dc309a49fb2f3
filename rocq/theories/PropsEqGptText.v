(** C106: the equation KD_EqGPT reports is the candidate it evaluated, without repeated products. *)
From Coq Require Import QArith Permutation Sorted.
From Verif Require Import Base Num EqGpt PropsEqGpt.
Local Open Scope string_scope.
Local Open Scope nat_scope.
Local Open Scope list_scope.

(** ** Specification *)
(** The products of a sentence: the tokens between plus signs; the factors of a product are every second token. *)
Inductive products : list nat -> list (list nat) -> Prop :=
| prod_one p : ~ In tPlus p -> products p [p]
| prod_more p s ps : ~ In tPlus p -> products s ps -> products (p ++ tPlus :: s) (p :: ps).
(** factors of a product: a, a o b, a o b o c, ... *)
Fixpoint factors (p : list nat) : list nat := match p with [] => [] | [a] => [a] | a :: _ :: r => a :: factors r end.
Definition same_factors (p q : list nat) : Prop := Permutation (factors p) (factors q).
(** [ks] are those of [ps] that have not the factors of an earlier one, in order. *)
Definition without_repeats (ps ks : list (list nat)) : Prop :=
  exists idx, StronglySorted lt idx /\ ks = map (fun i => nth i ps []) idx /\
    forall i, In i idx <-> i < List.length ps /\ forall j, j < i -> ~ same_factors (nth j ps []) (nth i ps []).

(** ** Lemmas *)
Lemma two_step (P : list nat -> Prop) : P [] -> (forall a, P [a]) -> (forall a b r, P r -> P (a :: b :: r)) -> forall l, P l.
Proof. intros H0 H1 H2. fix F 1. intros [|a [|b r]]; [exact H0|apply H1|apply H2, F]. Qed.
Lemma evens_factors p : evens p = factors p.
Proof. induction p as [|a|a b r IH] using two_step; cbn; [reflexivity|reflexivity|f_equal; exact IH]. Qed.
Lemma insert_perm x l : Permutation (insert x l) (x :: l).
Proof. induction l as [|y l IH]; cbn; [reflexivity|]. destruct (x <=? y); [reflexivity|]. rewrite IH. apply perm_swap. Qed.
Lemma sort_perm l : Permutation (sort l) l.
Proof. induction l as [|x l IH]; cbn; [reflexivity|]. rewrite insert_perm. auto. Qed.
Lemma insert_sorted x l : StronglySorted le l -> StronglySorted le (insert x l).
Proof.
  induction 1 as [|y l S IH F]; cbn; [repeat constructor|]. destruct (x <=? y) eqn:E.
  - apply Nat.leb_le in E. constructor; [constructor; auto|]. constructor; [exact E|]. eapply Forall_impl; [|exact F]. cbn. intros. lia.
  - apply Nat.leb_gt in E. constructor; [exact IH|]. rewrite Forall_forall in *. intros z Hz. apply (Permutation_in _ (insert_perm x l)) in Hz as [<-|Hz]; [lia|auto].
Qed.
Lemma sort_sorted l : StronglySorted le (sort l).
Proof. induction l as [|x l IH]; cbn; [constructor|]. apply insert_sorted. exact IH. Qed.
Lemma sorted_unique : forall a b, StronglySorted le a -> StronglySorted le b -> Permutation a b -> a = b.
Proof.
  induction a as [|x a IH]; intros b Sa Sb P.
  - apply Permutation_nil in P. congruence.
  - destruct b as [|y b]; [symmetry in P; apply Permutation_nil in P; discriminate|]. apply StronglySorted_inv in Sa as [Sa Fa], Sb as [Sb Fb]. rewrite Forall_forall in *.
    assert (x = y). { assert (In x (y :: b)) as [|X] by (eapply Permutation_in; [exact P|now left]); [congruence|]. assert (In y (x :: a)) as [|Y] by (eapply Permutation_in; [symmetry; exact P|now left]); [congruence|].
      specialize (Fa _ Y). specialize (Fb _ X). lia. }
    subst y. f_equal. apply IH; auto. eapply Permutation_cons_inv; eauto.
Qed.
Lemma key_same p q : key p = key q <-> same_factors p q.
Proof.
  unfold key, same_factors. rewrite !evens_factors. split; intros H.
  - rewrite <- (sort_perm (factors p)), H. apply sort_perm.
  - apply sorted_unique; try apply sort_sorted. rewrite (sort_perm (factors p)), (sort_perm (factors q)). exact H.
Qed.
Lemma list_eqb_spec a b : list_eqb a b = true <-> a = b.
Proof. unfold list_eqb. destruct (list_eq_dec Nat.eq_dec a b); split; congruence. Qed.
Lemma existsb_key seen k : existsb (list_eqb k) seen = true <-> In k seen.
Proof. rewrite existsb_exists. split; [intros (x & I & E); apply list_eqb_spec in E; subst; exact I|intros I; exists k; split; [exact I|apply list_eqb_spec; reflexivity]]. Qed.

Lemma split_products s : products s (split_plus s).
Proof.
  induction s as [|k s IH]; cbn [split_plus]; [constructor; intros []|].
  destruct (split_plus s) as [|seg r] eqn:E; [inversion IH|]. destruct (k =? tPlus) eqn:K.
  - apply Nat.eqb_eq in K. subst k. apply (prod_more [] s); [intros []|exact IH].
  - apply Nat.eqb_neq in K. inversion IH as [p N|p s' ps N H]; subst.
    + apply (prod_one (k :: seg)). intros [X|X]; auto.
    + apply (prod_more (k :: seg) s' r); [intros [X|X]; auto|exact H].
Qed.
Lemma products_fun s ps : products s ps -> ps = split_plus s.
Proof.
  induction 1 as [p N|p s ps N H IH].
  - induction p as [|k p IH]; [reflexivity|]. cbn [split_plus]. rewrite <- IH by (intros X; apply N; now right).
    destruct (k =? tPlus) eqn:K; [apply Nat.eqb_eq in K; exfalso; apply N; left; auto|reflexivity].
  - subst ps. clear H. induction p as [|k p IH]; cbn [app split_plus].
    + destruct (split_plus s) as [|seg r] eqn:E; [destruct s as [|k s]; cbn in E; [discriminate|destruct (split_plus s); [discriminate|destruct (k =? tPlus); discriminate]]|]. reflexivity.
    + rewrite <- IH by (intros X; apply N; now right). destruct (k =? tPlus) eqn:K; [apply Nat.eqb_eq in K; exfalso; apply N; left; auto|reflexivity].
Qed.
Lemma products_no_plus s ps : products s ps -> Forall (fun p => ~ In tPlus p) ps /\ ps <> [].
Proof. induction 1 as [p N|p s ps N H [IH _]]; split; try discriminate; repeat constructor; auto. Qed.
(** join_plus is the inverse of splitting *)
Lemma join_cons p q ps : join_plus (p :: q :: ps) = p ++ tPlus :: join_plus (q :: ps).
Proof.
  unfold join_plus. cbn [map List.concat]. rewrite <- app_assoc. cbn [app]. set (X := (q ++ [tPlus]) ++ List.concat (map (fun s => s ++ [tPlus]) ps)).
  assert (X <> []) by (unfold X; destruct q; discriminate). rewrite removelast_app by discriminate. f_equal. cbn [removelast]. destruct X; [congruence|reflexivity].
Qed.
Lemma join_one p : join_plus [p] = p.
Proof. unfold join_plus. cbn. rewrite app_nil_r. apply removelast_last. Qed.
Lemma join_products ps : Forall (fun p => ~ In tPlus p) ps -> ps <> [] -> products (join_plus ps) ps.
Proof.
  induction 1 as [|p ps N F IH]; [congruence|]. intros _. destruct ps as [|q ps]; [rewrite join_one; constructor; exact N|]. rewrite join_cons. constructor; [exact N|apply IH; discriminate].
Qed.
Lemma join_split s : join_plus (split_plus s) = s.
Proof.
  assert (forall s ps, products s ps -> join_plus ps = s) as X; [|apply X, split_products]. clear s. induction 1 as [p N|p s ps N H IH]; [apply join_one|].
  destruct ps as [|q ps]; [inversion H|]. rewrite join_cons, IH. reflexivity.
Qed.

(** the kept products *)
Local Arguments key : simpl never.
Lemma keep_positions segs : forall seen, exists idx, StronglySorted lt idx /\ keep seen segs = map (fun i => nth i segs []) idx /\
  forall i, In i idx <-> i < List.length segs /\ ~ In (key (nth i segs [])) seen /\ forall j, j < i -> key (nth j segs []) <> key (nth i segs []).
Proof.
  induction segs as [|s segs IH]; intros seen; cbn [keep].
  - exists []. split; [constructor|]. split; [reflexivity|]. intros i. cbn. split; [intros []|lia].
  - destruct (existsb (list_eqb (key s)) seen) eqn:E.
    + apply existsb_key in E. destruct (IH seen) as (idx & So & K & M). exists (map S idx). split; [|split].
      * clear - So. induction So as [|i idx So IH F]; cbn; constructor; auto. rewrite Forall_forall in *. intros x Hx. apply in_map_iff in Hx as (y & <- & Hy). specialize (F y Hy). lia.
      * rewrite K, map_map. reflexivity.
      * intros i. rewrite in_map_iff. split.
        -- intros (j & <- & Hj). apply M in Hj as (A & B & C). cbn. split; [lia|]. split; [exact B|]. intros [|k] Hk; cbn; [intros X; apply B; rewrite <- X; exact E|apply C; lia].
        -- intros (A & B & C). destruct i as [|i]; [cbn in B; tauto|]. exists i. split; [reflexivity|]. apply M. cbn in A, B. split; [lia|]. split; [exact B|]. intros j Hj. apply (C (S j)). lia.
    + destruct (IH (seen ++ [key s])) as (idx & So & K & M). exists (0 :: map S idx). split; [|split].
      * constructor; [|apply Forall_forall; intros x Hx; apply in_map_iff in Hx as (y & <- & Hy); lia].
        clear - So. induction So as [|i idx So IH F]; cbn; constructor; auto. rewrite Forall_forall in *. intros x Hx. apply in_map_iff in Hx as (y & <- & Hy). specialize (F y Hy). lia.
      * cbn [map nth]. rewrite K, map_map. reflexivity.
      * intros i. cbn [In]. rewrite in_map_iff. split.
        -- intros [<-|(j & <- & Hj)].
           ++ cbn. split; [lia|]. split; [intros X; apply existsb_key in X; congruence|lia].
           ++ apply M in Hj as (A & B & C). cbn. split; [lia|]. rewrite in_app_iff in B. split; [tauto|]. intros [|k] Hk; cbn; [intros X; apply B; right; left; exact X|apply C; lia].
        -- intros (A & B & C). destruct i as [|i]; [now left|]. right. exists i. split; [reflexivity|]. apply M. cbn in A, B. split; [lia|]. split.
           ++ rewrite in_app_iff. intros [X|[X|[]]]; [tauto|]. apply (C 0 ltac:(lia)). exact X.
           ++ intros j Hj. apply (C (S j)). lia.
Qed.
Lemma keep_spec segs : without_repeats segs (keep [] segs).
Proof.
  destruct (keep_positions segs []) as (idx & S & K & M). exists idx. split; [exact S|]. split; [exact K|]. intros i. rewrite M. split.
  - intros (A & _ & C). split; [exact A|]. intros j Hj X. apply key_same in X. exact (C j Hj X).
  - intros (A & C). split; [exact A|]. split; [intros []|]. intros j Hj X. apply key_same in X. exact (C j Hj X).
Qed.
Lemma keep_nonempty segs : segs <> [] -> keep [] segs <> [].
Proof. destruct segs; [congruence|]. cbn. discriminate. Qed.
Lemma keep_incl segs : forall seen, incl (keep seen segs) segs.
Proof. induction segs as [|s segs IH]; intros seen x; cbn; [tauto|]. destruct (existsb _ seen); [intros H; right; eapply IH; eauto|intros [<-|H]; [now left|right; eapply IH; eauto]]. Qed.
Lemma keep_all segs : forall seen, (forall i, i < List.length segs -> ~ In (key (nth i segs [])) seen) -> (forall i j, j < i < List.length segs -> key (nth j segs []) <> key (nth i segs [])) -> keep seen segs = segs.
Proof.
  induction segs as [|s segs IH]; intros seen A B; cbn; [reflexivity|]. destruct (existsb (list_eqb (key s)) seen) eqn:E; [apply existsb_key in E; exfalso; apply (A 0); [cbn; lia|exact E]|].
  f_equal. apply IH.
  - intros i Hi. rewrite in_app_iff. intros [X|[X|[]]]; [apply (A (S i)); [cbn; lia|exact X]|]. apply (B (S i) 0); [cbn; lia|exact X].
  - intros i j Hij. apply (B (S i) (S j)). cbn. lia.
Qed.
Lemma keep_keys segs : forall seen k, In k (map key (keep seen segs)) -> ~ In k seen.
Proof.
  induction segs as [|s segs IH]; intros seen k; cbn; [tauto|]. destruct (existsb (list_eqb (key s)) seen) eqn:E; [apply IH|]. cbn. intros [<-|H].
  - intros X. apply existsb_key in X. congruence.
  - apply IH in H. rewrite in_app_iff in H. tauto.
Qed.
Lemma keep_nodup segs : forall seen, NoDup (map key (keep seen segs)).
Proof.
  induction segs as [|s segs IH]; intros seen; cbn; [constructor|]. destruct (existsb (list_eqb (key s)) seen); [apply IH|]. cbn. constructor; [|apply IH].
  intros X. apply keep_keys in X. apply X. apply in_app_iff. right. now left.
Qed.
Lemma keep_idem segs : keep [] (keep [] segs) = keep [] segs.
Proof.
  apply keep_all; [intros i _ []|]. intros i j H X. pose proof (keep_nodup segs []) as N. 
  assert (E : j = i); [|lia]. eapply (NoDup_nth (map key (keep [] segs)) (key [])); [exact N|rewrite map_length; lia|rewrite map_length; lia|]. rewrite !map_nth. exact X.
Qed.
Lemma kept_no_plus s : Forall (fun p => ~ In tPlus p) (keep [] (split_plus s)) /\ keep [] (split_plus s) <> [].
Proof.
  destruct (products_no_plus _ _ (split_products s)) as [F N]. split; [|apply keep_nonempty; exact N]. rewrite Forall_forall in *. intros p Hp. apply F. eapply keep_incl; eauto.
Qed.
Lemma chop_end l : chop (l ++ [tE]) = l.
Proof. unfold chop. rewrite last_last, Nat.eqb_refl. apply removelast_last. Qed.
Lemma dd_idem s : delete_duplicate (delete_duplicate s) = delete_duplicate s.
Proof.
  unfold delete_duplicate at 1. unfold delete_duplicate at 1. rewrite chop_end. destruct (kept_no_plus (chop s)) as [F N].
  rewrite <- (products_fun _ _ (join_products _ F N)), keep_idem. reflexivity.
Qed.
(** the tokens reported for a stored candidate *)
Definition reported (s : list nat) : list nat := removelast (tl (format_tokens s)).
Lemma reported_eq s : ~ In tS s -> reported s = join_plus (keep [] (split_plus (chop s))).
Proof.
  intros N. unfold reported, format_tokens, delete_duplicate. rewrite last_last, Nat.eqb_refl, removelast_last.
  assert (X : existsb (Nat.eqb tS) (join_plus (keep [] (split_plus (chop s)))) = false).
  { apply not_true_iff_false. intros X. apply existsb_exists in X as (y & I & E). apply Nat.eqb_eq in E. subst y. apply N.
    assert (C : forall p, In p (split_plus (chop s)) -> incl p s).
    { intros p Hp y Hy. assert (Y : In y (chop s)). { rewrite <- (join_split (chop s)). revert Hp Hy. generalize (split_plus (chop s)). clear. intros ps Hp Hy. induction ps as [|q ps IH]; [destruct Hp|].
        destruct ps as [|r ps]; [destruct Hp as [<-|[]]; rewrite join_one; exact Hy|]. rewrite join_cons. apply in_app_iff. destruct Hp as [<-|Hp]; [now left|right; right; auto]. }
      unfold chop in Y. destruct (last s 0 =? tE); [|exact Y]. destruct s as [|x s] using rev_ind; [exact Y|]. rewrite removelast_last in Y. apply in_app_iff. now left. }
    assert (D : forall ps, (forall p, In p ps -> incl p s) -> In tS (join_plus ps) -> In tS s).
    { clear. induction ps as [|q ps IH]; intros C H; [destruct H|]. destruct ps as [|r ps]; [rewrite join_one in H; apply (C q); [now left|exact H]|].
      rewrite join_cons in H. apply in_app_iff in H as [H|[H|H]]; [apply (C q); [now left|exact H]|discriminate|]. apply IH; [|exact H]. intros p Hp. apply C. now right. }
    apply (D (keep [] (split_plus (chop s)))); [|exact I]. intros p Hp. apply C. eapply keep_incl; eauto. }
  rewrite X. cbn [tl]. apply removelast_last.
Qed.
Lemma concat_app_str a b : (String.concat "" (a ++ b) = String.concat "" a ++ String.concat "" b)%string.
Proof.
  assert (N : forall s, (s ++ "" = s)%string) by (induction s; cbn; congruence).
  assert (C : forall x l, String.concat "" (x :: l) = (x ++ String.concat "" l)%string) by (intros x [|y l]; cbn; [rewrite N; reflexivity|reflexivity]).
  assert (As : forall x y z, ((x ++ y) ++ z = x ++ (y ++ z))%string) by (induction x; intros; cbn; congruence).
  induction a as [|x a IH]; [reflexivity|]. change ((x :: a) ++ b) with (x :: (a ++ b)). rewrite !C, IH, As. reflexivity.
Qed.
Definition product_text (p : list nat) : string := String.concat "" (map word p).
Lemma join_text ps : ps <> [] -> String.concat "" (map word (join_plus ps)) = String.concat "+" (map product_text ps).
Proof.
  induction ps as [|p ps IH]; [congruence|]. intros _. destruct ps as [|q ps]; [rewrite join_one; reflexivity|]. rewrite join_cons, map_app, concat_app_str.
  change (map word (tPlus :: join_plus (q :: ps))) with ("+" :: map word (join_plus (q :: ps))).
  change ("+" :: map word (join_plus (q :: ps))) with (["+"] ++ map word (join_plus (q :: ps))). rewrite concat_app_str, IH by discriminate. reflexivity.
Qed.

(** ** Theorems *)
(** The text reported for a stored candidate is its products, each written once (the first with the same factors stays), joined by "+". *)
Theorem C106_reported_text s ps : products s ps -> ~ In tE s -> ~ In tS s ->
  exists ks, without_repeats ps ks /\ equation_text s = String.concat "+" (map (fun p => String.concat "" (map word p)) ks).
Proof.
  intros P NE NS. assert (chop s = s) as C. { unfold chop. destruct (last s 0 =? tE) eqn:E; [|reflexivity]. apply Nat.eqb_eq in E. destruct s as [|x s] using rev_ind; [discriminate|]. rewrite last_last in E. exfalso. apply NE. apply in_app_iff. right. now left. }
  exists (keep [] ps). rewrite (products_fun _ _ P). split; [apply keep_spec|].
  change (equation_text s) with (String.concat "" (map word (reported s))). rewrite (reported_eq s NS), C. apply join_text. apply kept_no_plus.
Qed.
(** The reward of a candidate, as drawn or as stored, is the reward of the equation reported for it. *)
Theorem C106_reward_is_of_reported_equation lsq lg cases vars s : ~ In tS s ->
  reward lsq lg cases vars s = reward lsq lg cases vars (reported s ++ [tE]) /\
  (~ In tE (chop s) -> reward lsq lg cases vars (chop s) = reward lsq lg cases vars s /\ reported (chop s) = reported s).
Proof.
  intros N. split.
  - rewrite (reported_eq s N). fold (delete_duplicate s). unfold reward. rewrite dd_idem. reflexivity.
  - intros NE. assert (chop (chop s) = chop s) as C.
    { unfold chop at 1. destruct (last (chop s) 0 =? tE) eqn:E; [|reflexivity]. apply Nat.eqb_eq in E. destruct (chop s) as [|x q _] using rev_ind; [discriminate|]. rewrite last_last in E. exfalso. apply NE. apply in_app_iff. right. now left. }
    assert (D : delete_duplicate (chop s) = delete_duplicate s) by (unfold delete_duplicate; rewrite C; reflexivity). split.
    + unfold reward. rewrite D. reflexivity.
    + unfold reported, format_tokens. rewrite D. reflexivity.
Qed.
(** Every stored candidate of a run: its reward belongs to the equation reported for it. *)
Theorem C106_run lsq lg cases epochs ls : sample_all lsq lg cases variables (mask_of variables) epochs = Some ls ->
  forall e s r, In e ls -> In (s, r) e -> ~ In tE s /\ ~ In tS s /\ r = reward lsq lg cases variables (reported s ++ [tE]) /\
    exists rest, products s ([tUt] :: rest).
Proof.
  intros H e s r Ie Ip. destruct (C105_run _ _ _ _ _ H e s r Ie Ip) as (F & L & K). destruct (sample_all_masks _ _ _ _ _ _ _ H e _ Ie Ip) as (d & s0 & mask' & C & E & M). injection E as -> ->.
  assert (NE : forall k, k = tE \/ k = tS -> ~ In k (chop s0)).
  { intros k Hk I. apply In_nth_error in I as [i I]. destruct (Nat.lt_ge_cases i 2) as [B|B].
    - destruct (chop s0) as [|a [|b q]]; cbn in F; try discriminate. injection F as -> ->. destruct i as [|[|i]]; cbn in I; try lia; injection I as <-; unfold tE, tS, tUt, tPlus in Hk; lia.
    - specialize (K i k B I). destruct (Nat.even i); unfold is_term, tE, tS in *; lia. }
  assert (NS0 : ~ In tS s0).
  { intros I. destruct (chop s0) as [|a q] eqn:Q; [discriminate|]. apply (NE tS); [now right|]. rewrite <- Q. unfold chop. destruct (last s0 0 =? tE) eqn:B; [|exact I]. clear - I B.
    destruct s0 as [|x s0] using rev_ind; [destruct I|]. rewrite removelast_last. rewrite last_last in B. apply Nat.eqb_eq in B. apply in_app_iff in I as [I|[I|[]]]; [exact I|]. subst x. discriminate. }
  split; [apply NE; now left|]. split; [apply NE; now right|]. split.
  - destruct (C106_reward_is_of_reported_equation lsq lg cases variables s0 NS0) as [A B]. destruct (B (NE tE (or_introl eq_refl))) as [_ B2]. rewrite B2. exact A.
  - destruct (chop s0) as [|a [|b q]] eqn:Q; cbn in F; try discriminate. injection F as -> ->. exists (split_plus q). apply (prod_more [tUt] q); [cbn; unfold tUt, tPlus; lia|apply split_products].
Qed.
(** "Different products are different terms" is false: a product and a quotient of the same factors count as repeats, and so do the two
    quotients; the second is neither evaluated nor reported. *)
Theorem C106_quotient_dropped_refuted lsq lg cases :
  exists draws s, candidate (mask_of variables) draws = Some s /\
    s = [tok "ut"; tPlus; tok "u"; tTimes; tok "ux"; tPlus; tok "u"; tDiv; tok "ux"; tPlus; tok "ux"; tDiv; tok "u"; tE] /\
    equation_text (chop s) = "ut+u*ux" /\
    reward lsq lg cases variables s = reward lsq lg cases variables [tok "ut"; tPlus; tok "u"; tTimes; tok "ux"; tE].
Proof.
  exists [7; 3; 8; 2; 7; 4; 8; 2; 8; 4; 7; 1], [6; 2; 7; 3; 8; 2; 7; 4; 8; 2; 8; 4; 7; 1]. repeat split; vm_compute; reflexivity.
Qed.
(** "Every reported equation is complete" is false: a candidate cut off at 48 tokens is reported with a dangling operator, its
    reward is 0. *)
Theorem C106_dangling_operator_refuted lsq lg cases : exists draws s, candidate (mask_of variables) draws = Some s /\ equation_text (chop s) = "ut+u+" /\ reward lsq lg cases variables s = Fin 0.
Proof.
  exists (List.concat (List.repeat [7; 2] 23)). eexists. split; [vm_compute; reflexivity|]. split; vm_compute; reflexivity.
Qed.
Example C106_case : equation_text [6; 2; 8; 3; 7; 2; 9; 2; 7; 3; 8] = "ut+ux*u+uxx" /\ products [6; 2; 8; 3; 7; 2; 9; 2; 7; 3; 8] [[6]; [8; 3; 7]; [9]; [7; 3; 8]].
Proof. split; [vm_compute; reflexivity|]. rewrite (products_fun _ _ (split_products [6; 2; 8; 3; 7; 2; 9; 2; 7; 3; 8])) at 1. exact (split_products [6; 2; 8; 3; 7; 2; 9; 2; 7; 3; 8]). Qed.
Print Assumptions C106_reported_text.
Print Assumptions C106_reward_is_of_reported_equation.
Print Assumptions C106_run.
Print Assumptions C106_quotient_dropped_refuted.
Print Assumptions C106_dangling_operator_refuted.
