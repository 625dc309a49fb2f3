(** C107: KD_EqGPT reports the best different rewards of all epochs. *)
From Coq Require Import QArith Permutation Sorted.
From Verif Require Import Base Num EqGpt PropsEqGpt PropsEqGptText.
Local Open Scope string_scope.
Local Open Scope nat_scope.
Local Open Scope list_scope.

(** ** Specification *)
(** One representative of equal floats, and the number of different ones *)
Definition canon (a : num) : num := match a with Fin q => Fin (Qred q) | _ => a end.
Definition num_dec (a b : num) : {a = b} + {a <> b}.
Proof. decide equality. destruct q as [n d], q0 as [n' d']. destruct (Z.eq_dec n n'); [destruct (Pos.eq_dec d d')|]; [left|right|right]; congruence. Defined.
Definition count_different (l : list num) : nat := List.length (nodup num_dec (map canon l)).
Definition descending {A} (l : list (A * num)) : Prop := StronglySorted (fun p q => nle (snd q) (snd p) = true) l.
(** torch.topk over the whole epoch: the samples, greatest reward first; ties in any order *)
Definition topk_of {A} (samples ranked : list (A * num)) : Prop :=
  Permutation samples ranked /\ descending ranked.
Definition no_nan {A} (l : list (A * num)) : Prop := forall p, In p l -> is_nan (snd p) = false.
Definition decreasing {A} (l : list (A * num)) : Prop := StronglySorted (fun p q => nlt (snd q) (snd p) = true) l.

(** ** Lemmas *)
Lemma num_eqb_iff a b : num_eqb a b = true <-> neq a b.
Proof. unfold num_eqb, neq. rewrite andb_true_iff. tauto. Qed.
Lemma canon_iff a b : is_nan a = false -> is_nan b = false -> (canon a = canon b <-> neq a b).
Proof.
  destruct a, b; cbn; intros A B; try discriminate; split; intros H; try discriminate; try (split; reflexivity); try reflexivity; try (destruct H; discriminate).
  - injection H as H. assert (E : q == q0) by (rewrite <- (Qred_correct q), <- (Qred_correct q0), H; reflexivity). split; apply Qle_bool_iff; rewrite E; apply Qle_refl.
  - destruct H as [X Y]. cbn in X, Y. apply Qle_bool_iff in X, Y. f_equal. apply Qred_complete. apply Qle_antisym; assumption.
Qed.
Lemma nlt_irrefl a : nlt a a = false.
Proof. unfold nlt. destruct (is_nan a) eqn:E; [reflexivity|]. rewrite (nle_refl a E). reflexivity. Qed.
Lemma neq_not_nlt a b : neq a b -> nlt a b = false.
Proof. intros [_ H]. apply nle_not_nlt. exact H. Qed.
Lemma nlt_trans a b c : nlt a b = true -> nlt b c = true -> nlt a c = true.
Proof. intros H K. eapply nlt_nle_trans; [exact H|]. apply nlt_nle. exact K. Qed.

Section L.
Context {A : Type}.
Implicit Types l best ranked got xs : list (A * num).
Implicit Types x : A * num.
Definition shown l (r : num) : Prop := (exists q, In q l /\ neq (snd q) r) \/ forall q, In q l -> nlt r (snd q) = true.

Lemma decreasing_canon l : decreasing l -> no_nan l -> NoDup (map (fun p => canon (snd p)) l).
Proof.
  induction 1 as [|p l So IH F]; intros N; cbn; constructor.
  - intros X. apply in_map_iff in X as (q & E & I). rewrite Forall_forall in F. specialize (F q I). apply canon_iff in E; [|apply N; now right|apply N; now left]. rewrite (neq_not_nlt _ _ E) in F. discriminate.
  - apply IH. intros q Hq. apply N. now right.
Qed.
(** picking *)
Lemma pick_spec ranked : forall got, List.length got < 10 -> decreasing got -> no_nan got -> no_nan ranked -> descending ranked ->
  (forall p g, In p ranked -> In g got -> nle (snd p) (snd g) = true) ->
  decreasing (pick ranked got) /\ incl (pick ranked got) (got ++ ranked) /\ incl got (pick ranked got) /\ List.length (pick ranked got) <= 10 /\
  forall p, In p ranked -> (exists q, In q (pick ranked got) /\ neq (snd q) (snd p)) \/ List.length (pick ranked got) = 10 /\ forall q, In q (pick ranked got) -> nlt (snd p) (snd q) = true.
Proof.
  induction ranked as [|[s a] r IH]; intros got L D Ng Nr So LE; cbn [pick].
  - rewrite app_nil_r. split; [exact D|]. split; [apply incl_refl|]. split; [apply incl_refl|]. split; [lia|]. intros p [].
  - set (got' := if existsb (fun g => num_eqb (snd g) a) got then got else got ++ [(s, a)]).
    apply StronglySorted_inv in So as [So F]. rewrite Forall_forall in F.
    assert (Na : is_nan a = false) by (apply (Nr (s, a)); now left).
    assert (Q : decreasing got' /\ no_nan got' /\ incl got got' /\ incl got' (got ++ (s, a) :: r) /\ List.length got' <= 10 /\ (exists q, In q got' /\ neq (snd q) a) /\ (forall p g, In p r -> In g got' -> nle (snd p) (snd g) = true)).
    { unfold got'. destruct (existsb (fun g => num_eqb (snd g) a) got) eqn:E.
      - split; [exact D|]. split; [exact Ng|]. split; [apply incl_refl|]. split; [apply incl_appl, incl_refl|]. split; [lia|]. split.
        + apply existsb_exists in E as (q & I & E). apply num_eqb_iff in E. eauto.
        + intros p g Hp Hg. apply LE; [now right|exact Hg].
      - assert (X : forall g, In g got -> nlt a (snd g) = true).
        { intros g Hg. assert (Y : nle a (snd g) = true) by (apply (LE (s, a)); [now left|exact Hg]). apply not_nle_nlt; [apply Ng; exact Hg|exact Na|]. apply not_true_iff_false. intros Z.
          rewrite <- not_true_iff_false in E. apply E. apply existsb_exists. exists g. split; [exact Hg|]. apply num_eqb_iff. split; assumption. }
        split. { clear - D X. induction D as [|g got So IH F]; cbn; [repeat constructor|]. constructor; [apply IH; intros q Hq; apply X; now right|]. apply Forall_app. split; [exact F|]. constructor; [|constructor]. apply X. now left. }
        split. { intros p Hp. apply in_app_iff in Hp as [Hp|[<-|[]]]; [apply Ng; exact Hp|exact Na]. }
        split; [apply incl_appl, incl_refl|]. split. { intros p Hp. apply in_app_iff in Hp. apply in_app_iff. destruct Hp as [Hp|[<-|[]]]; [now left|right; now left]. }
        split; [rewrite app_length; cbn; lia|]. split.
        + exists (s, a). split; [apply in_app_iff; right; now left|]. apply neq_refl. exact Na.
        + intros p g Hp Hg. apply in_app_iff in Hg as [Hg|[<-|[]]]; [apply LE; [now right|exact Hg]|apply F; exact Hp]. }
    destruct Q as (D' & N' & I1 & I2 & L' & EX & LE').
    destruct (List.length got' =? 10) eqn:T.
    + apply Nat.eqb_eq in T. split; [exact D'|]. split; [exact I2|]. split; [exact I1|]. split; [lia|]. intros p [<-|Hp]; [left; exact EX|].
      destruct (existsb (fun g => num_eqb (snd g) (snd p)) got') eqn:E.
      * left. apply existsb_exists in E as (q & I & E). apply num_eqb_iff in E. eauto.
      * right. split; [exact T|]. intros q Hq. apply not_nle_nlt; [apply N'; exact Hq|apply Nr; now right|]. apply not_true_iff_false. intros Z.
        rewrite <- not_true_iff_false in E. apply E. apply existsb_exists. exists q. split; [exact Hq|]. apply num_eqb_iff. split; [exact Z|apply LE'; assumption].
    + apply Nat.eqb_neq in T. destruct (IH got') as (R1 & R2 & R3 & R4 & R5); auto; [lia|intros p Hp; apply Nr; now right|].
      split; [exact R1|]. split.
      { intros p Hp. apply R2 in Hp. apply in_app_iff in Hp as [Hp|Hp]; [apply I2; exact Hp|]. apply in_app_iff. right. now right. }
      split; [eapply incl_tran; eauto|]. split; [exact R4|]. intros p [<-|Hp]; [|apply R5; exact Hp].
      left. destruct EX as (q & I & E). exists q. split; [apply R3; exact I|exact E].
Qed.
Lemma find_spec ranked : no_nan ranked -> descending ranked ->
  decreasing (find_min_no_repeat ranked) /\ incl (find_min_no_repeat ranked) ranked /\ List.length (find_min_no_repeat ranked) <= 10 /\
  forall p, In p ranked -> (exists q, In q (find_min_no_repeat ranked) /\ neq (snd q) (snd p)) \/ List.length (find_min_no_repeat ranked) = 10 /\ forall q, In q (find_min_no_repeat ranked) -> nlt (snd p) (snd q) = true.
Proof.
  intros N So. destruct (pick_spec ranked []) as (R1 & R2 & R3 & R4 & R5); [cbn; lia|constructor|intros ? []|exact N|exact So|intros ? ? ? []|]. auto.
Qed.
Lemma count_perm (a b : list num) : Permutation a b -> count_different a = count_different b.
Proof.
  intros P. unfold count_different. apply Nat.le_antisymm; apply NoDup_incl_length; try apply NoDup_nodup; intros x Hx; apply nodup_In; apply nodup_In in Hx; (eapply Permutation_in; [|exact Hx]); apply Permutation_map; [exact P|symmetry; exact P].
Qed.
Lemma find_length ranked : no_nan ranked -> descending ranked ->
  List.length (find_min_no_repeat ranked) = Nat.min 10 (count_different (map snd ranked)).
Proof.
  intros N So. destruct (find_spec ranked N So) as (D & I & L & C). set (f := find_min_no_repeat ranked) in *.
  assert (Nf : no_nan f) by (intros p Hp; apply N, I, Hp). pose proof (decreasing_canon f D Nf) as ND.
  assert (U : List.length f <= count_different (map snd ranked)).
  { rewrite <- (map_length (fun p => canon (snd p)) f). apply NoDup_incl_length; [exact ND|]. intros x Hx. apply nodup_In. rewrite map_map. apply in_map_iff in Hx as (p & <- & Hp). apply in_map_iff. exists p. split; [reflexivity|apply I; exact Hp]. }
  destruct (Nat.eq_dec (List.length f) 10) as [T|T]; [lia|]. 
  assert (V : count_different (map snd ranked) <= List.length f); [|lia].
  rewrite <- (map_length (fun p => canon (snd p)) f). apply NoDup_incl_length; [apply NoDup_nodup|]. intros x Hx. apply nodup_In in Hx. rewrite map_map in Hx. apply in_map_iff in Hx as (p & <- & Hp).
  destruct (C p Hp) as [(q & Iq & E)|[X _]]; [|congruence]. apply in_map_iff. exists q. split; [|exact Iq]. apply canon_iff; [apply Nf; exact Iq|apply N; exact Hp|exact E].
Qed.
(** inserting *)
Lemma insert_before_spec x l : decreasing l -> no_nan l -> is_nan (snd x) = false -> (exists y, In y l /\ nlt (snd y) (snd x) = true) -> (forall y, In y l -> ~ neq (snd x) (snd y)) ->
  decreasing (insert_before x l) /\ Permutation (insert_before x l) (x :: l).
Proof.
  intros D N Nx EX NE. induction D as [|y l So IH F]; [destruct EX as (y & [] & _)|]. cbn [insert_before]. destruct (nlt (snd y) (snd x)) eqn:E.
  - split; [|reflexivity]. constructor; [constructor; assumption|]. constructor; [exact E|]. rewrite Forall_forall in *. intros z Hz. eapply nlt_trans; [apply F; exact Hz|exact E].
  - assert (XY : nlt (snd x) (snd y) = true).
    { apply not_nle_nlt; [apply N; now left|exact Nx|]. apply not_true_iff_false. intros Z. apply (NE y); [now left|]. split; [|exact Z]. apply not_nlt_nle; [apply N; now left|exact Nx|exact E]. }
    destruct IH as [D' P]; [intros z Hz; apply N; now right| |intros z Hz; apply NE; now right|].
    { destruct EX as (z & [<-|Hz] & Lz); [congruence|eauto]. }
    split; [|rewrite P; apply perm_swap]. constructor; [exact D'|]. rewrite Forall_forall in *. intros z Hz. apply (Permutation_in _ P) in Hz as [<-|Hz]; [exact XY|apply F; exact Hz].
Qed.
Lemma decreasing_last l z : decreasing (l ++ [z]) -> decreasing l /\ forall y, In y l -> nlt (snd z) (snd y) = true.
Proof.
  induction l as [|x l IH]; cbn; intros D; [split; [constructor|intros ? []]|]. apply StronglySorted_inv in D as [D F]. destruct (IH D) as [D' LE]. apply Forall_app in F as [F1 F2].
  split; [constructor; assumption|]. intros y [<-|Hy]; [inversion F2; assumption|apply LE; exact Hy].
Qed.
Lemma offer_spec best x : decreasing best -> no_nan best -> is_nan (snd x) = false ->
  decreasing (offer best x) /\ incl (offer best x) (x :: best) /\ List.length (offer best x) = List.length best /\ shown (offer best x) (snd x) /\ forall r, is_nan r = false -> shown best r -> shown (offer best x) r.
Proof.
  intros D N Nx. unfold offer. destruct (existsb (fun y => nlt (snd y) (snd x)) best) eqn:E1; cbn [negb].
  2:{ split; [exact D|]. split; [intros y Hy; now right|]. split; [reflexivity|]. split; [|auto].
      destruct (existsb (fun y => num_eqb (snd x) (snd y)) best) eqn:E2.
      - left. apply existsb_exists in E2 as (y & I & E). apply num_eqb_iff in E. exists y. split; [exact I|apply neq_sym; exact E].
      - right. intros y Hy. rewrite <- not_true_iff_false in E1, E2. apply not_nle_nlt; [apply N; exact Hy|exact Nx|]. apply not_true_iff_false. intros Z.
        destruct (nle (snd x) (snd y)) eqn:W; [apply E2; apply existsb_exists; exists y; split; [exact Hy|apply num_eqb_iff; split; assumption]|].
        apply E1. apply existsb_exists. exists y. split; [exact Hy|]. apply not_nle_nlt; auto. }
  destruct (existsb (fun y => num_eqb (snd x) (snd y)) best) eqn:E2.
  { split; [exact D|]. split; [intros y Hy; now right|]. split; [reflexivity|]. split; [|auto]. left. apply existsb_exists in E2 as (y & I & E). apply num_eqb_iff in E. exists y. split; [exact I|apply neq_sym; exact E]. }
  apply existsb_exists in E1 as (y0 & I0 & L0).
  assert (NE : forall y, In y best -> ~ neq (snd x) (snd y)). { intros y Hy Z. rewrite <- not_true_iff_false in E2. apply E2. apply existsb_exists. exists y. split; [exact Hy|apply num_eqb_iff; exact Z]. }
  destruct (insert_before_spec x best D N Nx (ex_intro _ y0 (conj I0 L0)) NE) as [D' P].
  assert (X : insert_before x best <> []) by (intros Z; rewrite Z in P; apply Permutation_nil in P; discriminate).
  destruct (exists_last X) as (l & z & Q). rewrite Q in *. rewrite removelast_last. destruct (decreasing_last l z D') as [Dl LL].
  pose proof (Permutation_length P) as PL. rewrite app_length in PL. cbn in PL.
  assert (IZ : In z best). { assert (In z (x :: best)) as [<-|?] by (eapply Permutation_in; [exact P|apply in_app_iff; right; now left]); [|assumption].
    exfalso. assert (In y0 (l ++ [x])) as H by (eapply Permutation_in; [symmetry; exact P|now right]). apply in_app_iff in H as [H|[<-|[]]].
    - specialize (LL y0 H). pose proof (nlt_trans _ _ _ LL L0) as B. rewrite nlt_irrefl in B. discriminate.
    - rewrite nlt_irrefl in L0. discriminate. }
  split; [exact Dl|]. split. { intros y Hy. eapply Permutation_in; [exact P|]. apply in_app_iff. now left. }
  split; [lia|]. split.
  - left. exists x. split; [|apply neq_refl; exact Nx]. assert (In x (l ++ [z])) as H by (eapply Permutation_in; [symmetry; exact P|now left]). apply in_app_iff in H as [H|[<-|[]]]; [exact H|]. exfalso. apply (NE z IZ). apply neq_refl. exact Nx.
  - intros r Nr [(q & Iq & Eq)|LT].
    + assert (In q (l ++ [z])) as H by (eapply Permutation_in; [symmetry; exact P|now right]). apply in_app_iff in H as [H|[<-|[]]]; [left; eauto|].
      right. intros y Hy. eapply nle_nlt_trans; [|apply LL; exact Hy]. apply Eq.
    + right. intros y Hy. eapply nlt_trans; [apply LT; exact IZ|apply LL; exact Hy].
Qed.
Lemma offers_spec xs : forall best, decreasing best -> no_nan best -> no_nan xs ->
  decreasing (fold_left offer xs best) /\ incl (fold_left offer xs best) (xs ++ best) /\ List.length (fold_left offer xs best) = List.length best /\
  (forall x, In x xs -> shown (fold_left offer xs best) (snd x)) /\ forall r, is_nan r = false -> shown best r -> shown (fold_left offer xs best) r.
Proof.
  induction xs as [|x xs IH]; intros best D N Nx; cbn [fold_left app].
  - split; [exact D|]. split; [apply incl_refl|]. split; [reflexivity|]. split; [intros ? []|auto].
  - destruct (offer_spec best x D N (Nx x (or_introl eq_refl))) as (D1 & I1 & L1 & S1 & K1).
    destruct (IH (offer best x)) as (D2 & I2 & L2 & S2 & K2); [exact D1| |intros y Hy; apply Nx; now right|].
    { intros y Hy. apply I1 in Hy as [<-|Hy]; [apply Nx; now left|apply N; exact Hy]. }
    split; [exact D2|]. split.
    { intros y Hy. apply I2 in Hy. cbn. apply in_app_iff in Hy as [Hy|Hy]; [right; apply in_app_iff; now left|]. apply I1 in Hy as [<-|Hy]; [now left|right; apply in_app_iff; now right]. }
    split; [lia|]. split; [|intros r Nr Hr; apply K2; [exact Nr|apply K1; assumption]].
    intros y [<-|Hy]; [apply K2; [apply Nx; now left|exact S1]|apply S2; exact Hy].
Qed.
(** one later epoch *)
Lemma update_spec best ranked : List.length best <= 10 -> decreasing best -> no_nan best -> no_nan ranked -> descending ranked ->
  let b := update_top10 (Some best) ranked in
  decreasing b /\ incl b (ranked ++ best) /\ List.length b = List.length best /\ (forall p, In p ranked -> shown b (snd p)) /\ forall r, is_nan r = false -> shown best r -> shown b r.
Proof.
  intros LB D N Nr So b. unfold b, update_top10. destruct (find_spec ranked Nr So) as (Df & If & Lf & Cf). set (f := find_min_no_repeat ranked) in *.
  assert (Nf : no_nan f) by (intros p Hp; apply Nr, If, Hp). destruct (offers_spec f best D N Nf) as (D2 & I2 & L2 & S2 & K2). set (b2 := fold_left offer f best) in *.
  assert (Nb : no_nan b2) by (intros p Hp; apply I2 in Hp; apply in_app_iff in Hp as [Hp|Hp]; [apply Nf|apply N]; exact Hp).
  split; [exact D2|]. split. { intros y Hy. apply I2 in Hy. apply in_app_iff. apply in_app_iff in Hy as [Hy|Hy]; [left; apply If; exact Hy|now right]. }
  split; [exact L2|]. split; [|exact K2]. intros p Hp. pose proof (Nr p Hp) as Np. destruct (Cf p Hp) as [(q & Iq & Eq)|[T LT]].
  - destruct (S2 q Iq) as [(z & Iz & Ez)|Z]; [left; exists z; split; [exact Iz|eapply neq_trans; eauto]|]. right. intros z Hz. eapply nle_nlt_trans; [apply Eq|apply Z; exact Hz].
  - (* either some picked reward is below the list, or the list is the ten picked *)
    assert (DEC : forall q : A * num, {exists z, In z b2 /\ neq (snd z) (snd q)} + {~ exists z, In z b2 /\ neq (snd z) (snd q)}).
    { intros q. destruct (existsb (fun z => num_eqb (snd z) (snd q)) b2) eqn:E.
      - left. apply existsb_exists in E as (z & I & E). apply num_eqb_iff in E. eauto.
      - right. intros (z & I & X). rewrite <- not_true_iff_false in E. apply E. apply existsb_exists. exists z. split; [exact I|apply num_eqb_iff; exact X]. }
    destruct (Forall_Exists_dec _ DEC f) as [ALL|SOME].
    + right. intros z Hz. rewrite Forall_forall in ALL.
      assert (In (canon (snd z)) (map (fun q => canon (snd q)) f)) as X.
      { apply (NoDup_length_incl (decreasing_canon f Df Nf) (l' := map (fun q => canon (snd q)) b2)).
        - rewrite !map_length. lia.
        - intros c Hc. apply in_map_iff in Hc as (q & <- & Iq). destruct (ALL q Iq) as (y & Iy & Ey). apply in_map_iff. exists y. split; [|exact Iy]. apply canon_iff; [apply Nb; exact Iy|apply Nf; exact Iq|exact Ey].
        - apply in_map_iff. eauto. }
      apply in_map_iff in X as (q & E & Iq). apply canon_iff in E; [|apply Nf; exact Iq|apply Nb; exact Hz]. eapply nlt_nle_trans; [apply LT; exact Iq|apply E].
    + apply Exists_exists in SOME as (q & Iq & NX). destruct (S2 q Iq) as [X|Z]; [contradiction|]. right. intros z Hz. eapply nlt_trans; [apply LT; exact Iq|apply Z; exact Hz].
Qed.
Lemma search_some best epochs : List.length best <= 10 -> decreasing best -> no_nan best -> Forall no_nan epochs -> Forall descending epochs ->
  exists b, search (Some best) epochs = Some b /\ decreasing b /\ List.length b = List.length best /\ (forall p, In p b -> In p best \/ exists e, In e epochs /\ In p e) /\
    (forall e p, In e epochs -> In p e -> shown b (snd p)) /\ forall r, is_nan r = false -> shown best r -> shown b r.
Proof.
  intros LB D N F G. revert best LB D N. induction F as [|e es Ne F IH]; intros best LB D N; cbn [search].
  - exists best. split; [reflexivity|]. split; [exact D|]. split; [reflexivity|]. split; [auto|]. split; [intros ? ? []|auto].
  - inversion G as [|? ? Ge G']; subst. destruct (update_spec best e LB D N Ne Ge) as (D1 & I1 & L1 & S1 & K1). set (b1 := update_top10 (Some best) e) in *.
    destruct (IH G' b1) as (b & E & D2 & L2 & I2 & S2 & K2); [lia|exact D1|intros p Hp; apply I1 in Hp; apply in_app_iff in Hp as [Hp|Hp]; [apply Ne|apply N]; exact Hp|].
    exists b. split; [exact E|]. split; [exact D2|]. split; [lia|]. split.
    { intros p Hp. apply I2 in Hp as [Hp|(e' & Ie & Hp)]; [|right; exists e'; split; [now right|exact Hp]]. apply I1 in Hp. apply in_app_iff in Hp as [Hp|Hp]; [right; exists e; split; [now left|exact Hp]|now left]. }
    split; [|intros r Nr Hr; apply K2, K1; assumption]. intros e' p [<-|He] Hp; [apply K2; [apply Ne; exact Hp|apply S1; exact Hp]|eapply S2; eauto].
Qed.
End L.

(** ** Theorems *)
(** After any number of epochs without a NaN reward: the list is strictly decreasing, its entries are candidates of the epochs with
    their own rewards, it has as many entries as the first epoch had different rewards, at most ten, and every reward of every epoch is
    on the list or below all of it. *)
Theorem C107_top_ten {A} (first : list (A * num)) rest ranked : Forall2 topk_of (first :: rest) ranked -> (forall e, In e (first :: rest) -> no_nan e) ->
  exists best, search None ranked = Some best /\ decreasing best /\
    (forall p, In p best -> exists e, In e (first :: rest) /\ In p e) /\
    List.length best = Nat.min 10 (count_different (map snd first)) /\
    forall e p, In e (first :: rest) -> In p e -> (exists q, In q best /\ neq (snd q) (snd p)) \/ forall q, In q best -> nlt (snd p) (snd q) = true.
Proof.
  intros F N. inversion F as [|? r0 ? rs [P0 So0] F']; subst. cbn [search update_top10].
  assert (N0 : no_nan r0) by (intros p Hp; apply (N first); [now left|]; eapply Permutation_in; [symmetry; exact P0|exact Hp]).
  destruct (find_spec r0 N0 So0) as (D & I & L & C). set (f := find_min_no_repeat r0) in *.
  assert (Nf : no_nan f) by (intros p Hp; apply N0, I, Hp).
  assert (Q : Forall no_nan rs /\ Forall descending rs /\ (forall p e, In e rs -> In p e -> exists e', In e' rest /\ In p e') /\ (forall p e, In e rest -> In p e -> exists e', In e' rs /\ In p e')).
  { assert (NR : forall e, In e rest -> no_nan e) by (intros e He; apply N; now right). clear - F' NR. induction F' as [|e r es rs [P So] F IH].
    - split; [constructor|]. split; [constructor|]. split; intros ? ? [].
    - destruct IH as (A1 & A2 & A3 & A4); [intros x Hx; apply NR; now right|]. split; [constructor; [|exact A1]|split; [constructor; assumption|split]].
      + intros p Hp. apply (NR e); [now left|]. eapply Permutation_in; [symmetry; exact P|exact Hp].
      + intros p x [<-|Hx] Hp; [exists e; split; [now left|]; eapply Permutation_in; [symmetry; exact P|exact Hp]|]. destruct (A3 p x Hx Hp) as (y & Iy & Hy). exists y. split; [now right|exact Hy].
      + intros p x [<-|Hx] Hp; [exists r; split; [now left|]; eapply Permutation_in; [exact P|exact Hp]|]. destruct (A4 p x Hx Hp) as (y & Iy & Hy). exists y. split; [now right|exact Hy]. }
  destruct Q as (Q1 & Q2 & Q3 & Q4). destruct (search_some f rs L D Nf Q1 Q2) as (b & E & D2 & L2 & I2 & S2 & K2).
  exists b. split; [exact E|]. split; [exact D2|]. split; [|split].
  - intros p Hp. apply I2 in Hp as [Hp|(e & Ie & Hp)].
    + exists first. split; [now left|]. eapply Permutation_in; [symmetry; exact P0|]. apply I. exact Hp.
    + destruct (Q3 p e Ie Hp) as (e' & Ie' & Hp'). exists e'. split; [now right|exact Hp'].
  - rewrite L2. unfold f. rewrite (find_length r0 N0 So0). rewrite (count_perm (map snd r0) (map snd first)); [reflexivity|]. apply Permutation_map. symmetry. exact P0.
  - intros e p [<-|Ie] Hp.
    + assert (Hp' : In p r0) by (eapply Permutation_in; eauto). apply K2; [apply N0; exact Hp'|]. destruct (C p Hp') as [X|[_ X]]; [left; exact X|right; exact X].
    + destruct (Q4 p e Ie Hp) as (e' & Ie' & Hp'). exact (S2 e' p Ie' Hp').
Qed.
(** The dictionary: equations and rewards belong together line by line, and the best equation is the one with the greatest reward of
    the whole run. *)
Theorem C107_result first rest ranked : Forall2 topk_of (first :: rest) ranked -> (forall e, In e (first :: rest) -> no_nan e) -> first <> [] ->
  let o := result (search None ranked) in
  List.length (o_equations o) = List.length (o_rewards o) /\
  (forall i t r, nth_error (o_equations o) i = Some t -> nth_error (o_rewards o) i = Some r -> exists e s, In e (first :: rest) /\ In (s, r) e /\ t = equation_text s) /\
  nth_error (o_equations o) 0 = Some (o_best o) /\ nth_error (o_rewards o) 0 = Some (o_best_reward o) /\
  forall e p, In e (first :: rest) -> In p e -> nle (snd p) (o_best_reward o) = true.
Proof.
  intros F N NE o. destruct (C107_top_ten first rest ranked F N) as (b & E & D & I & L & C). unfold o, result. rewrite E. cbn [o_equations o_rewards o_best o_best_reward].
  assert (NB : b <> []).
  { intros ->. destruct first as [|p first]; [congruence|]. cbn [List.length] in L. assert (count_different (map snd (p :: first)) = 0) as L' by lia. clear L. rename L' into L.
    unfold count_different in L. apply length_zero_iff_nil in L. assert (In (canon (snd p)) []) as []. rewrite <- L. apply nodup_In. now left. }
  split; [rewrite !map_length; reflexivity|]. split.
  { intros i t r X Y. rewrite nth_error_map in X, Y. destruct (nth_error b i) as [[s r']|] eqn:Q; [|discriminate]. cbn in X, Y. injection X as <-. injection Y as <-. apply nth_error_In in Q. destruct (I _ Q) as (e & Ie & Hp). eauto. }
  destruct b as [|q b]; [congruence|]. split; [reflexivity|]. split; [reflexivity|]. intros e p Ie Hp. cbn. 
  assert (T : forall z, In z (q :: b) -> nle (snd z) (snd q) = true).
  { destruct (I q (or_introl eq_refl)) as (e' & Ie' & Hq). intros z [<-|Hz]; [apply nle_refl; apply (N e' Ie' q Hq)|]. apply StronglySorted_inv in D as [_ D]. rewrite Forall_forall in D. apply nlt_nle, D, Hz. }
  destruct (C e p Ie Hp) as [(z & Iz & Ez)|X]; [|apply nlt_nle, X; now left]. eapply nle_trans; [apply Ez|apply T; exact Iz].
Qed.
(** Of a whole run: every reported reward is the reward of the equation printed beside it. *)
Theorem C107_run lsq lg cases epochs samples ranked : sample_all lsq lg cases variables (mask_of variables) epochs = Some samples ->
  Forall2 topk_of samples ranked -> (forall e, In e samples -> no_nan e) -> hd [] epochs <> [] ->
  let o := result (search None ranked) in
  forall i t r, nth_error (o_equations o) i = Some t -> nth_error (o_rewards o) i = Some r ->
    exists s, t = String.concat "" (map word s) /\ r = reward lsq lg cases variables (s ++ [tE]) /\ nle r (o_best_reward o) = true.
Proof.
  intros S F N NE o i t r X Y. destruct samples as [|first rest]; [inversion F; subst; destruct i; discriminate|].
  assert (first <> []).
  { destruct epochs as [|d ds]; [cbn in NE; congruence|]. cbn in NE. cbn [sample_all] in S. destruct d as [|d0 d]; [congruence|]. cbn [sample_epoch] in S. destruct (candidate (mask_of variables) d0); [|discriminate].
    destruct (sample_epoch lsq lg cases variables (mask_after cases l (mask_of variables)) d) as [[l' m]|]; [|discriminate]. destruct (sample_all lsq lg cases variables m ds); [|discriminate]. cbn in S. injection S as <- _. discriminate. }
  destruct (C107_result first rest ranked F N H) as (_ & P & _ & _ & G). fold o in P, G. destruct (P i t r X Y) as (e & s & Ie & Is & T).
  destruct (C106_run _ _ _ _ _ S e s r Ie Is) as (_ & _ & R & _). exists (reported s). split; [exact T|]. split; [exact R|]. apply (G e (s, r) Ie Is).
Qed.
(** "The ten best of the run are reported" is false when the first epoch had few different rewards: the list never grows. *)
Theorem C107_list_never_grows_refuted : exists first second : list (nat * num), topk_of first first /\ topk_of second second /\ no_nan first /\ no_nan second /\
  count_different (map snd second) = 12 /\ search None [first; second] = Some [(11, Fin 12)].
Proof.
  exists [(0, Fin 0)], (map (fun i => (i, Fin (inject_Z (Z.of_nat (S i))))) (rev (seq 0 12))). split; [split; [reflexivity|repeat constructor]|]. split; [split; [reflexivity|repeat constructor]|].
  split; [intros p [<-|[]]; reflexivity|]. split; [intros p Hp; apply in_map_iff in Hp as (i & <- & _); reflexivity|]. split; vm_compute; reflexivity.
Qed.
(** "The best equation has the greatest reward" is false with NaN rewards: topk ranks them first and the list keeps each of them, so ten
    NaN candidates hide every other one and never leave the list. *)
Theorem C107_nan_first_refuted : exists (ranked : list (nat * num)) , In (10, Fin 1) ranked /\
  (forall later, search None (ranked :: later) = Some (firstn 10 ranked)) /\ forall p, In p (firstn 10 ranked) -> snd p = NaN.
Proof.
  exists (map (fun i => (i, NaN)) (seq 0 10) ++ [(10, Fin 1)]). split; [apply in_app_iff; right; now left|]. split.
  - cbn [search]. intros later. change (update_top10 None _) with (firstn 10 (map (fun i => (i, NaN)) (seq 0 10) ++ [(10, Fin 1)])).
    induction later as [|e later IH]; [reflexivity|]. cbn [search]. replace (update_top10 (Some _) e) with (firstn 10 (map (fun i => (i, NaN)) (seq 0 10) ++ [(10, Fin 1)])); [exact IH|].
    unfold update_top10. generalize (find_min_no_repeat e). induction l as [|x l IHl]; [reflexivity|]. cbn [fold_left]. replace (offer _ x) with (firstn 10 (map (fun i => (i, NaN)) (seq 0 10) ++ [(10, Fin 1)])); [exact IHl|]. destruct x as [k a]. destruct a; reflexivity.
  - intros p Hp. vm_compute in Hp. repeat (destruct Hp as [<-|Hp]; [reflexivity|]). destruct Hp.
Qed.
Example C107_case : let e1 := [(1, Fin 3); (2, Fin 3); (3, Fin 1)] in let e2 := [(4, Fin 7); (5, Fin 2)] in
  topk_of e1 e1 /\ topk_of e2 e2 /\ search None [e1; e2] = Some [(4, Fin 7); (1, Fin 3)] /\ count_different (map snd e1) = 2.
Proof. cbn zeta. split; [split; [reflexivity|repeat constructor]|]. split; [split; [reflexivity|repeat constructor]|]. split; vm_compute; reflexivity. Qed.
Print Assumptions C107_top_ten.
Print Assumptions C107_result.
Print Assumptions C107_run.
Print Assumptions C107_list_never_grows_refuted.
Print Assumptions C107_nan_first_refuted.
