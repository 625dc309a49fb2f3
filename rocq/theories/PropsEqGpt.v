(** C104 (constructor), C105 (candidates), C106 (reported equation) of KD_EqGPT. *)
From Coq Require Import QArith Permutation Sorted.
From Verif Require Import Base Num EqGpt.
Local Open Scope string_scope.
Local Open Scope nat_scope.
Local Open Scope list_scope.

(** ** C104 *)
(** Python integers, to which True and False belong *)
Definition integer (v : pyarg) (z : Z) : Prop := v = PInt z \/ v = PBool true /\ z = 1%Z \/ v = PBool false /\ z = 0%Z.
Definition number_at_least_0 (v : pyarg) : Prop := (exists z, integer v z /\ (0 <= z)%Z) \/ (exists q, v = PFloat q /\ (0 <= q)%Q).

Lemma as_int_spec v z : as_int v = Some z <-> integer v z.
Proof.
  unfold integer. destruct v as [y|[|]|q|s|]; cbn; split; intros H; try discriminate; try (injection H as <-; tauto);
    repeat destruct H as [H|H]; try discriminate; try (destruct H; discriminate); try (injection H as <-; reflexivity); destruct H as [H ->]; try discriminate; reflexivity.
Qed.
Lemma positive_spec v z : positive v = Ok z <-> integer v z /\ (1 <= z)%Z.
Proof.
  unfold positive. rewrite <- as_int_spec. destruct (as_int v) as [y|]; [|split; [discriminate|intros [H _]; discriminate]].
  destruct (y <? 1)%Z eqn:E; split; intros H; try discriminate.
  - destruct H as [[= ->] H]. lia.
  - injection H as <-. split; [reflexivity|lia].
  - destruct H as [[= ->] _]. reflexivity.
Qed.
Lemma below0_spec v : below0 v = Ok false <-> number_at_least_0 v.
Proof.
  unfold number_at_least_0, integer. destruct v as [y|b|q|s|]; cbn; split; intros H; try discriminate.
  - left. exists y. split; [tauto|]. injection H as H. lia.
  - destruct H as [(z & [H|[[H _]|[H _]]] & L)|(q & H & _)]; try discriminate. injection H as ->. f_equal. lia.
  - left. destruct b; [exists 1%Z|exists 0%Z]; split; try lia; tauto.
  - reflexivity.
  - right. exists q. split; [reflexivity|]. injection H as H. apply Qle_bool_iff. destruct (Qle_bool 0 q); [reflexivity|discriminate].
  - destruct H as [(z & [H|[[H _]|[H _]]] & L)|(r & H & L)]; try discriminate. injection H as ->. apply Qle_bool_iff in L. rewrite L. reflexivity.
  - destruct H as [(z & [H|[[H _]|[H _]]] & L)|(r & H & L)]; discriminate.
  - destruct H as [(z & [H|[[H _]|[H _]]] & L)|(r & H & L)]; discriminate.
Qed.
(** The arguments are accepted exactly when the scenario is wave_breaking, epochs and samples are integers of at least 1, the
    filter is N or all and the seed is a number that is not negative; they are then stored as given. *)
Theorem C104_accepts pre e n f seed rt se c : construct pre e n f seed rt se = Ok c <->
  pre = "wave_breaking" /\ (f = "N" \/ f = "all") /\ number_at_least_0 seed /\
  exists ze zn, integer e ze /\ (1 <= ze)%Z /\ integer n zn /\ (1 <= zn)%Z /\ c = mkCfg pre ze zn f seed rt se.
Proof.
  unfold construct. destruct (String.eqb pre "wave_breaking") eqn:P; cbn [negb].
  2: { split; [discriminate|]. intros (-> & _). discriminate. }
  apply String.eqb_eq in P. subst pre. destruct (positive e) as [ze|x] eqn:E; cbn [bind].
  2: { split; [discriminate|]. intros (_ & _ & _ & ze & zn & A & B & _). assert (positive e = Ok ze) by (apply positive_spec; auto). congruence. }
  destruct (positive n) as [zn|x] eqn:N; cbn [bind].
  2: { split; [discriminate|]. intros (_ & _ & _ & ze' & zn & _ & _ & A & B & _). assert (positive n = Ok zn) by (apply positive_spec; auto). congruence. }
  destruct (String.eqb f "N" || String.eqb f "all")%bool eqn:F; cbn [negb].
  2: { split; [discriminate|]. apply orb_false_iff in F as [F1 F2]. intros (_ & [->| ->] & _); discriminate. }
  destruct (below0 seed) as [[|]|x] eqn:S; cbn [bind].
  - split; [discriminate|]. intros (_ & _ & H & _). apply below0_spec in H. congruence.
  - apply positive_spec in E, N. apply below0_spec in S. split.
    + intros [= <-]. split; [reflexivity|]. split. { apply orb_prop in F as [F|F]; apply String.eqb_eq in F; auto. } split; [exact S|].
      exists ze, zn. tauto.
    + intros (_ & _ & _ & ze' & zn' & A & _ & B & _ & ->). apply as_int_spec in A, B. destruct E as [E _], N as [N _]. apply as_int_spec in E, N. congruence.
  - split; [discriminate|]. intros (_ & _ & H & _). apply below0_spec in H. congruence.
Qed.
(** A refusal is a ValueError, or a TypeError for a wrong type. *)
Theorem C104_refusals pre e n f seed rt se x : construct pre e n f seed rt se = Err x ->
  x = ValueError \/ x = TypeError /\ ((forall z, ~ integer e z) \/ (forall z, ~ integer n z) \/ seed = PNone \/ exists s, seed = PStr s).
Proof.
  assert (T : forall v y, positive v = Err y -> y = ValueError \/ y = TypeError /\ forall z, ~ integer v z).
  { intros v y. unfold positive. destruct (as_int v) as [z|] eqn:A.
    - destruct (z <? 1)%Z; [|discriminate]. intros [= <-]. now left.
    - intros [= <-]. right. split; [reflexivity|]. intros z I. apply as_int_spec in I. congruence. }
  unfold construct. destruct (negb _); [intros [= <-]; now left|].
  destruct (positive e) as [ze|y] eqn:E; cbn [bind]; [|intros [= <-]; destruct (T _ _ E); tauto].
  destruct (positive n) as [zn|y] eqn:N; cbn [bind]; [|intros [= <-]; destruct (T _ _ N); tauto].
  destruct (negb _); [intros [= <-]; now left|]. destruct seed; cbn [below0 bind].
  - destruct (z <? 0)%Z; [intros [= <-]; now left|discriminate].
  - discriminate.
  - destruct (negb (Qle_bool 0 q)); [intros [= <-]; now left|discriminate].
  - intros [= <-]. right. split; [reflexivity|]. eauto.
  - intros [= <-]. tauto.
Qed.
Example C104_case : construct "wave_breaking" (PInt 5) (PBool true) "all" (PFloat (1 # 2)) false 7 = Ok (mkCfg "wave_breaking" 5 1 "all" (PFloat (1 # 2)) false 7)
  /\ construct "wave_breaking" (PFloat 5) (PInt 1) "N" (PInt 0) false 0 = Err TypeError /\ construct "wave_breaking" (PInt 0) (PFloat 1) "N" (PInt 0) false 0 = Err ValueError.
Proof. repeat split. Qed.

(** ** C105 *)
Definition is_operator (k : nat) : Prop := 1 <= k <= 4.
Definition is_term (k : nat) : Prop := 6 <= k.
(** generation invariant: [s] starts with S, terms at odd positions, operators at even ones *)
Definition shaped (mask : list bool) (s : list nat) : Prop :=
  3 <= List.length s /\ firstn 3 s = [tS; tUt; tPlus] /\
  forall i k, 3 <= i -> nth_error s i = Some k -> nth k mask false = true /\ (if Nat.even i then is_operator k else is_term k).
Lemma generate_shape mask draws : forall s r, shaped mask s -> List.length s <= 49 -> Nat.odd (List.length s) = true \/ Nat.even (List.length s) = true -> (forall i, nth_error s i <> Some tE) ->
  generate mask s draws = Some r -> shaped mask r /\ List.length r <= 49 /\ (forall i, nth_error r i = Some tE -> S i = List.length r) /\ (last r 0 = tE \/ List.length r = 49) /\
  (List.length s < 49 -> List.length s < List.length r).
Proof.
  induction draws as [|d ds IH]; intros s r Sh L _ NE G; cbn [generate] in G; change (max_pos - 1) with 49 in G; destruct (List.length s <? 49) eqn:B; try discriminate.
  1, 3: injection G as <-; apply Nat.ltb_ge in B; split; [exact Sh|]; split; [exact L|]; split; [intros i H; destruct (NE i H)|]; split; [right; lia|lia].
  apply Nat.ltb_lt in B. destruct (allowed mask (List.length s) d) eqn:A; [|discriminate].
  assert (Sh' : shaped mask (s ++ [d])).
  { destruct Sh as (H3 & F & H). split; [rewrite app_length; cbn; lia|]. split. { rewrite firstn_app. replace (3 - List.length s) with 0 by lia. cbn [firstn]. rewrite app_nil_r. exact F. }
    intros i k Hi N. destruct (Nat.lt_ge_cases i (List.length s)) as [I|I]; [rewrite nth_error_app1 in N by exact I; auto|].
    rewrite nth_error_app2 in N by exact I. destruct (i - List.length s) as [|[|j]] eqn:D; cbn in N; try discriminate. injection N as <-. replace i with (List.length s) by lia.
    unfold allowed in A. apply andb_prop in A as [A1 A2]. split; [exact A1|]. unfold is_operator, is_term. destruct (Nat.even (List.length s)); lia. }
  destruct (d =? tE) eqn:E.
  - injection G as <-. apply Nat.eqb_eq in E. subst d. split; [exact Sh'|]. rewrite app_length. cbn [List.length]. split; [lia|]. split; [|split; [left; apply last_last|lia]].
    intros i N. destruct (Nat.lt_ge_cases i (List.length s)) as [I|I]; [rewrite nth_error_app1 in N by exact I; destruct (NE i N)|].
    assert (i < List.length (s ++ [tE])) by (apply nth_error_Some; congruence). rewrite app_length in H. cbn in H. lia.
  - apply Nat.eqb_neq in E. destruct (IH (s ++ [d]) r) as (R1 & R2 & R3 & R4 & R5); auto.
    + rewrite app_length. cbn. lia.
    + destruct (Nat.even (List.length (s ++ [d]))) eqn:V; [now right|left; rewrite <- Nat.negb_even, V; reflexivity].
    + intros i N. destruct (Nat.lt_ge_cases i (List.length s)) as [I|I]; [rewrite nth_error_app1 in N by exact I; destruct (NE i N)|].
      rewrite nth_error_app2 in N by exact I. destruct (i - List.length s) as [|[|j]]; cbn in N; try discriminate. injection N as N. congruence.
    + split; [exact R1|]. split; [exact R2|]. split; [exact R3|]. split; [exact R4|]. intros _. rewrite app_length in R5. cbn in R5.
      destruct (Nat.lt_ge_cases (List.length s + 1) 49) as [X|X]; [specialize (R5 X); lia|].
      assert (List.length r >= List.length (s ++ [d])). { clear - G. revert G. generalize (s ++ [d]). clear. induction ds as [|e ds IH]; intros s G; cbn [generate] in G; destruct (List.length s <? max_pos - 1); try discriminate; try (injection G as <-; lia).
        destruct (allowed mask (List.length s) e); [|discriminate]. destruct (e =? tE); [injection G as <-; rewrite app_length; lia|]. apply IH in G. rewrite app_length in G. lia. }
      rewrite app_length in H. cbn in H. lia.
Qed.
(** Every candidate starts "ut +"; then terms and operators alternate, none of them masked; it has between 4 and 48 tokens, an even
    number; the end symbol occurs only at the end, and is missing only when the 48 tokens are used up. *)
Theorem C105_candidates mask draws s : candidate mask draws = Some s ->
  firstn 2 s = [tUt; tPlus] /\ 4 <= List.length s <= 48 /\ Nat.even (List.length s) = true /\
  (forall i k, 2 <= i -> nth_error s i = Some k -> nth k mask false = true /\ (if Nat.even i then is_term k else is_operator k)) /\
  (forall i, nth_error s i = Some tE -> S i = List.length s) /\ (last s 0 = tE \/ List.length s = 48).
Proof.
  unfold candidate. destruct (generate mask [tS; tUt; tPlus] draws) as [r|] eqn:G; [|discriminate]. cbn [option_map]. intros [= <-].
  destruct (generate_shape mask draws [tS; tUt; tPlus] r) as (Sh & L & EE & EN & LG); auto.
  - split; [cbn; lia|]. split; [reflexivity|]. intros i k Hi N. assert (i < 3) by (apply (nth_error_Some [tS; tUt; tPlus]); congruence). lia.
  - cbn; lia.
  - intros i. destruct i as [|[|[|i]]]; cbn; try discriminate. destruct i; discriminate.
  - destruct Sh as (L3 & F & H). destruct r as [|a [|b [|c r]]]; cbn in L3; try lia. cbn in F. injection F as -> -> ->. cbn [tl]. specialize (LG ltac:(cbn; lia)). cbn [List.length] in *.
    assert (EV : Nat.even (S (S (List.length r))) = true).
    { destruct EN as [EN|EN]; [|rewrite EN in *; injection EN as ->; reflexivity].
      assert (r <> []) by (intros ->; cbn in EN; discriminate).
      assert (N : nth_error (tS :: tUt :: tPlus :: r) (S (S (List.length r))) = Some tE).
      { cbn. assert (last r 0 = tE) by (destruct r; [congruence|exact EN]). rewrite <- H1. destruct (exists_last H0) as (r' & x & ->). rewrite last_last, app_length. cbn. replace (List.length r' + 1) with (S (List.length r')) by lia.
        cbn. rewrite nth_error_app2 by lia. rewrite Nat.sub_diag. reflexivity. }
      assert (3 <= S (S (List.length r))) by (destruct r; [congruence|cbn; lia]). destruct (H _ _ H1 N) as [_ X]. destruct (Nat.even (S (S (List.length r)))); [reflexivity|]. unfold is_term, tE in X. lia. }
    split; [reflexivity|]. assert (4 <= S (S (List.length r))). { destruct r as [|x [|y r]]; cbn in *; try lia; discriminate. }
    split; [lia|]. split; [exact EV|]. split; [|split].
    + intros i k Hi N. destruct (H (S i) k ltac:(lia) N) as [A B]. split; [exact A|]. rewrite Nat.even_succ, <- Nat.negb_even in B. destruct (Nat.even i); exact B.
    + intros i N. specialize (EE (S i) N). lia.
    + destruct EN as [EN|EN]; [left; cbn in EN; destruct r; exact EN|right; lia].
Qed.

(** The mask of a wave-breaking run: no word with t, y or z, except through the fixed start of the sentence. *)
Lemma wave_mask k : nth k (mask_of variables) false = true -> k < List.length vocab /\ contains "t" (word k) = false /\ contains "y" (word k) = false /\ contains "z" (word k) = false.
Proof.
  intros H. assert (L : k < List.length vocab). { destruct (Nat.lt_ge_cases k (List.length vocab)) as [L|L]; [exact L|]. rewrite nth_overflow in H; [discriminate|]. unfold mask_of. rewrite map_length. exact L. }
  split; [exact L|]. cbn in L. do 57 (destruct k as [|k]; [vm_compute in H; try discriminate; vm_compute; repeat split|]). lia.
Qed.
Lemma set_false_nth k : forall m j, nth j (set_false k m) false = true -> nth j m false = true /\ j <> k.
Proof.
  induction k as [|k IH]; intros [|b m] [|j]; cbn; try discriminate; intros H.
  - auto.
  - auto.
  - destruct (IH m j H). auto.
Qed.
Lemma set_false_other k : forall m j, nth j m false = true -> j <> k -> nth j (set_false k m) false = true.
Proof. induction k as [|k IH]; intros [|b m] [|j] H N; cbn in *; try discriminate; auto; try congruence. Qed.
Lemma mask_fold_terms val terms : forall m j, nth j (fold_left (fun m t => if has_nan (val t) then set_false t m else m) terms m) false = true <->
  nth j m false = true /\ (In j terms -> has_nan (val j) = false).
Proof.
  induction terms as [|t ts IH]; intros m j; cbn [fold_left].
  - split; [intros H; split; [exact H|intros []]|tauto].
  - rewrite IH. destruct (has_nan (val t)) eqn:N.
    + split.
      * intros [H I]. apply set_false_nth in H as [H D]. split; [exact H|]. intros [<-|X]; [congruence|auto].
      * intros [H I]. split; [|intros X; apply I; now right]. apply set_false_other; [exact H|]. intros ->. rewrite (I (or_introl eq_refl)) in N. discriminate.
    + split; intros [H I]; (split; [exact H|]); [intros [<-|X]; auto|intros X; apply I; now right].
Qed.
(** After a candidate was evaluated, exactly the words that gave NaN in some case are out of the draw. *)
Theorem C105_mask_step cases s mask j : nth j (mask_after cases s mask) false = true <->
  nth j mask false = true /\ (well_formed (delete_duplicate s) = true -> In j (evens (delete_duplicate s)) -> forall c, In c cases -> has_nan (value c j) = false).
Proof.
  unfold mask_after. destruct (well_formed (delete_duplicate s)); [|split; [intros H; split; [exact H|discriminate]|tauto]].
  generalize (evens (delete_duplicate s)). intros ts. revert mask. induction cases as [|c cs IH]; intros mask; cbn [fold_left].
  - split; [intros H; split; [exact H|intros _ _ c []]|tauto].
  - rewrite IH, mask_fold_terms. split.
    + intros [[H A] B]. split; [exact H|]. intros _ I c' [<-|X]; auto.
    + intros [H A]. split; [split; [exact H|]|]; [intros I; apply (A eq_refl I c); now left|]. intros _ I c' X. apply (A eq_refl I). now right.
Qed.
Lemma sample_epoch_masks lsq lg cases vars draws : forall mask l m, sample_epoch lsq lg cases vars mask draws = Some (l, m) ->
  (forall j, nth j m false = true -> nth j mask false = true) /\
  forall i p, nth_error l i = Some p -> exists d s mask', candidate mask' d = Some s /\ p = (chop s, reward lsq lg cases vars s) /\ (forall j, nth j mask' false = true -> nth j mask false = true).
Proof.
  induction draws as [|d ds IH]; intros mask l m H; cbn [sample_epoch] in H.
  - injection H as <- <-. split; [auto|]. intros [|i] p; discriminate.
  - destruct (candidate mask d) as [s|] eqn:C; [|discriminate]. destruct (sample_epoch lsq lg cases vars (mask_after cases s mask) ds) as [[l' m']|] eqn:E; [|discriminate].
    injection H as <- <-. destruct (IH _ _ _ E) as [A B]. assert (D : forall j, nth j (mask_after cases s mask) false = true -> nth j mask false = true) by (intros j Hj; apply C105_mask_step in Hj; tauto).
    split; [auto|]. intros [|i] p N; cbn in N.
    + injection N as <-. exists d, s, mask. auto.
    + destruct (B i p N) as (d' & s' & mask' & X & Y & Z). exists d', s', mask'. auto.
Qed.
Lemma sample_all_masks lsq lg cases vars epochs : forall mask ls, sample_all lsq lg cases vars mask epochs = Some ls ->
  forall e p, In e ls -> In p e -> exists d s mask', candidate mask' d = Some s /\ p = (chop s, reward lsq lg cases vars s) /\ (forall j, nth j mask' false = true -> nth j mask false = true).
Proof.
  induction epochs as [|dr es IH]; intros mask ls H e p Ie Ip; cbn [sample_all] in H.
  - injection H as <-. destruct Ie.
  - destruct (sample_epoch lsq lg cases vars mask dr) as [[l m]|] eqn:S; [|discriminate]. destruct (sample_all lsq lg cases vars m es) as [ls'|] eqn:E; [|discriminate]. cbn in H. injection H as <-.
    destruct (sample_epoch_masks _ _ _ _ _ _ _ _ S) as [A B]. destruct Ie as [<-|Ie].
    + apply In_nth_error in Ip as [i Ip]. exact (B i p Ip).
    + destruct (IH m ls' E e p Ie Ip) as (d & s & mask' & X & Y & Z). exists d, s, mask'. auto.
Qed.
(** In every epoch of a run, whatever the networks answer: every stored candidate is "ut +" followed by terms whose names contain no
    t, y or z, and operators; so the time derivative occurs once, as ut. *)
Theorem C105_run lsq lg cases epochs ls : sample_all lsq lg cases variables (mask_of variables) epochs = Some ls ->
  forall e s r, In e ls -> In (s, r) e -> firstn 2 s = [tUt; tPlus] /\ List.length s <= 48 /\
    (forall i k, 2 <= i -> nth_error s i = Some k -> if Nat.even i then is_term k /\ k < List.length vocab /\ contains "t" (word k) = false /\ contains "y" (word k) = false /\ contains "z" (word k) = false else 2 <= k <= 4).
Proof.
  intros H e s r Ie Ip. destruct (sample_all_masks _ _ _ _ _ _ _ H e _ Ie Ip) as (d & s0 & mask' & C & E & M). injection E as -> _.
  destruct (C105_candidates _ _ _ C) as (F & L & EV & K & EE & _).
  assert (X : forall i k, nth_error (chop s0) i = Some k -> nth_error s0 i = Some k /\ k <> tE).
  { intros i k N. unfold chop in N. destruct (last s0 0 =? tE) eqn:B.
    - assert (s0 <> []) by (intros ->; destruct i; discriminate). destruct (exists_last H0) as (q & x & ->). rewrite removelast_last in N. assert (i < List.length q) by (apply nth_error_Some; congruence).
      assert (N' : nth_error (q ++ [x]) i = Some k) by (rewrite nth_error_app1 by assumption; exact N). split; [exact N'|]. intros ->. specialize (EE _ N'). rewrite app_length in EE. cbn in EE. lia.
    - split; [exact N|]. intros ->. specialize (EE _ N). apply Nat.eqb_neq in B. apply B.
      assert (s0 <> []) by (intros ->; destruct i; discriminate). destruct (exists_last H0) as (q & x & ->). rewrite last_last. rewrite app_length in EE. cbn in EE. rewrite nth_error_app2 in N by lia. replace (i - List.length q) with 0 in N by lia. cbn in N. congruence. }
  assert (LC : List.length (chop s0) <= List.length s0 /\ List.length s0 <= S (List.length (chop s0))).
  { unfold chop. destruct (last s0 0 =? tE); [|lia]. destruct s0 as [|a s0] using rev_ind; [cbn; lia|]. rewrite removelast_last, app_length. cbn. lia. }
  split; [|split; [lia|]].
  - destruct (chop s0) as [|a [|b q]] eqn:Q; cbn in LC; try lia. destruct (X 0 a eq_refl) as [A _], (X 1 b eq_refl) as [B _]. destruct s0 as [|a' [|b' s0]]; cbn in A, B; try discriminate. injection A as ->. injection B as ->. exact F.
  - intros i k Hi N. destruct (X i k N) as [N' NE]. destruct (K i k Hi N') as [A B]. destruct (Nat.even i).
    + split; [exact B|]. apply wave_mask. apply M. exact A.
    + unfold is_operator, tE in *. lia.
Qed.
(** A word that gave NaN in a case when a candidate was evaluated is not drawn again in that epoch. *)
Theorem C105_nan_word_gone lsq lg cases vars d ds mask s l m : candidate mask d = Some s -> sample_epoch lsq lg cases vars mask (d :: ds) = Some (l, m) ->
  forall j c, well_formed (delete_duplicate s) = true -> In j (evens (delete_duplicate s)) -> In c cases -> has_nan (value c j) = true ->
  nth j m false = false /\ forall i p q, 1 <= i -> nth_error l i = Some p -> 2 <= q -> Nat.even q = true -> nth_error (fst p) q <> Some j.
Proof.
  intros C H j c W I Ic N. cbn [sample_epoch] in H. rewrite C in H. destruct (sample_epoch lsq lg cases vars (mask_after cases s mask) ds) as [[l' m']|] eqn:E; [|discriminate]. injection H as <- <-.
  assert (Z : nth j (mask_after cases s mask) false = false). { apply not_true_iff_false. intros X. apply C105_mask_step in X as [_ X]. rewrite (X W I c Ic) in N. discriminate. }
  destruct (sample_epoch_masks _ _ _ _ _ _ _ _ E) as [A B]. split. { apply not_true_iff_false. intros X. apply A in X. congruence. }
  intros [|i] p q Hi Np Hq Ev Nq; [lia|]. cbn in Np. destruct (B i p Np) as (d' & s' & mask' & C' & -> & M). cbn [fst] in Nq.
  destruct (C105_candidates _ _ _ C') as (_ & _ & _ & K & _).
  assert (nth_error s' q = Some j). { unfold chop in Nq. destruct (last s' 0 =? tE); [|exact Nq]. destruct s' as [|x s'] using rev_ind; [exact Nq|]. rewrite removelast_last in Nq. rewrite nth_error_app1; [exact Nq|]. apply nth_error_Some. congruence. }
  destruct (K q j Hq H) as [X _]. apply M in X. congruence.
Qed.
Example C105_case : candidate (mask_of variables) [8; 3; 7; 2; 9; 1] = Some [6; 2; 8; 3; 7; 2; 9; 1] /\ candidate (mask_of variables) [13; 1] = None /\
  (exists s, candidate (mask_of variables) (List.concat (List.repeat [7; 2] 23)) = Some s /\ List.length s = 48).
Proof. split; [vm_compute; reflexivity|]. split; [vm_compute; reflexivity|]. eexists. split; [vm_compute; reflexivity|reflexivity]. Qed.
(** ... nor in any later epoch. *)
Theorem C105_nan_word_gone_later lsq lg cases vars mask e es l m ls j : sample_epoch lsq lg cases vars mask e = Some (l, m) -> sample_all lsq lg cases vars mask (e :: es) = Some (l :: ls) ->
  nth j m false = false -> forall l' p q, In l' ls -> In p l' -> 2 <= q -> Nat.even q = true -> nth_error (fst p) q <> Some j.
Proof.
  intros E A N l' p q I1 I2 Hq Ev Nq. cbn [sample_all] in A. rewrite E in A. destruct (sample_all lsq lg cases vars m es) as [ls'|] eqn:X; [|discriminate]. cbn in A. injection A as <-.
  destruct (sample_all_masks _ _ _ _ _ _ _ X l' p I1 I2) as (d & s & mask' & C & -> & M). cbn [fst] in Nq. destruct (C105_candidates _ _ _ C) as (_ & _ & _ & K & _).
  assert (nth_error s q = Some j). { unfold chop in Nq. destruct (last s 0 =? tE); [|exact Nq]. destruct s as [|x s] using rev_ind; [exact Nq|]. rewrite removelast_last in Nq. rewrite nth_error_app1; [exact Nq|]. apply nth_error_Some. congruence. }
  destruct (K q j Hq H) as [Y _]. apply M in Y. congruence.
Qed.
(** At the start of a run the terms that may be drawn are exactly those without t, y, z and Laplace in their name. *)
Theorem C105_drawable len k : Nat.odd len = true -> (allowed (mask_of variables) len k = true <->
  6 <= k /\ k < List.length vocab /\ forall w, In w ["t"; "y"; "z"; "Laplace"] -> contains w (word k) = false).
Proof.
  intros O. unfold allowed. rewrite <- Nat.negb_odd, O. cbn [negb].
  assert (V : forallb (fun k => Bool.eqb (nth k (mask_of variables) false) (forallb (fun w => negb (contains w (word k))) ["t"; "y"; "z"; "Laplace"])) (seq 0 57) = true) by (vm_compute; reflexivity).
  assert (LV : List.length vocab = 57) by reflexivity. assert (LM : List.length (mask_of variables) = 57) by reflexivity.
  destruct (Nat.lt_ge_cases k 57) as [B|B].
  - rewrite forallb_forall in V. specialize (V k). assert (I : In k (seq 0 57)) by (apply in_seq; lia). apply V in I. apply Bool.eqb_prop in I. rewrite I, andb_true_iff, Nat.leb_le, forallb_forall, LV. split.
    + intros [A C]. split; [exact C|]. split; [exact B|]. intros w Hw. apply A in Hw. apply negb_true_iff in Hw. exact Hw.
    + intros (A & _ & C). split; [|exact A]. intros w Hw. apply negb_true_iff. apply C. exact Hw.
  - rewrite nth_overflow by lia. cbn [andb]. split; [discriminate|]. intros (_ & C & _). lia.
Qed.
(** "Every word without a time derivative may be drawn" is false: the square roots have a t in their name. *)
Theorem C105_square_roots_never_drawn_refuted draws s : candidate (mask_of variables) draws = Some s -> ~ In (tok "sqrt(u)") s /\ ~ In (tok "sqrt(x)") s.
Proof.
  intros C. destruct (C105_candidates _ _ _ C) as (F & _ & _ & K & _).
  assert (X : forall k, nth k (mask_of variables) false = false -> k <> tUt -> k <> tPlus -> ~ In k s).
  { intros k M N1 N2 I. apply In_nth_error in I as [i I]. destruct (Nat.lt_ge_cases i 2) as [B|B].
    - destruct s as [|a [|b q]]; cbn in F; try discriminate. injection F as -> ->. destruct i as [|[|i]]; cbn in I; try lia; congruence.
    - destruct (K i k B I) as [A _]. congruence. }
  split; apply X; vm_compute; congruence.
Qed.
Print Assumptions C104_accepts.
Print Assumptions C104_refusals.
Print Assumptions C105_candidates.
Print Assumptions C105_mask_step.
Print Assumptions C105_run.
Print Assumptions C105_nan_word_gone.
Print Assumptions C105_square_roots_never_drawn_refuted.
Print Assumptions C105_nan_word_gone_later.
Print Assumptions C105_drawable.
