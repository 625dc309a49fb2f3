(** C131, C132: the fine-tuning of KD_EqGPT. *)
From Coq Require Import QArith.
From Verif Require Import Base Num EqGpt PropsEqGpt PropsEqGptText EqGptTrain.
Local Open Scope nat_scope.
Local Open Scope list_scope.

Lemma firstn_combine_seq {A} m : forall k (l : list A), firstn m (combine (seq k (List.length l)) l) = combine (seq k (List.length (firstn m l))) (firstn m l).
Proof. induction m as [|m IH]; intros k [|x l]; cbn [firstn combine seq List.length]; try reflexivity. rewrite IH. reflexivity. Qed.
Lemma combine_seq_app {A} (l1 l2 : list A) : forall k,
  combine (seq k (List.length (l1 ++ l2))) (l1 ++ l2) = combine (seq k (List.length l1)) l1 ++ combine (seq (k + List.length l1) (List.length l2)) l2.
Proof.
  induction l1 as [|x l1 IH]; intros k; cbn [List.app List.length seq combine].
  - rewrite Nat.add_0_r. reflexivity.
  - rewrite IH. f_equal. f_equal. f_equal. f_equal. lia.
Qed.
Lemma in_combine_seq {A} k (l : list A) p : In p (combine (seq k (List.length l)) l) -> k <= fst p < k + List.length l.
Proof. destruct p as [i x]. intros I. apply in_combine_l in I. apply in_seq in I. exact I. Qed.
Lemma filter_none {A} (f : A -> bool) l : (forall x, In x l -> f x = false) -> filter f l = [].
Proof. induction l as [|x l IH]; intros F; cbn; [reflexivity|]. rewrite (F x (or_introl eq_refl)). apply IH. intros y Hy. apply F. right. exact Hy. Qed.


Lemma firstn_firstn_eq {A} a b (l1 l2 : list A) : a <= b -> firstn b l1 = firstn b l2 -> firstn a l1 = firstn a l2.
Proof. intros Hab E. replace a with (Nat.min a b) by lia. rewrite <- !firstn_firstn, E. reflexivity. Qed.
Lemma nth_firstn_lt m : forall (l : list nat) k, k < m -> nth k (firstn m l) 0 = nth k l 0.
Proof. induction m as [|m IH]; intros [|x l] k Hk; try lia; [destruct k; reflexivity|]. destruct k as [|k]; [reflexivity|]. cbn [firstn nth]. apply IH. lia. Qed.

Section Causal.
Variables (V L : Type) (emb : nat -> nat -> V) (layers : list (bool -> V -> list V -> V)) (project : V -> L).
Notation forward := (forward V L emb layers project).

Lemma seen_prefix (t : list nat) (xs : list V) q :
  filter (fun p => negb (hidden t q (fst p))) (combine (seq 0 (List.length xs)) xs) =
  filter (fun p => negb (nth (fst p) t 0 =? 0)) (combine (seq 0 (List.length (firstn (S q) xs))) (firstn (S q) xs)).
Proof.
  rewrite <- (firstn_skipn (S q) xs) at 1 2. rewrite combine_seq_app, filter_app.
  rewrite (filter_none _ (combine (seq (0 + _) _) _)).
  - rewrite app_nil_r. apply filter_ext_in. intros p Hp. apply in_combine_seq in Hp. pose proof (firstn_le_length (S q) xs) as F. rewrite firstn_length in Hp.
    unfold hidden. destruct (Nat.ltb_spec q (fst p)); [lia|]. rewrite orb_false_r. reflexivity.
  - intros p Hp. pose proof Hp as Hp'. apply in_combine_seq in Hp. unfold hidden. destruct (Nat.ltb_spec q (fst p)); [rewrite orb_true_r; reflexivity|].
    rewrite firstn_length in Hp. destruct (Nat.le_gt_cases (List.length xs) (S q)) as [Hs|Hs]; [|lia]. exfalso.
    rewrite skipn_all2 in Hp by exact Hs. cbn in Hp. lia.
Qed.
(** what position [q < m] sees depends on the first [m] tokens and vectors only, if the first token is no padding *)
Lemma attend_prefix layer q x m t1 t2 (xs1 xs2 : list V) :
  firstn m t1 = firstn m t2 -> firstn m xs1 = firstn m xs2 -> q < m -> xs1 <> [] -> nth 0 t1 0 <> 0 ->
  attend V t1 layer xs1 q x = attend V t2 layer xs2 q x.
Proof.
  intros Et Ex Hq Hx H0. unfold attend. rewrite !seen_prefix.
  rewrite <- (firstn_firstn_eq (S q) m xs1 xs2) by (lia || exact Ex).
  assert (filter (fun p => negb (nth (fst p) t2 0 =? 0)) (combine (seq 0 (List.length (firstn (S q) xs1))) (firstn (S q) xs1)) =
          filter (fun p => negb (nth (fst p) t1 0 =? 0)) (combine (seq 0 (List.length (firstn (S q) xs1))) (firstn (S q) xs1))) as ->.
  { apply filter_ext_in. intros p Hp. apply in_combine_seq in Hp. rewrite firstn_length in Hp.
    rewrite <- (nth_firstn_lt m t1) by lia. rewrite <- (nth_firstn_lt m t2) by lia. rewrite Et. reflexivity. }
  destruct xs1 as [|y xs1]; [congruence|]. cbn [firstn List.length seq combine filter fst].
  destruct (Nat.eqb_spec (nth 0 t1 0) 0); [congruence|]. reflexivity.
Qed.
Lemma layer_length t xs (l : bool -> V -> list V -> V) : List.length (decoder_layer V t xs l) = List.length xs.
Proof. unfold decoder_layer. rewrite map_length, combine_length, seq_length. lia. Qed.
Lemma layer_prefix m t1 t2 xs1 xs2 (l : bool -> V -> list V -> V) :
  firstn m t1 = firstn m t2 -> firstn m xs1 = firstn m xs2 -> nth 0 t1 0 <> 0 ->
  firstn m (decoder_layer V t1 xs1 l) = firstn m (decoder_layer V t2 xs2 l).
Proof.
  intros Et Ex H0. unfold decoder_layer. rewrite !firstn_map, !firstn_combine_seq. rewrite <- Ex. apply map_ext_in. intros p Hp.
  pose proof (in_combine_seq _ _ _ Hp) as Hq. rewrite firstn_length in Hq. apply (attend_prefix l (fst p) (snd p) m); [exact Et|exact Ex|lia| |exact H0].
  intros ->. rewrite firstn_nil in Hp. destruct Hp.
Qed.
Lemma layers_prefix m t1 t2 (ls : list (bool -> V -> list V -> V)) : forall xs1 xs2,
  firstn m t1 = firstn m t2 -> firstn m xs1 = firstn m xs2 -> nth 0 t1 0 <> 0 ->
  firstn m (fold_left (decoder_layer V t1) ls xs1) = firstn m (fold_left (decoder_layer V t2) ls xs2).
Proof. induction ls as [|l ls IH]; intros xs1 xs2 Et Ex H0; cbn [fold_left]; [exact Ex|]. apply IH; [exact Et|apply layer_prefix; assumption|exact H0]. Qed.
Lemma layers_length t (ls : list (bool -> V -> list V -> V)) : forall xs, List.length (fold_left (decoder_layer V t) ls xs) = List.length xs.
Proof. induction ls as [|l ls IH]; intros xs; cbn [fold_left]; [reflexivity|]. rewrite IH. apply layer_length. Qed.
Lemma forward_length t o : forward t = Ok o -> List.length o = List.length t /\ List.length t <= max_pos.
Proof.
  unfold EqGptTrain.forward, decode. destruct (Nat.ltb_spec max_pos (List.length t)); [discriminate|]. cbn [bind]. intros [= <-].
  rewrite map_length, layers_length, map_length, combine_length, seq_length. lia.
Qed.
Lemma forward_ok t : List.length t <= max_pos -> exists o, forward t = Ok o.
Proof. intros H. unfold EqGptTrain.forward, decode. rewrite (proj2 (Nat.ltb_ge _ _) H). cbn [bind]. eauto. Qed.

(** The logits of the first [m] positions depend on the first [m] words only: neither later words nor padding matter. *)
Theorem C131_causal m t1 t2 o1 o2 : firstn m t1 = firstn m t2 -> nth 0 t1 0 <> 0 ->
  forward t1 = Ok o1 -> forward t2 = Ok o2 -> firstn m o1 = firstn m o2.
Proof.
  intros Et H0 E1 E2. unfold EqGptTrain.forward, decode in E1, E2.
  destruct (max_pos <? List.length t1); [discriminate|]. destruct (max_pos <? List.length t2); [discriminate|]. cbn [bind] in E1, E2.
  injection E1 as <-. injection E2 as <-. rewrite !firstn_map. f_equal. apply layers_prefix; [exact Et| |exact H0].
  rewrite !firstn_map, !firstn_combine_seq, Et. reflexivity.
Qed.
(** Fine-tuning scores each word with the logits from which sampling would draw it: in the padded row of a sentence, the
    logits at position [t] are those of [step] for the first [t+1] words. *)
Theorem C131_as_sampled d s n o t : Forall (fun k => k <> 0) s -> t < List.length s ->
  forward (pad n s) = Ok o -> step_logits V L emb layers project d (firstn (S t) s) = Ok (nth t o d).
Proof.
  intros F Ht E. unfold step_logits. destruct (forward_length _ _ E) as [El Hm].
  destruct (forward_ok (firstn (S t) s)) as [o' E']. { unfold pad in Hm. rewrite app_length in Hm. rewrite firstn_length. lia. }
  rewrite E'. cbn [bind]. f_equal. destruct (forward_length _ _ E') as [El' _].
  assert (firstn (S t) o' = firstn (S t) o) as Ep.
  { apply (C131_causal (S t) (firstn (S t) s) (pad n s)); [|destruct s as [|x s]; [cbn in Ht; lia|inversion F; cbn; assumption]|exact E'|exact E].
    unfold pad. rewrite firstn_firstn, Nat.min_id, firstn_app. replace (S t - List.length s) with 0 by lia. cbn [firstn]. rewrite app_nil_r. reflexivity. }
  rewrite firstn_all2 in Ep by (rewrite El', firstn_length; lia). rewrite Ep.
  assert (forall (l : list L), t < List.length l -> last (firstn (S t) l) d = nth t l d) as LN.
  { clear. induction t as [|t IH]; intros [|x l] Hl; cbn [List.length] in Hl; try lia; [reflexivity|]. cbn [nth]. rewrite <- IH by lia.
    destruct l as [|y l]; [cbn in Hl; lia|]. reflexivity. }
  apply LN. rewrite El. unfold pad. rewrite app_length. lia.
Qed.
End Causal.

(** ** The loss *)
Lemma pad_length n l : List.length l <= n -> List.length (pad n l) = n.
Proof. intros H. unfold pad. rewrite app_length, repeat_length. lia. Qed.
Lemma removelast_length {A} (l : list A) : List.length (removelast l) = List.length l - 1.
Proof. destruct l as [|x l] using rev_ind; [reflexivity|]. rewrite removelast_last, app_length. cbn. lia. Qed.
Lemma tl_length {A} (l : list A) : List.length (tl l) = List.length l - 1.
Proof. destruct l; cbn; lia. Qed.
Lemma nth_tl (l : list nat) t : nth t (tl l) 0 = nth (S t) l 0.
Proof. destruct l; [destruct t; reflexivity|reflexivity]. Qed.
Lemma removelast_firstn_eq {A} (l : list A) : removelast l = firstn (List.length l - 1) l.
Proof. destruct l as [|x l] using rev_ind; [reflexivity|]. rewrite removelast_last, app_length. cbn. replace (List.length l + 1 - 1) with (List.length l) by lia. rewrite firstn_app, firstn_all, Nat.sub_diag. cbn. rewrite app_nil_r. reflexivity. Qed.

Section Loss.
Variables (V L : Type) (emb : nat -> nat -> V) (layers : list (bool -> V -> list V -> V)) (project : V -> L).
Variables (nll : L -> nat -> Q) (d : L).
Notation forward := (forward V L emb layers project).
Notation step := (step_logits V L emb layers project d).

(** a sentence that can be trained on: no padding word, an input of at most 50 words *)
Definition trainable (s : list nat) : Prop := Forall (fun k => k <> 0) s /\ 2 <= List.length s <= S max_pos.

Lemma filter_all {A} (f : A -> bool) l : (forall x, In x l -> f x = true) -> filter f l = l.
Proof. induction l as [|x l IH]; intros F; cbn; [reflexivity|]. rewrite (F x (or_introl eq_refl)). f_equal. apply IH. intros y Hy. apply F. right. exact Hy. Qed.
Lemma row_terms n s o (lg : nat -> L) : trainable s -> List.length s - 1 <= n -> forward (pad n (removelast s)) = Ok o ->
  (forall t, t < List.length s - 1 -> step (firstn (S t) s) = Ok (lg t)) ->
  map (fun p => nll (fst p) (snd p)) (filter (fun p => negb (snd p =? 0)) (combine o (pad n (tl s)))) =
  map (fun t => nll (lg t) (nth (S t) s 0)) (seq 0 (List.length s - 1)).
Proof.
  intros [F Hl] Hn E Hs. destruct (forward_length _ _ _ _ _ _ _ E) as [El _]. rewrite pad_length in El by (rewrite removelast_length; exact Hn).
  set (k := List.length s - 1) in *. assert (List.length (tl s) = k) as Ek by apply tl_length.
  assert (combine o (pad n (tl s)) = combine (firstn k o) (tl s) ++ combine (skipn k o) (repeat 0 (n - k))) as ->.
  { unfold pad. rewrite <- (firstn_skipn k o) at 1. rewrite Ek. generalize (repeat 0 (n - k)). intros z.
    assert (List.length (firstn k o) = List.length (tl s)) as Ef by (rewrite firstn_length, Ek; lia).
    revert Ef. generalize (firstn k o) (skipn k o) (tl s). clear. intros a b c Ef. revert c Ef. induction a as [|x a IH]; intros [|y c] Ef; cbn in Ef; try lia; [reflexivity|].
    cbn. f_equal. apply IH. lia. }
  rewrite filter_app, (filter_none _ (combine (skipn k o) _)), app_nil_r.
  2:{ intros [a b] I. apply in_combine_r in I. apply repeat_spec in I. subst b. reflexivity. }
  rewrite filter_all.
  2:{ intros [a b] I. apply in_combine_r in I. cbn. destruct s as [|y s]; [destruct I|]. inversion F as [|? ? _ F']; subst. rewrite Forall_forall in F'. specialize (F' b I). destruct (Nat.eqb_spec b 0); [congruence|reflexivity]. }
  assert (firstn k o = map lg (seq 0 k)) as ->.
  { apply (nth_ext _ _ d (lg 0)); [rewrite firstn_length, map_length, seq_length; lia|]. intros t Ht. rewrite firstn_length in Ht.
    rewrite map_nth, seq_nth by lia. cbn [Nat.add].
    assert (t < k) as Htk by lia. pose proof (Hs t Htk) as H1.
    assert (Forall (fun j => j <> 0) (removelast s)) as Fr. { rewrite removelast_firstn_eq. rewrite <- (firstn_skipn (List.length s - 1) s) in F. apply Forall_app in F. tauto. }
    pose proof (C131_as_sampled V L emb layers project d (removelast s) n o t Fr) as H2. rewrite removelast_length in H2. specialize (H2 Htk E).
    replace (firstn (S t) (removelast s)) with (firstn (S t) s) in H2.
    2:{ rewrite removelast_firstn_eq, firstn_firstn. f_equal. lia. }
    rewrite H1 in H2. injection H2 as ->.
    rewrite <- (firstn_skipn k o) at 2. rewrite app_nth1 by (rewrite firstn_length; lia). reflexivity. }
  assert (tl s = map (fun t => nth (S t) s 0) (seq 0 k)) as ->.
  { apply (nth_ext _ _ 0 (nth 1 s 0)); [rewrite map_length, seq_length; exact Ek|]. intros t Ht. rewrite (map_nth (fun t => nth (S t) s 0)), seq_nth by lia. apply nth_tl. }
  generalize (seq 0 k). intros q. induction q as [|t q IH]; cbn; [reflexivity|]. f_equal. exact IH.
Qed.

(** The loss of a fine-tuning step is the mean, over all words of all training sentences after the start symbol, of the
    negative log probability that the model gives the word after the words before it; padding does not count. *)
Theorem C131_loss best (lg : list nat -> nat -> L) : best <> [] ->
  (forall s, In s best -> trainable (prepare s)) ->
  (forall s t, In s best -> t < List.length (prepare s) - 1 -> step (firstn (S t) (prepare s)) = Ok (lg (prepare s) t)) ->
  let terms := List.concat (map (fun s => map (fun t => nll (lg s t) (nth (S t) s 0)) (seq 0 (List.length s - 1))) (map prepare best)) in
  finetune_loss V L emb layers project nll best = Ok (qsum terms / inject_Z (Z.of_nat (List.length terms)))%Q /\
  List.length terms = fold_right (fun s n => (List.length (prepare s) - 1) + n) 0 best.
Proof.
  intros Hb Ht Hs terms. split.
  2:{ unfold terms. clear. induction best as [|s best IH]; cbn [map List.concat fold_right]; [reflexivity|]. rewrite app_length, IH, map_length, seq_length. reflexivity. }
  unfold finetune_loss, padding_batch.
  assert (map (fun d => List.length (snd d)) (map item (map prepare best)) = map (fun d => List.length (fst d)) (map item (map prepare best))) as Em.
  { rewrite !map_map. apply map_ext. intros s. cbn. rewrite tl_length, removelast_length. reflexivity. }
  rewrite Em. set (n := list_max _).
  assert (forall s, In s best -> List.length (prepare s) - 1 <= n <= max_pos) as Hn.
  { intros s I. split.
    - assert (Forall (fun k => k <= n) (map (fun d => List.length (fst d)) (map item (map prepare best)))) as F by (apply list_max_le; apply Nat.le_refl).
      rewrite Forall_forall in F. apply F. rewrite !map_map. apply in_map_iff. exists s. split; [cbn; apply removelast_length|exact I].
    - apply list_max_le. rewrite Forall_forall. intros k Hk. rewrite !map_map in Hk. apply in_map_iff in Hk as (s' & <- & I'). cbn. rewrite removelast_length. destruct (Ht s' I') as [_ Hl]. lia. }
  clearbody n. clear Em Hb.
  assert (exists os, mapM forward (map (fun p => pad n (fst p)) (map item (map prepare best))) = Ok os /\
    List.concat (map2 (fun o t => map (fun p => nll (fst p) (snd p)) (filter (fun p => negb (snd p =? 0)) (combine o t))) os (map (fun p => pad n (snd p)) (map item (map prepare best)))) = terms) as (os & E1 & E2).
  { unfold terms. clear terms. induction best as [|s best IH]; [exists []; split; reflexivity|].
    destruct IH as (os & E1 & E2); [intros; apply Ht; right; assumption|intros; apply Hs; [right; assumption|assumption]|intros; apply Hn; right; assumption|].
    destruct (forward_ok V L emb layers project (pad n (removelast (prepare s)))) as [o E]. { destruct (Hn s (or_introl eq_refl)). rewrite pad_length; [lia|rewrite removelast_length; lia]. }
    exists (o :: os). cbn [map item fst snd]. cbn [mapM]. rewrite E. cbn [bind]. rewrite E1. cbn [bind]. split; [reflexivity|].
    unfold map2 in *. cbn [combine map List.concat fst snd]. rewrite E2. f_equal.
    apply row_terms; [apply Ht; now left|apply Hn; now left|exact E|]. intros t Htt. apply Hs; [now left|exact Htt]. }
  rewrite E1. cbn [bind]. unfold batch_loss. rewrite E2. reflexivity.
Qed.
End Loss.

(** ** The sentences *)
Lemma prepare_format s : prepare s = format_tokens s.
Proof. reflexivity. Qed.
Lemma format_shape s : ~ In tS s -> format_tokens s = tS :: reported s ++ [tE].
Proof.
  intros N. pose proof (reported_eq s N) as R. unfold reported in *. unfold format_tokens in *. unfold delete_duplicate in *. rewrite last_last, Nat.eqb_refl, removelast_last in *.
  destruct (existsb _ _) eqn:X; [|cbn [tl]; rewrite removelast_last; reflexivity].
  exfalso. assert (forall l : list nat, l <> [] -> removelast (tl l) <> l) as Z.
  { intros l Hl E. apply (f_equal (@List.length nat)) in E. rewrite removelast_length, tl_length in E. destruct l; [congruence|cbn in E; lia]. }
  destruct (join_plus (keep [] (split_plus (chop s)))) as [|a l] eqn:El; [discriminate|]. apply (Z (a :: l)); [discriminate|exact R].
Qed.
Lemma join_length ps : ps <> [] -> S (List.length (join_plus ps)) = fold_right (fun p n => S (List.length p) + n) 0 ps.
Proof.
  induction ps as [|p ps IH]; [congruence|]. intros _. destruct ps as [|q ps]; [rewrite join_one; cbn; lia|].
  rewrite join_cons, app_length. cbn [List.length fold_right] in *. rewrite <- IH by discriminate. lia.
Qed.
Lemma keep_size segs : forall seen, fold_right (fun p n => S (List.length p) + n) 0 (keep seen segs) <= fold_right (fun p n => S (List.length p) + n) 0 segs.
Proof. induction segs as [|s r IH]; intros seen; cbn [keep]; [apply Nat.le_refl|]. destruct (existsb _ _); cbn [fold_right]; [specialize (IH seen)|specialize (IH (seen ++ [key s]))]; lia. Qed.
Lemma reported_length s : ~ In tS s -> List.length (reported s) <= List.length s.
Proof.
  intros N. rewrite reported_eq by exact N. destruct (kept_no_plus (chop s)) as [_ K].
  assert (List.length (chop s) <= List.length s) as Hc by (unfold chop; destruct (_ =? _); [rewrite removelast_length|]; lia).
  pose proof (join_length _ K) as J1. pose proof (keep_size (split_plus (chop s)) []) as J2.
  destruct (products_no_plus _ _ (split_products (chop s))) as [_ K2]. pose proof (join_length _ K2) as J3. rewrite join_split in J3. lia.
Qed.
Lemma join_incl ps x : In x (join_plus ps) -> x = tPlus \/ exists p, In p ps /\ In x p.
Proof.
  induction ps as [|p ps IH]; [intros []|]. destruct ps as [|q ps]; [rewrite join_one; intros I; right; exists p; split; [now left|exact I]|].
  rewrite join_cons. intros I. apply in_app_iff in I as [I|[<-|I]]; [right; exists p; split; [now left|exact I]|now left|].
  destruct (IH I) as [->|(p' & I1 & I2)]; [now left|]. right. exists p'. split; [now right|exact I2].
Qed.
Lemma in_split ps x p : In p ps -> In x p -> In x (join_plus ps).
Proof.
  induction ps as [|q ps IH]; [intros []|]. intros I J. destruct ps as [|r ps]; [destruct I as [<-|[]]; rewrite join_one; exact J|].
  rewrite join_cons. apply in_app_iff. destruct I as [<-|I]; [now left|right; right; auto].
Qed.
Lemma reported_incl s x : ~ In tS s -> In x (reported s) -> x = tPlus \/ In x s.
Proof.
  intros N I. rewrite reported_eq in I by exact N. apply join_incl in I as [->|(p & I1 & I2)]; [now left|]. right.
  apply keep_incl in I1. assert (In x (chop s)) as Y by (rewrite <- (join_split (chop s)); eapply in_split; eauto).
  unfold chop in Y. destruct (last s 0 =? tE); [|exact Y]. rewrite removelast_firstn_eq in Y. rewrite <- (firstn_skipn (List.length s - 1) s). apply in_app_iff. now left.
Qed.

(** Every stored candidate of a run is trained on as the start symbol, the words of the equation reported for it, and the
    end symbol; there is no padding word among them and the input fits the position table. *)
Theorem C132_sentences lsq lg cases epochs ls : sample_all lsq lg cases variables (mask_of variables) epochs = Some ls ->
  forall e s r, In e ls -> In (s, r) e ->
    prepare s = tS :: reported s ++ [tE] /\ equation_text s = String.concat "" (map word (reported s)) /\
    ~ In tS (reported s) /\ ~ In tE (reported s) /\ trainable (prepare s) /\ List.length (prepare s) <= max_pos.
Proof.
  intros H e s r I1 I2. destruct (C106_run _ _ _ _ _ H e s r I1 I2) as (NE & NS & _ & _).
  destruct (C105_run _ _ _ _ _ H e s r I1 I2) as (P & Hl & A).
  assert (forall x, In x s -> x <> 0) as NZ.
  { intros x Ix. apply In_nth_error in Ix as [i Ei]. destruct (Nat.lt_ge_cases i 2) as [Hi|Hi].
    - destruct s as [|a [|b s]]; try discriminate. cbn in P. injection P as -> ->. destruct i as [|[|i]]; cbn in Ei; [injection Ei as <-; discriminate|injection Ei as <-; discriminate|lia].
    - specialize (A i x Hi Ei). destruct (Nat.even i); [|lia]. destruct A as (T & _). unfold is_term in T. lia. }
  rewrite prepare_format, format_shape by exact NS. pose proof (reported_length s NS) as RL.
  split; [reflexivity|]. split; [reflexivity|].
  split; [intros X; apply reported_incl in X as [X|X]; [discriminate|auto|exact NS]|].
  split; [intros X; apply reported_incl in X as [X|X]; [discriminate|auto|exact NS]|].
  assert (List.length (tS :: reported s ++ [tE]) = 2 + List.length (reported s)) as EL by (cbn [List.length]; rewrite app_length; cbn [List.length]; lia).
  split; [split|].
  - constructor; [discriminate|]. apply Forall_app. split; [|repeat constructor; discriminate]. rewrite Forall_forall. intros x Ix. apply reported_incl in Ix as [->|Ix]; [discriminate|auto|exact NS].
  - rewrite EL. unfold max_pos. lia.
  - rewrite EL. unfold max_pos. lia.
Qed.
(** "Fine-tuning teaches only sentences that can be drawn" is false: a candidate cut off at 48 tokens is trained on with the end
    symbol behind an operator, where it is never drawn. *)
Theorem C132_unreachable_refuted : exists draws s, candidate (mask_of variables) draws = Some s /\
  prepare (chop s) = [tS; tUt; tPlus; tok "u"; tPlus; tE] /\ forall mask, allowed mask (List.length [tS; tUt; tPlus; tok "u"; tPlus]) tE = false.
Proof.
  exists (List.concat (repeat [tok "u"; tPlus] 23)). eexists. split; [vm_compute; reflexivity|]. split; [vm_compute; reflexivity|].
  intros mask. unfold allowed. cbn [List.length Nat.even]. apply andb_false_r.
Qed.
(** ** A concrete run of the decoder: one layer that adds up what it sees *)
Definition sum_layer (all_hidden : bool) (x : Z) (seen : list Z) : Z := (x + fold_right Z.add 0 seen)%Z.
Example C131_case :
  let fwd := forward Z Z (fun k p => Z.of_nat (k + p)) [sum_layer] (fun x => x) in
  fwd (pad 5 [5; 6; 2]) = Ok [10; 19; 20; 19; 20]%Z /\ fwd [5; 6] = Ok [10; 19]%Z /\
  finetune_loss Z Z (fun k p => Z.of_nat (k + p)) [sum_layer] (fun x => x) (fun l k => inject_Z (l + Z.of_nat k)) [[6; 2; 9]; [6; 2; 7; 3; 8]]
  = Ok (inject_Z (16 + 21 + 29 + 41 + (16 + 21 + 27 + 39 + 48 + 60)) / 10)%Q.
Proof. vm_compute. repeat split; reflexivity. Qed.
Print Assumptions C131_causal.
Print Assumptions C131_as_sampled.
Print Assumptions C131_loss.
Print Assumptions C132_sentences.
Print Assumptions C132_unreachable_refuted.
