(** C127: the probabilities from which expressions are drawn and those their training uses. *)
From Coq Require Import QArith.
From Verif Require Import Base Num Library Subroutines Prior PriorSpec PriorFacts EqGpt Controller ExampleLib PropsController.
Local Open Scope nat_scope.
Local Open Scope list_scope.

Lemma input_any lib m b b' o d : m_dangling m = false ->
  get_tensor_input lib m b (set_dangling o d) = get_tensor_input lib m b' o.
Proof. intros E. unfold get_tensor_input. rewrite E. reflexivity. Qed.
Lemma input_dangling lib m o x : get_tensor_input lib m true o = Ok x -> m_dangling m = false.
Proof.
  unfold get_tensor_input. destruct (if m_action m then _ else _); cbn [bind]; [|discriminate].
  destruct (if m_parent m then _ else _); cbn [bind]; [|discriminate]. destruct (if m_sibling m then _ else _); cbn [bind]; [|discriminate].
  destruct (m_dangling m); cbn [bind]; [discriminate|reflexivity].
Qed.
Lemma mapM_nth {A B} (f : A -> res B) (g : nat -> A) (h : nat -> B) n :
  (forall t, t < n -> f (g t) = Ok (h t)) -> forall k, k <= n -> mapM f (map g (seq (n - k) k)) = Ok (map h (seq (n - k) k)).
Proof.
  intros E. induction k as [|k IH]; intros Hk; [reflexivity|]. cbn [seq map mapM]. rewrite E by lia. cbn [bind].
  replace (S (n - S k)) with (n - k) by lia. rewrite IH by lia. reflexivity.
Qed.
Lemma list_of_nth {A} (l : list A) (f : nat -> A) n : List.length l = n -> (forall t, t < n -> nth_error l t = Some (f t)) -> l = map f (seq 0 n).
Proof.
  intros <-. revert f. induction l as [|a l IH]; intros f E; [reflexivity|]. cbn [List.length seq map]. f_equal.
  - specialize (E 0 ltac:(cbn; lia)). cbn in E. congruence.
  - rewrite <- seq_shift, map_map. apply IH. intros t Ht. apply (E (S t)). cbn. lia.
Qed.

Section Policy.
Variables (H : Type) (cell : H -> list Z -> list Q * H) (zero : H).
Variables (lib : library) (m : manager) (ps : list prior) (soft0 : nat -> Q) (soft : pobs -> nat -> Q).
Variables (draw : nat -> nat) (max_length : nat).
Notation sees := (seen lib).
Notation allows := (allowed lib ps soft0 soft).
Notation logits_at := (step_logits H cell zero lib m ps soft0 soft).

(** The state of the recurrent network after the inputs [xs]. *)
Definition state_after (xs : list (list Z)) : H := fold_left (fun h x => snd (cell h x)) xs zero.

Lemma unroll_nth n h xs : List.length xs = n ->
  unroll H cell h xs = map (fun t => fst (cell (fold_left (fun h x => snd (cell h x)) (firstn t xs) h) (nth t xs []))) (seq 0 n).
Proof.
  intros <-. revert h. induction xs as [|x xs IH]; intros h; [reflexivity|]. cbn [unroll List.length seq map firstn fold_left nth].
  destruct (cell h x) as [o h'] eqn:Ec. f_equal. rewrite IH, <- seq_shift, map_map. apply map_ext. intros t. cbn [firstn fold_left nth].
  rewrite Ec. reflexivity.
Qed.
Lemma map2_maps {A B C D} (f : A -> B -> C) (g : D -> A) (k : D -> B) l : map2 f (map g l) (map k l) = map (fun t => f (g t) (k t)) l.
Proof. unfold map2. induction l as [|a l IH]; cbn; [reflexivity|]. f_equal. exact IH. Qed.

(** *** C127 *)
(** The logits training computes for a sampled episode: at each step the same input and the same prior as in sampling, but
    the cell is in the state the earlier inputs led to, where sampling always used the zero state (C126_episode). *)
Theorem C127_training_logits s r : lib_ok lib ->
  sample_episode H cell zero lib m ps soft0 soft draw max_length = Ok s -> r_obs r = l_obs s -> r_priors r = l_priors s ->
  let n := Nat.max 1 max_length in
  let l := l_actions s in
  exists xs, List.length xs = n /\
    (forall t, t < n -> get_tensor_input lib m (t =? 0) (sees (firstn t l)) = Ok (nth t xs [])) /\
    train_logits H cell zero lib m r =
      Ok (map (fun t => add_logits (fst (cell (state_after (firstn t xs)) (nth t xs []))) (allows (firstn t l))) (seq 0 n)).
Proof.
  intros HL E Er1 Er2 n l. destruct (C126_episode _ _ _ _ _ _ _ _ _ _ s HL E) as (E1 & _ & E3 & E4 & E5). fold n l in E1, E3, E4, E5.
  assert (m_dangling m = false) as Hd. { destruct (E5 0) as ((x & Ex & _) & _); [unfold n; lia|]. eapply input_dangling; exact Ex. }
  set (h := fun t => match get_tensor_input lib m (t =? 0) (sees (firstn t l)) with Ok x => x | Err _ => [] end).
  assert (forall t, t < n -> get_tensor_input lib m (t =? 0) (sees (firstn t l)) = Ok (h t)) as Hh.
  { intros t Ht. destruct (E5 t Ht) as ((x & Ex & _) & _). unfold h. rewrite Ex. reflexivity. }
  exists (map h (seq 0 n)). rewrite map_length, seq_length. split; [reflexivity|].
  assert (forall t, t < n -> nth t (map h (seq 0 n)) [] = h t) as Hn.
  { intros t Ht. rewrite (nth_indep _ [] (h 0)) by (rewrite map_length, seq_length; exact Ht). rewrite map_nth. rewrite List.seq_nth by exact Ht. reflexivity. }
  split; [intros t Ht; rewrite Hn by exact Ht; auto|].
  unfold train_logits. rewrite Er1, Er2.
  rewrite (list_of_nth (l_obs s) (fun t => set_dangling (sees (firstn t l)) (dangling_of lib (firstn (S t) l))) n E3) by (intros t Ht; apply (E5 t Ht)).
  rewrite (list_of_nth (l_priors s) (fun t => allows (firstn t l)) n E4) by (intros t Ht; apply (E5 t Ht)).
  pose proof (mapM_nth (get_tensor_input lib m false) (fun t => set_dangling (sees (firstn t l)) (dangling_of lib (firstn (S t) l))) h n) as HM.
  specialize (HM ltac:(intros t Ht; cbv beta; rewrite (input_any lib m false (t =? 0)) by exact Hd; auto) n (le_n n)).
  rewrite Nat.sub_diag in HM. rewrite HM. cbn [bind]. f_equal.
  rewrite (unroll_nth n zero (map h (seq 0 n))) by (rewrite map_length, seq_length; reflexivity).
  rewrite map2_maps. reflexivity.
Qed.
(** The first token: training uses the distribution it was drawn from. *)
Theorem C127_first_token s r : lib_ok lib ->
  sample_episode H cell zero lib m ps soft0 soft draw max_length = Ok s -> r_obs r = l_obs s -> r_priors r = l_priors s ->
  exists lg lgs, logits_at [] = Ok lg /\ multinomial (draw 1) lg = Ok (nth 0 (l_actions s) 0) /\
    train_logits H cell zero lib m r = Ok (lg :: lgs).
Proof.
  intros HL E Er1 Er2. destruct (C127_training_logits s r HL E Er1 Er2) as (xs & X1 & X2 & X3).
  destruct (C126_episode _ _ _ _ _ _ _ _ _ _ s HL E) as (_ & _ & _ & _ & E5).
  destruct (E5 0) as ((x & Ex & Em) & _); [lia|]. specialize (X2 0 ltac:(lia)). cbn [firstn] in *. rewrite Ex in X2. injection X2 as X2.
  destruct (Nat.max 1 max_length) as [|k] eqn:Ek; [lia|]. cbn [seq map firstn] in X3. unfold state_after in X3. cbn [fold_left] in X3. rewrite <- X2 in X3.
  eexists _, _. split; [|split; [|exact X3]]; [|exact Em]. unfold step_logits. cbn [List.length Nat.eqb] in *. rewrite Ex. reflexivity.
Qed.
(** If the cell's output did not depend on its state, training would use the sampling distribution at every step. *)
Theorem C127_stateless s r : lib_ok lib -> (forall h x, fst (cell h x) = fst (cell zero x)) ->
  sample_episode H cell zero lib m ps soft0 soft draw max_length = Ok s -> r_obs r = l_obs s -> r_priors r = l_priors s ->
  exists lgs, train_logits H cell zero lib m r = Ok lgs /\
    forall t, t < Nat.max 1 max_length -> logits_at (firstn t (l_actions s)) = Ok (nth t lgs []).
Proof.
  intros HL Hc E Er1 Er2. destruct (C127_training_logits s r HL E Er1 Er2) as (xs & X1 & X2 & X3).
  destruct (C126_episode _ _ _ _ _ _ _ _ _ _ s HL E) as (E1 & _). eexists. split; [exact X3|]. intros t Ht.
  match goal with |- context [nth t (map ?f _) []] => rewrite (nth_indep _ [] (f 0)) by (rewrite map_length, seq_length; exact Ht); rewrite (map_nth f) end.
  rewrite List.seq_nth by exact Ht. cbn [Nat.add]. rewrite Hc. unfold step_logits. rewrite firstn_length, Nat.min_l by lia. rewrite (X2 t Ht). reflexivity.
Qed.
(** Sampling has no memory: the next token is drawn from the same logits after any two histories with the same parent,
    sibling, previous token and prior, whatever came before. *)
Theorem C127_memoryless l1 l2 : l1 <> [] -> l2 <> [] ->
  ob_parent (sees l1) = ob_parent (sees l2) -> ob_sibling (sees l1) = ob_sibling (sees l2) ->
  (m_action m = true -> last l1 0 = last l2 0) -> (m_dangling m = true -> dangling_of lib l1 = dangling_of lib l2) ->
  allows l1 = allows l2 -> logits_at l1 = logits_at l2.
Proof.
  intros N1 N2 Ep Es Ea Ed El. unfold step_logits. rewrite El.
  assert (get_tensor_input lib m (List.length l1 =? 0) (sees l1) = get_tensor_input lib m (List.length l2 =? 0) (sees l2)) as ->; [|reflexivity].
  replace (List.length l1 =? 0) with false by (destruct l1; [congruence|reflexivity]).
  replace (List.length l2 =? 0) with false by (destruct l2; [congruence|reflexivity]).
  assert (forall l, l <> [] -> ob_action (sees l) = last l 0) as Ha.
  { intros l Hl. unfold seen. destruct (obs_of_Ok lib l Hl) as (o & ->). reflexivity. }
  unfold get_tensor_input. rewrite !Ha, Ep, Es, !seen_dangling by assumption.
  destruct (m_action m); [rewrite Ea by reflexivity|]; (destruct (m_dangling m); [rewrite Ed by reflexivity|]; reflexivity).
Qed.
End Policy.

(** The full statement - training uses the distribution the tokens were drawn from - is false: a recurrent cell that
    counts its inputs, the example library of the default operators without priors, five tokens. *)
Definition counting_cell (h : Q) (x : list Z) : list Q * Q := (h :: repeat 0%Q 10, (h + 1)%Q).
Theorem C127_refuted : exists s lgs,
  sample_episode Q counting_cell 0%Q ex_lib default_manager [] (fun _ => 0%Q) (fun _ _ => 0%Q) (fun t => t) 5 = Ok s /\
  l_actions s = [1; 2; 3; 4; 5] /\
  train_logits Q counting_cell 0%Q ex_lib default_manager (mkRow (l_actions s) (l_obs s) (l_priors s) 5 (Fin 1)) = Ok lgs /\
  step_logits Q counting_cell 0%Q ex_lib default_manager [] (fun _ => 0%Q) (fun _ _ => 0%Q) [1] = Ok (repeat (Some (0 + 0)%Q) 11) /\
  nth 1 lgs [] = Some ((0 + 1) + 0)%Q :: repeat (Some (0 + 0)%Q) 10.
Proof. eexists _, _. vm_compute. repeat split; reflexivity. Qed.
(** The sampled episode of the example is a beginning of an expression, with the recorded open slots those after each step. *)
Theorem C126_example : exists s,
  sample_episode Q counting_cell 0%Q ex_lib default_manager [length_prior ex_lib (Some 3) (Some 5)] (fun _ => 0%Q) (fun _ _ => 0%Q) (fun t => t) 5 = Ok s /\
  l_actions s = [1; 2; 8; 9; 10] /\ map ob_dangling (l_obs s) = [2; 3; 2; 1; 0]%Z /\
  map ob_parent (l_obs s) = [8; 1; 2; 2; 1]%Z /\ map ob_sibling (l_obs s) = [11; 11; 11; 8; 2].
Proof. eexists. vm_compute. repeat split; reflexivity. Qed.
Print Assumptions C127_training_logits.
Print Assumptions C127_first_token.
Print Assumptions C127_stateless.
Print Assumptions C127_memoryless.
Print Assumptions C127_refuted.
Print Assumptions C126_example.
