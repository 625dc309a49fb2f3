(** Composite lemmas behind the property theorems on tokens and programs. *)
From Verif Require Import Base Trees TreeFacts TreePos Library LibraryFacts Program ProgramFacts CacheFacts
  Subroutines SubroutinesFacts Prior PriorSpec PriorFacts LengthFacts CheckFacts ExampleLib.

Lemma completion_full toks lib rnd tokens :
  tokens_ok toks -> make_library toks = Ok lib -> in_lib lib tokens -> tokens <> [] -> choice_ok lib rnd ->
  exists r, finish_tokens lib 1 rnd tokens = Ok r /\ complete (ar_of lib) r /\
    ((exists rest, tokens = r ++ rest) \/
     ((forall p q, tokens = p ++ q -> ~ complete (ar_of lib) p) /\
      exists pad, r = tokens ++ pad /\ Forall (fun t => In t (linput_tokens lib)) pad)) /\
    (forall p q, tokens = p ++ q -> complete (ar_of lib) p -> p = r) /\
    (forall rnd', choice_ok lib rnd' -> finish_tokens lib 1 rnd' r = Ok r).
Proof.
  intros H1 H2 H3 H4 H5. destruct (finish_complete _ _ H1 H2 _ _ H3 H4 H5) as (r & E & C & D).
  exists r. split; [exact E|]. split; [exact C|]. split; [exact D|]. split.
  - intros p q Ep Cp. destruct D as [(rest & Er)|(Hn & _)].
    + exact (complete_prefix_unique _ _ _ _ _ _ Ep Er Cp C).
    + exfalso. eapply Hn; eauto.
  - intros rnd' Hr. apply (finish_complete_id toks lib H2); [|exact C|exact Hr].
    exact (finish_in_range toks lib H1 H2 rnd tokens r H3 H5 E).
Qed.

Lemma nth_error_nil {A} i : nth_error (@nil A) i = None.
Proof. destruct i; reflexivity. Qed.

(** *** Histories of program requests *)
Definition returning (i : nat) (tr : list (request * res nat)) : list (request * res nat) :=
  filter (fun e => match snd e with Ok j => Nat.eqb j i | Err _ => false end) tr.

Lemma filter_split {A} (f g h : A -> bool) l :
  (forall x, In x l -> f x = xorb (g x) (h x) /\ (g x && h x)%bool = false) ->
  List.length (filter g l) + List.length (filter h l) = List.length (filter f l).
Proof.
  induction l as [|x l IH]; intros H; [reflexivity|]. cbn [filter].
  destruct (H x (or_introl eq_refl)) as [E1 E2]. specialize (IH (fun y Hy => H y (or_intror Hy))).
  rewrite E1. destruct (g x), (h x); cbn in *; try discriminate; lia.
Qed.

Lemma cache_history toks lib st qs s tr :
  tokens_ok toks -> make_library toks = Ok lib -> (Z.of_nat (lL lib) <= 256 ^ 4)%Z ->
  Forall (req_ok lib) qs -> run_requests lib st p_init qs = (s, tr) ->
  map fst tr = qs /\
  (forall q i, In (q, Ok i) tr -> exists l, completed lib q = Ok l /\ tokens_at s i = Some l) /\
  (forall q e, In (q, Err e) tr -> completed lib q = Err e) /\
  (forall q q' i j l, In (q, Ok i) tr -> In (q', Ok j) tr ->
     q_skip q || st = false -> q_skip q' || st = false -> q_width q = q_width q' ->
     completed lib q = Ok l -> completed lib q' = Ok l -> i = j) /\
  (forall i, on_at s i + off_at s i = List.length (returning i tr)) /\
  (forall i, on_at s i = List.length (filter (fun e => q_on (fst e)) (returning i tr))).
Proof.
  intros H1 H2 H3 HF E.
  destruct (run_requests_inv _ _ _ H1 H2 H3 qs _ _ _ (CInv_init lib) HF E) as (A & B & C & D & F & G & H & I).
  split; [exact B|]. split; [|split; [exact G|]].
  { intros q i Hin. destruct (F q i Hin) as (l & L1 & L2 & _). eauto. }
  split; [|split].
  - intros q q' i j l Hi Hj S1 S2 W C1 C2.
    destruct (F q i Hi) as (l1 & L1 & L2 & L3). destruct (F q' j Hj) as (l2 & M1 & M2 & M3).
    rewrite C1 in L1. rewrite C2 in M1. injection L1 as <-. injection M1 as <-.
    specialize (L3 S1). specialize (M3 S2). rewrite W in L3. congruence.
  - intros i. rewrite H, I. unfold on_at, off_at. cbn [p_init p_heap]. rewrite !nth_error_nil. cbn [Nat.add].
    unfold returning. apply filter_split. intros [q a] _. unfold returned. cbn [fst snd]. destruct a as [k|]; [|auto].
    destruct (Nat.eqb k i), (q_on q); auto.
  - intros i. rewrite H. unfold on_at. cbn [p_init p_heap]. rewrite !nth_error_nil. cbn [Nat.add].
    unfold returning. clear. induction tr as [|[q a] tr IH]; [reflexivity|]. cbn [filter]. unfold returned at 1. cbn [fst snd].
    destruct a as [k|]; [|exact IH]. destruct (Nat.eqb k i); cbn [andb]; [|exact IH]. cbn [filter fst].
    destruct (q_on q); cbn [Bool.eqb]; cbn [List.length]; auto.
Qed.

(** *** Library index arithmetic *)
Lemma library_partition toks lib : make_library toks = Ok lib -> (forall t, In t toks -> tarity t <= 2) ->
  forall i, i < List.length toks <-> In i (lterminal lib) \/ In i (lunary lib) \/ In i (lbinary lib).
Proof.
  intros E H i. pose proof (make_library_inv _ _ E) as (_ & _ & _ & _ & -> & -> & -> & _).
  rewrite !tokens_of_arity_In. split.
  - intros Hi. destruct (nth_error toks i) as [t|] eqn:En; [|apply nth_error_None in En; lia].
    assert (tarity t <= 2) by (apply H; eapply nth_error_In; eauto).
    destruct (tarity t) as [|[|[|n]]] eqn:Ea; [left|right; left|right; right|lia]; eauto.
  - intros [(t & En & _)|[(t & En & _)|(t & En & _)]]; apply nth_error_Some; congruence.
Qed.

Lemma library_disjoint toks lib : make_library toks = Ok lib ->
  (forall i, ~ (In i (lterminal lib) /\ In i (lunary lib))) /\
  (forall i, ~ (In i (lterminal lib) /\ In i (lbinary lib))) /\
  (forall i, ~ (In i (lunary lib) /\ In i (lbinary lib))) /\
  NoDup (lterminal lib) /\ NoDup (lunary lib) /\ NoDup (lbinary lib).
Proof.
  intros E. pose proof (make_library_inv _ _ E) as (_ & _ & _ & _ & -> & -> & -> & _).
  repeat split; try apply indices_NoDup; intros i; rewrite !tokens_of_arity_In; intros ((t & E1 & A1) & (t' & E2 & A2)); congruence.
Qed.

Lemma library_parents toks lib : make_library toks = Ok lib ->
  (forall i t, nth_error toks i = Some t ->
     (tarity t = 0 -> padj_of lib i = (-1)%Z) /\
     (0 < tarity t -> (0 <= padj_of lib i < Z.of_nat (lEMPTY_PARENT lib))%Z)) /\
  (forall i j t t', nth_error toks i = Some t -> nth_error toks j = Some t' -> 0 < tarity t -> 0 < tarity t' ->
     padj_of lib i = padj_of lib j -> i = j) /\
  (forall n, n < lEMPTY_PARENT lib -> exists i t, nth_error toks i = Some t /\ 0 < tarity t /\ padj_of lib i = Z.of_nat n) /\
  lEMPTY_ACTION lib = List.length toks /\ lEMPTY_SIBLING lib = List.length toks.
Proof.
  intros E. pose proof (make_library_inv _ _ E) as (_ & HL & _ & Ha & _ & _ & _ & Hp & H1 & H2 & H3 & _).
  assert (V : forall i t, nth_error toks i = Some t ->
     padj_of lib i = if Nat.ltb 0 (tarity t) then Z.of_nat (nonterm_before (map tarity toks) i) else (-1)%Z).
  { intros i t En. unfold padj_of. rewrite Hp.
    assert (nth_error (map tarity toks) i = Some (tarity t)) as Em by (rewrite nth_error_map, En; reflexivity).
    rewrite (nth_error_nth _ _ _ (parent_adjust_nth _ 0%Z _ _ Em)). destruct (Nat.ltb 0 (tarity t)); lia. }
  assert (M : forall i t, nth_error toks i = Some t -> 0 < tarity t -> nonterm_before (map tarity toks) i < lEMPTY_PARENT lib).
  { intros i t En Hpos. rewrite H3, nonterm_total.
    assert (i < List.length toks) by (apply nth_error_Some; congruence).
    eapply nonterm_before_mono; [eassumption|rewrite nth_error_map, En; reflexivity|].
    apply Nat.ltb_lt. exact Hpos. }
  split; [|split; [|split; [|auto]]].
  - intros i t En. rewrite (V _ _ En). split; intros Hz.
    + rewrite Hz. reflexivity.
    + destruct (Nat.ltb_spec 0 (tarity t)); [|lia]. specialize (M _ _ En Hz). lia.
  - intros i j t t' Ei Ej Hi Hj Heq. rewrite (V _ _ Ei), (V _ _ Ej) in Heq.
    destruct (Nat.ltb_spec 0 (tarity t)); [|lia]. destruct (Nat.ltb_spec 0 (tarity t')); [|lia].
    destruct (Nat.lt_trichotomy i j) as [Hlt|[Heq'|Hgt]]; [|assumption|].
    + exfalso. assert (nonterm_before (map tarity toks) i < nonterm_before (map tarity toks) j); [|lia].
      eapply nonterm_before_mono; [exact Hlt|rewrite nth_error_map, Ei; reflexivity|]. apply Nat.ltb_lt; auto.
    + exfalso. assert (nonterm_before (map tarity toks) j < nonterm_before (map tarity toks) i); [|lia].
      eapply nonterm_before_mono; [exact Hgt|rewrite nth_error_map, Ej; reflexivity|]. apply Nat.ltb_lt; auto.
  - intros n Hn. rewrite H3, nonterm_total in Hn. rewrite <- (map_length tarity toks) in Hn.
    destruct (nonterm_before_surj _ _ Hn) as (i & a & En & Hpos & Hb).
    rewrite nth_error_map in En. destruct (nth_error toks i) as [t|] eqn:Et; [|discriminate].
    cbn in En. injection En as <-. exists i, t. split; [exact Et|]. apply Nat.ltb_lt in Hpos. split; [exact Hpos|].
    rewrite (V _ _ Et). destruct (Nat.ltb_spec 0 (tarity t)); [|lia]. lia.
Qed.

Lemma names_roundtrip toks lib : make_library toks = Ok lib -> NoDup (map tname toks) ->
  forall l, Forall (fun i => i < List.length toks) l ->
  actionize lib (map (fun i => KStr (nth i (lnames lib) EmptyString)) l) = Ok l.
Proof.
  intros E ND l H. unfold actionize. 
  pose proof (make_library_inv _ _ E) as (_ & _ & Hn & _).
  assert (exists ts, mapM (getitem lib) (map (fun i => KStr (nth i (lnames lib) EmptyString)) l) = Ok ts /\ map fst ts = l) as (ts & -> & Et).
  { induction H as [|i l Hi _ (ts & IH1 & IH2)]; [exists []; auto|].
    destruct (nth_error toks i) as [t|] eqn:En; [|apply nth_error_None in En; lia].
    exists ((i, t) :: ts). cbn [map mapM].
    assert (nth i (lnames lib) EmptyString = tname t) as ->.
    { rewrite Hn. apply nth_error_nth. rewrite nth_error_map, En. reflexivity. }
    rewrite (getitem_name _ _ _ _ E ND En). cbn [bind]. rewrite IH1. cbn [bind map fst]. rewrite IH2. auto. }
  cbn [bind]. rewrite Et. reflexivity.
Qed.

(** *** Ancestor masks *)
Lemma existsb_memb eff l : existsb (fun a => memb a eff) l = true <-> exists e, In e eff /\ In e l.
Proof.
  rewrite existsb_exists. split.
  - intros (e & H1 & H2). apply memb_In in H2. eauto.
  - intros (e & H1 & H2). exists e. split; [assumption|]. apply memb_In; assumption.
Qed.
Lemma ancestor_mask_first_arg lib eff prev c :
  Forall (respects (ar_of lib)) prev -> ctx_ok (ar_of lib) c -> (forall e, In e eff -> 0 < ar_of lib e) ->
  (ancestors (ar_of lib) eff (flat_map preorder prev ++ before c) = true <->
   exists e, In e eff /\ In e (first_arg_ancestors c)).
Proof. intros H1 H2 H3. rewrite (ancestors_ctx (ar_of lib) (fun _ => 0%Z) eff H3) by assumption. apply existsb_memb. Qed.
Lemma ancestor_mask_unary lib eff prev c :
  Forall (respects (ar_of lib)) prev -> ctx_ok (ar_of lib) c -> (forall e, In e eff -> ar_of lib e = 1) ->
  (ancestors (ar_of lib) eff (flat_map preorder prev ++ before c) = true <->
   exists e, In e eff /\ In e (ancestors_of c)).
Proof. intros H1 H2 H3. rewrite (ancestors_ctx (ar_of lib) (fun _ => 0%Z) eff) by (assumption || (intros e He; rewrite (H3 e He); lia)). rewrite (first_arg_unary _ _ H2 _ H3). apply existsb_memb. Qed.
