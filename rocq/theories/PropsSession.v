(** C148: several DISCOVER models in one process. *)
From Coq Require Import QArith.
From Verif Require Import Base Num Library Program CacheFacts Tokens Searcher Session SessionFacts.
Local Open Scope nat_scope.

(** ** Specification *)
Definition model_of {T} (o : op T) : nat := match o with Import m _ | Train m _ | Step m _ | Plot m => m end.
(** who imported last, and what *)
Definition last_import {T} (h : list (op T)) : option (nat * T) := fold_left (fun x o => match o with Import m t => Some (m, t) | _ => x end) h None.
(** token indices are int64 *)
Definition op_ok {T} (o : op T) : Prop := match o with Train _ bs => Forall (Forall draw_ok) bs | Step _ b => Forall draw_ok b | _ => True end.
Definition trains {T} (m : nat) (o : op T) : Prop := (exists bs, o = Train m bs) \/ (exists b, o = Step m b).
(** task [t] was the process's current task when [m] trained, since [m]'s last import *)
Definition was_current {T} (m : nat) (h : list (op T)) (t : T) : Prop :=
  exists h1 o h2 k, h = h1 ++ o :: h2 /\ trains m o /\ last_import h1 = Some (k, t) /\ forall t', ~ In (Import m t') h2.
(** every call of [m] other than an import comes when [m] was the last to import *)
Definition own_data {T} (m : nat) (h : list (op T)) : Prop :=
  forall h1 o h2, h = h1 ++ o :: h2 -> model_of o = m -> (forall t, o <> Import m t) -> exists t, last_import h1 = Some (m, t).
(** the outputs of [m]'s calls *)
Definition outs_of {T} (m : nat) (h : list (op T)) (l : list (out T)) : list (out T) :=
  map snd (filter (fun p => Nat.eqb (model_of (fst p)) m) (combine h l)).
Definition of_model {T} (m : nat) (o : op T) : bool := Nat.eqb (model_of o) m.

Section Proofs.
Context {T : Type} (lib_of : T -> library) (score : T -> list token -> num * bool) (eps : Q) (last : list num -> nat).
Notation session := (session lib_of score eps last).
Notation act := (act lib_of score eps last).
Notation steps := (steps lib_of score eps last).
Notation one_step := (one_step lib_of score eps last).
Notation good := (good lib_of score).
Notation is_prog := (is_prog score).
Lemma last_import_snoc (h : list (op T)) o : last_import (h ++ [o]) = match o with Import m t => Some (m, t) | _ => last_import h end.
Proof. unfold last_import. rewrite fold_left_app. reflexivity. Qed.

(** ** Where the programs of a searcher come from *)
Definition over (t : T) (e : list token) : Prop := Forall (fun x => In x (ltokens (lib_of t))) e.
Definition okp (c : cls T) (W : T -> Prop) (p : prog) : Prop := exists t e, W t /\ is_prog c t p e /\ over t e.
Definition okb (c : cls T) (W : T -> Prop) (s : sstate) : Prop := match s_best s with Some p => okp c W p | None => True end.
Lemma trav_over t l : forall e, trav_of lib_of t l = Ok e -> over t e.
Proof.
  unfold trav_of, over. induction l as [|j l IH]; cbn [mapM]; intros e E; [injection E as <-; constructor|]. destruct (nth_error _ j) as [x|] eqn:N; cbn [bind] in E; [|discriminate].
  destruct (mapM _ l) as [e'|] eqn:M; cbn [bind] in E; [|discriminate]. injection E as <-. constructor; [eapply nth_error_In; exact N|apply IH; reflexivity].
Qed.
Lemma expr_over t d e : expr lib_of t d = Ok e -> over t e.
Proof. unfold expr. destruct (finish_tokens _ _ _ _); cbn [bind]; [apply trav_over|discriminate]. Qed.
Lemma exprs_over t ds : forall es, mapM (expr lib_of t) ds = Ok es -> Forall (over t) es.
Proof.
  induction ds as [|d ds IH]; cbn [mapM]; intros es E; [injection E as <-; constructor|]. destruct (expr lib_of t d) as [e|] eqn:X; cbn [bind] in E; [|discriminate].
  destruct (mapM _ ds) as [es'|]; cbn [bind] in E; [|discriminate]. injection E as <-. constructor; [eapply expr_over; exact X|apply IH; reflexivity].
Qed.
Lemma okp_ext c c' (W W' : T -> Prop) p : ext (c_heap c) (c_heap c') -> (forall t, W t -> W' t) -> okp c W p -> okp c' W' p.
Proof. intros X M (t & e & A & B & C). exists t, e. split; [auto|]. split; [eapply is_prog_ext; eassumption|exact C]. Qed.
Lemma okb_ext c c' (W W' : T -> Prop) s : ext (c_heap c) (c_heap c') -> (forall t, W t -> W' t) -> okb c W s -> okb c' W' s.
Proof. unfold okb. destruct (s_best s); [|auto]. apply okp_ext. Qed.
Lemma one_step_inv (W : T -> Prop) t b c s : Forall draw_ok b -> good c -> c_task c = Some t -> W t -> okb c W s ->
  match one_step c s b with
  | Ok (c', (s', r)) => good c' /\ c_task c' = Some t /\ ext (c_heap c) (c_heap c') /\ okb c' W s' /\ (forall p, r = Some p -> okp c' (eq t) p)
  | Err _ => True
  end.
Proof.
  intros D G Ht HW HB. pose proof (one_step_ok lib_of score eps last t b D c s G Ht) as K. destruct (mapM (expr lib_of t) b) as [es|x] eqn:EM; [|rewrite K; exact I].
  destruct K as (c' & ps & G' & T' & X' & F' & E). rewrite E.
  pose proof (exprs_over t b es EM) as OV.
  assert (FP : Forall (okp c' (eq t)) ps). { clear - F' OV. induction F' as [|p e ps es H F IH]; constructor; inversion OV; subst; [exists t, e; split; [reflexivity|split; assumption]|apply IH; assumption]. }
  set (R := fun p q : prog => p = q /\ okp c' W p). assert (HR : forall p q, R p q -> p_r p = p_r q /\ p_invalid p = p_invalid q /\ Searcher.p_on p = Searcher.p_on q) by (intros p q [-> _]; auto).
  assert (FR : Forall2 R ps ps). { clear - FP HW R. induction FP as [|p ps H F IH]; constructor; [|exact IH]. split; [reflexivity|]. destruct H as (t' & e & <- & H). exists t, e. split; [exact HW|exact H]. }
  assert (SR : srel R s s). { unfold srel. split; [reflexivity|]. split; [reflexivity|]. split; [reflexivity|]. unfold okb in HB. destruct (s_best s); [|exact I]. split; [reflexivity|]. apply (okp_ext c c' W W); [exact X'|intros ? X; exact X|exact HB]. }
  pose proof (step_rel R HR eps last ps ps s s FR SR) as ST.
  assert (HR2 : forall p q, p = q /\ okp c' (eq t) p -> p_r p = p_r q /\ p_invalid p = p_invalid q /\ Searcher.p_on p = Searcher.p_on q) by (intros p q [-> _]; auto).
  assert (RES : forall s1 p, search_one_step eps last (batch_of ps) s = Ok (s1, Some p) -> okp c' (eq t) p).
  { clear - FP. intros s1 p. unfold search_one_step, batch_of. cbn [b_programs b_actions b_obs b_priors b_agg].
    pose proof (select_rel (fun p q => p = q /\ okp c' (eq t) p) ltac:(intros ? ? [-> _]; auto) (rows_of ps) (rows_of ps) (rows_of ps) (map p_r ps) eps ps ps) as SEL.
    assert (FF : Forall2 (fun p q => p = q /\ okp c' (eq t) p) ps ps) by (clear SEL; induction FP; constructor; auto). specialize (SEL FF).
    destruct (quantile_select _ _ _ ps _ eps) as [[e|]|x]; cbn [bind]; [| |discriminate].
    - destruct SEL as (P1 & _). destruct (npmax (e_full_valid e)) as [rm|]; cbn [bind]; [|discriminate]. pose proof (rel_nth _ _ _ P1 (last (e_r e))) as N. destruct (nth_error (e_programs e) (last (e_r e))) as [q|]; [|discriminate].
      intros E. injection E as _ <-. destruct N as [_ N]. exact N.
    - destruct ps as [|p0 ps]; [discriminate|]. destruct (nth_error (map p_r (p0 :: ps)) _); [|discriminate]. destruct (nth_error (p0 :: ps) _); [|discriminate]. destruct (_ && _); discriminate. }
  destruct (search_one_step eps last (batch_of ps) s) as [[s1 r]|x]; [|exact I]. destruct ST as [S1 S2].
  split; [exact G'|]. split; [exact T'|]. split; [exact X'|]. split.
  - unfold okb. destruct S1 as (_ & _ & _ & S1). destruct (s_best s1); [|exact I]. destruct S1 as [_ S1]. exact S1.
  - intros p ->. eapply RES. reflexivity.
Qed.
Lemma steps_inv (W : T -> Prop) t bs : Forall (Forall draw_ok) bs -> W t -> forall c s, good c -> c_task c = Some t -> okb c W s ->
  let '(c', s', _) := steps c s bs in good c' /\ c_task c' = Some t /\ ext (c_heap c) (c_heap c') /\ okb c' W s'.
Proof.
  intros D HW. induction D as [|b bs Hb F IH]; intros c s G Ht HB; cbn [Session.steps].
  - split; [exact G|]. split; [exact Ht|]. split; [apply ext_refl|exact HB].
  - pose proof (one_step_inv W t b c s Hb G Ht HW HB) as K. destruct (one_step c s b) as [[c1 [s1 r]]|x]; [|split; [exact G|]; split; [exact Ht|]; split; [apply ext_refl|exact HB]].
    destruct K as (G1 & T1 & X1 & B1 & _). specialize (IH c1 s1 G1 T1 B1). destruct (steps c1 s1 bs) as [[c2 s2] e2]. destruct IH as (G2 & T2 & X2 & B2).
    split; [exact G2|]. split; [exact T2|]. split; [eapply ext_trans; eassumption|exact B2].
Qed.
Lemma okb_set_up c W : okb c W set_up.
Proof. exact I. Qed.
Lemma okb_restart c W s : okb c W s -> okb c W (if s_queued s then set_up else s).
Proof. destruct (s_queued s); [intros _; apply okb_set_up|auto]. Qed.
(** what holds after any history *)
Definition inv (h : list (op T)) (c : cls T) (ms : models) : Prop :=
  good c /\ c_task c = option_map snd (last_import h) /\ (forall m s, ms m = Some s -> okb c (was_current m h) s /\ c_task c <> None).
Definition reported (c : cls T) (W : T -> Prop) (r : num) (names : list string) : Prop :=
  exists t e, W t /\ r = fst (score t e) /\ names = map tname e /\ over t e.
Lemma okp_report c W p : okp c W p -> reported c W (p_r p) (names_at (c_heap c) (p_id p)).
Proof.
  intros (t & e & A & ((o & Ho & E) & R & _) & C). exists t, e. split; [exact A|]. split; [rewrite <- R; reflexivity|]. split; [|exact C]. unfold names_at. rewrite Ho, E. reflexivity.
Qed.
Lemma was_later m (h : list (op T)) o t : (forall t', o <> Import m t') -> was_current m h t -> was_current m (h ++ [o]) t.
Proof.
  intros N (h1 & o1 & h2 & k & -> & A & B & C). exists h1, o1, (h2 ++ [o]), k. split; [rewrite <- app_assoc; reflexivity|]. split; [exact A|]. split; [exact B|].
  intros t' I. apply in_app_or in I. destruct I as [I|[I|[]]]; [exact (C t' I)|exact (N t' I)].
Qed.
Lemma was_now m (h : list (op T)) o t k : trains m o -> last_import h = Some (k, t) -> was_current m (h ++ [o]) t.
Proof. intros A B. exists h, o, [], k. auto. Qed.
Lemma act_inv h c ms o : inv h c ms -> op_ok o ->
  let '(c', ms', x) := act c ms o in
  inv (h ++ [o]) c' ms' /\ ext (c_heap c) (c_heap c') /\ (forall k, k <> model_of o -> ms' k = ms k) /\
  (forall r names, x = Report r names -> reported c' (was_current (model_of o) (h ++ [o])) r names) /\
  (forall t r names, x = Fields t r names -> c_task c = Some t /\ reported c' (was_current (model_of o) (h ++ [o])) r names).
Proof.
  intros (G & Ht & HM) OK.
  assert (TK : forall m s, ms m = Some s -> exists k t, last_import h = Some (k, t) /\ c_task c = Some t).
  { intros m s E. destruct (HM m s E) as [_ N]. destruct (last_import h) as [[k t]|]; cbn in Ht; [eauto|congruence]. }
  destruct o as [m t|m bs|m b|m]; cbn [Session.act model_of].
  - split; [|split; [apply ext_refl|split; [|split; discriminate]]].
    + split; [|split].
      * unfold SessionFacts.good. cbn. discriminate.
      * rewrite last_import_snoc. reflexivity.
      * intros k s. unfold put. destruct (Nat.eqb_spec k m) as [->|N]; [intros [= <-]; split; [apply okb_set_up|discriminate]|]. intros E. destruct (HM k s E) as [B _]. split; [|discriminate].
        revert B. apply okb_ext; [apply ext_refl|]. intros t'. apply was_later. congruence.
    + intros k N. unfold put. destruct (Nat.eqb_spec k m); congruence.
  - destruct (ms m) as [s|] eqn:Em.
    + destruct (TK m s Em) as (k & t & HL & HT). destruct (HM m s Em) as [B _].
      assert (WN : was_current m (h ++ [Train m bs]) t) by (eapply was_now; [left; eexists; reflexivity|exact HL]).
      assert (B0 : okb c (was_current m (h ++ [Train m bs])) (if s_queued s then set_up else s)) by (apply okb_restart; revert B; apply okb_ext; [apply ext_refl|]; intros t'; apply was_later; discriminate).
      pose proof (steps_inv _ t bs OK WN c _ G HT B0) as K. destruct (steps c _ bs) as [[c' s'] e]. destruct K as (G' & T' & X' & B').
      split; [|split; [exact X'|split; [|split]]].
      * split; [exact G'|]. split; [rewrite last_import_snoc, HL; exact T'|]. intros k' s0. unfold put. destruct (Nat.eqb_spec k' m) as [->|N].
        -- intros [= <-]. split; [exact B'|congruence].
        -- intros E. destruct (HM k' s0 E) as [B2 _]. split; [|congruence]. revert B2. apply okb_ext; [exact X'|]. intros t'. apply was_later. discriminate.
      * intros k' N. unfold put. destruct (Nat.eqb_spec k' m); congruence.
      * intros r names. destruct e; [discriminate|]. unfold okb in B'. destruct (s_best s') as [p|]; [|discriminate]. intros [= <- <-]. apply okp_report. exact B'.
      * intros t' r names. destruct e; [discriminate|]. destruct (s_best s'); discriminate.
    + split; [|split; [apply ext_refl|split; [auto|split; discriminate]]]. split; [exact G|]. split; [rewrite last_import_snoc; exact Ht|]. intros k s E. destruct (HM k s E) as [B N]. split; [|exact N].
      revert B. apply okb_ext; [apply ext_refl|]. intros t'. apply was_later. discriminate.
  - destruct (ms m) as [s|] eqn:Em.
    + destruct (TK m s Em) as (k & t & HL & HT). destruct (HM m s Em) as [B _].
      assert (WN : was_current m (h ++ [Step m b]) t) by (eapply was_now; [right; eexists; reflexivity|exact HL]).
      assert (B0 : okb c (was_current m (h ++ [Step m b])) s) by (revert B; apply okb_ext; [apply ext_refl|]; intros t'; apply was_later; discriminate).
      pose proof (one_step_inv _ t b c s OK G HT WN B0) as K. destruct (one_step c s b) as [[c' [s' r0]]|x].
      * destruct K as (G' & T' & X' & B' & RP).
        split; [|split; [exact X'|split; [|split]]].
        -- split; [exact G'|]. split; [rewrite last_import_snoc, HL; exact T'|]. intros k' s0. unfold put. destruct (Nat.eqb_spec k' m) as [->|N].
           ++ intros [= <-]. split; [exact B'|congruence].
           ++ intros E. destruct (HM k' s0 E) as [B2 _]. split; [|congruence]. revert B2. apply okb_ext; [exact X'|]. intros t'. apply was_later. discriminate.
        -- intros k' N. unfold put. destruct (Nat.eqb_spec k' m); congruence.
        -- intros r names. destruct r0 as [p|]; [|discriminate]. intros [= <- <-]. apply okp_report. eapply okp_ext; [apply ext_refl| |exact (RP p eq_refl)]. intros t' <-. exact WN.
        -- intros t' r names. destruct r0; discriminate.
      * split; [|split; [apply ext_refl|split; [auto|split; discriminate]]]. split; [exact G|]. split; [rewrite last_import_snoc; exact Ht|]. intros k' s0 E. destruct (HM k' s0 E) as [B2 N]. split; [|exact N].
        revert B2. apply okb_ext; [apply ext_refl|]. intros t'. apply was_later. discriminate.
    + split; [|split; [apply ext_refl|split; [auto|split; discriminate]]]. split; [exact G|]. split; [rewrite last_import_snoc; exact Ht|]. intros k s E. destruct (HM k s E) as [B N]. split; [|exact N].
      revert B. apply okb_ext; [apply ext_refl|]. intros t'. apply was_later. discriminate.
  - assert (IV : inv (h ++ [Plot m]) c ms).
    { split; [exact G|]. split; [rewrite last_import_snoc; exact Ht|]. intros k s E. destruct (HM k s E) as [B N]. split; [|exact N]. revert B. apply okb_ext; [apply ext_refl|]. intros t'. apply was_later. discriminate. }
    destruct (ms m) as [s|] eqn:Em; [|split; [exact IV|split; [apply ext_refl|split; [auto|split; discriminate]]]]. destruct (TK m s Em) as (k & t & HL & HT). rewrite HT.
    destruct IV as (IV1 & IV2 & IV3). destruct (IV3 m s Em) as [B _]. unfold okb in B.
    destruct (s_best s) as [p|]; (split; [exact (conj IV1 (conj IV2 IV3))|split; [apply ext_refl|split; [auto|split; try discriminate]]]).
    intros t' r names [= <- <- <-]. split; [reflexivity|]. apply okp_report. exact B.
Qed.
Lemma inv_start : inv [] fresh nobody.
Proof. split; [reflexivity|]. split; [reflexivity|]. intros m s E. discriminate. Qed.
Lemma session_app c ms h1 h2 : exists c' ms', session c ms (h1 ++ h2) = session c ms h1 ++ session c' ms' h2 /\ forall h, inv h c ms -> Forall op_ok h1 -> inv (h ++ h1) c' ms'.
Proof.
  revert c ms. induction h1 as [|o h1 IH]; intros c ms.
  - exists c, ms. split; [reflexivity|]. intros h I _. rewrite app_nil_r. exact I.
  - cbn [app Session.session]. destruct (act c ms o) as [[c1 ms1] x] eqn:E. destruct (IH c1 ms1) as (c2 & ms2 & E2 & I2). exists c2, ms2. split; [rewrite E2; reflexivity|].
    intros h I F. inversion F; subst. pose proof (act_inv h c ms o I ltac:(assumption)) as A. rewrite E in A. destruct A as [A _]. specialize (I2 _ A ltac:(assumption)). rewrite <- app_assoc in I2. exact I2.
Qed.

(** ** Theorems *)
(** Whatever happened before in the process: a reported reward is the score of the reported expression - an expression over that
    task's library - under a task that was the process's current one when the model trained, since its last import.  A plot sets the
    model's equation against the data of the last import of the process. *)
Theorem C148_rewards h o xs x : Forall op_ok (h ++ [o]) -> session fresh nobody (h ++ [o]) = xs ++ [x] ->
  (forall r names, x = Report r names -> exists t e, was_current (model_of o) (h ++ [o]) t /\ r = fst (score t e) /\ names = map tname e /\ over t e) /\
  (forall t0 r names, x = Fields t0 r names -> (exists k, last_import h = Some (k, t0)) /\
     exists t e, was_current (model_of o) (h ++ [o]) t /\ r = fst (score t e) /\ names = map tname e /\ over t e).
Proof.
  intros F E. destruct (session_app fresh nobody h [o]) as (c & ms & E2 & I2). rewrite E2 in E. apply Forall_app in F. destruct F as [F1 F2]. inversion F2; subst.
  specialize (I2 [] inv_start F1). cbn [app] in I2. cbn [Session.session] in E. pose proof (act_inv h c ms o I2 ltac:(assumption)) as A. destruct (act c ms o) as [[c' ms'] y]. apply app_inj_tail in E. destruct E as [_ ->].
  destruct A as (_ & _ & _ & A1 & A2). split; [exact A1|]. intros t0 r names Ex. destruct (A2 t0 r names Ex) as [B C]. split; [|exact C].
  destruct I2 as (_ & HT & _). rewrite B in HT. destruct (last_import h) as [[k t]|]; [|discriminate]. injection HT as ->. eauto.
Qed.
(** When a model is always the last to have imported when it is used, what it reports is scored on its own data. *)
Theorem C148_own h o xs r names m t : Forall op_ok (h ++ [o]) -> session fresh nobody (h ++ [o]) = xs ++ [Report r names] -> model_of o = m ->
  own_data m (h ++ [o]) -> last_import h = Some (m, t) -> exists e, r = fst (score t e) /\ names = map tname e /\ over t e.
Proof.
  intros F E HM OWN HL. destruct (C148_rewards h o xs _ F E) as [A _]. destruct (A r names eq_refl) as (t1 & e & (h1 & o1 & h2 & k & E1 & TR & L1 & NI) & R1 & N1 & O1). subst m. exists e.
  assert (t1 = t); [|subst t1; auto].
  assert (HO : model_of o1 = model_of o) by (destruct TR as [[bs Eq]|[b Eq]]; rewrite Eq; reflexivity).
  destruct (OWN h1 o1 h2 E1 HO) as (t2 & L2); [intros t' ->; destruct TR as [[? X]|[? X]]; discriminate|]. rewrite L1 in L2. injection L2 as -> ->.
  destruct h2 as [|y h2] using rev_ind.
  - apply app_inj_tail in E1. destruct E1 as [-> ->]. congruence.
  - clear IHh2. rewrite app_comm_cons, app_assoc in E1. apply app_inj_tail in E1. destruct E1 as [E1 _]. subst h. clear - NI L1 HL TR.
    assert (G : forall l, (forall t', ~ In (Import (model_of o) t') l) -> last_import (h1 ++ o1 :: l) = last_import h1 \/ exists k' t', last_import (h1 ++ o1 :: l) = Some (k', t') /\ k' <> model_of o).
    { intros l. induction l as [|z l IH] using rev_ind; intros N.
      - left. rewrite last_import_snoc. destruct TR as [[? ->]|[? ->]]; reflexivity.
      - rewrite app_comm_cons, app_assoc, last_import_snoc. destruct z as [k' t'|? ?|? ?|?]; try (apply IH; intros t'' I; apply (N t''); apply in_or_app; left; exact I).
        right. exists k', t'. split; [reflexivity|]. intros ->. apply (N t'). apply in_or_app. right. left. reflexivity. }
    destruct (G h2) as [Q|(k' & t' & Q & NQ)]; [intros t' I; apply (NI t'); apply in_or_app; left; exact I| |].
    + rewrite Q in HL. congruence.
    + rewrite Q in HL. injection HL as -> ->. congruence.
Qed.
(** Refuted: that a model's results are about its own data.  After another model imports, training the first scores its expressions
    on the other model's data, with the other model's operators. *)
Theorem C148_interleaved_refuted h a b ta tb bs xs r names : a <> b -> Forall op_ok (h ++ [Import a ta; Import b tb; Train a bs]) ->
  session fresh nobody (h ++ [Import a ta; Import b tb; Train a bs]) = xs ++ [Report r names] ->
  exists e, r = fst (score tb e) /\ names = map tname e /\ over tb e.
Proof.
  intros N F E. change [Import a ta; Import b tb; Train a bs] with ([Import a ta; Import b tb] ++ [Train a bs]) in *. rewrite app_assoc in *.
  destruct (C148_rewards _ _ xs _ F E) as [A _]. destruct (A r names eq_refl) as (t1 & e & (h1 & o1 & h2 & k & E1 & TR & L1 & NI) & R1 & N1 & O1). cbn [model_of] in *. exists e.
  assert (t1 = tb); [|subst t1; auto]. destruct h2 as [|y h2] using rev_ind.
  - apply app_inj_tail in E1. destruct E1 as [<- <-]. change [Import a ta; Import b tb] with ([Import a ta] ++ [Import b tb]) in L1. rewrite app_assoc, last_import_snoc in L1. congruence.
  - exfalso. clear IHh2. rewrite app_comm_cons, app_assoc in E1. apply app_inj_tail in E1. destruct E1 as [E1 _].
    change [Import a ta; Import b tb] with ([Import a ta] ++ [Import b tb]) in E1. rewrite app_assoc in E1. destruct h2 as [|z h2] using rev_ind.
    + apply app_inj_tail in E1. destruct E1 as [_ E1]. subst o1. destruct TR as [[? X]|[? X]]; discriminate.
    + clear IHh2. rewrite app_comm_cons, app_assoc in E1. apply app_inj_tail in E1. destruct E1 as [E1 _]. destruct h2 as [|w h2] using rev_ind.
      * apply app_inj_tail in E1. destruct E1 as [_ E1]. subst o1. destruct TR as [[? X]|[? X]]; discriminate.
      * clear IHh2. rewrite app_comm_cons, app_assoc in E1. apply app_inj_tail in E1. destruct E1 as [_ <-]. apply (NI ta). rewrite <- !app_assoc. apply in_or_app. right. left. reflexivity.
Qed.

(** ** Two runs side by side *)
Definition same (c c' : cls T) (p q : prog) : Prop :=
  (p_r p = p_r q /\ p_invalid p = p_invalid q /\ Searcher.p_on p = Searcher.p_on q) /\
  exists o o', nth_error (c_heap c) (p_id p) = Some o /\ nth_error (c_heap c') (p_id q) = Some o' /\ o_trav o = o_trav o'.
Lemma same_ext c c' d d' p q : ext (c_heap c) (c_heap d) -> ext (c_heap c') (c_heap d') -> same c c' p q -> same d d' p q.
Proof.
  intros X X' (A & o & o' & H & H' & E). split; [exact A|]. destruct (X _ _ H) as (o1 & H1 & E1). destruct (X' _ _ H') as (o2 & H2 & E2). exists o1, o2. split; [exact H1|]. split; [exact H2|congruence].
Qed.
Lemma srel_ext c c' d d' s s' : ext (c_heap c) (c_heap d) -> ext (c_heap c') (c_heap d') -> srel (same c c') s s' -> srel (same d d') s s'.
Proof.
  intros X X' (A & B & C & D). split; [exact A|]. split; [exact B|]. split; [exact C|]. destruct (s_best s), (s_best s'); cbn in *; try exact D. eapply same_ext; eassumption.
Qed.
Lemma same_names c c' p q : same c c' p q -> names_at (c_heap c) (p_id p) = names_at (c_heap c') (p_id q).
Proof. intros (_ & o & o' & H & H' & E). unfold names_at. rewrite H, H', E. reflexivity. Qed.
Lemma one_step_sim t b c c' s s' : Forall draw_ok b -> good c -> good c' -> c_task c = Some t -> c_task c' = Some t -> srel (same c c') s s' ->
  match one_step c s b, one_step c' s' b with
  | Ok (d, (z, r)), Ok (d', (z', r')) => good d /\ good d' /\ c_task d = Some t /\ c_task d' = Some t /\ ext (c_heap c) (c_heap d) /\ ext (c_heap c') (c_heap d') /\ srel (same d d') z z' /\ orel (same d d') r r'
  | Err e, Err e' => e = e'
  | _, _ => False
  end.
Proof.
  intros D G G' Ht Ht' S0. pose proof (one_step_ok lib_of score eps last t b D c s G Ht) as K. pose proof (one_step_ok lib_of score eps last t b D c' s' G' Ht') as K'.
  destruct (mapM (expr lib_of t) b) as [es|x]; [|rewrite K, K'; reflexivity]. destruct K as (d & ps & G1 & T1 & X1 & F1 & E1). destruct K' as (d' & qs & G2 & T2 & X2 & F2 & E2). rewrite E1, E2.
  assert (F : Forall2 (same d d') ps qs).
  { clear - F1 F2. revert qs F2. induction F1 as [|p e ps es H F IH]; intros qs F2; inversion F2 as [|q ? qs' ? H2 F2']; subst; constructor; [|apply IH; exact F2'].
    destruct H as ((o & Ho & Eo) & R1 & P1), H2 as ((o' & Ho' & Eo') & R2 & P2). split; [split; [|split]; congruence|]. exists o, o'. split; [exact Ho|]. split; [exact Ho'|congruence]. }
  pose proof (step_rel (same d d') ltac:(intros ? ? [A _]; exact A) eps last ps qs s s' F (srel_ext _ _ _ _ _ _ X1 X2 S0)) as ST.
  destruct (search_one_step eps last (batch_of ps) s) as [[z r]|x], (search_one_step eps last (batch_of qs) s') as [[z' r']|x']; try exact ST.
  destruct ST as [S1 S2]. split; [exact G1|]. split; [exact G2|]. split; [exact T1|]. split; [exact T2|]. split; [exact X1|]. split; [exact X2|]. split; [exact S1|exact S2].
Qed.
Lemma steps_sim t bs : Forall (Forall draw_ok) bs -> forall c c' s s', good c -> good c' -> c_task c = Some t -> c_task c' = Some t -> srel (same c c') s s' ->
  let '(d, z, e) := steps c s bs in let '(d', z', e') := steps c' s' bs in
  e = e' /\ good d /\ good d' /\ c_task d = Some t /\ c_task d' = Some t /\ ext (c_heap c) (c_heap d) /\ ext (c_heap c') (c_heap d') /\ srel (same d d') z z'.
Proof.
  induction 1 as [|b bs Hb F IH]; intros c c' s s' G G' Ht Ht' S0; cbn [Session.steps].
  - repeat (split; [solve [assumption|reflexivity|apply ext_refl]|]). exact S0.
  - pose proof (one_step_sim t b c c' s s' Hb G G' Ht Ht' S0) as K. destruct (one_step c s b) as [[d [z r]]|x], (one_step c' s' b) as [[d' [z' r']]|x']; try contradiction.
    + destruct K as (G1 & G2 & T1 & T2 & X1 & X2 & S1 & _). specialize (IH d d' z z' G1 G2 T1 T2 S1). destruct (steps d z bs) as [[d2 z2] e2], (steps d' z' bs) as [[d3 z3] e3].
      destruct IH as (E & A1 & A2 & A3 & A4 & A5 & A6 & A7). repeat (split; [solve [assumption|eapply ext_trans; eassumption]|]). exact A7.
    + subst x'. repeat (split; [solve [assumption|reflexivity|apply ext_refl]|]). exact S0.
Qed.
(** the invariant of the simulation: [h] what happened in the process, [h'] the part of [m] *)
Definition sim (m : nat) (h h' : list (op T)) (c : cls T) (ms : models) (c' : cls T) (ms' : models) : Prop :=
  inv h c ms /\ inv h' c' ms' /\ orel (srel (same c c')) (ms m) (ms' m) /\ (forall t, last_import h = Some (m, t) -> c_task c' = Some t).
Lemma srel_set_up R : srel R set_up set_up.
Proof. repeat (split; [reflexivity|]). exact I. Qed.
Lemma alone_gen m h2 : forall h h' c ms c' ms', sim m h h' c ms c' ms' -> Forall op_ok h2 ->
  (forall h1 o h3, h2 = h1 ++ o :: h3 -> model_of o = m -> (forall t, o <> Import m t) -> exists t, last_import (h ++ h1) = Some (m, t)) ->
  outs_of m h2 (session c ms h2) = session c' ms' (filter (of_model m) h2).
Proof.
  induction h2 as [|o h2 IH]; intros h h' c ms c' ms' SM OK OWN; [reflexivity|]. inversion OK as [|? ? OKo OK2]; subst.
  assert (OWN2 : forall h1 o0 h3, h2 = h1 ++ o0 :: h3 -> model_of o0 = m -> (forall t, o0 <> Import m t) -> exists t, last_import ((h ++ [o]) ++ h1) = Some (m, t)).
  { intros h1 o0 h3 E A B. rewrite <- app_assoc. cbn [app]. apply (OWN (o :: h1) o0 h3); [rewrite E; reflexivity|exact A|exact B]. }
  destruct SM as (I1 & I2 & S0 & HL). cbn [Session.session filter]. unfold of_model at 1.
  pose proof (act_inv h c ms o I1 OKo) as A1. destruct (Nat.eqb_spec (model_of o) m) as [Em|Nm].
  - pose proof (act_inv h' c' ms' o I2 OKo) as A2. cbn [Session.session].
    assert (KEY : let '(d, n, x) := act c ms o in let '(d', n', x') := act c' ms' o in x = x' /\ orel (srel (same d d')) (n m) (n' m) /\ (forall t, last_import (h ++ [o]) = Some (m, t) -> c_task d' = Some t)).
    { clear IH OWN2 A1 A2. subst m. destruct o as [m t|m bs|m b|m]; cbn [Session.act model_of] in *.
      - split; [reflexivity|]. split; [unfold put; rewrite Nat.eqb_refl; apply srel_set_up|]. intros t'. rewrite last_import_snoc. intros [= ->]. reflexivity.
      - destruct (OWN [] _ h2 eq_refl eq_refl ltac:(discriminate)) as (t & L). rewrite app_nil_r in L. destruct I1 as (G & HT & _). rewrite L in HT. cbn in HT. destruct I2 as (G' & _ & _). pose proof (HL t L) as HT'.
        destruct (ms m) as [s|] eqn:E1, (ms' m) as [s'|] eqn:E2; cbn in S0; try contradiction; [|split; [reflexivity|]; split; [rewrite E1, E2; exact I|]; intros t'; rewrite last_import_snoc; apply HL].
        assert (S1 : srel (same c c') (if s_queued s then set_up else s) (if s_queued s' then set_up else s')) by (pose proof S0 as (_ & _ & Q3 & _); rewrite Q3; destruct (s_queued s'); [apply srel_set_up|exact S0]).
        pose proof (steps_sim t bs OKo c c' _ _ G G' HT HT' S1) as K. destruct (steps c _ bs) as [[d z] e], (steps c' _ bs) as [[d' z'] e']. destruct K as (-> & _ & _ & _ & K4 & _ & _ & K7).
        split; [|split; [unfold put; rewrite Nat.eqb_refl; exact K7|intros t'; rewrite last_import_snoc, L; intros [= <-]; exact K4]].
        destruct e'; [reflexivity|]. destruct K7 as (_ & _ & _ & K7). destruct (s_best z) as [p|], (s_best z') as [q|]; cbn in K7; try contradiction; [|reflexivity].
        rewrite (same_names _ _ _ _ K7). destruct K7 as ((-> & _) & _). reflexivity.
      - destruct (OWN [] _ h2 eq_refl eq_refl ltac:(discriminate)) as (t & L). rewrite app_nil_r in L. destruct I1 as (G & HT & _). rewrite L in HT. cbn in HT. destruct I2 as (G' & _ & _). pose proof (HL t L) as HT'.
        destruct (ms m) as [s|] eqn:E1, (ms' m) as [s'|] eqn:E2; cbn in S0; try contradiction; [|split; [reflexivity|]; split; [rewrite E1, E2; exact I|]; intros t'; rewrite last_import_snoc; apply HL].
        pose proof (one_step_sim t b c c' _ _ OKo G G' HT HT' S0) as K. destruct (one_step c s b) as [[d [z r]]|x], (one_step c' s' b) as [[d' [z' r']]|x']; try contradiction.
        + destruct K as (_ & _ & _ & K4 & _ & _ & K7 & K8). split; [|split; [unfold put; rewrite Nat.eqb_refl; exact K7|intros t'; rewrite last_import_snoc, L; intros [= <-]; exact K4]].
          destruct r as [p|], r' as [q|]; cbn in K8; try contradiction; [|reflexivity]. rewrite (same_names _ _ _ _ K8). destruct K8 as ((-> & _) & _). reflexivity.
        + subst x'. split; [reflexivity|]. split; [rewrite E1, E2; exact S0|]. intros t'. rewrite last_import_snoc. apply HL.
      - destruct (OWN [] _ h2 eq_refl eq_refl ltac:(discriminate)) as (t & L). rewrite app_nil_r in L. destruct I1 as (_ & HT & _). rewrite L in HT. cbn in HT. pose proof (HL t L) as HT'. rewrite HT, HT'.
        destruct (ms m) as [s|] eqn:E1, (ms' m) as [s'|] eqn:E2; cbn in S0; try contradiction; [|split; [reflexivity|]; split; [rewrite E1, E2; exact I|]; intros t'; rewrite last_import_snoc; apply HL].
        pose proof S0 as (_ & _ & _ & Q). destruct (s_best s) as [p|], (s_best s') as [q|]; cbn in Q; try contradiction; (split; [|split; [rewrite E1, E2; exact S0|intros t'; rewrite last_import_snoc; apply HL]]); [|reflexivity].
        rewrite (same_names _ _ _ _ Q). destruct Q as ((-> & _) & _). reflexivity. }
    destruct (act c ms o) as [[d n] x], (act c' ms' o) as [[d' n'] x']. destruct KEY as (-> & K2 & K3), A1 as (J1 & _), A2 as (J2 & _).
    unfold outs_of. cbn [combine filter fst]. rewrite Em, Nat.eqb_refl. cbn [map snd]. f_equal. apply (IH (h ++ [o]) (h' ++ [o]) d n d' n'); [|exact OK2|exact OWN2]. split; [exact J1|]. split; [exact J2|]. split; [exact K2|exact K3].
  - destruct (act c ms o) as [[d n] x]. destruct A1 as (J1 & X1 & Q1 & _). unfold outs_of. cbn [combine filter fst]. destruct (Nat.eqb_spec (model_of o) m); [contradiction|]. apply (IH (h ++ [o]) h' d n c' ms'); [|exact OK2|exact OWN2].
    split; [exact J1|]. split; [exact I2|]. split.
    + rewrite (Q1 m) by congruence. destruct (ms m), (ms' m); cbn in *; try exact S0. eapply srel_ext; [exact X1|apply ext_refl|exact S0].
    + intros t. rewrite last_import_snoc. destruct o; try apply HL. cbn in Nm. intros [= -> _]. congruence.
Qed.
(** When a model is always the last to have imported when it is used, its calls return exactly what they would return in a process
    without the other models' calls. *)
Theorem C148_alone m h : Forall op_ok h -> own_data m h -> outs_of m h (session fresh nobody h) = session fresh nobody (filter (of_model m) h).
Proof.
  intros OK OWN. apply (alone_gen m h [] [] fresh nobody fresh nobody); [|exact OK|exact OWN]. split; [exact inv_start|]. split; [exact inv_start|]. split; [exact I|discriminate].
Qed.
End Proofs.

(** ** Concrete cases *)
Open Scope string_scope.
Definition ex_lib (t : bool) : option library :=
  match create_tokens (fun _ => None) 1 (if t then ["add"; "mul"] else ["mul"; "add"]) true true 1 1 [] with
  | Ok l => match make_library (map fst l) with Ok x => Some x | Err _ => None end
  | Err _ => None
  end.
Lemma ex_lib_ok t : ex_lib t <> None.
Proof. destruct t; vm_compute; discriminate. Qed.
Definition ex_lib_of (t : bool) : library := match ex_lib t as o return o <> None -> library with Some l => fun _ => l | None => fun n => match n eq_refl with end end (ex_lib_ok t).
(** short expressions score best on the first data set, long ones on the second *)
Definition ex_score (t : bool) (e : list token) : num * bool := (Fin (if t then 1 # Pos.of_nat (List.length e) else 1 - (1 # Pos.of_nat (List.length e)))%Q, false).
Definition ex_last (r : list num) : nat := argmax r.
Definition ex_batch : list draw := map (fun l => (l, fun _ => [])) [[1]; [2; 1; 1]; [3; 1; 1]].
Definition ex_own : list (op bool) := [Import 0 true; Train 0 [ex_batch]; Import 1 false; Train 1 [ex_batch; ex_batch]; Import 0 true; Plot 1; Train 0 [ex_batch]; Step 0 ex_batch; Plot 0].
Example C148_case : Forall op_ok ex_own /\ own_data 0 ex_own /\
  session ex_lib_of ex_score (1 # 2) ex_last fresh nobody ex_own =
    [Done; Report (Fin (1 # 1)) ["u1"]; Done; Report (Fin (1 - (1 # 3))) ["mul"; "u1"; "u1"]; Done; Fields true (Fin (1 - (1 # 3))) ["mul"; "u1"; "u1"];
     Report (Fin (1 # 1)) ["u1"]; Report (Fin (1 # 1)) ["u1"]; Fields true (Fin (1 # 1)) ["u1"]].
Proof.
  assert (EB : Forall draw_ok ex_batch) by (repeat constructor; cbn; unfold int64; lia).
  split; [repeat constructor; exact EB|]. split; [|vm_compute; reflexivity].
  intros h1 o h2 E M N. do 9 (destruct h1 as [|x h1]; [injection E as <- _; (eexists; reflexivity) || (cbn in M; discriminate) || (exfalso; eapply N; reflexivity)|injection E as <- E]). destruct h1; discriminate.
Qed.
(** the interleaving: model 0 trained on its own data finds u1, trained after model 1's import it reports u1*u1, scored on model 1's data *)
Example C148_interleaved_case :
  session ex_lib_of ex_score (1 # 2) ex_last fresh nobody [Import 0 true; Train 0 [ex_batch]] = [Done; Report (Fin (1 # 1)) ["u1"]] /\
  session ex_lib_of ex_score (1 # 2) ex_last fresh nobody [Import 0 true; Import 1 false; Train 0 [ex_batch]] = [Done; Done; Report (Fin (1 - (1 # 3))) ["mul"; "u1"; "u1"]].
Proof. split; vm_compute; reflexivity. Qed.
Print Assumptions C148_rewards.
Print Assumptions C148_own.
Print Assumptions C148_interleaved_refuted.
Print Assumptions C148_alone.
