(** Facts about sessions with several DISCOVER models (Session.v): the cache never shows, and the searcher sees programs only through their rewards. *)
From Coq Require Import QArith.
From Verif Require Import Base Num Library Program CacheFacts Searcher Session.
Local Open Scope nat_scope.

(** ** The searcher sees a program only through its reward, validity and policy flag *)
Definition orel {A B} (R : A -> B -> Prop) (x : option A) (y : option B) : Prop :=
  match x, y with Some a, Some b => R a b | None, None => True | _, _ => False end.
Section Rel.
Context (R : prog -> prog -> Prop) (HR : forall p q, R p q -> p_r p = p_r q /\ p_invalid p = p_invalid q /\ Searcher.p_on p = Searcher.p_on q).
Definition srel (s s' : sstate) : Prop :=
  s_rbest s = s_rbest s' /\ s_prev s = s_prev s' /\ s_queued s = s_queued s' /\ orel R (s_best s) (s_best s').
Lemma rel_maps ps qs : Forall2 R ps qs -> map p_r ps = map p_r qs /\ map p_invalid ps = map p_invalid qs /\ map Searcher.p_on ps = map Searcher.p_on qs /\ rows_of ps = rows_of qs.
Proof. induction 1 as [|p q ps qs H F (A & B & C & D)]; cbn; [auto|]. destruct (HR p q H) as (E & G & K). repeat split; f_equal; assumption. Qed.
Lemma rel_compress ps qs : Forall2 R ps qs -> forall m, Forall2 R (compress ps m) (compress qs m).
Proof. induction 1; intros [|[] m]; cbn; try (constructor; auto; fail); auto. Qed.
Lemma rel_nth {A B} (Q : A -> B -> Prop) l l' : Forall2 Q l l' -> forall i, orel Q (nth_error l i) (nth_error l' i).
Proof. induction 1; intros [|i]; cbn; auto. Qed.
Definition selrel (e e' : selection unit unit unit) : Prop :=
  Forall2 R (e_programs e) (e_programs e') /\ e_r e = e_r e' /\ e_full_valid e = e_full_valid e'.
Lemma select_rel a b c r ep ps qs : Forall2 R ps qs ->
  match quantile_select a b c ps r ep, quantile_select a b c qs r ep with
  | Ok (Some e), Ok (Some e') => selrel e e'
  | Ok None, Ok None => True
  | Err e, Err e' => e = e'
  | _, _ => False
  end.
Proof.
  intros F. destruct (rel_maps ps qs F) as (_ & E2 & E3 & _). unfold quantile_select. rewrite E2, E3.
  repeat match goal with |- context [bind ?x _] => destruct x; cbn [bind]; [|reflexivity] end.
  destruct (Nat.ltb _ 1); [exact I|]. split; [|split; reflexivity]. cbn [e_programs]. apply rel_compress. apply rel_compress. exact F.
Qed.
Definition batch_of (ps : list prog) : batch unit unit unit := mkBatch (rows_of ps) (rows_of ps) (rows_of ps) ps None.
Lemma step_rel ep last ps qs s s' : Forall2 R ps qs -> srel s s' ->
  match search_one_step ep last (batch_of ps) s, search_one_step ep last (batch_of qs) s' with
  | Ok (s1, r), Ok (s1', r') => srel s1 s1' /\ orel R r r'
  | Err e, Err e' => e = e'
  | _, _ => False
  end.
Proof.
  intros F (S1 & S2 & S3 & S4). destruct (rel_maps ps qs F) as (E1 & _ & _ & E4). unfold search_one_step, batch_of. cbn [b_programs b_actions b_obs b_priors b_agg]. rewrite E1, E4.
  pose proof (select_rel (rows_of qs) (rows_of qs) (rows_of qs) (map p_r qs) ep ps qs F) as SEL.
  destruct (quantile_select (rows_of qs) (rows_of qs) (rows_of qs) ps (map p_r qs) ep) as [[e|]|x]; destruct (quantile_select (rows_of qs) (rows_of qs) (rows_of qs) qs (map p_r qs) ep) as [[e'|]|x']; try (exfalso; exact SEL); cbn [bind].
  - destruct SEL as (P1 & P2 & P3). rewrite P3. destruct (npmax (e_full_valid e')) as [rm|x]; cbn [bind]; [|reflexivity]. rewrite P2, S1, S2.
    pose proof (rel_nth R _ _ P1 (last (e_r e'))) as N. destruct (nth_error (e_programs e) (last (e_r e'))), (nth_error (e_programs e') (last (e_r e'))); try (exfalso; exact N); [|reflexivity].
    split; [|exact N]. unfold srel. cbn. split; [reflexivity|]. split; [reflexivity|]. split; [reflexivity|]. destruct (match s_prev s' with Some p1 => nlt p1 rm | None => true end); [exact N|exact S4].
  - destruct F as [|p q ps qs H F]; [split; [|exact I]; unfold srel; auto|].
    set (idx := argmax _). pose proof (rel_nth R (p :: ps) (q :: qs) (Forall2_cons p q H F) idx) as N.
    destruct (nth_error (map p_r (q :: qs)) idx) as [rb|]; [|reflexivity]. destruct (nth_error (p :: ps) idx), (nth_error (q :: qs) idx); try (exfalso; exact N); [|reflexivity].
    assert (EB : match s_best s with Some _ => nlt (s_rbest s) rb | None => true end = match s_best s' with Some _ => nlt (s_rbest s') rb | None => true end).
    { rewrite S1. destruct (s_best s), (s_best s'); try (exfalso; exact S4); reflexivity. }
    rewrite EB. destruct (is_fin rb && _); (split; [|exact I]); unfold srel; cbn; auto.
  - exact SEL.
Qed.
End Rel.

(** ** Programs are what the current task says they are, whatever is in the cache *)
Definition int64 (j : nat) : Prop := (Z.of_nat j < 2 ^ 63)%Z.
Definition draw_ok (d : draw) : Prop := Forall int64 (fst d) /\ forall n, Forall int64 (snd d n).
Section Cache.
Context {T : Type} (lib_of : T -> library) (score : T -> list token -> num * bool).
Definition trav_of (t : T) (toks : list nat) : res (list token) :=
  mapM (fun j => match nth_error (ltokens (lib_of t)) j with Some x => Ok x | None => Err IndexError end) toks.
(** the expression a row of actions stands for under task [t] *)
Definition expr (t : T) (d : draw) : res (list token) := do toks <- finish_tokens (lib_of t) 1 (snd d) (fst d) ; trav_of t toks.
Definition fine (t : T) (o : obj) : Prop := o_r o = None \/ o_r o = Some (score t (o_trav o)).
Definition good (c : cls T) : Prop :=
  match c_task c with
  | None => c_cache c = []
  | Some t => forall k i, cache_get k (c_cache c) = Some i -> exists o, nth_error (c_heap c) i = Some o /\ k = tobytes 8 (o_tokens o) /\
      Forall int64 (o_tokens o) /\ trav_of t (o_tokens o) = Ok (o_trav o) /\ fine t o
  end.
Definition ext (h h' : list obj) : Prop := forall i o, nth_error h i = Some o -> exists o', nth_error h' i = Some o' /\ o_trav o' = o_trav o.
Lemma ext_refl h : ext h h.
Proof. intros i o H. eauto. Qed.
Lemma ext_trans h1 h2 h3 : ext h1 h2 -> ext h2 h3 -> ext h1 h3.
Proof. intros A B i o H. destruct (A i o H) as (o' & H' & E'). destruct (B i o' H') as (o2 & H2 & E2). exists o2. split; [exact H2|congruence]. Qed.
Definition points (c : cls T) (t : T) (i : nat) (e : list token) : Prop := exists o, nth_error (c_heap c) i = Some o /\ o_trav o = e /\ fine t o.
Lemma finish_int64 lib n rnd l toks : Forall int64 l -> (forall n, Forall int64 (rnd n)) -> finish_tokens lib n rnd l = Ok toks -> Forall int64 toks.
Proof.
  intros H1 H2. unfold finish_tokens. destruct (arities_of lib l) as [ars|x]; cbn [bind]; [|discriminate]. destruct (index_of _ _) as [i|].
  - intros [= <-]. change (match l with [] => [] | a :: l0 => a :: firstn i l0 end) with (firstn (S i) l). apply Forall_forall. intros x Hx. rewrite Forall_forall in H1. apply H1. rewrite <- (firstn_skipn (S i) l). apply in_or_app. left. exact Hx.
  - destruct (negb _); [discriminate|]. destruct (rev _); [discriminate|]. destruct (_ <? 0)%Z; [discriminate|]. intros [= <-]. apply Forall_app. auto.
Qed.
Lemma get_ok c t d : good c -> draw_ok d -> c_task c = Some t ->
  match expr t d with
  | Err e => get lib_of c d = Err e
  | Ok e => exists c' i, get lib_of c d = Ok (c', i) /\ good c' /\ c_task c' = Some t /\ ext (c_heap c) (c_heap c') /\ points c' t i e /\ (forall j e', points c t j e' -> points c' t j e')
  end.
Proof.
  intros G [D1 D2] Ht. unfold expr, get. rewrite Ht. destruct (finish_tokens (lib_of t) 1 (snd d) (fst d)) as [toks|x] eqn:EF; cbn [bind]; [|reflexivity].
  pose proof (finish_int64 _ _ _ _ _ D1 D2 EF) as I64. unfold good in G. rewrite Ht in G. destruct (cache_get (tobytes 8 toks) (c_cache c)) as [i|] eqn:EC.
  - destruct (G _ _ EC) as (o & Ho & Ek & Io & Eo & Fo).
    assert (toks = o_tokens o).
    { eapply (tobytes_inj 8); [lia| | |exact Ek]; [revert I64|revert Io]; apply Forall_impl; intros j Hj; unfold int64 in Hj; change (256 ^ Z.of_nat 8)%Z with (2 ^ 64)%Z; lia. }
    subst toks. rewrite Eo. exists c, i. split; [reflexivity|]. split; [unfold good; rewrite Ht; exact G|]. split; [exact Ht|]. split; [apply ext_refl|]. split; [exists o; auto|auto].
  - unfold trav_of. destruct (mapM _ toks) as [e|x] eqn:EM; cbn [bind]; [|reflexivity]. eexists _, _. split; [reflexivity|].
    assert (EX : forall i o, nth_error (c_heap c) i = Some o -> nth_error (c_heap c ++ [mkObj toks e None]) i = Some o) by (intros i o H; rewrite nth_error_app1; [exact H|apply nth_error_Some; congruence]).
    assert (NW : nth_error (c_heap c ++ [mkObj toks e None]) (List.length (c_heap c)) = Some (mkObj toks e None)) by (rewrite nth_error_app2, Nat.sub_diag by lia; reflexivity).
    split; [|split; [reflexivity|split; [|split]]]; cbn [c_heap c_cache c_task].
    + unfold good. cbn [c_task c_cache c_heap]. intros k i. cbn [cache_get]. destruct (beq_bytes k (tobytes 8 toks)) eqn:EB.
      * intros [= <-]. apply beq_bytes_true in EB. exists (mkObj toks e None). split; [exact NW|]. cbn. split; [exact EB|]. split; [exact I64|]. split; [exact EM|left; reflexivity].
      * intros H. destruct (G k i H) as (o & Ho & X). exists o. split; [apply EX; exact Ho|exact X].
    + intros i o H. exists o. split; [apply EX; exact H|reflexivity].
    + exists (mkObj toks e None). cbn [c_heap]. split; [exact NW|]. split; [reflexivity|left; reflexivity].
    + intros j e' (o & Ho & X). exists o. cbn [c_heap]. split; [apply EX; exact Ho|exact X].
Qed.
Lemma get_all_ok t ds : Forall draw_ok ds -> forall c, good c -> c_task c = Some t ->
  match mapM (expr t) ds with
  | Err e => get_all lib_of c ds = Err e
  | Ok es => exists c' l, get_all lib_of c ds = Ok (c', l) /\ good c' /\ c_task c' = Some t /\ ext (c_heap c) (c_heap c') /\ Forall2 (points c' t) l es /\ (forall j e', points c t j e' -> points c' t j e')
  end.
Proof.
  induction 1 as [|d ds Hd F IH]; intros c G Ht; cbn [mapM get_all].
  - exists c, []. split; [reflexivity|]. split; [exact G|]. split; [exact Ht|]. split; [apply ext_refl|]. split; [constructor|auto].
  - pose proof (get_ok c t d G Hd Ht) as K. destruct (expr t d) as [e|x]; cbn [bind]; [|rewrite K; reflexivity]. destruct K as (c1 & i & E1 & G1 & T1 & X1 & P1 & M1).
    rewrite E1. cbn [bind fst snd]. specialize (IH c1 G1 T1). destruct (mapM (expr t) ds) as [es|x]; cbn [bind]; [|rewrite IH; reflexivity].
    destruct IH as (c2 & l & E2 & G2 & T2 & X2 & P2 & M2). rewrite E2. cbn [bind fst snd]. exists c2, (i :: l). split; [reflexivity|]. split; [exact G2|]. split; [exact T2|]. split; [eapply ext_trans; eassumption|].
    split; [constructor; auto|auto].
Qed.
Definition is_prog (c : cls T) (t : T) (p : prog) (e : list token) : Prop :=
  (exists o, nth_error (c_heap c) (p_id p) = Some o /\ o_trav o = e) /\ (p_r p, p_invalid p) = score t e /\ Searcher.p_on p = true.
Lemma update_nth_nth {A} (f : A -> A) l : forall i j, nth_error (update_nth i f l) j = if Nat.eqb i j then option_map f (nth_error l j) else nth_error l j.
Proof.
  induction l as [|x l IH]; intros i j; cbn [update_nth].
  - assert (E0 : update_nth i f [] = []) by (destruct i; reflexivity). rewrite E0. destruct (Nat.eqb i j), j; reflexivity.
  - destruct i, j; cbn; try reflexivity. apply IH.
Qed.
Lemma reward_ok c t i e : good c -> c_task c = Some t -> points c t i e ->
  exists c' p, reward score c i = Ok (c', p) /\ good c' /\ c_task c' = Some t /\ ext (c_heap c) (c_heap c') /\ is_prog c' t p e /\ (forall j e', points c t j e' -> points c' t j e').
Proof.
  intros G Ht (o & Ho & Et & Fo). unfold reward. rewrite Ho, Ht.
  assert (EV : match o_r o with Some x => x | None => score t (o_trav o) end = score t e) by (destruct Fo as [->| ->]; rewrite Et; reflexivity).
  rewrite EV. eexists _, _. split; [reflexivity|].
  set (f := fun o0 : obj => mkObj (o_tokens o0) (o_trav o0) (Some (score t e))).
  assert (UP : forall j o', nth_error (c_heap c) j = Some o' -> exists o2, nth_error (update_nth i f (c_heap c)) j = Some o2 /\ o_trav o2 = o_trav o' /\ o_tokens o2 = o_tokens o' /\ (fine t o' -> fine t o2)).
  { intros j o' H. rewrite update_nth_nth. destruct (Nat.eqb_spec i j) as [->|N]; [|exists o'; auto]. rewrite H. cbn. eexists. split; [reflexivity|]. split; [reflexivity|]. split; [reflexivity|].
    intros _. right. cbn. assert (o' = o) by congruence. subst o'. rewrite Et. reflexivity. }
  split; [|split; [reflexivity|split; [|split]]]; cbn [c_heap c_cache c_task].
  - unfold good in *. rewrite Ht in G. cbn [c_task c_cache c_heap]. intros k j H. destruct (G k j H) as (o' & H' & A & B & C & D). destruct (UP j o' H') as (o2 & H2 & E1 & E2 & E3). exists o2. rewrite E1, E2. split; [exact H2|]. split; [exact A|]. split; [exact B|]. split; [exact C|exact (E3 D)].
  - intros j o' H. destruct (UP j o' H) as (o2 & H2 & E1 & _). eauto.
  - split; [|split; [cbn; destruct (score t e); reflexivity|reflexivity]]. cbn [p_id c_heap]. destruct (UP i o Ho) as (o2 & H2 & E1 & _). exists o2. split; [exact H2|congruence].
  - intros j e' (o' & H' & E' & F'). cbn. destruct (UP j o' H') as (o2 & H2 & E1 & _ & E3). exists o2. split; [exact H2|]. split; [congruence|auto].
Qed.
Lemma is_prog_ext c c' t p e : ext (c_heap c) (c_heap c') -> is_prog c t p e -> is_prog c' t p e.
Proof. intros X ((o & Ho & E) & Y). split; [|exact Y]. destruct (X _ _ Ho) as (o' & H' & E'). exists o'. split; [exact H'|congruence]. Qed.
Lemma rewards_ok t l : forall es c, good c -> c_task c = Some t -> Forall2 (points c t) l es ->
  exists c' ps, rewards score c l = Ok (c', ps) /\ good c' /\ c_task c' = Some t /\ ext (c_heap c) (c_heap c') /\ Forall2 (is_prog c' t) ps es.
Proof.
  induction l as [|i l IH]; intros es c G Ht F; inversion F as [|? e ? es' P F']; subst; cbn [rewards].
  - exists c, []. split; [reflexivity|]. split; [exact G|]. split; [exact Ht|]. split; [apply ext_refl|constructor].
  - destruct (reward_ok c t i e G Ht P) as (c1 & p & E1 & G1 & T1 & X1 & P1 & M1). rewrite E1. cbn [bind fst snd].
    assert (F1 : Forall2 (points c1 t) l es') by (clear - F' M1; induction F'; constructor; auto).
    destruct (IH es' c1 G1 T1 F1) as (c2 & ps & E2 & G2 & T2 & X2 & P2). rewrite E2. cbn [bind fst snd]. exists c2, (p :: ps). split; [reflexivity|]. split; [exact G2|]. split; [exact T2|].
    split; [eapply ext_trans; eassumption|]. constructor; [eapply is_prog_ext; eassumption|exact P2].
Qed.
(** one batch: what the searcher is given *)
Lemma one_step_ok eps last t b : Forall draw_ok b -> forall c s, good c -> c_task c = Some t ->
  match mapM (expr t) b with
  | Err e => one_step lib_of score eps last c s b = Err e
  | Ok es => exists c' ps, good c' /\ c_task c' = Some t /\ ext (c_heap c) (c_heap c') /\ Forall2 (is_prog c' t) ps es /\
      one_step lib_of score eps last c s b = match search_one_step eps last (batch_of ps) s with Ok z => Ok (c', z) | Err e => Err e end
  end.
Proof.
  intros D c s G Ht. unfold one_step. pose proof (get_all_ok t b D c G Ht) as K. destruct (mapM (expr t) b) as [es|x]; [|rewrite K; reflexivity].
  destruct K as (c1 & l & E1 & G1 & T1 & X1 & P1 & _). rewrite E1. cbn [bind fst snd]. destruct (rewards_ok t l es c1 G1 T1 P1) as (c2 & ps & E2 & G2 & T2 & X2 & P2). rewrite E2. cbn [bind fst snd].
  exists c2, ps. split; [exact G2|]. split; [exact T2|]. split; [eapply ext_trans; eassumption|]. split; [exact P2|]. reflexivity.
Qed.
Lemma one_step_none eps last c s b : c_task c = None -> one_step lib_of score eps last c s b = match b with [] => match search_one_step eps last (batch_of []) s with Ok z => Ok (c, z) | Err e => Err e end | _ :: _ => Err AttributeError end.
Proof. intros Ht. unfold one_step. destruct b; cbn [get_all]; [reflexivity|]. unfold get. rewrite Ht. reflexivity. Qed.
End Cache.
