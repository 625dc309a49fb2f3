(** Recombination, mutation, crossover and duplicate removal: proofs. *)
From Coq Require Import QArith Qabs.
From Verif Require Import Base Trees TreeFacts Library LibraryFacts Program ProgramFacts Prior PriorSpec PriorFacts SamplingLemmas
  Stridge StridgeFacts StridgeFit Aggregator.
Local Open Scope nat_scope.

(** ** reconstruct_tokens *)
Fixpoint comb (a : nat) (terms : list (list nat)) : list nat :=
  match terms with [] => [] | [t] => t | t :: ts => a :: t ++ comb a ts end.
Lemma comb_cons2 a t s ts : comb a (t :: s :: ts) = a :: t ++ comb a (s :: ts).
Proof. reflexivity. Qed.
Lemma comb_flatten a : forall terms x, comb a (terms ++ [x]) = flatten (interleave a terms) ++ x.
Proof.
  induction terms as [|t terms IH]; intros x; [reflexivity|].
  cbn [app]. destruct terms as [|s terms].
  - cbn. rewrite app_nil_r. reflexivity.
  - cbn [app]. rewrite comb_cons2. cbn [app] in IH. rewrite IH. unfold flatten, interleave. cbn [flat_map app]. f_equal. rewrite <- !app_assoc. cbn [app]. rewrite <- !app_assoc. reflexivity.
Qed.
Lemma reconstruct_ok lib a terms : add_index lib = Ok a -> terms <> [] -> reconstruct_tokens lib terms = Ok (comb a terms).
Proof.
  intros Ha Hn. destruct (exists_last Hn) as (ts & x & ->). unfold reconstruct_tokens. rewrite Ha. cbn [bind].
  unfold del_m2, interleave. rewrite flat_map_app, rev_app_distr. cbn [flat_map app rev].
  rewrite rev_involutive. cbn [bind]. f_equal. rewrite comb_flatten. unfold flatten. rewrite flat_map_app. cbn. rewrite app_nil_r. reflexivity.
Qed.
Lemma reconstruct_empty lib : exists e, reconstruct_tokens lib [] = Err e.
Proof. unfold reconstruct_tokens. destruct (add_index lib); cbn; eauto. Qed.
Lemma add_index_spec toks lib a : make_library toks = Ok lib -> add_index lib = Ok a ->
  exists t, nth_error toks a = Some t /\ (tname t = "add" \/ tname t = "add_t")%string.
Proof.
  intros HM Ha. destruct (make_library_inv _ _ HM) as (_ & _ & HN & _). unfold add_index in Ha. rewrite HN in Ha.
  destruct (index_of (String.eqb "add_t") (map tname toks)) as [i|] eqn:E.
  - injection Ha as ->. apply index_of_spec in E as [(y & Ey & Fy) _].
    rewrite nth_error_map in Ey. destruct (nth_error toks a) as [t|] eqn:Et; [|discriminate].
    cbn in Ey. injection Ey as <-. apply String.eqb_eq in Fy. eauto.
  - destruct (index_of (String.eqb "add") (map tname toks)) as [i|] eqn:E2; [|discriminate]. injection Ha as ->.
    apply index_of_spec in E2 as [(y & Ey & Fy) _].
    rewrite nth_error_map in Ey. destruct (nth_error toks a) as [t|] eqn:Et; [|discriminate].
    cbn in Ey. injection Ey as <-. apply String.eqb_eq in Fy. eauto.
Qed.
Fixpoint combt {A} (a : A) (ts : list (tree A)) : option (tree A) :=
  match ts with
  | [] => None
  | t :: ts' => Some (match combt a ts' with None => t | Some r => Nd a [t; r] end)
  end.
Lemma combt_some {A} (a : A) ts : ts <> [] -> exists t, combt a ts = Some t.
Proof. destruct ts; [congruence|]. cbn. eauto. Qed.
Lemma combt_pre a (ts : list (tree nat)) t : combt a ts = Some t -> preorder t = comb a (map preorder ts).
Proof.
  revert t. induction ts as [|s ts IH]; intros t E; [discriminate|]. cbn [combt] in E. injection E as <-.
  destruct ts as [|s2 ts]; [reflexivity|]. destruct (combt_some a (s2 :: ts) ltac:(discriminate)) as (r & Er). rewrite Er.
  change (map preorder (s :: s2 :: ts)) with (preorder s :: preorder s2 :: map preorder ts).
  rewrite comb_cons2. cbn [preorder flat_map]. rewrite app_nil_r, (IH r Er). reflexivity.
Qed.
Lemma combt_respects {A} (ar : A -> nat) a ts t : ar a = 2 -> Forall (respects ar) ts -> combt a ts = Some t -> respects ar t.
Proof.
  intros H2 HF. revert t. induction HF as [|s ts Hs HF IH]; intros t E; [discriminate|]. cbn [combt] in E. injection E as <-.
  destruct (combt a ts) as [r|] eqn:Er; [|exact Hs]. constructor; [simpl; auto|]. constructor; [exact Hs|]. constructor; [|constructor]. apply IH. reflexivity.
Qed.
Lemma complete_choice {A} (ar : A -> nat) ls : Forall (complete ar) ls -> exists ts, Forall (respects ar) ts /\ map preorder ts = ls.
Proof.
  induction 1 as [|l ls (t & H1 & H2) _ (ts & I1 & I2)]; [exists []; auto|]. exists (t :: ts). split; [constructor; auto|]. cbn. congruence.
Qed.
Lemma comb_complete ar a terms : ar a = 2 -> terms <> [] -> Forall (complete ar) terms -> complete ar (comb a terms).
Proof.
  intros H2 Hn HF. destruct (complete_choice ar terms HF) as (ts & Hts & <-).
  assert (ts <> []) as Hn' by (destruct ts; [elim Hn; reflexivity|discriminate]).
  destruct (combt_some a ts Hn') as (t & Et). exists t. split; [eapply combt_respects; eauto|]. apply combt_pre. exact Et.
Qed.

(** token-level view *)
Fixpoint tmap {A B} (f : A -> B) (t : tree A) : tree B := match t with Nd a cs => Nd (f a) (map (tmap f) cs) end.
Lemma tmap_pre {A B} (f : A -> B) t : preorder (tmap f t) = map f (preorder t).
Proof.
  induction t as [a cs IH] using tree_ind'. cbn [tmap preorder map]. f_equal.
  induction IH as [|c cs Hc _ IH2]; [reflexivity|]. cbn [map flat_map]. rewrite map_app, Hc, IH2. reflexivity.
Qed.
Definition bad_tok : token := mkTok "" 0 None None None.
Definition tok_at (lib : library) (i : nat) : token := nth i (ltokens lib) bad_tok.
Lemma tok_at_ar toks lib i : make_library toks = Ok lib -> tarity (tok_at lib i) = ar_of lib i.
Proof.
  intros HM. destruct (make_library_inv _ _ HM) as (HT & _ & _ & HA & _). unfold tok_at, ar_of. rewrite HT, HA.
  change 0 with (tarity bad_tok). symmetry. apply map_nth.
Qed.
Lemma tmap_respects toks lib t : make_library toks = Ok lib -> respects (ar_of lib) t -> respects tarity (tmap (tok_at lib) t).
Proof.
  intros HM. induction t as [a cs IH] using tree_ind'. intros HR. inversion HR as [? ? H1 H2]; subst. cbn [tmap].
  constructor; [rewrite map_length, (tok_at_ar toks lib a HM); exact H1|].
  clear - IH H2. induction IH as [|c cs Hc _ IH2]; [constructor|]. inversion H2; subst. cbn. constructor; auto.
Qed.
Definition root_plain (lib : library) (l : list nat) : Prop :=
  match l with [] => False | a :: _ => is_sum (tname (tok_at lib a)) = false end.
Lemma splits_pair s (a : token) c0 c1 : is_sum (tname a) = true -> splits s (Nd a [c0; c1]) =
  splits (if is_sub (tname a) && negb (Z.eqb s 1) then (-1)%Z else 1%Z) c0 ++ splits (if is_sub (tname a) then (-1)%Z else 1%Z) c1.
Proof. intros H. cbn [splits]. rewrite H. reflexivity. Qed.
Lemma splits_combt (a : token) ts t : is_sum (tname a) = true -> is_sub (tname a) = false ->
  Forall (fun s => is_sum (tname (match s with Nd b _ => b end)) = false) ts ->
  combt a ts = Some t -> splits 1 t = map (fun s => (1%Z, s)) ts.
Proof.
  intros Ha Hb HF. revert t. induction HF as [|[b cs] ts Hs HF IH]; intros t E; [discriminate|]. cbn [combt] in E. injection E as <-.
  destruct (combt a ts) as [r|] eqn:Er.
  - rewrite (splits_pair 1 a (Nd b cs) r Ha), Hb. cbn [andb]. rewrite (IH r eq_refl), (splits_atom 1 b cs Hs). reflexivity.
  - destruct ts; [|discriminate Er]. rewrite splits_atom by exact Hs. reflexivity.
Qed.
Lemma combt_tmap {A B} (f : A -> B) a ts t : combt a ts = Some t -> combt (f a) (map (tmap f) ts) = Some (tmap f t).
Proof.
  revert t. induction ts as [|s ts IH]; intros t E; [discriminate|]. cbn [combt] in E. injection E as <-. cbn [map combt].
  destruct (combt a ts) as [r|] eqn:Er; [rewrite (IH r eq_refl); reflexivity|]. destruct ts; [reflexivity|discriminate Er].
Qed.

Lemma recombination toks lib a terms rnd max_length :
  tokens_ok toks -> make_library toks = Ok lib -> Forall (fun k => tarity k <= 2) toks ->
  Forall (fun k => is_sum (tname k) = true -> tarity k = 2) toks -> choice_ok lib rnd ->
  add_index lib = Ok a -> terms <> [] ->
  Forall (fun t => in_lib lib t /\ complete (ar_of lib) t /\ root_plain lib t) terms ->
  exists l sp, reconstruct_tokens lib terms = Ok l /\ complete (ar_of lib) l /\
    split_forest (map (tok_at lib) l) [] = Ok sp /\ sp_tokens sp = map (map (tok_at lib)) terms /\
    Forall (fun s => s = 1%Z) (sp_symbols sp) /\
    (if Nat.leb (List.length l) max_length
     then exists p, tokens2index l max_length = Ok p /\ List.length p = max_length /\ finish_tokens lib 1 rnd p = Ok l
     else tokens2index l max_length = Err ValueError).
Proof.
  intros HT HM H2 HB HC Ha Hn HF. destruct (make_library_inv _ _ HM) as (HK & HL & _).
  destruct (add_index_spec _ _ _ HM Ha) as (ta & Eta & Nta).
  assert (is_sum (tname ta) = true /\ is_sub (tname ta) = false) as [Sa Sb] by (destruct Nta as [-> | ->]; split; reflexivity).
  assert (ar_of lib a = 2) as Ar2.
  { rewrite (ar_of_nth lib toks a ta HM Eta). rewrite Forall_forall in HB. apply HB; [eapply nth_error_In; eauto|exact Sa]. }
  assert (Forall (fun k => is_sum (tname k) = true -> tarity k = 2 /\ plain k) toks) as HB2.
  { unfold tokens_ok in HT. rewrite Forall_forall in HB, HT |- *. intros k Hk S. split; [auto|]. specialize (HT k Hk). unfold make_token in HT. rewrite (HB k Hk S) in HT.
    unfold plain. destruct (tinput k), (tparam k), (tstate k); cbn in HT; try discriminate HT. auto. }
  assert (a < lL lib) as La by (rewrite HL; apply nth_error_Some; congruence).
  exists (comb a terms).
  assert (Forall (complete (ar_of lib)) terms) as HCm by (eapply Forall_impl; [|exact HF]; intros t (? & ? & ?); auto).
  pose proof (comb_complete (ar_of lib) a terms Ar2 Hn HCm) as CC.
  assert (in_lib lib (comb a terms)) as IL.
  { clear - HF La. induction HF as [|t ts (H1 & _) HF IH]; [constructor|]. destruct ts as [|s ts]; [exact H1|].
    rewrite comb_cons2. constructor; [exact La|]. apply Forall_app. split; [exact H1|exact IH]. }
  destruct (complete_choice (ar_of lib) terms HCm) as (ts & Hts & Ets).
  assert (ts <> []) as Hn' by (destruct ts; [cbn in Ets; congruence|discriminate]).
  destruct (combt_some a ts Hn') as (t & Et).
  pose proof (combt_pre a ts t Et) as Ep. rewrite Ets in Ep.
  pose proof (combt_respects (ar_of lib) a ts t Ar2 Hts Et) as RT.
  set (f := tok_at lib). assert (tok_at lib a = ta) as TA by (unfold tok_at; rewrite HK; apply nth_error_nth; exact Eta).
  assert (forall l, in_lib lib l -> Forall (fun k => In k toks) (map f l)) as InT.
  { intros l Hl. induction Hl as [|i l Hi _ IH]; [constructor|]. cbn. constructor; [|exact IH].
    unfold f, tok_at. rewrite HK. apply nth_In. unfold in_lib in *. rewrite <- HL. exact Hi. }
  assert (map f (comb a terms) = preorder (tmap f t)) as Epf by (rewrite tmap_pre, Ep; reflexivity).
  assert (forall P : token -> Prop, Forall P toks -> Forall P (preorder (tmap f t))) as FP.
  { intros P HP. rewrite <- Epf. specialize (InT _ IL). rewrite Forall_forall in *. auto. }
  eexists. split; [apply reconstruct_ok; assumption|]. split; [exact CC|].
  rewrite Epf. split.
  { apply split_forest_ok; [apply (tmap_respects toks lib t HM RT)|exact (FP _ H2)|exact (FP _ HB2)]. }
  cbn [sp_tokens sp_symbols].
  assert (splits 1 (tmap f t) = map (fun s => (1%Z, s)) (map (tmap f) ts)) as SP.
  { apply (splits_combt (f a)); [unfold f; rewrite TA; exact Sa|unfold f; rewrite TA; exact Sb| |apply combt_tmap; exact Et].
    apply Forall_forall. intros s Hs. apply in_map_iff in Hs as ([b cs] & <- & Hb). cbn [tmap].
    rewrite Forall_forall in HF. specialize (HF (preorder (Nd b cs))). destruct HF as (_ & _ & R); [rewrite <- Ets; apply in_map; exact Hb|exact R]. }
  split; [|split].
  - unfold terms_of. rewrite SP. cbn [map]. rewrite app_nil_r, !map_map. cbn [snd]. rewrite <- Ets, !map_map. apply map_ext. intros s. apply tmap_pre.
  - rewrite SP. cbn [map]. rewrite app_nil_r, !map_map. cbn [fst]. apply Forall_forall. intros z Hz. apply in_map_iff in Hz as (? & <- & _). reflexivity.
  - unfold tokens2index. destruct (Nat.leb_spec (List.length (comb a terms)) max_length) as [Hle|Hgt]; [|reflexivity].
    eexists. split; [reflexivity|]. split; [rewrite app_length, repeat_length; lia|].
    destruct (completion_full toks lib rnd (comb a terms ++ repeat 0 (max_length - List.length (comb a terms))) HT HM) as (r & Er & _ & _ & U & _).
    + apply Forall_app. split; [exact IL|]. apply Forall_forall. intros z Hz. apply repeat_spec in Hz. subst. lia.
    + intros E. apply app_eq_nil in E as [E _]. rewrite E in CC. apply complete_slots in CC. discriminate.
    + exact HC.
    + rewrite Er. f_equal. symmetry. apply (U _ _ eq_refl CC).
Qed.

(** ** mutation *)
Lemma first_other_spec act draws x : first_other act draws = Some x -> In x draws /\ x <> act.
Proof.
  induction draws as [|d ds IH]; [discriminate|]. cbn. destruct (Nat.eqb_spec d act) as [E|E]; intros H.
  - destruct (IH H). auto.
  - injection H as <-. auto.
Qed.
Lemma first_other_None act draws : first_other act draws = None <-> Forall (fun d => d = act) draws.
Proof.
  induction draws as [|d ds IH]; cbn; [split; auto|]. destruct (Nat.eqb_spec d act) as [E|E].
  - rewrite IH. split; intros H; [constructor; auto|inversion H; auto].
  - split; [discriminate|]. intros H. inversion H; congruence.
Qed.
(** The kind of a token: operator of some arity, state variable, input variable. *)
Inductive kind := KOp (arity : nat) | KState | KInput | KConst.
Definition kind_of (tok : token) : kind :=
  if Nat.eqb (tarity tok) 0 then if is_some (tstate tok) then KState else if is_some (tinput tok) then KInput else KConst
  else KOp (tarity tok).
Lemma mutate_single_kind toks lib only draws t r : tokens_ok toks -> make_library toks = Ok lib -> t < lL lib ->
  (forall tok, In tok toks -> is_some (tstate tok) = true -> is_some (tinput tok) = true -> False) ->
  draws_ok lib only draws t -> mutate_single lib only draws t = Ok (Some r) ->
  r < lL lib /\ ar_of lib r = ar_of lib t /\
  kind_of (tok_at lib r) = kind_of (tok_at lib t) /\
  (only = true -> 0 < ar_of lib t -> r = t).
Proof.
  intros HT HM Ht Hdis HD E. destruct (make_library_inv _ _ HM) as (HK & HL & HN & HA & _ & _ & _ & _ & _ & _ & _ & HS & _ & HI).
  unfold mutate_single in E. destruct (nth_error (ltokens lib) t) as [tok|] eqn:Et; [|discriminate].
  assert (tok_at lib t = tok) as TA by (unfold tok_at; apply nth_error_nth; exact Et).
  rewrite HK in Et.
  pose proof (ar_of_nth lib toks t tok HM Et) as At.
  assert (r = t -> r < lL lib /\ ar_of lib r = ar_of lib t /\ kind_of (tok_at lib r) = kind_of (tok_at lib t) /\ (only = true -> 0 < ar_of lib t -> r = t)) as Same.
  { intros ->. repeat split; auto. }
  unfold draws_ok in HD. rewrite HK in HD. specialize (HD tok).
  unfold candidates in *. destruct (Nat.eqb_spec (tarity tok) 0) as [E0|E0].
  - destruct (is_some (tstate tok)) eqn:Es; [|destruct (is_some (tinput tok)) eqn:Ei; [|discriminate]]; cbn [bind] in E.
    + destruct (Nat.eqb (List.length (lstate_tokens lib)) 1); [injection E as <-; apply Same; reflexivity|].
      injection E as E. apply first_other_spec in E as [Hr _]. specialize (HD _ Et eq_refl). rewrite Forall_forall in HD. specialize (HD r Hr).
      rewrite HS in HD. apply indices_spec in HD as (tr & Etr & Fr).
      assert (In tr toks) as Inr by (eapply nth_error_In; eauto).
      assert (tarity tr = 0) as Ar.
      { unfold tokens_ok in HT. rewrite Forall_forall in HT. specialize (HT tr Inr). unfold make_token in HT. rewrite Fr, orb_true_r in HT.
        destruct (Nat.eqb_spec (tarity tr) 0) as [Q|Q]; [exact Q|]. cbn in HT. discriminate HT. }
      split; [rewrite HL; apply nth_error_Some; congruence|]. split; [rewrite (ar_of_nth lib toks r tr HM Etr), At; congruence|]. split; [|lia].
      assert (tok_at lib r = tr) as TR by (unfold tok_at; rewrite HK; apply nth_error_nth; exact Etr).
      rewrite TR, TA. unfold kind_of. rewrite Ar, E0, Fr, Es. reflexivity.
    + destruct (Nat.eqb (List.length (linput_tokens lib)) 1); [injection E as <-; apply Same; reflexivity|].
      injection E as E. apply first_other_spec in E as [Hr _]. specialize (HD _ Et eq_refl). rewrite Forall_forall in HD. specialize (HD r Hr).
      assert (linput_tokens lib = indices (fun t => is_some (tinput t)) toks) as HI'.
      { destruct HI as [HI|[_ HI]]; [exact HI|]. exfalso.
        assert (In t (indices (fun t => is_some (tinput t)) toks)) as Q by (apply indices_spec; eauto). rewrite HI in Q. destruct Q. }
      rewrite HI' in HD. apply indices_spec in HD as (tr & Etr & Fr).
      assert (In tr toks) as Inr by (eapply nth_error_In; eauto).
      assert (tarity tr = 0) as Ar.
      { unfold tokens_ok in HT. rewrite Forall_forall in HT. specialize (HT tr Inr). unfold make_token in HT. rewrite Fr in HT.
        destruct (Nat.eqb_spec (tarity tr) 0) as [Q|Q]; [exact Q|]. cbn in HT. discriminate HT. }
      split; [rewrite HL; apply nth_error_Some; congruence|]. split; [rewrite (ar_of_nth lib toks r tr HM Etr), At; congruence|]. split; [|lia].
      assert (tok_at lib r = tr) as TR by (unfold tok_at; rewrite HK; apply nth_error_nth; exact Etr).
      rewrite TR, TA. unfold kind_of. rewrite Ar, E0, Fr, Es, Ei.
      destruct (is_some (tstate tr)) eqn:Esr; [exfalso; eapply Hdis; eauto|]. reflexivity.
  - destruct only; cbn [bind] in E; [injection E as <-; apply Same; reflexivity|].
    rewrite HK in *. destruct (Nat.eqb (List.length (tokens_of_arity toks (tarity tok))) 1); [injection E as <-; apply Same; reflexivity|].
    injection E as E. apply first_other_spec in E as [Hr _]. specialize (HD _ Et eq_refl). rewrite Forall_forall in HD. specialize (HD r Hr).
    apply tokens_of_arity_In in HD as (tr & Etr & Fr).
    split; [rewrite HL; apply nth_error_Some; congruence|]. split; [rewrite (ar_of_nth lib toks r tr HM Etr), At; congruence|]. split; [|discriminate].
    assert (tok_at lib r = tr) as TR by (unfold tok_at; rewrite HK; apply nth_error_nth; exact Etr).
    rewrite TR, TA. unfold kind_of. rewrite Fr. destruct (Nat.eqb_spec (tarity tok) 0); [contradiction|reflexivity].
Qed.
Lemma mutate_single_differs toks lib only draws t r : make_library toks = Ok lib -> mutate_single lib only draws t = Ok (Some r) ->
  r = t -> (exists tok, nth_error toks t = Some tok /\
     (candidates lib only t tok = Ok None \/ exists c, candidates lib only t tok = Ok (Some c) /\ List.length c = 1)).
Proof.
  intros HM E ->. destruct (make_library_inv _ _ HM) as (HK & _). unfold mutate_single in E. rewrite HK in E.
  destruct (nth_error toks t) as [tok|]; [|discriminate]. exists tok. split; [reflexivity|].
  destruct (candidates lib only t tok) as [[c|]|]; [|auto|discriminate]. cbn [bind] in E.
  destruct (Nat.eqb_spec (List.length c) 1); [right; eauto|]. injection E as E. apply first_other_spec in E as [_ E]. congruence.
Qed.
Definition choice_fine lib only (t : nat) (c : option (list nat)) : Prop :=
  match c with None => True | Some draws => draws_ok lib only draws t end.
Lemma mutate_tokens_kinds toks lib only : tokens_ok toks -> make_library toks = Ok lib ->
  (forall tok, In tok toks -> is_some (tstate tok) = true -> is_some (tinput tok) = true -> False) ->
  forall term choices r, in_lib lib term -> Forall2 (choice_fine lib only) term choices ->
  mutate_tokens lib only choices term = Ok (Some r) ->
  in_lib lib r /\ map (ar_of lib) r = map (ar_of lib) term /\
  map (fun t => kind_of (tok_at lib t)) r = map (fun t => kind_of (tok_at lib t)) term /\
  (only = true -> Forall2 (fun t t' => 0 < ar_of lib t -> t' = t) term r).
Proof.
  intros HT HM Hdis. induction term as [|t term IH]; intros choices r HI HC E.
  { destruct choices; cbn in E; injection E as <-; repeat split; constructor. }
  inversion HC as [|? c ? cs Hc HC']; subst. inversion HI as [|? ? Hlt HI']; subst. cbn [mutate_tokens] in E.
  destruct (match c with None => Ok (Some t) | Some draws => mutate_single lib only draws t end) as [h|] eqn:Eh; [|discriminate]. cbn [bind] in E.
  destruct (mutate_tokens lib only cs term) as [rs|] eqn:Er; [|discriminate]. cbn [bind] in E.
  destruct h as [h|]; [|discriminate]. destruct rs as [rs|]; [|discriminate]. injection E as <-.
  destruct (IH cs rs HI' HC' Er) as (A1 & A2 & A3 & A4).
  assert (h < lL lib /\ ar_of lib h = ar_of lib t /\ kind_of (tok_at lib h) = kind_of (tok_at lib t) /\ (only = true -> 0 < ar_of lib t -> h = t)) as (B1 & B2 & B3 & B4).
  { destruct c as [draws|]; [|injection Eh as <-; auto]. eapply mutate_single_kind; eauto. }
  split; [constructor; auto|]. split; [cbn; congruence|]. split; [cbn; congruence|]. intros O. constructor; auto.
Qed.
Lemma slots_map {A} (ar : A -> nat) l1 l2 : map ar l1 = map ar l2 -> forall k, slots ar k l1 = slots ar k l2.
Proof.
  revert l2. induction l1 as [|a l1 IH]; intros [|b l2] E; try discriminate; [reflexivity|]. injection E as E1 E2.
  intros [|k]; [reflexivity|]. cbn. rewrite E1. apply IH. exact E2.
Qed.
Lemma complete_map {A} (ar : A -> nat) l1 l2 : map ar l1 = map ar l2 -> complete ar l1 -> complete ar l2.
Proof. intros E H. apply complete_slots. rewrite <- (slots_map ar l1 l2 E). apply complete_slots. exact H. Qed.

(** A decision procedure for [choice_fine], used to exhibit concrete histories. *)
Definition choice_fineb (lib : library) (only : bool) (t : nat) (c : option (list nat)) : bool :=
  match c with
  | None => true
  | Some draws =>
      match nth_error (ltokens lib) t with
      | None => true
      | Some tok =>
          match candidates lib only t tok with
          | Ok (Some cand) => forallb (fun d => existsb (Nat.eqb d) cand) draws
          | _ => true
          end
      end
  end.
Fixpoint choices_fineb lib only term choices : bool :=
  match term, choices with
  | [], [] => true
  | t :: ts, c :: cs => choice_fineb lib only t c && choices_fineb lib only ts cs
  | _, _ => false
  end.
Lemma choices_fineb_ok lib only : forall term choices,
  choices_fineb lib only term choices = true -> Forall2 (choice_fine lib only) term choices.
Proof.
  induction term as [|t ts IH]; intros [|c cs] H; cbn in H; try discriminate; [constructor|].
  apply andb_prop in H. destruct H as [H1 H2]. constructor; [|auto].
  destruct c as [draws|]; cbn; [|exact I]. intros tok cand E1 E2. cbn in H1. rewrite E1, E2 in H1.
  apply Forall_forall. intros d Hd. rewrite forallb_forall in H1. specialize (H1 d Hd).
  apply existsb_exists in H1. destruct H1 as (x & Hx & Ex). apply Nat.eqb_eq in Ex. subst. exact Hx.
Qed.
