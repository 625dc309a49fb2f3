(** C151: expressions read from text. *)
From Coq Require Import Ascii.
From Verif Require Import Base Trees TreeFacts Library LibraryFacts Program ProgramFacts CacheFacts SamplingLemmas ExampleLib RegText FromText.
Local Open Scope string_scope.
Local Open Scope list_scope.

(** ** Specification *)
Section S.
Context {V : Type}.
Variables (parse : string -> option V) (lib : library).
(** [it] is a number of value v: a float, or a text that is no name of the library and reads as one *)
Definition numeral (it : item (V := V)) (v : V) : Prop := it = Number v \/ exists s, it = Word s /\ ~ In s (lnames lib) /\ parse s = Some v.
(** [it] is the name of token number k *)
Definition name_of (it : item (V := V)) (k : nat) : Prop := exists s, it = Word s /\ nth_error (lnames lib) k = Some s.
(** what an element writes: token number k, and the value if it is a number *)
Definition writes (w : item (V := V) * nat * option V) : Prop :=
  let '(it, k, v) := w in match v with None => name_of it k | Some x => numeral it x /\ nth_error (lnames lib) k = Some "const" end.
Definition items_of (w : list (item (V := V) * nat * option V)) : list (item (V := V)) := map (fun x => fst (fst x)) w.
Definition tokens_of (w : list (item (V := V) * nat * option V)) : list nat := map (fun x => snd (fst x)) w.
Definition values_of (w : list (item (V := V) * nat * option V)) : list V := flat_map (fun x => match snd x with Some v => [v] | None => [] end) w.
(** placeholders and numbers are not mixed *)
Definition unmixed (items : list (item (V := V))) : Prop := ~ In (Word "const") items \/ forall it v, In it items -> ~ numeral it v.
Definition call_ok (c : call (V := V)) : Prop := match c with ByText _ _ rnd => choice_ok lib rnd | ByTokens q => req_ok lib q end.
(** the values of program number i *)
Definition values_at (s : tstate (V := V)) (i : nat) : option (list (option V)) := nth_error (t_vals s) i.
End S.
(** words without comma, joined by commas *)
Definition commaless (s : string) : Prop := forall a b, s <> String.append a (String ","%char b).

(** ** Lemmas *)
Lemma split_join ws : ws <> [] -> Forall commaless ws -> split_comma (comma ws) = ws.
Proof.
  assert (W : forall w, commaless w -> split_comma w = [w]).
  { induction w as [|c w IH]; intros H; [reflexivity|]. cbn [split_comma]. destruct (Ascii.eqb_spec c ","%char) as [->|N]; [exfalso; apply (H "" w); reflexivity|].
    rewrite IH; [reflexivity|]. intros a b ->. apply (H (String c a) b). reflexivity. }
  assert (WC : forall w rest, commaless w -> split_comma (String.append w (String ","%char rest)) = w :: split_comma rest).
  { induction w as [|c w IH]; intros rest H; cbn [String.append]; [reflexivity|]. cbn [split_comma]. destruct (Ascii.eqb_spec c ","%char) as [->|N]; [exfalso; apply (H "" w); reflexivity|].
    rewrite IH; [reflexivity|]. intros a b ->. apply (H (String c a) b). reflexivity. }
  intros N F. induction F as [|w ws Hw F IH]; [contradiction|]. destruct ws as [|w' ws]; [apply W, Hw|]. change (comma (w :: w' :: ws)) with (String.append w (String ","%char (comma (w' :: ws)))).
  rewrite WC by exact Hw. f_equal. apply IH. discriminate.
Qed.
Lemma run_requests_snoc lib st qs q : forall s, run_requests lib st s (qs ++ [q]) =
  let '(s1, tr) := run_requests lib st s qs in let '(s2, a) := from_tokens lib st s1 q in (s2, tr ++ [(q, a)]).
Proof.
  induction qs as [|q0 qs IH]; intros s; cbn [List.app run_requests]; [destruct (from_tokens lib st s q); reflexivity|].
  destruct (from_tokens lib st s q0) as [s1 a]. rewrite IH. destruct (run_requests lib st s1 qs) as [s2 tr]. destruct (from_tokens lib st s2 q). reflexivity.
Qed.
Lemma index_of_name names s : index_of (String.eqb s) names = None <-> ~ In s names.
Proof.
  split.
  - intros H I. apply In_nth_error in I as (k & K). unfold index_of in H. revert H. generalize 0. revert k K. induction names as [|x l IH]; intros [|k] K i; cbn in *; try discriminate.
    + injection K as ->. rewrite String.eqb_refl. discriminate.
    + destruct (String.eqb s x); [discriminate|]. eapply IH; eauto.
  - intros H. destruct (index_of (String.eqb s) names) as [k|] eqn:E; [|reflexivity]. apply index_of_spec in E as ((x & Ex & Q) & _). apply String.eqb_eq in Q. subst x. exfalso. apply H. eapply nth_error_In; eauto.
Qed.
Lemma index_of_nodup names k s : NoDup names -> nth_error names k = Some s -> index_of (String.eqb s) names = Some k.
Proof.
  intros N E. apply index_of_spec. split; [exists s; split; [exact E|apply String.eqb_refl]|]. intros j y J Y. apply String.eqb_neq. intros <-. assert (j = k); [|lia].
  apply (proj1 (NoDup_nth_error _) N); [apply nth_error_Some; congruence|congruence].
Qed.
Lemma lib_names toks lib : make_library toks = Ok lib -> lnames lib = map tname toks /\ lL lib = List.length (lnames lib) /\ lconst_token lib = index_of (String.eqb "const") (lnames lib).
Proof. unfold make_library. destruct (_ && _); [discriminate|]. intros [= <-]. cbn. rewrite map_length. auto. Qed.
Lemma set_vals_length {V} (vs : list (option V)) : forall cs, List.length (fst (set_vals vs cs)) = List.length vs.
Proof. induction vs as [|v vs IH]; intros [|c cs]; cbn; auto. specialize (IH cs). destruct (set_vals vs cs). cbn in *. congruence. Qed.
Lemma set_vals_full {V} (vs : list (option V)) : forall cs, List.length vs = List.length cs -> set_vals vs cs = (map Some cs, Ok tt).
Proof. induction vs as [|v vs IH]; intros [|c cs] H; cbn in *; try discriminate; [reflexivity|]. rewrite IH by lia. reflexivity. Qed.
Lemma update_nth_length {A} (f : A -> A) l : forall i, List.length (update_nth i f l) = List.length l.
Proof. induction l as [|x l IH]; intros [|i]; cbn; auto. Qed.
Lemma update_nth_at {A} (f : A -> A) l : forall i j, nth_error (update_nth i f l) j = if Nat.eqb i j then option_map f (nth_error l j) else nth_error l j.
Proof. induction l as [|x l IH]; intros [|i] [|j]; cbn; auto. destruct (Nat.eqb i j); reflexivity. Qed.

Section Facts.
Context {V : Type}.
Variables (parse : string -> option V) (toks : list token) (lib : library) (st : bool).
Hypothesis Hok : tokens_ok toks.
Hypothesis Hlib : make_library toks = Ok lib.
Hypothesis Hsize : (Z.of_nat (lL lib) <= 256 ^ 4)%Z.

Definition Inv (s : tstate (V := V)) : Prop :=
  (exists qs tr, Forall (req_ok lib) qs /\ run_requests lib st p_init qs = (t_prog s, tr)) /\
  List.length (t_vals s) = List.length (p_heap (t_prog s)) /\
  (forall i l v, tokens_at (t_prog s) i = Some l -> nth_error (t_vals s) i = Some v -> List.length v = placeholders lib l).
Lemma inv_init : Inv t_init.
Proof. split; [exists [], []; split; [constructor|reflexivity]|]. split; [reflexivity|]. intros [|i] l v H; discriminate. Qed.
Lemma cached_inv s q s' r : Inv s -> req_ok lib q -> cached lib st s q = (s', r) ->
  Inv s' /\ match r with Err e => completed lib q = Err e /\ s' = s | Ok i => exists l, completed lib q = Ok l /\ tokens_at (t_prog s') i = Some l end.
Proof.
  intros ((qs & tr & F & R) & Len & Val) Q C. unfold cached in C.
  pose proof (run_requests_snoc lib st qs q p_init) as RS. rewrite R in RS. destruct (from_tokens lib st (t_prog s) q) as [p a] eqn:FT.
  assert (F' : Forall (req_ok lib) (qs ++ [q])) by (apply Forall_app; split; [exact F|constructor; [exact Q|constructor]]).
  destruct (cache_history toks lib st _ _ _ Hok Hlib Hsize F' RS) as (_ & HO & HE & _).
  unfold from_tokens in FT. destruct a as [i|e].
  - destruct (HO q i) as (l & CL & TA); [apply in_app_iff; right; now left|]. injection C as <- <-. split; [|exists l; split; [exact CL|exact TA]].
    assert (Hl : finish_tokens lib 1 (q_rnd q) (q_tokens q) = Ok l) by exact CL. rewrite Hl in FT.
    assert (NEW : forall c, p = mkP (p_heap (t_prog s) ++ [new_program l (q_on q)]) c -> i = List.length (p_heap (t_prog s)) ->
      Inv (mkT p (if Nat.ltb i (List.length (t_vals s)) then t_vals s else t_vals s ++ [repeat None (placeholders lib match nth_error (p_heap p) i with Some o => p_tokens o | None => [] end)]))).
    { intros c -> ->. rewrite Len. rewrite (proj2 (Nat.ltb_ge _ _) (Nat.le_refl _)). cbn [p_heap]. rewrite nth_error_app2, Nat.sub_diag by lia. cbn [nth_error p_tokens new_program].
      split; [exists (qs ++ [q]); eexists; split; [exact F'|exact RS]|]. cbn [t_vals t_prog p_heap]. split; [rewrite !app_length, Len; reflexivity|].
      intros j l' v. unfold tokens_at. cbn [p_heap]. destruct (Nat.lt_ge_cases j (List.length (p_heap (t_prog s)))) as [G|G].
      - rewrite !nth_error_app1 by lia. apply Val.
      - rewrite !nth_error_app2 by lia. rewrite Len. destruct (j - List.length (p_heap (t_prog s))) as [|k]; [|destruct k; discriminate]. cbn. intros [= <-] [= <-]. apply repeat_length. }
    destruct (q_skip q || st); [injection FT as <- <-; eapply NEW; reflexivity|]. cbv zeta in FT.
    destruct (cache_get _ _) as [k|] eqn:CG; [|injection FT as <- <-; eapply NEW; reflexivity]. injection FT as <- <-.
    assert (Li : k < List.length (p_heap (t_prog s))).
    { unfold tokens_at in TA. cbn [p_heap] in TA. destruct (nth_error (update_nth k (bump (q_on q)) (p_heap (t_prog s))) k) eqn:NE; [|discriminate]. assert (nth_error (update_nth k (bump (q_on q)) (p_heap (t_prog s))) k <> None) as X by congruence.
      apply nth_error_Some in X. rewrite update_nth_length in X. exact X. }
    rewrite Len. rewrite (proj2 (Nat.ltb_lt _ _) Li). split; [exists (qs ++ [q]); eexists; split; [exact F'|exact RS]|]. cbn [t_vals t_prog p_heap]. split; [rewrite update_nth_length; exact Len|].
    intros j l' v. unfold tokens_at. cbn [p_heap]. rewrite update_nth_at. intros T NV. apply (Val j); [|exact NV]. unfold tokens_at. rewrite <- T. destruct (Nat.eqb k j); [|reflexivity]. destruct (nth_error (p_heap (t_prog s)) j); [|reflexivity]. cbn. f_equal. unfold bump. destruct (q_on q); reflexivity.
  - injection C as <- <-. pose proof (HE q e) as He. assert (CE : completed lib q = Err e) by (apply He; apply in_app_iff; right; now left).
    assert (Hl : finish_tokens lib 1 (q_rnd q) (q_tokens q) = Err e) by exact CE. rewrite Hl in FT. injection FT as <-.
    split; [|split; [exact CE|destruct s; reflexivity]]. split; [exists (qs ++ [q]); eexists; split; [exact F'|exact RS]|]. split; [exact Len|exact Val].
Qed.
Lemma mapM_ok {A B} (f : A -> res B) l r : mapM f l = Ok r -> Forall2 (fun a b => f a = Ok b) l r.
Proof.
  revert r. induction l as [|a l IH]; intros r H; cbn in H; [injection H as <-; constructor|]. destruct (f a) as [b|] eqn:E; [|discriminate]. cbn [bind] in H. destruct (mapM f l) as [r'|]; [|discriminate]. injection H as <-. constructor; auto.
Qed.
Lemma ok_mapM {A B} (f : A -> res B) l r : Forall2 (fun a b => f a = Ok b) l r -> mapM f l = Ok r.
Proof. induction 1 as [|a b l r E F IH]; [reflexivity|]. cbn. rewrite E. cbn [bind]. rewrite IH. reflexivity. Qed.
Lemma read_in_lib items ts cs : read_items parse lib items = Ok (ts, cs) -> Forall (fun t => t < lL lib) ts.
Proof.
  destruct (lib_names toks lib Hlib) as (_ & HL & HC). unfold read_items. destruct (mapM (read_item parse lib _) items) as [l|] eqn:E; [|discriminate]. cbn [bind].
  destruct (mapM _ l) as [ts'|] eqn:E2; [|discriminate]. cbn [bind]. intros [= <- _]. apply mapM_ok in E. apply mapM_ok in E2.
  assert (G : Forall (fun p : option nat * option V => forall t, fst p = Some t -> t < lL lib) l).
  { clear E2. induction E as [|it p items' l' H F IH]; constructor; [|exact IH]. intros t Ht.
    assert (R : forall f k, index_of f (lnames lib) = Some k -> k < lL lib) by (intros f k K; apply index_of_spec in K as ((x & Ex & _) & _); rewrite HL; apply nth_error_Some; congruence).
    unfold read_item in H. destruct it as [w|v0]; [destruct (index_of (String.eqb w) (lnames lib)) as [k|] eqn:K; [injection H as <-; cbn in Ht; injection Ht as <-; eauto|destruct (parse w); [|discriminate]]|];
      (destruct (existsb _ _) in H; [discriminate|]; injection H as <-; cbn in Ht; rewrite HC in Ht; eauto). }
  clear E. induction E2 as [|p t l' ts H F IH]; constructor.
  - inversion G; subst. destruct (fst p) eqn:Q; [|discriminate]. injection H as <-. auto.
  - apply IH. inversion G; assumption.
Qed.
Lemma from_items_inv s items skip rnd s' r : Inv s -> choice_ok lib rnd -> from_items parse lib st s items skip rnd = (s', r) -> Inv s'.
Proof.
  intros I C. unfold from_items. destruct (read_items parse lib items) as [[ts cs]|e] eqn:R; [|intros [= <- <-]; exact I].
  assert (Q : req_ok lib (mkReq ts 4 skip true rnd)) by (split; [exact (read_in_lib items ts cs R)|split; [exact C|left; reflexivity]]).
  destruct (cached lib st s _) as [s1 [i|e]] eqn:CA; destruct (cached_inv s _ s1 _ I Q CA) as [(H1 & H2 & H3) H4]; [|intros [= <- <-]; exact (conj H1 (conj H2 H3))].
  destruct (set_vals (nth i (t_vals s1) []) cs) as [v r'] eqn:SV. intros [= <- <-]. split; [exact H1|]. cbn [t_vals t_prog]. split; [rewrite update_nth_length; exact H2|].
  intros j l v' TA NV. rewrite update_nth_at in NV. destruct (Nat.eqb_spec i j) as [<-|N]; [|exact (H3 j l v' TA NV)]. destruct (nth_error (t_vals s1) i) as [v0|] eqn:E0; [|discriminate]. injection NV as <-.
  rewrite <- (H3 i l v0 TA E0). rewrite (nth_error_nth _ _ [] E0) in SV. pose proof (set_vals_length v0 cs) as L. rewrite SV in L. exact L.
Qed.
Lemma calls_inv cs : Forall (call_ok lib) cs -> Inv (run_calls parse lib st cs).
Proof.
  unfold run_calls. intros F. assert (G : forall s, Inv s -> Inv (fold_left (fun s c => fst (run_call parse lib st s c)) cs s)); [|apply G, inv_init].
  induction F as [|c cs H F IH]; intros s I; [exact I|]. cbn [fold_left]. apply IH. destruct c as [items skip rnd|q]; cbn [run_call].
  - destruct (from_items parse lib st s items skip rnd) as [s' r] eqn:E. exact (from_items_inv s items skip rnd s' r I H E).
  - destruct (cached lib st s q) as [s' r] eqn:E. exact (proj1 (cached_inv s q s' r I H E)).
Qed.
Lemma has_const_iff (items : list (item (V := V))) : existsb (is_word "const") items = true <-> In (Word "const") items.
Proof.
  rewrite existsb_exists. split; [intros (it & I & H); destruct it; [|discriminate]; cbn in H; apply String.eqb_eq in H; subst; exact I|]. intros I. exists (Word "const"). split; [exact I|reflexivity].
Qed.
Lemma read_written w : NoDup (lnames lib) -> Forall (writes parse lib) w -> unmixed parse lib (items_of w) -> read_items parse lib (items_of w) = Ok (tokens_of w, values_of w).
Proof.
  intros N F U. destruct (lib_names toks lib Hlib) as (_ & HL & HC). unfold read_items.
  assert (G : mapM (read_item parse lib (existsb (is_word "const") (items_of w))) (items_of w) = Ok (map (fun x : item * nat * option V => (Some (snd (fst x)), snd x)) w)).
  { assert (HCN : forall x v, In x w -> snd x = Some v -> existsb (is_word "const") (items_of w) = false).
    { intros x v I E. destruct (existsb (is_word "const") (items_of w)) eqn:H; [|reflexivity]. apply has_const_iff in H. exfalso. destruct U as [U|U]; [exact (U H)|].
      rewrite Forall_forall in F. specialize (F x I). destruct x as [[it k] v']. cbn in E. subst v'. cbn in F. destruct F as [F _]. apply (U it v); [|exact F]. unfold items_of. apply in_map_iff. exists (it, k, Some v). auto. }
    generalize dependent (existsb (is_word "const") (items_of w)). intros hc HCN. unfold items_of. clear U. induction F as [|[[it k] v] w H F IH]; [reflexivity|].
    cbn [map fst snd mapM]. assert (read_item parse lib hc it = Ok (Some k, v)) as ->.
    { destruct v as [v|].
      - destruct H as [H K]. assert (lconst_token lib = Some k) as CK by (rewrite HC; apply index_of_nodup; assumption). assert (hc = false) as -> by (apply (HCN (it, k, Some v) v); [now left|reflexivity]).
        destruct H as [->|(s & -> & NI & P)]; cbn; [rewrite CK; reflexivity|]. apply index_of_name in NI. rewrite NI, P, CK. reflexivity.
      - destruct H as (s & -> & K). cbn. rewrite (index_of_nodup _ _ _ N K). reflexivity. }
    cbn [bind]. rewrite IH; [reflexivity|]. intros x v0 I. apply HCN. now right. }
  rewrite G. cbn [bind]. assert (mapM (fun p : option nat * option V => match fst p with Some t => Ok t | None => Err TypeError end) (map (fun x : item * nat * option V => (Some (snd (fst x)), snd x)) w) = Ok (tokens_of w)) as ->.
  { clear. unfold tokens_of. induction w as [|x w IH]; [reflexivity|]. cbn. rewrite IH. reflexivity. }
  cbn [bind]. f_equal. f_equal. unfold values_of. clear. induction w as [|x w IH]; [reflexivity|]. cbn. rewrite IH. reflexivity.
Qed.
Lemma placeholders_values w : Forall (writes parse lib) w -> ~ In (Word "const") (items_of w) -> placeholders lib (tokens_of w) = List.length (values_of w).
Proof.
  unfold placeholders. induction 1 as [|[[it k] v] w H F IH]; intros N; [reflexivity|]. cbn [tokens_of values_of map flat_map fst snd filter] in *.
  assert (IH' := IH (fun X => N (or_intror X))). destruct v as [v|].
  - destruct H as [_ K]. rewrite (nth_error_nth _ _ "" K). rewrite String.eqb_refl. cbn [List.length List.app]. f_equal. exact IH'.
  - destruct H as (s & -> & K). rewrite (nth_error_nth _ _ "" K). destruct (String.eqb_spec s "const") as [->|]; [exfalso; apply N; now left|]. cbn [List.app]. exact IH'.
Qed.
End Facts.

(** ** C151 *)
Section C151.
Context {V : Type}.
Variables (parse : string -> option V) (toks : list token) (lib : library) (st : bool).
(** After any history, the text of a complete expression (possibly followed by further names, which are ignored) gives a program of
    exactly those tokens; if it writes numbers they are, in order, the constants of the program. *)
Theorem C151_expression cs w extra t skip rnd s r : tokens_ok toks -> make_library toks = Ok lib -> (Z.of_nat (lL lib) <= 256 ^ 4)%Z -> NoDup (map tname toks) ->
  Forall (call_ok lib) cs -> choice_ok lib rnd -> respects (ar_of lib) t -> Forall (writes parse lib) (w ++ extra) -> tokens_of w = preorder t ->
  values_of extra = [] -> unmixed parse lib (items_of (w ++ extra)) ->
  from_items parse lib st (run_calls parse lib st cs) (items_of (w ++ extra)) skip rnd = (s, r) ->
  exists i, r = Ok i /\ tokens_at (t_prog s) i = Some (preorder t) /\ (~ In (Word "const") (items_of w) -> values_at s i = Some (map Some (values_of w))).
Proof.
  intros Hok Hlib Hsz N HC HR RT F TW VE U. pose proof (calls_inv parse toks lib st Hok Hlib Hsz cs HC) as I. set (s0 := run_calls parse lib st cs) in *.
  destruct (lib_names toks lib Hlib) as (HN & HL & _). rewrite <- HN in N. unfold from_items. rewrite (read_written parse toks lib Hlib _ N F U).
  assert (TE : tokens_of (w ++ extra) = preorder t ++ tokens_of extra) by (unfold tokens_of in *; rewrite map_app, TW; reflexivity).
  assert (VW : values_of (w ++ extra) = values_of w) by (unfold values_of in *; rewrite flat_map_app, VE, app_nil_r; reflexivity).
  assert (IL : Forall (fun k => k < lL lib) (tokens_of (w ++ extra))).
  { unfold tokens_of. rewrite Forall_map. eapply Forall_impl; [|exact F]. intros [[it k] v] H. cbn. rewrite HL. apply nth_error_Some. destruct v; cbn in H; [destruct H as [_ ->]; discriminate|destruct H as (x & _ & ->); discriminate]. }
  rewrite VW. set (q := mkReq (tokens_of (w ++ extra)) 4 skip true rnd). assert (Q : req_ok lib q) by (split; [exact IL|split; [exact HR|left; reflexivity]]).
  assert (CP : complete (ar_of lib) (preorder t)) by (exists t; auto).
  assert (CQ : completed lib q = Ok (preorder t)).
  { unfold completed, q. cbn. rewrite TE in *. assert (preorder t <> []) as NE by (destruct t; discriminate). assert (preorder t ++ tokens_of extra <> []) as NE2 by (destruct (preorder t); [contradiction|discriminate]).
    destruct (completion_full toks lib rnd _ Hok Hlib IL NE2 HR) as (r0 & E0 & _ & _ & UQ & _). rewrite E0. f_equal. symmetry. exact (UQ _ _ eq_refl CP). }
  destruct (cached lib st s0 q) as [s1 [i|e]] eqn:CA; destruct (cached_inv toks lib st Hok Hlib Hsz s0 q s1 _ I Q CA) as [(H1 & H2 & H3) H4]; [|destruct H4 as [H4 _]; congruence].
  destruct H4 as (l & CL & TA). rewrite CQ in CL. injection CL as <-.
  destruct (set_vals (nth i (t_vals s1) []) (values_of w)) as [v r'] eqn:SV. intros [= <- <-]. cbn [t_prog].
  assert (Li : i < List.length (t_vals s1)). { rewrite H2. unfold tokens_at in TA. apply nth_error_Some. destruct (nth_error (p_heap (t_prog s1)) i); [discriminate|discriminate]. }
  destruct (nth_error (t_vals s1) i) as [v0|] eqn:E0; [|apply nth_error_None in E0; lia]. rewrite (nth_error_nth _ _ [] E0) in SV. pose proof (H3 i _ v0 TA E0) as L0.
  assert (Fw : Forall (writes parse lib) w) by (apply Forall_app in F; tauto).
  assert (D : (exists x, In x w /\ snd x <> None) \/ values_of w = []).
  { clear. induction w as [|[[it k] [x|]] l IH]; [now right|left; exists (it, k, Some x); split; [now left|discriminate]|]. destruct IH as [(y & Y & Z)|E]; [left; exists y; split; [now right|exact Z]|right; exact E]. }
  assert (K : ~ In (Word "const") (items_of w) \/ values_of w = []).
  { destruct D as [(x & Ix & Sx)|D]; [|auto]. left. intros IC. destruct U as [U|U].
    - apply U. unfold items_of in *. rewrite map_app. apply in_app_iff. now left.
    - destruct x as [[it k] v']. cbn in Sx. destruct v' as [v'|]; [|contradiction]. rewrite Forall_forall in Fw. specialize (Fw _ Ix). cbn in Fw. apply (U it v'); [|apply Fw].
      unfold items_of. rewrite map_app. apply in_app_iff. left. apply in_map_iff. exists (it, k, Some v'). auto. }
  exists i. destruct K as [K|K].
  - assert (LV : List.length v0 = List.length (values_of w)) by (rewrite L0, <- TW; apply (placeholders_values parse lib); assumption).
    rewrite (set_vals_full v0 _ LV) in SV. injection SV as <- <-. split; [reflexivity|]. split; [exact TA|]. intros _. unfold values_at. cbn [t_vals]. rewrite update_nth_at, Nat.eqb_refl, E0. reflexivity.
  - rewrite K in SV. assert (SV' : (v0, Ok tt) = (v, r')) by (rewrite <- SV; destruct v0; reflexivity). injection SV' as <- <-. split; [reflexivity|]. split; [exact TA|].
    intros NC. rewrite K. unfold values_at. cbn [t_vals map]. rewrite update_nth_at, Nat.eqb_refl, E0. cbn [option_map]. f_equal.
    assert (List.length v0 = 0) as Z by (rewrite L0, <- TW, (placeholders_values parse lib w Fw NC), K; reflexivity). destruct v0; [reflexivity|discriminate].
Qed.
(** The text form: names and numerals, none of them with a comma, joined by commas. *)
Theorem C151_text s ws skip rnd : ws <> [] -> Forall commaless ws -> from_text parse lib st s (comma ws) skip rnd = from_items parse lib st s (map Word ws) skip rnd.
Proof. intros A B. unfold from_text. rewrite split_join by assumption. reflexivity. Qed.
(** Nothing else is accepted: an element that is neither a name nor a number is a ValueError, numbers together with "const" an
    AssertionError, numbers with a library without const a TypeError; the cache is left as it was. *)
Theorem C151_refused s items skip rnd : make_library toks = Ok lib ->
  (unmixed parse lib items -> (exists w, In (Word w) items /\ ~ In w (lnames lib) /\ parse w = None) -> from_items parse lib st s items skip rnd = (s, Err ValueError)) /\
  ((forall it, In it items -> (exists k, name_of lib it k) \/ exists v, numeral parse lib it v) -> (exists it v, In it items /\ numeral parse lib it v) ->
    (In (Word "const") items -> from_items parse lib st s items skip rnd = (s, Err AssertionError)) /\
    (~ In "const" (lnames lib) -> ~ In (Word "const") items -> from_items parse lib st s items skip rnd = (s, Err TypeError))).
Proof.
  intros Hlib. destruct (lib_names toks lib Hlib) as (_ & HL & HC).
  assert (RN : forall it v hc, numeral parse lib it v -> read_item parse lib hc it = if hc then Err AssertionError else Ok (lconst_token lib, Some v)).
  { intros it v hc [->|(w & -> & NI & P)]; cbn; [reflexivity|]. apply index_of_name in NI. rewrite NI, P. reflexivity. }
  assert (NN : forall it k v, name_of lib it k -> numeral parse lib it v -> False).
  { intros it k v (w & -> & K) [H|(w' & [= <-] & NI & _)]; [discriminate|]. apply NI. eapply nth_error_In; eauto. }
  assert (RK : forall it k hc, name_of lib it k -> exists k', read_item parse lib hc it = Ok (Some k', None)).
  { intros it k hc (w & -> & K). cbn. destruct (index_of (String.eqb w) (lnames lib)) as [k'|] eqn:E; [eauto|]. apply index_of_name in E. exfalso. apply E. eapply nth_error_In; eauto. }
  split; [|intros AR; split].
  - intros U (w & I & NI & P). unfold from_items, read_items.
    assert (mapM (read_item parse lib (existsb (is_word "const") items)) items = Err ValueError) as ->; [|reflexivity].
    assert (G : forall l, incl l items -> In (Word w) l -> mapM (read_item parse lib (existsb (is_word "const") items)) l = Err ValueError); [|exact (G items (fun x H => H) I)].
    induction l as [|it l IH]; intros IN X; [destruct X|]. cbn [mapM]. assert (E : read_item parse lib (existsb (is_word "const") items) (Word w) = Err ValueError) by (cbn; apply index_of_name in NI; rewrite NI, P; reflexivity).
    assert (C : read_item parse lib (existsb (is_word "const") items) it = Err ValueError \/ exists x, read_item parse lib (existsb (is_word "const") items) it = Ok x).
    { assert (CN : forall v, numeral parse lib it v -> exists x, read_item parse lib (existsb (is_word "const") items) it = Ok x).
      { intros v Nv. rewrite (RN it v _ Nv). destruct (existsb (is_word "const") items) eqn:HB; [|eauto]. apply has_const_iff in HB. exfalso. destruct U as [U|U]; [exact (U HB)|]. exact (U it v (IN it (or_introl eq_refl)) Nv). }
      destruct it as [w'|v]; [|right; apply (CN v); now left]. destruct (in_dec string_dec w' (lnames lib)) as [Y|Y].
      - apply In_nth_error in Y as (k & K). destruct (RK (Word w') k (existsb (is_word "const") items)) as (k' & E'); [exists w'; auto|]. right. eauto.
      - destruct (parse w') as [v|] eqn:Pw; [right; apply (CN v); right; exists w'; auto|]. left. cbn. apply index_of_name in Y. rewrite Y, Pw. reflexivity. }
    destruct X as [->|X]; [rewrite E; reflexivity|]. destruct C as [->|(x & ->)]; [reflexivity|]. cbn [bind]. rewrite IH; [reflexivity| |exact X]. intros y Y. apply IN. now right.
  - intros IC. unfold from_items, read_items. destruct H as (it0 & v0 & I0 & N0). apply has_const_iff in IC. rewrite IC.
    assert (mapM (read_item parse lib true) items = Err AssertionError) as ->; [|reflexivity].
    assert (G : forall l, incl l items -> In it0 l -> mapM (read_item parse lib true) l = Err AssertionError); [|exact (G items (fun x H => H) I0)].
    induction l as [|it l IH]; intros IN X; [destruct X|]. cbn [mapM]. destruct (AR it (IN it (or_introl eq_refl))) as [(k & K)|(v & Nv)]; [|rewrite (RN it v true Nv); reflexivity].
    destruct (RK it k true K) as (k' & ->). cbn [bind]. destruct X as [->|X]; [exfalso; eapply NN; eauto|]. rewrite IH; [reflexivity| |exact X]. intros y Y. apply IN. now right.
  - intros NC NW. unfold from_items, read_items. destruct H as (it0 & v0 & I0 & N0). assert (existsb (is_word "const") items = false) as -> by (destruct (existsb _ items) eqn:HB; [apply has_const_iff in HB; contradiction|reflexivity]).
    assert (CT : lconst_token lib = None) by (rewrite HC; apply index_of_name; exact NC).
    assert (G : forall l, incl l items -> exists r, mapM (read_item parse lib false) l = Ok r /\ (In it0 l -> exists x, In x r /\ fst x = None) /\ forall x, In x r -> fst x = None \/ exists k, fst x = Some k).
    { induction l as [|it l IH]; intros IN; [exists []; cbn; repeat split; tauto|]. destruct IH as (r & Er & A & B); [intros y Y; apply IN; now right|]. cbn [mapM].
      destruct (AR it (IN it (or_introl eq_refl))) as [(k & K)|(v & Nv)].
      - destruct (RK it k false K) as (k' & ->). cbn [bind]. rewrite Er. eexists. split; [reflexivity|]. split; [|intros x [<-|X]; [right; exists k'; reflexivity|auto]].
        intros [->|X]; [exfalso; eapply NN; eauto|]. destruct (A X) as (x & Hx & Fx). exists x. split; [now right|exact Fx].
      - rewrite (RN it v false Nv). cbn [bind]. rewrite Er, CT. eexists. split; [reflexivity|]. split; [intros _; eexists; split; [now left|reflexivity]|]. intros x [<-|X]; [now left|auto]. }
    destruct (G items (fun x H => H)) as (r & Er & A & _). rewrite Er. cbn [bind]. destruct (A I0) as (x & Hx & Fx).
    assert (mapM (fun p : option nat * option V => match fst p with Some t => Ok t | None => Err TypeError end) r = Err TypeError) as ->; [|reflexivity].
    clear -Hx Fx. induction r as [|y r IH]; [destruct Hx|]. cbn [mapM]. destruct Hx as [->|Hx]; [rewrite Fx; reflexivity|]. destruct (fst y); [|reflexivity]. cbn [bind]. rewrite (IH Hx). reflexivity.
Qed.
End C151.
Definition dot (s : string) : option string := if contains "." s then Some s else None.
Definition text_toks : list token := [op "add" 2; op "mul" 2; op "const" 0; mkTok "x1" 0 (Some 0) None None; mkTok "x2" 0 (Some 1) None None].
Definition no_pad (n : nat) : list nat := repeat 3 n.
(** "Every text has its own constants" is false: the cache key has the tokens only, so a second text with other numbers is the same
    program, and the numbers of the first are gone; a later text with "const" finds them set. *)
Theorem C151_overwritten_refuted : exists lib s1 s2 s3 i, make_library text_toks = Ok lib /\
  from_text dot lib false t_init "mul,2.0,x1" false no_pad = (s1, Ok i) /\ values_at s1 i = Some [Some "2.0"] /\
  from_text dot lib false s1 "mul,3.5,x1" false no_pad = (s2, Ok i) /\ values_at s2 i = Some [Some "3.5"] /\
  from_text dot lib false s2 "mul,const,x1" false no_pad = (s3, Ok i) /\ values_at s3 i = Some [Some "3.5"].
Proof. exists (mk text_toks). do 4 eexists. split; [reflexivity|]. repeat split; vm_compute; reflexivity. Qed.
(** A number after the end of the expression is an error, although names there are ignored, and the program is in the cache all the same. *)
Theorem C151_number_after_end_refuted : exists lib s1 s2, make_library text_toks = Ok lib /\
  from_text dot lib false t_init "x1,x2" false no_pad = (s1, Ok 0) /\ tokens_at (t_prog s1) 0 = Some [3] /\
  from_text dot lib false t_init "x1,2.0" false no_pad = (s2, Err IndexError) /\ tokens_at (t_prog s2) 0 = Some [3] /\ p_cache (t_prog s2) <> [].
Proof. exists (mk text_toks). do 2 eexists. split; [reflexivity|]. split; [vm_compute; reflexivity|]. split; [reflexivity|]. split; [vm_compute; reflexivity|]. split; [reflexivity|discriminate]. Qed.
(** An unfinished text is completed with random coordinates instead of being refused. *)
Theorem C151_unfinished_refuted : exists lib s, make_library text_toks = Ok lib /\ from_text dot lib false t_init "add,mul,2.0" false no_pad = (s, Ok 0) /\ tokens_at (t_prog s) 0 = Some [0; 1; 2; 3; 3] /\ values_at s 0 = Some [Some "2.0"].
Proof. exists (mk text_toks). eexists. split; [reflexivity|]. repeat split; vm_compute; reflexivity. Qed.
Example C151_case : exists lib s, make_library text_toks = Ok lib /\ NoDup (map tname text_toks) /\ choice_ok lib no_pad /\
  from_text dot lib false t_init "add,mul,2.0,x1,3.5" false no_pad = (s, Ok 0) /\ tokens_at (t_prog s) 0 = Some [0; 1; 2; 3; 2] /\ values_at s 0 = Some [Some "2.0"; Some "3.5"] /\
  snd (from_text dot lib false s "add,mul,const,x1,3.5" false no_pad) = Err AssertionError /\ snd (from_text dot lib false s "mul, x1" false no_pad) = Err ValueError /\
  snd (from_text dot (mk [op "add" 2; mkTok "x1" 0 (Some 0) None None]) false s "add,2.0,x1" false no_pad) = Err TypeError.
Proof.
  exists (mk text_toks). eexists. split; [reflexivity|]. split; [repeat (constructor; [cbn; intros H; repeat (destruct H as [H|H]; [discriminate|]); exact H|]); constructor|].
  split; [intros n; split; [apply repeat_length|]; apply Forall_forall; intros x X; apply repeat_spec in X; subst x; vm_compute; tauto|]. split; [vm_compute; reflexivity|]. repeat split; vm_compute; reflexivity.
Qed.

(** ** The expression a fitted regression prints *)
From Coq Require Import QArith.
From Verif Require RegTextFacts.
Lemma commaless_app a b : commaless a -> commaless b -> commaless (String.append a b).
Proof.
  induction a as [|c a IH]; intros Ha Hb; [exact Hb|]. intros p q E. destruct p as [|d p]; cbn [String.append] in E; injection E as E1 E2.
  - subst c. apply (Ha "" a). reflexivity.
  - refine (IH _ Hb p q E2). intros p' q' ->. apply (Ha (String c p') q'). reflexivity.
Qed.
Lemma commaless_digits s : RegTextFacts.digits s -> commaless s.
Proof. intros H p q E. apply (RegTextFacts.digits_char _ H _ _ _ E). reflexivity. Qed.
Lemma commaless_str s : forallb (fun c => negb (Ascii.eqb c ","%char)) (list_ascii_of_string s) = true -> commaless s.
Proof. intros H p q ->. induction p as [|c p IH]; cbn [String.append list_ascii_of_string forallb] in H; [discriminate|]. apply andb_true_iff in H as [_ H]. auto. Qed.
Lemma digits_dec n : RegTextFacts.digits (dec n).
Proof. apply RegTextFacts.dec_digits. Qed.
Lemma commaless_constant v : commaless (format_constant v).
Proof.
  destruct v as [neg mag|neg|]; [|destruct neg; apply commaless_str; reflexivity|apply commaless_str; reflexivity].
  destruct (RegTextFacts.format_shape neg mag) as (j & f & Hj & _ & Hf & _ & ->).
  apply commaless_app; [destruct neg; apply commaless_str; reflexivity|]. apply commaless_app; [apply commaless_digits, digits_dec|].
  apply commaless_app; [apply commaless_str; reflexivity|]. apply commaless_digits. unfold RegTextFacts.digits. rewrite RegTextFacts.fixed_val by exact Hf. discriminate.
Qed.
(** The text of a program whose constants are all set is read as those tokens with the printed values, whatever function reads
    the numerals (C82 says which numbers they are). *)
Theorem C151_printed_regression {V} (parse : string -> option V) lib st s (trav : list rtoken) skip rnd k : trav <> [] -> nth_error (lnames lib) k = Some "const" ->
  (forall n, In (RName n) trav -> In n (lnames lib) /\ n <> "const") -> Forall commaless (lnames lib) -> ~ In (RConst None) trav ->
  (forall v, In (RConst (Some v)) trav -> ~ In (format_constant v) (lnames lib) /\ parse (format_constant v) <> None) ->
  exists w, Forall (writes parse lib) w /\ unmixed parse lib (items_of w) /\ from_text parse lib st s (serialize trav) skip rnd = from_items parse lib st s (items_of w) skip rnd /\
    List.length w = List.length trav /\
    (forall i n, nth_error trav i = Some (RName n) -> exists t, nth_error w i = Some (Word n, t, None) /\ nth_error (lnames lib) t = Some n) /\
    (forall i v, nth_error trav i = Some (RConst (Some v)) -> nth_error w i = Some (Word (format_constant v), k, parse (format_constant v))).
Proof.
  intros NE K HN CL HC HV.
  set (entry := fun t : rtoken => match t with
    | RName n => (Word n, match index_of (String.eqb n) (lnames lib) with Some i => i | None => 0%nat end, None)
    | RConst (Some v) => (Word (format_constant v), k, parse (format_constant v))
    | RConst None => (Word "const", k, None) end : item (V := V) * nat * option V).
  assert (IX : forall n, In n (lnames lib) -> exists i, index_of (String.eqb n) (lnames lib) = Some i /\ nth_error (lnames lib) i = Some n).
  { intros n I. destruct (index_of (String.eqb n) (lnames lib)) as [i|] eqn:E; [|apply index_of_name in E; contradiction]. exists i. split; [reflexivity|].
    apply index_of_spec in E as ((x & Ex & Q) & _). apply String.eqb_eq in Q. congruence. }
  exists (map entry trav). split; [|split; [|split; [|split; [|split]]]].
  - apply Forall_forall. intros x X. apply in_map_iff in X as (t & <- & T). destruct t as [[v|]|n]; cbn.
    + destruct (HV v T) as [A B]. destruct (parse (format_constant v)) as [x|] eqn:P; [|contradiction]. split; [right; exists (format_constant v); auto|exact K].
    + contradiction.
    + destruct (HN n T) as [A _]. destruct (IX n A) as (i & -> & E). exists n. auto.
  - left. intros X. unfold items_of in X. rewrite map_map in X. apply in_map_iff in X as (t & E & T). destruct t as [[v|]|n]; cbn in E.
    + injection E as E. destruct (HV v T) as [A _]. apply A. rewrite E. eapply nth_error_In; eauto.
    + contradiction.
    + injection E as E. destruct (HN n T). contradiction.
  - unfold serialize. rewrite C151_text.
    + f_equal. unfold items_of. rewrite !map_map. apply map_ext. intros [[v|]|n]; reflexivity.
    + destruct trav; [contradiction|discriminate].
    + apply Forall_forall. intros x X. apply in_map_iff in X as (t & <- & T). rewrite Forall_forall in CL. destruct t as [[v|]|n]; cbn; [apply commaless_constant|contradiction|apply CL, (HN n T)].
  - apply map_length.
  - intros i n E. rewrite nth_error_map, E. cbn. destruct (HN n (nth_error_In _ _ E)) as [A _]. destruct (IX n A) as (j & -> & E'). exists j. auto.
  - intros i v E. rewrite nth_error_map, E. reflexivity.
Qed.
Example C151_printed_case : serialize [RName "add"; RName "mul"; RConst (Some (Fin false (5 # 2))); RName "x1"; RConst (Some (Fin true 3))] = "add,mul,2.5,x1,-3.0" /\
  Forall commaless (map tname text_toks) /\ dot (format_constant (Fin true 3)) = Some "-3.0".
Proof. split; [vm_compute; reflexivity|]. split; [repeat (constructor; [apply commaless_str; reflexivity|]); constructor|vm_compute; reflexivity]. Qed.

Print Assumptions C151_expression.
Print Assumptions C151_text.
Print Assumptions C151_refused.
Print Assumptions C151_overwritten_refuted.
Print Assumptions C151_number_after_end_refuted.
Print Assumptions C151_unfinished_refuted.
Print Assumptions C151_printed_regression.
