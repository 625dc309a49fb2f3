(** C150: what the constraints named in a DISCOVER configuration mean for the sampled expressions. *)
From Verif Require Import Base Trees TreeFacts TreePos Library LibraryFacts Subroutines SubroutinesFacts Prior PriorSpec PriorFacts LengthFacts ExampleLib NamedPriors.
Local Open Scope string_scope.
Local Open Scope list_scope.

(** ** Specification *)
(** token number [a] of the library is called [s] *)
Definition called (lib : library) (a : nat) (s : string) : Prop := exists t, nth_error (ltokens lib) a = Some t /\ tname t = s.
(** it is a derivative: its name mentions diff *)
Definition derivative (lib : library) (a : nat) : Prop := exists s, called lib a s /\ (contains "diff" s = true \/ contains "Diff" s = true).
(** it is a trigonometric function *)
Definition trigonometric (lib : library) (a : nat) : Prop := exists s, called lib a s /\
  In s ["sin"; "cos"; "tan"; "csc"; "sec"; "cot"; "arcsin"; "arccos"; "arctan"; "arccsc"; "arcsec"; "arccot"].
(** it stands for a coordinate, or a field *)
Definition coordinate (lib : library) (a : nat) : Prop := exists t, nth_error (ltokens lib) a = Some t /\ tinput t <> None.
Definition field (lib : library) (a : nat) : Prop := exists t, nth_error (ltokens lib) a = Some t /\ tstate t <> None.
(** names are distinct, derivatives take two arguments, the other named functions one *)
Definition usual (lib : library) : Prop :=
  lib_ok lib /\ NoDup (map tname (ltokens lib)) /\ (exists a, coordinate lib a) /\
  (forall a, derivative lib a -> ar_of lib a = 2) /\ (forall a, trigonometric lib a -> ar_of lib a = 1) /\
  (forall a s, called lib a s -> In s ["inv"; "neg"; "exp"; "log"; "sqrt"; "n2"] -> ar_of lib a = 1).
(** node [b] is an argument of node [a] in [t]; the first; a later one *)
Definition argument (t : tree nat) (a b : nat) : Prop := exists c, In (b, c) (nodes [] t) /\ parent_of c = Some a.
Definition first_argument (t : tree nat) (a b : nat) : Prop := exists c, In (b, c) (nodes [] t) /\ parent_of c = Some a /\ left_sibling c = None.
Definition later_argument (t : tree nat) (a b : nat) : Prop := exists c, In (b, c) (nodes [] t) /\ parent_of c = Some a /\ left_sibling c <> None.
(** both arguments of node [a] are [b] and [b'] *)
Definition neighbours (t : tree nat) (a b b' : nat) : Prop := exists c, In (b', c) (nodes [] t) /\ parent_of c = Some a /\ left_sibling c = Some b.
(** node [b] lies inside node [a]; inside its first argument *)
Definition inside (t : tree nat) (a b : nat) : Prop := exists c, In (b, c) (nodes [] t) /\ In a (ancestors_of c).
Definition inside_first (t : tree nat) (a b : nat) : Prop := exists c, In (b, c) (nodes [] t) /\ In a (first_arg_ancestors c).

(** ** Lemmas *)
Lemma lib_view lib : lib_ok lib -> exists toks, tokens_ok toks /\ make_library toks = Ok lib /\ ltokens lib = toks /\ lL lib = List.length toks /\ lnames lib = map tname toks /\
  ldiff lib = indices (fun t => has_diff (tname t)) toks /\ ltrig lib = indices (fun t => is_trig_name (tname t)) toks /\
  lconst_token lib = index_of (String.eqb "const") (map tname toks) /\ lstate_tokens lib = indices (fun t => is_some (tstate t)) toks /\
  ((exists a, coordinate lib a) -> linput_tokens lib = indices (fun t => is_some (tinput t)) toks) /\
  lunary lib = tokens_of_arity toks 1 /\ lbinary lib = tokens_of_arity toks 2 /\ lterminal lib = tokens_of_arity toks 0.
Proof.
  intros [(toks & T & H) _]. exists toks. split; [exact T|]. split; [exact H|]. unfold make_library in H. destruct (_ && _) in H; [discriminate|]. injection H as <-. cbn.
  repeat (split; [reflexivity|]). split; [|auto]. intros (a & t & E & N). cbn in E.
  destruct (Nat.eqb_spec (List.length (indices (fun t => is_some (tinput t)) toks)) 0) as [Z|Z]; [|reflexivity]. exfalso.
  apply length_zero_iff_nil in Z. assert (In a (indices (fun t => is_some (tinput t)) toks)) as X by (apply indices_spec; exists t; split; [exact E|destruct (tinput t); [reflexivity|congruence]]).
  rewrite Z in X. destruct X.
Qed.
Lemma diff_iff lib : lib_ok lib -> forall a, In a (ldiff lib) <-> derivative lib a.
Proof.
  intros L a. destruct (lib_view lib L) as (toks & _ & _ & T & _ & _ & -> & _). rewrite indices_spec. unfold derivative, called. rewrite T. unfold has_diff. split.
  - intros (t & E & H). exists (tname t). split; [exists t; auto|]. apply orb_true_iff in H. exact H.
  - intros (s & (t & E & <-) & H). exists t. split; [exact E|]. apply orb_true_iff. exact H.
Qed.
Lemma trig_iff lib : lib_ok lib -> forall a, In a (ltrig lib) <-> trigonometric lib a \/ derivative lib a.
Proof.
  intros L a. rewrite <- (diff_iff lib L). destruct (lib_view lib L) as (toks & _ & _ & T & _ & _ & -> & -> & _). rewrite !indices_spec. unfold trigonometric, called. rewrite T. unfold is_trig_name. split.
  - intros (t & E & H). apply orb_true_iff in H as [H|H]; [|right; exists t; auto]. left. exists (tname t). split; [exists t; auto|].
    rewrite <- existsb_app in H. apply existsb_exists in H as (s & I & Q). apply String.eqb_eq in Q. rewrite Q. cbn in I. cbn. tauto.
  - intros [(s & (t & E & <-) & I)|(t & E & H)]; exists t; (split; [exact E|]); [|rewrite H; apply orb_true_r].
    apply orb_true_iff. left. rewrite <- existsb_app. apply existsb_exists. exists (tname t). split; [cbn in I; cbn; tauto|apply String.eqb_refl].
Qed.
Lemma lt_of lib a t : lib_ok lib -> nth_error (ltokens lib) a = Some t -> a < lL lib.
Proof. intros L E. destruct (lib_view lib L) as (toks & _ & _ & T & -> & _). rewrite T in E. apply nth_error_Some. congruence. Qed.
Lemma derivative_lt lib a : lib_ok lib -> derivative lib a -> a < lL lib.
Proof. intros L (s & (t & E & _) & _). eapply lt_of; eauto. Qed.
Lemma input_iff lib : lib_ok lib -> (exists a, coordinate lib a) -> forall a, In a (linput_tokens lib) <-> coordinate lib a.
Proof.
  intros L C a. destruct (lib_view lib L) as (toks & _ & _ & T & _ & _ & _ & _ & _ & _ & I & _). rewrite (I C), indices_spec. unfold coordinate. rewrite T.
  split; intros (t & E & H); exists t; (split; [exact E|]); destruct (tinput t); cbn in *; congruence.
Qed.
Lemma const_called lib c : lib_ok lib -> lconst_token lib = Some c -> called lib c "const" /\ c < lL lib.
Proof.
  intros L H. destruct (lib_view lib L) as (toks & _ & _ & T & HL & _ & _ & _ & K & _). rewrite K in H. apply index_of_spec in H as ((s & E & Q) & _). apply String.eqb_eq in Q. subst s.
  rewrite nth_error_map in E. destruct (nth_error toks c) as [t|] eqn:Et; [|discriminate]. cbn in E. split; [exists t; rewrite T; split; [exact Et|congruence]|]. rewrite HL. apply nth_error_Some. congruence.
Qed.
Lemma called_const lib a : lib_ok lib -> NoDup (map tname (ltokens lib)) -> called lib a "const" -> lconst_token lib = Some a.
Proof.
  intros L N (t & E & H). destruct (lib_view lib L) as (toks & _ & _ & T & HL & _ & _ & _ & K & _). rewrite K. rewrite T in *. apply index_of_spec. split.
  - exists "const". split; [rewrite nth_error_map, E; cbn; congruence|reflexivity].
  - intros j y J Y. apply String.eqb_neq. intros <-. assert (j = a); [|lia]. apply (proj1 (NoDup_nth_error _) N); [rewrite map_length; apply nth_error_Some; rewrite nth_error_map in Y; intros Z; rewrite Z in Y; discriminate|].
    rewrite Y, nth_error_map, E. cbn. congruence.
Qed.
Lemma last_from_none s l : forall i, last_from s i l = None -> ~ In s l.
Proof.
  induction l as [|x l IH]; intros i H; cbn in *; [auto|]. destruct (last_from s (S i) l) eqn:E; [discriminate|]. destruct (String.eqb_spec x s); [discriminate|]. intros [Q|Q]; [congruence|]. exact (IH _ E Q).
Qed.
Lemma last_from_some s l : forall i k, last_from s i l = Some k -> i <= k /\ nth_error l (k - i) = Some s.
Proof.
  induction l as [|x l IH]; intros i k H; cbn in *; [discriminate|]. destruct (last_from s (S i) l) as [k'|] eqn:E.
  - injection H as ->. apply IH in E as [A B]. split; [lia|]. replace (k - i) with (S (k - S i)) by lia. exact B.
  - destruct (String.eqb_spec x s); [|discriminate]. injection H as <-. rewrite Nat.sub_diag. split; [lia|]. cbn. congruence.
Qed.
Lemma last_from_called lib a s : lib_ok lib -> NoDup (map tname (ltokens lib)) -> called lib a s -> last_from s 0 (lnames lib) = Some a.
Proof.
  intros L N (t & E & H). destruct (lib_view lib L) as (toks & _ & _ & T & _ & HN & _). rewrite HN. rewrite T in *. assert (nth_error (map tname toks) a = Some s) as Q by (rewrite nth_error_map, E; cbn; congruence).
  destruct (last_from s 0 (map tname toks)) as [k|] eqn:K; [|apply last_from_none in K; exfalso; apply K; eapply nth_error_In; eauto].
  apply last_from_some in K as [_ K]. rewrite Nat.sub_0_r in K. f_equal. apply (proj1 (NoDup_nth_error _) N); [apply nth_error_Some; congruence|congruence].
Qed.
Lemma sampled_mono lib ps p l : (exists q, In q ps /\ (forall a, In a (pr_init p) -> In a (pr_init q)) /\ forall o a, In a (pr_forb p o) -> In a (pr_forb q o)) ->
  sampled lib ps l -> sampled lib [p] l.
Proof.
  intros (q & Q & I & F) S'. induction S' as [|l t S' IH [P1 P2]]; [constructor|]. constructor; [exact IH|]. split; [exact P1|]. intros p' [<-|[]] X. apply (P2 q Q). unfold forbidden in *. destruct l; [auto|].
  destruct (obs_of lib _); [auto|destruct X].
Qed.
Lemma unary_first lib t a b : respects (ar_of lib) t -> ar_of lib a = 1 -> inside t a b -> inside_first t a b.
Proof.
  intros R A (c & N & I). exists c. split; [exact N|]. apply In_nth_error in N as (n & N). destruct (nodes_before (ar_of lib) t R [] (Forall_nil _) n b c N) as [_ C].
  unfold ancestors_of in I. apply in_map_iff in I as ((a' & left) & Q & I). cbn in Q. subst a'. unfold ctx_ok in C. rewrite Forall_forall in C. destruct (C _ I) as [LL _]. cbn in LL.
  unfold first_arg_ancestors. apply in_map_iff. exists (a, left). split; [reflexivity|]. apply filter_In. split; [exact I|]. cbn. destruct left; [reflexivity|cbn in LL; lia].
Qed.

(** ** C150 *)
(** With the inverse constraint no function is applied directly to its inverse. *)
Theorem C150_inverse lib ps t rest a b sa sb : usual lib -> In (make_inverse lib) ps -> respects (ar_of lib) t -> sampled lib ps (preorder t ++ rest) ->
  argument t a b -> called lib a sa -> called lib b sb ->
  ~ In (sa, sb) [("inv", "inv"); ("neg", "neg"); ("exp", "log"); ("log", "exp"); ("sqrt", "n2"); ("n2", "sqrt")].
Proof.
  intros (L & N & _ & _ & _ & U) I R S' (c & Hn & Hp) Ca Cb X.
  assert (In (b, a) (inverse_tokens lib)) as P.
  { unfold inverse_tokens. apply in_flat_map. exists (sb, sa). split; [cbn in X; cbn; intuition congruence|]. cbn [fst snd]. rewrite (last_from_called lib b sb L N Cb), (last_from_called lib a sa L N Ca). now left. }
  assert (ar_of lib a = 1) as A1. { apply (U a sa Ca). cbn in X. cbn. intuition congruence. }
  assert (sampled lib [rel_prior lib [b] [a] RChild] (preorder t ++ rest)) as S2.
  { apply (sampled_mono lib ps); [|exact S']. exists (make_inverse lib). split; [exact I|]. split; [intros y []|]. intros o y Y. cbn. apply in_flat_map. exists (b, a). split; [exact P|exact Y]. }
  assert (forall y s, called lib y s -> y < lL lib) as LT by (intros y s (tk & E & _); eapply lt_of; eauto).
  refine (sampled_relational lib _ RChild [b] [a] t rest L _ _ _ _ R S2 _).
  - intros e [<-|[]]. eauto.
  - intros e [<-|[]]. split; [eauto|lia].
  - discriminate.
  - now left.
  - exists b, c. split; [exact Hn|]. split; [now left|]. exists a. split; [now left|exact Hp].
Qed.
(** With the trig constraint nothing trigonometric and no derivative occurs inside a trigonometric function, nor in the
    expression a derivative is taken of: derivatives are not nested. *)
Theorem C150_trig lib ps t rest a b : usual lib -> In (trig_prior lib) ps -> respects (ar_of lib) t -> sampled lib ps (preorder t ++ rest) ->
  trigonometric lib b \/ derivative lib b -> (trigonometric lib a -> ~ inside t a b) /\ (derivative lib a -> ~ inside_first t a b).
Proof.
  intros (L & _ & _ & D & T & _) I R S' B.
  assert (forall a, trigonometric lib a \/ derivative lib a -> ~ inside_first t a b) as M.
  { intros x X (c & Hn & Hc). refine (sampled_descendant lib ps (ltrig lib) (ltrig lib) t rest L _ I R S' b c Hn _).
    - intros e E. apply (trig_iff lib L) in E as [E|E]; [rewrite (T e E)|rewrite (D e E)]; lia.
    - split; [apply trig_iff; auto|]. exists x. split; [apply trig_iff; auto|exact Hc]. }
  split; [|auto]. intros A Hi. apply (M a (or_introl A)). apply (unary_first lib); auto.
Qed.
(** With diff_left the expression a derivative is taken of is not a coordinate and not a constant ... *)
Theorem C150_left lib ps t rest a b : usual lib -> In (diff_left_prior lib) ps -> respects (ar_of lib) t -> sampled lib ps (preorder t ++ rest) ->
  derivative lib a -> first_argument t a b -> ~ coordinate lib b /\ ~ called lib b "const".
Proof.
  intros (L & N & C & D & _) I R S' A (c & Hn & Hp & Hl).
  assert (M : ~ In b (diff_left_targets lib)).
  { intros B. refine (sampled_relational lib ps RLChild (diff_left_targets lib) (ldiff lib) t rest L _ _ _ I R S' _).
    - intros e E. unfold diff_left_targets in E. apply in_app_iff in E as [E|E].
      + destruct (lconst_token lib) as [k|] eqn:K; [|destruct E]. destruct E as [<-|[]]. apply (const_called lib k L K).
      + apply (input_iff lib L C) in E as (tk & E & _). eapply lt_of; eauto.
    - intros e E. apply (diff_iff lib L) in E. split; [apply derivative_lt; auto|rewrite (D e E); lia].
    - discriminate.
    - exists b, c. split; [exact Hn|]. split; [exact B|]. exists a. split; [apply diff_iff; auto|auto]. }
  unfold diff_left_targets in M. split; intros B; apply M; apply in_app_iff.
  - right. apply input_iff; auto.
  - left. rewrite (called_const lib b L N B). now left.
Qed.
(** ... with the strict version it is a field or again a derivative ... *)
Theorem C150_left_strict lib ps t rest a b : usual lib -> In (diff_left_strict_prior lib) ps -> respects (ar_of lib) t -> sampled lib ps (preorder t ++ rest) ->
  derivative lib a -> first_argument t a b -> field lib b \/ derivative lib b.
Proof.
  intros (L & N & C & D & _) I R S' A (c & Hn & Hp & Hl). destruct (lib_view lib L) as (toks & _ & _ & T & HL & _).
  assert (b < lL lib) as Hb by (destruct (sampled_node _ _ _ _ _ _ S' R Hn) as ((Y & _) & _); exact Y).
  assert (M : ~ In b (diff_left_strict_targets lib)).
  { intros B. refine (sampled_relational lib ps RLChild (diff_left_strict_targets lib) (ldiff lib) t rest L _ _ _ I R S' _).
    - intros e E. unfold diff_left_strict_targets in E. apply indices_spec in E as (tk & E & _). eapply lt_of; eauto.
    - intros e E. apply (diff_iff lib L) in E. split; [apply derivative_lt; auto|rewrite (D e E); lia].
    - discriminate.
    - exists b, c. split; [exact Hn|]. split; [exact B|]. exists a. split; [apply diff_iff; auto|auto]. }
  rewrite HL, <- T in Hb. destruct (nth_error (ltokens lib) b) as [tk|] eqn:E; [|apply nth_error_None in E; lia].
  destruct (has_diff (tname tk)) eqn:HD; [right; exists (tname tk); split; [exists tk; auto|apply orb_true_iff; exact HD]|].
  destruct (tstate tk) eqn:HS; [left; exists tk; split; [exact E|congruence]|].
  exfalso. apply M. unfold diff_left_strict_targets. apply indices_spec. exists tk. split; [exact E|]. rewrite HD, HS. reflexivity.
Qed.
(** ... and with diff_right what it is taken with respect to is a coordinate. *)
Theorem C150_right lib ps t rest a b : usual lib -> In (diff_right_prior lib) ps -> respects (ar_of lib) t -> sampled lib ps (preorder t ++ rest) ->
  derivative lib a -> later_argument t a b -> coordinate lib b.
Proof.
  intros (L & N & C & D & _) I R S' A (c & Hn & Hp & Hl).
  assert (b < lL lib) as Hb by (destruct (sampled_node _ _ _ _ _ _ S' R Hn) as ((Y & _) & _); exact Y).
  destruct (arity_class lib L b) as (A0 & A1 & A2).
  assert (M : ~ In b (diff_right_targets lib)).
  { intros B. refine (sampled_relational lib ps RRChild (diff_right_targets lib) (ldiff lib) t rest L _ _ _ I R S' _).
    - intros e E. unfold diff_right_targets in E. destruct (arity_class lib L e) as (Z & X & Y). rewrite !in_app_iff, filter_In, X, Y, Z in E. tauto.
    - intros e E. apply (diff_iff lib L) in E. split; [apply derivative_lt; auto|rewrite (D e E); lia].
    - discriminate.
    - exists b, c. split; [exact Hn|]. split; [exact B|]. exists a. split; [apply diff_iff; auto|auto]. }
  unfold diff_right_targets in M. rewrite !in_app_iff, filter_In, A1, A2, A0 in M.
  assert (ar_of lib b = 0 \/ ar_of lib b = 1 \/ ar_of lib b = 2) as Ar by (destruct L as [_ L]; specialize (L b); lia).
  apply (input_iff lib L C). destruct (memb b (linput_tokens lib)) eqn:E; [apply memb_In; exact E|]. exfalso. cbn in M. destruct Ar as [Ar|[Ar|Ar]]; tauto.
Qed.
(** With the const constraint a function of one argument is never applied to a constant, nor one of two arguments to two. *)
Theorem C150_const lib ps p t rest a b : usual lib -> make_const lib = Some p -> In p ps -> respects (ar_of lib) t -> sampled lib ps (preorder t ++ rest) ->
  called lib b "const" -> (ar_of lib a = 1 -> ~ argument t a b) /\ (ar_of lib a = 2 -> ~ neighbours t a b b).
Proof.
  intros (L & N & C & D & _) P I R S' B. unfold make_const in P. rewrite (called_const lib b L N B) in P. injection P as <-.
  assert (b < lL lib) as Hb by (destruct B as (tk & E & _); eapply lt_of; eauto).
  assert (M : ~ tree_in_relation (ar_of lib) RUChild [b] (lunary lib ++ lbinary lib) t).
  { refine (sampled_relational lib ps RUChild [b] (lunary lib ++ lbinary lib) t rest L _ _ _ I R S').
    - intros e [<-|[]]. exact Hb.
    - intros e E. destruct (arity_class lib L e) as (_ & X & Y). rewrite in_app_iff, X, Y in E. split; [tauto|]. destruct E as [E|E]; lia.
    - discriminate. }
  assert (forall x, ar_of lib x = 1 \/ ar_of lib x = 2 -> In x (lunary lib ++ lbinary lib)) as E1.
  { intros x X. destruct (arity_class lib L x) as (_ & Y & Z). rewrite in_app_iff, Y, Z. assert (x < lL lib); [|tauto]. destruct (lib_view lib L) as (toks & _ & MK & _ & HL & _).
    rewrite HL. destruct (Nat.lt_ge_cases x (List.length toks)) as [G|G]; [exact G|]. exfalso. unfold ar_of in X. rewrite nth_overflow in X; [lia|].
    unfold make_library in MK. destruct (_ && _) in MK; [discriminate|]. injection MK as <-. cbn. rewrite map_length. exact G. }
  split.
  - intros A (c & Hn & Hp). apply M. exists b, c. split; [exact Hn|]. split; [now left|]. exists a. split; [apply E1; auto|]. split; [exact Hp|left; exact A].
  - intros A (c & Hn & Hp & Hs). apply M. exists b, c. split; [exact Hn|]. split; [now left|]. exists a. split; [apply E1; auto|]. split; [exact Hp|right]. exists b. split; [exact Hs|now left].
Qed.
(** "No function applied to its inverse" is false if a function is listed twice: only the last of the two is constrained. *)
Definition twice_toks : list token := [op "add" 2; op "exp" 1; op "log" 1; op "exp" 1; mkTok "u1" 0 None (Some 0) None; mkTok "x1" 0 (Some 0) None None].
Theorem C150_listed_twice_refuted : exists lib t, lib_ok lib /\ respects (ar_of lib) t /\ sampled lib [make_inverse lib] (preorder t) /\
  argument t 2 1 /\ called lib 2 "log" /\ called lib 1 "exp" /\ ~ sampled lib [make_inverse lib] [2; 3; 4].
Proof.
  exists (mk twice_toks), (Nd 2 [Nd 1 [Nd 4 []]]). split; [apply mk_ok; [repeat constructor|eexists; reflexivity|reflexivity]|]. split; [repeat constructor|].
  split; [apply sampledb_ok; reflexivity|]. split; [exists [(2, [])]; split; [cbn; tauto|reflexivity]|]. split; [eexists; split; reflexivity|]. split; [eexists; split; reflexivity|].
  intros S'. assert (S2 : sampled (mk twice_toks) [make_inverse (mk twice_toks)] ([2] ++ [3] ++ [4])) by exact S'. apply sampled_nth in S2. destruct S2 as [_ X].
  apply (X _ (or_introl eq_refl)). vm_compute. tauto.
Qed.
Definition case_toks : list token := [op "add" 2; op "sin" 1; op "exp" 1; op "log" 1; op "diff" 2; op "const" 0; mkTok "u1" 0 None (Some 0) None; mkTok "x1" 0 (Some 0) None None].
(** add (log (add (u1, const))) (diff (add (u1, u1)) x1) may be drawn under all of them; log (exp u1) and the other forbidden ones may not. *)
Example C150_case : exists t p, usual (mk case_toks) /\ make_const (mk case_toks) = Some p /\ respects (ar_of (mk case_toks)) t /\
  sampled (mk case_toks) [make_inverse (mk case_toks); trig_prior (mk case_toks); diff_left_prior (mk case_toks); diff_right_prior (mk case_toks); p] (preorder t) /\
  later_argument t 4 7 /\ first_argument t 4 0 /\ argument t 3 0 /\ neighbours t 0 6 5 /\
  permittedb (mk case_toks) [make_inverse (mk case_toks)] [3] 2 = false /\ permittedb (mk case_toks) [trig_prior (mk case_toks)] [1; 0; 6] 4 = false /\
  permittedb (mk case_toks) [diff_left_prior (mk case_toks)] [4] 5 = false /\ permittedb (mk case_toks) [diff_left_strict_prior (mk case_toks)] [4] 0 = false /\
  permittedb (mk case_toks) [diff_right_prior (mk case_toks)] [4; 6] 6 = false /\ permittedb (mk case_toks) [p] [0; 5] 5 = false /\ permittedb (mk case_toks) [p] [3] 5 = false.
Proof.
  exists (Nd 0 [Nd 3 [Nd 0 [Nd 6 []; Nd 5 []]]; Nd 4 [Nd 0 [Nd 6 []; Nd 6 []]; Nd 7 []]]). eexists.
  split.
  { split; [apply mk_ok; [repeat constructor|eexists; reflexivity|reflexivity]|].
    split. { repeat (constructor; [cbn; intros H; repeat (destruct H as [H|H]; [discriminate|]); exact H|]). constructor. }
    split; [exists 7; eexists; split; [reflexivity|discriminate]|].
    assert (ALL : forall a tk, nth_error (ltokens (mk case_toks)) a = Some tk -> In (a, tk) (combine (seq 0 8) case_toks)).
    { intros a tk H. change (ltokens (mk case_toks)) with case_toks in H. do 8 (destruct a as [|a]; [injection H as <-; cbn; tauto|]). destruct a; discriminate. }
    split; [|split].
    - intros a (s & (tk & E & <-) & H). apply ALL in E. cbn in E. repeat (destruct E as [E|E]; [injection E as <- <-; cbn in H; destruct H; solve [discriminate | reflexivity]|]). destruct E.
    - intros a (s & (tk & E & <-) & H). apply ALL in E. cbn in E. repeat (destruct E as [E|E]; [injection E as <- <-; cbn in H; repeat (destruct H as [H|H]; [try discriminate; try reflexivity|]); try destruct H|]). destruct E.
    - intros a s (tk & E & <-) H. apply ALL in E. cbn in E. repeat (destruct E as [E|E]; [injection E as <- <-; cbn in H; repeat (destruct H as [H|H]; [try discriminate; try reflexivity|]); try destruct H|]). destruct E. }
  split; [reflexivity|]. split; [repeat constructor|]. split; [apply sampledb_ok; vm_compute; reflexivity|].
  split; [exists [(4, [Nd 0 [Nd 6 []; Nd 6 []]]); (0, [Nd 3 [Nd 0 [Nd 6 []; Nd 5 []]]])]; split; [cbn; tauto|split; [reflexivity|discriminate]]|].
  split; [exists [(4, []); (0, [Nd 3 [Nd 0 [Nd 6 []; Nd 5 []]]])]; split; [cbn; tauto|split; reflexivity]|].
  split; [exists [(3, []); (0, [])]; split; [cbn; tauto|reflexivity]|].
  split; [exists [(0, [Nd 6 []]); (3, []); (0, [])]; split; [cbn; tauto|split; reflexivity]|].
  repeat split; vm_compute; reflexivity.
Qed.
Print Assumptions C150_inverse.
Print Assumptions C150_trig.
Print Assumptions C150_left.
Print Assumptions C150_left_strict.
Print Assumptions C150_right.
Print Assumptions C150_const.
Print Assumptions C150_listed_twice_refuted.
