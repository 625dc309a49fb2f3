(** C145: switching an expression from numpy to torch operators. *)
From Verif Require Import Base Library LibraryFacts Tokens PropsTokens.
Local Open Scope string_scope.

(** ** Specification *)
(** the operators with a torch version, and the function of that version *)
Definition torch_version : list (string * string) :=
  [("add", "torch.add"); ("sub", "torch.subtract"); ("mul", "torch.multiply"); ("div", "protected_div_torch"); ("n2", "protected_n2_torch"); ("n3", "protected_n3_torch");
   ("diff", "partial(torch_diff,order=1)"); ("diff2", "partial(torch_diff,order=2)"); ("diff3", "partial(torch_diff,order=3)"); ("diff4", "partial(torch_diff,order=4)");
   ("lap", "Laplacian_t"); ("ddx", "ddx_t"); ("ddy", "ddy_t"); ("laplacian", "laplacian_t"); ("adv", "adv_t")]%list.
Definition has_torch (op : string) : Prop := exists f, In (op, f) torch_version.
(** the torch counterpart of an operator token: name with "_t", same number of arguments *)
Definition torch_of (t t' : ftoken) : Prop :=
  exists f, In (tname (fst t), f) torch_version /\ t' = (mkTok (tname (fst t) ++ "_t") (tarity (fst t)) None None None, f).

(** ** Facts *)
Definition tv_check (p : string * string) : bool :=
  match lookup (fst p), lookup (fst p ++ "_t") with
  | Some e, Some e' => String.eqb (e_name e) (fst p) && String.eqb (e_name e') (fst p ++ "_t") && String.eqb (e_fun e') (snd p) && Nat.eqb (e_arity e) (e_arity e') &&
      Nat.eqb (e_arity e) (if existsb (String.eqb (fst p)) two_arguments then 2 else 1) && negb (existsb (String.eqb (fst p)) two_arguments && existsb (String.eqb (fst p)) one_argument) && negb (contains "_t" (fst p)) && negb (has_prefix "protected_" (fst p ++ "_t")) &&
      (match lookup ("protected_" ++ fst p ++ "_t") with None => true | Some _ => false end) &&
      (negb (contains "u" (fst p)) || String.eqb (fst p) "mul" || String.eqb (fst p) "sub" || false) && negb (String.eqb (fst p) "const")
  | _, _ => false end.
Lemma tv_ok p : In p torch_version -> tv_check p = true.
Proof. assert (A : forallb tv_check torch_version = true) by (vm_compute; reflexivity). rewrite forallb_forall in A. apply A. Qed.
Lemma tv_complete e : In e function_map -> contains "_t" (e_key e) = false -> lookup (e_key e ++ "_t") <> None -> has_torch (e_key e).
Proof.
  assert (A : forallb (fun e => contains "_t" (e_key e) || match lookup (e_key e ++ "_t") with None => true | Some _ => existsb (fun p => String.eqb (fst p) (e_key e)) torch_version end) function_map = true) by (vm_compute; reflexivity).
  rewrite forallb_forall in A. intros I C L. specialize (A e I). rewrite C in A. cbn [orb] in A. destruct (lookup (e_key e ++ "_t")); [|congruence].
  apply existsb_exists in A. destruct A as ((k & f) & J & E). cbn [fst] in E. apply String.eqb_eq in E. subst k. exists f. exact J.
Qed.
Lemma tv_facts op f : In (op, f) torch_version -> exists e e', lookup op = Some e /\ lookup (op ++ "_t") = Some e' /\ e_name e = op /\ e_name e' = op ++ "_t" /\ e_fun e' = f /\ e_arity e = e_arity e' /\
  (forall a, (a = 2 /\ In op two_arguments \/ a = 1 /\ In op one_argument) -> e_arity e = a) /\ contains "_t" op = false /\ has_prefix "protected_" (op ++ "_t") = false /\ lookup ("protected_" ++ op ++ "_t") = None /\
  (contains "u" op = true -> op = "mul" \/ op = "sub") /\ op <> "const".
Proof.
  intros I. apply tv_ok in I. unfold tv_check in I. cbn [fst snd] in I. destruct (lookup op) as [e|]; [|discriminate]. destruct (lookup (op ++ "_t")) as [e'|]; [|discriminate]. exists e, e'.
  repeat (apply andb_true_iff in I; destruct I as [I ?]). repeat match goal with H : String.eqb _ _ = true |- _ => apply String.eqb_eq in H | H : Nat.eqb _ _ = true |- _ => apply Nat.eqb_eq in H | H : negb _ = true |- _ => apply negb_true_iff in H end.
  destruct (lookup ("protected_" ++ op ++ "_t")); [discriminate|].
  do 6 (split; [congruence|]). split; [|split; [assumption|split; [assumption|split; [reflexivity|split]]]].
  - intros a A. match goal with H : e_arity e = (if _ then _ else _), H' : _ && _ = false |- _ => rename H into HA; rename H' into HB end. rewrite HA. destruct (existsb (String.eqb op) two_arguments) eqn:T2.
    + cbn [andb] in HB. destruct A as [[-> _]|[-> A]]; [reflexivity|]. apply existsb_eqb in A. congruence.
    + destruct A as [[-> A]|[-> _]]; [|reflexivity]. apply existsb_eqb in A. congruence.
  - intros C. match goal with H : _ || _ = true |- _ => rewrite C in H; rename H into HO end. cbn [negb orb] in HO. rewrite orb_false_r in HO. apply orb_true_iff in HO. rewrite !String.eqb_eq in HO. exact HO.
  - apply String.eqb_neq. assumption.
Qed.
Lemma torch_get_app d k e k' : torch_get (d ++ [(k, e)])%list k' = match torch_get d k' with Some x => Some x | None => if String.eqb k k' then Some e else None end.
Proof.
  unfold torch_get. induction d as [|[a b] d IH]; cbn [app find fst]; [destruct (String.eqb k k'); reflexivity|]. destruct (String.eqb a k'); [reflexivity|exact IH].
Qed.
Lemma torch_step prot d op f rest : In (op, f) torch_version -> exists e, lookup (op ++ "_t") = Some e /\
  torch_loop prot d (op :: rest) = torch_loop prot (match torch_get d (op ++ "_t") with Some _ => d | None => (d ++ [(String.append op "_t", e)])%list end) rest.
Proof.
  intros I. destruct (tv_facts op f I) as (e & e' & L & L' & _ & _ & _ & _ & _ & C & P & N & _). exists e'. split; [exact L'|].
  cbn [torch_loop]. rewrite L, C, P, N. rewrite andb_true_r. destruct prot; rewrite L'; reflexivity.
Qed.
Lemma app_inj_r : forall a b c : string, a ++ c = b ++ c -> a = b.
Proof.
  assert (LN : forall x y : string, String.length (x ++ y) = (String.length x + String.length y)%nat) by (induction x; cbn; intros; congruence).
  induction a as [|x a IH]; intros [|y b] c E; cbn in E; [reflexivity| | |].
  - exfalso. assert (X : String.length c = String.length (String y (b ++ c))) by (rewrite <- E; reflexivity). cbn in X. rewrite LN in X. lia.
  - exfalso. assert (X : String.length (String x (a ++ c)) = String.length c) by (rewrite E; reflexivity). cbn in X. rewrite LN in X. lia.
  - injection E as -> E. f_equal. eapply IH. exact E.
Qed.
Definition torch_ready (fset : list string) : Prop := forall op, In op fset -> registered op -> has_torch op.
Lemma loop_ok prot : forall fset d, torch_ready fset -> exists d', torch_loop prot d fset = Ok d' /\
  (forall k e, torch_get d k = Some e -> torch_get d' k = Some e) /\
  (forall k, torch_get d k = None -> torch_get d' k = None \/ exists op, In op fset /\ has_torch op /\ k = op ++ "_t") /\
  (forall k, torch_get d k = None -> (exists op, In op fset /\ has_torch op /\ k = op ++ "_t") -> torch_get d' k = lookup k).
Proof.
  induction fset as [|op fset IH]; intros d R.
  - exists d. split; [reflexivity|]. split; [auto|]. split; [auto|]. intros k _ (op & [] & _).
  - assert (R' : torch_ready fset) by (intros o I; apply R; right; exact I). destruct (lookup op) as [e0|] eqn:L.
    + assert (H : has_torch op) by (apply R; [left; reflexivity|apply registered_lookup; congruence]). destruct H as (f & Hf).
      destruct (torch_step prot d op f fset Hf) as (e & Le & ->). destruct (torch_get d (op ++ "_t")) as [x|] eqn:G.
      * destruct (IH d R') as (d' & E & K1 & K2 & K3). exists d'. split; [exact E|]. split; [exact K1|]. split.
        -- intros k Hk. destruct (K2 k Hk) as [X|(o & I & X)]; [auto|right]. exists o. split; [right; exact I|exact X].
        -- intros k Hk (o & [<-|I] & X); [destruct X as [_ ->]; congruence|]. apply K3; [exact Hk|]. eauto.
      * destruct (IH (d ++ [(String.append op "_t", e)])%list R') as (d' & E & K1 & K2 & K3). exists d'. split; [exact E|]. split; [|split].
        -- intros k x Hk. apply K1. rewrite torch_get_app, Hk. reflexivity.
        -- intros k Hk. destruct (String.eqb (op ++ "_t") k) eqn:Q.
           ++ apply String.eqb_eq in Q. right. exists op. split; [left; reflexivity|]. split; [exists f; exact Hf|congruence].
           ++ destruct (K2 k) as [X|(o & I & X)]; [rewrite torch_get_app, Hk, Q; reflexivity|auto|right]. exists o. split; [right; exact I|exact X].
        -- intros k Hk (o & I & Ho & ->). destruct (String.eqb (op ++ "_t") (o ++ "_t")) eqn:Q.
           ++ apply String.eqb_eq in Q. rewrite <- Q. rewrite Le. apply K1. rewrite torch_get_app, G, String.eqb_refl. reflexivity.
           ++ apply K3; [rewrite torch_get_app, Hk, Q; reflexivity|]. destruct I as [<-|I]; [rewrite String.eqb_refl in Q; discriminate|]. eauto.
    + destruct (IH d R') as (d' & E & K1 & K2 & K3). exists d'. split; [cbn [torch_loop]; rewrite L; exact E|]. split; [exact K1|]. split.
      * intros k Hk. destruct (K2 k Hk) as [X|(o & I & X)]; [auto|right]. exists o. split; [right; exact I|exact X].
      * intros k Hk (o & [<-|I] & Ho & ->); [|apply K3; [exact Hk|]; eauto]. exfalso. destruct Ho as (f & Hf). apply tv_facts in Hf. destruct Hf as (e & e' & X & _). congruence.
Qed.

(** ** Theorems *)
(** Torch versions are collected for every operator of the function set when all have one (numbers and "const" are passed over); the first operator without one
    raises KeyError, and a first operator that already is a torch one leaves the dictionary empty. *)
Theorem C145_collected prot fset :
  (torch_ready fset -> exists d, add_torch_tokens fset prot = Ok d /\
     forall k, (forall e, torch_get d k = Some e -> exists op f, In op fset /\ In (op, f) torch_version /\ k = op ++ "_t" /\ e_name e = k /\ e_fun e = f) /\
               (forall op, In op fset -> has_torch op -> k = op ++ "_t" -> exists e, torch_get d k = Some e)) /\
  (forall pre op post, fset = (pre ++ op :: post)%list -> torch_ready pre -> registered op -> ~ has_torch op ->
     add_torch_tokens fset prot = if contains "_t" op then Ok []%list else Err KeyError).
Proof.
  unfold add_torch_tokens. split.
  - intros R. destruct (loop_ok prot fset []%list R) as (d & E & _ & K2 & K3). exists d. split; [exact E|]. intros k. split.
    + intros e G. destruct (K2 k eq_refl) as [X|(op & I & (f & Hf) & ->)]; [congruence|]. exists op, f. split; [exact I|]. split; [exact Hf|]. split; [reflexivity|].
      rewrite K3 in G; [|reflexivity|exists op; split; [exact I|split; [exists f; exact Hf|reflexivity]]]. destruct (tv_facts op f Hf) as (e0 & e' & _ & L' & _ & N' & F' & _). rewrite L' in G. injection G as <-. auto.
    + intros op I (f & Hf) ->. rewrite K3; [|reflexivity|exists op; split; [exact I|split; [exists f; exact Hf|reflexivity]]]. destruct (tv_facts op f Hf) as (e0 & e' & _ & L' & _). eauto.
  - intros pre op post -> R Reg N. assert (G : forall d, exists d', torch_loop prot d (pre ++ op :: post)%list = torch_loop prot d' (op :: post)).
    { clear N Reg. induction pre as [|o pre IH]; intros d; [exists d; reflexivity|]. assert (R' : torch_ready pre) by (intros q I; apply R; right; exact I).
      change ((o :: pre) ++ op :: post)%list with (o :: (pre ++ op :: post))%list. destruct (lookup o) as [e0|] eqn:L.
      - assert (H : has_torch o) by (apply R; [left; reflexivity|apply registered_lookup; congruence]). destruct H as (f & Hf). destruct (torch_step prot d o f (pre ++ op :: post)%list Hf) as (e & _ & ->). apply IH. exact R'.
      - cbn [torch_loop]. rewrite L. apply IH. exact R'. }
    destruct (G []%list) as (d' & ->). apply registered_lookup in Reg. destruct (lookup op) as [e0|] eqn:L; [|congruence]. cbn [torch_loop]. rewrite L. destruct (contains "_t" op) eqn:C; [reflexivity|].
    pose proof (lookup_In _ _ L) as [I K]. assert (NL : lookup (op ++ "_t") = None).
    { destruct (lookup (op ++ "_t")) eqn:X; [|reflexivity]. exfalso. apply N. rewrite <- K. apply tv_complete; [exact I|rewrite K; exact C|rewrite K; congruence]. }
    assert (NP : lookup ("protected_" ++ op ++ "_t") = None).
    { assert (A : forallb (fun e => match lookup ("protected_" ++ e_key e ++ "_t") with None => true | Some _ => false end) function_map = true) by (vm_compute; reflexivity).
      rewrite forallb_forall in A. specialize (A e0 I). rewrite K in A. destruct (lookup ("protected_" ++ op ++ "_t")); [discriminate|reflexivity]. }
    rewrite NP. destruct (prot && _); rewrite NL; reflexivity.
Qed.
(** When the function set consists of operators with a torch version other than "sub", and "const", switching replaces every operator of an expression by its torch
    version, with the same number of arguments, and leaves variables, parameters and constants as they are. *)
Theorem C145_switched flt n_in fset prot pde n_st n_par names toks d trav :
  create_tokens flt n_in fset prot pde n_st n_par names = Ok toks -> add_torch_tokens fset prot = Ok d ->
  (forall op, In op fset -> (has_torch op /\ op <> "sub") \/ (op = "const" /\ flt op = None)) -> (exists op, In op fset /\ op <> "const") ->
  (forall t, In t trav -> In t toks) ->
  exists trav', switch_tokens (np_names (map fst toks)) d trav = Ok trav' /\
    Forall2 (fun t t' => (operator (tname (fst t)) /\ torch_of t t') \/ (tarity (fst t) = 0 /\ t' = t)) trav trav'.
Proof.
  intros E D HF (op0 & I0 & NC) HT.
  assert (REG : forall op, has_torch op -> registered op). { intros op (f & Hf). apply registered_lookup. destruct (tv_facts op f Hf) as (e & _ & L & _). congruence. }
  assert (CN : ~ registered "const") by (rewrite registered_lookup; vm_compute; intuition).
  assert (R : torch_ready fset). { intros op I Rg. destruct (HF op I) as [[H _]|[-> _]]; tauto. }
  pose proof (proj1 (C145_collected prot fset) R) as (d' & D' & K). rewrite D in D'. injection D' as <-.
  assert (OPT : forall t op, In op fset -> denotes flt prot op t -> (has_torch op /\ op <> "sub" /\ operator op /\ exists a, fst t = mkTok op a None None None /\ (a = 2 /\ In op two_arguments \/ a = 1 /\ In op one_argument)) \/ t = constant_token "const").
  { intros t op I Dn. destruct (HF op I) as [[Ht Ns]|[-> Fl]].
    - left. split; [exact Ht|]. split; [exact Ns|]. destruct Dn as [(O & a & X & A & _)|[(b & _ & X & _)|[(N & _)|(X & _)]]].
      + split; [exact O|]. eauto.
      + exfalso. subst op. destruct Ht as (f & Hf). unfold torch_version in Hf. cbn in Hf. repeat (destruct Hf as [Hf|Hf]; [discriminate Hf|]). exact Hf.
      + exfalso. apply N, REG, Ht.
      + exfalso. subst op. apply CN, REG, Ht.
    - right. destruct Dn as [(O & _)|[(b & Ib & X & _)|[(_ & n & X & _)|(_ & _ & X)]]]; [|discriminate X|congruence|exact X]. exfalso. apply CN. left. exact O. }
  assert (NP : forall n, In n (np_names (map fst toks)) <-> exists op, In op fset /\ op = n /\ has_torch op).
  { intros n. unfold np_names. rewrite in_map_iff. split.
    - intros (t & <- & I). apply filter_In in I. destruct I as [I B]. apply in_map_iff in I. destruct I as (ft & <- & I).
      repeat (apply andb_true_iff in B; destruct B as [B ?]). repeat match goal with H : negb _ = true |- _ => apply negb_true_iff in H end.
      destruct (created_tok _ _ _ _ _ _ _ _ _ _ E I) as [[_ [(i & _ & X)|[(_ & i & _ & X)|(i & Hi & X)]]]|(op & Io & Dn)]; [rewrite X in *; discriminate| |rewrite X in *; discriminate|].
      + exfalso. rewrite X in *. cbn [tname] in *. unfold u_ in *. match goal with H : _ || _ = true |- _ => cbn in H; discriminate H end.
      + destruct (OPT ft op Io Dn) as [(Ht & _ & _ & a & X & _)|X]; [|subst ft; cbn in B; discriminate]. exists op. rewrite X. auto.
    - intros (op & I & <- & Ht). pose proof (C144_layout _ _ _ _ _ _ _ _ _ E) as (_ & _ & _ & _ & HO). cbv zeta in HO. apply In_nth_error in I. destruct I as (j & Hj). destruct (HO j op Hj) as (t & Tt & Dn).
      pose proof Ht as (f & Hf). destruct (tv_facts op f Hf) as (_ & _ & _ & _ & _ & _ & _ & _ & _ & _ & _ & _ & U & C).
      destruct (OPT t op (nth_error_In _ _ Hj) Dn) as [(_ & Ns & _ & a & X & _)|X].
      + exists (fst t). split; [rewrite X; reflexivity|]. apply filter_In. split; [apply in_map; eapply nth_error_In; exact Tt|]. rewrite X. cbn [tname tinput tparam is_some negb andb]. rewrite !andb_true_r.
        apply andb_true_iff. split; [apply negb_true_iff, String.eqb_neq; exact C|]. destruct (contains "u" op) eqn:CU; [|reflexivity]. cbn [negb orb]. apply String.eqb_eq. destruct (U eq_refl); tauto.
      + exfalso. subst t. destruct Dn as [(_ & a & X & _ & _)|[(b & Ib & X & a & Y & _)|[(N & _)|(X & _)]]]; [injection X as X _; congruence| |apply N, REG, Ht|tauto].
        injection Y as Y _. subst b. vm_compute in Ib. repeat (destruct Ib as [Ib|Ib]; [discriminate|]). exact Ib. }
  assert (T0 : has_torch op0) by (destruct (HF op0 I0) as [[H _]|[H _]]; [exact H|congruence]).
  unfold switch_tokens. destruct d as [|p d0] eqn:ED.
  { exfalso. destruct (K (op0 ++ "_t")) as [_ K2]. destruct (K2 op0 I0 T0 eq_refl) as (e & G). discriminate. }
  rewrite <- ED in *. clear ED p d0.
  destruct (np_names (map fst toks)) as [|n0 np0] eqn:EN.
  { exfalso. apply (proj2 (NP op0)). exists op0. auto. }
  assert (C0 : contains "_t" n0 = false).
  { destruct (proj1 (NP n0) (or_introl eq_refl)) as (op & _ & <- & f & Hf). destruct (tv_facts op f Hf) as (_ & _ & _ & _ & _ & _ & _ & _ & _ & C & _). exact C. }
  rewrite C0. rewrite <- EN in *. clear C0.
  induction trav as [|t trav IH]; [exists []%list; split; [reflexivity|constructor]|].
  destruct IH as (tr & Etr & Ftr); [intros x I; apply HT; right; exact I|]. cbn [mapM].
  destruct (existsb (String.eqb (tname (fst t))) (np_names (map fst toks))) eqn:B.
  - apply existsb_eqb in B. pose proof (proj1 (NP _) B) as (op & Io & En & f & Hf). subst op.
    destruct (K (tname (fst t) ++ "_t")) as [K1 K2]. destruct (K2 _ Io (ex_intro _ f Hf) eq_refl) as (e & G). rewrite G. cbn [bind]. rewrite Etr. cbn [bind]. eexists. split; [reflexivity|]. constructor; [|exact Ftr].
    left. destruct (tv_facts _ _ Hf) as (e0 & e' & L & L' & N1 & N2 & F2 & A12 & AR & _ & _ & _ & _ & _).
    assert (It : In t toks) by (apply HT; left; reflexivity).
    assert (O : operator (tname (fst t)) /\ e_arity e0 = tarity (fst t)).
    { destruct (created_tok _ _ _ _ _ _ _ _ _ _ E It) as [[_ V]|(op & Io' & Dn)].
      - exfalso. assert (NR : ~ registered (tname (fst t))).
        { destruct V as [(i & _ & X)|[(_ & i & _ & X)|(i & Hi & X)]]; rewrite X; cbn [tname]; intros [Q|(b & Q & Y)].
          - apply op_name_start in Q. destruct Q as [Q _]. unfold x_ in Q. cbn in Q. discriminate.
          - discriminate.
          - apply op_name_start in Q. destruct Q as [_ Q]. unfold u_ in Q. cbn in Q. discriminate.
          - discriminate.
          - apply (proj2 (proj1 (C144_accepted flt n_in fset prot pde n_st n_par names)) (ex_intro _ toks E)) in Hi. apply Hi. unfold taken. tauto.
          - apply (proj2 (proj1 (C144_accepted flt n_in fset prot pde n_st n_par names)) (ex_intro _ toks E)) in Hi. apply Hi. unfold taken. right. right. right. left. eauto. }
        apply NR, REG. exists f. exact Hf.
      - destruct (OPT t op Io' Dn) as [(_ & _ & O & a & X & A)|X]; [rewrite X in *; cbn [tname tarity] in *; split; [exact O|apply AR; exact A]|].
        exfalso. subst t. apply CN, REG. exists f. exact Hf. }
    split; [apply O|]. exists f. split; [exact Hf|]. destruct (K1 e G) as (op & f' & _ & Hf' & Eq & En & Ef). apply app_inj_r in Eq. subst op.
    destruct (tv_facts _ _ Hf') as (_ & e2 & _ & L2 & _ & _ & F2' & _). unfold of_entry. rewrite En. f_equal; [|congruence]. f_equal.
    pose proof (loop_ok prot fset []%list R) as (d2 & D2 & _ & _ & K3). unfold add_torch_tokens in D. rewrite D in D2. injection D2 as <-.
    rewrite K3 in G; [|reflexivity|exists (tname (fst t)); split; [exact Io|split; [exists f; exact Hf|reflexivity]]]. rewrite L' in G. injection G as <-. rewrite <- A12. apply O.
  - cbn [bind]. rewrite Etr. cbn [bind]. eexists. split; [reflexivity|]. constructor; [|exact Ftr]. right. split; [|reflexivity].
    assert (It : In t toks) by (apply HT; left; reflexivity). destruct (created_tok _ _ _ _ _ _ _ _ _ _ E It) as [[V _]|(op & Io & Dn)]; [exact V|].
    destruct (OPT t op Io Dn) as [(Ht & _ & _ & a & X & _)|X]; [|subst t; reflexivity]. exfalso. assert (Bt : existsb (String.eqb (tname (fst t))) (np_names (map fst toks)) = true); [|congruence].
    apply existsb_eqb. apply NP. exists op. rewrite X. auto.
Qed.
Example C145_switched_case : exists toks d, create_tokens no_numbers 1 ["add"; "mul"; "diff"; "const"]%list true true 1 1 ["nu"]%list = Ok toks /\
  add_torch_tokens ["add"; "mul"; "diff"; "const"]%list true = Ok d /\
  match switch_tokens (np_names (map fst toks)) d (rev toks) with
  | Ok tr => map (fun t => tname (fst t)) tr = ["const"; "diff_t"; "mul_t"; "add_t"; "nu"; "u1"; "x1"]%list | Err _ => False end.
Proof. do 2 eexists. split; [vm_compute; reflexivity|]. split; [vm_compute; reflexivity|]. vm_compute. reflexivity. Qed.
(** "sub" is never switched, whatever the library: its name contains a u. *)
Theorem C145_sub_refuted toks d trav trav' : switch_tokens (np_names toks) d trav = Ok trav' ->
  Forall2 (fun t t' => tname (fst t) = "sub" -> t' = t) trav trav'.
Proof.
  assert (N : existsb (String.eqb "sub") (np_names toks) = false).
  { destruct (existsb _ _) eqn:B; [|reflexivity]. apply existsb_eqb in B. unfold np_names in B. apply in_map_iff in B. destruct B as (t & E & I). apply filter_In in I. destruct I as [_ I]. rewrite E in I. cbn in I. discriminate. }
  assert (RF : forall l, Forall2 (fun t t' : ftoken => tname (fst t) = "sub" -> t' = t) l l) by (induction l; constructor; auto).
  unfold switch_tokens. destruct d as [|p d]; [intros [= <-]; apply RF|]. destruct (np_names toks) as [|n0 np0] eqn:EN; [discriminate|]. destruct (contains "_t" n0); [intros [= <-]; apply RF|].
  rewrite <- EN in *. clear EN. revert trav'. induction trav as [|t trav IH]; cbn [mapM]; intros trav' H; [injection H as <-; constructor|].
  match type of H with context[bind ?x _] => destruct x as [t'|] eqn:S1; [|discriminate] end. cbn [bind] in H. match type of H with context[bind ?x _] => destruct x as [tr|] eqn:S2; [|discriminate] end. injection H as <-.
  constructor; [|apply IH; reflexivity]. intros E. rewrite E, N in S1. congruence.
Qed.
Definition two (s : string) : option string := if String.eqb s "2" then Some "2.0" else None.
(** An expression mixing torch and numpy operators, a number that stops the switch, a function set where one operator has no torch version, one torch operator
    that leaves the others numpy, and a function set whose names all contain a u. *)
Example C145_mixed_refuted :
  (exists toks d tr, create_tokens no_numbers 1 ["add"; "sub"]%list true true 1 0 []%list = Ok toks /\ add_torch_tokens ["add"; "sub"]%list true = Ok d /\
     torch_get d "sub_t" <> None /\ switch_tokens (np_names (map fst toks)) d toks = Ok tr /\ map snd tr = ["None"; "None"; "torch.add"; "np.subtract"]%list) /\
  (exists toks d, create_tokens two 1 ["add"; "2"]%list true true 1 0 []%list = Ok toks /\ add_torch_tokens ["add"; "2"]%list true = Ok d /\
     switch_tokens (np_names (map fst toks)) d toks = Err KeyError) /\
  add_torch_tokens ["add"; "sin"]%list true = Err KeyError /\
  (add_torch_tokens ["add"; "mul"; "diff_t"]%list true = Ok []%list /\ forall np tr, switch_tokens np []%list tr = Ok tr) /\
  (exists toks d, create_tokens no_numbers 1 ["sub"]%list true true 1 0 []%list = Ok toks /\ add_torch_tokens ["sub"]%list true = Ok d /\ switch_tokens (np_names (map fst toks)) d toks = Err IndexError).
Proof.
  split; [|split; [|split; [|split]]].
  - do 3 eexists. split; [vm_compute; reflexivity|]. split; [vm_compute; reflexivity|]. split; [vm_compute; discriminate|]. split; vm_compute; reflexivity.
  - do 2 eexists. split; [vm_compute; reflexivity|]. split; vm_compute; reflexivity.
  - vm_compute. reflexivity.
  - split; [vm_compute; reflexivity|]. intros. reflexivity.
  - do 2 eexists. split; [vm_compute; reflexivity|]. split; vm_compute; reflexivity.
Qed.
Print Assumptions C145_collected.
Print Assumptions C145_switched.
Print Assumptions C145_sub_refuted.
