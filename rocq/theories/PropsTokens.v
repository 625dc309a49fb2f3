(** C144 (create_tokens) and C145 (switching to torch operators). *)
From Coq Require Import FinFun DecimalString DecimalNat DecimalFacts.
From Verif Require Import Base Library LibraryFacts Prior PriorSpec PriorFacts DiffSampled Tokens.
Local Open Scope string_scope.

(** ** Specification *)
(** the registered operators by number of arguments; those with a protected version *)
Definition two_arguments : list string :=
  ["add"; "sub"; "mul"; "div"; "diff"; "diff2"; "diff3"; "diff4"; "Diff"; "Diff2"; "Diff_3"; "Diff2_3"; "diff_t"; "diff2_t"; "diff3_t"; "diff4_t";
   "add_t"; "sub_t"; "mul_t"; "div_t"].
Definition one_argument : list string :=
  ["sin"; "cos"; "tan"; "exp"; "log"; "sqrt"; "n2"; "neg"; "abs"; "max"; "min"; "tanh"; "inv"; "logabs"; "expneg"; "n3"; "n4"; "n5"; "sigmoid"; "harmonic";
   "lap"; "lap_3"; "lap_t"; "n2_t"; "n3_t"; "ddx"; "ddy"; "laplacian"; "adv"; "ddx_t"; "ddy_t"; "laplacian_t"; "adv_t"].
Definition has_protected : list string := ["div"; "exp"; "log"; "logabs"; "sqrt"; "inv"; "expneg"; "n2"; "n3"; "n4"; "sigmoid"].
Definition operator (op : string) : Prop := In op two_arguments \/ In op one_argument.
(** what a user may write in function_set *)
Definition known (flt : string -> option string) (op : string) : Prop :=
  operator op \/ (exists b, In b has_protected /\ op = "protected_" ++ b) \/ (exists n, flt op = Some n) \/ op = "const".
(** the names of the variables *)
Definition x_ (i : nat) : string := "x" ++ dec i.
Definition u_ (i : nat) : string := "u" ++ dec i.
(** names no parameter may have *)
Definition taken (n_input n_state : nat) (pde : bool) (n : string) : Prop :=
  (exists i, 1 <= i <= n_input /\ n = x_ i) \/ (pde = true /\ exists i, 1 <= i <= n_state /\ n = u_ i) \/
  operator n \/ (exists b, In b has_protected /\ n = "protected_" ++ b) \/ n = "const".

(** ** Facts about the table *)
Lemma existsb_eqb s l : existsb (String.eqb s) l = true <-> In s l.
Proof. rewrite existsb_exists. split; [intros (x & I & E); apply String.eqb_eq in E; subst; exact I|intros I; exists s; split; [exact I|apply String.eqb_refl]]. Qed.
Lemma lookup_In k e : lookup k = Some e -> In e function_map /\ e_key e = k.
Proof. intros H. apply find_some in H. destruct H as [I E]. apply String.eqb_eq in E. auto. Qed.
Lemma lookup_key k : In k (map e_key function_map) -> exists e, lookup k = Some e.
Proof.
  intros I. unfold lookup. destruct (find _ function_map) as [e|] eqn:E; [eauto|]. exfalso. apply in_map_iff in I. destruct I as (e & <- & I).
  pose proof (find_none _ _ E e I) as F. cbn in F. rewrite String.eqb_refl in F. discriminate.
Qed.
Definition all_keys : list string := (two_arguments ++ one_argument ++ map (String.append "protected_") has_protected)%list.
Lemma keys_all : forall k, In k (map e_key function_map) <-> In k all_keys.
Proof.
  assert (A : forallb (fun k => existsb (String.eqb k) all_keys) (map e_key function_map) = true) by (vm_compute; reflexivity).
  assert (B : forallb (fun k => existsb (String.eqb k) (map e_key function_map)) all_keys = true) by (vm_compute; reflexivity).
  rewrite forallb_forall in A, B. intros k. split; intros I; [apply A in I|apply B in I]; apply existsb_eqb in I; exact I.
Qed.
Lemma keys_spec k : In k (map e_key function_map) <-> operator k \/ (exists b, In b has_protected /\ k = "protected_" ++ b).
Proof.
  rewrite keys_all. unfold all_keys, operator. rewrite !in_app_iff, in_map_iff. split.
  - intros [I|[I|(b & <- & I)]]; eauto.
  - intros [[I|I]|(b & I & ->)]; eauto.
Qed.
Lemma lookup_none k : lookup k = None <-> ~ In k (map e_key function_map).
Proof.
  split.
  - intros E I. apply lookup_key in I. destruct I as (e & F). congruence.
  - intros N. destruct (lookup k) eqn:E; [|reflexivity]. apply lookup_In in E. destruct E as [I <-]. exfalso. apply N. apply in_map. exact I.
Qed.
Definition entry_check (e : entry) : bool :=
  (if has_prefix "protected_" (e_key e) then String.eqb (e_key e) ("protected_" ++ e_name e) && existsb (String.eqb (e_name e)) has_protected else String.eqb (e_name e) (e_key e)) &&
  (if existsb (String.eqb (e_name e)) two_arguments then Nat.eqb (e_arity e) 2 else existsb (String.eqb (e_name e)) one_argument && Nat.eqb (e_arity e) 1) &&
  (negb (has_diff (e_name e)) || Nat.eqb (e_arity e) 2) && negb (has_prefix "x" (e_name e)) && negb (has_prefix "u" (e_name e)) &&
  match lookup (e_key e) with Some e' => String.eqb (e_name e) (e_name e') && Nat.eqb (e_arity e) (e_arity e') && String.eqb (e_fun e) (e_fun e') | None => false end.
Lemma entries_ok e : In e function_map -> entry_check e = true.
Proof. assert (A : forallb entry_check function_map = true) by (vm_compute; reflexivity). rewrite forallb_forall in A. apply A. Qed.
Lemma prefix_app p s : has_prefix p (p ++ s) = true.
Proof. induction p as [|a p IH]; cbn; [reflexivity|]. rewrite Ascii.eqb_refl. exact IH. Qed.
Lemma app_inj_l p : forall a b : string, p ++ a = p ++ b -> a = b.
Proof. induction p as [|c p IH]; cbn; intros a b E; [exact E|]. injection E as E. auto. Qed.
Lemma pick_ok prot op e : pick prot op = Some e -> In e function_map /\
  (has_prefix "protected_" op = false -> e_name e = op /\ (e_key e = op \/ e_key e = "protected_" ++ op)) /\
  (has_prefix "protected_" op = true -> e_key e = op).
Proof.
  unfold pick. intros H. destruct (lookup op) as [e0|] eqn:L; [|discriminate]. apply lookup_In in L. destruct L as [I0 K0].
  assert (ORD : In e0 function_map /\ (has_prefix "protected_" op = false -> e_name e0 = op /\ (e_key e0 = op \/ e_key e0 = "protected_" ++ op)) /\ (has_prefix "protected_" op = true -> e_key e0 = op)).
  { split; [exact I0|]. split; [|auto]. intros P. split; [|auto]. pose proof (entries_ok e0 I0) as C. unfold entry_check in C. rewrite K0, P in C.
    repeat (apply andb_true_iff in C; destruct C as [C ?]). apply String.eqb_eq in C. exact C. }
  destruct (prot && negb (has_prefix "protected_" op)) eqn:B; [|injection H as <-; exact ORD].
  apply andb_true_iff in B. destruct B as [_ B]. apply negb_true_iff in B.
  destruct (lookup ("protected_" ++ op)) as [e1|] eqn:L1; [|injection H as <-; exact ORD]. injection H as <-.
  apply lookup_In in L1. destruct L1 as [I1 K1]. split; [exact I1|]. split; [|congruence]. intros _. split; [|auto].
  pose proof (entries_ok e1 I1) as C. unfold entry_check in C. rewrite K1, prefix_app in C.
  repeat (apply andb_true_iff in C; destruct C as [C ?]). apply String.eqb_eq in C. symmetry. eapply app_inj_l. exact C.
Qed.
Lemma pick_none prot op : pick prot op = None <-> lookup op = None.
Proof. unfold pick. destruct (lookup op); [|tauto]. destruct (prot && _); [destruct (lookup ("protected_" ++ op))|]; split; discriminate. Qed.
Lemma dec_inj a b : dec a = dec b -> a = b.
Proof.
  unfold dec. intros E. assert (F : NilEmpty.uint_of_string (NilEmpty.string_of_uint (Nat.to_uint a)) = NilEmpty.uint_of_string (NilEmpty.string_of_uint (Nat.to_uint b))) by (rewrite E; reflexivity).
  rewrite !NilEmpty.usu in F. injection F as F. apply (f_equal Nat.of_uint) in F. rewrite !Unsigned.of_to in F. exact F.
Qed.
Lemma mapM_F2 {A B} (f : A -> res B) l : forall r, mapM f l = Ok r -> Forall2 (fun y x => f x = Ok y) r l.
Proof.
  induction l as [|x l IH]; cbn; intros r E; [injection E as <-; constructor|]. destruct (f x) as [y|] eqn:F; [|discriminate]. cbn in E.
  destruct (mapM f l) as [ys|]; [|discriminate]. cbn in E. injection E as <-. constructor; auto.
Qed.
Lemma mapM_total {A B} (f : A -> res B) l : (forall x, In x l -> exists y, f x = Ok y) -> exists r, mapM f l = Ok r.
Proof.
  induction l as [|x l IH]; cbn; intros H; [eauto|]. destruct (H x (or_introl eq_refl)) as (y & ->). cbn. destruct IH as (r & ->); [auto|]. cbn. eauto.
Qed.
Lemma mapM_err {A B} (f : A -> res B) l e : (forall x y, f x = Err y -> y = e) -> forall r, mapM f l = Err r -> r = e.
Proof.
  intros H. induction l as [|x l IH]; cbn; intros r E; [discriminate|]. destruct (f x) as [y|y] eqn:F; cbn in E; [|injection E as <-; eauto].
  destruct (mapM f l); cbn in E; [discriminate|]. injection E as ->. apply IH. reflexivity.
Qed.
Lemma mapM_some_err {A B} (f : A -> res B) l x e : In x l -> f x = Err e -> exists r, mapM f l = Err r.
Proof.
  induction l as [|y l IH]; cbn; intros I F; [destruct I|]. destruct (f y) as [z|z] eqn:Fy; cbn; [|eauto]. destruct I as [<-|I]; [congruence|].
  destruct (IH I F) as (r & ->). cbn. eauto.
Qed.
Lemma op_token_known flt prot op : (known flt op -> exists t, op_token flt prot op = Ok t) /\ (~ known flt op -> op_token flt prot op = Err ValueError).
Proof.
  unfold op_token. destruct (pick prot op) as [e|] eqn:P.
  - split; [eauto|]. intros N. exfalso. apply N. apply pick_ok in P. destruct P as (I & A & B).
    assert (X : In op (map e_key function_map)).
    { destruct (has_prefix "protected_" op) eqn:Q; [rewrite <- (B eq_refl); apply in_map; exact I|].
      destruct (lookup op) eqn:L; [apply lookup_In in L; destruct L as [J <-]; apply in_map; exact J|].
      exfalso. apply (pick_none prot) in L. revert L. unfold pick. specialize (A eq_refl). destruct A as [En [Ek|Ek]].
      - intros L. apply pick_none in L. unfold pick in *. apply lookup_none in L. apply L. rewrite <- Ek. apply in_map. exact I.
      - pose proof (entries_ok e I) as C. unfold entry_check in C. repeat (apply andb_true_iff in C; destruct C as [C ?]).
        intros L. destruct (lookup op) eqn:LO; [destruct (prot && _); [destruct (lookup ("protected_" ++ op))|]; discriminate|].
        apply lookup_none in LO. apply LO. apply keys_spec. left. unfold operator.
        rewrite En in *. destruct (existsb (String.eqb op) two_arguments) eqn:T2; [left; apply existsb_eqb; exact T2|right]. apply existsb_eqb.
        match goal with H : _ && Nat.eqb _ 1 = true |- _ => apply andb_true_iff in H; tauto end. }
    apply keys_spec in X. unfold known. tauto.
  - apply pick_none, lookup_none in P. rewrite keys_spec in P. destruct (flt op) as [n|] eqn:F; [split; [eauto|]; intros N; exfalso; apply N; unfold known; eauto|].
    destruct (String.eqb_spec op "const"); [split; [eauto|]; intros N; exfalso; apply N; unfold known; tauto|].
    split; [|reflexivity]. unfold known. intros [K|[K|[(n0 & K)|K]]]; try tauto. congruence.
Qed.
Lemma reserved_taken n_in n_st pde n : In n (reserved (inputs n_in ++ states pde n_st)) <-> taken n_in n_st pde n.
Proof.
  unfold reserved, taken. rewrite map_app, !in_app_iff, keys_spec. unfold inputs, states.
  assert (X : forall c m, In n (map (fun t => tname (fst t)) (map (fun i => (mkTok (c ++ dec (i + 1)) 0 (Some i) None None, "None")) (seq 0 m))) <-> exists i, 1 <= i <= m /\ n = c ++ dec i).
  { intros c m. rewrite map_map. rewrite in_map_iff. cbn. split.
    - intros (i & <- & I). apply in_seq in I. exists (i + 1)%nat. split; [lia|reflexivity].
    - intros (i & I & ->). exists (i - 1)%nat. split; [f_equal; f_equal; lia|]. apply in_seq. lia. }
  assert (Y : forall m, In n (map (fun t => tname (fst t)) (map (fun i => (mkTok ("u" ++ dec (i + 1)) 0 None (Some i) None, "None")) (seq 0 m))) <-> exists i, 1 <= i <= m /\ n = u_ i).
  { intros m. rewrite map_map. rewrite in_map_iff. cbn. split.
    - intros (i & <- & I). apply in_seq in I. exists (i + 1)%nat. split; [lia|reflexivity].
    - intros (i & I & ->). exists (i - 1)%nat. split; [unfold u_; cbn; f_equal; f_equal; lia|]. apply in_seq. lia. }
  rewrite (X "x"). destruct pde; [rewrite Y|]; cbn [map In]; unfold x_.
  - split; [intros [[H|H]|[[H|H]|[H|[]]]]; auto|intros [H|[[_ H]|[H|[H|H]]]]; auto].
  - split; [intros [[H|[]]|[[H|H]|[H|[]]]]; auto|intros [H|[[H _]|[H|[H|H]]]]; auto; discriminate].
Qed.
(** The request is granted exactly when every entry of function_set is an operator, a number or "const" and no
    parameter takes the name of a variable or operator; otherwise ValueError. *)
Theorem C144_accepted flt n_in fset prot pde n_st n_par names :
  ((forall op, In op fset -> known flt op) /\ (forall i, i < n_par -> ~ taken n_in n_st pde (param_name names i)) <->
   exists toks, create_tokens flt n_in fset prot pde n_st n_par names = Ok toks) /\
  (forall e, create_tokens flt n_in fset prot pde n_st n_par names = Err e -> e = ValueError).
Proof.
  unfold create_tokens. set (vars := (inputs n_in ++ states pde n_st)%list).
  assert (PE : forall i e, (fun i => if existsb (String.eqb (param_name names i)) (reserved vars) then Err ValueError else Ok (mkTok (param_name names i) 0 None None (Some i), "None")) i = Err e -> e = ValueError)
    by (intros i e; cbn; destruct (existsb _ _); intros [= <-]; reflexivity).
  assert (OE : forall op e, op_token flt prot op = Err e -> e = ValueError).
  { intros op e H. unfold op_token in H. destruct (pick prot op); [discriminate|]. destruct (flt op); [discriminate|]. destruct (String.eqb op "const"); [discriminate|]. congruence. }
  split; [split|].
  - intros [F P]. destruct (mapM_total (op_token flt prot) fset) as (ops & E1); [intros op I; apply op_token_known; auto|].
    destruct (mapM_total (fun i => if existsb (String.eqb (param_name names i)) (reserved vars) then Err ValueError else Ok (mkTok (param_name names i) 0 None None (Some i), "None")) (seq 0 n_par)) as (ps & E2).
    { intros i I. apply in_seq in I. destruct (existsb (String.eqb (param_name names i)) (reserved vars)) eqn:B; [|eauto]. exfalso. apply (P i); [lia|]. apply reserved_taken. apply existsb_eqb. exact B. }
    unfold params. rewrite E2. cbn. rewrite E1. cbn. eauto.
  - intros (toks & E). unfold params in E.
    destruct (mapM (fun i => if existsb (String.eqb (param_name names i)) (reserved vars) then Err ValueError else Ok (mkTok (param_name names i) 0 None None (Some i), "None")) (seq 0 n_par)) as [ps|] eqn:E2; [|discriminate].
    cbn in E. destruct (mapM (op_token flt prot) fset) as [ops|] eqn:E1; [|discriminate]. split.
    + intros op I. assert (D : known flt op \/ ~ known flt op).
      { destruct (op_token flt prot op) as [t|e] eqn:T.
        - left. unfold op_token in T. destruct (pick prot op) eqn:P.
          + assert (L : lookup op <> None) by (intros L; apply (pick_none prot) in L; congruence). destruct (lookup op) as [e0|] eqn:LO; [|congruence].
            apply lookup_In in LO. destruct LO as [J <-]. assert (X : In (e_key e0) (map e_key function_map)) by (apply in_map; exact J). apply keys_spec in X. unfold known. tauto.
          + destruct (flt op) as [n|] eqn:F; [right; right; left; exists n; exact F|]. destruct (String.eqb op "const") eqn:EC; [|discriminate]. apply String.eqb_eq in EC. unfold known. tauto. 
        - destruct (mapM_some_err (op_token flt prot) fset op e I T) as (r & R). congruence. }
      destruct D as [D|D]; [exact D|]. apply (op_token_known flt prot) in D. destruct (mapM_some_err (op_token flt prot) fset op _ I D) as (r & R). congruence.
    + intros i Hi T. apply reserved_taken in T. fold vars in T. apply existsb_eqb in T.
      assert (I : In i (seq 0 n_par)) by (apply in_seq; lia).
      destruct (mapM_some_err (fun i => if existsb (String.eqb (param_name names i)) (reserved vars) then Err ValueError else Ok (mkTok (param_name names i) 0 None None (Some i), "None")) (seq 0 n_par) i ValueError I) as (r & R); [cbn; rewrite T; reflexivity|]. congruence.
  - intros e. unfold params. destruct (mapM _ (seq 0 n_par)) as [ps|e2] eqn:E2; cbn; [|intros [= <-]; eapply mapM_err; [exact PE|exact E2]].
    destruct (mapM (op_token flt prot) fset) as [ops|e1] eqn:E1; cbn; [discriminate|]. intros [= <-]. eapply mapM_err; [exact OE|exact E1].
Qed.

(** *** What the tokens are *)
(** an operator token: its name, its arguments, and whether its function is a protected one *)
Definition operator_token (n : string) (guard : Prop) (t : ftoken) : Prop :=
  exists a, fst t = mkTok n a None None None /\ (a = 2 /\ In n two_arguments \/ a = 1 /\ In n one_argument) /\
  (has_prefix "protected_" (snd t) = true <-> guard \/ In n ["div_t"; "n2_t"; "n3_t"]%list).
Definition registered (op : string) : Prop := operator op \/ exists b, In b has_protected /\ op = "protected_" ++ b.
Definition constant_token (n : string) : ftoken := (mkTok n 0 None None None, "value").
(** what one entry of function_set stands for *)
Definition denotes (flt : string -> option string) (prot : bool) (op : string) (t : ftoken) : Prop :=
  (operator op /\ operator_token op (prot = true /\ In op has_protected) t) \/
  (exists b, In b has_protected /\ op = "protected_" ++ b /\ operator_token b True t) \/
  (~ registered op /\ exists n, flt op = Some n /\ t = constant_token n) \/
  (op = "const" /\ flt op = None /\ t = constant_token "const").

Definition entry_fun_check (e : entry) : bool :=
  Bool.eqb (has_prefix "protected_" (e_fun e)) (has_prefix "protected_" (e_key e) || existsb (String.eqb (e_name e)) ["div_t"; "n2_t"; "n3_t"]%list).
Lemma entries_fun e : In e function_map -> has_prefix "protected_" (e_fun e) = has_prefix "protected_" (e_key e) || existsb (String.eqb (e_name e)) ["div_t"; "n2_t"; "n3_t"]%list.
Proof. assert (A : forallb entry_fun_check function_map = true) by (vm_compute; reflexivity). rewrite forallb_forall in A. intros I. apply A in I. apply Bool.eqb_prop in I. exact I. Qed.
Lemma operator_unprotected op : operator op -> has_prefix "protected_" op = false.
Proof.
  assert (A : forallb (fun k => negb (has_prefix "protected_" k)) (two_arguments ++ one_argument)%list = true) by (vm_compute; reflexivity).
  rewrite forallb_forall in A. intros H. assert (I : In op (two_arguments ++ one_argument)%list) by (apply in_or_app; exact H). apply A in I. apply negb_true_iff in I. exact I.
Qed.
Lemma registered_lookup op : registered op <-> lookup op <> None.
Proof. unfold registered. rewrite <- keys_spec, lookup_none. split; [tauto|]. intros N. destruct (in_dec string_dec op (map e_key function_map)); tauto. Qed.
Lemma entry_arity e : In e function_map -> (e_arity e = 2 /\ In (e_name e) two_arguments) \/ (e_arity e = 1 /\ In (e_name e) one_argument).
Proof.
  intros I. pose proof (entries_ok e I) as C. unfold entry_check in C. repeat (apply andb_true_iff in C; destruct C as [C ?]).
  destruct (existsb (String.eqb (e_name e)) two_arguments) eqn:T2.
  - left. split; [apply Nat.eqb_eq; assumption|apply existsb_eqb; exact T2].
  - right. match goal with H : _ && Nat.eqb _ 1 = true |- _ => apply andb_true_iff in H; destruct H as [Xa Xb] end. split; [apply Nat.eqb_eq; exact Xb|apply existsb_eqb; exact Xa].
Qed.
Lemma lookup_guarded b : In b has_protected -> exists e, lookup ("protected_" ++ b) = Some e.
Proof. intros I. apply lookup_key. apply keys_spec. right. eauto. Qed.
Lemma unguarded b : operator b -> ~ In b has_protected -> lookup ("protected_" ++ b) = None.
Proof.
  intros O N. apply lookup_none. rewrite keys_spec. intros [X|(b' & I & E)].
  - apply operator_unprotected in X. rewrite prefix_app in X. discriminate.
  - apply app_inj_l in E. subst. tauto.
Qed.
Lemma op_token_denotes flt prot op t : op_token flt prot op = Ok t -> denotes flt prot op t.
Proof.
  unfold op_token. destruct (pick prot op) as [e|] eqn:P.
  - intros [= <-]. pose proof (pick_ok _ _ _ P) as (I & A & B). destruct (has_prefix "protected_" op) eqn:Q.
    + right. left. specialize (B eq_refl). pose proof (entries_ok e I) as C. unfold entry_check in C. rewrite B, Q in C.
      repeat (apply andb_true_iff in C; destruct C as [C ?]). apply String.eqb_eq in C.
      match goal with H : existsb _ has_protected = true |- _ => apply existsb_eqb in H; exists (e_name e); split; [exact H|] end. split; [exact C|].
      exists (e_arity e). split; [reflexivity|]. split; [apply entry_arity; exact I|]. cbn [snd of_entry]. rewrite (entries_fun e I), B, Q. cbn. tauto.
    + left. destruct (A eq_refl) as [En Ek]. assert (O : operator op). { rewrite <- En. destruct (entry_arity e I) as [[_ X]|[_ X]]; [left|right]; exact X. }
      split; [exact O|]. exists (e_arity e). split; [unfold of_entry; cbn; rewrite En; reflexivity|]. split; [rewrite <- En; apply entry_arity; exact I|].
      cbn [snd of_entry]. rewrite (entries_fun e I), orb_true_iff, existsb_eqb, En.
      assert (G : has_prefix "protected_" (e_key e) = true <-> prot = true /\ In op has_protected); [|tauto].
      unfold pick in P. destruct (lookup op) as [e0|] eqn:L0; [|discriminate]. pose proof (lookup_In _ _ L0) as [I0 K0]. rewrite Q in P. rewrite andb_true_r in P. destruct prot.
      * destruct (in_dec string_dec op has_protected) as [Hp|Hp].
        -- destruct (lookup_guarded op Hp) as (e1 & L1). rewrite L1 in P. injection P as ->. apply lookup_In in L1. destruct L1 as [_ ->]. rewrite prefix_app. tauto.
        -- rewrite (unguarded op O Hp) in P. injection P as ->. rewrite K0, Q. split; [discriminate|tauto].
      * injection P as ->. rewrite K0, Q. split; [discriminate|intros [X _]; discriminate].
  - assert (N : ~ registered op) by (rewrite registered_lookup; apply pick_none in P; tauto).
    destruct (flt op) as [n|] eqn:F; [intros [= <-]; right; right; left; split; [exact N|]; eauto|].
    destruct (String.eqb op "const") eqn:EC; [|discriminate]. apply String.eqb_eq in EC. intros [= <-]. right. right. right. auto.
Qed.
Lemma F2_app_map {A B} (f : A -> B) l : forall r, Forall2 (fun y x => y = f x) r l -> r = map f l.
Proof. induction l as [|x l IH]; intros r F; inversion F; subst; cbn; [reflexivity|]. f_equal; auto. Qed.
Lemma F2_flip {A B} (R : A -> B -> Prop) l r : Forall2 (fun y x => R x y) r l -> Forall2 R l r.
Proof. induction 1; constructor; auto. Qed.
Lemma create_split flt n_in fset prot pde n_st n_par names toks : create_tokens flt n_in fset prot pde n_st n_par names = Ok toks ->
  exists ops, toks = (inputs n_in ++ states pde n_st ++ map (fun i => (mkTok (param_name names i) 0 None None (Some i), "None")) (seq 0 n_par) ++ ops)%list /\
              Forall2 (denotes flt prot) fset ops.
Proof.
  unfold create_tokens, params. destruct (mapM _ (seq 0 n_par)) as [ps|] eqn:E2; cbn; [|discriminate].
  destruct (mapM (op_token flt prot) fset) as [ops|] eqn:E1; cbn; [|discriminate]. intros [= <-]. exists ops. split.
  - rewrite <- app_assoc. f_equal. f_equal. f_equal. apply mapM_F2 in E2. apply F2_app_map.
    induction E2 as [|y x ys xs H F IH]; constructor; auto. cbn in H. destruct (existsb _ _) in H; [discriminate|]. congruence.
  - apply mapM_F2 in E1. apply F2_flip. induction E1 as [|y x ys xs H F IH]; constructor; auto. apply op_token_denotes. exact H.
Qed.

(** The tokens are, in this order: x1, x2, ... with their input index, u1, u2, ... with their state index (for a
    pde task), the parameters with theirs, and one token per entry of function_set. *)
Theorem C144_layout flt n_in fset prot pde n_st n_par names toks : create_tokens flt n_in fset prot pde n_st n_par names = Ok toks ->
  let ns := if pde then n_st else 0 in
  List.length toks = n_in + ns + n_par + List.length fset /\
  (forall i, i < n_in -> nth_error toks i = Some (mkTok (x_ (i + 1)) 0 (Some i) None None, "None")) /\
  (forall i, i < ns -> nth_error toks (n_in + i) = Some (mkTok (u_ (i + 1)) 0 None (Some i) None, "None")) /\
  (forall i, i < n_par -> nth_error toks (n_in + ns + i) = Some (mkTok (param_name names i) 0 None None (Some i), "None")) /\
  (forall j op, nth_error fset j = Some op -> exists t, nth_error toks (n_in + ns + n_par + j) = Some t /\ denotes flt prot op t).
Proof.
  intros E ns. apply create_split in E. destruct E as (ops & -> & F).
  assert (LI : List.length (inputs n_in) = n_in) by (unfold inputs; rewrite map_length, seq_length; reflexivity).
  assert (LS : List.length (states pde n_st) = ns) by (unfold states, ns; destruct pde; [rewrite map_length, seq_length|]; reflexivity).
  set (ps := map _ (seq 0 n_par)). assert (LP : List.length ps = n_par) by (unfold ps; rewrite map_length, seq_length; reflexivity).
  assert (LO : List.length fset = List.length ops) by (clear - F; induction F; cbn; congruence).
  split; [rewrite !app_length, LI, LS, LP; lia|]. split; [|split; [|split]].
  - intros i Hi. rewrite nth_error_app1 by lia. unfold inputs. apply (map_nth_error (fun i => (mkTok ("x" ++ dec (i + 1)) 0 (Some i) None None, "None"))).
    rewrite (nth_error_nth' _ 0) by (rewrite seq_length; lia). rewrite seq_nth by lia. reflexivity.
  - intros i Hi. rewrite nth_error_app2 by lia. rewrite LI. rewrite nth_error_app1 by lia. replace (n_in + i - n_in) with i by lia. unfold states, ns in *. destruct pde; [|lia].
    apply (map_nth_error (fun i => (mkTok ("u" ++ dec (i + 1)) 0 None (Some i) None, "None"))).
    rewrite (nth_error_nth' _ 0) by (rewrite seq_length; lia). rewrite seq_nth by lia. reflexivity.
  - intros i Hi. rewrite nth_error_app2 by lia. rewrite LI. rewrite nth_error_app2 by lia. rewrite LS. rewrite nth_error_app1 by lia. replace (n_in + ns + i - n_in - ns) with i by lia.
    apply (map_nth_error (fun i => (mkTok (param_name names i) 0 None None (Some i), "None"))).
    rewrite (nth_error_nth' _ 0) by (rewrite seq_length; lia). rewrite seq_nth by lia. reflexivity.
  - intros j op Hj. rewrite nth_error_app2 by lia. rewrite LI. rewrite nth_error_app2 by lia. rewrite LS. rewrite nth_error_app2 by lia. rewrite LP.
    replace (n_in + ns + n_par + j - n_in - ns - n_par) with j by lia. clear - F Hj. revert j Hj. induction F; intros [|j] Hj; cbn in *; try discriminate; [|auto].
    injection Hj as <-. eauto.
Qed.

(** A parameter has the given name, or p1, p2, ... where none is given. *)
Theorem C144_parameters flt n_in fset prot pde n_st n_par names toks i : create_tokens flt n_in fset prot pde n_st n_par names = Ok toks -> i < n_par ->
  nth_error toks (n_in + (if pde then n_st else 0) + i) = Some (mkTok (nth i names ("p" ++ dec (i + 1))) 0 None None (Some i), "None") /\
  param_name names i = nth i names ("p" ++ dec (i + 1)).
Proof.
  intros E Hi. assert (P : param_name names i = nth i names ("p" ++ dec (i + 1))).
  { unfold param_name. destruct (nth_error names i) as [n|] eqn:N; [symmetry; apply nth_error_nth; exact N|]. apply nth_error_None in N. rewrite nth_overflow by exact N. reflexivity. }
  rewrite <- P. split; [|reflexivity]. apply C144_layout in E. cbv zeta in E. apply E. exact Hi.
Qed.

(** *** The library built from them *)
Lemma denotes_arity flt prot op t : denotes flt prot op t -> exists n a, fst t = mkTok n a None None None /\ a <= 2.
Proof. intros [(_ & a & E & A & _)|[(b & _ & _ & a & E & A & _)|[(_ & n & _ & ->)|(_ & _ & ->)]]]; cbn; do 2 eexists; (split; [first [exact E|reflexivity]|lia]). Qed.
Lemma created_tok flt n_in fset prot pde n_st n_par names toks t : create_tokens flt n_in fset prot pde n_st n_par names = Ok toks -> In t toks ->
  (tarity (fst t) = 0 /\ ((exists i, i < n_in /\ fst t = mkTok (x_ (i + 1)) 0 (Some i) None None) \/
    (pde = true /\ exists i, i < n_st /\ fst t = mkTok (u_ (i + 1)) 0 None (Some i) None) \/
    (exists i, i < n_par /\ fst t = mkTok (param_name names i) 0 None None (Some i)))) \/ (exists op, In op fset /\ denotes flt prot op t).
Proof.
  intros E I. apply create_split in E. destruct E as (ops & -> & F). rewrite !in_app_iff in I. unfold inputs, states in I.
  destruct I as [I|[I|[I|I]]].
  - apply in_map_iff in I. destruct I as (i & <- & I). apply in_seq in I. left. split; [reflexivity|]. left. exists i. split; [lia|reflexivity].
  - destruct pde; [|destruct I]. apply in_map_iff in I. destruct I as (i & <- & I). apply in_seq in I. left. split; [reflexivity|]. right. left. split; [reflexivity|]. exists i. split; [lia|reflexivity].
  - apply in_map_iff in I. destruct I as (i & <- & I). apply in_seq in I. left. split; [reflexivity|]. right. right. exists i. split; [lia|reflexivity].
  - right. clear - F I. induction F; [destruct I|]. destruct I as [<-|I]; [eexists; split; [left; reflexivity|eassumption]|]. destruct (IHF I) as (op & J & D). exists op. split; [right; exact J|exact D].
Qed.
(** how numbers are printed: "nan", "inf", or digits, signs, points and exponents (or -inf) *)
Definition digit_like (c : Ascii.ascii) : bool := existsb (Ascii.eqb c) (list_ascii_of_string "0123456789.e+-inf").
Definition numeral (n : string) : Prop :=
  n = "nan" \/ n = "inf" \/ (exists c s, n = String c s /\ In c (list_ascii_of_string "-0123456789") /\ Forall (fun c => digit_like c = true) (list_ascii_of_string n)).
Definition prints_numerals (flt : string -> option string) : Prop := forall s n, flt s = Some n -> numeral n.

Definition library_of (toks : list ftoken) : res library := make_library (map fst toks).
Lemma length_filter_pos {A} (f : A -> bool) l x : In x l -> f x = true -> List.length (indices f l) <> 0.
Proof.
  intros I E Z0. apply In_nth_error in I. destruct I as (k & Hk). assert (J : In k (indices f l)) by (apply indices_spec; eauto).
  destruct (indices f l); [destruct J|discriminate].
Qed.
(** A request with a variable makes a library to which the theorems on priors apply: tokens with consistent arities, of at most two
    arguments, and an input variable if one was asked for; without variables the library is refused. *)
Theorem C144_library flt n_in fset prot pde n_st n_par names toks : create_tokens flt n_in fset prot pde n_st n_par names = Ok toks ->
  (0 < n_in + (if pde then n_st else 0) -> exists lib, library_of toks = Ok lib /\ lib_ok lib /\ (0 < n_in -> has_input_var lib)) /\
  (n_in + (if pde then n_st else 0) = 0 -> library_of toks = Err AssertionError).
Proof.
  intros E. pose proof (C144_layout _ _ _ _ _ _ _ _ _ E) as (LEN & HI & HS & _ & _). cbv zeta in *.
  assert (TOK : tokens_ok (map fst toks)).
  { apply Forall_forall. intros t I. apply in_map_iff in I. destruct I as (ft & <- & I).
    destruct (created_tok _ _ _ _ _ _ _ _ _ _ E I) as [[_ [(i & _ & ->)|[(_ & i & _ & ->)|(i & _ & ->)]]]|(op & _ & D)]; try reflexivity.
    destruct (denotes_arity _ _ _ _ D) as (n & a & -> & _). reflexivity. }
  split.
  - intros P. unfold library_of.
    assert (V : exists t, In t (map fst toks) /\ (is_some (tinput t) = true \/ is_some (tstate t) = true)).
    { destruct n_in as [|m].
      - specialize (HS 0 ltac:(lia)). eexists. split; [apply in_map; eapply nth_error_In; exact HS|]. right. reflexivity.
      - specialize (HI 0 ltac:(lia)). eexists. split; [apply in_map; eapply nth_error_In; exact HI|]. left. reflexivity. }
    destruct (make_library (map fst toks)) as [lib|e] eqn:M.
    + exists lib. split; [reflexivity|]. pose proof (make_library_inv _ _ M) as (Ht & HL & Hn & Ha & _). split; [split|].
      * eauto.
      * intros t. unfold ar_of. rewrite Ha. destruct (nth_in_or_default t (map tarity (map fst toks)) 0) as [J|J]; [|lia].
        apply in_map_iff in J. destruct J as (x & <- & J). apply in_map_iff in J. destruct J as (ft & <- & J).
        destruct (created_tok _ _ _ _ _ _ _ _ _ _ E J) as [[Z0 _]|(op & _ & D)]; [lia|]. destruct (denotes_arity _ _ _ _ D) as (n & a & -> & X). exact X.
      * intros Pi. specialize (HI 0 Pi). exists (mkTok (x_ (0 + 1)) 0 (Some 0) None None), 0. split; [|reflexivity]. rewrite Ht. apply (in_map fst) in HI || idtac.
        change (mkTok (x_ (0 + 1)) 0 (Some 0) None None) with (fst (mkTok (x_ (0 + 1)) 0 (Some 0) None None, "None")). apply in_map. eapply nth_error_In. exact HI.
    + exfalso. unfold make_library in M. destruct V as (t & I & V).
      destruct (Nat.eqb_spec (List.length (indices (fun t => is_some (tinput t)) (map fst toks))) 0) as [Z1|Z1]; [|discriminate].
      destruct (Nat.eqb_spec (List.length (indices (fun t => is_some (tstate t)) (map fst toks))) 0) as [Z2|Z2]; [|discriminate].
      destruct V as [V|V]; [exact (length_filter_pos _ _ _ I V Z1)|exact (length_filter_pos _ _ _ I V Z2)].
  - intros Z0. assert (NV : forall t, In t (map fst toks) -> is_some (tinput t) = false /\ is_some (tstate t) = false).
    { intros t I. apply in_map_iff in I. destruct I as (ft & <- & I).
      destruct (created_tok _ _ _ _ _ _ _ _ _ _ E I) as [[_ [(i & Hi & ->)|[(-> & i & Hi & ->)|(i & _ & ->)]]]|(op & _ & D)]; try lia; [split; reflexivity|].
      destruct (denotes_arity _ _ _ _ D) as (n & a & -> & _). split; reflexivity. }
    assert (NI : forall f, (forall t, In t (map fst toks) -> f t = false) -> indices f (map fst toks) = []%list).
    { intros f Hf. destruct (indices f (map fst toks)) as [|k r] eqn:X; [reflexivity|]. exfalso. assert (J : In k (indices f (map fst toks))) by (rewrite X; left; reflexivity).
      apply indices_spec in J. destruct J as (y & Hy & Fy). apply nth_error_In in Hy. rewrite Hf in Fy; [discriminate|exact Hy]. }
    unfold library_of, make_library. rewrite (NI (fun t => is_some (tinput t))), (NI (fun t => is_some (tstate t))); [reflexivity| |]; intros t I; apply NV; exact I.
Qed.

(** *** Derivative constraints and the names of parameters *)
Lemma no_char_prefix c p s : existsb (Ascii.eqb c) (list_ascii_of_string s) = false -> has_prefix (String c p) s = false.
Proof. destruct s as [|d s]; cbn; [reflexivity|]. intros H. apply orb_false_iff in H. destruct H as [H _]. rewrite H. reflexivity. Qed.
Lemma no_char_contains c p : forall s, existsb (Ascii.eqb c) (list_ascii_of_string s) = false -> contains (String c p) s = false.
Proof.
  induction s as [|d s IH]; intros H; [reflexivity|]. cbn [contains]. rewrite (no_char_prefix c p _ H). cbn in H. apply orb_false_iff in H. rewrite (IH (proj2 H)). reflexivity.
Qed.
Lemma no_d_has_diff s : Forall (fun a => In a (list_ascii_of_string "xu0123456789.e+-infa")) (list_ascii_of_string s) -> has_diff s = false.
Proof.
  intros F. unfold has_diff. rewrite !no_char_contains; [reflexivity| |];
  (destruct (existsb _ (list_ascii_of_string s)) eqn:X; [|reflexivity]; apply existsb_exists in X; destruct X as (a & I & E); apply Ascii.eqb_eq in E; subst a;
   rewrite Forall_forall in F; apply F in I; cbn in I; repeat (destruct I as [I|I]; [discriminate|]); destruct I).
Qed.
Lemma uint_digits u : Forall (fun a => In a (list_ascii_of_string "0123456789")) (list_ascii_of_string (NilEmpty.string_of_uint u)).
Proof. induction u; cbn [NilEmpty.string_of_uint list_ascii_of_string]; constructor; auto; cbn; repeat (first [left; reflexivity|right]). Qed.
Lemma dec_digits n : Forall (fun a => In a (list_ascii_of_string "0123456789")) (list_ascii_of_string (dec n)).
Proof. apply uint_digits. Qed.
Lemma dec_nonempty n : dec n <> "".
Proof. intros E. assert (X : dec n = "") by exact E. unfold dec in X. assert (D : Nat.to_uint n <> Decimal.Nil). { intros N. pose proof (Unsigned.of_to n) as T. pose proof (DecimalNat.Unsigned.to_of (Nat.to_uint n)) as U. rewrite T in U. rewrite N in U. destruct n; cbn in *; discriminate. }
  destruct (Nat.to_uint n); cbn in X; congruence. Qed.
Lemma var_no_diff c n : c = "x" \/ c = "u" -> has_diff (c ++ dec n) = false.
Proof.
  intros C. apply no_d_has_diff. assert (G : forall s, Forall (fun a => In a (list_ascii_of_string "0123456789")) (list_ascii_of_string s) -> Forall (fun a => In a (list_ascii_of_string "xu0123456789.e+-infa")) (list_ascii_of_string s)).
  { intros s. apply Forall_impl. cbn. intros a I. tauto. }
  destruct C as [-> | ->]; cbn [append list_ascii_of_string]; (constructor; [cbn; tauto|apply G; apply dec_digits]).
Qed.
Lemma numeral_no_diff n : numeral n -> has_diff n = false.
Proof.
  intros [-> |[-> |(c & s & _ & _ & F)]]; [reflexivity|reflexivity|]. apply no_d_has_diff. revert F. apply Forall_impl. intros a H. unfold digit_like in H.
  apply existsb_exists in H. destruct H as (b & I & E). apply Ascii.eqb_eq in E. subst b. cbn in *. tauto.
Qed.
Lemma operator_diff n : has_diff n = true -> In n two_arguments \/ In n one_argument -> In n two_arguments /\ ~ In n one_argument.
Proof.
  intros H O. assert (A : forallb (fun k => negb (has_diff k)) one_argument = true) by (vm_compute; reflexivity). rewrite forallb_forall in A.
  assert (N : ~ In n one_argument) by (intros I; apply A in I; rewrite H in I; discriminate). tauto.
Qed.
Lemma diff_arity flt n_in fset prot pde n_st n_par names toks : prints_numerals flt -> create_tokens flt n_in fset prot pde n_st n_par names = Ok toks ->
  (forall i, i < n_par -> has_diff (param_name names i) = false) -> forall t, In t toks -> has_diff (tname (fst t)) = true -> tarity (fst t) = 2.
Proof.
  intros PN E NP t I H. destruct (created_tok _ _ _ _ _ _ _ _ _ _ E I) as [[_ [(i & _ & X)|[(_ & i & _ & X)|(i & Hi & X)]]]|(op & _ & D)].
  - rewrite X in H. cbn [tname fst constant_token] in H. unfold x_ in H. rewrite (var_no_diff "x") in H by auto. discriminate.
  - rewrite X in H. cbn [tname fst constant_token] in H. unfold u_ in H. rewrite (var_no_diff "u") in H by auto. discriminate.
  - rewrite X in H. cbn [tname fst constant_token] in H. rewrite NP in H by exact Hi. discriminate.
  - assert (OT : forall n g, operator_token n g t -> tarity (fst t) = 2).
    { intros n g (a & X & A & _). rewrite X in *. cbn [tname fst constant_token] in H. cbn. destruct A as [[A _]|[A B]]; [exact A|]. destruct (operator_diff n H); tauto. }
    destruct D as [(_ & D)|[(b & _ & _ & D)|[(_ & n & F & ->)|(_ & _ & ->)]]]; [eapply OT; exact D|eapply OT; exact D| |].
    + cbn [tname fst constant_token] in H. rewrite numeral_no_diff in H by (eapply PN; exact F). discriminate.
    + cbn [tname fst constant_token] in H. discriminate.
Qed.
Lemma ldiff_In lib toks k : make_library toks = Ok lib -> In k (ldiff lib) <-> exists t, nth_error toks k = Some t /\ has_diff (tname t) = true.
Proof. unfold make_library. destruct (_ && _); [discriminate|]. intros [= <-]. cbn [ldiff]. apply indices_spec. Qed.
Lemma ltrig_In lib toks k : make_library toks = Ok lib -> In k (ltrig lib) <-> exists t, nth_error toks k = Some t /\ is_trig_name (tname t) = true.
Proof. unfold make_library. destruct (_ && _); [discriminate|]. intros [= <-]. cbn [ltrig]. apply indices_spec. Qed.
Lemma memb_In k l : memb k l = true <-> In k l.
Proof. unfold memb. rewrite existsb_exists. split; [intros (x & I & E); apply Nat.eqb_eq in E; subst; exact I|intros I; exists k; split; [exact I|apply Nat.eqb_refl]]. Qed.

(** When no parameter's name contains "diff" or "Diff", every token the derivative constraints take for a derivative is one: it has two
    arguments; and with an input variable and a derivative operator in function_set the constraints on its two arguments are kept. *)
Theorem C144_derivatives flt n_in fset prot pde n_st n_par names toks lib : prints_numerals flt ->
  create_tokens flt n_in fset prot pde n_st n_par names = Ok toks -> library_of toks = Ok lib ->
  (forall i, i < n_par -> has_diff (param_name names i) = false) ->
  (forall d, In d (ldiff lib) -> ar_of lib d = 2) /\
  (0 < n_in -> (exists op, In op fset /\ operator op /\ has_diff op = true) ->
   rel_valid lib (diff_left_targets lib) (ldiff lib) RLChild = true /\ rel_valid lib (diff_right_targets lib) (ldiff lib) RRChild = true).
Proof.
  intros PN E L NP. pose proof L as M. unfold library_of in M. pose proof (make_library_inv _ _ M) as (Ht & HL & Hn & Ha & Hter & Hun & Hbin & _ & _ & _ & _ & _ & Hne & _).
  assert (AR : forall d, In d (ldiff lib) -> ar_of lib d = 2).
  { intros d I. apply (ldiff_In _ _ _ M) in I. destruct I as (t & Hd & HD). rewrite (ar_of_nth _ _ _ _ M Hd).
    apply nth_error_In in Hd. apply in_map_iff in Hd. destruct Hd as (ft & <- & I). eapply diff_arity; eassumption. }
  split; [exact AR|]. intros Pi (op & I & O & HD).
  assert (DN : exists d, In d (ldiff lib)).
  { pose proof (C144_layout _ _ _ _ _ _ _ _ _ E) as (_ & _ & _ & _ & HO). cbv zeta in HO. apply In_nth_error in I. destruct I as (j & Hj). destruct (HO j op Hj) as (t & Ht' & D).
    eexists. apply (ldiff_In _ _ _ M). exists (fst t). split; [apply map_nth_error; exact Ht'|].
    destruct D as [(_ & a & X & _)|[(b & _ & X & _)|[(N & _)|(X & _)]]]; [rewrite X; exact HD| | |].
    - subst op. apply operator_unprotected in O. rewrite prefix_app in O. discriminate.
    - exfalso. apply N. left. exact O.
    - subst op. discriminate. }
  assert (NT : existsb (fun e => memb e (lterminal lib)) (ldiff lib) = false).
  { destruct (existsb _ _) eqn:X; [|reflexivity]. apply existsb_exists in X. destruct X as (d & Id & Md). apply memb_In in Md. rewrite Hter in Md. apply (tokens_of_arity_ar _ _ _ _ M) in Md. rewrite AR in Md by exact Id. lia. }
  destruct DN as (d & Id). assert (LD : List.length (ldiff lib) <> 0) by (destruct (ldiff lib); [destruct Id|discriminate]).
  unfold rel_valid. rewrite NT. cbn [negb andb]. destruct (Nat.eqb_spec (List.length (ldiff lib)) 0) as [Z0|_]; [contradiction|]. rewrite !andb_true_r. split; apply negb_true_iff, Nat.eqb_neq.
  - unfold diff_left_targets. rewrite app_length. destruct (linput_tokens lib); [congruence|cbn; lia].
  - unfold diff_right_targets. rewrite !app_length. assert (IB : In d (lbinary lib)).
    { rewrite Hbin. apply (tokens_of_arity_ar _ _ _ _ M). split; [|apply AR; exact Id]. apply (ldiff_In _ _ _ M) in Id. destruct Id as (t & X & _). rewrite HL. apply nth_error_Some. congruence. }
    destruct (lbinary lib); [destruct IB|cbn; lia].
Qed.
(** A parameter whose name contains "diff" or "Diff" (such as "diffusivity") is accepted, and then every constraint on derivatives is silently dropped;
    one named like a trigonometric function drops the constraint on these, and so does a "diff" one. *)
Theorem C144_param_diff_refuted flt n_in fset prot pde n_st n_par names toks lib i :
  create_tokens flt n_in fset prot pde n_st n_par names = Ok toks -> library_of toks = Ok lib -> i < n_par ->
  (has_diff (param_name names i) = true -> forall targets r, r <> RSibling -> rel_valid lib targets (ldiff lib) r = false) /\
  (is_trig_name (param_name names i) = true -> forall targets r, r <> RSibling -> rel_valid lib targets (ltrig lib) r = false).
Proof.
  intros E L Hi. pose proof L as M. unfold library_of in M. pose proof (make_library_inv _ _ M) as (_ & HL & _ & _ & Hter & _).
  pose proof (C144_layout _ _ _ _ _ _ _ _ _ E) as (LEN & _ & _ & HP & _). cbv zeta in *. specialize (HP i Hi). set (k := n_in + _ + i) in *.
  assert (Hk : nth_error (map fst toks) k = Some (mkTok (param_name names i) 0 None None (Some i))) by (apply (map_nth_error fst _ _ HP)).
  assert (T : In k (lterminal lib)). { rewrite Hter. apply (tokens_of_arity_ar _ _ _ _ M). split; [rewrite HL; apply nth_error_Some; congruence|]. rewrite (ar_of_nth _ _ _ _ M Hk). reflexivity. }
  assert (G : forall eff targets r, In k eff -> r <> RSibling -> rel_valid lib targets eff r = false).
  { intros eff tg r I NS. unfold rel_valid. assert (X : existsb (fun e => memb e (lterminal lib)) eff = true) by (apply existsb_exists; exists k; split; [exact I|apply memb_In; exact T]). rewrite X. destruct r; try reflexivity. congruence. }
  split; intros H tg r NS; apply G; try exact NS; [apply (ldiff_In _ _ _ M)|apply (ltrig_In _ _ _ M)]; (eexists; split; [exact Hk|exact H]).
Qed.
Definition no_numbers (s : string) : option string := None.
Example C144_param_diff_refuted_case : match create_tokens no_numbers 1 ["add"; "mul"; "diff"; "sin"]%list true true 1 1 ["diffusivity"]%list with
  | Ok toks => match library_of toks with
    | Ok lib => rel_valid lib (diff_left_targets lib) (ldiff lib) RLChild = false /\ rel_valid lib (ltrig lib) (ltrig lib) RDescendant = false
    | Err _ => False end | Err _ => False end.
Proof. vm_compute. split; reflexivity. Qed.
Example C144_derivatives_case : match create_tokens no_numbers 1 ["add"; "mul"; "diff"; "sin"]%list true true 1 1 ["viscosity"]%list with
  | Ok toks => match library_of toks with
    | Ok lib => rel_valid lib (diff_left_targets lib) (ldiff lib) RLChild = true /\ rel_valid lib (ltrig lib) (ltrig lib) RDescendant = true
    | Err _ => False end | Err _ => False end.
Proof. vm_compute. split; reflexivity. Qed.
Example C144_trig_case : match create_tokens no_numbers 1 ["add"; "sin"]%list true true 1 1 ["sec"]%list with
  | Ok toks => match library_of toks with
    | Ok lib => rel_valid lib (ltrig lib) (ltrig lib) RDescendant = false
    | Err _ => False end | Err _ => False end.
Proof. vm_compute. reflexivity. Qed.

(** *** Distinct names *)
Lemma NoDup_app_iff {A} (l r : list A) : NoDup (l ++ r)%list <-> NoDup l /\ NoDup r /\ (forall x, In x l -> ~ In x r).
Proof.
  induction l as [|a l IH]; cbn.
  - split; [intros H; split; [constructor|split; [exact H|intros x []]]|tauto].
  - rewrite !NoDup_cons_iff, IH, in_app_iff. split.
    + intros (N & Nl & Nr & D). split; [tauto|]. split; [exact Nr|]. intros x [<-|I]; [tauto|apply D; exact I].
    + intros ((Na & Nl) & Nr & D). split; [intros [X|X]; [tauto|apply (D a); auto]|]. split; [exact Nl|]. split; [exact Nr|]. intros x I. apply D. auto.
Qed.
Lemma NoDup_map_dec c n : NoDup (map (fun i => c ++ dec (i + 1)) (seq 0 n)).
Proof.
  apply FinFun.Injective_map_NoDup; [|apply seq_NoDup]. intros a b E. apply app_inj_l, dec_inj in E. lia.
Qed.
Lemma op_name_start op : operator op -> has_prefix "x" op = false /\ has_prefix "u" op = false.
Proof.
  assert (A : forallb (fun k => negb (has_prefix "x" k) && negb (has_prefix "u" k)) (two_arguments ++ one_argument)%list = true) by (vm_compute; reflexivity).
  rewrite forallb_forall in A. intros H. assert (I : In op (two_arguments ++ one_argument)%list) by (apply in_or_app; exact H). apply A in I.
  apply andb_true_iff in I. rewrite !negb_true_iff in I. exact I.
Qed.
Lemma numeral_start n : numeral n -> has_prefix "x" n = false /\ has_prefix "u" n = false.
Proof.
  intros [-> |[-> |(c & s & -> & I & _)]]; [split; reflexivity|split; reflexivity|]. cbn in I.
  repeat (destruct I as [<- |I]; [split; reflexivity|]). destruct I.
Qed.
Lemma guarded_operator b : In b has_protected -> operator b.
Proof.
  assert (A : forallb (fun k => existsb (String.eqb k) (two_arguments ++ one_argument)%list) has_protected = true) by (vm_compute; reflexivity).
  rewrite forallb_forall in A. intros I. apply A, existsb_eqb, in_app_or in I. exact I.
Qed.
(** the name an entry of function_set shows: an operator's own name (also for its protected version), a number, or "const" *)
Lemma denotes_name flt prot op t : denotes flt prot op t -> operator (tname (fst t)) \/ tname (fst t) = "const" \/ exists n, flt op = Some n /\ tname (fst t) = n.
Proof.
  intros [(O & a & X & _)|[(b & I & _ & a & X & _)|[(_ & n & F & ->)|(_ & _ & ->)]]].
  - rewrite X. left. exact O.
  - rewrite X. left. apply guarded_operator. exact I.
  - right. right. exists n. split; [exact F|reflexivity].
  - right. left. reflexivity.
Qed.
(** All names of the library differ exactly when the parameters differ from each other, the entries of function_set show different names, and no parameter
    is named like a number in function_set; then every token is found under its name. *)
Theorem C144_distinct flt n_in fset prot pde n_st n_par names toks : prints_numerals flt -> create_tokens flt n_in fset prot pde n_st n_par names = Ok toks ->
  let shown := map (fun t => tname (fst t)) (skipn (n_in + (if pde then n_st else 0) + n_par) toks) in
  let given := map (param_name names) (seq 0 n_par) in
  (NoDup (map (fun t => tname (fst t)) toks) <-> NoDup given /\ NoDup shown /\ (forall n, In n given -> ~ In n shown)) /\
  (NoDup (map (fun t => tname (fst t)) toks) -> forall lib i t, library_of toks = Ok lib -> nth_error toks i = Some t -> getitem lib (KStr (tname (fst t))) = Ok (i, fst t)).
Proof.
  intros PN E shown given. split.
  - assert (ACC : forall i, i < n_par -> ~ taken n_in n_st pde (param_name names i)) by (apply (proj1 (C144_accepted flt n_in fset prot pde n_st n_par names)); eauto).
    pose proof E as E0. apply create_split in E. destruct E as (ops & Et & F).
    assert (LI : List.length (inputs n_in) = n_in) by (unfold inputs; rewrite map_length, seq_length; reflexivity).
    assert (LS : List.length (states pde n_st) = (if pde then n_st else 0)) by (unfold states; destruct pde; [rewrite map_length, seq_length|]; reflexivity).
    set (ps := map (fun i => (mkTok (param_name names i) 0 None None (Some i), "None")) (seq 0 n_par)) in *.
    assert (LP : List.length ps = n_par) by (unfold ps; rewrite map_length, seq_length; reflexivity).
    assert (SH : shown = map (fun t => tname (fst t)) ops).
    { unfold shown. f_equal. rewrite Et, !app_assoc. rewrite skipn_app, skipn_all2 by (rewrite !app_length, LI, LS, LP; lia).
      rewrite !app_length, LI, LS, LP. rewrite Nat.sub_diag. reflexivity. }
    assert (GV : given = map (fun t => tname (fst t)) ps) by (unfold given, ps; rewrite map_map; reflexivity).
    clearbody shown given. subst toks. rewrite !map_app. rewrite <- SH, <- GV. rewrite !NoDup_app_iff.
    assert (SHN : forall n, In n shown -> has_prefix "x" n = false /\ has_prefix "u" n = false).
    { intros n I. rewrite SH in I. apply in_map_iff in I. destruct I as (t & <- & I).
      assert (D : exists op, denotes flt prot op t). { clear - F I. induction F; [destruct I|]. destruct I as [<-|I]; eauto. }
      destruct D as (op & D). apply denotes_name in D. destruct D as [D|[-> |(n & Fn & ->)]]; [apply op_name_start; exact D|split; reflexivity|apply numeral_start; eapply PN; exact Fn]. }
    assert (NX : forall x, In x (map (fun t => tname (fst t)) (inputs n_in)) -> has_prefix "x" x = true /\ ~ In x given).
    { intros x I. unfold inputs in I. rewrite map_map in I. apply in_map_iff in I. destruct I as (i & <- & I). apply in_seq in I. split; [reflexivity|].
      rewrite GV. unfold ps. rewrite map_map. intros J. apply in_map_iff in J. destruct J as (k & Ek & J). apply in_seq in J. cbn in Ek. apply (ACC k); [lia|]. left. exists (i + 1). split; [lia|]. exact Ek. }
    assert (NU : forall x, In x (map (fun t => tname (fst t)) (states pde n_st)) -> has_prefix "u" x = true /\ has_prefix "x" x = false /\ ~ In x given).
    { intros x I. unfold states in I. destruct pde; [|destruct I]. rewrite map_map in I. apply in_map_iff in I. destruct I as (i & <- & I). apply in_seq in I. split; [reflexivity|]. split; [reflexivity|].
      rewrite GV. unfold ps. rewrite map_map. intros J. apply in_map_iff in J. destruct J as (k & Ek & J). apply in_seq in J. cbn in Ek. apply (ACC k); [lia|]. right. left. split; [reflexivity|]. exists (i + 1). split; [lia|]. exact Ek. }
    split; [tauto|]. intros (Ng & Ns & Dj). split; [unfold inputs; rewrite map_map; apply (NoDup_map_dec "x")|]. split; [split; [|split; [tauto|]]|].
    + unfold states. destruct pde; [rewrite map_map; apply (NoDup_map_dec "u")|constructor].
    + intros x I. destruct (NU x I) as (P & _ & N). rewrite in_app_iff. intros [X|X]; [tauto|]. apply SHN in X. destruct X; congruence.
    + intros x I. destruct (NX x I) as (P & N). rewrite !in_app_iff. intros [X|[X|X]]; [apply NU in X; destruct X as (_ & X & _); congruence|tauto|apply SHN in X; destruct X; congruence].
  - intros ND lib i t L H. eapply getitem_name; [exact L|rewrite map_map; exact ND|apply map_nth_error; exact H].
Qed.
(** Duplicates are not refused: two parameters of one name, an operator with its protected version, or an operator twice; the later one is never found by name. *)
Example C144_duplicates_refuted :
  (exists toks lib, create_tokens no_numbers 1 ["add"]%list true true 1 2 ["k"; "k"]%list = Ok toks /\ library_of toks = Ok lib /\
     option_map (fun t => tname (fst t)) (nth_error toks 3) = Some "k" /\ getitem lib (KStr "k") = Ok (2, mkTok "k" 0 None None (Some 0))) /\
  (exists toks lib, create_tokens no_numbers 1 ["div"; "protected_div"]%list false true 1 0 []%list = Ok toks /\ library_of toks = Ok lib /\
     map (fun t => tname (fst t)) toks = ["x1"; "u1"; "div"; "div"]%list /\ getitem lib (KStr "div") = Ok (2, mkTok "div" 2 None None None)) /\
  getitem (match library_of (match create_tokens no_numbers 1 ["div"]%list false true 1 0 []%list with Ok t => t | Err _ => [] end) with Ok l => l | Err _ => mkLib [] 0 [] [] [] [] [] [] [] [] None [] [] [] [] 0 0 0 end) (KStr "protected_div") = Err OtherError.
Proof. split; [|split]; [do 2 eexists; vm_compute; repeat split; reflexivity|do 2 eexists; vm_compute; repeat split; reflexivity|vm_compute; reflexivity]. Qed.
Example C144_distinct_case : exists toks, create_tokens no_numbers 2 ["add"; "mul"; "diff"; "n2"; "const"]%list true true 1 1 ["nu"]%list = Ok toks /\
  map (fun t => tname (fst t)) toks = ["x1"; "x2"; "u1"; "nu"; "add"; "mul"; "diff"; "n2"; "const"]%list /\ map snd toks = ["None"; "None"; "None"; "None"; "np.add"; "np.multiply"; "Diff"; "protected_n2"; "value"]%list.
Proof. eexists. vm_compute. repeat split; reflexivity. Qed.
Print Assumptions C144_accepted.
Print Assumptions C144_layout.
Print Assumptions C144_library.
Print Assumptions C144_derivatives.
Print Assumptions C144_param_diff_refuted.
Print Assumptions C144_distinct.
Print Assumptions C144_parameters.
