(** Property of the user configuration: C87. *)
From Verif Require Import Base Config.
Local Open Scope string_scope.
Local Open Scope list_scope.

(** The entry at a path of keys. *)
Fixpoint get (p : list string) (c : cfg) : option cfg :=
  match p with
  | [] => Some c
  | k :: p' => match c with Dict l => match find k l with Some v => get p' v | None => None end | _ => None end
  end.
Definition is_dict (c : cfg) : Prop := exists l, c = Dict l.
(** Keys of a dictionary are distinct, at every level. *)
Definition distinct_keys (c : cfg) : Prop := forall p l, get p c = Some (Dict l) -> NoDup (map fst l).

Lemma find_put k v l k' : find k' (put k v l) = if String.eqb k k' then Some v else find k' l.
Proof.
  induction l as [|[k0 v0] l IH]; cbn [put find]; [destruct (String.eqb k k'); reflexivity|].
  destruct (String.eqb_spec k0 k) as [->|N]; cbn [find].
  - destruct (String.eqb k k'); reflexivity.
  - rewrite IH. destruct (String.eqb_spec k0 k') as [->|N']; [|reflexivity]. destruct (String.eqb_spec k k') as [->|]; [congruence|reflexivity].
Qed.
Lemma find_notin k l : ~ In k (map fst l) -> find k l = None.
Proof.
  induction l as [|[k0 v0] l IH]; cbn; intros H; [reflexivity|]. destruct (String.eqb_spec k0 k) as [->|]; [tauto|auto].
Qed.
Lemma find_cases k l : NoDup (map fst l) -> forall k0 v0, find k ((k0, v0) :: l) = if String.eqb k0 k then Some v0 else find k l.
Proof. reflexivity. Qed.

(** One level of merging. *)
Lemma merge_level l : forall b m, NoDup (map fst l) -> merge false (Dict b) (Dict l) = Ok m ->
  exists m', m = Dict m' /\ forall k,
    match find k l with
    | None => find k m' = find k b
    | Some (Dict d) => exists c, merge false (match find k b with Some c => c | None => Dict [] end) (Dict d) = Ok c /\ find k m' = Some c
    | Some v => find k m' = Some v
    end.
Proof.
  induction l as [|[k0 v0] l IH]; intros b m ND H.
  - cbn in H. injection H as <-. exists b. split; [reflexivity|]. reflexivity.
  - inversion ND as [|? ? Nk ND']; subst.
    assert (Step : forall b', merge false (Dict b') (Dict l) = Ok m -> (forall k, k <> k0 -> find k b' = find k b) ->
              (match v0 with Dict d => exists c, merge false (match find k0 b with Some c => c | None => Dict [] end) (Dict d) = Ok c /\ find k0 b' = Some c | v => find k0 b' = Some v end) ->
              exists m', m = Dict m' /\ forall k, match find k ((k0, v0) :: l) with
                | None => find k m' = find k b
                | Some (Dict d) => exists c, merge false (match find k b with Some c => c | None => Dict [] end) (Dict d) = Ok c /\ find k m' = Some c
                | Some v => find k m' = Some v end).
    { intros b' Hm Ho Hk. destruct (IH b' m ND' Hm) as (m' & -> & Hf). exists m'. split; [reflexivity|]. intros k. cbn [find].
      specialize (Hf k). destruct (String.eqb_spec k0 k) as [<-|N].
      - rewrite (find_notin k0 l Nk) in Hf. rewrite Hf. exact Hk.
      - rewrite (Ho k) in Hf by congruence. exact Hf. }
    destruct v0 as [|a|d].
    + apply (Step (put k0 Null b)); [exact H| |rewrite find_put, String.eqb_refl; reflexivity].
      intros k Nq. rewrite find_put. destruct (String.eqb_spec k0 k); [congruence|reflexivity].
    + apply (Step (put k0 (Atom a) b)); [exact H| |rewrite find_put, String.eqb_refl; reflexivity].
      intros k Nq. rewrite find_put. destruct (String.eqb_spec k0 k); [congruence|reflexivity].
    + change (merge false (Dict b) (Dict ((k0, Dict d) :: l))) with
        (do c <- merge false (match find k0 b with Some c => c | None => Dict [] end) (Dict d) ; merge false (Dict (put k0 c b)) (Dict l)) in H.
      destruct (merge false (match find k0 b with Some c => c | None => Dict [] end) (Dict d)) as [c|] eqn:Ec; cbn [bind] in H; [|discriminate].
      apply (Step (put k0 c b)); [exact H| |exists c; split; [reflexivity|rewrite find_put, String.eqb_refl; reflexivity]].
      intros k Nq. rewrite find_put. destruct (String.eqb_spec k0 k); [congruence|reflexivity].
Qed.
Lemma merge_atom a l m : merge false (Atom a) (Dict l) = Ok m -> l = [] /\ m = Atom a.
Proof. destruct l as [|[k v] l]; cbn; [intros H; injection H as <-; auto|]. destruct v; discriminate. Qed.
Lemma distinct_sub l k v : distinct_keys (Dict l) -> find k l = Some v -> distinct_keys v.
Proof. intros H F p l' G. apply (H (k :: p) l'). cbn [get]. rewrite F. exact G. Qed.

Lemma merge_paths p : forall base l m, distinct_keys (Dict l) -> merge false base (Dict l) = Ok m ->
  (forall v, get p (Dict l) = Some v -> ~ is_dict v -> get p m = Some v) /\
  (get p (Dict l) = None -> (forall q r v, p = q ++ r -> get q (Dict l) = Some v -> is_dict v) -> get p m = get p base).
Proof.
  induction p as [|k p IH]; intros base l m D H.
  - split; [intros v E N|intros E]; cbn in E; [|discriminate]. injection E as <-. exfalso. apply N. exists l. reflexivity.
  - destruct base as [|a|b].
    + cbn in H. injection H as <-. split; [intros v E _; exact E|intros E _; exact E].
    + apply merge_atom in H as [-> ->]. split; [intros v E; discriminate|reflexivity].
    + destruct (merge_level l b m (D [] l eq_refl) H) as (m' & -> & F). specialize (F k). cbn [get].
      destruct (find k l) as [v0|] eqn:Ek.
      * destruct v0 as [|a|d].
        -- rewrite F. split; [auto|]. intros E Hq. exfalso. specialize (Hq [k] p Null eq_refl). cbn [get] in Hq. rewrite Ek in Hq. destruct (Hq eq_refl). discriminate.
        -- rewrite F. split; [auto|]. intros E Hq. exfalso. specialize (Hq [k] p (Atom a) eq_refl). cbn [get] in Hq. rewrite Ek in Hq. destruct (Hq eq_refl). discriminate.
        -- destruct F as (c & Hc & ->). destruct (IH _ d c (distinct_sub l k _ D Ek) Hc) as [I1 I2]. split; [exact I1|]. intros E Hq.
           rewrite I2; [destruct (find k b); [reflexivity|]|exact E|].
           { destruct p; [discriminate|reflexivity]. }
           intros q r v Ep Eg. apply (Hq (k :: q) r v); [rewrite Ep; reflexivity|]. cbn [get]. rewrite Ek. exact Eg.
      * rewrite F. split; [discriminate|]. intros _ _. reflexivity.
Qed.

(** Python 3.9: every value the user gives (at any depth) is in the configuration, *)
Theorem C87_user_values base user m p v : distinct_keys (Dict user) ->
  set_config false base (Some (Dict user)) = Ok m -> get p (Dict user) = Some v -> ~ is_dict v -> get p m = Some v.
Proof. intros D H. apply (merge_paths p base user m D H). Qed.
(** and every default whose path the user's dictionary does not mention or cut short is kept. *)
Theorem C87_defaults_kept base user m p : distinct_keys (Dict user) ->
  set_config false base (Some (Dict user)) = Ok m -> get p (Dict user) = None ->
  (forall q r v, p = q ++ r -> get q (Dict user) = Some v -> is_dict v) -> get p m = get p base.
Proof. intros D H. apply (merge_paths p base user m D H). Qed.

(** Merging goes through when no dictionary of the user meets a non-dictionary default. *)
Fixpoint depth (c : cfg) : nat := match c with Dict l => S (list_max (map (fun kv => depth (snd kv)) l)) | _ => 0 end.
Lemma depth_in k v l : In (k, v) l -> depth v < depth (Dict l).
Proof.
  intros H. change (depth (Dict l)) with (S (list_max (map (fun kv => depth (snd kv)) l))). assert (depth v <= list_max (map (fun kv => depth (snd kv)) l)); [|lia].
  pose proof (list_max_le (map (fun kv => depth (snd kv)) l) (list_max (map (fun kv => depth (snd kv)) l))) as [F _]. specialize (F (Nat.le_refl _)).
  rewrite Forall_forall in F. apply F. apply in_map_iff. exists (k, v). auto.
Qed.
Definition compatible (base upd : cfg) : Prop :=
  forall p d c, get p upd = Some (Dict d) -> get p base = Some c -> c = Null \/ is_dict c.
Lemma merge_ok n : forall base l, depth (Dict l) <= n -> distinct_keys (Dict l) -> compatible base (Dict l) -> exists m, merge false base (Dict l) = Ok m.
Proof.
  induction n as [|n IHn]; intros base l Hd D C; [cbn in Hd; lia|].
  destruct (C [] l base eq_refl eq_refl) as [->|[b ->]]; [eexists; reflexivity|].
  pose proof (D [] l eq_refl) as ND.
  assert (G : forall k d, In (k, Dict d) l -> exists c, merge false (match find k b with Some c => c | None => Dict [] end) (Dict d) = Ok c).
  { intros k d Hin. assert (find k l = Some (Dict d)) as Ek.
    { clear - ND Hin. induction l as [|[k0 v0] l IH]; [destruct Hin|]. inversion ND as [|? ? Nk ND']; subst. cbn [find].
      destruct Hin as [E|Hin]; [injection E as -> ->; rewrite String.eqb_refl; reflexivity|].
      destruct (String.eqb_spec k0 k) as [->|]; [|auto]. exfalso. apply Nk. apply in_map_iff. exists (k, Dict d). auto. }
    apply IHn.
    - apply depth_in in Hin. lia.
    - eapply distinct_sub; eauto.
    - intros p d' c E1 E2. destruct (find k b) as [c0|] eqn:Eb.
      + apply (C (k :: p) d' c); cbn [get]; [rewrite Ek; exact E1|rewrite Eb; exact E2].
      + destruct p; cbn in E2; [injection E2 as <-; right; eexists; reflexivity|discriminate]. }
  clear D C Hd. revert b G. induction l as [|[k v] l IH]; intros b G; [eexists; reflexivity|]. inversion ND as [|? ? Nk ND']; subst.
  assert (G' : forall c k' d, In (k', Dict d) l -> exists m, merge false (match find k' (put k c b) with Some x => x | None => Dict [] end) (Dict d) = Ok m).
  { intros c k' d Hin. rewrite find_put. destruct (String.eqb_spec k k') as [->|].
    - exfalso. apply Nk. apply in_map_iff. exists (k', Dict d). auto.
    - apply G. right. exact Hin. }
  destruct v as [|a|d].
  - exact (IH ND' (put k Null b) (G' Null)).
  - exact (IH ND' (put k (Atom a) b) (G' (Atom a))).
  - destruct (G k d (or_introl eq_refl)) as [c Hc]. destruct (IH ND' (put k c b) (G' c)) as [m Hm]. exists m.
    change (merge false (Dict b) (Dict ((k, Dict d) :: l))) with
        (do c <- merge false (match find k b with Some c => c | None => Dict [] end) (Dict d) ; merge false (Dict (put k c b)) (Dict l)).
    rewrite Hc. exact Hm.
Qed.
Theorem C87_accepted base user : distinct_keys (Dict user) -> compatible base (Dict user) ->
  exists m, set_config false base (Some (Dict user)) = Ok m.
Proof. intros D C. exact (merge_ok _ base user (Nat.le_refl _) D C). Qed.
Theorem C87_no_configuration py310 b : set_config py310 (Dict b) None = Ok (Dict b) /\ set_config py310 (Dict b) (Some (Dict [])) = Ok (Dict b).
Proof. split; reflexivity. Qed.

(** From Python 3.10 on every non-empty user configuration is an AttributeError. *)
Theorem C87_python310_refuted b k v user : set_config true (Dict b) (Some (Dict ((k, v) :: user))) = Err AttributeError.
Proof. reflexivity. Qed.

Example C87_case :
  set_config false (Dict [("task", Dict [("metric", Atom 1); ("threshold", Atom 2)]); ("training", Dict [("n_epochs", Null)])])
                   (Some (Dict [("task", Dict [("threshold", Atom 5)]); ("training", Dict [("n_epochs", Atom 7)])]))
  = Ok (Dict [("task", Dict [("metric", Atom 1); ("threshold", Atom 5)]); ("training", Dict [("n_epochs", Atom 7)])]).
Proof. vm_compute. reflexivity. Qed.
Print Assumptions C87_user_values.
Print Assumptions C87_defaults_kept.
Print Assumptions C87_accepted.
Print Assumptions C87_no_configuration.
Print Assumptions C87_python310_refuted.

(** ** The path of a configuration file *)
(** A configuration file overrides exactly like a dictionary: its values are in the configuration. *)
Lemma merge_dict l : forall b m, merge false (Dict b) (Dict l) = Ok m -> exists d, m = Dict d.
Proof.
  induction l as [|[k v] l IH]; intros b m E; [cbn in E; injection E as <-; eauto|].
  destruct v as [|a|d].
  - apply (IH (put k Null b) m). exact E.
  - apply (IH (put k (Atom a) b) m). exact E.
  - change (merge false (Dict b) (Dict ((k, Dict d) :: l))) with
        (do c <- merge false (match find k b with Some c => c | None => Dict [] end) (Dict d) ; merge false (Dict (put k c b)) (Dict l)) in E.
    destruct (merge false _ (Dict d)) as [c|e]; cbn [bind] in E; [|discriminate]. apply (IH _ _ E).
Qed.
Lemma put_keys k v l : NoDup (map fst l) -> NoDup (map fst (put k v l)) /\ forall x, In x (map fst (put k v l)) <-> x = k \/ In x (map fst l).
Proof.
  induction l as [|[k0 v0] l IH]; cbn; intros D.
  - split; [constructor; [tauto|constructor]|]. intros x. intuition.
  - inversion D as [|? ? N D']; subst. destruct (IH D') as [I1 I2]. destruct (String.eqb_spec k0 k) as [->|Nk]; cbn.
    + split; [constructor; auto|]. intros x. intuition.
    + split; [constructor; [|exact I1]; rewrite I2; intuition|]. intros x. rewrite I2. intuition.
Qed.
Lemma distinct_put k v l : distinct_keys (Dict l) -> distinct_keys v -> distinct_keys (Dict (put k v l)).
Proof.
  intros D Dv p l' G. destruct p as [|a p]; cbn [get] in G.
  - injection G as <-. apply put_keys. apply (D []). reflexivity.
  - rewrite find_put in G. destruct (String.eqb_spec k a); [exact (Dv p l' G)|]. apply (D (a :: p) l'). exact G.
Qed.
Lemma merge_distinct n : forall b l m, depth (Dict l) <= n -> distinct_keys (Dict b) -> distinct_keys (Dict l) -> merge false (Dict b) (Dict l) = Ok m -> distinct_keys m.
Proof.
  induction n as [|n IHn]; intros b l m Hd Db Dl E; [cbn in Hd; lia|].
  assert (G : forall k d, In (k, Dict d) l -> depth (Dict d) <= n). { intros k d Hin. apply depth_in in Hin. lia. }
  assert (G2 : forall k v, In (k, v) l -> distinct_keys v).
  { intros k v Hin. pose proof (Dl [] l eq_refl) as ND. apply (distinct_sub l k v Dl). clear - ND Hin. induction l as [|[k0 v0] l IH]; [destruct Hin|].
    inversion ND as [|? ? Nk ND']; subst. cbn [find]. destruct Hin as [E|Hin]; [injection E as -> ->; rewrite String.eqb_refl; reflexivity|].
    destruct (String.eqb_spec k0 k) as [->|]; [|auto]. exfalso. apply Nk. apply in_map_iff. exists (k, v). auto. }
  clear Hd Dl. revert b Db E. induction l as [|[k v] l IH]; intros b Db E; [cbn in E; injection E as <-; exact Db|].
  assert (forall c, distinct_keys c -> merge false (Dict (put k c b)) (Dict l) = Ok m -> distinct_keys m) as Step.
  { intros c Hc E'. refine (IH _ _ (put k c b) _ E').
    - intros k' d Hin. apply (G k' d). right. exact Hin.
    - intros k' v' Hin. apply (G2 k' v'). right. exact Hin.
    - apply distinct_put; assumption. }
  destruct v as [|a|d].
  - apply (Step Null); [|exact E]. intros p l' H. destruct p; discriminate.
  - apply (Step (Atom a)); [|exact E]. intros p l' H. destruct p; discriminate.
  - change (merge false (Dict b) (Dict ((k, Dict d) :: l))) with
        (do c <- merge false (match find k b with Some c => c | None => Dict [] end) (Dict d) ; merge false (Dict (put k c b)) (Dict l)) in E.
    destruct (merge false _ (Dict d)) as [c|e] eqn:Ec; cbn [bind] in E; [|discriminate]. apply (Step c); [|exact E].
    pose proof (G2 k _ (or_introl eq_refl)) as Dd.
    destruct (find k b) as [[| |b0]|] eqn:Ek.
    + cbn in Ec. injection Ec as <-. exact Dd.
    + apply merge_atom in Ec as [-> ->]. intros p l' H. destruct p; discriminate.
    + apply (IHn b0 d c (G k d (or_introl eq_refl))); [exact (distinct_sub b k _ Db Ek)|exact Dd|exact Ec].
    + apply (IHn [] d c (G k d (or_introl eq_refl))); [|exact Dd|exact Ec]. intros p l' H. destruct p; [injection H as <-; constructor|discriminate].
Qed.
Theorem C87_path_values files listed truthy base user m p v :
  (forall n c, find n files = Some c -> is_dict c /\ distinct_keys c) -> distinct_keys (Dict user) ->
  set_config_path false files listed truthy base user = Ok m -> get p (Dict user) = Some v -> ~ is_dict v -> get p m = Some v.
Proof.
  intros F D E G Nv. unfold set_config_path in E. destruct (load_config _ _ _ _ _) as [c|e] eqn:El; cbn [bind] in E; [|discriminate].
  unfold load_config in El. destruct (entry _ _ _) as [t|]; cbn [bind] in El; [|discriminate]. destruct (language_on _ _) as [lang|]; cbn [bind] in El; [|discriminate].
  destruct (get_base_config _ _ _ _) as [b|] eqn:Eb; cbn [bind] in El; [|discriminate].
  assert (exists d, b = Dict d /\ distinct_keys b) as (bd & -> & Db).
  { unfold get_base_config, open_file in Eb.
    destruct (find "config_common.json" files) as [co|] eqn:E1; cbn [bind] in Eb; [|discriminate]. destruct (F _ _ E1) as [[dco ->] D1].
    destruct (find (if match t with Some c => listed c | None => true end then "config_regression.json" else "config_common.json") files) as [ta|] eqn:E2; cbn [bind] in Eb; [|discriminate].
    destruct (F _ _ E2) as [[dta ->] D2].
    assert (forall x y, distinct_keys (Dict x) -> distinct_keys (Dict y) -> forall z, merge false (Dict x) (Dict y) = Ok z -> exists d, z = Dict d /\ distinct_keys z) as MM.
    { intros x y Dx Dy z Ez. destruct (merge_dict _ _ _ Ez) as [d ->]. exists d. split; [reflexivity|]. exact (merge_distinct _ _ _ _ (Nat.le_refl _) Dx Dy Ez). }
    destruct lang.
    - destruct (find "config_language.json" files) as [la|] eqn:E3; cbn [bind] in Eb; [|discriminate]. destruct (F _ _ E3) as [[dla ->] D3].
      destruct (merge false (Dict dta) (Dict dla)) as [t'|] eqn:E4; cbn [bind] in Eb; [|discriminate].
      destruct (MM _ _ D2 D3 _ E4) as (d4 & -> & D4). exact (MM _ _ D1 D4 _ Eb).
    - cbn [bind] in Eb. exact (MM _ _ D1 D2 _ Eb). }
  destruct (merge_dict _ _ _ El) as [cd ->].
  pose proof (proj1 (merge_paths p _ _ _ D El) v G Nv) as G1.
  refine (proj1 (merge_paths p _ _ _ _ E) v G1 Nv). exact (merge_distinct _ _ _ _ (Nat.le_refl _) Db D El).
Qed.
(** But the path of a configuration file never works in the package as shipped: config_common.json is missing. *)
Theorem C87_path_refuted py310 files listed truthy base user : map fst files = ["config_pde.json"; "config_pde_pinn.json"; "config_regression.json"] ->
  exists e, set_config_path py310 files listed truthy base user = Err e /\
    ((forall a s, find a user = Some s -> is_dict s) -> (forall d s, find "prior" user = Some (Dict d) -> find "language_model" d = Some s -> is_dict s) -> e = OtherError).
Proof.
  intros Ef. assert (find "config_common.json" files = None) as Ec.
  { destruct files as [|[a ?] [|[b ?] [|[c ?] [|]]]]; try discriminate. cbn [map fst] in Ef. injection Ef as -> -> ->. reflexivity. }
  assert (forall l1 l2, get_base_config py310 files l1 l2 = Err OtherError) as EB. { intros l1 l2. unfold get_base_config, open_file. rewrite Ec. reflexivity. }
  unfold set_config_path, load_config. unfold language_on. unfold entry.
  destruct (find "task" user) as [[|a|d]|] eqn:E1; cbn [bind].
  1,2: eexists; split; [reflexivity|]; intros H _; destruct (H _ _ E1); discriminate.
  all: destruct (find "prior" user) as [[|a'|d']|] eqn:E2; cbn [bind];
    try (eexists; split; [reflexivity|]; intros H _; destruct (H _ _ E2); discriminate).
  all: try (destruct (find "language_model" d') as [[| |d'']|] eqn:E3; cbn [bind];
    try (eexists; split; [reflexivity|]; intros _ H; destruct (H _ _ eq_refl E3); discriminate)).
  all: rewrite EB; cbn [bind]; eexists; split; [reflexivity|]; reflexivity.
Qed.
(** with the missing file added a path works *)
Example C87_path_case :
  set_config_path false [("config_common.json", Dict [("task", Dict [("metric", Atom 1)])]); ("config_regression.json", Dict [("training", Dict [("n_epochs", Atom 3)])])]
    (fun _ => true) (fun _ => false) (Dict [("task", Dict [("metric", Atom 0); ("threshold", Atom 2)])]) [("task", Dict [("task_type", Atom 9)])]
  = Ok (Dict [("task", Dict [("metric", Atom 1); ("threshold", Atom 2); ("task_type", Atom 9)]); ("training", Dict [("n_epochs", Atom 3)])]).
Proof. vm_compute. reflexivity. Qed.
Print Assumptions C87_path_values.
Print Assumptions C87_path_refuted.
