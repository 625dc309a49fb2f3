(** Generation and mutation of SGA trees preserve the table invariant. *)
From Verif Require Import Base Trees SgaTree SgaSpec SgaTreeFacts.

Lemma Forall2_length {A B} (R : A -> B -> Prop) l l' : Forall2 R l l' -> List.length l = List.length l'.
Proof. induction 1; cbn; congruence. Qed.

Section Gen.
Variable c : sctx.
Hypothesis Hc : ctx_ok c.
Notation starts := SgaTreeFacts.starts.

Lemma starts_app L1 L2 : forall acc, starts acc (L1 ++ L2) <-> starts acc L1 /\ starts (acc + sumar L1) L2.
Proof.
  induction L1 as [|n L1 IH]; intros acc; cbn [app SgaTreeFacts.starts sumar].
  - rewrite Nat.add_0_r. tauto.
  - rewrite IH. rewrite Nat.add_assoc. tauto.
Qed.
Definition node_ok (n : node) : Prop := In (nent n) (c_vars c) \/ In (nent n) OPS.
Lemma ops_d e : In e OPS -> is_d (ename e) = true -> ear e = 2.
Proof. cbn. intuition (subst; cbn in *; auto; discriminate). Qed.

Section WithRng.
Variables (isvar : nat -> nat -> bool) (pick : rng).
Hypothesis Hp : rng_ok pick.
Lemma draw_ok l d i : l <> [] -> exists e, draw l (pick d i (List.length l)) = Ok e /\ In e l.
Proof.
  intros Hl. unfold draw. destruct (nth_error l (pick d i (List.length l))) eqn:E.
  - eexists. split; [reflexivity|]. eapply nth_error_In; eauto.
  - apply nth_error_None in E. specialize (Hp d i (List.length l)). destruct l; [congruence|]. cbn [List.length] in *. lia.
Qed.
Lemma gen_node_ok md depth pos pi p j cnt : exists n, gen_node c isvar pick md depth pos pi p j cnt = Ok (n, cnt + nar n) /\
  npar n = pi /\ (0 < nar n -> nst n = Some cnt) /\
  (In (nent n) (c_vars c) \/ (In (nent n) OPS /\ depth <> md - 1)) /\
  (is_d (nname p) = true -> j = 1 -> In (nent n) (c_den c)).
Proof.
  destruct Hc as (H1 & H2 & H3 & H4). unfold gen_node.
  destruct (draw_ok (c_den c) depth pos H3) as (e1 & E1 & I1). destruct (draw_ok (c_vars c) depth pos H2) as (e2 & E2 & I2).
  destruct (draw_ok OPS depth pos ltac:(discriminate)) as (e3 & E3 & I3). rewrite E1, E2, E3. cbn [bind].
  pose proof (vars_ar c Hc _ (H4 _ I1)) as A1. pose proof (vars_ar c Hc _ I2) as A2.
  destruct (is_d (nname p)) eqn:Ed; destruct (Nat.eqb_spec j 1) as [Ej|Ej]; cbn [andb];
    try (exists (mkNode e1 None pi pos); cbn; rewrite A1, Nat.add_0_r; repeat split; auto; try lia; try congruence; fail);
    (destruct (Nat.eqb_spec depth (md - 1)) as [Em|Em]; [exists (mkNode e2 None pi pos); cbn; rewrite A2, Nat.add_0_r; repeat split; auto; try lia; try congruence|];
     destruct (isvar depth pos); [exists (mkNode e2 None pi pos); cbn; rewrite A2, Nat.add_0_r; repeat split; auto; try lia; try congruence|];
     exists (mkNode e3 (Some cnt) pi pos); cbn [nent nst npar]; repeat split; auto; try congruence).
Qed.
Definition kid_rel (md depth pi : nat) (p : node) (j : nat) (n : node) : Prop :=
  npar n = pi /\ (In (nent n) (c_vars c) \/ (In (nent n) OPS /\ depth <> md - 1)) /\ (is_d (nname p) = true -> j = 1 -> In (nent n) (c_den c)).
Lemma gen_kids_ok md depth pi p : forall js level cnt, exists chunk,
  gen_kids c isvar pick md depth pi p js level cnt = Ok (level ++ chunk, cnt + sumar chunk) /\
  Forall2 (kid_rel md depth pi p) js chunk /\ starts cnt chunk.
Proof.
  induction js as [|j js IH]; intros level cnt; cbn [gen_kids].
  - exists []. rewrite app_nil_r. cbn. rewrite Nat.add_0_r. auto.
  - destruct (gen_node_ok md depth (List.length level) pi p j cnt) as (n & E & A1 & A2 & A3 & A4). rewrite E. cbn [bind fst snd].
    destruct (IH (level ++ [n]) (cnt + nar n)) as (chunk & E' & B1 & B2). exists (n :: chunk). rewrite E'. split; [|split].
    + rewrite <- app_assoc. cbn. now rewrite Nat.add_assoc.
    + constructor; [|assumption]. repeat split; auto.
    + cbn. auto.
Qed.
Lemma family_kids md depth pi p chunk : node_ok p -> Forall2 (kid_rel md depth pi p) (seq 0 (nar p)) chunk ->
  family c (nent p) (map nent chunk).
Proof.
  intros Hn H. pose proof (Forall2_length _ _ _ H) as L. rewrite seq_length in L. unfold family. rewrite map_length.
  assert (chunk <> [] -> In (nent p) OPS) as HO.
  { intros Hne. destruct Hn as [Hn|Hn]; [|assumption]. pose proof (vars_ar c Hc _ Hn). destruct chunk; [congruence|cbn in L; lia]. }
  repeat split; auto.
  - intros E. apply map_eq_nil in E. subst. destruct Hn as [Hn|Hn]; [assumption|]. pose proof (ops_ar _ Hn). cbn in L. lia.
  - intros Hne. apply HO. intros ->. now apply Hne.
  - intros Hne Hd. assert (chunk <> []) as Hc0 by (intros ->; now apply Hne). pose proof (ops_d _ (HO Hc0) Hd) as A. rewrite A in *.
    destruct chunk as [|l [|r [|? ?]]]; cbn in L; try lia. exists (nent l), (nent r). split; [reflexivity|].
    cbn in H. inversion H as [|? ? ? ? _ H2]; subst. inversion H2 as [|? ? ? ? Hr _]; subst. destruct Hr as (_ & _ & Hr).
    specialize (Hr Hd eq_refl). split.
    + apply (vars_ar c Hc). apply Hc. exact Hr.
    + unfold den_names. now apply in_map.
Qed.
Lemma gen_level_ok md depth : forall parents pi level cnt, Forall node_ok parents -> exists L,
  gen_level c isvar pick md depth pi parents level cnt = Ok (level ++ L) /\ feeds c pi parents L /\ starts cnt L /\
  Forall (fun n => In (nent n) (c_vars c) \/ (In (nent n) OPS /\ depth <> md - 1)) L.
Proof.
  induction parents as [|p ps IH]; intros pi level cnt H; cbn [gen_level].
  - exists []. rewrite app_nil_r. cbn. repeat split; constructor.
  - inversion H as [|? ? Hn Hns]; subst. destruct (gen_kids_ok md depth pi p (seq 0 (nar p)) level cnt) as (chunk & E & B1 & B2).
    rewrite E. cbn [bind fst snd]. destruct (IH (S pi) (level ++ chunk) (cnt + sumar chunk) Hns) as (L & E' & F1 & F2 & F3).
    exists (chunk ++ L). rewrite E', app_assoc. split; [reflexivity|]. split; [|split].
    + constructor; [|eapply family_kids; eauto|assumption]. clear -B1. induction B1 as [|? ? ? ? [R _] ? IH]; constructor; auto.
    + apply starts_app. auto.
    + apply Forall_app. split; [|assumption]. clear -B1. induction B1 as [|? ? ? ? (_ & R & _) ? IH]; constructor; auto.
Qed.
Lemma feeds_leaves : forall L i, Forall (fun n => In (nent n) (c_vars c)) L -> feeds c i L [].
Proof.
  induction L as [|n L IH]; intros i H; [constructor|]. inversion H; subst. change (@nil node) with (@nil node ++ []). constructor; auto.
  split; [cbn; symmetry; now apply (vars_ar c)|]. repeat split; auto; intros X; cbn in X; congruence.
Qed.
Lemma gen_levels_ok md : forall k depth parents, depth + k = md -> starts 0 parents -> Forall node_ok parents ->
  (k = 0 -> Forall (fun n => In (nent n) (c_vars c)) parents) ->
  exists ls, gen_levels c isvar pick md k depth parents = Ok ls /\ wf_levels c (parents :: ls) /\ List.length ls = k.
Proof.
  induction k as [|k IH]; intros depth parents Hd Hs Hn H0; cbn [gen_levels].
  - exists []. split; [reflexivity|]. split; [|reflexivity]. cbn. split; [assumption|]. split; [|exact I]. apply feeds_leaves; auto.
  - destruct (gen_level_ok md depth parents 0 [] 0 Hn) as (L & E & F1 & F2 & F3). rewrite E. cbn [bind app].
    destruct (IH (S depth) L) as (ls & E' & W & Hl); [lia|assumption| | |].
    + eapply Forall_impl; [|exact F3]. unfold node_ok. cbn. tauto.
    + intros ->. eapply Forall_impl; [|exact F3]. cbn. intros n [?|[_ X]]; [assumption|lia].
    + rewrite E'. cbn [bind]. exists (L :: ls). split; [reflexivity|]. split; [|cbn; lia]. cbn [wf_levels hd] in *. tauto.
Qed.
Lemma root_ops e : In e ROOT -> In e OPS.
Proof. cbn. intuition (subst; auto 10). Qed.
Lemma gen_tree_wf max_depth : 2 <= max_depth -> exists r ls,
  gen_tree c isvar pick max_depth = finish ([r] :: ls) /\ wf_levels c ([r] :: ls) /\ S (List.length ls) = max_depth /\ In (nent r) ROOT.
Proof.
  intros Hm. destruct max_depth as [|k]; [lia|]. cbn [gen_tree].
  destruct (draw_ok ROOT 0 0 ltac:(discriminate)) as (e & E & I). rewrite E. cbn [bind].
  destruct (gen_levels_ok (S k) k 1 [mkNode e (Some 0) 0 0]) as (ls & E' & W & L); [lia|cbn; auto| |lia|].
  - constructor; [|constructor]. right. now apply root_ops.
  - rewrite E'. cbn [bind]. exists (mkNode e (Some 0) 0 0), ls. repeat split; auto; apply W.
Qed.
End WithRng.

(** *** Mutation *)
(** No axis bears the name of an operator; a variable called x is an axis. *)
Definition sane : Prop :=
  (forall e, In e OPS -> ~ In (ename e) (den_names c)) /\ (In "x"%string (map ename (c_vars c)) -> In "x"%string (den_names c)).
Hypothesis Hsane : sane.

Lemma nmem_In n l : nmem n l = true <-> In n l.
Proof.
  unfold nmem. rewrite existsb_exists. split.
  - intros (x & H & E). apply String.eqb_eq in E. now subst.
  - intros H. exists n. split; [assumption|]. apply String.eqb_refl.
Qed.

(** what mutation may do to one node *)
Definition upd_ok (below : list node) (p cur n : node) : Prop :=
  npar n = npar cur /\ nar n = nar cur /\ (0 < nar cur -> nst n = nst cur) /\
  (nar cur = 0 -> In (nent n) (c_vars c)) /\
  (0 < nar cur -> In (nent n) OPS) /\
  (0 < nar cur -> is_d (nname n) = true -> exists st r, nst cur = Some st /\ nth_error below (st + 1) = Some r /\ In (nname r) (den_names c) /\ nar r = 0) /\
  (is_d (nname p) = true -> nar cur = 0 -> In (nname cur) (den_names c) -> In (nname n) (den_names c)).
Definition cur_ok (below : list node) (cur : node) : Prop :=
  node_ok cur /\
  (nar cur = 2 -> exists st r, nst cur = Some st /\ nth_error below (st + 1) = Some r /\ node_ok r /\
      (is_d (nname cur) = true -> In (nname r) (den_names c) /\ nar r = 0)).

Lemma draw_leaf_ok parent temp : forall draws e, Forall (fun e => In e (c_vars c)) draws -> draw_leaf c parent temp draws = Some e ->
  In e (c_vars c) /\ (is_d parent = true -> In (ename e) (den_names c)).
Proof.
  induction draws as [|d ds IH]; intros e H E; cbn in E; [discriminate|]. inversion H; subst.
  destruct (is_d parent) eqn:Ed; cbn [andb orb] in *.
  - destruct (String.eqb (ename d) temp || negb (nmem (ename d) (den_names c))) eqn:Eo; cbn in E.
    + destruct (c_simple c && true && String.eqb (ename d) "x") eqn:Ex.
      * injection E as <-. split; [assumption|]. intros _. apply andb_prop in Ex as [_ Ex]. apply String.eqb_eq in Ex. rewrite Ex.
        apply Hsane. rewrite <- Ex. now apply in_map.
      * auto.
    + injection E as <-. split; [assumption|]. intros _. apply orb_false_elim in Eo as [_ Eo].
      apply nmem_In. now destruct (nmem (ename d) (den_names c)).
  - rewrite orb_false_r, andb_false_r in E. destruct (String.eqb (ename d) temp); [auto|]. injection E as <-. split; [assumption|discriminate].
Qed.
Lemma draw_op1_ok temp : forall draws e, Forall (fun e => In e OP1) draws -> draw_op1 temp draws = Some e -> In e OP1.
Proof. induction draws as [|d ds IH]; intros e H E; cbn in E; [discriminate|]. inversion H; subst. destruct (String.eqb _ _); [auto|]. now injection E as <-. Qed.
Lemma draw_op2_ok temp right : forall draws e, Forall (fun e => In e OP2) draws -> draw_op2 c temp right draws = Some e ->
  In e OP2 /\ (is_d (ename e) = true -> In right (den_names c)).
Proof.
  induction draws as [|d ds IH]; intros e H E; cbn in E; [discriminate|]. inversion H; subst.
  destruct (String.eqb (ename d) temp || (is_d (ename d) && negb (nmem right (den_names c)))) eqn:Eo; [auto|].
  injection E as <-. split; [assumption|]. intros Hd. rewrite Hd in Eo. apply orb_false_elim in Eo as [_ Eo]. cbn in Eo.
  apply nmem_In. now destruct (nmem right (den_names c)).
Qed.
Lemma op1_props e : In e OP1 -> In e OPS /\ ear e = 1 /\ is_d (ename e) = false.
Proof. cbn. intuition (subst; cbn; auto 10). Qed.
Lemma op2_props e : In e OP2 -> In e OPS /\ ear e = 2.
Proof. cbn. intuition (subst; cbn; auto 10). Qed.

(** *** Termination: when every draw eventually offers every table entry *)
Definition table (cur : node) : list ent := match nar cur with 0 => c_vars c | 1 => OP1 | _ => OP2 end.
(** mutation can always leave its drawing loops: two variables, and two axes or, in simple
    mode, the axis x *)
Definition escapable : Prop :=
  (exists a b, In a (map ename (c_vars c)) /\ In b (map ename (c_vars c)) /\ a <> b) /\
  ((c_simple c = true /\ In "x"%string (den_names c)) \/ exists a b, In a (den_names c) /\ In b (den_names c) /\ a <> b).
Lemma draw_leaf_none parent temp : forall draws, draw_leaf c parent temp draws = None -> forall e, In e draws ->
  (ename e = temp \/ (is_d parent = true /\ ~ In (ename e) (den_names c))) /\ (c_simple c = true -> is_d parent = true -> ename e <> "x"%string).
Proof.
  induction draws as [|d ds IH]; intros E e HI; [destruct HI|]. cbn in E. destruct HI as [-> | I].
  - destruct (String.eqb_spec (ename e) temp); cbn [orb] in E.
    + split; [now left|]. intros S D. rewrite S, D in E. cbn in E. intros X. rewrite X in E. discriminate.
    + destruct (is_d parent); [|discriminate]. cbn [andb] in E. destruct (nmem (ename e) (den_names c)) eqn:Em; [discriminate|]. cbn [negb] in E.
      split; [right; split; [reflexivity|]; intros I; apply nmem_In in I; congruence|].
      intros S _ X. rewrite S, X in E. discriminate.
  - apply IH; [|assumption]. destruct (String.eqb (ename d) temp || (is_d parent && negb (nmem (ename d) (den_names c)))); [|discriminate].
    destruct (c_simple c && is_d parent && String.eqb (ename d) "x"); [discriminate|assumption].
Qed.
Lemma draw_leaf_esc : escapable -> forall parent temp draws, incl (c_vars c) draws -> draw_leaf c parent temp draws <> None.
Proof.
  intros ((a & b & A & B & AB) & HD) parent temp draws I E. pose proof (draw_leaf_none _ _ _ E) as N.
  assert (forall n, In n (map ename (c_vars c)) -> (n = temp \/ (is_d parent = true /\ ~ In n (den_names c))) /\ (c_simple c = true -> is_d parent = true -> n <> "x"%string)) as M.
  { intros n Hn. apply in_map_iff in Hn as (e & <- & He). apply N. now apply I. }
  assert (forall n, In n (den_names c) -> In n (map ename (c_vars c))) as DV.
  { intros n Hn. unfold den_names in Hn. apply in_map_iff in Hn as (e & <- & He). apply in_map. now apply Hc. }
  destruct (is_d parent) eqn:Ed.
  - destruct HD as [[S X]|(x & y & X & Y & XY)].
    + destruct (M _ (DV _ X)) as [_ M2]. now apply M2.
    + destruct (M _ (DV _ X)) as [[M1|[_ M1]] _]; [|contradiction]. destruct (M _ (DV _ Y)) as [[M2|[_ M2]] _]; [|contradiction]. congruence.
  - destruct (M _ A) as [[M1|[M1 _]] _]; [|discriminate]. destruct (M _ B) as [[M2|[M2 _]] _]; [|discriminate]. congruence.
Qed.
Lemma draw_op1_esc temp draws : incl OP1 draws -> draw_op1 temp draws <> None.
Proof.
  intros I E. assert (forall e, In e draws -> ename e = temp) as N.
  { clear I. induction draws as [|d ds IH]; intros e H; [destruct H|]. cbn in E. destruct (String.eqb_spec (ename d) temp); [|discriminate].
    destruct H as [<- | H]; auto. }
  assert (ename (op "^2" 1) = ename (op "^3" 1)) as X. { rewrite (N (op "^2" 1)), (N (op "^3" 1)); [reflexivity| |]; apply I; cbn; auto. }
  discriminate.
Qed.
Lemma draw_op2_esc temp right draws : incl OP2 draws -> draw_op2 c temp right draws <> None.
Proof.
  intros I E. assert (forall e, In e draws -> is_d (ename e) = false -> ename e = temp) as N.
  { clear I. induction draws as [|d ds IH]; intros e H D; [destruct H|]. cbn in E. destruct (String.eqb_spec (ename d) temp); cbn in E.
    - destruct H as [<- | H]; auto.
    - destruct (is_d (ename d)) eqn:Dd; cbn in E; [|discriminate]. destruct (negb _); [|discriminate]. destruct H as [<- | H]; [congruence|auto]. }
  assert (ename (op "+" 2) = ename (op "-" 2)) as X. { rewrite (N (op "+" 2)), (N (op "-" 2)); [reflexivity| | | |]; try reflexivity; apply I; cbn; auto. }
  discriminate.
Qed.
Variable Fair : Prop.
Hypothesis Hesc : Fair -> escapable.
Definition dr (cur : node) (draws : list ent) : Prop := draws_from c cur draws /\ (Fair -> incl (table cur) draws).

Lemma mute_node_ok ch below rest pi p cur cnt idx :
  cur_ok below cur -> npar cur = pi -> (0 < nar cur -> nst cur = Some cnt) ->
  (forall draws, ch = Some draws -> dr cur draws) ->
  (below <> [] -> exists r, rest = below :: r) ->
  mute_node c ch rest pi p cur cnt idx = Ok None /\ ~ Fair \/
  exists n idx', mute_node c ch rest pi p cur cnt idx = Ok (Some (n, cnt + nar cur, idx')) /\ upd_ok below p cur n.
Proof.
  intros [Hn H2] Hpar Hst Hd Hb. unfold mute_node. destruct ch as [draws|].
  2:{ right. exists cur, idx. split; [reflexivity|]. unfold upd_ok. repeat split; auto.
      - intros E. destruct Hn as [Hn|Hn]; [assumption|]. pose proof (ops_ar _ Hn). lia.
      - intros E. destruct Hn as [Hn|Hn]; [|assumption]. pose proof (vars_ar c Hc _ Hn). lia.
      - intros Ep Ed. assert (In (nent cur) OPS) as Ho. { destruct Hn as [Hn|Hn]; [|assumption]. pose proof (vars_ar c Hc _ Hn). lia. }
        destruct (H2 (ops_d _ Ho Ed)) as (st & r & A & B & C & D). destruct (D Ed). eauto 6. }
  specialize (Hd _ eq_refl). destruct Hd as [Hd Hf]. unfold draws_from in Hd. unfold table in Hf.
  destruct (Nat.eqb_spec (nar cur) 0) as [E0|E0].
  { rewrite E0 in Hd, Hf. destruct (draw_leaf c (nname p) (nname cur) draws) as [e|] eqn:E; [|left; split; [reflexivity|]; intros X; exact (draw_leaf_esc (Hesc X) _ _ _ (Hf X) E)]. right.
    destruct (draw_leaf_ok _ _ _ _ Hd E) as [I1 I2]. pose proof (vars_ar c Hc _ I1) as A.
    eexists _, _. split; [rewrite E0, Nat.add_0_r; reflexivity|]. unfold upd_ok. cbn [nent npar nst]. repeat split; auto; try lia. }
  assert (In (nent cur) OPS) as Ho. { destruct Hn as [Hn|Hn]; [|assumption]. pose proof (vars_ar c Hc _ Hn). lia. }
  destruct (Nat.eqb_spec (nar cur) 1) as [E1|E1].
  { rewrite E1 in Hd, Hf. destruct (draw_op1 (nname cur) draws) as [e|] eqn:E; [|left; split; [reflexivity|]; intros X; exact (draw_op1_esc _ _ (Hf X) E)]. right.
    destruct (op1_props _ (draw_op1_ok _ _ _ Hd E)) as (I1 & A & B).
    eexists _, _. split; [rewrite E1, A; reflexivity|]. unfold upd_ok. cbn [nent npar nst]. rewrite (Hst ltac:(lia)).
    repeat split; auto; try lia; try congruence. }
  destruct (Nat.eqb_spec (nar cur) 2) as [E2|E2]; [|pose proof (ops_ar _ Ho); lia].
  destruct (H2 E2) as (st & r & A & B & C & D). rewrite E2 in Hd, Hf.
  destruct (Hb ltac:(intros ->; now destruct (st + 1))) as [rr ->]. rewrite A, B.
  destruct (draw_op2 c (nname cur) (nname r) draws) as [e|] eqn:E; [|left; split; [reflexivity|]; intros X; exact (draw_op2_esc _ _ _ (Hf X) E)]. right.
  destruct (draw_op2_ok _ _ _ _ Hd E) as [I1 I2]. destruct (op2_props _ I1) as [I3 A3].
  eexists _, _. split; [rewrite E2, A3; reflexivity|]. unfold upd_ok. cbn [nent npar nst]. rewrite (Hst ltac:(lia)) in A. injection A as <-.
  repeat split; auto; try lia; try congruence.
  - intros _. symmetry; apply Hst; lia.
  - intros _ Hdd. exists cnt, r. rewrite (Hst ltac:(lia)). repeat split; auto.
    destruct C as [C|C]; [now apply (vars_ar c Hc)|]. exfalso. eapply (proj1 Hsane); [exact C|]. auto.
Qed.

Lemma mute_kids_ok choice below rest pi p : (below <> [] -> exists r, rest = below :: r) ->
  forall chunk2 dn chunk1 post cnt idx,
  nst p = Some (List.length dn) ->
  Forall (cur_ok below) chunk2 -> Forall (fun k => npar k = pi) chunk2 -> starts cnt chunk2 ->
  (forall i cur draws, nth_error (dn ++ chunk1 ++ chunk2 ++ post) i = Some cur -> choice i = Some draws ->
     List.length dn + List.length chunk1 <= i -> dr cur draws) ->
  let js := seq (List.length chunk1) (List.length chunk2) in
  mute_kids c choice rest pi p js (dn ++ chunk1 ++ chunk2 ++ post) cnt idx = Ok None /\ ~ Fair \/
  exists chunk2' idx', mute_kids c choice rest pi p js (dn ++ chunk1 ++ chunk2 ++ post) cnt idx =
     Ok (Some (dn ++ chunk1 ++ chunk2' ++ post, cnt + sumar chunk2, idx')) /\ Forall2 (upd_ok below p) chunk2 chunk2'.
Proof.
  intros Hb. induction chunk2 as [|cur chunk2 IH]; intros dn chunk1 post cnt idx Hst H1 H2 H3 Hch; cbn [List.length seq mute_kids].
  - right. exists [], idx. split; [|constructor]. cbn. now rewrite Nat.add_0_r.
  - rewrite Hst. assert (forall x, nth_error (dn ++ chunk1 ++ x :: chunk2 ++ post) (List.length dn + List.length chunk1) = Some x) as En.
    { intros x. rewrite app_assoc, <- app_length. apply nth_error_mid. }
    cbn [app]. rewrite En. inversion H1 as [|? ? A1 A2]; subst. inversion H2 as [|? ? B1 B2]; subst. destruct H3 as [C1 C2].
    destruct (mute_node_ok (choice (List.length dn + List.length chunk1)) below rest (npar cur) p cur cnt idx A1 eq_refl C1) as [(E & NF)|(n & idx' & E & U)]; [|assumption| |].
    + intros draws Hd. eapply Hch; [apply En|exact Hd|lia].
    + rewrite E. now left.
    + rewrite E. cbn [bind].
      assert (set_at (dn ++ chunk1 ++ cur :: chunk2 ++ post) (List.length dn + List.length chunk1) n = dn ++ (chunk1 ++ [n]) ++ chunk2 ++ post) as Es.
      { rewrite app_assoc, <- app_length, set_at_app. now rewrite <- !app_assoc. }
      rewrite Es. specialize (IH dn (chunk1 ++ [n]) post (cnt + nar cur) idx' Hst A2 B2 C2).
      rewrite app_length in IH. cbn [List.length] in IH. rewrite Nat.add_1_r in IH. destruct IH as [(IH & NF)|(chunk2' & idx'' & IH & IU)].
      * intros i cu draws Ei Hd Hi. apply (Hch i cu draws); [|assumption|lia].
        replace (dn ++ (chunk1 ++ [n]) ++ chunk2 ++ post) with ((dn ++ chunk1) ++ n :: chunk2 ++ post) in Ei by now rewrite <- !app_assoc.
        rewrite app_assoc. cbn [app]. rewrite nth_error_app2 in * by (rewrite app_length; lia). rewrite app_length in *.
        destruct (i - (List.length dn + List.length chunk1)) eqn:Ek; [lia|]. exact Ei.
      * rewrite IH. now left.
      * right. exists (n :: chunk2'), idx''. rewrite IH. split; [|constructor; auto].
        cbn [sumar app]. rewrite <- !app_assoc. cbn [app]. now rewrite Nat.add_assoc.
Qed.

Lemma upd_sumar below p l l' : Forall2 (upd_ok below p) l l' -> sumar l' = sumar l.
Proof. induction 1 as [|? ? ? ? (_ & A & _) ? IH]; cbn; lia. Qed.
Lemma upd_starts below p l l' : Forall2 (upd_ok below p) l l' -> forall acc, starts acc l -> starts acc l'.
Proof.
  induction 1 as [|x y l l' (_ & A & B & _) H IH]; intros acc S; cbn in *; [exact I|]. destruct S as [S1 S2]. rewrite A. split; [|auto].
  intros Hp. rewrite B by assumption. auto.
Qed.
Lemma upd_family below p chunk chunk' : family c (nent p) (map nent chunk) -> Forall2 (upd_ok below p) chunk chunk' ->
  family c (nent p) (map nent chunk').
Proof.
  intros (F1 & F2 & F3 & F4) H. pose proof (Forall2_length _ _ _ H) as L. unfold family in *. rewrite map_length in *. rewrite <- L.
  assert (map nent chunk' = [] -> map nent chunk = []) as E0. { destruct chunk, chunk'; cbn in *; try discriminate; auto. }
  assert (map nent chunk = [] -> map nent chunk' = []) as E1. { destruct chunk, chunk'; cbn in *; try discriminate; auto. }
  repeat split; auto. intros Hne Hd. destruct (F4 ltac:(auto) Hd) as (l & r & E & A & B).
  destruct chunk as [|l0 [|r0 [|? ?]]]; try discriminate. injection E as <- <-.
  inversion H as [|? l1 ? ? U1 H2]; subst. inversion H2 as [|? r1 ? ? U2 H3]; subst. inversion H3; subst.
  exists (nent l1), (nent r1). split; [reflexivity|]. destruct U2 as (_ & V1 & _ & _ & _ & _ & V2). rewrite V1. auto.
Qed.
Lemma upd_npar below p chunk chunk' i : Forall2 (upd_ok below p) chunk chunk' -> Forall (fun k => npar k = i) chunk -> Forall (fun k => npar k = i) chunk'.
Proof. induction 1 as [|x y l l' (A & _) H IH]; intros F; [constructor|]. inversion F; subst. constructor; auto. Qed.

Lemma mute_level_ok choice below rest : (below <> [] -> exists r, rest = below :: r) ->
  forall parents pi dn L cnt idx,
  feeds c pi parents L -> starts (List.length dn) parents -> Forall (cur_ok below) L -> starts cnt L ->
  (forall i cur draws, nth_error (dn ++ L) i = Some cur -> choice i = Some draws -> List.length dn <= i -> dr cur draws) ->
  mute_level c choice rest pi parents (dn ++ L) cnt idx = Ok None /\ ~ Fair \/
  exists L', mute_level c choice rest pi parents (dn ++ L) cnt idx = Ok (Some (dn ++ L')) /\ feeds c pi parents L' /\
     starts cnt L' /\ Forall2 (fun cur n => exists p, upd_ok below p cur n) L L'.
Proof.
  intros Hb. induction parents as [|p ps IH]; intros pi dn L cnt idx HF HS HC HT Hch; cbn [mute_level].
  - inversion HF; subst. right. exists []. split; [reflexivity|]. repeat split; constructor.
  - inversion HF as [|? ? ? chunk r P1 P2 P3]; subst. destruct HS as [S1 S2]. apply Forall_app in HC as [C1 C2]. apply starts_app in HT as [T1 T2].
    pose proof (proj1 P2) as Hl. rewrite map_length in Hl.
    assert (Hk : mute_kids c choice rest pi p (seq 0 (nar p)) (dn ++ chunk ++ r) cnt idx = Ok None /\ ~ Fair \/
      exists chunk' idx', mute_kids c choice rest pi p (seq 0 (nar p)) (dn ++ chunk ++ r) cnt idx =
        Ok (Some (dn ++ chunk' ++ r, cnt + sumar chunk, idx')) /\ Forall2 (upd_ok below p) chunk chunk').
    { destruct chunk as [|k chunk].
      - cbn in Hl. rewrite <- Hl. right. exists [], idx. cbn. rewrite Nat.add_0_r. auto.
      - rewrite <- Hl. apply (mute_kids_ok choice below rest pi p Hb (k :: chunk) dn [] r cnt idx); auto.
        + apply S1. cbn in Hl. lia.
        + intros i cur draws Ei Hd Hi. apply (Hch i cur draws); auto. cbn in Hi. lia. }
    destruct Hk as [(E & NF)|(chunk' & idx' & E & U)]; rewrite E; cbn [bind]; [now left|].
    rewrite app_assoc. specialize (IH (S pi) (dn ++ chunk') r (cnt + sumar chunk) idx' P3).
    pose proof (Forall2_length _ _ _ U) as LU. rewrite app_length in IH. rewrite <- LU, Hl in IH. destruct IH as [(IH & NF)|(L' & IH & I1 & I2 & I3)]; auto.
    + intros i cur draws Ei Hd Hi. apply (Hch i cur draws); [|assumption|lia]. rewrite <- Ei. rewrite app_assoc.
      rewrite !nth_error_app2 by (rewrite app_length; lia). rewrite !app_length. f_equal. lia.
    + rewrite IH. rewrite <- app_assoc. right. exists (chunk' ++ L'). split; [reflexivity|]. split; [|split].
      * constructor; [|eapply upd_family; eauto|assumption]. eapply upd_npar; eauto.
      * apply starts_app. split; [eapply upd_starts; eauto|]. rewrite (upd_sumar _ _ _ _ U). exact I2.
      * apply Forall2_app; [|exact I3]. clear -U. induction U; constructor; eauto.
Qed.

Lemma feeds_node_ok i L L' : feeds c i L L' -> Forall node_ok L.
Proof.
  induction 1 as [|i n L chunk rest H1 (F1 & F2 & F3 & _) H3 IH]; constructor; auto. destruct chunk; [left; auto|right; apply F3; discriminate].
Qed.
Lemma upd_feeds below i L Lb : feeds c i L Lb -> forall pre L', below = pre ++ Lb -> starts (List.length pre) L ->
  Forall2 (fun cur n => exists p, upd_ok below p cur n) L L' -> feeds c i L' Lb.
Proof.
  induction 1 as [|i n L chunk rest H1 H2 H3 IH]; intros pre L' Eb S U; inversion U as [|? n' ? L1 [q (U1 & U2 & U3 & U4 & U5 & U6 & _)] U']; subst; [constructor|].
  destruct H2 as (F1 & F2 & F3 & F4). destruct S as [S1 S2]. constructor; auto.
  - unfold family. rewrite map_length in *. split; [congruence|]. split; [|split].
    + intros E. apply U4. apply map_eq_nil in E. subst. now cbn in F1.
    + intros E. apply U5. destruct chunk; [now elim E|]. cbn in F1. lia.
    + intros E Hd. assert (0 < nar n) as Hp. { destruct chunk; [now elim E|]. cbn in F1. lia. }
      destruct (U6 Hp Hd) as (st & r & A & B & C & D). pose proof (ops_d _ (U5 Hp) Hd) as A2. rewrite U2 in A2. rewrite A2 in F1.
      destruct chunk as [|a [|b [|? ?]]]; cbn in F1; try discriminate. exists (nent a), (nent b). split; [reflexivity|].
      rewrite (S1 Hp) in A. injection A as <-. cbn [app] in B. rewrite nth_error_app2 in B by lia.
      replace (List.length pre + 1 - List.length pre) with 1 in B by lia. injection B as <-. auto.
  - apply (IH (pre ++ chunk)); [now rewrite app_assoc| |assumption]. rewrite app_length. rewrite map_length in F1. now rewrite F1.
Qed.
Lemma feeds_cur_ok below i L Lb : feeds c i L Lb -> forall pre, below = pre ++ Lb -> starts (List.length pre) L -> Forall node_ok below ->
  Forall (cur_ok below) L.
Proof.
  induction 1 as [|i n L chunk rest H1 H2 H3 IH]; intros pre Eb S Hn; [constructor|]. destruct S as [S1 S2].
  pose proof (proj1 H2) as Hl. rewrite map_length in Hl. constructor.
  - split.
    + destruct H2 as (F1 & F2 & F3 & _). destruct chunk; [left; auto|right; apply F3; discriminate].
    + intros A2. destruct chunk as [|a [|b [|? ?]]]; cbn in Hl; try lia. exists (List.length pre), b.
      assert (nth_error below (List.length pre + 1) = Some b) as En.
      { subst below. rewrite nth_error_app2 by lia. now replace (List.length pre + 1 - List.length pre) with 1 by lia. }
      repeat split; auto.
      * apply S1. lia.
      * apply nth_error_In in En. rewrite Forall_forall in Hn. auto.
      * destruct H2 as (_ & _ & _ & F4). destruct (F4 ltac:(discriminate) H) as (l & r & E & X & Y). injection E as <- <-. auto.
      * destruct H2 as (_ & _ & _ & F4). destruct (F4 ltac:(discriminate) H) as (l & r & E & X & Y). injection E as <- <-. auto.
  - apply (IH (pre ++ chunk)); [now rewrite <- app_assoc| |assumption]. now rewrite app_length, Hl.
Qed.

Lemma mute_levels_ok choice : forall ls depth parents, starts 0 parents -> feeds c 0 parents (hd [] ls) -> wf_levels c ls ->
  (forall d i cur draws, nth_error (nth d ls []) i = Some cur -> choice (depth + d) i = Some draws -> dr cur draws) ->
  mute_levels c choice depth parents ls = Ok None /\ ~ Fair \/
  exists ls', mute_levels c choice depth parents ls = Ok (Some ls') /\ wf_levels c (parents :: ls') /\
    map (map (fun n => nar n)) ls' = map (map (fun n => nar n)) ls.
Proof.
  induction ls as [|L rest IH]; intros depth parents S F W Hch; cbn [mute_levels].
  - right. exists []. cbn in *. auto.
  - destruct W as (W1 & W2 & W3). cbn [hd] in F. set (below := hd [] rest) in *.
    assert (below <> [] -> exists r, rest = below :: r) as Hb. { unfold below. destruct rest; cbn; [congruence|eauto]. }
    assert (Forall node_ok below) as Hn. { unfold below. destruct rest as [|B r]; [constructor|]. destruct W3 as (_ & W3 & _). cbn. eapply feeds_node_ok; eauto. }
    destruct (mute_level_ok (choice depth) below rest Hb parents 0 [] L 0 0 F S) as [(E & NF)|(L' & E & I1 & I2 & I3)]; auto.
    + apply (feeds_cur_ok below 0 L below W2 []); auto.
    + intros i cur draws Ei Hd _. apply (Hch 0 i cur draws); [exact Ei|]. now rewrite Nat.add_0_r.
    + cbn [app] in E. rewrite E. now left.
    + cbn [app] in E. rewrite E. cbn [bind].
      destruct (IH (Datatypes.S depth) L' I2) as [(E' & NF)|(ls' & E' & V1 & V2)].
      * eapply (upd_feeds below 0 L below W2 []); eauto.
      * assumption.
      * intros d i cur draws Ei Hd. apply (Hch (Datatypes.S d) i cur draws); [exact Ei|]. now replace (depth + Datatypes.S d) with (Datatypes.S depth + d) by lia.
      * rewrite E'. now left.
      * rewrite E'. cbn [bind]. right. exists (L' :: ls'). split; [reflexivity|]. split.
        { cbn [wf_levels hd]. repeat split; auto; apply V1. }
        cbn [map]. rewrite V2. f_equal. clear -I3. induction I3 as [|? ? ? ? (q & _ & A & _) ? IH]; cbn; congruence.
Qed.

(** A tree obtained by generation and any number of completed mutations. *)
Definition choices_gen (choice : nat -> nat -> option (list ent)) (s : stree) : Prop :=
  forall d i cur draws, nth_error (nth d (t_levels s) []) i = Some cur -> choice d i = Some draws -> dr cur draws.
Lemma mutate_wf_gen choice s r ls : t_levels s = [r] :: ls -> wf_levels c ([r] :: ls) -> choices_gen choice s ->
  mutate c choice s = Ok None /\ ~ Fair \/
  exists s' ls', mutate c choice s = Ok (Some s') /\ finish ([r] :: ls') = Ok s' /\ t_levels s' = [r] :: ls' /\ wf_levels c ([r] :: ls') /\
    map (map (fun n => nar n)) ls' = map (map (fun n => nar n)) ls.
Proof.
  intros E W Hch. unfold mutate. rewrite E. destruct W as (W1 & W2 & W3).
  destruct (mute_levels_ok choice ls 1 [r] W1 W2 W3) as [(X & NF)|(ls' & X & V1 & V2)].
  - intros d i cur draws Ei Hd. apply (Hch (1 + d) i cur draws); [|exact Hd]. rewrite E. exact Ei.
  - rewrite X. now left.
  - rewrite X. cbn [bind]. destruct (finish_ok c r ls' V1) as (s' & t & F & L & _). rewrite F. cbn [bind]. right.
    exists s', ls'. auto.
Qed.
End Gen.
(** Every draw comes from the right table; [fair]: every entry is eventually drawn. *)
Definition choices_ok (c : sctx) (choice : nat -> nat -> option (list ent)) (s : stree) : Prop :=
  forall d i cur draws, nth_error (nth d (t_levels s) []) i = Some cur -> choice d i = Some draws -> draws_from c cur draws.
Definition fair (c : sctx) (choice : nat -> nat -> option (list ent)) (s : stree) : Prop :=
  forall d i cur draws, nth_error (nth d (t_levels s) []) i = Some cur -> choice d i = Some draws -> incl (table c cur) draws.
Lemma mutate_wf c (Hc : ctx_ok c) (Hsane : sane c) choice s r ls : t_levels s = [r] :: ls -> wf_levels c ([r] :: ls) -> choices_ok c choice s ->
  mutate c choice s = Ok None /\ ~ (escapable c /\ fair c choice s) \/
  exists s' ls', mutate c choice s = Ok (Some s') /\ finish ([r] :: ls') = Ok s' /\ t_levels s' = [r] :: ls' /\ wf_levels c ([r] :: ls') /\
    map (map (fun n => nar n)) ls' = map (map (fun n => nar n)) ls.
Proof.
  intros E W Hch. destruct (mutate_wf_gen c Hc Hsane (escapable c /\ fair c choice s) (@proj1 _ _) choice s r ls E W) as [X|X]; auto.
  intros d i cur draws E1 E2. split; [eapply Hch; eauto|]. intros [_ F]. eapply F; eauto.
Qed.
Inductive evolved (c : sctx) (max_depth : nat) : stree -> Prop :=
| ev_gen isvar pick s : rng_ok pick -> gen_tree c isvar pick max_depth = Ok s -> evolved c max_depth s
| ev_mut choice s s' : evolved c max_depth s -> choices_ok c choice s -> mutate c choice s = Ok (Some s') -> evolved c max_depth s'.
Lemma evolved_wf c md s : ctx_ok c -> sane c -> 2 <= md -> evolved c md s ->
  exists r ls, t_levels s = [r] :: ls /\ wf_levels c ([r] :: ls) /\ S (List.length ls) = md /\ In (nent r) ROOT /\ finish ([r] :: ls) = Ok s.
Proof.
  intros Hc Hs Hm H. induction H as [isvar pick s Hp E|choice s s' H IH Hch E].
  - destruct (gen_tree_wf c Hc isvar pick Hp md Hm) as (r & ls & E' & W & L & R). rewrite E' in E.
    destruct (finish_ok c r ls W) as (s0 & t & F & T & _). rewrite F in E. injection E as <-. exists r, ls. auto.
  - destruct IH as (r & ls & T & W & L & R & F). destruct (mutate_wf c Hc Hs choice s r ls T W Hch) as [(X & _)|(s1 & ls' & X & F' & T' & W' & A)]; rewrite X in E; [discriminate|].
    injection E as <-. exists r, ls'. repeat split; auto; try apply W'. apply (f_equal (@List.length _)) in A. rewrite !map_length in A. lia.
Qed.
Lemma entries_ar from names : Forall (fun e => ear e = 0) (entries from names).
Proof. unfold entries. apply Forall_forall. intros e H. apply in_map_iff in H as ([i n] & <- & _). reflexivity. Qed.
Lemma entries_names from names : map ename (entries from names) = names.
Proof. unfold entries. rewrite map_map. cbn. revert from. induction names; intros from; cbn; [reflexivity|]. f_equal. apply IHnames. Qed.
Lemma entries_app from a b : entries from (a ++ b) = entries from a ++ entries (from + List.length a) b.
Proof.
  unfold entries. revert from. induction a as [|x a IH]; intros from; cbn; [now rewrite Nat.add_0_r|].
  f_equal. rewrite IH. now rewrite Nat.add_succ_r.
Qed.
Lemma make_ctx_ok simple fields axes params grads lhs c : make_ctx simple fields axes params grads lhs = Ok c ->
  ctx_ok c /\ den_names c = filter (fun a => negb (String.eqb a lhs)) axes /\ c_simple c = simple /\
  map ename (c_vars c) = fields ++ filter (fun a => negb (String.eqb a lhs)) axes ++ params ++ ["0"%string] ++ grads /\
  ~ In lhs (map ename (c_vars c)).
Proof.
  unfold make_ctx. generalize (filter (fun a => negb (String.eqb a lhs)) axes) as rs. intros rs.
  assert (rs = [] \/ rs <> []) as [-> | Hne] by (destruct rs; [now left|right; discriminate]); [discriminate|].
  replace (match rs with [] => Err ValueError | _ => _ end) with (if nmem lhs (map ename (entries 0 (fields ++ rs ++ params ++ ["0"%string] ++ grads))) then Err ValueError else
    Ok (mkCtx (entries 0 (fields ++ rs ++ params ++ ["0"%string] ++ grads)) (entries (List.length fields) rs) simple)) by (destruct rs; congruence).
  destruct (nmem lhs _) eqn:Em; [discriminate|]. intros E. injection E as <-. cbn [c_vars c_den c_simple den_names].
  unfold den_names. cbn [c_den]. rewrite !entries_names. split.
  - split; [apply entries_ar|]. cbn [c_vars c_den]. split; [|split].
    + intros H. apply (f_equal (map ename)) in H. rewrite entries_names in H. destruct fields; [|discriminate]. now destruct rs.
    + intros H. apply (f_equal (map ename)) in H. rewrite entries_names in H. now apply Hne.
    + rewrite entries_app, (entries_app _ rs). cbn [Nat.add]. intros e H. apply in_app_iff. right. apply in_app_iff. now left.
  - repeat split; auto. rewrite entries_names in Em. intros H. apply nmem_In in H. cbn [app] in *. congruence.
Qed.
