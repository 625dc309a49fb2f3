(** evaluate_mse computes, term by term, the value of the tree, and keeps exactly the terms
    that have a non-zero value. *)
From Verif Require Import Base Trees SgaTree SgaSpec SgaTreeFacts SgaGenFacts SgaEval.

Section Deletion.
Context {V : Type}.
(** *** Deletion keeps terms and columns aligned *)
Fixpoint keep {A} (l : list (A * option V)) : list A :=
  match l with [] => [] | (x, Some _) :: l' => x :: keep l' | (_, None) :: l' => keep l' end.
Fixpoint somes (l : list (option V)) : list V := match l with [] => [] | Some v :: l' => v :: somes l' | None :: l' => somes l' end.
Fixpoint positions (ix : nat) (l : list (option V)) : list nat :=
  match l with [] => [] | Some _ :: l' => positions (S ix) l' | None :: l' => ix :: positions (S ix) l' end.
Definition fill (zero : V) (o : option V) : V := match o with Some v => v | None => zero end.
Lemma pop_mid {A} (p : list A) x l : pop_at (p ++ x :: l) (List.length p) = Ok (p ++ l).
Proof.
  unfold pop_at. rewrite app_length. cbn [List.length]. destruct (Nat.ltb_spec (List.length p) (List.length p + S (List.length l))); [|lia].
  rewrite firstn_app, Nat.sub_diag, firstn_all. cbn [firstn]. rewrite app_nil_r. f_equal. f_equal.
  replace (S (List.length p)) with (List.length (p ++ [x])) by (rewrite app_length; cbn; lia).
  replace (p ++ x :: l) with ((p ++ [x]) ++ l) by (now rewrite <- app_assoc).
  rewrite skipn_app, Nat.sub_diag, skipn_all. reflexivity.
Qed.
Lemma delete_loop_ok {A} zero (ts : list A) : forall os ix move pre (preV : list V), List.length ts = List.length os ->
  List.length pre = List.length preV -> ix = move + List.length pre ->
  delete_loop move (positions ix os) (pre ++ ts) (preV ++ map (fill zero) os) = Ok (pre ++ keep (combine ts os), preV ++ somes os).
Proof.
  induction ts as [|t ts IH]; intros [|o os] ix move pre preV L Lp E; try discriminate; cbn [positions combine keep somes map].
  - cbn. reflexivity.
  - cbn [List.length] in L. destruct o as [v|].
    + specialize (IH os (S ix) move (pre ++ [t]) (preV ++ [v])). rewrite !app_length, <- !app_assoc in IH. cbn in IH. apply IH; lia.
    + cbn [delete_loop]. replace (ix - move) with (List.length pre) by lia. rewrite pop_mid. cbn [bind]. rewrite Lp, pop_mid. cbn [bind].
      apply IH; lia.
Qed.
Lemma positions_length os : forall ix, List.length (positions ix os) + List.length (somes os) = List.length os.
Proof. induction os as [|[v|] os IH]; intros ix; cbn; rewrite <- ?(IH (S ix)); lia. Qed.
Lemma keep_combine {A} (ts : list A) os : List.length ts = List.length os -> List.length (keep (combine ts os)) = List.length (somes os).
Proof. revert os. induction ts as [|t ts IH]; intros [|[v|] os] L; cbn in *; try discriminate; auto. Qed.
End Deletion.

Section EvalFacts.
Variable c : sctx.
Hypothesis Hc : ctx_ok c.
Context {V : Type}.
Variables (leafval : ent -> V) (f1 : ent -> V -> V) (f2 : ent -> V -> V -> V) (diffop : ent -> V -> string -> V)
          (known : string -> bool) (lhs : string) (zeroish : V -> bool) (pert : V -> V) (guard : bool)
          (nonzero finite : V -> bool).
Notation value := (value leafval f1 f2 diffop lhs zeroish pert guard).
Notation column := (column leafval f1 f2 diffop lhs zeroish pert guard nonzero).
Notation eval_node := (eval_node leafval f1 f2 diffop known lhs zeroish pert guard).
Notation eval_nodes := (eval_nodes leafval f1 f2 diffop known lhs zeroish pert guard).
Notation eval_levels := (eval_levels leafval f1 f2 diffop known lhs zeroish pert guard).
Notation eval_term := (eval_term leafval f1 f2 diffop known lhs zeroish pert guard nonzero).
Notation eval_terms := (eval_terms leafval f1 f2 diffop known lhs zeroish pert guard nonzero).
Notation evaluate := (evaluate leafval f1 f2 diffop known lhs zeroish pert guard nonzero finite).
Hypothesis Hknown : forall a, In a (den_names c) -> known a = true \/ a = lhs.

Definition cache_of (t : tree ent) : option V := match kids_of t with [] => None | _ => value t end.
Definition defined (t : tree ent) : bool := match value t with Some _ => true | None => false end.
Definition nones (n : nat) : list (option V) := repeat None n.
Lemma nones_app a b : nones (a + b) = nones a ++ nones b.
Proof. apply repeat_app. Qed.

Lemma operand_ok n t v : term_ok c t -> nent n = root_of t -> value t = Some v -> operand leafval n (cache_of t) = Ok v.
Proof.
  intros T E Ev. destruct T as [e cs (F1 & _) T]. cbn [root_of] in E. rewrite map_length in F1. unfold cache_of, operand. cbn [kids_of].
  destruct cs as [|a cs].
  - cbn in F1. rewrite E, <- F1. cbn in Ev. injection Ev as <-. reflexivity.
  - rewrite Ev. reflexivity.
Qed.
Lemma nones_mid pre (x : option V) l : nth_error (nones pre ++ x :: l) pre = Some x.
Proof. unfold nones. rewrite <- (repeat_length (@None V) pre) at 2. apply nth_error_mid. Qed.
Lemma nth_mid1 {A} (p : list A) x y l : nth_error (p ++ x :: y :: l) (List.length p + 1) = Some y.
Proof.
  replace (p ++ x :: y :: l) with ((p ++ [x]) ++ y :: l) by (now rewrite <- app_assoc).
  replace (List.length p + 1) with (List.length (p ++ [x])) by (now rewrite app_length). apply nth_error_mid.
Qed.
Lemma set_mid1 {A} (p : list A) x y l z : set_at (p ++ x :: y :: l) (List.length p + 1) z = p ++ x :: z :: l.
Proof.
  replace (p ++ x :: y :: l) with ((p ++ [x]) ++ y :: l) by (now rewrite <- app_assoc).
  replace (List.length p + 1) with (List.length (p ++ [x])) by (now rewrite app_length). rewrite set_at_app. now rewrite <- app_assoc.
Qed.

Lemma eval_node_ok n chunk ts pre rest (restc : list (option V)) :
  family c (nent n) (map nent chunk) -> map root_of ts = map nent chunk -> Forall (term_ok c) ts -> forallb defined ts = true ->
  (0 < nar n -> nst n = Some (List.length pre)) ->
  eval_node n None (pre ++ chunk ++ rest) (nones (List.length pre) ++ map cache_of ts ++ restc) =
  Ok (if defined (Nd (nent n) ts) then Some (cache_of (Nd (nent n) ts), nones (List.length pre + List.length chunk) ++ restc) else None).
Proof.
  intros (F1 & F2 & F3 & F4) Er T D Hst. rewrite map_length in F1. unfold eval_node.
  assert (List.length ts = List.length chunk) as El by (rewrite <- (map_length root_of), Er, map_length; reflexivity).
  destruct chunk as [|k1 chunk].
  { destruct ts; [|discriminate]. cbn in F1. rewrite <- F1. cbn. rewrite Nat.add_0_r. reflexivity. }
  destruct (Nat.eqb_spec (nar n) 0) as [Z|NZ]; [cbn in F1; lia|]. rewrite Hst by lia.
  specialize (F3 ltac:(discriminate)). pose proof (ops_ar _ F3) as Ha.
  destruct ts as [|a ts]; [discriminate|]. cbn [map] in Er. injection Er as Ea Er. inversion T as [|? ? Ta T']; subst.
  cbn [forallb] in D. apply andb_true_iff in D as [Da D]. unfold defined in Da. destruct (value a) as [va|] eqn:Va; [|discriminate].
  assert (operand leafval k1 (cache_of a) = Ok va) as Oa by (now apply operand_ok).
  assert (List.length (nones (List.length pre)) = List.length pre) as Hn by apply repeat_length.
  destruct chunk as [|k2 chunk].
  - cbn [List.length] in F1. rewrite <- F1. cbn [Nat.eqb]. destruct ts as [|? ?]; [|discriminate].
    cbn [app map]. unfold child. rewrite nth_error_mid, nones_mid. cbn [bind fst snd]. rewrite Oa. cbn [bind].
    replace (set_at (nones (List.length pre) ++ cache_of a :: restc) (List.length pre) None) with (nones (List.length pre) ++ None :: restc)
      by (symmetry; rewrite <- Hn at 2; apply set_at_app).
    unfold defined, cache_of. cbn [SgaEval.value kids_of]. rewrite Va. rewrite nones_app, <- app_assoc. reflexivity.
  - destruct chunk as [|? ?]; [|cbn in F1; lia]. destruct ts as [|b [|? ?]]; try discriminate. cbn [map] in Er. injection Er as Eb.
    cbn [List.length] in F1. rewrite <- F1. cbn [Nat.eqb].
    inversion T' as [|? ? Tb _]; subst. cbn [forallb] in D. apply andb_true_iff in D as [Db _]. unfold defined in Db. destruct (value b) as [vb|] eqn:Vb; [|discriminate].
    assert (operand leafval k2 (cache_of b) = Ok vb) as Ob by (now apply operand_ok).
    cbn [app map]. unfold child. rewrite nth_error_mid, nones_mid, nth_mid1.
    replace (nth_error (nones (List.length pre) ++ cache_of a :: cache_of b :: restc) (List.length pre + 1)) with (Some (cache_of b))
      by (symmetry; rewrite <- Hn at 2; apply nth_mid1).
    cbn [bind fst snd].
    assert (set_at (set_at (nones (List.length pre) ++ cache_of a :: cache_of b :: restc) (List.length pre) None) (List.length pre + 1) None = nones (List.length pre + 2) ++ restc) as ->.
    { rewrite nones_app, <- app_assoc. rewrite <- Hn at 2 3. rewrite set_at_app, set_mid1. reflexivity. }
    destruct (is_d (nname n)) eqn:Ed.
    + destruct (F4 ltac:(discriminate) eq_refl) as (l & r & Elr & _ & Hr). cbn in Elr. injection Elr as _ <-.
      rewrite Oa. unfold defined, cache_of. cbn [SgaEval.value kids_of]. rewrite Va, Vb, Ed, Eb. cbn [fst].
      destruct (String.eqb_spec (nname k2) lhs) as [E|NE]; [reflexivity|].
      destruct (Hknown _ Hr) as [K1|K2]; [|congruence]. rewrite K1. reflexivity.
    + rewrite Oa, Ob. cbn [bind]. unfold defined, cache_of. cbn [SgaEval.value kids_of]. rewrite Va, Vb, Ed.
      destruct (String.eqb (nname n) "/" && zeroish vb); [|reflexivity]. destruct guard; reflexivity.
Qed.
Lemma eval_nodes_ok i L L' : feeds c i L L' -> forall pre F, map root_of F = map nent L' -> Forall (term_ok c) F -> forallb defined F = true ->
  SgaTreeFacts.starts (List.length pre) L ->
  eval_nodes L (nones (List.length L)) (pre ++ L') (nones (List.length pre) ++ map cache_of F) =
  Ok (if forallb defined (attach L F) then Some (map cache_of (attach L F), nones (List.length pre + List.length L')) else None).
Proof.
  induction 1 as [|i n L chunk rest H1 H2 H3 IH]; intros pre F EF TF DF S.
  - destruct F; [|discriminate]. cbn. rewrite Nat.add_0_r, app_nil_r. reflexivity.
  - rewrite map_app in EF. pose proof (proj1 H2) as Hl. destruct (map_firstn_app root_of F _ _ (nar n) EF Hl) as [E1 E2].
    destruct S as [S1 S2].
    cbn [attach List.length nones repeat SgaEval.eval_nodes]. rewrite <- (firstn_skipn (nar n) F) at 1. rewrite map_app.
    assert (forallb defined (firstn (nar n) F) = true /\ forallb defined (skipn (nar n) F) = true) as [D1 D2].
    { rewrite <- (firstn_skipn (nar n) F), forallb_app in DF. now apply andb_true_iff in DF. }
    rewrite (eval_node_ok n chunk (firstn (nar n) F) pre rest); auto using Forall_firstn.
    cbn [bind]. cbn [forallb]. destruct (defined (Nd (nent n) (firstn (nar n) F))) eqn:Dn; [|reflexivity]. cbn [andb].
    specialize (IH (pre ++ chunk) (skipn (nar n) F) E2 (Forall_skipn _ _ _ TF) D2). rewrite app_length, <- app_assoc in IH.
    fold (nones (List.length L)). rewrite IH.
    2:{ rewrite map_length in Hl. rewrite Hl. exact S2. }
    cbn [bind]. destruct (forallb defined (attach L (skipn (nar n) F))); [|reflexivity].
    do 3 f_equal. cbn [map]. rewrite app_length, Nat.add_assoc. reflexivity.
Qed.
Definition clean (ls : list (list node)) : list (list (option V)) := map (map (fun _ => None)) ls.
Lemma clean_nones L : map (fun _ : node => @None V) L = nones (List.length L).
Proof. induction L; cbn; [reflexivity|]. now rewrite IHL. Qed.
Lemma attach_nil_defined L : feeds c 0 L [] -> forallb defined (attach L []) = true /\ map cache_of (attach L []) = nones (List.length L).
Proof.
  generalize 0. intros i H. remember [] as L'. revert HeqL'. induction H as [|i n L chunk rest H1 H2 H3 IH]; intros E; cbn; [auto|].
  apply app_eq_nil in E as [-> ->]. destruct H2 as [F1 _]. cbn in F1. rewrite <- F1. cbn. destruct (IH eq_refl) as [-> ->]. auto.
Qed.
Lemma eval_levels_ok ls : wf_levels c ls -> ls <> [] ->
  eval_levels ls (clean ls) = Ok (if forallb defined (build ls) then Some (map cache_of (build ls) :: clean (tl ls)) else None).
Proof.
  induction ls as [|L rest IH]; intros Hw Hne; [congruence|]. destruct Hw as (H1 & H2 & H3).
  cbn [clean map tl build SgaEval.eval_levels]. destruct rest as [|B rest'].
  - cbn [build hd map SgaEval.eval_levels bind] in *. destruct (attach_nil_defined L H2) as [-> ->]. rewrite clean_nones. reflexivity.
  - fold (clean (B :: rest')). rewrite IH by (auto; discriminate). cbn [bind].
    destruct (forallb defined (build (B :: rest'))) eqn:DF.
    + destruct B as [|b B'].
      * assert (build ([] :: rest') = []) as E0 by reflexivity. rewrite E0. cbn [hd] in H2.
        destruct (attach_nil_defined L H2) as [-> ->]. rewrite clean_nones. reflexivity.
      * cbn [hd] in H2. pose proof (eval_nodes_ok _ _ _ H2 [] (build ((b :: B') :: rest')) (build_root _) (build_ok c _ H3) DF H1) as E.
        cbn [app List.length nones repeat Nat.add] in E. rewrite clean_nones.
        set (G := build ((b :: B') :: rest')) in *. cbn [app] in E.
        rewrite E. cbn [bind]. destruct (forallb defined (attach L G)); [|reflexivity].
        do 3 f_equal. cbn [clean map tl]. rewrite clean_nones. reflexivity.
    + assert (forallb defined (attach L (build (B :: rest'))) = false) as ->; [|reflexivity].
      cbn [hd] in H2. pose proof (build_root (B :: rest')) as EF. cbn [hd] in EF. revert EF DF. generalize (build (B :: rest')) as F. clear -H2.
      induction H2 as [|i n L chunk rest H1 H2 H3 IH]; intros F EF DF; [destruct F; discriminate|].
      rewrite map_app in EF. pose proof (proj1 H2) as Hl. destruct (map_firstn_app root_of F _ _ (nar n) EF Hl) as [E1 E2].
      cbn [attach forallb]. apply andb_false_iff.
      rewrite <- (firstn_skipn (nar n) F), forallb_app in DF. apply andb_false_iff in DF as [D|D]; [left|right; auto].
      destruct H2 as (F1 & F2 & F3 & _). rewrite map_length in F1. unfold defined at 1.
      assert (forall x l, In x l -> value x = None -> List.length l <= 2 -> forall e, value (Nd e l) = None) as Q.
      { intros x [|y [|z [|? ?]]] Hin Hx Hle e; cbn in Hin, Hle; try lia; try tauto.
        - destruct Hin as [-> | []]. cbn. now rewrite Hx.
        - destruct Hin as [-> | [-> | []]]; cbn; rewrite Hx; [reflexivity|]. now destruct (value y). }
      assert (exists x, In x (firstn (nar n) F) /\ value x = None) as (x & I & N).
      { clear -D. induction (firstn (nar n) F) as [|y l IHl]; cbn in D; [discriminate|]. apply andb_false_iff in D as [D|D].
        - exists y. split; [now left|]. unfold defined in D. now destruct (value y).
        - destruct (IHl D) as (x & I & N). exists x. split; [now right|assumption]. }
      rewrite (Q x _ I N); [reflexivity|].
      assert (List.length (firstn (nar n) F) = List.length chunk) as -> by (rewrite <- (map_length root_of), E1, map_length; reflexivity).
      destruct chunk; cbn [List.length] in *; [lia|]. specialize (F3 ltac:(discriminate)). pose proof (ops_ar _ F3). lia.
Qed.

(** A term whose root is an operator, with clean caches. *)
Definition good (t : tree ent) (u : @term V) : Prop :=
  exists r ls, u = fresh ([r] :: ls) /\ wf_levels c ([r] :: ls) /\ build ([r] :: ls) = [t] /\ kids_of t <> [].
Lemma eval_term_ok t (u : @term V) : good t u ->
  (exists v u', column t = Some v /\ eval_term u = Ok (Some v, u') /\ u' = u) \/ (column t = None /\ exists u', eval_term u = Ok (None, u')).
Proof.
  intros (r & ls & -> & W & B & K). unfold eval_term, fresh. cbn [tm_levels tm_caches].
  change (map (map (fun _ : node => None)) ([r] :: ls)) with (clean ([r] :: ls)).
  rewrite (eval_levels_ok ([r] :: ls) W ltac:(discriminate)), B. cbn [bind forallb]. unfold defined, column, cache_of. rewrite andb_true_r.
  cbn [map]. destruct (kids_of t) as [|k ks] eqn:Ek; [congruence|]. destruct (value t) as [v|]; cbn [tl].
  - destruct (nonzero v); [left|right].
    + eexists _, _. repeat split.
    + split; [reflexivity|]. eexists. reflexivity.
  - right. split; [reflexivity|]. eexists. reflexivity.
Qed.

Lemma eval_terms_ok zero (ts : list (tree ent)) us : Forall2 good ts us -> forall ix,
  exists us', eval_terms zero ix us = Ok (map (fill zero) (map column ts), positions ix (map column ts), us') /\
    List.length us' = List.length us /\ keep (combine us' (map column ts)) = keep (combine us (map column ts)).
Proof.
  induction 1 as [|t u ts us G H IH]; intros ix; cbn [SgaEval.eval_terms map positions]; [exists []; auto|].
  destruct (IH (S ix)) as (us' & E & L & K).
  destruct (eval_term_ok t u G) as [(v & u' & C & E1 & ->)|(C & u' & E1)]; rewrite E1, E; cbn [bind fst snd]; rewrite C; eexists.
  - split; [reflexivity|]. cbn. rewrite K, L. auto.
  - split; [reflexivity|]. cbn. rewrite K, L. auto.
Qed.
End EvalFacts.
