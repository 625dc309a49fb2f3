(** Facts about SGA trees: generation and mutation. *)
From Verif Require Import Base Trees SgaTree SgaSpec.

Section Facts.
Variable c : sctx.
Hypothesis Hc : ctx_ok c.

Inductive feeds : nat -> list node -> list node -> Prop :=
| feeds_nil i : feeds i [] []
| feeds_cons i n L chunk rest : Forall (fun k => npar k = i) chunk -> family c (nent n) (map nent chunk) ->
    feeds (S i) L rest -> feeds i (n :: L) (chunk ++ rest).
Fixpoint starts (acc : nat) (L : list node) : Prop :=
  match L with [] => True | n :: L' => (0 < nar n -> nst n = Some acc) /\ starts (acc + nar n) L' end.
Fixpoint wf_levels (ls : list (list node)) : Prop :=
  match ls with [] => True | L :: rest => starts 0 L /\ feeds 0 L (hd [] rest) /\ wf_levels rest end.
Fixpoint sumar (L : list node) : nat := match L with [] => 0 | n :: L' => nar n + sumar L' end.
Lemma sumar_app L1 L2 : sumar (L1 ++ L2) = sumar L1 + sumar L2.
Proof. induction L1; cbn; lia. Qed.

Fixpoint attach (L : list node) (F : list (tree ent)) : list (tree ent) :=
  match L with [] => [] | n :: L' => Nd (nent n) (firstn (nar n) F) :: attach L' (skipn (nar n) F) end.
Fixpoint build (ls : list (list node)) : list (tree ent) :=
  match ls with [] => [] | L :: rest => attach L (build rest) end.

Lemma vars_ar e : In e (c_vars c) -> ear e = 0.
Proof. destruct Hc as (H & _). rewrite Forall_forall in H. apply H. Qed.
Lemma ops_ar e : In e OPS -> ear e = 1 \/ ear e = 2.
Proof. cbn. intuition (subst; cbn; auto). Qed.

Lemma attach_root L : forall F, map root_of (attach L F) = map nent L.
Proof. induction L as [|n L IH]; intros F; cbn; [reflexivity|]. now rewrite IH. Qed.
Lemma attach_length L F : List.length (attach L F) = List.length L.
Proof. rewrite <- (map_length root_of), attach_root, map_length. reflexivity. Qed.
Lemma build_root ls : map root_of (build ls) = map nent (hd [] ls).
Proof. destruct ls; [reflexivity|]. apply attach_root. Qed.
Lemma build_length ls : List.length (build ls) = List.length (hd [] ls).
Proof. rewrite <- (map_length root_of), build_root, map_length. reflexivity. Qed.

Lemma feeds_length i L L' : feeds i L L' -> List.length L' = sumar L.
Proof.
  induction 1 as [|i n L chunk rest H1 H2 H3 IH]; [reflexivity|].
  rewrite app_length, IH. destruct H2 as [H2 _]. rewrite map_length in H2. cbn [sumar]. lia.
Qed.
Lemma map_firstn_app {A B} (f : A -> B) (F : list A) l1 l2 n : map f F = l1 ++ l2 -> List.length l1 = n ->
  map f (firstn n F) = l1 /\ map f (skipn n F) = l2.
Proof.
  intros E <-. rewrite <- (firstn_map f), <- (skipn_map f), E. split.
  - rewrite firstn_app, Nat.sub_diag, firstn_all. cbn. apply app_nil_r.
  - rewrite skipn_app, Nat.sub_diag, skipn_all. reflexivity.
Qed.
Lemma Forall_firstn {A} (P : A -> Prop) n l : Forall P l -> Forall P (firstn n l).
Proof. intros H. rewrite <- (firstn_skipn n l) in H. apply Forall_app in H. tauto. Qed.
Lemma Forall_skipn {A} (P : A -> Prop) n l : Forall P l -> Forall P (skipn n l).
Proof. intros H. rewrite <- (firstn_skipn n l) in H. apply Forall_app in H. tauto. Qed.

Lemma attach_ok i L L' : feeds i L L' -> forall F, map root_of F = map nent L' -> Forall (term_ok c) F ->
  Forall (term_ok c) (attach L F).
Proof.
  induction 1 as [|i n L chunk rest H1 H2 H3 IH]; intros F EF HF; cbn; [constructor|].
  rewrite map_app in EF. pose proof (proj1 H2) as Hl.
  destruct (map_firstn_app root_of F _ _ (nar n) EF Hl) as [E1 E2].
  constructor.
  - constructor; [now rewrite E1|]. now apply Forall_firstn.
  - apply IH; [assumption|]. now apply Forall_skipn.
Qed.
Lemma build_ok ls : wf_levels ls -> Forall (term_ok c) (build ls).
Proof.
  induction ls as [|L rest IH]; cbn; [constructor|]. intros (H1 & H2 & H3).
  eapply attach_ok; [exact H2| |auto]. apply build_root.
Qed.

(** children of the i-th tree *)
Lemma attach_nth L : forall F i n, nth_error L i = Some n ->
  nth_error (attach L F) i = Some (Nd (nent n) (firstn (nar n) (skipn (sumar (firstn i L)) F))).
Proof.
  induction L as [|m L IH]; intros F [|i] n E; cbn in *; try discriminate.
  - injection E as <-. reflexivity.
  - rewrite (IH _ _ _ E). do 3 f_equal. rewrite Nat.add_comm.
    generalize (sumar (firstn i L)) as k. intros k.
    clear. revert F. generalize (nar m) as a. intros a. induction a as [|a IHa]; intros F; cbn; [now rewrite Nat.add_0_r|].
    rewrite Nat.add_succ_r. destruct F; cbn; [now rewrite skipn_nil|]. apply IHa.
Qed.
Lemma starts_nth L : forall acc i n, starts acc L -> nth_error L i = Some n -> 0 < nar n -> nst n = Some (acc + sumar (firstn i L)).
Proof.
  induction L as [|m L IH]; intros acc [|i] n H E Hn; cbn in *; try discriminate; destruct H as [H1 H2].
  - injection E as <-. rewrite (H1 Hn). f_equal. lia.
  - rewrite (IH _ _ _ H2 E Hn). f_equal. lia.
Qed.
Lemma firstn_nth_error {A} (l : list A) : forall a k, k < a -> nth_error (firstn a l) k = nth_error l k.
Proof.
  induction l as [|x l IH]; intros [|a] [|k] H; cbn; auto; try lia. apply IH. lia.
Qed.
Lemma skipn_nth_error {A} (l : list A) : forall a k, nth_error (skipn a l) k = nth_error l (a + k).
Proof. induction l as [|x l IH]; intros [|a] k; cbn; auto; now destruct k. Qed.
Lemma mapM_ok {A B} (f : A -> res B) (g : A -> B) l : (forall x, In x l -> f x = Ok (g x)) -> mapM f l = Ok (map g l).
Proof.
  induction l as [|x l IH]; intros H; cbn; [reflexivity|]. rewrite (H x) by now left. cbn. rewrite IH; [reflexivity|].
  intros y Hy. apply H. now right.
Qed.
Lemma mapM_seq {A B} (f : nat -> res B) (g : A -> B) l : forall s,
  (forall k x, nth_error l k = Some x -> f (s + k) = Ok (g x)) -> mapM f (seq s (List.length l)) = Ok (map g l).
Proof.
  induction l as [|x l IH]; intros s H; cbn; [reflexivity|].
  rewrite <- (Nat.add_0_r s) at 1. rewrite (H 0 x eq_refl). cbn. rewrite (IH (S s)); [reflexivity|].
  intros k y E. specialize (H (S k) y E). now replace (S s + k) with (s + S k) by lia.
Qed.

Lemma dfs_build ls : wf_levels ls -> forall i t, nth_error (build ls) i = Some t -> dfs ls i = Ok (map ename (preorder t)).
Proof.
  induction ls as [|L rest IH]; intros Hw i t E; [destruct i; discriminate|].
  destruct Hw as (H1 & H2 & H3). cbn [build] in E.
  assert (exists n, nth_error L i = Some n) as [n En].
  { destruct (nth_error L i) eqn:X; [eauto|]. apply nth_error_None in X.
    assert (nth_error (attach L (build rest)) i <> None) as Y by congruence. apply nth_error_Some in Y. rewrite attach_length in Y. lia. }
  rewrite (attach_nth _ _ _ _ En) in E. injection E as <-. cbn [dfs]. rewrite En.
  set (F := skipn (sumar (firstn i L)) (build rest)).
  assert (List.length (firstn (nar n) F) = nar n) as Hlen.
  { rewrite firstn_length. unfold F. rewrite skipn_length, build_length.
    pose proof (feeds_length _ _ _ H2) as E2. rewrite E2. apply Nat.min_l.
    pose proof (firstn_skipn i L) as Q. apply (f_equal sumar) in Q. rewrite sumar_app in Q.
    enough (nar n <= sumar (skipn i L)) by lia.
    rewrite <- (Nat.add_0_r i), <- skipn_nth_error in En. destruct (skipn i L); [discriminate|]. injection En as ->. cbn. lia. }
  destruct (Nat.eq_dec (nar n) 0) as [Z|NZ].
  - rewrite Z. cbn [seq mapM firstn]. destruct (nst n); reflexivity.
  - rewrite (starts_nth _ _ _ _ H1 En) by lia. cbn [Nat.add].
    replace (seq 0 (nar n)) with (seq 0 (List.length (firstn (nar n) F))) by now rewrite Hlen. rewrite (mapM_seq _ (fun t => map ename (preorder t))); cbn [bind].
    + cbn [preorder map]. do 2 f_equal. generalize (firstn (nar n) F) as G. induction G as [|x G IHG]; cbn; [reflexivity|].
      rewrite IHG, map_app. reflexivity.
    + intros k x E. cbn [Nat.add]. apply IH; [assumption|].
      assert (k < nar n) as Hk by (rewrite <- Hlen; apply nth_error_Some; congruence).
      rewrite firstn_nth_error in E by assumption. unfold F in E. rewrite skipn_nth_error in E. exact E.
Qed.

Lemma attach_flat {B} (g : list (tree ent) -> list B) (Hg0 : g [] = []) (Hg : forall a b, g (a ++ b) = g a ++ g b) i L L' :
  feeds i L L' -> forall F, List.length F = List.length L' -> flat_map (fun t => g (kids_of t)) (attach L F) = g F.
Proof.
  induction 1 as [|i n L chunk rest H1 H2 H3 IH]; intros F E; cbn.
  - destruct F; [now rewrite Hg0|discriminate].
  - rewrite IH. { rewrite <- Hg. now rewrite firstn_skipn. }
    rewrite skipn_length, E, app_length. pose proof (proj1 H2) as Q. rewrite map_length in Q. lia.
Qed.
Lemma build_level ls : wf_levels ls -> forall k, flat_map (level k) (build ls) = map nent (nth k ls []).
Proof.
  induction ls as [|L rest IH]; intros Hw k; cbn [build]; [now destruct k|]. destruct Hw as (H1 & H2 & H3).
  destruct k as [|k]; cbn [nth].
  - rewrite <- (attach_root L (build rest)). generalize (attach L (build rest)) as G.
    induction G as [|[a cs] G IHG]; [reflexivity|]. cbn [flat_map map]. rewrite IHG. reflexivity.
  - rewrite <- (IH H3 k). rewrite <- (attach_flat (flat_map (level k)) eq_refl (flat_map_app (level k)) 0 L _ H2) by apply build_length.
    apply flat_map_ext. now intros [a cs].
Qed.
Lemma fold_max_le l m : Forall (fun x => x <= m) l -> fold_right Nat.max 0 l <= m.
Proof. induction 1; cbn; lia. Qed.
Lemma build_height ls : Forall (fun t => height t <= List.length ls) (build ls).
Proof.
  induction ls as [|L rest IH]; cbn [build List.length]; [constructor|].
  revert IH. generalize (build rest) as F. induction L as [|n L IHL]; intros F HF; cbn [attach]; [constructor|].
  constructor.
  - cbn [height]. apply le_n_S. apply fold_max_le. rewrite Forall_map. now apply Forall_firstn.
  - apply IHL. now apply Forall_skipn.
Qed.

(** *** Infix notation *)
Lemma set_at_app {A} (l1 : list A) x l2 y : set_at (l1 ++ x :: l2) (List.length l1) y = l1 ++ y :: l2.
Proof. induction l1; cbn; congruence. Qed.
Lemma nth_error_mid {A} (l1 : list A) x l2 : nth_error (l1 ++ x :: l2) (List.length l1) = Some x.
Proof. induction l1; cbn; auto. Qed.
Lemma merge_level_app L kids1 kids2 : forall W, merge_level L W (kids1 ++ kids2) = do w <- merge_level L W kids1 ; merge_level L w kids2.
Proof.
  induction kids1 as [|[k [s z]] kids IH]; intros W; cbn [app merge_level bind]; [reflexivity|].
  destruct (z =? 0)%Z; [|apply IH]. destruct (nth_error L (npar k)), (nth_error W (npar k)); cbn [bind]; auto.
Qed.
Lemma sapp_assoc (a b d : string) : ((a ++ b) ++ d = a ++ (b ++ d))%string.
Proof. induction a; cbn; congruence. Qed.
Lemma merge_1 e s child : ear e = 1 -> merge_into e (s, Z.of_nat 1) child = (("( " ++ s ++ " " ++ child ++ ")")%string, 0%Z).
Proof. intros E. unfold merge_into. rewrite E. reflexivity. Qed.
Lemma merge_2 e s child : merge_into e (s, Z.of_nat 2) child = (("(" ++ child ++ " " ++ s)%string, 1%Z).
Proof. reflexivity. Qed.
Lemma merge_3 e s child : ear e = 2 -> merge_into e (s, 1%Z) child = ((s ++ " " ++ child ++ ")")%string, 0%Z).
Proof. intros E. unfold merge_into. rewrite E. reflexivity. Qed.
Definition done (t : tree ent) : string * Z := (infix t, 0%Z).
Lemma merge_chunk n chunk cs pre post preW postW :
  family c (nent n) (map nent chunk) -> Forall (fun k => npar k = List.length pre) chunk -> List.length preW = List.length pre ->
  map root_of cs = map nent chunk ->
  merge_level (pre ++ n :: post) (preW ++ (nname n, Z.of_nat (nar n)) :: postW) (combine chunk (map done cs)) =
  Ok (preW ++ done (Nd (nent n) cs) :: postW).
Proof.
  intros (F1 & F2 & F3 & F4) Hp HW Er.
  assert (List.length cs = List.length chunk) as El by (rewrite <- (map_length root_of), Er, map_length; reflexivity).
  rewrite map_length in F1.
  destruct chunk as [|k1 chunk].
  { destruct cs; [|discriminate]. cbn. rewrite <- F1. reflexivity. }
  specialize (F3 ltac:(discriminate)). pose proof (ops_ar _ F3) as Ha. inversion Hp as [|? ? P1 Hp']; subst.
  destruct chunk as [|k2 chunk].
  - destruct cs as [|a [|? ?]]; try discriminate. cbn [map combine merge_level done]. rewrite P1.
    rewrite nth_error_mid, <- HW, nth_error_mid. cbn [List.length] in F1. rewrite <- F1.
    change (0 =? 0)%Z with true. cbv iota. rewrite merge_1, set_at_app by congruence. reflexivity.
  - destruct chunk as [|? ?]; [|cbn in F1; lia]. destruct cs as [|a [|b [|? ?]]]; try discriminate.
    cbn [List.length] in F1. inversion Hp' as [|? ? P2 _]; subst. cbn [map combine merge_level done]. rewrite P1, P2.
    rewrite !nth_error_mid, <- HW, !nth_error_mid. rewrite <- F1.
    change (0 =? 0)%Z with true. cbv iota. rewrite merge_2, set_at_app, nth_error_mid, merge_3, set_at_app by congruence.
    cbn [merge_level]. unfold done. cbn [infix]. now rewrite !sapp_assoc.
Qed.
Lemma combine_app {A B} (a1 : list A) : forall (b1 : list B) a2 b2, List.length a1 = List.length b1 ->
  combine (a1 ++ a2) (b1 ++ b2) = combine a1 b1 ++ combine a2 b2.
Proof. induction a1; intros [|? b1] ? ? E; cbn in *; try discriminate; [reflexivity|]. f_equal. apply IHa1. lia. Qed.
Lemma merge_feeds L L' i : feeds i L L' -> forall pre preW F, List.length pre = i -> List.length preW = i ->
  map root_of F = map nent L' ->
  merge_level (pre ++ L) (preW ++ merge_init L) (combine L' (map done F)) = Ok (preW ++ map done (attach L F)).
Proof.
  induction 1 as [i|i n L chunk rest H1 H2 H3 IH]; intros pre preW F Hp HW EF.
  - destruct F; [|discriminate]. reflexivity.
  - rewrite map_app in EF. pose proof (proj1 H2) as Hl. destruct (map_firstn_app root_of F _ _ (nar n) EF Hl) as [E1 E2].
    rewrite <- (firstn_skipn (nar n) F) at 1. rewrite map_app.
    rewrite combine_app by (rewrite map_length, <- (map_length root_of), E1, map_length; reflexivity).
    rewrite merge_level_app. change (merge_init (n :: L)) with ((nname n, Z.of_nat (nar n)) :: merge_init L). rewrite (merge_chunk n chunk (firstn (nar n) F) pre L preW (merge_init L)); auto; try congruence.
    2:{ now rewrite Hp. }
    cbn [bind attach map]. specialize (IH (pre ++ [n]) (preW ++ [done (Nd (nent n) (firstn (nar n) F))]) (skipn (nar n) F)).
    rewrite !app_length in IH. cbn in IH. rewrite <- !app_assoc in IH. cbn [app] in IH. apply IH; auto; lia.
Qed.
Lemma merge_build ls : wf_levels ls -> ls <> [] -> merge_levels ls = Ok (map done (build ls)).
Proof.
  induction ls as [|L rest IH]; intros Hw Hne; [congruence|]. destruct Hw as (H1 & H2 & H3). cbn [merge_levels].
  destruct rest as [|L' rest'].
  - cbn [hd] in H2. pose proof (merge_feeds _ _ _ H2 [] [] [] eq_refl eq_refl eq_refl) as E. cbn in E. cbn [build]. exact E.
  - rewrite IH by (auto; discriminate). cbn [bind]. cbn [hd] in H2.
    apply (merge_feeds _ _ _ H2 [] [] (build (L' :: rest')) eq_refl eq_refl). apply build_root.
Qed.
Lemma finish_ok n rest : wf_levels ([n] :: rest) ->
  exists s t, finish ([n] :: rest) = Ok s /\ t_levels s = [n] :: rest /\ stores s t /\ term_ok c t /\
     height t <= S (List.length rest) /\ root_of t = nent n.
Proof.
  intros Hw. pose proof (build_ok _ Hw) as B. pose proof (build_height ([n] :: rest)) as Hh.
  set (t := Nd (nent n) (firstn (nar n) (build rest))).
  assert (build ([n] :: rest) = [t]) as Eb by reflexivity. rewrite Eb in *.
  unfold finish, inorder. rewrite (dfs_build _ Hw 0 t) by (now rewrite Eb). rewrite merge_build by (auto; discriminate).
  rewrite Eb. cbn [bind map done]. inversion B; subst. inversion Hh; subst.
  eexists _, t. split; [reflexivity|]. split; [reflexivity|]. split; [|auto].
  split; [|split; reflexivity]. intros k. cbn [t_levels]. rewrite <- (build_level _ Hw k), Eb. cbn. apply app_nil_r.
Qed.
End Facts.
