(** C147: the picture of an expression tree. *)
From Coq Require Import Ascii DecimalString.
From Verif Require Import Base Trees AggregatorFacts Library LibraryFacts Tokens PropsTokens TreePlot.
Local Open Scope string_scope.
Local Open Scope list_scope.

(** ** Specification *)
(** [id] is a node of the picture labelled with the root of [t], and the arrows leaving it lead, in order, to its subtrees *)
Inductive shows (g : graph) : string -> tree string -> Prop :=
| shows_Nd id a cs ids : In (id, a) (g_nodes g) -> map snd (filter (fun e => String.eqb (fst e) id) (g_edges g)) = ids ->
    Forall2 (shows g) ids cs -> shows g id (Nd a cs).
Definition no_colon (s : string) : Prop := ~ In ":"%char (list_ascii_of_string s).

(** ** Facts *)
(** the tree a traversal stands for *)
Fixpoint as_pnode (t : tree string) : pnode := match t with Nd a cs => PNode a (map (fun c => Some (as_pnode c)) cs) end.
Fixpoint size {A} (t : tree A) : nat := match t with Nd _ cs => S (fold_right Nat.add 0 (map size cs)) end.
Lemma size_preorder {A} (t : tree A) : List.length (preorder t) = size t.
Proof.
  induction t as [a cs IH] using tree_ind'. cbn [preorder size List.length]. f_equal. induction IH as [|c cs H F IH]; cbn; [reflexivity|]. rewrite app_length, H, IH. reflexivity.
Qed.
Lemma build_tree_ok ar t : respects ar t -> forall fuel rest, size t <= fuel -> build ar fuel (preorder t ++ rest) = (Some (as_pnode t), rest).
Proof.
  induction t as [a cs IH] using tree_ind'. intros R fuel rest Hf. inversion R as [? ? L F]; subst. destruct fuel as [|f]; [cbn in Hf; lia|]. cbn [preorder app build].
  assert (K : forall k r, List.length cs = k -> (fix kids (k : nat) (r : list string) : list (option pnode) * list string :=
      match k with O => ([], r) | S k' => let (c, r1) := build ar f r in let (cs, r2) := kids k' r1 in (c :: cs, r2) end) k (flat_map preorder cs ++ r) = (map (fun c => Some (as_pnode c)) cs, r)).
  { clear L R. cbn [size] in Hf. assert (Hs : fold_right Nat.add 0 (map size cs) <= f) by lia. clear Hf. induction cs as [|c cs IHc]; intros k r Hk; subst k; [reflexivity|].
    cbn [List.length flat_map map]. inversion IH as [|? ? H1 H2]; subst. inversion F as [|? ? F1 F2]; subst. cbn [map fold_right] in Hs. rewrite <- app_assoc. rewrite (H1 F1) by lia. rewrite IHc; [reflexivity|exact H2|exact F2|lia|reflexivity]. }
  rewrite (K (ar a) rest L). reflexivity.
Qed.
Lemma app_str_assoc (a b c : string) : String.append (String.append a b) c = String.append a (String.append b c).
Proof. induction a; cbn; congruence. Qed.
Lemma split_last d1 : forall a b d2, ~ In "_"%char (list_ascii_of_string d1) -> ~ In "_"%char (list_ascii_of_string d2) ->
  String.append a (String.append "_" d1) = String.append b (String.append "_" d2) -> a = b /\ d1 = d2.
Proof.
  assert (IN : forall b s, In "_"%char (list_ascii_of_string (String.append b (String "_" s)))) by (induction b; cbn; auto).
  induction a as [|c a IH]; intros [|c' b] d2 N1 N2 E; cbn in E.
  - injection E as ->. auto.
  - exfalso. injection E as _ E. apply N1. rewrite E. apply IN.
  - exfalso. injection E as _ E. apply N2. rewrite <- E. apply IN.
  - injection E as -> E. destruct (IH b d2 N1 N2 E) as [-> ->]. auto.
Qed.
Lemma dec_no_underscore n : ~ In "_"%char (list_ascii_of_string (dec n)).
Proof. intros I. pose proof (dec_digits n) as F. rewrite Forall_forall in F. apply F in I. cbn in I. repeat (destruct I as [I|I]; [discriminate|]). exact I. Qed.
Lemma node_id_inj a b c d : node_id a c = node_id b d -> a = b /\ c = d.
Proof. unfold node_id. intros E. apply split_last in E; [|apply dec_no_underscore|apply dec_no_underscore]. destruct E as [-> E]. apply dec_inj in E. auto. Qed.
Lemma endpoint_id s : no_colon s -> endpoint s = s.
Proof.
  unfold no_colon. induction s as [|c s IH]; cbn [endpoint list_ascii_of_string]; intros N; [reflexivity|]. destruct (Ascii.eqb_spec c ":"%char) as [->|E]; [exfalso; apply N; left; reflexivity|].
  f_equal. apply IH. intros I. apply N. right. exact I.
Qed.
Lemma ascii_app a b : list_ascii_of_string (String.append a b) = list_ascii_of_string a ++ list_ascii_of_string b.
Proof. induction a; cbn; congruence. Qed.
Lemma node_id_no_colon a c : no_colon a -> no_colon (node_id a c).
Proof.
  unfold no_colon, node_id. rewrite !ascii_app. intros N I. apply in_app_or in I. destruct I as [I|I]; [tauto|]. cbn in I. destruct I as [I|I]; [discriminate|].
  pose proof (dec_digits c) as F. rewrite Forall_forall in F. apply F in I. cbn in I. repeat (destruct I as [I|I]; [discriminate|]). exact I.
Qed.
(** the nodes and edges a subtree adds *)
Fixpoint new_nodes (t : tree string) (c : nat) : list (string * string) :=
  match t with Nd a cs => (node_id a c, a) :: (fix all l c := match l with [] => [] | k :: l' => new_nodes k c ++ all l' (c + size k) end) cs (S c) end.
Fixpoint new_edges (t : tree string) (c : nat) : list (string * string) :=
  match t with Nd a cs => (fix all l c' := match l with [] => [] | (Nd b _ as k) :: l' => (node_id a c, node_id b c') :: new_edges k c' ++ all l' (c' + size k) end) cs (S c) end.
Definition label {A} (t : tree A) : A := match t with Nd a _ => a end.
Fixpoint nodes_of (l : list (tree string)) (c : nat) := match l with [] => [] | k :: l' => new_nodes k c ++ nodes_of l' (c + size k) end.
Fixpoint edges_of (p : string) (l : list (tree string)) (c : nat) := match l with [] => [] | k :: l' => (p, node_id (label k) c) :: new_edges k c ++ edges_of p l' (c + size k) end.
Lemma new_nodes_eq a cs c : new_nodes (Nd a cs) c = (node_id a c, a) :: nodes_of cs (S c).
Proof. reflexivity. Qed.
Lemma new_edges_eq a cs c : new_edges (Nd a cs) c = edges_of (node_id a c) cs (S c).
Proof. cbn [new_edges]. generalize (S c). generalize (node_id a c). intros p. induction cs as [|[b ks] cs IH]; intros n; cbn [edges_of label]; [reflexivity|]. rewrite IH. reflexivity. Qed.
Definition sizes {A} (l : list (tree A)) : nat := fold_right Nat.add 0 (map size l).
Lemma draw_ok t : Forall no_colon (preorder t) -> forall p g c, (forall q, p = Some q -> no_colon q) ->
  draw (as_pnode t) p g c = (mkGraph (g_nodes g ++ new_nodes t c) (g_edges g ++ match p with Some q => [(q, node_id (label t) c)] | None => [] end ++ new_edges t c), c + size t).
Proof.
  induction t as [a cs IH] using tree_ind'. intros NC p g c NP. inversion NC as [|? ? Na Ncs]; subst. rewrite new_nodes_eq, new_edges_eq. cbn [as_pnode draw label].
  rewrite (endpoint_id (node_id a c)) by (apply node_id_no_colon; exact Na).
  replace (match p with Some p0 => [(endpoint p0, node_id a c)] | None => [] end) with (match p with Some q => [(q, node_id a c)] | None => [] end) by (destruct p as [q|]; [rewrite (endpoint_id q) by (apply NP; reflexivity)|]; reflexivity).
  set (e0 := match p with Some q => [(q, node_id a c)] | None => [] end). set (id := node_id a c).
  assert (K : forall l g n, Forall (fun t => Forall no_colon (preorder t) -> forall p g c, (forall q, p = Some q -> no_colon q) ->
      draw (as_pnode t) p g c = (mkGraph (g_nodes g ++ new_nodes t c) (g_edges g ++ match p with Some q => [(q, node_id (label t) c)] | None => [] end ++ new_edges t c), c + size t)) l -> Forall no_colon (flat_map preorder l) ->
    (fix all (l : list (option pnode)) (g : graph) (c : nat) : graph * nat :=
         match l with [] => (g, c) | None :: l' => all l' g c | Some k :: l' => let (g', c') := draw k (Some id) g c in all l' g' c' end) (map (fun c => Some (as_pnode c)) l) g n =
    (mkGraph (g_nodes g ++ nodes_of l n) (g_edges g ++ edges_of id l n), n + sizes l)).
  { clear - Na. intros l. induction l as [|k l IHl]; intros g n F NC.
    - cbn. rewrite !app_nil_r. destruct g. cbn. f_equal. unfold sizes. cbn. lia.
    - cbn [map]. inversion F as [|? ? F1 F2]; subst. cbn [flat_map] in NC. apply Forall_app in NC. destruct NC as [NC1 NC2].
      rewrite (F1 NC1) by (intros q [= <-]; apply node_id_no_colon; exact Na). rewrite (IHl _ _ F2 NC2). cbn [g_nodes g_edges nodes_of edges_of app]. rewrite <- !app_assoc. cbn [app]. f_equal. unfold sizes. cbn. lia. }
  rewrite (K cs _ (S c) IH Ncs). cbn [g_nodes g_edges]. rewrite <- !app_assoc. cbn [app]. f_equal. unfold sizes. cbn [size]. lia.
Qed.
Definition src (id : string) (e : string * string) : bool := String.eqb (fst e) id.
Lemma edges_src_list l : Forall (fun t => forall c, Forall (fun e => exists x j, c <= j < c + size t /\ fst e = node_id x j) (new_edges t c)) l ->
  forall p n, Forall (fun e => fst e = p \/ exists x j, n <= j < n + sizes l /\ fst e = node_id x j) (edges_of p l n).
Proof.
  induction 1 as [|k l H F IH]; intros p n; cbn [edges_of]; constructor; [left; reflexivity|]. apply Forall_app. unfold sizes in *. cbn [map fold_right]. split.
  - generalize (H n). apply Forall_impl. intros e (x & j & Hj & E). right. exists x, j. split; [lia|exact E].
  - generalize (IH p (n + size k)). apply Forall_impl. intros e [E|(x & j & Hj & E)]; [left; exact E|]. right. exists x, j. split; [lia|exact E].
Qed.
Lemma edges_src t : forall c, Forall (fun e => exists x j, c <= j < c + size t /\ fst e = node_id x j) (new_edges t c).
Proof.
  induction t as [a cs IH] using tree_ind'. intros c. rewrite new_edges_eq. generalize (edges_src_list cs IH (node_id a c) (S c)). apply Forall_impl. cbn [size]. unfold sizes.
  intros e [E|(x & j & Hj & E)]; [exists a, c; split; [lia|exact E]|]. exists x, j. split; [lia|exact E].
Qed.
Lemma filter_none {A} (f : A -> bool) l : Forall (fun x => f x = false) l -> filter f l = [].
Proof. induction 1 as [|x l H F IH]; cbn; [reflexivity|]. rewrite H. exact IH. Qed.
Lemma src_other x j e y i : fst e = node_id y i -> i <> j -> src (node_id x j) e = false.
Proof. intros E N. unfold src. rewrite E. apply String.eqb_neq. intros Q. apply node_id_inj in Q. lia. Qed.
Lemma edges_of_src p l n : Forall (fun e => fst e = p \/ exists x j, n <= j < n + sizes l /\ fst e = node_id x j) (edges_of p l n).
Proof. apply edges_src_list. apply Forall_forall. intros t _. apply edges_src. Qed.
Fixpoint child_ids (l : list (tree string)) (n : nat) : list string := match l with [] => [] | k :: l' => node_id (label k) n :: child_ids l' (n + size k) end.
Lemma root_edges a c : forall l n, c < n -> map snd (filter (src (node_id a c)) (edges_of (node_id a c) l n)) = child_ids l n.
Proof.
  induction l as [|k l IH]; intros n Hn; cbn [edges_of child_ids]; [reflexivity|]. cbn [filter]. unfold src at 1. cbn [fst]. rewrite String.eqb_refl. cbn [map snd]. f_equal. rewrite filter_app.
  rewrite (filter_none _ (new_edges k n)); [apply IH; lia|]. generalize (edges_src k n). apply Forall_impl. intros e (x & j & Hj & E). eapply src_other; [exact E|lia].
Qed.
Lemma nodes_of_incl k l1 l2 g : forall n, incl (nodes_of (l1 ++ k :: l2) n) g -> incl (new_nodes k (n + sizes l1)) g.
Proof.
  induction l1 as [|x l1 IH]; intros n I; cbn [app nodes_of] in I.
  - unfold sizes. cbn. rewrite Nat.add_0_r. intros y Y. apply I. apply in_or_app. left. exact Y.
  - unfold sizes in *. cbn [map fold_right]. rewrite Nat.add_assoc. apply IH. intros y Y. apply I. apply in_or_app. right. exact Y.
Qed.
Lemma shows_ok t : forall c g, incl (new_nodes t c) (g_nodes g) -> (forall x j, c <= j < c + size t -> filter (src (node_id x j)) (g_edges g) = filter (src (node_id x j)) (new_edges t c)) ->
  shows g (node_id (label t) c) t.
Proof.
  induction t as [a cs IH] using tree_ind'. intros c g IN HE. rewrite new_nodes_eq in IN. rewrite new_edges_eq in HE. cbn [size] in HE. fold (sizes cs) in HE. cbn [label].
  apply (shows_Nd g (node_id a c) a cs (child_ids cs (S c))).
  - apply IN. left. reflexivity.
  - change (fun e : string * string => String.eqb (fst e) (node_id a c)) with (src (node_id a c)). rewrite (HE a c) by lia. apply root_edges. lia.
  - assert (G : forall l n, c < n -> Forall (fun t => forall c g, incl (new_nodes t c) (g_nodes g) -> (forall x j, c <= j < c + size t -> filter (src (node_id x j)) (g_edges g) = filter (src (node_id x j)) (new_edges t c)) -> shows g (node_id (label t) c) t) l ->
        incl (nodes_of l n) (g_nodes g) -> (forall x j, n <= j < n + sizes l -> filter (src (node_id x j)) (g_edges g) = filter (src (node_id x j)) (edges_of (node_id a c) l n)) -> Forall2 (shows g) (child_ids l n) l).
    { clear. induction l as [|k l IHl]; intros n Hn F IN HE; cbn [child_ids]; constructor.
      - inversion F as [|? ? F1 F2]; subst. apply F1.
        + intros y Y. apply IN. cbn [nodes_of]. apply in_or_app. left. exact Y.
        + intros x j Hj. rewrite HE by (unfold sizes; cbn [map fold_right]; lia). cbn [edges_of filter]. rewrite (src_other x j (node_id a c, node_id (label k) n) a c eq_refl) by lia. rewrite filter_app.
          rewrite (filter_none _ (edges_of _ l _)); [apply app_nil_r|]. generalize (edges_of_src (node_id a c) l (n + size k)). apply Forall_impl. intros e [E|(y & i & Hi & E)]; eapply src_other; try exact E; lia.
      - inversion F as [|? ? F1 F2]; subst. apply IHl; [lia|exact F2| |].
        + intros y Y. apply IN. cbn [nodes_of]. apply in_or_app. right. exact Y.
        + intros x j Hj. rewrite HE by (unfold sizes in *; cbn [map fold_right]; lia). cbn [edges_of filter]. rewrite (src_other x j (node_id a c, node_id (label k) n) a c eq_refl) by lia. rewrite filter_app.
          rewrite (filter_none _ (new_edges k n)); [reflexivity|]. generalize (edges_src k n). apply Forall_impl. intros e (y & i & Hi & E). eapply src_other; [exact E|lia]. }
    apply G; [lia|exact IH| |].
    + intros y Y. apply IN. right. exact Y.
    + intros x j Hj. apply HE. lia.
Qed.
Lemma new_nodes_list t : forall c, new_nodes t c = map (fun p => (node_id (fst p) (snd p), fst p)) (combine (preorder t) (seq c (size t))).
Proof.
  induction t as [a cs IH] using tree_ind'. intros c. rewrite new_nodes_eq. cbn [preorder size seq combine map fst snd]. f_equal. fold (sizes cs).
  generalize (S c). induction IH as [|k l H F IHl]; intros n; [reflexivity|]. cbn [nodes_of flat_map]. unfold sizes. cbn [map fold_right]. rewrite seq_app, H, IHl. fold (sizes l).
  assert (CA : forall A B (a1 : list A) (b1 : list B) a2 b2, List.length a1 = List.length b1 -> combine (a1 ++ a2) (b1 ++ b2) = combine a1 b1 ++ combine a2 b2) by (clear; induction a1; intros [|y b1] a2 b2 L; cbn in *; try discriminate; [reflexivity|]; f_equal; auto).
  rewrite CA by (rewrite seq_length; apply size_preorder). rewrite map_app. reflexivity.
Qed.
Lemma new_edges_count t : forall c, List.length (new_edges t c) = size t - 1.
Proof.
  induction t as [a cs IH] using tree_ind'. intros c. rewrite new_edges_eq. cbn [size]. fold (sizes cs). rewrite Nat.sub_1_r. cbn [Nat.pred]. generalize (S c). generalize (node_id a c). intros p.
  induction IH as [|k l H F IHl]; intros n; [reflexivity|]. cbn [edges_of List.length]. rewrite app_length, H, IHl. unfold sizes. cbn [map fold_right]. destruct k. cbn [size]. lia.
Qed.
Lemma combine_seq_NoDup (l : list string) : forall c, NoDup (map (fun p => node_id (fst p) (snd p)) (combine l (seq c (List.length l)))).
Proof.
  induction l as [|a l IH]; intros c; cbn [List.length seq combine map]; constructor; [|apply IH]. cbn [fst snd]. intros I. apply in_map_iff in I. destruct I as ((b, j) & E & I). cbn [fst snd] in E. apply node_id_inj in E. destruct E as [-> ->].
  apply in_combine_r in I. apply in_seq in I. lia.
Qed.

(** ** Theorems *)
(** The picture of a complete expression is the expression: one node per token with the token's text as label, arrows from each operator to its arguments in
    order, and nothing else, whatever was drawn before in the session and whatever follows the expression in the traversal. *)
Theorem C147_picture toks t extra c0 : respects (name_arity toks) t -> Forall no_colon (preorder t) ->
  exists g, tree_plot toks (preorder t ++ extra) c0 = (g, c0 + List.length (preorder t)) /\ (exists id, shows g id t) /\
    map snd (g_nodes g) = preorder t /\ NoDup (map fst (g_nodes g)) /\ S (List.length (g_edges g)) = List.length (preorder t).
Proof.
  intros R NC. unfold tree_plot. rewrite (build_tree_ok _ t R) by (rewrite app_length, size_preorder; lia). cbn [fst]. rewrite (draw_ok t NC) by discriminate. cbn [g_nodes g_edges app]. rewrite size_preorder.
  eexists. split; [reflexivity|]. cbn [g_nodes g_edges]. split; [|split; [|split]].
  - exists (node_id (label t) c0). apply shows_ok; [intros x X; exact X|reflexivity].
  - rewrite new_nodes_list, map_map. cbn [snd]. assert (CM : forall (l : list string) (m : list nat), List.length l = List.length m -> map (fun x => fst x) (combine l m) = l) by (induction l; intros [|y m] L; cbn in *; try discriminate; [reflexivity|]; f_equal; auto).
    apply CM. rewrite seq_length. apply size_preorder.
  - rewrite new_nodes_list, map_map. cbn [fst]. rewrite <- size_preorder. apply combine_seq_NoDup.
  - rewrite new_edges_count. destruct t. cbn [size]. lia.
Qed.
(** A picture with one node per identifier can be read in one way only: different expressions have different pictures. *)
Theorem C147_readable g id t t' : NoDup (map fst (g_nodes g)) -> shows g id t -> shows g id t' -> t = t'.
Proof.
  intros ND. revert id t'. induction t as [a cs IH] using tree_ind'. intros id t' S1 S2. inversion S1 as [? ? ? ids I1 E1 F1]; subst. inversion S2 as [? b ds ids2 I2 E2 F2]; subst.
  assert (a = b).
  { clear - ND I1 I2. induction (g_nodes g) as [|[k v] l IHl]; [destruct I1|]. cbn in ND. inversion ND as [|? ? N ND']; subst. destruct I1 as [E1|I1], I2 as [E2|I2]; [congruence| | |auto].
    - injection E1 as -> ->. exfalso. apply N. apply (in_map fst) in I2. exact I2.
    - injection E2 as -> ->. exfalso. apply N. apply (in_map fst) in I1. exact I1. }
  subst b. f_equal. clear S1 S2 I1 I2. revert ds F2. induction F1 as [|x c xs cs' H F IHF]; intros ds F2; inversion F2 as [|? d ? ds' H2 F2']; subst; [reflexivity|]. inversion IH as [|? ? IH1 IH2]; subst. f_equal; [eapply IH1; eassumption|]. apply IHF; assumption.
Qed.
(** For the programs of a library with distinct names (operators shown by name, constants possibly by a value that is no token's name). *)
Theorem C147_program toks lib t show extra c0 : make_library toks = Ok lib -> NoDup (map tname toks) -> respects (ar_of lib) t ->
  (forall i, In i (preorder t) -> exists tk, nth_error toks i = Some tk /\ no_colon (show i) /\ (show i = tname tk \/ (tarity tk = 0 /\ ~ In (show i) (map tname toks)))) ->
  exists g c, tree_plot toks (map show (preorder t) ++ extra) c0 = (g, c) /\ (exists id, shows g id (tmap show t)) /\ NoDup (map fst (g_nodes g)) /\ List.length (g_nodes g) = List.length (preorder t).
Proof.
  intros M ND R HS.
  assert (NA : forall tk, In tk toks -> name_arity toks (tname tk) = tarity tk).
  { intros tk I. unfold name_arity. destruct (find _ (rev toks)) as [x|] eqn:F.
    - apply find_some in F. destruct F as [Ix E]. apply String.eqb_eq in E. apply in_rev in Ix. apply In_nth_error in I. destruct I as (i & Hi). apply In_nth_error in Ix. destruct Ix as (j & Hj).
      assert (i = j). { apply (proj1 (NoDup_nth_error _) ND); [rewrite map_length; apply nth_error_Some; congruence|]. rewrite (map_nth_error tname _ _ Hi), (map_nth_error tname _ _ Hj). congruence. }
      subst j. congruence.
    - exfalso. apply in_rev in I. pose proof (find_none _ _ F tk I) as X. cbv beta in X. rewrite String.eqb_refl in X. discriminate. }
  assert (NN : forall s, ~ In s (map tname toks) -> name_arity toks s = 0).
  { intros s N. unfold name_arity. destruct (find _ (rev toks)) as [x|] eqn:F; [|reflexivity]. exfalso. apply find_some in F. destruct F as [Ix E]. apply String.eqb_eq in E. apply in_rev in Ix. apply N. rewrite <- E. apply in_map. exact Ix. }
  assert (PO : preorder (tmap show t) = map show (preorder t)).
  { clear. induction t as [a cs IH] using tree_ind'. cbn [tmap preorder map]. f_equal. induction IH as [|c cs H F IH]; cbn; [reflexivity|]. rewrite map_app, H, IH. reflexivity. }
  assert (RS : respects (name_arity toks) (tmap show t)).
  { clear PO. revert HS. induction t as [a cs IH] using tree_ind'. intros HS. inversion R as [? ? L F]; subst. cbn [tmap]. constructor.
    - rewrite map_length, L. destruct (HS a (or_introl eq_refl)) as (tk & Hk & _ & Sh). rewrite (ar_of_nth _ _ _ _ M Hk). destruct Sh as [->|[Z0 N]]; [symmetry; apply NA; eapply nth_error_In; exact Hk|]. rewrite Z0. symmetry. apply NN. exact N.
    - cbn [preorder] in HS. clear L R. induction cs as [|c cs IHc]; cbn [map]; constructor; inversion IH as [|? ? H1 H2]; subst; inversion F as [|? ? F1 F2]; subst.
      + apply H1; [exact F1|]. intros i I. apply HS. right. cbn [flat_map]. apply in_or_app. left. exact I.
      + apply IHc; [exact H2| |exact F2]. intros i I. apply HS. destruct I as [<-|I]; [left; reflexivity|right]. cbn [flat_map]. apply in_or_app. right. exact I. }
  assert (NC : Forall no_colon (preorder (tmap show t))).
  { rewrite PO. apply Forall_forall. intros s I. apply in_map_iff in I. destruct I as (i & <- & I). destruct (HS i I) as (tk & _ & X & _). exact X. }
  destruct (C147_picture toks (tmap show t) extra c0 RS NC) as (g & E & S0 & L0 & N0 & _). rewrite PO in E. exists g. eexists. split; [exact E|]. split; [exact S0|]. split; [exact N0|]. rewrite <- (map_length snd), L0, PO, map_length. reflexivity.
Qed.
(** When the first token's text is not a name of the library - as after switching the program to torch operators - the picture is that one node. *)
Theorem C147_foreign_refuted toks n rest c0 : ~ In n (map tname toks) -> exists id, tree_plot toks (n :: rest) c0 = (mkGraph [(id, n)] [], S c0).
Proof.
  intros N. assert (Z0 : name_arity toks n = 0).
  { unfold name_arity. destruct (find _ (rev toks)) as [x|] eqn:F; [|reflexivity]. exfalso. apply find_some in F. destruct F as [Ix E]. apply String.eqb_eq in E. apply in_rev in Ix. apply N. rewrite <- E. apply in_map. exact Ix. }
  unfold tree_plot. cbn [List.length build]. rewrite Z0. cbn. eauto.
Qed.
Definition ex_toks : list token := match create_tokens no_numbers 1 ["add"; "mul"; "diff"; "const"] true true 1 1 ["nu"] with Ok l => map fst l | Err _ => [] end.
Example C147_picture_case : exists g, tree_plot ex_toks ["add"; "mul"; "nu"; "u1"; "diff"; "u1"; "x1"] 5 = (g, 12) /\ List.length (g_nodes g) = 7 /\
  g_edges g = [("add_5", "mul_6"); ("mul_6", "nu_7"); ("mul_6", "u1_8"); ("add_5", "diff_9"); ("diff_9", "u1_10"); ("diff_9", "x1_11")].
Proof. eexists. split; [vm_compute; reflexivity|]. split; reflexivity. Qed.
Example C147_torch_case : exists g, tree_plot ex_toks ["add_t"; "u1"; "u1"] 0 = (g, 1) /\ List.length (g_nodes g) = 1.
Proof. eexists. split; [vm_compute; reflexivity|]. reflexivity. Qed.
(** A parameter whose name has a colon loses its arrow: it leads to a node that was never labelled. *)
Example C147_colon_refuted : exists g, tree_plot (match create_tokens no_numbers 1 ["add"] true true 1 1 ["k:1"] with Ok l => map fst l | Err _ => [] end) ["add"; "k:1"; "u1"] 0 = (g, 3) /\
  map fst (g_nodes g) = ["add_0"; "k:1_1"; "u1_2"] /\ g_edges g = [("add_0", "k"); ("add_0", "u1_2")].
Proof. eexists. split; [vm_compute; reflexivity|]. split; reflexivity. Qed.
Print Assumptions C147_picture.
Print Assumptions C147_readable.
Print Assumptions C147_program.
Print Assumptions C147_foreign_refuted.
