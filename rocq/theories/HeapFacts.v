(** Proofs about the heapq model and UniquePriorityQueue. *)
From Verif Require Import Base Memory MemoryFacts.
From Coq Require Import Permutation Sorted.

Section Upd.
Context {A : Type} (dft : A).
Notation get := (get dft).
Lemma upd_length (h : list A) i x : List.length (upd h i x) = List.length h.
Proof. revert i. induction h as [|y h IH]; intros [|i]; cbn [upd List.length]; auto. Qed.
Lemma get_upd_eq (h : list A) i x : i < List.length h -> get (upd h i x) i = x.
Proof. revert i. induction h as [|y h IH]; intros [|i] H; cbn [upd List.length] in *; try lia; [reflexivity|]. unfold Memory.get in *. cbn [nth]. apply IH. lia. Qed.
Lemma get_upd_ne (h : list A) i j x : i <> j -> get (upd h i x) j = get h j.
Proof.
  revert i j. induction h as [|y h IH]; intros [|i] [|j] H; cbn [upd]; try reflexivity; try congruence.
  unfold Memory.get in *. cbn [nth]. apply IH. congruence.
Qed.
Lemma upd_upd (h : list A) i x y : upd (upd h i x) i y = upd h i y.
Proof. revert i. induction h as [|z h IH]; intros [|i]; cbn [upd]; auto. f_equal. apply IH. Qed.
Lemma upd_get (h : list A) i : upd h i (get h i) = h.
Proof. revert i. induction h as [|z h IH]; intros [|i]; cbn [upd]; auto. f_equal. apply IH. Qed.
Lemma upd_perm (h : list A) i x : i < List.length h -> Permutation (get h i :: upd h i x) (x :: h).
Proof.
  revert i. induction h as [|y h IH]; intros [|i] H; cbn [upd List.length] in *; try lia.
  - apply perm_swap.
  - unfold Memory.get in *. cbn [nth]. etransitivity; [apply perm_swap|]. etransitivity; [apply perm_skip, IH; lia|]. apply perm_swap.
Qed.
Lemma swap_perm (h : list A) i j x : i <> j -> i < List.length h -> j < List.length h ->
  Permutation (upd (upd h i (get h j)) j x) (upd h i x).
Proof.
  intros Hne Hi Hj. set (g := upd h i (get h j)).
  assert (get g j = get h j) as Eg by (unfold g; apply get_upd_ne; exact Hne).
  pose proof (upd_perm g j x) as P1. unfold g in P1 at 1. rewrite upd_length in P1. specialize (P1 Hj). rewrite Eg in P1.
  pose proof (upd_perm h i (get h j) Hi) as P2. fold g in P2.
  pose proof (upd_perm h i x Hi) as P3.
  apply Permutation_cons_inv with (a := get h i). apply Permutation_cons_inv with (a := get h j).
  rewrite perm_swap, P1, perm_swap, P2, P3. apply perm_swap.
Qed.
End Upd.

Definition par (i : nat) := (i - 1) / 2.
Lemma par_lt i : 0 < i -> par i < i.
Proof. intros H. unfold par. apply Nat.div_lt_upper_bound; lia. Qed.
Lemma par_children i p : 0 < i -> par i = p -> i = 2 * p + 1 \/ i = 2 * p + 2.
Proof. intros H <-. unfold par. pose proof (Nat.div_mod (i - 1) 2). pose proof (Nat.mod_upper_bound (i - 1) 2). lia. Qed.
Lemma par_left p : par (2 * p + 1) = p.
Proof. unfold par. replace (2 * p + 1 - 1) with (p * 2) by lia. apply Nat.div_mul. lia. Qed.
Lemma par_right p : par (2 * p + 2) = p.
Proof. unfold par. symmetry. apply (Nat.div_unique _ 2 p 1); lia. Qed.

Section Heap.
Context {A : Type} (dft : A) (lt : A -> A -> bool).
Notation get := (get dft).
Definition le (a b : A) : Prop := lt b a = false.
Hypothesis lt_irr : forall a, lt a a = false.
Hypothesis lt_asym : forall a b, lt a b = true -> lt b a = false.
Hypothesis le_trans : forall a b c, le a b -> le b c -> le a c.

Definition heap (h : list A) : Prop := forall i, 0 < i < List.length h -> le (get h (par i)) (get h i).
Definition heap_except (h : list A) (pos : nat) : Prop :=
  (forall i, 0 < i < List.length h -> i <> pos -> le (get h (par i)) (get h i)) /\
  (forall i, 0 < i < List.length h -> par i = pos -> 0 < pos -> le (get h (par pos)) (get h i)).
Definition hole (h : list A) (pos : nat) : Prop :=
  (forall i, 0 < i < List.length h -> i <> pos -> par i <> pos -> le (get h (par i)) (get h i)) /\
  (forall i, 0 < i < List.length h -> par i = pos -> 0 < pos -> le (get h (par pos)) (get h i)).

Lemma siftdown_loop_ok : forall fuel h pos new, pos < List.length h -> pos <= fuel ->
  heap_except (upd h pos new) pos ->
  heap (siftdown_loop dft lt fuel h pos new) /\ Permutation (siftdown_loop dft lt fuel h pos new) (upd h pos new).
Proof.
  induction fuel as [|f IH]; intros h pos new Hp Hf [H1 H2]; cbn [siftdown_loop].
  - assert (pos = 0) as -> by lia. split; [|reflexivity]. intros i Hi. apply H1; [exact Hi|lia].
  - destruct (Nat.ltb_spec 0 pos) as [Hpos|Hz].
    2:{ assert (pos = 0) as -> by lia. split; [|reflexivity]. intros i Hi. apply H1; [exact Hi|lia]. }
    fold (par pos). pose proof (par_lt pos Hpos) as Hpp.
    destruct (lt new (get h (par pos))) eqn:El.
    2:{ split; [|reflexivity]. intros i Hi. destruct (Nat.eq_dec i pos) as [->|Hne]; [|apply H1; assumption].
        rewrite (get_upd_ne dft h pos (par pos)) by lia. rewrite (get_upd_eq dft) by exact Hp. exact El. }
    set (h' := upd h pos (get h (par pos))).
    assert (List.length h' = List.length h) as L' by apply upd_length.
    assert (forall i, i <> pos -> i <> par pos -> get (upd h' (par pos) new) i = get h i) as G1.
    { intros i A1 A2. rewrite get_upd_ne by auto. unfold h'. rewrite get_upd_ne by auto. reflexivity. }
    assert (get (upd h' (par pos) new) (par pos) = new) as G2 by (apply get_upd_eq; lia).
    assert (get (upd h' (par pos) new) pos = get h (par pos)) as G3.
    { rewrite get_upd_ne by lia. unfold h'. apply get_upd_eq. exact Hp. }
    assert (forall i, i <> pos -> get (upd h pos new) i = get h i) as G4 by (intros; apply get_upd_ne; auto).
    rewrite upd_length in H1, H2.
    destruct (IH h' (par pos) new) as [A1 A2]; [lia|lia| |].
    + split; intros i Hi; rewrite upd_length, L' in Hi.
      * intros Hne. destruct (Nat.eq_dec i pos) as [->|Hnp].
        { rewrite G2, G3. unfold le. apply lt_asym. exact El. }
        rewrite (G1 i Hnp Hne). destruct (Nat.eq_dec (par i) pos) as [Ep|Np].
        { rewrite Ep, G3. pose proof (H2 i Hi Ep Hpos) as B. rewrite !G4 in B by lia. exact B. }
        pose proof (H1 i Hi Hnp) as B. rewrite (G4 i Hnp), (G4 (par i) Np) in B.
        destruct (Nat.eq_dec (par i) (par pos)) as [Epp|Npp].
        { rewrite Epp, G2. rewrite Epp in B. eapply le_trans; [|exact B]. unfold le. apply lt_asym. exact El. }
        rewrite G1 by assumption. exact B.
      * intros Ep Hpp0. destruct (Nat.eq_dec i pos) as [->|Hnp].
        { rewrite G3. pose proof (par_lt (par pos) Hpp0). rewrite G1 by lia.
          pose proof (H1 (par pos)) as B. rewrite !G4 in B by lia. apply B; lia. }
        pose proof (par_lt (par pos) Hpp0) as Hq. pose proof (par_lt i ltac:(lia)) as Hpi.
        rewrite G1 by lia. rewrite G1 by lia.
        pose proof (H1 i Hi Hnp) as B. rewrite Ep, (G4 i Hnp), (G4 (par pos) ltac:(lia)) in B.
        pose proof (H1 (par pos)) as B2. rewrite !G4 in B2 by lia. eapply le_trans; [apply B2; lia|exact B].
    + split; [exact A1|]. rewrite A2. unfold h'. apply swap_perm; lia.
Qed.

Lemma siftdown_ok h pos : pos < List.length h -> heap_except h pos ->
  heap (siftdown dft lt h pos) /\ Permutation (siftdown dft lt h pos) h.
Proof.
  intros Hp He. unfold siftdown. pose proof (siftdown_loop_ok pos h pos (get h pos) Hp (Nat.le_refl _)) as X.
  rewrite upd_get in X. apply X. exact He.
Qed.

Lemma siftup_loop_ok : forall fuel h pos new, pos < List.length h -> List.length h <= fuel + pos -> hole h pos ->
  exists h1 p1, siftup_loop dft lt fuel h pos new = (h1, p1) /\ p1 < List.length h1 /\
    heap_except h1 p1 /\ Permutation h1 (upd h pos new).
Proof.
  induction fuel as [|f IH]; intros h pos new Hp Hf [H1 H2]; cbn [siftup_loop]; [lia|].
  replace (pos + (pos + 0) + 1) with (2 * pos + 1) by lia.
  destruct (Nat.ltb_spec (2 * pos + 1) (List.length h)) as [Hc|Hc].
  2:{ eexists _, _. split; [reflexivity|]. rewrite upd_length. split; [exact Hp|]. split; [|reflexivity].
      split; intros i Hi; rewrite upd_length in Hi.
      - intros Hne. assert (par i <> pos) as Hn by (intros E; destruct (par_children i pos ltac:(lia) E); lia).
        rewrite !get_upd_ne by auto. apply H1; assumption.
      - intros E. destruct (par_children i pos ltac:(lia) E); lia. }
  set (c := 2 * pos + 1) in *.
  set (cp := if Nat.ltb (c + 1) (List.length h) && negb (lt (get h c) (get h (c + 1))) then c + 1 else c).
  assert ((cp = c \/ cp = c + 1) /\ cp < List.length h) as [Hcp Hcl].
  { unfold cp. destruct (Nat.ltb_spec (c + 1) (List.length h)); cbn [andb]; [|lia]. destruct (negb _); lia. }
  assert (par cp = pos) as Ppar.
  { destruct Hcp as [-> | ->]; unfold c; [apply par_left|]. replace (2 * pos + 1 + 1) with (2 * pos + 2) by lia. apply par_right. }
  assert (forall i, 0 < i < List.length h -> par i = pos -> le (get h cp) (get h i)) as Hmin.
  { intros i Hi E. destruct (par_children i pos ltac:(lia) E) as [Ei|Ei].
    - fold c in Ei. subst i. unfold cp. destruct (Nat.ltb (c + 1) (List.length h)); cbn [andb]; [|apply lt_irr].
      destruct (lt (get h c) (get h (c + 1))) eqn:El; cbn [negb]; [apply lt_irr|exact El].
    - assert (i = c + 1) as -> by (unfold c; lia). unfold cp.
      destruct (Nat.ltb_spec (c + 1) (List.length h)); cbn [andb]; [|lia].
      destruct (lt (get h c) (get h (c + 1))) eqn:El; cbn [negb]; [apply lt_asym; exact El|apply lt_irr]. }
  assert (cp <> pos) as Hnp by lia.
  destruct (IH (upd h pos (get h cp)) cp new) as (h1 & p1 & E1 & L1 & X1 & P1).
  - rewrite upd_length. exact Hcl.
  - rewrite upd_length. lia.
  - split; intros i Hi; rewrite upd_length in Hi.
    + intros Hne Hpn. destruct (Nat.eq_dec i pos) as [->|Hni].
      * rewrite (get_upd_eq dft) by exact Hp. pose proof (par_lt pos ltac:(lia)). rewrite get_upd_ne by lia.
        apply H2; [lia|exact Ppar|lia].
      * rewrite (get_upd_ne dft h pos i) by auto. destruct (Nat.eq_dec (par i) pos) as [E|N].
        { rewrite E, get_upd_eq by exact Hp. apply Hmin; assumption. }
        rewrite get_upd_ne by auto. apply H1; assumption.
    + intros E Hcp0. rewrite Ppar, get_upd_eq by exact Hp.
      pose proof (par_lt i ltac:(lia)). rewrite get_upd_ne by lia. rewrite <- E. apply H1; lia.
  - exists h1, p1. split; [exact E1|]. split; [exact L1|]. split; [exact X1|]. rewrite P1. apply swap_perm; auto.
Qed.

Lemma siftup_ok h x : 0 < List.length h -> heap h ->
  heap (siftup dft lt (upd h 0 x)) /\ Permutation (siftup dft lt (upd h 0 x)) (upd h 0 x).
Proof.
  intros L H. unfold siftup. rewrite upd_length. rewrite get_upd_eq by exact L.
  destruct (siftup_loop_ok (List.length h) (upd h 0 x) 0 x) as (h1 & p1 & E & L1 & X & P).
  - rewrite upd_length. exact L.
  - rewrite upd_length. lia.
  - split; intros i Hi; rewrite upd_length in Hi; [|lia]. intros A1 A2. rewrite !get_upd_ne by auto. apply H. exact Hi.
  - rewrite E. destruct (siftdown_ok h1 p1 L1 X) as [Y1 Y2]. split; [exact Y1|]. rewrite Y2, P, upd_upd. reflexivity.
Qed.

Lemma heappush_ok h x : heap h -> heap (heappush dft lt h x) /\ Permutation (heappush dft lt h x) (x :: h).
Proof.
  intros H. unfold heappush.
  destruct (siftdown_ok (h ++ [x]) (List.length h)) as [A1 A2].
  - rewrite app_length. simpl. lia.
  - split; intros i Hi; rewrite app_length in Hi; cbn [List.length] in Hi.
    + intros Hne. unfold Memory.get. pose proof (par_lt i ltac:(lia)). rewrite !app_nth1 by lia. apply H. lia.
    + intros E _. pose proof (par_lt i ltac:(lia)). lia.
  - split; [exact A1|]. rewrite A2. symmetry. apply Permutation_cons_append.
Qed.

Lemma heap_root h : heap h -> forall i, i < List.length h -> le (get h 0) (get h i).
Proof.
  intros H i. induction i as [i IH] using (well_founded_induction lt_wf). intros Hi.
  destruct (Nat.eq_dec i 0) as [->|Hn]; [apply lt_irr|].
  pose proof (par_lt i ltac:(lia)). apply (le_trans _ (get h (par i))); [apply IH; lia|]. apply H. lia.
Qed.
Lemma heap_root_in y h : heap (y :: h) -> forall x, In x (y :: h) -> le y x.
Proof.
  intros H x Hx. destruct (In_nth _ _ dft Hx) as (i & Hi & <-). exact (heap_root _ H i Hi).
Qed.

Lemma heap_prefix h r : heap (h ++ r) -> heap h.
Proof.
  intros H i Hi. pose proof (par_lt i ltac:(lia)). specialize (H i). rewrite app_length in H. unfold Memory.get in *.
  rewrite !app_nth1 in H by lia. apply H. lia.
Qed.

Lemma heappop_ok y h : heap (y :: h) -> exists h', heappop dft lt (y :: h) = Some (y, h') /\ heap h' /\ Permutation h' h.
Proof.
  intros H. unfold heappop. destruct (rev (y :: h)) as [|last r] eqn:E.
  { apply (f_equal (@List.length A)) in E. rewrite rev_length in E. discriminate. }
  apply (f_equal (@rev A)) in E. rewrite rev_involutive in E. cbn [rev] in E.
  destruct (rev r) as [|z h'] eqn:Er.
  - cbn [app] in E. injection E as -> ->. exists []. split; [reflexivity|]. split; [intros i Hi; simpl in Hi; lia|constructor].
  - cbn [app] in E. injection E as <- E. rewrite E in H.
    assert (heap (y :: h')) as H' by (apply (heap_prefix _ [last]); exact H).
    destruct (siftup_ok (y :: h') last) as [A1 A2]; [simpl; lia|exact H'|].
    eexists. split; [reflexivity|]. split; [exact A1|]. rewrite A2. cbn [upd]. rewrite E. apply Permutation_cons_append.
Qed.

Lemma heappushpop_ok h x : heap h -> heap (snd (heappushpop dft lt h x)) /\
  Permutation (fst (heappushpop dft lt h x) :: snd (heappushpop dft lt h x)) (x :: h) /\
  forall z, In z (snd (heappushpop dft lt h x)) -> le (fst (heappushpop dft lt h x)) z.
Proof.
  intros H. unfold heappushpop. destruct h as [|y h]; [cbn [fst snd]; split; [exact H|split; [reflexivity|intros z []]]|].
  destruct (lt y x) eqn:El; cbn [fst snd].
  - destruct (siftup_ok (y :: h) x) as [A1 A2]; [simpl; lia|exact H|]. split; [exact A1|].
    assert (Permutation (siftup dft lt (upd (y :: h) 0 x)) (x :: h)) as P by exact A2.
    split; [rewrite P; apply perm_swap|].
    intros z Hz. apply (Permutation_in _ P) in Hz. destruct Hz as [<-|Hz]; [apply lt_asym; exact El|].
    apply (heap_root_in y h H). right. exact Hz.
  - split; [exact H|]. split; [reflexivity|]. intros z Hz. eapply le_trans; [exact El|]. apply (heap_root_in y h H). exact Hz.
Qed.

Lemma first_max_ok : forall l b, In (first_max lt b l) (b :: l) /\ forall x, In x (b :: l) -> le x (first_max lt b l).
Proof.
  induction l as [|y l IH]; intros b; cbn [first_max]; [split; [left; reflexivity|intros x [<-|[]]; apply lt_irr]|].
  destruct (lt b y) eqn:El; destruct (IH (if lt b y then y else b)) as [I1 I2]; rewrite El in I1, I2.
  - split; [simpl in *; tauto|]. intros x [<-|[<-|Hx]]; [|apply I2; left; reflexivity|apply I2; right; exact Hx].
    eapply le_trans; [apply lt_asym; exact El|]. apply I2. left. reflexivity.
  - split; [simpl in *; tauto|]. intros x [<-|[<-|Hx]]; [apply I2; left; reflexivity| |apply I2; right; exact Hx].
    eapply le_trans; [exact El|]. apply I2. left. reflexivity.
Qed.
Lemma first_min_ok : forall l b, In (first_min lt b l) (b :: l) /\ forall x, In x (b :: l) -> le (first_min lt b l) x.
Proof.
  induction l as [|y l IH]; intros b; cbn [first_min]; [split; [left; reflexivity|intros x [<-|[]]; apply lt_irr]|].
  destruct (lt y b) eqn:El; destruct (IH (if lt y b then y else b)) as [I1 I2]; rewrite El in I1, I2.
  - split; [simpl in *; tauto|]. intros x [<-|[<-|Hx]]; [|apply I2; left; reflexivity|apply I2; right; exact Hx].
    eapply le_trans; [apply I2; left; reflexivity|]. apply lt_asym. exact El.
  - split; [simpl in *; tauto|]. intros x [<-|[<-|Hx]]; [apply I2; left; reflexivity| |apply I2; right; exact Hx].
    eapply le_trans; [apply I2; left; reflexivity|]. exact El.
Qed.
Lemma ins_desc_perm x l : Permutation (ins_desc lt x l) (x :: l).
Proof.
  induction l as [|y l IH]; [reflexivity|]. cbn [ins_desc]. destruct (lt y x); [reflexivity|].
  rewrite IH. apply perm_swap.
Qed.
Lemma ins_desc_sorted x l : StronglySorted (fun a b => le b a) l -> StronglySorted (fun a b => le b a) (ins_desc lt x l).
Proof.
  induction 1 as [|y l S1 IH F]; cbn [ins_desc]; [constructor; constructor|]. destruct (lt y x) eqn:El.
  - constructor; [constructor; assumption|]. constructor; [apply lt_asym; exact El|].
    eapply Forall_impl; [|exact F]. intros z Hz. cbn in Hz. eapply le_trans; [exact Hz|]. apply lt_asym. exact El.
  - constructor; [exact IH|]. rewrite Forall_forall in *. intros z Hz. apply (Permutation_in _ (ins_desc_perm x l)) in Hz.
    destruct Hz as [<-|Hz]; [exact El|apply F; exact Hz].
Qed.
Lemma sort_desc_ok l : StronglySorted (fun a b => le b a) (sort_desc lt l) /\ Permutation (sort_desc lt l) l.
Proof.
  unfold sort_desc.
  assert (forall l acc, StronglySorted (fun a b => le b a) acc ->
    StronglySorted (fun a b => le b a) (fold_left (fun acc x => ins_desc lt x acc) l acc) /\
    Permutation (fold_left (fun acc x => ins_desc lt x acc) l acc) (l ++ acc)) as G.
  { clear l. induction l as [|x l IH]; intros acc Hs; [split; [exact Hs|reflexivity]|]. cbn [fold_left].
    destruct (IH (ins_desc lt x acc)) as [I1 I2]; [apply ins_desc_sorted; exact Hs|]. split; [exact I1|].
    rewrite I2, ins_desc_perm. cbn [app]. symmetry. apply Permutation_middle. }
  destruct (G l []) as [G1 G2]; [constructor|]. rewrite app_nil_r in G2. auto.
Qed.
End Heap.

(** ** The priority queue *)
Section PQF.
Context {S D : Type} (ltb : S -> S -> bool).
(** Rewards are compared by a strict weak order (floats without NaN). *)
Definition strict_weak : Prop :=
  (forall a, ltb a a = false) /\ (forall a b, ltb a b = true -> ltb b a = false) /\
  (forall a b c, ltb b a = false -> ltb c b = false -> ltb c a = false).
Hypothesis SW : strict_weak.
Notation le_c := (le (clt (D := D) ltb)).
Lemma clt_irr (a : cont S D) : clt ltb a a = false.
Proof. exact (proj1 SW _). Qed.
Lemma clt_asym (a b : cont S D) : clt ltb a b = true -> clt ltb b a = false.
Proof. exact (proj1 (proj2 SW) _ _). Qed.
Lemma clt_letr (a b c : cont S D) : le_c a b -> le_c b c -> le_c a c.
Proof. exact (proj2 (proj2 SW) _ _ _). Qed.

Definition keys (h : list (cont S D)) := map c_item h.
Definition is_heap (h : list (cont S D)) : Prop :=
  match h with [] => True | x :: _ => heap x (clt ltb) h end.
Lemma heap_dft (d1 d2 : cont S D) h : heap d1 (clt ltb) h -> heap d2 (clt ltb) h.
Proof.
  intros H i Hi. specialize (H i Hi). pose proof (par_lt i ltac:(lia)). unfold get in *.
  rewrite !(nth_indep h d2 d1) by lia. exact H.
Qed.
Lemma is_heap_iff d h : is_heap h <-> heap d (clt ltb) h.
Proof.
  destruct h as [|x h]; [split; [intros _ i Hi; simpl in Hi; lia|exact (fun _ => I)]|].
  split; apply heap_dft.
Qed.
Definition PInv (q : pq S D) : Prop :=
  is_heap (pq_heap q) /\ NoDup (keys (pq_heap q)) /\ NoDup (pq_unique q) /\
  forall k, In k (pq_unique q) <-> In k (keys (pq_heap q)).
Lemma PInv_init : PInv pq_init.
Proof. repeat split; try constructor; intros []. Qed.

Lemma perm_keys h h' : Permutation h h' -> Permutation (keys h) (keys h').
Proof. apply Permutation_map. Qed.

(** A push either ignores the item (its key is present), adds it, or adds it and
    throws away one of the items that has a smallest score. *)
Lemma pq_push_ok cap q x : PInv q -> exists q', pq_push ltb cap q x = Ok q' /\ PInv q' /\
  ( (In (c_item x) (keys (pq_heap q)) /\ q' = q)
  \/ (~ In (c_item x) (keys (pq_heap q)) /\ at_capacity cap (List.length (pq_heap q)) = false /\
      Permutation (pq_heap q') (x :: pq_heap q))
  \/ (~ In (c_item x) (keys (pq_heap q)) /\ at_capacity cap (List.length (pq_heap q)) = true /\
      exists p, Permutation (p :: pq_heap q') (x :: pq_heap q) /\ forall z, In z (pq_heap q') -> le_c p z) ).
Proof.
  intros HI. pose proof HI as (H1 & H2 & H3 & H4). unfold pq_push.
  destruct (sin (c_item x) (pq_unique q)) eqn:Es.
  { apply sin_In, H4 in Es. exists q. split; [reflexivity|]. split; [exact HI|]. left. auto. }
  pose proof Es as Es'. apply sin_nIn in Es. rewrite H4 in Es. unfold set_add. rewrite Es'.
  destruct (at_capacity cap (List.length (pq_heap q))) eqn:Ec.
  - apply (is_heap_iff x) in H1.
    destruct (heappushpop_ok x (clt ltb) clt_irr clt_asym clt_letr (pq_heap q) x H1) as (A1 & A2 & A3).
    destruct (heappushpop x (clt ltb) (pq_heap q) x) as [p h] eqn:E. cbn [fst snd] in *.
    pose proof (perm_keys _ _ A2) as PK. cbn [keys map] in PK.
    assert (NoDup (c_item x :: keys (pq_heap q))) as ND by (constructor; assumption).
    assert (NoDup (c_item p :: keys h)) as ND' by (eapply Permutation_NoDup; [symmetry; exact PK|exact ND]).
    assert (sin (c_item p) (c_item x :: pq_unique q) = true) as Ep.
    { apply sin_In. assert (In (c_item p) (c_item x :: map c_item (pq_heap q))) as X by (eapply Permutation_in; [exact PK|left; reflexivity]).
      destruct X as [X|X]; [left; exact X|right; apply H4; exact X]. }
    unfold set_remove. rewrite Ep. cbn [bind].
    assert (NoDup (c_item x :: pq_unique q)) as NU by (constructor; [rewrite H4; exact Es|exact H3]).
    destruct (list_del_In (c_item p) _ NU) as [B1 B2].
    eexists. split; [reflexivity|]. inversion ND' as [|? ? C1 C2]; subst. split.
    + split; [apply (is_heap_iff x); exact A1|]. split; [exact C2|]. split; [exact B1|]. cbn [pq_unique pq_heap]. intros k. rewrite B2.
      assert (In k (c_item x :: pq_unique q) <-> In k (c_item p :: keys h)) as K.
      { assert (In k (c_item x :: pq_unique q) <-> In k (c_item x :: keys (pq_heap q))) as K0 by (cbn [In]; rewrite H4; tauto).
        rewrite K0. split; intros X.
        - eapply Permutation_in; [symmetry; exact PK|exact X].
        - eapply Permutation_in in X; [|exact PK]. exact X. }
      rewrite K. cbn [In]. split; [intros [[<-|X] Y]; [congruence|exact X]|]. intros X. split; [auto|]. intros ->. tauto.
    + right. right. cbn [pq_heap]. split; [exact Es|]. split; [reflexivity|]. exists p. auto.
  - apply (is_heap_iff x) in H1.
    destruct (heappush_ok x (clt ltb) clt_irr clt_asym clt_letr (pq_heap q) x H1) as (A1 & A2).
    pose proof (perm_keys _ _ A2) as PK. cbn [keys map] in PK.
    eexists. split; [reflexivity|]. split.
    + split; [apply (is_heap_iff x); exact A1|]. cbn [pq_heap pq_unique]. split.
      { eapply Permutation_NoDup; [symmetry; exact PK|]. constructor; assumption. }
      split; [constructor; [rewrite H4; exact Es|exact H3]|]. intros k.
      assert (In k (c_item x :: pq_unique q) <-> In k (c_item x :: keys (pq_heap q))) as K0 by (cbn [In]; rewrite H4; tauto).
      rewrite K0. split; intros X.
      * eapply Permutation_in; [symmetry; exact PK|exact X].
      * eapply Permutation_in in X; [|exact PK]. exact X.
    + right. left. auto.
Qed.

Lemma pq_pop_ok q : PInv q -> exists q' r, pq_pop ltb q = Ok (q', r) /\ PInv q' /\
  (pq_heap q = [] -> r = None /\ q' = q) /\
  (pq_heap q <> [] -> exists x, r = Some x /\ Permutation (x :: pq_heap q') (pq_heap q) /\ forall z, In z (pq_heap q) -> le_c x z).
Proof.
  intros HI. pose proof HI as (H1 & H2 & H3 & H4). unfold pq_pop. destruct (pq_heap q) as [|y h] eqn:Eh.
  { exists q, None. split; [reflexivity|]. split; [exact HI|]. split; [auto|congruence]. }
  cbn [is_heap] in H1. destruct (heappop_ok y (clt ltb) clt_irr clt_asym clt_letr y h H1) as (h' & -> & A1 & A2).
  unfold set_remove. assert (sin (c_item y) (pq_unique q) = true) as -> by (apply sin_In, H4; left; reflexivity). cbn [bind].
  destruct (list_del_In (c_item y) _ H3) as [B1 B2]. cbn [keys map] in H2. inversion H2 as [|? ? C1 C2]; subst.
  pose proof (perm_keys _ _ A2) as PK. eexists _, _. split; [reflexivity|]. split.
  - split; [apply (is_heap_iff y); exact A1|]. cbn [pq_heap pq_unique]. split; [eapply Permutation_NoDup; [symmetry; exact PK|exact C2]|].
    split; [exact B1|]. intros k. rewrite B2, H4. cbn [keys map In]. split.
    + intros [[<-|X] Y]; [congruence|]. eapply Permutation_in; [symmetry; exact PK|exact X].
    + intros X. eapply Permutation_in in X; [|exact PK]. split; [auto|]. intros ->. tauto.
  - split; [congruence|]. intros _. exists y. split; [reflexivity|]. split; [cbn [pq_heap]; rewrite A2; reflexivity|].
    apply (heap_root_in y (clt ltb) clt_irr clt_asym clt_letr y h H1).
Qed.

Lemma pq_run_ok cap : forall ops q, PInv q -> (forall c, cap = Some c -> List.length (pq_heap q) <= c) ->
  exists q', pq_run ltb cap q ops = Ok q' /\ PInv q' /\ (forall c, cap = Some c -> List.length (pq_heap q') <= c).
Proof.
  induction ops as [|o ops IH]; intros q HI HB; [exists q; auto|]. cbn [pq_run]. destruct o as [x|]; cbn [pq_step].
  - destruct (pq_push_ok cap q x HI) as (q' & -> & I' & C). cbn [bind]. apply IH; [exact I'|]. intros c Ec. specialize (HB c Ec).
    destruct C as [(_ & ->)|[(_ & Ea & P)|(_ & Ea & p & P & _)]]; [exact HB| |]; apply Permutation_length in P; cbn [List.length] in P.
    + rewrite Ec in Ea. cbn [at_capacity] in Ea. apply Nat.leb_gt in Ea. lia.
    + lia.
  - destruct (pq_pop_ok q HI) as (q' & r & -> & I' & C1 & C2). cbn [bind fst]. apply IH; [exact I'|]. intros c Ec. specialize (HB c Ec).
    destruct (pq_heap q) as [|y h] eqn:Eh; [destruct C1 as [_ ->]; [reflexivity|rewrite Eh; exact HB]|].
    destruct C2 as (x & _ & P & _); [congruence|]. apply Permutation_length in P. cbn [List.length] in *. lia.
Qed.

Lemma pq_run_app cap : forall o1 o2 (q : pq S D), pq_run ltb cap q (o1 ++ o2) = do q1 <- pq_run ltb cap q o1 ; pq_run ltb cap q1 o2.
Proof.
  induction o1 as [|o o1 IH]; intros o2 q; [reflexivity|]. cbn [app pq_run]. destruct (pq_step ltb cap q o) as [q1|e]; cbn [bind]; [apply IH|reflexivity].
Qed.

Definition full (cap : option nat) (n : nat) : Prop := exists c, cap = Some c /\ n = c.

(** Top-k: every program pushed so far is either kept or beaten by a full queue. *)
Lemma pq_topk cap (xs : list (cont S D)) :
  (forall x y, In x xs -> In y xs -> c_item x = c_item y -> c_score x = c_score y) ->
  exists q, pq_run ltb cap pq_init (map PPush xs) = Ok q /\ PInv q /\
    (forall c, cap = Some c -> List.length (pq_heap q) <= c) /\
    (forall y, In y (pq_heap q) -> In y xs) /\
    (forall x, In x xs -> (exists y, In y (pq_heap q) /\ c_item y = c_item x) \/
        (full cap (List.length (pq_heap q)) /\ forall y, In y (pq_heap q) -> ltb (c_score y) (c_score x) = false)).
Proof.
  induction xs as [|x xs IH] using rev_ind; intros Hc.
  { exists pq_init. split; [reflexivity|]. split; [exact PInv_init|]. split; [intros c _; simpl; lia|]. split; intros ? []. }
  destruct IH as (q & E & HI & HB & Hin & Hk).
  { intros a b Ha Hb. apply Hc; apply in_or_app; left; assumption. }
  rewrite map_app, pq_run_app, E. cbn [bind map pq_run pq_step].
  destruct (pq_push_ok cap q x HI) as (q' & E' & I' & C). 
  destruct (pq_run_ok cap [PPush x] q HI HB) as (q'' & E'' & _ & B'). cbn [pq_run pq_step] in E''. rewrite E' in E''. cbn [bind] in E''. injection E'' as <-.
  rewrite E'. cbn [bind]. exists q'. split; [reflexivity|]. split; [exact I'|]. split; [exact B'|].
  destruct C as [(K & ->)|[(K & Ea & P)|(K & Ea & p & P & Pm)]].
  - split; [intros y Hy; apply in_or_app; left; auto|]. intros z Hz. apply in_app_iff in Hz as [Hz|[<-|[]]]; [auto|].
    left. apply in_map_iff in K as (y & Ey & Hy). eauto.
  - split.
    + intros y Hy. apply (Permutation_in _ P) in Hy. apply in_or_app. destruct Hy as [->|Hy]; [right; left; reflexivity|left; auto].
    + intros z Hz. apply in_app_iff in Hz as [Hz|[<-|[]]].
      * destruct (Hk z Hz) as [(y & Hy & Ey)|(F & _)].
        { left. exists y. split; [|exact Ey]. eapply Permutation_in; [symmetry; exact P|right; exact Hy]. }
        destruct F as (c & -> & F). cbn [at_capacity] in Ea. apply Nat.leb_gt in Ea. lia.
      * left. exists x. split; [|reflexivity]. eapply Permutation_in; [symmetry; exact P|left; reflexivity].
  - assert (full cap (List.length (pq_heap q'))) as F.
    { pose proof (Permutation_length P) as L. cbn [List.length] in L. destruct cap as [c|]; [|discriminate].
      cbn [at_capacity] in Ea. apply Nat.leb_le in Ea. specialize (HB c eq_refl). exists c. split; [reflexivity|]. lia. }
    split.
    + intros y Hy. assert (In y (x :: pq_heap q)) as Y by (eapply Permutation_in; [exact P|right; exact Hy]).
      apply in_or_app. destruct Y as [->|Y]; [right; left; reflexivity|left; auto].
    + assert (forall z, In z (xs ++ [x]) -> In z (x :: pq_heap q) -> (exists y, In y (pq_heap q') /\ c_item y = c_item z) \/
        (full cap (List.length (pq_heap q')) /\ forall y, In y (pq_heap q') -> ltb (c_score y) (c_score z) = false)) as G.
      { intros z _ Hz. apply (Permutation_in _ (Permutation_sym P)) in Hz. destruct Hz as [<-|Hz]; [right; split; [exact F|exact Pm]|left; eauto]. }
      intros z Hz. pose proof Hz as Hz0. apply in_app_iff in Hz as [Hz|[<-|[]]]; [|apply G; [exact Hz0|left; reflexivity]].
      destruct (Hk z Hz) as [(y & Hy & Ey)|(_ & Hd)].
      * assert (c_score y = c_score z) as Es by (apply Hc; [apply in_or_app; left; auto|exact Hz0|exact Ey]).
        destruct (G y) as [(w & Hw & Ew)|(_ & Hw)]; [apply in_or_app; left; auto|right; exact Hy| |].
        { left. exists w. split; [exact Hw|congruence]. }
        right. split; [exact F|]. rewrite <- Es. exact Hw.
      * right. split; [exact F|]. intros y Hy.
        assert (In y (x :: pq_heap q)) as Y by (eapply Permutation_in; [exact P|right; exact Hy]).
        destruct Y as [<-|Y]; [|apply Hd; exact Y].
        (* x entered: the evicted p was in the old queue *)
        assert (In p (x :: pq_heap q)) as Pp by (eapply Permutation_in; [exact P|left; reflexivity]).
        destruct Pp as [<-|Pp].
        { exfalso. apply Permutation_cons_inv in P. apply K. apply in_map_iff. exists x. split; [reflexivity|]. eapply Permutation_in; [exact P|exact Hy]. }
        specialize (Pm x Hy). unfold le, clt in Pm. destruct SW as (_ & _ & T). eapply T; [|exact Pm]. exact (Hd p Pp).
Qed.

Lemma pq_max_ok (q : pq S D) : pq_heap q <> [] -> exists m, pq_max ltb q = Some m /\ In m (pq_heap q) /\
  forall y, In y (pq_heap q) -> ltb (c_score m) (c_score y) = false.
Proof.
  unfold pq_max. destruct (pq_heap q) as [|x h]; [congruence|]. intros _. eexists. split; [reflexivity|].
  exact (first_max_ok (clt ltb) clt_irr clt_asym clt_letr h x).
Qed.
Lemma pq_min_ok (q : pq S D) : pq_heap q <> [] -> exists m, pq_min ltb q = Some m /\ In m (pq_heap q) /\
  forall y, In y (pq_heap q) -> ltb (c_score y) (c_score m) = false.
Proof.
  unfold pq_min. destruct (pq_heap q) as [|x h]; [congruence|]. intros _. eexists. split; [reflexivity|].
  exact (first_min_ok (clt ltb) clt_irr clt_asym clt_letr h x).
Qed.
Lemma pq_in_order_ok (q : pq S D) : Permutation (pq_in_order ltb q) (pq_heap q) /\
  StronglySorted (fun a b => ltb (c_score a) (c_score b) = false) (pq_in_order ltb q).
Proof.
  unfold pq_in_order. destruct (sort_desc_ok (clt ltb) clt_asym clt_letr (pq_heap q)) as [A B]. split; [exact B|exact A].
Qed.

Lemma pq_max_ever cap (xs : list (cont S D)) q : 
  (forall x y, In x xs -> In y xs -> c_item x = c_item y -> c_score x = c_score y) ->
  (forall c, cap = Some c -> 1 <= c) -> xs <> [] ->
  pq_run ltb cap pq_init (map PPush xs) = Ok q ->
  exists m, pq_max ltb q = Some m /\ In m xs /\ forall x, In x xs -> ltb (c_score m) (c_score x) = false.
Proof.
  intros Hc Hcap Hne E. destruct (pq_topk cap xs Hc) as (q' & E' & HI & HB & Hin & Hk). rewrite E in E'. injection E' as <-.
  assert (pq_heap q <> []) as Hn.
  { intros Hn. destruct xs as [|x xs]; [congruence|]. destruct (Hk x (or_introl eq_refl)) as [(y & Hy & _)|((c & -> & F) & _)].
    - rewrite Hn in Hy. destruct Hy.
    - rewrite Hn in F. specialize (Hcap c eq_refl). simpl in F. lia. }
  destruct (pq_max_ok q Hn) as (m & Em & Hm & Hmax). exists m. split; [exact Em|]. split; [auto|].
  intros x Hx. destruct (Hk x Hx) as [(y & Hy & Ey)|(_ & Hd)].
  - rewrite <- (Hc y x (Hin y Hy) Hx Ey). apply Hmax. exact Hy.
  - specialize (Hd m Hm). exact Hd.
Qed.
End PQF.
