(** C108: the reward of a candidate of KD_EqGPT is how well the products explain ut, on average over the cases. *)
From Coq Require Import QArith Permutation Sorted.
From Coq Require Import Lqa.
From Verif Require Import Base Num EqGpt PropsEqGpt PropsEqGptText.
Local Open Scope string_scope.
Local Open Scope nat_scope.
Local Open Scope list_scope.

(** ** Specification *)
(** A product: a term, then times or over another term, ... *)
Inductive product : list nat -> Prop :=
| product_one a : product [a]
| product_more a o p : o = tTimes \/ o = tDiv -> product p -> product (a :: o :: p).
(** Its value where the words have the values [v], from left to right *)
Fixpoint go_on (v : nat -> num) (acc : num) (p : list nat) : num :=
  match p with
  | o :: b :: r => go_on v (if o =? tTimes then nmul acc (v b) else ndiv acc (v b)) r
  | _ => acc
  end.
Definition product_value (v : nat -> num) (p : list nat) : num := match p with [] => Fin 1 | a :: r => go_on v (v a) r end.
(** value of a product at point i of a case *)
Definition at_point (c : case) (p : list nat) (i : nat) : num := product_value (fun w => nth i (value c w) NaN) p.
(** every word has a value at every point *)
Definition complete_case (c : case) : Prop := forall w, List.length (value c w) = n_points c.
(** [qs]: those of [ks] that differ somewhere from every earlier one (a NaN differs from everything) *)
Definition same_on (c : case) (p q : list nat) : Prop := forall i, i < n_points c -> neq (at_point c p i) (at_point c q i).
Definition different_columns (c : case) (ks qs : list (list nat)) : Prop :=
  exists idx, StronglySorted lt idx /\ qs = map (fun i => nth i ks []) idx /\
    forall i, In i idx <-> i < List.length ks /\ forall j, j < i -> ~ same_on c (nth i ks []) (nth j ks []).
(** the points used: those where no product is infinite *)
Definition usable (c : case) (qs : list (list nat)) (rows : list nat) : Prop :=
  StronglySorted lt rows /\ forall i, In i rows <-> i < n_points c /\ forall q, In q qs -> at_point c q i <> PInf /\ at_point c q i <> NInf.
(** sum of squared residuals of  ut + x1 p1 + x2 p2 + ...  over the rows *)
Definition residual (c : case) (ut : list nat) (qs : list (list nat)) (x : list Q) (i : nat) : Q :=
  (qof (at_point c ut i) + qsum (map (fun kq => fst kq * qof (at_point c (snd kq) i))%Q (combine x qs)))%Q.
Definition sse (c : case) (ut : list nat) (qs : list (list nat)) (x : list Q) (rows : list nat) : Q :=
  qsum (map (fun i => residual c ut qs x i * residual c ut qs x i)%Q rows).
Definition mean_of (l : list Q) : Q := (qsum l / inject_Z (Z.of_nat (List.length l)))%Q.
Definition spread (c : case) (ut : list nat) (rows : list nat) : Q :=
  let us := map (fun i => qof (at_point c ut i)) rows in qsum (map (fun a => (a - mean_of us) * (a - mean_of us))%Q us).

(** ** Lemmas *)
Definition colstep (val : nat -> list num) (acc : option (list num)) (div : bool) (t : nat) : list num :=
  match acc with None => map (fun v => if div then ndiv (Fin 1) v else v) (val t) | Some c => map2 (if div then ndiv else nmul) c (val t) end.
Fixpoint colfin (val : nat -> list num) (c : list num) (t : list nat) : list num :=
  match t with o :: b :: r => colfin val (colstep val (Some c) (o =? tDiv) b) r | _ => c end.
Definition pairs (s : list nat) : list (nat * nat) := combine (evens s) (odds s).
Lemma pairs_cons a o r : pairs (a :: o :: r) = (a, o) :: pairs r.
Proof. reflexivity. Qed.
Lemma columns_product val p : product p -> forall a t, p = a :: t -> forall acc div,
  (forall rest, columns val (pairs (p ++ tPlus :: rest)) acc div = colfin val (colstep val acc div a) t :: columns val (pairs rest) None false) /\
  columns val (pairs (p ++ [tE])) acc div = [colfin val (colstep val acc div a) t].
Proof.
  induction 1 as [a|a o p O P IH]; intros a' t E acc div; injection E as <- <-.
  - split; reflexivity.
  - destruct p as [|b t]; [inversion P|]. destruct (IH b t eq_refl (Some (colstep val acc div a)) (o =? tDiv)) as [A B].
    assert (X : forall r, columns val (pairs ((a :: o :: b :: t) ++ r)) acc div = columns val (pairs ((b :: t) ++ r)) (Some (colstep val acc div a)) (o =? tDiv)).
    { intros r. cbn [app]. rewrite pairs_cons. cbn [columns]. fold (colstep val acc div a). destruct O as [-> | ->]; reflexivity. }
    split; [intros rest; rewrite X, A; reflexivity|rewrite X, B; reflexivity].
Qed.
Lemma columns_join val ks : Forall product ks -> ks <> [] ->
  columns val (pairs (join_plus ks ++ [tE])) None false = map (fun p => match p with [] => [] | a :: t => colfin val (colstep val None false a) t end) ks.
Proof.
  induction 1 as [|p ks P F IH]; [congruence|]. intros _. destruct p as [|a t]; [inversion P|]. destruct (columns_product val _ P a t eq_refl None false) as [A B]. destruct ks as [|q ks].
  - rewrite join_one, B. reflexivity.
  - rewrite join_cons, <- app_assoc. change ((tPlus :: join_plus (q :: ks)) ++ [tE]) with (tPlus :: (join_plus (q :: ks) ++ [tE])). rewrite A, IH by discriminate. reflexivity.
Qed.
Lemma nth_map2 (f : num -> num -> num) c d i : i < List.length c -> i < List.length d -> nth i (map2 f c d) NaN = f (nth i c NaN) (nth i d NaN).
Proof.
  revert d i. induction c as [|x c IH]; intros [|y d] i; cbn; try lia. destruct i as [|i]; [reflexivity|]. intros. apply IH; lia.
Qed.
Lemma len_map2 {A B C} (f : A -> B -> C) c d : List.length (map2 f c d) = Nat.min (List.length c) (List.length d).
Proof. unfold map2. rewrite map_length, combine_length. reflexivity. Qed.
Lemma colfin_at val n : (forall w, List.length (val w) = n) -> forall p, product p -> forall a t, p = a :: t -> forall c, List.length c = n -> List.length (colfin val c t) = n /\
  forall i, i < n -> nth i (colfin val c t) NaN = go_on (fun w => nth i (val w) NaN) (nth i c NaN) t.
Proof.
  intros L p P. induction P as [a|a o p O P IH]; intros a' t E c Lc; injection E as <- <-; [split; [exact Lc|reflexivity]|].
  destruct p as [|b t]; [inversion P|]. cbn [colfin go_on]. set (c' := colstep val (Some c) (o =? tDiv) b).
  assert (L' : List.length c' = n) by (unfold c'; cbn [colstep]; rewrite len_map2, L, Lc; apply Nat.min_id).
  destruct (IH b t eq_refl c' L') as [A B]. split; [exact A|]. intros i Hi. rewrite (B i Hi). f_equal. unfold c'. cbn [colstep]. rewrite nth_map2 by (rewrite ?L, ?Lc; exact Hi). destruct O as [-> | ->]; reflexivity.
Qed.
Lemma list_at {A} (d : A) n l f : List.length l = n -> (forall i, i < n -> nth i l d = f i) -> l = map f (seq 0 n).
Proof.
  intros L H. apply (nth_ext _ _ d d); [rewrite map_length, seq_length; exact L|]. intros i Hi. rewrite L in Hi. rewrite (H i Hi). rewrite (nth_indep _ d (f 0)) by (rewrite map_length, seq_length; exact Hi). rewrite map_nth, seq_nth by exact Hi. reflexivity.
Qed.
Lemma columns_values c ks : complete_case c -> Forall product ks -> ks <> [] ->
  columns (value c) (pairs (join_plus ks ++ [tE])) None false = map (fun p => map (at_point c p) (seq 0 (n_points c))) ks.
Proof.
  intros C F N. rewrite columns_join by assumption. apply map_ext_in. intros p Hp. rewrite Forall_forall in F. specialize (F p Hp). destruct p as [|a t]; [inversion F|].
  assert (M : colstep (value c) None false a = value c a) by (cbn; rewrite map_id; reflexivity). rewrite M. destruct (colfin_at (value c) (n_points c) C _ F a t eq_refl (value c a) (C a)) as [A B].
  apply (list_at NaN); [exact A|]. intros i Hi. rewrite (B i Hi). reflexivity.
Qed.
(** dropping equal columns *)
Lemma num_eqb_neq a b : num_eqb a b = true <-> neq a b.
Proof. unfold num_eqb, neq. rewrite andb_true_iff. tauto. Qed.
Lemma col_eqb_at n f g : col_eqb (map f (seq 0 n)) (map g (seq 0 n)) = true <-> forall i, i < n -> neq (f i) (g i).
Proof.
  unfold col_eqb. rewrite !map_length, Nat.eqb_refl. cbn [andb]. assert (G : forall l, forallb (fun p => num_eqb (fst p) (snd p)) (combine (map f l) (map g l)) = true <-> forall i, In i l -> neq (f i) (g i)).
  { induction l as [|x l IH]; cbn; [split; [intros _ i []|reflexivity]|]. rewrite andb_true_iff, IH, num_eqb_neq. split; [intros [A B] i [<-|Hi]; auto|intros H; split; auto]. }
  rewrite G. split; intros H i Hi; apply H; [apply in_seq; lia|apply in_seq in Hi; lia].
Qed.
Lemma col_eqb_trans a b c : col_eqb a b = true -> col_eqb b c = true -> col_eqb a c = true.
Proof.
  unfold col_eqb. rewrite !andb_true_iff, !Nat.eqb_eq. intros [L1 H1] [L2 H2]. split; [congruence|]. revert b c L1 H1 L2 H2. induction a as [|x a IH]; intros [|y b] [|z c]; cbn; try discriminate; auto.
  rewrite !andb_true_iff, !num_eqb_neq. intros L1 [A B] L2 [C D]. split; [eapply neq_trans; eauto|]. apply (IH b c); auto.
Qed.
Lemma distinct_positions cols : forall seen, (forall a b, In a seen -> In b seen -> True) -> exists idx, StronglySorted lt idx /\ distinct_cols seen cols = map (fun i => nth i cols []) idx /\
  forall i, In i idx <-> i < List.length cols /\ existsb (col_eqb (nth i cols [])) seen = false /\ forall j, j < i -> col_eqb (nth i cols []) (nth j cols []) = false.
Proof.
  induction cols as [|s segs IH]; intros seen _; cbn [distinct_cols].
  - exists []. split; [constructor|]. split; [reflexivity|]. intros i. cbn. split; [intros []|lia].
  - assert (SS : forall idx, StronglySorted lt idx -> StronglySorted lt (map S idx)).
    { clear. intros idx So. induction So as [|i idx So IH F]; cbn; constructor; auto. rewrite Forall_forall in *. intros x Hx. apply in_map_iff in Hx as (y & <- & Hy). specialize (F y Hy). lia. }
    destruct (existsb (col_eqb s) seen) eqn:E.
    + destruct (IH seen ltac:(auto)) as (idx & So & K & M). exists (map S idx). split; [apply SS; exact So|split].
      * rewrite K, map_map. reflexivity.
      * intros i. rewrite in_map_iff. split.
        -- intros (j & <- & Hj). apply M in Hj as (A & B & C). cbn [List.length nth]. split; [lia|]. split; [exact B|]. intros [|k] Hk; cbn [nth]; [|apply C; lia].
           apply not_true_iff_false. intros X. rewrite <- not_true_iff_false in B. apply B. apply existsb_exists in E as (y & Iy & Ey). apply existsb_exists. exists y. split; [exact Iy|eapply col_eqb_trans; eauto].
        -- intros (A & B & C). destruct i as [|i]; [cbn in B; congruence|]. exists i. split; [reflexivity|]. apply M. cbn in A, B. split; [lia|]. split; [exact B|]. intros j Hj. apply (C (S j)). lia.
    + destruct (IH (seen ++ [s]) ltac:(auto)) as (idx & So & K & M). exists (0 :: map S idx). split; [|split].
      * constructor; [apply SS; exact So|apply Forall_forall; intros x Hx; apply in_map_iff in Hx as (y & <- & Hy); lia].
      * cbn [map nth]. rewrite K, map_map. reflexivity.
      * intros i. cbn [In]. rewrite in_map_iff. split.
        -- intros [<-|(j & <- & Hj)].
           ++ cbn. split; [lia|]. split; [exact E|lia].
           ++ apply M in Hj as (A & B & C). cbn [List.length nth]. split; [lia|]. rewrite existsb_app in B. apply orb_false_iff in B as [B1 B2]. cbn in B2. rewrite orb_false_r in B2. split; [exact B1|]. intros [|k] Hk; cbn [nth]; [exact B2|apply C; lia].
        -- intros (A & B & C). destruct i as [|i]; [now left|]. right. exists i. split; [reflexivity|]. apply M. cbn in A, B. split; [lia|]. split.
           ++ rewrite existsb_app. apply orb_false_iff. split; [exact B|]. cbn. rewrite orb_false_r. apply (C 0). lia.
           ++ intros j Hj. apply (C (S j)). lia.
Qed.
Lemma distinct_spec c ks : exists qs, different_columns c ks qs /\
  distinct_cols [] (map (fun p => map (at_point c p) (seq 0 (n_points c))) ks) = map (fun p => map (at_point c p) (seq 0 (n_points c))) qs /\ incl qs ks /\ (ks <> [] -> hd [] qs = hd [] ks /\ qs <> []).
Proof.
  set (f := fun p => map (at_point c p) (seq 0 (n_points c))). destruct (distinct_positions (map f ks) [] ltac:(auto)) as (idx & So & K & M).
  assert (NT : forall i, i < List.length ks -> nth i (map f ks) [] = f (nth i ks [])). { intros i Hi. rewrite (nth_indep _ [] (f [])) by (rewrite map_length; exact Hi). apply map_nth. }
  assert (B : forall i, In i idx -> i < List.length ks) by (intros i Hi; apply M in Hi as [Hi _]; rewrite map_length in Hi; exact Hi).
  exists (map (fun i => nth i ks []) idx). split; [|split; [|split]].
  - exists idx. split; [exact So|]. split; [reflexivity|]. intros i. rewrite M, map_length. split.
    + intros (A & _ & C). split; [exact A|]. intros j Hj X. specialize (C j Hj). rewrite !NT in C by lia. unfold f in C. rewrite <- not_true_iff_false in C. apply C. apply col_eqb_at. exact X.
    + intros (A & C). split; [exact A|]. split; [reflexivity|]. intros j Hj. rewrite !NT by lia. apply not_true_iff_false. intros X. exact (C j Hj (proj1 (col_eqb_at _ _ _) X)).
  - rewrite K, map_map. apply map_ext_in. intros i Hi. apply NT. apply B. exact Hi.
  - intros q Hq. apply in_map_iff in Hq as (i & <- & Hi). apply nth_In. apply B. exact Hi.
  - intros NE. assert (I0 : In 0 idx). { apply M. rewrite map_length. split; [destruct ks; [congruence|cbn; lia]|]. split; [reflexivity|intros; lia]. }
    destruct idx as [|i idx]; [destruct I0|]. destruct I0 as [->|I0]; [destruct ks; [congruence|]; split; [reflexivity|discriminate]|]. apply StronglySorted_inv in So as [_ F]. rewrite Forall_forall in F. specialize (F 0 I0). lia.
Qed.
Lemma sorted_filter f n : StronglySorted lt (filter f (seq 0 n)).
Proof.
  generalize 0. induction n as [|n IH]; intros k; cbn; [constructor|]. destruct (f k); [|apply IH]. constructor; [apply IH|]. apply Forall_forall. intros x Hx. apply filter_In in Hx as [Hx _]. apply in_seq in Hx. lia.
Qed.
Lemma nth_at c p i : i < n_points c -> nth i (map (at_point c p) (seq 0 (n_points c))) NaN = at_point c p i.
Proof. intros H. rewrite (nth_indep _ NaN (at_point c p 0)) by (rewrite map_length, seq_length; exact H). rewrite map_nth, seq_nth by exact H. reflexivity. Qed.
Lemma rows_spec c qs : usable c qs (finite_rows (n_points c) (map (fun p => map (at_point c p) (seq 0 (n_points c))) qs)).
Proof.
  unfold finite_rows. split; [apply sorted_filter|]. intros i. rewrite filter_In, in_seq. split.
  - intros [A B]. split; [lia|]. intros q Hq. rewrite forallb_forall in B. pose proof (B _ (in_map (fun p => map (at_point c p) (seq 0 (n_points c))) _ _ Hq)) as B'. clear B. rename B' into B. cbv beta in B. rewrite nth_at in B by lia. destruct (at_point c q i); cbn in B; try discriminate; split; discriminate.
  - intros [A B]. split; [lia|]. apply forallb_forall. intros x Hx. apply in_map_iff in Hx as (q & <- & Hq). rewrite nth_at by exact A. specialize (B q Hq). destruct (at_point c q i); cbn; tauto.
Qed.
Lemma take_at c q rows : (forall i, In i rows -> i < n_points c) -> take_rows rows (map (at_point c q) (seq 0 (n_points c))) = map (at_point c q) rows.
Proof. intros H. apply map_ext_in. intros i Hi. apply nth_at. apply H. exact Hi. Qed.

(** sums *)
Lemma qsum_ext {X} (f g : X -> Q) l : (forall x, In x l -> f x == g x)%Q -> (qsum (map f l) == qsum (map g l))%Q.
Proof. intros H. induction l as [|x l IH]; cbn; [reflexivity|]. rewrite (H x (or_introl eq_refl)), IH; [reflexivity|]. intros y Hy. apply H. now right. Qed.
Lemma qsum_opp {X} (f : X -> Q) l : (qsum (map (fun x => - f x) l) == - qsum (map f l))%Q.
Proof. unfold qsum in *. induction l as [|x l IH]; cbn [map fold_right]; [reflexivity|]. rewrite IH. ring. Qed.
Lemma map2_map {X A B C} (h : A -> B -> C) (f : X -> A) (g : X -> B) l : map2 h (map f l) (map g l) = map (fun x => h (f x) (g x)) l.
Proof. unfold map2. induction l as [|x l IH]; cbn; [reflexivity|]. f_equal. exact IH. Qed.
Lemma nth_qmap c q rows k : k < List.length rows -> nth k (map (fun i => qof (at_point c q i)) rows) 0%Q = qof (at_point c q (nth k rows 0)).
Proof. intros H. rewrite (nth_indep _ 0%Q (qof (at_point c q 0))) by (rewrite map_length; exact H). exact (map_nth (fun i => qof (at_point c q i)) rows 0 k). Qed.
Lemma rhs_at c qs x rows : rhs (List.length rows) (map (fun q => map (fun i => qof (at_point c q i)) rows) qs) x =
  map (fun i => qsum (map (fun kq => fst kq * qof (at_point c (snd kq) i))%Q (combine x qs))) rows.
Proof.
  unfold rhs. symmetry. apply (list_at 0%Q); [apply map_length|]. intros k Hk.
  rewrite (nth_indep _ 0%Q (qsum (map (fun kq => fst kq * qof (at_point c (snd kq) 0))%Q (combine x qs)))) by (rewrite map_length; exact Hk).
  rewrite (map_nth (fun i => qsum (map (fun kq => fst kq * qof (at_point c (snd kq) i))%Q (combine x qs))) rows 0 k). f_equal.
  revert x. induction qs as [|q qs IH]; intros [|a x]; cbn; try reflexivity. f_equal; [|apply IH]. rewrite nth_qmap by exact Hk. reflexivity.
Qed.
Definition fit (c : case) (ut : list nat) (qs : list (list nat)) (x : list Q) (rows : list nat) : num :=
  r2 (map (fun i => (- qof (at_point c ut i))%Q) rows) (map (fun i => qsum (map (fun kq => fst kq * qof (at_point c (snd kq) i))%Q (combine x qs))) rows).
Lemma r2_spec c ut qs x rows :
  (spread c ut rows == 0 -> ~ sse c ut qs x rows == 0 -> fit c ut qs x rows = NInf)%Q /\
  (spread c ut rows == 0 -> sse c ut qs x rows == 0 -> fit c ut qs x rows = NaN)%Q /\
  (~ spread c ut rows == 0 -> exists q, fit c ut qs x rows = Fin q /\ q == 1 - sse c ut qs x rows / spread c ut rows)%Q.
Proof.
  unfold fit, r2. rewrite map_length, map2_map, map_map.
  set (mu := (qsum _ / _)%Q).
  assert (MU : (mu == - mean_of (map (fun i => qof (at_point c ut i)) rows))%Q). { unfold mu, mean_of. rewrite map_length, qsum_opp. unfold Qdiv. ring. }
  assert (E1 : (qsum (map (fun i => ((- qof (at_point c ut i) - qsum (map (fun kq => fst kq * qof (at_point c (snd kq) i)) (combine x qs))) * (- qof (at_point c ut i) - qsum (map (fun kq => fst kq * qof (at_point c (snd kq) i)) (combine x qs))))%Q) rows) == sse c ut qs x rows)%Q).
  { unfold sse. apply qsum_ext. intros i _. unfold residual. ring. }
  assert (E0 : (qsum (map (fun i => ((- qof (at_point c ut i) - mu) * (- qof (at_point c ut i) - mu))%Q) rows) == spread c ut rows)%Q).
  { unfold spread. rewrite map_map. apply qsum_ext. intros i _. rewrite MU. ring. }
  set (A := qsum (map (fun i => ((- qof (at_point c ut i) - qsum _) * _)%Q) rows)) in *. clearbody A. set (B := qsum (map (fun i => ((- qof (at_point c ut i) - mu) * _)%Q) rows)) in *. clearbody B.
  assert (Z : forall q, Qeq_bool q 0 = true <-> (q == 0)%Q) by (intros; apply Qeq_bool_iff).
  destruct (Qeq_bool B 0) eqn:EB.
  - apply Z in EB. rewrite E0 in EB. split; [|split].
    + intros _ N. destruct (Qeq_bool A 0) eqn:EA; [|reflexivity]. apply Z in EA. rewrite E1 in EA. contradiction.
    + intros _ N. destruct (Qeq_bool A 0) eqn:EA; [reflexivity|]. apply Qeq_bool_neq in EA. rewrite E1 in EA. contradiction.
    + intros N. contradiction.
  - apply Qeq_bool_neq in EB. rewrite E0 in EB. split; [intros; contradiction|]. split; [intros; contradiction|]. intros _. eexists. split; [reflexivity|]. rewrite E1, E0. reflexivity.
Qed.

(** ** One case *)
(** What a case says about the products [ks], the first being ut; None: the case is left out *)
Definition case_outcome (lsq : list (list Q) -> list Q -> option (list Q)) (lg : nat -> Q) (ks : list (list nat)) (c : case) (o : option num) : Prop :=
  exists qs rows, different_columns c ks qs /\ usable c qs rows /\ hd [] qs = hd [] ks /\ let ut := hd [] ks in
    ((exists i q, In i rows /\ In q qs /\ at_point c q i = NaN) -> o = None) /\
    ((forall i q, In i rows -> In q qs -> at_point c q i <> NaN) ->
      match lsq (map (fun q => map (fun i => qof (at_point c q i)) rows) (tl qs)) (map (fun i => (- qof (at_point c ut i))%Q) rows) with
      | None => o = None
      | Some x => let k := (1 - (2 # 100) * lg (List.length qs))%Q in
          exists r, o = Some r /\
            ((~ spread c ut rows == 0)%Q -> exists q, r = Fin q /\ (q == k * (1 - sse c ut (tl qs) x rows / spread c ut rows))%Q) /\
            ((spread c ut rows == 0)%Q -> (sse c ut (tl qs) x rows == 0)%Q -> r = NaN) /\
            ((spread c ut rows == 0)%Q -> (~ sse c ut (tl qs) x rows == 0)%Q -> (0 < k)%Q -> r = NInf)
      end).
Theorem C108_case_score lsq lg c ks : complete_case c -> Forall product ks -> ks <> [] ->
  case_outcome lsq lg ks c (case_reward lsq lg c (combine (evens (join_plus ks ++ [tE])) (odds (join_plus ks ++ [tE])))).
Proof.
  intros C F NE. destruct (distinct_spec c ks) as (qs & DC & DE & _ & HQ). destruct (HQ NE) as [HD QN]. pose proof (rows_spec c qs) as RS. set (rows := finite_rows _ _) in RS.
  exists qs, rows. split; [exact DC|]. split; [exact RS|]. split; [exact HD|]. cbv zeta.
  unfold case_reward. change (combine (evens (join_plus ks ++ [tE])) (odds (join_plus ks ++ [tE]))) with (pairs (join_plus ks ++ [tE])). rewrite columns_values, DE by assumption.
  fold rows. rewrite map_map. assert (RB : forall i, In i rows -> i < n_points c) by (intros i Hi; apply RS; exact Hi).
  replace (map (fun p => take_rows rows (map (at_point c p) (seq 0 (n_points c)))) qs) with (map (fun p => map (at_point c p) rows) qs) by (apply map_ext; intros; symmetry; apply take_at; exact RB).
  split.
  - intros (i & q & Hi & Hq & N). replace (existsb has_nan _) with true; [reflexivity|]. symmetry. apply existsb_exists. exists (map (at_point c q) rows). split; [apply in_map_iff; eauto|]. apply existsb_exists. exists NaN. split; [|reflexivity]. rewrite <- N. apply in_map. exact Hi.
  - intros N. replace (existsb has_nan _) with false.
    2:{ symmetry. apply not_true_iff_false. intros X. apply existsb_exists in X as (col & Ic & X). apply in_map_iff in Ic as (q & <- & Hq). apply existsb_exists in X as (v & Iv & X). apply in_map_iff in Iv as (i & <- & Hi). apply (N i q Hi Hq). destruct (at_point c q i); cbn in X; congruence. }
    rewrite map_map. destruct qs as [|ut qs]; [congruence|]. cbn [map hd tl] in *. rewrite <- HD. rewrite map_map. replace (map (fun x => map qof (map (at_point c x) rows)) qs) with (map (fun q => map (fun i => qof (at_point c q i)) rows) qs) by (apply map_ext; intros; rewrite map_map; reflexivity).
    rewrite map_map. destruct (lsq _ _) as [x|]; [|reflexivity]. rewrite rhs_at. cbn [List.length]. rewrite !map_length. fold (fit c ut qs x rows). destruct (r2_spec c ut qs x rows) as (A & B & D). set (k := (1 - _)%Q).
    eexists. split; [reflexivity|]. split; [|split].
    + intros S0. destruct (D S0) as (q & -> & E). eexists. split; [reflexivity|]. rewrite E. reflexivity.
    + intros S0 S1. rewrite (B S0 S1). reflexivity.
    + intros S0 S1 K. rewrite (A S0 S1). cbn [nmul sgn inf_of]. replace (k ?= 0)%Q with Gt; [reflexivity|]. symmetry. apply Qgt_alt. exact K.
Qed.

(** ** Candidates *)
(** alternating terms and operators, ending with a term *)
Inductive alternating : list nat -> Prop :=
| alt_one a : a <> tPlus -> alternating [a]
| alt_more a o r : a <> tPlus -> o = tPlus \/ o = tTimes \/ o = tDiv -> alternating r -> alternating (a :: o :: r).
Lemma alt_products s : alternating s -> Forall product (split_plus s).
Proof.
  induction 1 as [a A|a o r A O R IH].
  - cbn. destruct (a =? tPlus) eqn:E; [apply Nat.eqb_eq in E; congruence|]. repeat constructor.
  - cbn [split_plus]. destruct (split_plus r) as [|seg q] eqn:E; [exfalso; revert E; clear; destruct r; cbn; [discriminate|]; destruct (split_plus r); [discriminate|destruct (n =? tPlus); discriminate]|].
    inversion IH as [|? ? Ps Pq]; subst. apply Nat.eqb_neq in A. destruct O as [->|O].
    + cbn [Nat.eqb tPlus]. rewrite A. repeat constructor; auto.
    + replace (o =? tPlus) with false by (destruct O as [-> | ->]; reflexivity). rewrite A. constructor; [constructor; assumption|exact Pq].
Qed.
Lemma alt_positions s : forall k0, Nat.even k0 = true -> Nat.odd (List.length s) = true ->
  (forall i k, nth_error s i = Some k -> if Nat.even i then k <> tPlus else k = tPlus \/ k = tTimes \/ k = tDiv) -> alternating s.
Proof.
  intros _ _. induction s as [|a|a b r IH] using two_step; intros L H; [discriminate|constructor; exact (H 0 a eq_refl)|].
  constructor; [exact (H 0 a eq_refl)|exact (H 1 b eq_refl)|]. apply IH; [exact L|]. intros i k Hi. exact (H (S (S i)) k Hi).
Qed.
Lemma candidate_alternates mask d s : candidate mask d = Some s -> last s 0 = tE -> alternating (chop s).
Proof.
  intros C E. destruct (C105_candidates _ _ _ C) as (F & L & EV & K & EE & _). unfold chop. rewrite E, Nat.eqb_refl.
  destruct s as [|x s _] using rev_ind; [cbn in L; lia|]. rewrite removelast_last. rewrite last_last in E. subst x. rewrite app_length in L, EV. cbn in L, EV. rewrite Nat.add_1_r in EV. 
  apply (alt_positions s 0 eq_refl); [rewrite Nat.even_succ in EV; exact EV|]. intros i k Hi.
  assert (Hi' : nth_error (s ++ [tE]) i = Some k) by (rewrite nth_error_app1; [exact Hi|apply nth_error_Some; congruence]).
  assert (NE : k <> tE). { intros ->. specialize (EE i Hi'). rewrite app_length in EE. cbn in EE. assert (i < List.length s) by (apply nth_error_Some; congruence). lia. }
  destruct i as [|[|i]].
  - destruct s as [|a [|b s]]; cbn in F, L; try lia. injection F as -> ->. cbn in Hi. injection Hi as <-. discriminate.
  - destruct s as [|a [|b s]]; cbn in F, L; try lia. injection F as -> ->. cbn in Hi. injection Hi as <-. now left.
  - destruct (K (S (S i)) k ltac:(lia) Hi') as [_ X]. destruct (Nat.even (S (S i))); unfold is_term, is_operator, tPlus, tTimes, tDiv, tE in *; lia.
Qed.
Lemma product_odd p : product p -> Nat.odd (List.length p) = true.
Proof. induction 1; [reflexivity|exact IHproduct]. Qed.
Lemma even_lengths (s : list nat) : (List.length (odds s) =? List.length (evens s)) = Nat.even (List.length s).
Proof. induction s as [|a|a b r IH] using two_step; [reflexivity|reflexivity|]. change (odds (a :: b :: r)) with (b :: odds r). cbn [evens List.length Nat.even]. exact IH. Qed.
Lemma join_odds ks : Forall product ks -> ks <> [] -> Forall (fun o => o <= 4) (odds (join_plus ks ++ [tE])) /\ Nat.even (List.length (join_plus ks ++ [tE])) = true.
Proof.
  assert (X : forall p, product p -> (forall r, Forall (fun o => o <= 4) (odds r) -> Forall (fun o => o <= 4) (odds (p ++ tPlus :: r)) /\ Nat.even (List.length (p ++ tPlus :: r)) = Nat.even (List.length r)) /\ Forall (fun o => o <= 4) (odds (p ++ [tE])) /\ Nat.even (List.length (p ++ [tE])) = true).
  { induction 1 as [a|a o p O P [IH1 IH2]]; cbn [app].
    - split; [|repeat constructor]. intros r H. split; [|reflexivity]. change (odds (a :: tPlus :: r)) with (tPlus :: odds r). constructor; [unfold tPlus; lia|exact H].
    - assert (O4 : o <= 4) by (destruct O as [-> | ->]; unfold tTimes, tDiv; lia).
      split; [intros r Hr; destruct (IH1 r Hr) as [A B]; split; [|exact B]|destruct IH2 as [A B]; split; [|exact B]].
      + change (odds (a :: o :: p ++ tPlus :: r)) with (o :: odds (p ++ tPlus :: r)). constructor; assumption.
      + change (odds (a :: o :: p ++ [tE])) with (o :: odds (p ++ [tE])). constructor; assumption. }
  induction 1 as [|p ks P F IH]; [congruence|]. intros _. destruct ks as [|q ks]; [rewrite join_one; apply X; exact P|]. rewrite join_cons, <- app_assoc. cbn [app]. destruct (IH ltac:(discriminate)) as [A B].
  destruct (proj1 (X p P) _ A) as [A' B']. split; [exact A'|]. rewrite B'. exact B.
Qed.
Lemma max_le l : Forall (fun o => o <= 4) l -> fold_right Nat.max 0 l <=? 4 = true.
Proof. intros H. apply Nat.leb_le. induction H; cbn; lia. Qed.
(** The terms of the products *)
Lemma evens_join ks : Forall product ks -> ks <> [] -> evens (join_plus ks ++ [tE]) = List.concat (map factors ks).
Proof.
  assert (X : forall p, product p -> forall o r, evens (p ++ o :: r) = factors p ++ evens r).
  { induction 1 as [a|a o p O P IH]; intros o' r; [reflexivity|]. cbn [app]. change (evens (a :: o :: p ++ o' :: r)) with (a :: evens (p ++ o' :: r)). rewrite IH. destruct p as [|b p]; [inversion P|]. reflexivity. }
  induction 1 as [|p ks P F IH]; [congruence|]. intros _. destruct ks as [|q ks].
  - rewrite join_one, (X p P). reflexivity.
  - rewrite join_cons, <- app_assoc. cbn [app]. rewrite (X p P), IH by discriminate. reflexivity.
Qed.
(** ** Theorems *)
Definition some_of {A} (o : option A) : list A := match o with Some a => [a] | None => [] end.
Definition tried (ks : list (list nat)) (ws : list string) : Prop := forall w, In w ws -> In (tok w) (List.concat (map factors ks)).
Definition bad_sets : list (list string) := [["u"; "sin(u)"]; ["u"; "sinh(u)"]; ["sin(u)"; "sinh(u)"]; ["u"; "u^2"; "u^3"]; ["x"; "sinx"]].
Lemma forbidden_spec ks : Forall product ks -> ks <> [] -> forbidden (evens (join_plus ks ++ [tE])) = true <-> exists ws, In ws bad_sets /\ tried ks ws.
Proof.
  intros F N. rewrite (evens_join ks F N). unfold forbidden. rewrite existsb_exists. split; intros (ws & I & H); exists ws; (split; [exact I|]).
  - unfold subset in H. rewrite forallb_forall in H. intros w Hw. specialize (H _ (in_map tok _ _ Hw)). apply existsb_exists in H as (y & Iy & E). apply Nat.eqb_eq in E. subst y. exact Iy.
  - unfold subset. apply forallb_forall. intros x Hx. apply in_map_iff in Hx as (w & <- & Hw). apply existsb_exists. exists (tok w). split; [apply H; exact Hw|apply Nat.eqb_refl].
Qed.
(** A completed candidate with products [ps]: repeats are dropped; each case says what it says about the rest, and the reward is the mean
    of what the cases say.  It is 0 when two or more mutually replaceable terms occur, or when no word of the equation has an x. *)
Theorem C108_reward lsq lg cases mask d s : candidate mask d = Some s -> last s 0 = tE -> (forall c, In c cases -> complete_case c) ->
  exists ps ks outs, products (chop s) ps /\ without_repeats ps ks /\ Forall product ks /\ hd [] ks = [tUt] /\ Forall2 (case_outcome lsq lg ks) cases outs /\
    let text := check_text (delete_duplicate s) in
    ((exists ws, In ws bad_sets /\ tried ks ws) -> reward lsq lg cases variables s = Fin 0) /\
    (contains "x" text = false -> contains "Laplace" text = false -> contains "Div" text = false -> reward lsq lg cases variables s = Fin 0) /\
    ((~ exists ws, In ws bad_sets /\ tried ks ws) -> contains "x" text = true -> reward lsq lg cases variables s = nmean (flat_map some_of outs)).
Proof.
  intros C E CC. pose proof (candidate_alternates _ _ _ C E) as A. pose proof (alt_products _ A) as FP.
  set (ps := split_plus (chop s)) in *. set (ks := keep [] ps).
  assert (FK : Forall product ks) by (rewrite Forall_forall in *; intros p Hp; apply FP; eapply keep_incl; eauto).
  assert (NK : ks <> []) by (apply kept_no_plus).
  assert (HU : hd [] ks = [tUt] /\ exists q, delete_duplicate s = tUt :: q).
  { destruct (C105_candidates _ _ _ C) as (F & _). destruct s as [|a [|b s']]; cbn in F; try discriminate. injection F as -> ->.
    assert (P0 : exists q, ps = [tUt] :: q). { unfold ps, chop. rewrite E, Nat.eqb_refl. destruct s' as [|x s']; [exists []; reflexivity|]. change (removelast (tUt :: tPlus :: x :: s')) with (tUt :: tPlus :: removelast (x :: s')). cbn [split_plus]. destruct (split_plus (removelast (x :: s'))) as [|y q] eqn:Q; [|eexists; reflexivity].
      exfalso. destruct (removelast (x :: s')); cbn in Q; [discriminate|destruct (split_plus l); [discriminate|destruct (n =? tPlus); discriminate]]. }
    destruct P0 as [q P0]. assert (K0 : exists q', ks = [tUt] :: q'). { unfold ks. rewrite P0. cbn [keep existsb]. eexists. reflexivity. }
    destruct K0 as [q' K0]. split; [rewrite K0; reflexivity|]. unfold delete_duplicate. fold ps. fold ks. rewrite K0. destruct q' as [|y q']; [rewrite join_one; eexists; reflexivity|rewrite join_cons; eexists; reflexivity]. }
  destruct HU as [HU [q0 HQ]].
  exists ps, ks, (map (fun c => case_reward lsq lg c (combine (evens (delete_duplicate s)) (odds (delete_duplicate s)))) cases).
  split; [apply split_products|]. split; [apply keep_spec|]. split; [exact FK|]. split; [exact HU|]. split.
  { clear - CC FK NK. induction cases as [|c cases IH]; cbn; constructor; [|apply IH; intros; apply CC; now right]. apply C108_case_score; auto. apply CC. now left. }
  cbv zeta. unfold reward. set (S0 := delete_duplicate s) in *. pose proof (forbidden_spec ks FK NK) as FS. change (join_plus ks ++ [tE]) with S0 in FS.
  assert (MT : forall b, (if mentions variables S0 then b else Fin 0) = (if contains "x" (check_text S0) || contains "Div" (check_text S0) || contains "Laplace" (check_text S0) then b else Fin 0)).
  { intros b. unfold mentions, variables. cbn [forallb]. replace (contains "t" (check_text S0)) with true; [cbn [orb andb]; rewrite andb_true_r; reflexivity|].
    symmetry. rewrite HQ. unfold check_text. cbn [map]. change (if String.eqb (word tUt) "sqrt(x)" then "sqr(x)" else if String.eqb (word tUt) "sqrt(u)" then "sqr(u)" else word tUt) with "ut". destruct (map _ q0); reflexivity. }
  rewrite MT. split; [|split].
  - intros X. apply FS in X. rewrite X. destruct (_ || _)%bool; reflexivity.
  - intros -> -> ->. reflexivity.
  - intros X ->. cbn [orb]. replace (forbidden (evens S0)) with false by (symmetry; apply not_true_iff_false; intros Z; apply X; apply FS; exact Z).
    destruct (join_odds ks FK NK) as [JO JE]. change (join_plus ks ++ [tE]) with S0 in JO, JE. unfold well_formed. rewrite (max_le _ JO), even_lengths, JE. cbn [andb]. f_equal.
    clear. induction cases as [|c cases IH]; cbn [map flat_map]; [reflexivity|]. f_equal. exact IH.
Qed.
(** The mean of finite scores *)
Theorem C108_mean rs : rs <> [] -> exists q, nmean (map Fin rs) = Fin q /\ (q == mean_of rs)%Q.
Proof.
  intros N. assert (X : exists q, fold_right nadd (Fin 0) (map Fin rs) = Fin q /\ (q == qsum rs)%Q).
  { clear. induction rs as [|r rs (q & E & H)]; [exists 0%Q; split; reflexivity|]. cbn [map fold_right qsum]. rewrite E. exists (r + q)%Q. split; [reflexivity|]. rewrite H. reflexivity. }
  destruct X as (q & E & H). unfold nmean. destruct (map Fin rs) eqn:M; [destruct rs; [congruence|discriminate]|]. rewrite <- M in *. rewrite E. cbn [ndiv].
  replace (Qeq_bool (inject_Z (Z.of_nat (List.length (map Fin rs)))) 0) with false.
  - eexists. split; [reflexivity|]. rewrite H, map_length. reflexivity.
  - symmetry. apply not_true_iff_false. intros Z. apply Qeq_bool_iff in Z. rewrite map_length in Z. destruct rs as [|r rs]; [congruence|]. cbn [List.length] in Z. unfold Qeq, inject_Z in Z. cbn [Qnum Qden] in Z. lia.
Qed.
(** If the solver finds a least-squares solution, no other coefficients would have scored higher. *)
Theorem C108_best_coefficients c ut qs x y rows : (sse c ut qs x rows <= sse c ut qs y rows)%Q -> (0 < spread c ut rows)%Q ->
  (1 - sse c ut qs y rows / spread c ut rows <= 1 - sse c ut qs x rows / spread c ut rows)%Q.
Proof.
  intros H S0. unfold Qdiv. assert (I : (0 <= / spread c ut rows)%Q) by (apply Qinv_le_0_compat; apply Qlt_le_weak; exact S0).
  assert (sse c ut qs x rows * / spread c ut rows <= sse c ut qs y rows * / spread c ut rows)%Q by (apply Qmult_le_compat_r; assumption). lra.
Qed.
(** A candidate cut off at 48 tokens: unless its unfinished last product repeats an earlier one, the reward is 0. *)
Theorem C108_cut_off lsq lg cases mask d s ps : candidate mask d = Some s -> last s 0 <> tE -> products s ps ->
  (forall p, In p (removelast ps) -> ~ same_factors p (last ps [])) -> reward lsq lg cases variables s = Fin 0.
Proof.
  intros C E P NS. destruct (C105_candidates _ _ _ C) as (F & L & EV & K & EE & _).
  assert (CH : chop s = s) by (unfold chop; apply Nat.eqb_neq in E; rewrite E; reflexivity).
  (* the last token is an operator: all products but the last are complete, the last has even length *)
  assert (AL : forall i k, nth_error s i = Some k -> if Nat.even i then k <> tPlus else k = tPlus \/ k = tTimes \/ k = tDiv).
  { intros i k Hi. assert (NE : k <> tE). { intros ->. apply E. pose proof (EE i Hi). destruct s as [|x s _] using rev_ind; [destruct i; discriminate|]. rewrite last_last. rewrite app_length in H. cbn in H. rewrite nth_error_app2 in Hi by lia. replace (i - List.length s) with 0 in Hi by lia. cbn in Hi. congruence. }
    destruct i as [|[|i]].
    - destruct s as [|a [|b s]]; cbn in F; try discriminate. injection F as -> ->. cbn in Hi. injection Hi as <-. discriminate.
    - destruct s as [|a [|b s]]; cbn in F; try discriminate. injection F as -> ->. cbn in Hi. injection Hi as <-. now left.
    - destruct (K (S (S i)) k ltac:(lia) Hi) as [_ X]. destruct (Nat.even (S (S i))); unfold is_term, is_operator, tPlus, tTimes, tDiv, tE in *; lia. }
  assert (SP : Forall product (removelast (split_plus s)) /\ Nat.even (List.length (last (split_plus s) [])) = true /\ split_plus s <> []).
  { clear - EV AL. induction s as [|a|a b r IH] using two_step.
    - cbn. repeat split; [constructor|discriminate].
    - discriminate.
    - destruct IH as (A & B & D); [exact EV|intros i k Hi; exact (AL (S (S i)) k Hi)|]. pose proof (AL 0 a eq_refl) as Ha. pose proof (AL 1 b eq_refl) as Hb. cbn [Nat.even] in Ha, Hb. apply Nat.eqb_neq in Ha.
      cbn [split_plus]. destruct (split_plus r) as [|seg q] eqn:Q; [congruence|]. destruct Hb as [->|Hb].
      + cbn [Nat.eqb tPlus]. rewrite Ha. split; [|split; [exact B|discriminate]]. change (removelast ([a] :: seg :: q)) with ([a] :: removelast (seg :: q)). constructor; [constructor|exact A].
      + replace (b =? tPlus) with false by (destruct Hb as [-> | ->]; reflexivity). rewrite Ha. destruct q as [|s2 q].
        * cbn in *. split; [constructor|]. split; [exact B|discriminate].
        * change (removelast (seg :: s2 :: q)) with (seg :: removelast (s2 :: q)) in A. inversion A; subst. split; [|split; [exact B|discriminate]].
          change (removelast ((a :: b :: seg) :: s2 :: q)) with ((a :: b :: seg) :: removelast (s2 :: q)). constructor; [constructor; assumption|assumption]. }
  rewrite <- (products_fun _ _ P) in SP. destruct SP as (A & B & D). destruct (exists_last D) as (q & z & ->). rewrite removelast_last, last_last in *.
  (* the kept products end with z *)
  assert (KZ : forall seen l, (forall p, In p l -> key p <> key z) -> ~ In (key z) seen -> keep seen (l ++ [z]) = keep seen l ++ [z]).
  { clear. intros seen l. revert seen. induction l as [|p l IH]; intros seen H N; cbn [app keep].
    - destruct (existsb (list_eqb (key z)) seen) eqn:X; [apply existsb_key in X; contradiction|reflexivity].
    - destruct (existsb (list_eqb (key p)) seen); [apply IH; [intros; apply H; now right|exact N]|]. cbn [app]. f_equal. apply IH; [intros; apply H; now right|]. rewrite in_app_iff. intros [X|[X|[]]]; [exact (N X)|]. apply (H p); [now left|exact X]. }
  assert (EV2 : Nat.even (List.length (delete_duplicate s)) = false).
  { unfold delete_duplicate. rewrite CH, <- (products_fun _ _ P), KZ; [|intros p Hp X; apply (NS p Hp); apply key_same; exact X|intros []].
    assert (FK : Forall product (keep [] q)) by (rewrite Forall_forall in *; intros p Hp; apply A; eapply keep_incl; eauto).
    rewrite app_length, Nat.add_1_r, Nat.even_succ. rewrite <- Nat.negb_even. apply negb_false_iff. revert FK. generalize (keep [] q). clear - B. intros l FK. induction FK as [|p l Pp FK IH]; cbn [app].
    - rewrite join_one. exact B.
    - assert (J : join_plus (p :: l ++ [z]) = p ++ tPlus :: join_plus (l ++ [z])) by (destruct l; cbn [app]; apply join_cons). rewrite J, app_length. cbn [List.length]. rewrite Nat.add_succ_r, Nat.even_succ, Nat.odd_add. pose proof (product_odd p Pp) as O. rewrite O, <- Nat.negb_even, IH. reflexivity. }
  unfold reward, well_formed. rewrite even_lengths, EV2, andb_false_r. destruct (forbidden _), (mentions _ _); reflexivity.
Qed.

(** ** Where it is not what one expects *)
Definition demo_lsq (cols : list (list Q)) (b : list Q) : option (list Q) :=
  match cols with [a] => Some [(qsum (map2 Qmult a b) / qsum (map2 Qmult a a))%Q] | _ => Some (map (fun _ => 0%Q) cols) end.
Definition demo_lg (n : nat) : Q := if n <=? 1 then 0%Q else (3 # 10)%Q.
Definition column (l : list Q) : list num := map Fin l.
(** ut = 2 ux holds exactly; uxx cannot be evaluated at the last point; sinx equals ut *)
Definition demo_case : case := mkCase 3 (fun w => if w =? tok "ut" then column [2; 4; 8]%Q else if w =? tok "ux" then column [1; 2; 4]%Q else if w =? tok "uxx" then [Fin 1; Fin 1; NaN] else if w =? tok "sinx" then column [2; 4; 8]%Q else column [1; 1; 1]%Q).
Definition demo_case2 : case := mkCase 3 (fun w => if w =? tok "ut" then column [2; 4; 8]%Q else if w =? tok "ux" then [NaN; Fin 2; Fin 4] else column [1; 1; 1]%Q).
Lemma demo_complete : complete_case demo_case /\ complete_case demo_case2.
Proof.
  assert (I : forall (b : bool) x y, List.length x = 3 -> List.length y = 3 -> List.length (if b then x else y : list num) = 3) by (intros [|]; auto).
  split; intros w; unfold demo_case, demo_case2; cbn [value n_points]; repeat (apply I; [reflexivity|]); reflexivity.
Qed.
(** "A case where the equation cannot be evaluated counts 0" is false: it is left out of the mean, *)
Theorem C108_failed_case_left_out_refuted : exists c1 c2 s, candidate (mask_of variables) [tok "ux"; tE] = Some s /\ complete_case c1 /\ complete_case c2 /\
  case_reward demo_lsq demo_lg c2 (combine (evens (delete_duplicate s)) (odds (delete_duplicate s))) = None /\
  num_eqb (reward demo_lsq demo_lg [c1; c2] variables s) (Fin (994 # 1000)) = true.
Proof. exists demo_case, demo_case2, [6; 2; 8; 1]. destruct demo_complete. split; [vm_compute; reflexivity|]. split; [assumption|]. split; [assumption|]. split; vm_compute; reflexivity. Qed.
(** and when every case fails the reward is NaN, which is ranked first: the run reports the equation that could not be evaluated as the
    best one although another has a reward near 1. *)
Theorem C108_nan_reported_best_refuted : exists s1 s2 r1, candidate (mask_of variables) [tok "ux"; tE] = Some (s1 ++ [tE]) /\ candidate (mask_of variables) [tok "uxx"; tE] = Some (s2 ++ [tE]) /\
  sample_all demo_lsq demo_lg [demo_case] variables (mask_of variables) [[[tok "ux"; tE]; [tok "uxx"; tE]]] = Some [[(s1, r1); (s2, NaN)]] /\
  num_eqb r1 (Fin (994 # 1000)) = true /\
  (* torch.topk ranks NaN above every number *)
  let o := result (search None [[(s2, NaN); (s1, r1)]]) in o_best o = "ut+uxx" /\ o_best_reward o = NaN.
Proof.
  exists [6; 2; 8], [6; 2; 9], (reward demo_lsq demo_lg [demo_case] variables [6; 2; 8; 1]). split; [vm_compute; reflexivity|]. split; [vm_compute; reflexivity|]. split; [vm_compute; reflexivity|]. split; [vm_compute; reflexivity|]. cbv zeta. split; vm_compute; reflexivity.
Qed.
(** "An exact equation gets the highest score" is false for  ut - p = 0: a product equal to ut at every point is dropped as a repeated
    column, so nothing is left to explain ut and the score is negative. *)
Theorem C108_equal_to_ut_refuted : exists s, candidate (mask_of variables) [tok "sinx"; tE] = Some s /\ complete_case demo_case /\
  (forall i, i < 3 -> neq (at_point demo_case [tUt] i) (at_point demo_case [tok "sinx"] i)) /\ nlt (reward demo_lsq demo_lg [demo_case] variables s) (Fin 0) = true.
Proof.
  exists [6; 2; 46; 1]. split; [vm_compute; reflexivity|]. split; [apply demo_complete|]. split; [|vm_compute; reflexivity]. intros [|[|[|i]]] Hi; try lia; split; vm_compute; reflexivity.
Qed.
Example C108_case : num_eqb (reward demo_lsq demo_lg [demo_case] variables [6; 2; 8; 1]) (Fin (994 # 1000)) = true /\
  at_point demo_case [tok "u"; tTimes; tok "ux"; tDiv; tok "ut"] 1 = product_value (fun w => nth 1 (value demo_case w) NaN) [7; 3; 8; 4; 6] /\
  num_eqb (at_point demo_case [tok "u"; tTimes; tok "ux"; tDiv; tok "ut"] 1) (Fin (1 # 2)) = true /\
  reward demo_lsq demo_lg [demo_case] variables [6; 2; 7; 2; 29; 2; 8; 1] = Fin 0 /\ reward demo_lsq demo_lg [demo_case] variables [6; 2; 7; 1] = Fin 0.
Proof. repeat split; vm_compute; reflexivity. Qed.
Print Assumptions C108_case_score.
Print Assumptions C108_reward.
Print Assumptions C108_mean.
Print Assumptions C108_best_coefficients.
Print Assumptions C108_cut_off.
Print Assumptions C108_failed_case_left_out_refuted.
Print Assumptions C108_nan_reported_best_refuted.
Print Assumptions C108_equal_to_ut_refuted.
