(** Lemmas about the model in SgaAuto.v. *)
From Coq Require Import QArith Qabs Qround Qfield Qminmax Lqa Permutation.
From Verif Require Import Base Arrays SgaNaming SgaNamingFacts PropsNaming SgaRegistry PropsRegistry SgaAuto.
Local Open Scope nat_scope.

(** replacing entry j *)
Definition upd (p : list Q) (j : nat) (v : Q) : list Q := firstn j p ++ v :: skipn (S j) p.
Lemma upd_length p j v : j < List.length p -> List.length (upd p j v) = List.length p.
Proof. intros H. unfold upd. rewrite app_length, firstn_length. cbn [List.length]. rewrite skipn_length. lia. Qed.
Lemma upd_same : forall p j, j < List.length p -> upd p j (nth j p 0%Q) = p.
Proof. induction p as [|x p IH]; intros [|j] H; cbn in H; try lia; [reflexivity|]. unfold upd in *. cbn [firstn skipn nth app]. f_equal. apply IH. lia. Qed.
Lemma nth_upd p j v : j < List.length p -> nth j (upd p j v) 0%Q = v.
Proof. intros H. unfold upd. rewrite app_nth2; rewrite firstn_length; [|lia]. replace (j - Nat.min j (List.length p)) with 0 by lia. reflexivity. Qed.
Lemma nth_upd_other : forall p j i v, i <> j -> nth i (upd p j v) 0%Q = nth i p 0%Q \/ List.length p <= j.
Proof.
  induction p as [|x p IH]; intros [|j] [|i] v H; cbn [List.length]; try (right; lia); try congruence; [left; reflexivity|left; reflexivity|].
  destruct (IH j i v ltac:(lia)) as [E|E]; [left|right; lia]. unfold upd in *. cbn [firstn skipn app nth]. exact E.
Qed.

(** ** Rows of the grid *)
(** the coordinates of a cell, in axis order *)
Definition cell (coords : list (pystr * list Q)) (axes : list pystr) (idx : list nat) : list Q :=
  map (fun p => nth (snd p) (coord_of coords (fst p)) 0%Q) (combine axes idx).
Lemma cell_length coords axes idx : List.length idx = List.length axes -> List.length (cell coords axes idx) = List.length axes.
Proof. intros H. unfold cell. rewrite map_length, combine_length. lia. Qed.
Lemma nth_combine {A B} : forall (l : list A) (l' : list B) i a b, i < List.length l -> i < List.length l' -> nth i (combine l l') (a, b) = (nth i l a, nth i l' b).
Proof. induction l as [|x l IH]; intros [|y l'] [|i] a b H H'; cbn in *; try lia; auto. apply IH; lia. Qed.
Lemma nth_cell coords axes idx j : List.length idx = List.length axes -> j < List.length axes ->
  nth j (cell coords axes idx) 0%Q = nth (nth j idx 0) (coord_of coords (nth j axes [])) 0%Q.
Proof.
  intros H Hj. unfold cell. set (F := fun p : pystr * nat => nth (snd p) (coord_of coords (fst p)) 0%Q).
  rewrite nth_indep with (d' := F ([], 0)) by (rewrite map_length, combine_length; lia). rewrite map_nth, nth_combine by lia. reflexivity.
Qed.
Lemma stack_length n cols : List.length (stack n cols) = n. Proof. unfold stack. now rewrite map_length, seq_length. Qed.
Lemma stack_nth n cols k : k < n -> nth k (stack n cols) [] = map (fun c => nth k c 0%Q) cols.
Proof. intros H. unfold stack. now rewrite nth_map_seq. Qed.
Lemma grid_rows_length coords axes : List.length (grid_rows coords axes) = prod (grid_shape_of coords axes).
Proof. apply stack_length. Qed.
Lemma coord_grid_flat c ax s idx : inb s idx -> nth (ravel s idx) (flat (coord_grid c ax s)) 0%Q = nth (nth ax idx 0) c 0%Q.
Proof.
  intros H. pose proof (tabulate_get s (fun idx => nth (nth ax idx 0) c 0%Q) idx H) as G. unfold get in G. apply nth_error_nth with (d := 0%Q) in G.
  exact G.
Qed.
Lemma grid_rows_nth coords axes idx : inb (grid_shape_of coords axes) idx ->
  nth (ravel (grid_shape_of coords axes) idx) (grid_rows coords axes) [] = cell coords axes idx.
Proof.
  intros H. unfold grid_rows. pose proof (inb_length _ _ H) as L. unfold grid_shape_of in L at 1. rewrite map_length in L.
  rewrite stack_nth by (apply ravel_lt, H). rewrite map_map. apply (nth_ext _ _ 0%Q 0%Q); [rewrite map_length, seq_length, cell_length; auto|].
  intros j Hj. rewrite map_length, seq_length in Hj. rewrite nth_map_seq by exact Hj. rewrite coord_grid_flat by exact H. symmetry. apply nth_cell; auto.
Qed.
Lemma grid_row_len coords axes r : In r (grid_rows coords axes) -> List.length r = List.length axes.
Proof. unfold grid_rows, stack. intros H. apply in_map_iff in H. destruct H as (k & <- & _). now rewrite map_length, map_length, seq_length. Qed.

(** ** Scaling *)
Lemma safe_nz s : ~ (safe s == 0)%Q.
Proof. unfold safe. destruct (Qeq_bool s 0) eqn:E; [discriminate|]. intros H. apply Qeq_bool_iff in H. congruence. Qed.
Definition dim (st : stats) (d : nat) : Prop := List.length (x_mean st) = d /\ List.length (x_std st) = d.
Lemma stats_dim sd d X y : dim (stats_of sd d X y) d.
Proof. unfold dim, stats_of, columns. cbn. now rewrite !map_length, seq_length. Qed.
Lemma stats_nz sd d X y j : j < d -> ~ (nth j (x_std (stats_of sd d X y)) 0 == 0)%Q.
Proof.
  intros H. unfold stats_of, columns. cbn [x_std]. rewrite map_map. rewrite nth_map_seq by exact H. apply safe_nz.
Qed.
Lemma norm_row_length st d p : dim st d -> List.length p = d -> List.length (norm_row st p) = d.
Proof. intros [H1 H2] H. unfold norm_row. rewrite map_length, !combine_length. lia. Qed.
Lemma nth_norm_row st d p j : dim st d -> List.length p = d -> j < d ->
  nth j (norm_row st p) 0%Q = ((nth j p 0 - nth j (x_mean st) 0) / nth j (x_std st) 0)%Q.
Proof.
  intros [H1 H2] H Hj. unfold norm_row. set (F := fun p : Q * (Q * Q) => ((fst p - fst (snd p)) / snd (snd p))%Q).
  rewrite nth_indep with (d' := F (0%Q, (0%Q, 0%Q))) by (rewrite map_length, !combine_length; lia). rewrite map_nth, !nth_combine; try lia; [reflexivity|]. rewrite combine_length. lia.
Qed.
Lemma norm_row_upd st d p j v : dim st d -> List.length p = d -> j < d ->
  norm_row st (upd p j v) = upd (norm_row st p) j ((v - nth j (x_mean st) 0) / nth j (x_std st) 0)%Q.
Proof.
  intros Hd H Hj. apply (nth_ext _ _ 0%Q 0%Q).
  - rewrite (norm_row_length st d) by (auto; rewrite upd_length; lia). rewrite upd_length by (rewrite (norm_row_length st d); auto). rewrite (norm_row_length st d); auto.
  - rewrite (norm_row_length st d) by (auto; rewrite upd_length; lia). intros i Hi.
    rewrite (nth_norm_row st d) by (auto; rewrite upd_length; lia). destruct (Nat.eq_dec i j) as [->|N].
    + rewrite !nth_upd by (try rewrite (norm_row_length st d); auto; lia). reflexivity.
    + destruct (nth_upd_other p j i v N) as [E|E]; [|lia]. rewrite E.
      destruct (nth_upd_other (norm_row st p) j i ((v - nth j (x_mean st) 0) / nth j (x_std st) 0)%Q N) as [E'|E']; [|rewrite (norm_row_length st d) in E'; auto; lia].
      rewrite E'. symmetry. apply (nth_norm_row st d); auto.
Qed.

(** ** Derivatives *)
(** l is the limit of the difference quotients of f at a *)
Definition is_derivative (f : Q -> Q) (a l : Q) : Prop :=
  (forall eps, 0 < eps -> exists del, 0 < del /\ forall y, ~ y == a -> Qabs (y - a) < del -> Qabs ((f y - f a) / (y - a) - l) < eps)%Q.
Lemma is_derivative_ext f g a l : (forall x, (f x == g x)%Q) -> is_derivative f a l -> is_derivative g a l.
Proof. intros E H eps He. destruct (H eps He) as (del & Hd & K). exists del. split; [exact Hd|]. intros y. rewrite <- !E. apply K. Qed.
Lemma is_derivative_eq f a l l' : (l == l')%Q -> is_derivative f a l -> is_derivative f a l'.
Proof. intros E H eps He. destruct (H eps He) as (del & Hd & K). exists del. split; [exact Hd|]. intros y. rewrite <- E. apply K. Qed.
(** chain rule for the scaling of input and output *)
Lemma is_derivative_scale F a m s c k l : ~ (s == 0)%Q -> is_derivative F ((a - m) / s)%Q l ->
  is_derivative (fun v => (c + k * F ((v - m) / s))%Q) a (l * (k / s))%Q.
Proof.
  intros Hs H eps He. set (w := Qabs (k / s)). assert (W : (0 <= w)%Q) by apply Qabs_nonneg.
  assert (He' : (0 < eps / (w + 1))%Q) by (apply Qlt_shift_div_l; lra).
  destruct (H _ He') as (del & Hd & K). assert (As : (0 < Qabs s)%Q).
  { destruct (Qlt_le_dec 0 (Qabs s)) as [X|X]; [exact X|]. exfalso. apply Hs. apply Qabs_case with (P := fun q => (q <= 0)%Q -> (s == 0)%Q) in X; [exact X| |]; intros; lra. }
  exists (del * Qabs s)%Q. split; [apply Qmult_lt_0_compat; assumption|]. intros y Hy Hya.
  assert (Ny : ~ ((y - m) / s == (a - m) / s)%Q).
  { intros E. apply Hy. assert (X1 : (y - m == (y - m) / s * s)%Q) by (field; exact Hs). assert (X2 : (a - m == (a - m) / s * s)%Q) by (field; exact Hs).
    rewrite E in X1. lra. }
  assert (Eq1 : ((y - m) / s - (a - m) / s == (y - a) / s)%Q) by (field; exact Hs).
  assert (Cl : (Qabs ((y - m) / s - (a - m) / s) < del)%Q).
  { rewrite Eq1. unfold Qdiv. rewrite Qabs_Qmult. rewrite Qabs_Qinv. apply Qlt_shift_div_r; [exact As|]. exact Hya. }
  specialize (K _ Ny Cl). assert (Hya' : ~ (y - a == 0)%Q) by (intros E; apply Hy; lra).
  assert (Eq2 : ((c + k * F ((y - m) / s) - (c + k * F ((a - m) / s))) / (y - a) - l * (k / s) ==
     (k / s) * ((F ((y - m) / s) - F ((a - m) / s)) / ((y - m) / s - (a - m) / s) - l))%Q).
  { assert (Z1 : ~ (((y - m) / s - (a - m) / s) == 0)%Q) by (intros E; apply Ny; lra).
    set (f1 := F ((y - m) / s)%Q) in *. set (f2 := F ((a - m) / s)%Q) in *. rewrite Eq1. field. split; assumption. }
  rewrite Eq2. rewrite Qabs_Qmult. fold w.
  assert (X : (w * Qabs ((F ((y - m) / s) - F ((a - m) / s)) / ((y - m) / s - (a - m) / s) - l) <= w * (eps / (w + 1)))%Q).
  { rewrite (Qmult_comm w), (Qmult_comm w). apply Qmult_le_compat_r; [lra|exact W]. }
  eapply Qle_lt_trans; [exact X|]. assert (Y : (w * (eps / (w + 1)) == eps - eps / (w + 1))%Q) by (field; lra). rewrite Y. lra.
Qed.
(** uniqueness of the limit *)
Lemma is_derivative_unique f a l l' : is_derivative f a l -> is_derivative f a l' -> (l == l')%Q.
Proof.
  intros H H'. destruct (Qeq_dec l l') as [E|E]; [exact E|]. exfalso. set (e := (Qabs (l - l') / 2)%Q).
  assert (P : (0 < e)%Q). { unfold e. apply Qlt_shift_div_l; [reflexivity|]. apply Qabs_case; intros; [|]; destruct (Qlt_le_dec (l - l') 0); try lra; assert (~ l - l' == 0)%Q by (intros X; apply E; lra); lra. }
  destruct (H e P) as (d & Hd & K). destruct (H' e P) as (d' & Hd' & K'). set (h := (Qmin d d' / 2)%Q).
  assert (Hm : (0 < Qmin d d')%Q) by (apply Q.min_glb_lt; assumption). assert (Hh : (0 < h)%Q) by (unfold h; apply Qlt_shift_div_l; [reflexivity|lra]).
  assert (Hh2 : (h < Qmin d d')%Q) by (unfold h; apply Qlt_shift_div_r; [reflexivity|lra]). pose proof (Q.le_min_l d d'). pose proof (Q.le_min_r d d').
  assert (N : ~ (a + h == a)%Q) by lra. assert (A : (Qabs (a + h - a) == h)%Q) by (setoid_replace (a + h - a)%Q with h by lra; apply Qabs_pos; lra).
  specialize (K _ N ltac:(rewrite A; lra)). specialize (K' _ N ltac:(rewrite A; lra)). set (q := ((f (a + h) - f a) / (a + h - a))%Q) in *.
  assert (T : (Qabs (l - l') <= Qabs (q - l') + Qabs (q - l))%Q).
  { setoid_replace (l - l')%Q with ((q - l') + - (q - l))%Q by lra. eapply Qle_trans; [apply Qabs_triangle|]. rewrite Qabs_opp. lra. }
  assert (X : (Qabs (l - l') == 2 * e)%Q) by (unfold e; field). rewrite X in T. lra.
Qed.

(** ** Networks *)
Section Net.
Context {M : Type}.
Variables (sd : list Q -> Q) (D : M -> list nat -> list Q -> Q).
(** the derivatives reported for a network are its derivatives *)
Definition differentiable (m : M) : Prop :=
  forall js p j, j < List.length p -> is_derivative (fun v => D m js (upd p j v)) (nth j p 0%Q) (D m (j :: js) p).
(** the function of the coordinates that a network trained on scaled data stands for *)
Definition surrogate (normal : bool) (st : stats) (m : M) (p : list Q) : Q :=
  if normal then (y_mean st + y_std st * D m [] (norm_row st p))%Q else D m [] p.
(** the same for a derivative *)
Definition sder (normal : bool) (st : stats) (m : M) (js : list nat) (p : list Q) : Q :=
  if normal then (D m js (norm_row st p) * (y_std st / product st js))%Q else D m js p.
Lemma sder_first normal st d m p j : differentiable m -> dim st d -> List.length p = d -> j < d -> ~ (nth j (x_std st) 0 == 0)%Q ->
  is_derivative (fun v => surrogate normal st m (upd p j v)) (nth j p 0%Q) (sder normal st m [j] p).
Proof.
  intros Df Hd Hp Hj Hs. unfold surrogate, sder. destruct normal; [|apply Df; lia].
  eapply is_derivative_eq; [|eapply is_derivative_ext; [|apply (is_derivative_scale (fun z => D m [] (upd (norm_row st p) j z)) (nth j p 0%Q) (nth j (x_mean st) 0%Q) (nth j (x_std st) 0%Q) (y_mean st) (y_std st) (D m [j] (norm_row st p)) Hs)]].
  - unfold product. cbn [fold_right]. rewrite Qmult_1_r. reflexivity.
  - intros x. cbn beta. rewrite (norm_row_upd st d) by auto. reflexivity.
  - rewrite <- (nth_norm_row st d p j Hd Hp Hj). apply Df. rewrite (norm_row_length st d); auto.
Qed.
Lemma sder_next normal st d m js p j : differentiable m -> dim st d -> List.length p = d -> j < d -> ~ (nth j (x_std st) 0 == 0)%Q ->
  is_derivative (fun v => sder normal st m js (upd p j v)) (nth j p 0%Q) (sder normal st m (j :: js) p).
Proof.
  intros Df Hd Hp Hj Hs. unfold sder. destruct normal; [|apply Df; lia].
  eapply is_derivative_eq; [|eapply is_derivative_ext; [|apply (is_derivative_scale (fun z => D m js (upd (norm_row st p) j z)) (nth j p 0%Q) (nth j (x_mean st) 0%Q) (nth j (x_std st) 0%Q) 0%Q (y_std st / product st js)%Q (D m (j :: js) (norm_row st p)) Hs)]].
  - unfold product. cbn [fold_right]. unfold Qdiv. rewrite Qinv_mult_distr. ring.
  - intros x. cbn beta. rewrite (norm_row_upd st d) by auto. ring.
  - rewrite <- (nth_norm_row st d p j Hd Hp Hj). apply Df. rewrite (norm_row_length st d); auto.
Qed.
End Net.

(** ** Dictionaries *)
Lemma dset_get {B} (d : list (pystr * B)) k v k' : dget (dset d k v) k' = if streq k k' then Some v else dget d k'.
Proof.
  induction d as [|[x w] d IH]; cbn [dset dget]; [reflexivity|]. destruct (streq x k) eqn:E.
  - apply streq_eq in E. subst x. cbn [dget]. destruct (streq k k'); reflexivity.
  - cbn [dget]. destruct (streq x k') eqn:E'; [|exact IH]. apply streq_eq in E'. subst x. destruct (streq k k') eqn:E2; [apply streq_eq in E2; subst; rewrite streq_refl in E; discriminate|reflexivity].
Qed.
Lemma dset_keys {B} (d : list (pystr * B)) k v x : In x (keys (dset d k v)) <-> x = k \/ In x (keys d).
Proof.
  induction d as [|[y w] d IH]; cbn [dset keys map fst]; [cbn; intuition congruence|]. destruct (streq y k) eqn:E; cbn [keys map fst In].
  - apply streq_eq in E. subst y. intuition congruence.
  - fold (keys (dset d k v)). fold (keys d). rewrite IH. intuition congruence.
Qed.
Lemma dset_nodup {B} (d : list (pystr * B)) k v : NoDup (keys d) -> NoDup (keys (dset d k v)).
Proof.
  induction d as [|[y w] d IH]; cbn [dset keys map fst]; intros N; [constructor; [intros []|constructor]|]. inversion N as [|? ? N1 N2]; subst.
  destruct (streq y k) eqn:E; cbn [keys map fst]; [exact N|]. constructor; [|apply IH, N2]. fold (keys (dset d k v)). rewrite dset_keys. intros [->|X]; [rewrite streq_refl in E; discriminate|]. apply N1, X.
Qed.
Lemma dget_key {B} (d : list (pystr * B)) k : In k (keys d) <-> exists v, dget d k = Some v.
Proof.
  split.
  - induction d as [|[x w] d IH]; cbn; [intros []|]. destruct (streq x k) eqn:E; [eauto|]. intros [->|H]; [rewrite streq_refl in E; discriminate|auto].
  - intros (v & H). apply dget_In in H. apply in_map_iff. exists (k, v). auto.
Qed.
Lemma dget_none {B} (d : list (pystr * B)) k : dget d k = None <-> ~ In k (keys d).
Proof. rewrite dget_key. destruct (dget d k) as [v|]; split; [discriminate| | |reflexivity]; [intros H; exfalso; apply H; eauto|intros _ (v & X); discriminate X]. Qed.
Lemma index_of_nth a l : In a l -> index_of a l < List.length l /\ nth (index_of a l) l [] = a.
Proof.
  induction l as [|x l IH]; [intros []|]. cbn [index_of]. destruct (streq x a) eqn:E; [apply streq_eq in E; subst; intros _; cbn; split; [lia|reflexivity]|].
  intros [->|H]; [rewrite streq_refl in E; discriminate|]. destruct (IH H). cbn. split; [lia|assumption].
Qed.
Lemma index_of_of_nth l : NoDup l -> forall j, j < List.length l -> index_of (nth j l []) l = j.
Proof.
  induction l as [|x l IH]; intros N [|j] H; cbn in H; try lia; cbn [nth index_of]; [rewrite streq_refl; reflexivity|]. inversion N as [|? ? N1 N2]; subst.
  destruct (streq x (nth j l [])) eqn:E; [apply streq_eq in E; exfalso; apply N1; rewrite E; apply nth_In; lia|]. f_equal. apply IH; [exact N2|lia].
Qed.
Lemma dget_seq {B} (axes : list pystr) (F : nat -> B) a : NoDup axes -> In a axes ->
  dget (map (fun j => (nth j axes [], F j)) (seq 0 (List.length axes))) a = Some (F (index_of a axes)).
Proof.
  intros N H. apply dget_some.
  - unfold keys. rewrite map_map. cbn [fst]. replace (map (fun x => nth x axes []) (seq 0 (List.length axes))) with axes; [exact N|].
    apply (nth_ext _ _ [] []); [now rewrite map_length, seq_length|]. intros i Hi. now rewrite (nth_map_seq (fun x => nth x axes [])).
  - destruct (index_of_nth a axes H) as [L E]. apply in_map_iff. exists (index_of a axes). split; [now rewrite E|]. apply in_seq. lia.
Qed.

(** the derivative table when it starts with entries *)
Lemma grad_loop_gen {A} (fd : A -> Q -> nat -> res A) (cf : config (A := A)) axes deltas primary ux : forall ps g g', NoDup (keys g) -> grad_loop fd cf axes deltas primary ux ps g = Ok g' ->
  NoDup (keys g') /\ incl g g' /\
  (forall k v, In (k, v) g' -> In (k, v) g \/ ~ In k (keys g) /\ exists f w a, In ((f, w), a) ps /\ a <> c_lhs cf /\ k = dkey f a /\
     (if streq f (c_target cf) && streq a primary then Ok ux else fd w (match dget deltas a with Some d => d | None => 0%Q end) (index_of a axes)) = Ok v) /\
  (forall f w a, In ((f, w), a) ps -> a <> c_lhs cf -> In (dkey f a) (keys g')).
Proof.
  induction ps as [|[[f w] a] ps IH]; intros g g' Ng; cbn [grad_loop].
  - intros [= <-]. split; [exact Ng|]. split; [apply incl_refl|]. split; [auto|intros ? ? ? []].
  - unfold grad_one. destruct (streq a (c_lhs cf)) eqn:EL.
    + apply streq_eq in EL. subst a. cbn [bind]. intros H. destruct (IH g g' Ng H) as (N' & I' & S' & C'). split; [exact N'|]. split; [exact I'|]. split.
      * intros k v Hk. destruct (S' k v Hk) as [X|(Z1 & f' & w' & a' & X & Y)]; [auto|]. right. split; [exact Z1|]. exists f', w', a'. split; [right; exact X|exact Y].
      * intros f' w' a' [[= <- <- <-]|X] Na; [congruence|eapply C'; eassumption].
    + apply streq_ne in EL. cbn [fst snd]. destruct (build_key f a 1) as [key|] eqn:B; [|discriminate]. cbn [bind]. pose proof (build_dkey _ _ _ B) as Kk.
      destruct (inl key (keys g)) eqn:Ik.
      * cbn [bind]. intros H. destruct (IH g g' Ng H) as (N' & I' & S' & C'). split; [exact N'|]. split; [exact I'|]. split.
        -- intros k v Hk. destruct (S' k v Hk) as [X|(Z1 & f' & w' & a' & X & Y)]; [auto|]. right. split; [exact Z1|]. exists f', w', a'. split; [right; exact X|exact Y].
        -- intros f' w' a' [[= <- <- <-]|X] Na; [|eapply C'; eassumption]. apply inl_In in Ik. rewrite Kk in Ik. apply in_map_iff in Ik. destruct Ik as (e & E1 & E2). apply in_map_iff. exists e. split; [exact E1|apply I', E2].
      * apply inl_nIn in Ik. destruct (if streq f (c_target cf) && streq a primary then Ok ux else _) as [v|] eqn:V; [|discriminate]. cbn [bind]. intros H.
        assert (Ng' : NoDup (keys (g ++ [(key, v)]))).
        { unfold keys. rewrite map_app. cbn [map fst]. apply NoDup_rev in Ng. rewrite <- (rev_involutive (map fst g ++ [key])). apply NoDup_rev. rewrite rev_app_distr. cbn. constructor; [rewrite <- in_rev; exact Ik|exact Ng]. }
        destruct (IH _ _ Ng' H) as (N' & I' & S' & C'). split; [exact N'|]. split; [intros e He; apply I', in_app_iff; auto|]. split.
        -- intros k v' Hk. destruct (S' k v' Hk) as [X|(Z1 & f' & w' & a' & X & Y)].
           ++ apply in_app_iff in X. destruct X as [X|[[= <- <-]|[]]]; [auto|]. right. split; [exact Ik|]. exists f, w, a. split; [left; reflexivity|]. auto.
           ++ right. split; [intros X'; apply Z1; unfold keys; rewrite map_app; apply in_app_iff; auto|]. exists f', w', a'. split; [right; exact X|exact Y].
        -- intros f' w' a' [[= <- <- <-]|X] Na; [|eapply C'; eassumption]. apply in_map_iff. exists (key, v). split; [exact Kk|]. apply I', in_app_iff. right. left. reflexivity.
Qed.
