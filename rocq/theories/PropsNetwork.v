(** C153: the network DLGA fits to the data. *)
From Coq Require Import QArith Lqa.
From Verif Require Import Base Network.
Local Open Scope list_scope.

(** ** Specification *)
(** the layers of [n] go from width [i] to width [o], with one activation between two layers: true of a new network
    and unchanged by training, which replaces numbers only *)
Definition layer_shape (l : linear) (i o : nat) : Prop := List.length (weight l) = o /\ List.length (bias l) = o /\ Forall (fun w => List.length w = i) (weight l).
Inductive path : list linear -> list activation -> nat -> nat -> Prop :=
| Last l i o : layer_shape l i o -> path [l] [] i o
| More l f ls fs i m o : layer_shape l i m -> (0 < m)%nat -> path ls fs m o -> path (l :: ls) (f :: fs) i o.
Definition shape (n : network) (i o : nat) : Prop := (0 < i)%nat /\ (0 < o)%nat /\ path (layers n) (acts n) i o.
Definition opp_rows (X : list (list Q)) : list (list Q) := map (map Qopp) X.
(** equal entry by entry *)
Definition same_rows (X Y : list (list Q)) : Prop := Forall2 (Forall2 Qeq) X Y.

(** ** Lemmas *)
Lemma mapM_length {A B} (f : A -> res B) l r : mapM f l = Ok r -> List.length r = List.length l.
Proof. revert r. induction l as [|a l IH]; intros r H; cbn in H; [injection H as <-; reflexivity|]. destruct (f a); [|discriminate]. cbn in H. destruct (mapM f l) as [r'|]; [|discriminate]. injection H as <-. cbn. rewrite (IH r'); reflexivity. Qed.
Lemma mapM_app {A B} (f : A -> res B) l m : mapM f (l ++ m) = do a <- mapM f l ; do b <- mapM f m ; Ok (a ++ b).
Proof.
  induction l as [|x l IH]; cbn; [destruct (mapM f m); reflexivity|]. destruct (f x); [|reflexivity]. cbn. rewrite IH. destruct (mapM f l); [|reflexivity]. cbn. destruct (mapM f m); reflexivity.
Qed.
Lemma linear_row_ok l i o x : layer_shape l i o -> List.length x = i -> exists y, linear_row l x = Ok y /\ List.length y = o.
Proof.
  intros (H1 & H2 & H3) L. unfold linear_row. assert (forallb (fun w => Nat.eqb (List.length w) (List.length x)) (weight l) = true) as ->.
  { apply forallb_forall. intros w I. rewrite Forall_forall in H3. apply Nat.eqb_eq. rewrite L. apply H3, I. }
  eexists. split; [reflexivity|]. rewrite map_length, combine_length. lia.
Qed.
Lemma linear_batch_ok l i o X : layer_shape l i o -> Forall (fun x => List.length x = i) X -> exists Y, linear_batch l X = Ok Y /\ List.length Y = List.length X /\ Forall (fun y => List.length y = o) Y.
Proof.
  intros S F. induction F as [|x X Hx F (Y & E & L & G)]; [exists []; repeat split; constructor|]. destruct (linear_row_ok l i o x S Hx) as (y & Ey & Ly).
  exists (y :: Y). unfold linear_batch in *. cbn. rewrite Ey. cbn. rewrite E. split; [reflexivity|]. split; [cbn; congruence|]. constructor; assumption.
Qed.
Lemma map_act_rows (f : Q -> Q) Y o : Forall (fun y => List.length y = o) Y -> Forall (fun y => List.length y = o) (map (map f) Y).
Proof. intros H. apply Forall_map. eapply Forall_impl; [|exact H]. cbn. intros y. rewrite map_length. auto. Qed.

Section S.
Variables (tanh sin : Q -> Q).
Lemma forward_ok ls fs i o : path ls fs i o -> forall X, Forall (fun x => List.length x = i) X ->
  exists Y, forward_from tanh sin ls fs X = Ok Y /\ List.length Y = List.length X /\ Forall (fun y => List.length y = o) Y.
Proof.
  induction 1 as [l i o S|l f ls fs i m o S P H IH]; intros X F; cbn.
  - apply (linear_batch_ok l i o); assumption.
  - destruct (linear_batch_ok l i m X S F) as (Y & E & L & G). rewrite E. cbn. destruct (IH _ (map_act_rows (apply_act tanh sin f) Y m G)) as (R & ER & LR & GR). exists R. split; [exact ER|]. split; [rewrite LR, map_length; exact L|exact GR].
Qed.
Lemma forward_app ls fs i o : path ls fs i o -> forall X1 X2, Forall (fun x => List.length x = i) X1 -> Forall (fun x => List.length x = i) X2 ->
  forward_from tanh sin ls fs (X1 ++ X2) = do a <- forward_from tanh sin ls fs X1 ; do b <- forward_from tanh sin ls fs X2 ; Ok (a ++ b).
Proof.
  induction 1 as [l i o S|l f ls fs i m o S P H IH]; intros X1 X2 F1 F2; cbn; [apply mapM_app|].
  unfold linear_batch at 1. rewrite mapM_app. fold (linear_batch l X1). fold (linear_batch l X2).
  destruct (linear_batch_ok l i m X1 S F1) as (Y1 & E1 & _ & G1). destruct (linear_batch_ok l i m X2 S F2) as (Y2 & E2 & _ & G2). rewrite E1, E2. cbn.
  rewrite map_app. apply IH; apply map_act_rows; assumption.
Qed.
Lemma chain_path draw (h i k o : nat) fs : (0 < k)%nat -> forall j, List.length fs = S h -> path (chain draw j (i :: repeat k (S h) ++ [o])) fs i o.
Proof.
  intros K. revert i fs. assert (FS : forall j a b, layer_shape (fresh_linear draw j a b) a b).
  { intros j a b. unfold layer_shape, fresh_linear. cbn. rewrite map_length, seq_length, repeat_length. split; [reflexivity|]. split; [reflexivity|]. apply Forall_map. apply Forall_forall. intros r _. rewrite map_length, seq_length. reflexivity. }
  induction h as [|h IH]; intros i fs j L; destruct fs as [|f fs]; try discriminate.
  - destruct fs; [|discriminate]. cbn. apply (More _ _ _ _ _ k); [apply FS|exact K|]. apply Last. apply FS.
  - apply (More _ _ _ _ _ k); [apply FS|exact K|]. exact (IH k fs (S j) ltac:(cbn in L; lia)).
Qed.

(** ** C153 *)
(** Making a network succeeds exactly if the four sizes are positive and the activation is one of the three; it then has
    one layer more than hidden layers, all biases zero.  A size that is not positive is an AssertionError, another
    activation ends the process. *)
Theorem C153_make draw c : (exists n, make draw c = Made n) <-> (0 < hidden c /\ 0 < neurons c /\ 0 < inputs c /\ 0 < outputs c)%Z /\ In (act_name c) ["Tanh"; "Sin"; "Rational"]%string.
Proof.
  unfold make. destruct (Z.ltb_spec 0 (hidden c)); [|split; [intros (n & H0); discriminate|intros ((? & _) & _); lia]].
  destruct (Z.ltb_spec 0 (neurons c)); [|split; [intros (n & H1); discriminate|intros ((? & ? & _) & _); lia]].
  destruct (Z.ltb_spec 0 (inputs c)); [|split; [intros (n & H2); discriminate|intros ((? & ? & ? & _) & _); lia]].
  destruct (Z.ltb_spec 0 (outputs c)); [|split; [intros (n & H3); discriminate|intros ((? & ? & ? & ?) & _); lia]]. cbn [negb orb].
  destruct (String.eqb_spec (act_name c) "Tanh") as [->|N1]; [split; [intros _; cbn; tauto|eauto]|].
  destruct (String.eqb_spec (act_name c) "Sin") as [->|N2]; [split; [intros _; cbn; tauto|eauto]|].
  destruct (String.eqb_spec (act_name c) "Rational") as [->|N3]; [split; [intros _; cbn; tauto|eauto]|].
  split; [intros (n & H3); discriminate|]. cbn. intros (_ & [E|[E|[E|[]]]]); congruence.
Qed.
Theorem C153_made draw c n : make draw c = Made n -> shape n (Z.to_nat (inputs c)) (Z.to_nat (outputs c)) /\
  List.length (layers n) = S (Z.to_nat (hidden c)) /\ Forall (fun l => Forall (fun b => b = 0%Q) (bias l)) (layers n).
Proof.
  intros M. destruct (proj1 (C153_make draw c) (ex_intro _ n M)) as ((H1 & H2 & H3 & H4) & _).
  assert (layers n = chain draw 0 (widths c) /\ List.length (acts n) = Z.to_nat (hidden c)) as [EL EA].
  { unfold make in M. destruct (_ || _) in M; [discriminate|]. destruct (String.eqb _ _) in M; [injection M as <-; cbn; rewrite repeat_length; auto|]. destruct (String.eqb _ _) in M; [injection M as <-; cbn; rewrite repeat_length; auto|].
    destruct (String.eqb _ _) in M; [injection M as <-; cbn; rewrite repeat_length; auto|discriminate]. }
  unfold shape. rewrite EL. unfold widths. destruct (Z.to_nat (hidden c)) as [|h] eqn:Eh; [lia|]. split; [split; [lia|]; split; [lia|]; apply chain_path; [lia|exact EA]|].
  split.
  - assert (LC : forall ws j, List.length (chain draw j ws) = pred (List.length ws)). { induction ws as [|a [|b ws] IH]; intros j; cbn; [reflexivity|reflexivity|]. cbn in IH. rewrite (IH (S j)). reflexivity. }
    rewrite LC. cbn [List.length pred]. rewrite app_length, repeat_length. cbn. lia.
  - generalize (Z.to_nat (inputs c) :: repeat (Z.to_nat (neurons c)) (S h) ++ [Z.to_nat (outputs c)]). generalize 0%nat. intros j ws. revert j. induction ws as [|a [|b ws] IH]; intros j; cbn; try constructor; [|apply IH].
    cbn. apply Forall_forall. intros x I. apply repeat_spec in I. exact I.
Qed.
(** Other activations end the process, whatever the caller does about exceptions. *)
Theorem C153_refused draw c : (make draw c = Raised AssertionError <-> ~ (0 < hidden c /\ 0 < neurons c /\ 0 < inputs c /\ 0 < outputs c)%Z) /\
  (make draw c = Exited <-> (0 < hidden c /\ 0 < neurons c /\ 0 < inputs c /\ 0 < outputs c)%Z /\ ~ In (act_name c) ["Tanh"; "Sin"; "Rational"]%string).
Proof.
  pose proof (C153_make draw c) as M. unfold make in *.
  assert (B : (negb (0 <? hidden c)%Z || negb (0 <? neurons c)%Z || negb (0 <? inputs c)%Z || negb (0 <? outputs c)%Z)%bool = false <-> (0 < hidden c /\ 0 < neurons c /\ 0 < inputs c /\ 0 < outputs c)%Z).
  { rewrite !orb_false_iff, !negb_false_iff, !Z.ltb_lt. tauto. }
  destruct (_ || _)%bool eqn:E in *.
  - assert (~ (0 < hidden c /\ 0 < neurons c /\ 0 < inputs c /\ 0 < outputs c)%Z) as NP by (intros P; apply B in P; discriminate). split; [tauto|]. split; [discriminate|tauto].
  - assert (0 < hidden c /\ 0 < neurons c /\ 0 < inputs c /\ 0 < outputs c)%Z as P by (apply B; reflexivity).
    destruct (String.eqb _ _) in *; [split; (split; [discriminate|]); [tauto|]; intros [_ N]; exfalso; apply N, (proj1 M); eauto|].
    destruct (String.eqb _ _) in *; [split; (split; [discriminate|]); [tauto|]; intros [_ N]; exfalso; apply N, (proj1 M); eauto|].
    destruct (String.eqb _ _) in *; [split; (split; [discriminate|]); [tauto|]; intros [_ N]; exfalso; apply N, (proj1 M); eauto|].
    split; [split; [discriminate|tauto]|]. split; [|reflexivity]. intros _. split; [exact P|]. intros I. destruct (proj2 M (conj P I)) as (n & X). discriminate.
Qed.
(** In a network of any weights, each row of the output is computed from its own row of the input: evaluating a batch
    gives as many rows, of the output width, and is evaluating its parts. *)
Theorem C153_rows n i o X : shape n i o -> Forall (fun x => List.length x = i) X -> exists Y, forward tanh sin n X = Ok Y /\
  List.length Y = List.length X /\ Forall (fun y => List.length y = o) Y /\
  forall k x, nth_error X k = Some x -> exists y, nth_error Y k = Some y /\ forward tanh sin n [x] = Ok [y].
Proof.
  intros (_ & _ & P) F. destruct (forward_ok _ _ _ _ P X F) as (Y & E & L & G). exists Y. split; [exact E|]. split; [exact L|]. split; [exact G|].
  clear G. intros k x K. apply nth_error_split in K as (A & B & -> & <-). apply Forall_app in F as [FA FB]. inversion FB as [|x' B' Fx FB' Q1]; subst.
  pose proof (forward_app _ _ _ _ P A (x :: B) FA FB) as E1. rewrite E in E1. destruct (forward_ok _ _ _ _ P A FA) as (YA & EA & LA & _). rewrite EA in E1. cbn [bind] in E1.
  pose proof (forward_app _ _ _ _ P [x] B ltac:(repeat constructor; assumption) FB') as E2. cbn [List.app] in E2. rewrite E2 in E1.
  destruct (forward_ok _ _ _ _ P [x] ltac:(repeat constructor; assumption)) as (Y1 & E3 & L3 & _). rewrite E3 in E1. cbn [bind] in E1. destruct Y1 as [|y [|? ?]]; try discriminate.
  destruct (forward_ok _ _ _ _ P B FB') as (YB & EB & _ & _). rewrite EB in E1. cbn in E1. injection E1 as ->. exists y. split; [|exact E3]. rewrite nth_error_app2 by lia. rewrite LA, Nat.sub_diag. reflexivity.
Qed.
(** A row of another width is a RuntimeError. *)
Theorem C153_width n i o X x : shape n i o -> In x X -> List.length x <> i -> (forall l, In l (layers n) -> weight l <> []) -> forward tanh sin n X = Err RuntimeError.
Proof.
  intros (_ & _ & P) I N W. unfold forward. assert (R : forall l i' o', layer_shape l i' o' -> weight l <> [] -> i' = i -> linear_batch l X = Err RuntimeError).
  { intros l i' o' (_ & _ & H3) Wl ->. unfold linear_batch. clear -I N H3 Wl. induction X as [|y X' IH]; [destruct I|]. cbn.
    assert (linear_row l y = Err RuntimeError \/ exists z, linear_row l y = Ok z) as [E|[z E]] by (unfold linear_row; destruct (forallb _ _); eauto).
    - rewrite E. reflexivity.
    - rewrite E. cbn. destruct I as [<-|I]; [|rewrite (IH I); reflexivity]. exfalso. unfold linear_row in E. destruct (weight l) as [|w ws] eqn:El; [congruence|]. cbn in E. inversion H3; subst.
      destruct (Nat.eqb_spec (List.length w) (List.length y)); [congruence|discriminate]. }
  destruct P as [l i o S|l f ls fs i m o S Pm H]; cbn; rewrite (R _ _ _ S); auto; apply W; now left.
Qed.
(** A new network with an odd activation is an odd function of its input, and 0 at the origin. *)
Hypothesis tanh_odd : forall x, tanh (- x) == - tanh x.
Hypothesis sin_odd : forall x, sin (- x) == - sin x.
Hypothesis tanh_eq : forall x y, x == y -> tanh x == tanh y.
Hypothesis sin_eq : forall x y, x == y -> sin x == sin y.
Lemma dotp_opp w : forall x y, Forall2 (fun a b => a == - b)%Q x y -> dotp w x == - dotp w y.
Proof. induction w as [|a w IH]; intros x y F; [reflexivity|]. destruct F as [|x1 y1 x y H F]; cbn; [reflexivity|]. rewrite (IH _ _ F), H. ring. Qed.
Lemma F2_len {A B} (R : A -> B -> Prop) x y : Forall2 R x y -> List.length x = List.length y.
Proof. induction 1; cbn; congruence. Qed.
Lemma odd_from ls fs i o : path ls fs i o -> Forall (fun l => Forall (fun b => b == 0)%Q (bias l)) ls -> (forall f, In f fs -> f = Tanh \/ f = Sine) ->
  forall X X' Y Y', Forall2 (Forall2 (fun a b => a == - b)%Q) X X' -> forward_from tanh sin ls fs X = Ok Y -> forward_from tanh sin ls fs X' = Ok Y' -> Forall2 (Forall2 (fun a b => a == - b)%Q) Y Y'.
Proof.
  assert (LB : forall l X X' Y Y', Forall (fun b => b == 0)%Q (bias l) -> Forall2 (Forall2 (fun a b => a == - b)%Q) X X' -> linear_batch l X = Ok Y -> linear_batch l X' = Ok Y' -> Forall2 (Forall2 (fun a b => a == - b)%Q) Y Y').
  { intros l X X' Y Y' B F. revert Y Y'. unfold linear_batch. induction F as [|x x' X X' H F IH]; intros Y Y' E E'; cbn in E, E'; [injection E as <-; injection E' as <-; constructor|].
    unfold linear_row in E at 1. unfold linear_row in E' at 1. destruct (forallb _ _) in E; [|discriminate]. destruct (forallb _ _) in E'; [|discriminate]. cbn in E, E'.
    destruct (mapM (linear_row l) X) as [R|]; [|discriminate]. destruct (mapM (linear_row l) X') as [R'|]; [|discriminate]. injection E as <-. injection E' as <-. constructor; [|apply IH; reflexivity].
    revert B. generalize (weight l) (bias l). intros w b B. revert w. induction B as [|b0 b Hb B IHb]; intros [|w0 w]; cbn; constructor; [|apply IHb]. cbn. rewrite (dotp_opp w0 x x' H), Hb. ring. }
  induction 1 as [l i o S|l f ls fs i m o S Pm H IH]; intros B O X X' Y Y' F E E'; cbn in E, E'; inversion B; subst.
  - eapply LB; eauto.
  - destruct (linear_batch l X) as [Z|] eqn:EZ; [|discriminate]. destruct (linear_batch l X') as [Z'|] eqn:EZ'; [|discriminate]. cbn in E, E'.
    eapply (IH ltac:(assumption) ltac:(intros; apply O; now right)); [|exact E|exact E']. assert (G := LB l X X' Z Z' ltac:(assumption) F EZ EZ'). clear -G O tanh_odd sin_odd tanh_eq sin_eq.
    induction G as [|z z' Z Z' Hz G IH]; cbn; constructor; [|exact IH]. clear IH G. induction Hz as [|a b z z' Hab Hz IH]; cbn; constructor; [|exact IH].
    destruct (O f (or_introl eq_refl)) as [->| ->]; cbn; [rewrite (tanh_eq _ _ Hab); apply tanh_odd|rewrite (sin_eq _ _ Hab); apply sin_odd].
Qed.
Theorem C153_new_odd draw c n X Y Y' : make draw c = Made n -> In (act_name c) ["Tanh"; "Sin"]%string -> Forall (fun x => List.length x = Z.to_nat (inputs c)) X ->
  forward tanh sin n X = Ok Y -> forward tanh sin n (opp_rows X) = Ok Y' -> same_rows Y' (opp_rows Y).
Proof.
  intros M A F E E'. destruct (C153_made draw c n M) as ((_ & _ & P) & _ & B).
  assert (O : forall f, In f (acts n) -> f = Tanh \/ f = Sine).
  { unfold make in M. destruct (_ || _) in M; [discriminate|]. destruct (String.eqb_spec (act_name c) "Tanh"); [injection M as <-; cbn; intros f I; apply repeat_spec in I; auto|].
    destruct (String.eqb_spec (act_name c) "Sin"); [injection M as <-; cbn; intros f I; apply repeat_spec in I; auto|]. exfalso. cbn in A. destruct A as [A|[A|[]]]; congruence. }
  assert (B' : Forall (fun l => Forall (fun b => b == 0)%Q (bias l)) (layers n)) by (eapply Forall_impl; [|exact B]; intros l; apply Forall_impl; intros b ->; reflexivity).
  assert (G : Forall2 (Forall2 (fun a b => a == - b)%Q) Y' Y).
  { refine (odd_from _ _ _ _ P B' O (opp_rows X) X Y' Y _ E' E). unfold opp_rows. clear. induction X as [|x X IH]; cbn; constructor; [|exact IH]. induction x; cbn; constructor; [reflexivity|assumption]. }
  unfold same_rows, opp_rows. clear -G. induction G as [|y y' Y Y' H G IH]; cbn; constructor; [|exact IH]. clear IH G. induction H; cbn; constructor; assumption.
Qed.
End S.

(** DLGA's own network, and a network that computes: one hidden layer of width 1. *)
Example C153_dlga_case : exists n, make (fun _ _ _ => 1%Q) (dlga_config 2) = Made n /\ shape n 2 1 /\ List.length (layers n) = 6%nat.
Proof. eexists. split; [reflexivity|]. split; [exact (proj1 (C153_made (fun _ _ _ => 1%Q) (dlga_config 2) _ eq_refl))|reflexivity]. Qed.
Example C153_forward_case : exists n, make (fun _ _ _ => 2%Q) (mkCfg 1 1 2 1 "Sin") = Made n /\ forward (fun x => x) (fun x => x) n [[1; 2]; [3; 5]]%Q = Ok [[(2 * (2 * 1 + (2 * 2 + 0) + 0) + 0 + 0)%Q]; [(2 * (2 * 3 + (2 * 5 + 0) + 0) + 0 + 0)%Q]].
Proof. eexists. split; [reflexivity|]. vm_compute. reflexivity. Qed.
(** A rational activation starts without poles: N(x) = R(x) D(x) with D > 2. *)
Theorem C153_rational_start : exists a0 a1 a2 a3 b0 b1 b2, rational0 = Rational (a0, a1, a2, a3) (b0, b1, b2) /\ forall x, (2 < b0 + x * (b1 + b2 * x) /\
  forall t s, apply_act t s rational0 x * (b0 + x * (b1 + b2 * x)) == a0 + a1 * x + a2 * (x * x) + a3 * (x * x * x))%Q.
Proof.
  unfold rational0. do 7 eexists. split; [reflexivity|]. intros x. assert (P : (2 < (2383 # 1000) + x * (0 + 1 * x))%Q). { assert (0 <= x * x)%Q by nra. lra. }
  split; [exact P|]. intros t s. cbn [apply_act]. field. intros Z. assert (0 <= x * x)%Q by nra. lra.
Qed.
Print Assumptions C153_make.
Print Assumptions C153_made.
Print Assumptions C153_refused.
Print Assumptions C153_rows.
Print Assumptions C153_width.
Print Assumptions C153_new_odd.
Print Assumptions C153_rational_start.
