(** C155: constraints on programs of several objects. *)
From Verif Require Import Base Subroutines MultiObject.
Local Open Scope nat_scope.
Local Open Scope list_scope.

(** ** Specification *)
Section S.
Variable ar : nat -> nat.
(** open positions after a traversal (1 at the start) *)
Fixpoint need (d : nat) (l : list nat) : option nat :=
  match l with [] => Some d | t :: l' => match d with 0 => None | S d' => need (d' + ar t) l' end end.
(** a complete expression; an expression begun and not complete *)
Definition object (o : list nat) : Prop := need 1 o = Some 0.
Definition begun (p : list nat) (d : nat) : Prop := need 1 p = Some d /\ 0 < d.
Definition objects (os : list (list nat)) : Prop := Forall object os.
(** occurrences of tokens in a traversal *)
Definition occurrences (tokens l : list nat) : nat := List.length (filter (fun t => memb t tokens) l).

(** ** Lemmas *)
Lemma object_nonempty o : object o -> o <> [].
Proof. intros H ->. discriminate. Qed.
Lemma loop_begun : forall l d0 d m ms ctr pos last c rest dd, need d0 l = Some dd -> 0 < dd -> (m + Z.of_nat d0 = d)%Z ->
  get_position_loop ar (m :: ms) d ctr pos last c (l ++ rest) =
  get_position_loop ar (m :: ms) (m + Z.of_nat dd)%Z (ctr + List.length l) (match l with [] => pos | _ => ctr + List.length l - 1 end) last (c + List.length l) rest.
Proof.
  induction l as [|t l IH]; intros d0 d m ms ctr pos last c rest dd H P E.
  - cbn in H. injection H as ->. cbn [List.app List.length]. rewrite !Nat.add_0_r. subst d. reflexivity.
  - cbn [need] in H. destruct d0 as [|d0]; [discriminate|]. cbn [List.app get_position_loop List.length].
    assert (N : d0 + ar t <> 0). { intros Z0. rewrite Z0 in H. destruct l as [|a l]; cbn in H; [injection H as <-; lia|discriminate]. }
    destruct (Z.eqb_spec (d + (Z.of_nat (ar t) - 1)) m) as [X|X]; [lia|].
    rewrite (IH (d0 + ar t) _ m ms (S ctr) ctr last (S c) rest dd H P) by lia.
    replace (S ctr + List.length l) with (ctr + S (List.length l)) by lia. replace (S c + List.length l) with (c + S (List.length l)) by lia.
    f_equal. destruct l; cbn [List.length]; lia.
Qed.
Lemma need_app : forall l1 d l2, need d (l1 ++ l2) = match need d l1 with Some d' => need d' l2 | None => None end.
Proof. induction l1 as [|t l1 IH]; intros d l2; cbn; [reflexivity|]. destruct d; [reflexivity|apply IH]. Qed.
Lemma object_split o : object o -> exists l t, o = l ++ [t] /\ begun l 1 /\ ar t = 0.
Proof.
  intros H. destruct (exists_last (object_nonempty o H)) as (l & t & ->). unfold object in H. rewrite need_app in H. unfold begun.
  destruct (need 1 l) as [[|d]|] eqn:E; cbn in H; try discriminate. exists l, t. assert (d = 0 /\ ar t = 0) as [-> ->] by (injection H; lia). repeat split; auto.
Qed.
Lemma loop_object o d m ms ctr pos last c rest : object o -> (m + 1 = d)%Z ->
  get_position_loop ar (m :: ms) d ctr pos last c (o ++ rest) = get_position_loop ar ms m 0 (ctr + List.length o - 1) (c + List.length o - 1) (c + List.length o) rest.
Proof.
  intros H E. destruct (object_split o H) as (l & t & -> & (N & _) & A). rewrite <- app_assoc. rewrite (loop_begun l 1 d m ms ctr pos last c _ 1 N) by lia.
  cbn [List.app get_position_loop]. rewrite A. destruct (Z.eqb_spec (m + Z.of_nat 1 + (Z.of_nat 0 - 1)) m) as [_|X]; [|lia].
  rewrite app_length. cbn [List.length]. replace (m + Z.of_nat 1 + (Z.of_nat 0 - 1))%Z with m by lia. f_equal; lia.
Qed.
Definition marks (k n : nat) : list Z := map (fun j => - Z.of_nat j)%Z (seq k n).
Lemma loop_objects : forall os k n pos last c rest, objects os -> List.length os <= n ->
  get_position_loop ar (marks (S k) n) (- Z.of_nat k) 0 pos last c (List.concat os ++ rest) =
  get_position_loop ar (marks (S (k + List.length os)) (n - List.length os)) (- Z.of_nat (k + List.length os)) 0
    (match rev os with [] => pos | o :: _ => List.length o - 1 end) (match os with [] => last | _ => c + List.length (List.concat os) - 1 end) (c + List.length (List.concat os)) rest.
Proof.
  induction os as [|o os IH]; intros k n pos last c rest F L.
  - cbn. rewrite !Nat.add_0_r, Nat.sub_0_r. reflexivity.
  - inversion F as [|? ? Ho F']; subst. destruct n as [|n]; [cbn in L; lia|]. cbn [List.concat]. rewrite <- app_assoc. unfold marks at 1. cbn [seq map]. fold (marks (S (S k)) n).
    rewrite (loop_object o _ (- Z.of_nat (S k)) (marks (S (S k)) n)) by (assumption || lia). cbn in L. rewrite (IH (S k) n) by (assumption || lia).
    cbn [List.length]. replace (S k + List.length os) with (k + S (List.length os)) by lia. change (S n - S (List.length os)) with (n - List.length os). rewrite app_length.
    pose proof (object_nonempty o Ho) as NE. destruct o as [|a o]; [congruence|]. cbn [rev]. f_equal.
    + destruct (rev os) as [|b l] eqn:E; cbn; reflexivity.
    + destruct os; cbn [List.concat List.length]; lia.
    + lia.
Qed.
(** ** C155 *)
(** After the complete objects [os], with [p] of the next one sampled: the position is that of the newest token in its
    own object, and the last object ended where the last complete one did. *)
Theorem C155_position n os p d : objects os -> (p <> [] -> List.length os < n /\ begun p d) -> List.length os <= n ->
  get_position ar n (List.concat os ++ p) = Some (match p with [] => match rev os with [] => 0 | o :: _ => List.length o - 1 end | _ => List.length p - 1 end,
                                            match os with [] => 0 | _ => List.length (List.concat os) - 1 end).
Proof.
  intros F P L. unfold get_position. fold (marks 1 n). change 0%Z with (- Z.of_nat 0)%Z. rewrite (loop_objects os 0 n 0 0 0 p F L). cbn [Nat.add].
  destruct p as [|t p]; [destruct os; reflexivity|]. destruct (P ltac:(discriminate)) as [L' (N & D)].
  destruct (n - List.length os) as [|k] eqn:E; [lia|]. unfold marks. cbn [seq map]. fold (marks (S (S (List.length os))) k).
  rewrite <- (app_nil_r (t :: p)) at 1. rewrite (loop_begun (t :: p) 1 _ _ _ _ _ _ _ [] d N D) by lia. cbn [get_position_loop List.length]. f_equal.
Qed.
(** A row with more tokens than n objects need reads past the end of an array. *)
Theorem C155_too_long n os t p : objects os -> List.length os = n -> get_position ar n (List.concat os ++ t :: p) = None.
Proof.
  intros F L. unfold get_position. fold (marks 1 n). change 0%Z with (- Z.of_nat 0)%Z. rewrite (loop_objects os 0 n 0 0 0 _ F) by lia. rewrite L, Nat.sub_diag. reflexivity.
Qed.
(** The repeat limit counts the current object and, against its purpose, the last token of the one before. *)
Lemma visible_app (a b : list nat) (k : nat) : k = List.length a ->
  map (fun p : nat * bool => if snd p then Some (fst p) else None) (combine (a ++ b) (get_mask k (List.length (a ++ b)))) = map (fun _ => None) a ++ map Some b.
Proof.
  intros ->. unfold get_mask. rewrite app_length, seq_app, map_app. cbn [Nat.add].
  assert (C : forall (l1 m1 : list nat) (x1 x2 : list bool), List.length l1 = List.length x1 -> combine (l1 ++ m1) (x1 ++ x2) = combine l1 x1 ++ combine m1 x2).
  { induction l1 as [|y l1 IH]; intros m1 [|z x1] x2 H; cbn in *; try discriminate; [reflexivity|]. rewrite IH by lia. reflexivity. }
  rewrite C by (rewrite map_length, seq_length; reflexivity). rewrite map_app. f_equal.
  - assert (G : forall (l : list nat) k j, j + List.length l <= k -> map (fun p : nat * bool => if snd p then Some (fst p) else None) (combine l (map (fun i => Nat.leb k i) (seq j (List.length l)))) = map (fun _ => None) l).
    { induction l as [|y l IH]; intros k j H; cbn; [reflexivity|]. cbn in H. destruct (Nat.leb_spec k j); [lia|]. cbn. f_equal. apply IH. lia. }
    apply G. lia.
  - assert (G : forall (l : list nat) k j, k <= j -> map (fun p : nat * bool => if snd p then Some (fst p) else None) (combine l (map (fun i => Nat.leb k i) (seq j (List.length l)))) = map Some l).
    { induction l as [|y l IH]; intros k j H; cbn; [reflexivity|]. destruct (Nat.leb_spec k j); [|lia]. cbn. f_equal. apply IH. lia. }
    apply G. lia.
Qed.
Lemma filter_visible tokens (a b : list nat) : List.length (filter (isin tokens) (map (fun _ : nat => None) a ++ map Some b)) = occurrences tokens b.
Proof.
  unfold occurrences. rewrite filter_app, app_length. assert (filter (isin tokens) (map (fun _ : nat => None) a) = []) as -> by (induction a; cbn; auto). cbn.
  induction b as [|t b IH]; cbn; [reflexivity|]. destruct (memb t tokens); cbn; rewrite IH; reflexivity.
Qed.
Theorem C155_repeat n tokens os o p d : 1 < n -> objects (os ++ [o]) -> begun p d -> S (List.length os) < n -> p <> [] ->
  repeat_count ar n tokens (List.concat (os ++ [o]) ++ p) = Some (occurrences tokens [List.last o 0] + occurrences tokens p).
Proof.
  intros N F B L NE. unfold repeat_count. rewrite (proj2 (Nat.ltb_lt 1 n) N). unfold visible.
  rewrite (C155_position n (os ++ [o]) p d F) by (rewrite ?app_length; cbn [List.length]; (intros _; split; [lia|exact B]) || lia).
  pose proof F as F'. apply Forall_app in F' as [_ Ho]. inversion Ho as [|? ? Ho' _]; subst. destruct (object_split o Ho') as (l & t & -> & _ & _). rewrite last_last.
  assert (S1 : List.concat (os ++ [l ++ [t]]) ++ p = (List.concat os ++ l) ++ (t :: p)) by (rewrite concat_app; cbn; rewrite app_nil_r, <- !app_assoc; reflexivity). rewrite S1.
  assert (E1 : (match os ++ [l ++ [t]] with [] => 0 | _ => List.length (List.concat (os ++ [l ++ [t]])) - 1 end) = List.length (List.concat os ++ l)).
  { destruct (os ++ [l ++ [t]]) as [|x y] eqn:X; [destruct os; discriminate|]. rewrite <- X, concat_app. cbn. rewrite app_nil_r, !app_length. cbn. lia. }
  rewrite E1. rewrite visible_app by reflexivity. cbn [option_map]. rewrite filter_visible. f_equal. unfold occurrences. cbn [filter]. destruct (memb t tokens); cbn [List.length]; lia.
Qed.
Theorem C155_repeat_first n tokens p d : begun p d -> p <> [] -> 1 < n -> repeat_count ar n tokens p = Some (occurrences tokens p).
Proof.
  intros B NE N. unfold repeat_count. rewrite (proj2 (Nat.ltb_lt 1 n) N). unfold visible. pose proof (C155_position n [] p d (Forall_nil _) ltac:(intros _; split; [cbn; lia|exact B]) ltac:(cbn; lia)) as Q1. cbn [List.concat List.app] in Q1. rewrite Q1.
  pose proof (visible_app [] p 0 eq_refl) as V. cbn [List.app List.concat List.length map] in *. rewrite V. cbn [option_map]. f_equal. apply (filter_visible tokens [] p).
Qed.
(** A row sampled under the length constraint with a largest length max >= 3: every object, complete or not, can be completed
    within max tokens; in particular none is longer. *)
Inductive sampled (n : nat) (min : option nat) (max : nat) : list (list nat) -> list nat -> nat -> Prop :=
| Start : sampled n min max [] [] 1
| First os t : sampled n min max os [] 1 -> List.length os < n -> ar t <= 2 -> forbids ar initial_forbidden t = false -> sampled n min max os [t] (ar t)
| Next os p d t f : sampled n min max os p d -> p <> [] -> length_forbids ar n min max (List.concat os ++ p) d = Some f -> ar t <= 2 -> forbids ar f t = false -> 1 < d + ar t -> sampled n min max os (p ++ [t]) (d + ar t - 1)
| Complete os p d t f : sampled n min max os p d -> p <> [] -> length_forbids ar n min max (List.concat os ++ p) d = Some f -> forbids ar f t = false -> d + ar t = 1 -> sampled n min max (os ++ [p ++ [t]]) [] 1.
Lemma sampled_ok n min max os p d : 3 <= max -> sampled n min max os p d ->
  objects os /\ List.length os <= n /\ (p <> [] -> begun p d /\ List.length os < n) /\ (p = [] -> d = 1) /\ List.length p + d <= max /\ Forall (fun o => List.length o <= max) os /\
  (forall m, min = Some m -> Forall (fun o => m <= List.length o) os).
Proof.
  intros M. induction 1 as [|os t H IH L A X|os p d t f H IH NE G A X Y|os p d t f H IH NE G X Y].
  - split; [constructor|]. split; [cbn; lia|]. split; [congruence|]. split; [reflexivity|]. split; [cbn; lia|]. split; [constructor|]. intros; constructor.
  - destruct IH as (F & L1 & _ & _ & _ & B & Mn). unfold forbids, initial_forbidden in X. cbn in X. destruct (ar t) as [|a] eqn:E; [discriminate|].
    split; [exact F|]. split; [exact L1|]. split; [intros _; split; [split; [cbn; rewrite E; reflexivity|lia]|exact L]|]. split; [discriminate|]. split; [cbn; lia|]. split; [exact B|exact Mn].
  - destruct IH as (F & L1 & P & _ & LB & B & Mn). destruct (P NE) as [(N & D) L2].
    unfold length_forbids in G. rewrite (C155_position n os p d F (fun _ => conj L2 (conj N D)) L1) in G. destruct p as [|a p]; [congruence|]. cbn [List.length] in G, LB |- *. injection G as <-.
    assert (N' : need 1 ((a :: p) ++ [t]) = Some (d + ar t - 1)) by (rewrite need_app, N; destruct d; [lia|]; cbn; f_equal; lia).
    split; [exact F|]. split; [exact L1|]. split; [intros _; split; [split; [exact N'|lia]|exact L2]|]. split; [intros X0; destruct p; discriminate|]. split; [|split; [exact B|exact Mn]].
    + rewrite app_length. cbn [List.length]. unfold forbids in X. cbn in X. destruct (ar t) as [|[|[|x]]] eqn:E; [lia| | |lia].
      * apply Z.eqb_neq in X. lia.
      * apply Z.leb_gt in X. lia.
  - destruct IH as (F & L1 & P & _ & LB & B & Mn). destruct (P NE) as [(N & D) L2].
    assert (Ho : object (p ++ [t])) by (unfold object; rewrite need_app, N; destruct d; [lia|]; cbn; f_equal; lia).
    unfold length_forbids in G. rewrite (C155_position n os p d F (fun _ => conj L2 (conj N D)) L1) in G. destruct p as [|a p]; [congruence|]. injection G as <-.
    split; [|split; [|split; [congruence|split; [reflexivity|split; [|split]]]]].
    + apply Forall_app. split; [exact F|]. constructor; [exact Ho|constructor].
    + rewrite app_length. cbn. lia.
    + cbn. lia.
    + apply Forall_app. split; [exact B|]. constructor; [|constructor]. rewrite app_length. cbn [List.length] in *. lia.
    + intros m ->. apply Forall_app. split; [apply Mn; reflexivity|]. constructor; [|constructor]. assert (d = 1 /\ ar t = 0) as [-> A0] by lia. unfold forbids in X. rewrite A0 in X. cbn in X.
      rewrite andb_true_r in X. apply Nat.ltb_ge in X. rewrite app_length. cbn [List.length] in *. lia.
Qed.
Theorem C155_lengths n min max os p d : 3 <= max -> sampled n min max os p d ->
  Forall (fun o => object o /\ List.length o <= max /\ forall m, min = Some m -> m <= List.length o) os /\ (p <> [] -> begun p d /\ List.length p + d <= max).
Proof.
  intros M H. destruct (sampled_ok n min max os p d M H) as (F & _ & P & _ & LB & B & Mn). split; [|intros NE; split; [apply P, NE|exact LB]].
  unfold objects in F. rewrite Forall_forall in *. intros o I. split; [apply F, I|]. split; [apply B, I|]. intros m E. specialize (Mn m E). rewrite Forall_forall in Mn. apply Mn, I.
Qed.
End S.

(** ** Refuted and examples *)
(** tokens: 0 = u, 1 = add, 2 = c *)
Definition c155_ar (t : nat) : nat := match t with 1 => 2 | _ => 0 end.
(** At most one c per object: after an object that ends with c, c is forbidden in the next one. *)
Theorem C155_repeat_refuted : exists os p, Forall (object c155_ar) os /\ begun c155_ar p 2 /\ occurrences [2] p = 0 /\ repeat_forbids c155_ar 2 [2] 1 (List.concat os ++ p) = Some true.
Proof. exists [[1; 0; 2]], [1]. split; [repeat constructor|]. split; [split; [reflexivity|lia]|]. split; reflexivity. Qed.
Example C155_case : get_position c155_ar 2 [1; 0; 2; 1; 0] = Some (1, 2) /\ get_position c155_ar 2 [1; 0; 2] = Some (2, 2) /\ get_position c155_ar 2 [1; 0; 2; 0; 0] = None.
Proof. repeat split. Qed.
Example C155_sampled_case : sampled c155_ar 2 (Some 3) 5 [[1; 0; 2]] [1] 2.
Proof.
  apply (First c155_ar 2 (Some 3) 5 [[1; 0; 2]] 1); cbn; try lia; try reflexivity.
  apply (Complete c155_ar 2 (Some 3) 5 [] [1; 0] 1 2 (mkForbidden false false false)); try discriminate; try reflexivity.
  apply (Next c155_ar 2 (Some 3) 5 [] [1] 2 0 (mkForbidden false false false)); try discriminate; try reflexivity; [|cbn; lia|cbn; lia].
  apply (First c155_ar 2 (Some 3) 5 [] 1); cbn; try lia; try reflexivity. constructor.
Qed.
Print Assumptions C155_position.
Print Assumptions C155_too_long.
Print Assumptions C155_repeat.
Print Assumptions C155_repeat_first.
Print Assumptions C155_lengths.
Print Assumptions C155_repeat_refuted.
