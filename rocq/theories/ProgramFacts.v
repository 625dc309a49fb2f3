(** Proofs about token completion and the program cache. *)
From Verif Require Import Base Trees TreeFacts Library LibraryFacts Program.

Section WithLib.
Context (toks : list token) (lib : library).
Hypothesis Hok : tokens_ok toks.
Hypothesis Hlib : make_library toks = Ok lib.

Notation ar := (ar_of lib).

Lemma arities_of_ok tokens : Forall (fun t => t < lL lib) tokens ->
  arities_of lib tokens = Ok (map ar tokens).
Proof.
  pose proof (make_library_inv _ _ Hlib) as (_ & HL & _ & Ha & _).
  unfold arities_of. induction 1 as [|t tokens Ht _ IH]; simpl; [reflexivity|].
  destruct (nth_error (larities lib) t) as [a|] eqn:En.
  - simpl. rewrite IH. simpl. unfold ar_of. rewrite (nth_error_nth _ _ _ En). reflexivity.
  - apply nth_error_None in En. rewrite Ha, map_length in En. lia.
Qed.

Lemma arities_of_err tokens : ~ Forall (fun t => t < lL lib) tokens ->
  arities_of lib tokens = Err IndexError.
Proof.
  pose proof (make_library_inv _ _ Hlib) as (_ & HL & _ & Ha & _).
  unfold arities_of. induction tokens as [|t tokens IH]; intros H; [exfalso; apply H; constructor|].
  cbn [mapM]. destruct (nth_error (larities lib) t) as [a|] eqn:En; [|reflexivity].
  cbn [bind]. rewrite IH; [reflexivity|]. intros HF. apply H. constructor; [|assumption].
  rewrite HL. rewrite Ha in En. rewrite <- (map_length tarity). apply nth_error_Some. congruence.
Qed.

(** dangling values are slot counts *)
Fixpoint dang (s : Z) (l : list nat) : list Z :=
  match l with [] => [] | t :: l' => (s + Z.of_nat (ar t) - 1)%Z :: dang (s + Z.of_nat (ar t) - 1)%Z l' end.

Lemma danglings_dang tokens : forall s,
  map (fun x => 1 + x)%Z (cumsum s (map (fun a => Z.of_nat a - 1)%Z (map ar tokens))) = dang (1 + s) tokens.
Proof.
  induction tokens as [|t l IH]; intros s; simpl; [reflexivity|].
  rewrite IH. replace (1 + (s + (Z.of_nat (ar t) - 1)))%Z with (1 + s + Z.of_nat (ar t) - 1)%Z by lia.
  reflexivity.
Qed.

Lemma dang_slots tokens : forall k i x, nth_error (dang (Z.of_nat k) tokens) i = Some x ->
  (forall j y, j < i -> nth_error (dang (Z.of_nat k) tokens) j = Some y -> y <> 0%Z) ->
  0 < k ->
  exists m, slots ar k (firstn (S i) tokens) = Some m /\ x = Z.of_nat m.
Proof.
  induction tokens as [|t l IH]; intros k i x Hn Hnz Hk; [destruct i; discriminate|].
  destruct k as [|k]; [lia|].
  assert (Z.of_nat (S k) + Z.of_nat (ar t) - 1 = Z.of_nat (ar t + k))%Z as E by lia.
  cbn [dang] in Hn, Hnz. rewrite E in Hn, Hnz.
  destruct i as [|i].
  - simpl in Hn. injection Hn as <-. simpl. eauto.
  - cbn [nth_error] in Hn. cbn [firstn slots].
    destruct (Nat.eq_dec (ar t + k) 0) as [E0|E0].
    + exfalso. apply (Hnz 0 (Z.of_nat (ar t + k))); [lia|reflexivity|lia].
    + apply IH; [exact Hn| |lia].
      intros j y Hj Hy. apply (Hnz (S j) y); [lia|exact Hy].
Qed.

Lemma dang_length s tokens : List.length (dang s tokens) = List.length tokens.
Proof. revert s. induction tokens as [|t l IH]; intros s; simpl; auto. Qed.

Lemma index_from_ext {A} (f g : A -> bool) l : (forall x, f x = g x) -> forall i, index_from f i l = index_from g i l.
Proof. intros E. induction l as [|x l IH]; intros i; simpl; [reflexivity|]. rewrite E, IH. reflexivity. Qed.

Lemma finish_unfold rnd tokens : Forall (fun t => t < lL lib) tokens ->
  finish_tokens lib 1 rnd tokens =
  match index_of (fun x => Z.eqb x 0) (dang 1 tokens) with
  | Some i => Ok (firstn (1 + i) tokens)
  | None => match rev (dang 1 tokens) with
            | [] => Err IndexError
            | x :: _ => if (x <? 0)%Z then Err ValueError else Ok (tokens ++ rnd (Z.to_nat x))
            end
  end.
Proof.
  intros H. unfold finish_tokens. rewrite arities_of_ok by assumption. cbn [bind].
  unfold danglings. rewrite danglings_dang. replace (1 + 0)%Z with 1%Z by lia.
  unfold index_of. rewrite (index_from_ext _ (fun x => Z.eqb x 0)); [|intros x; lia].
  reflexivity.
Qed.

(** The main result about completion. *)
Lemma finish_cases rnd tokens :
  Forall (fun t => t < lL lib) tokens -> tokens <> [] -> choice_ok lib rnd ->
  (exists r rest, finish_tokens lib 1 rnd tokens = Ok r /\ tokens = r ++ rest /\ complete ar r) \/
  (exists k pad, finish_tokens lib 1 rnd tokens = Ok (tokens ++ pad) /\ slots ar 1 tokens = Some (S k) /\
      pad = rnd (S k)).
Proof.
  intros HF Hne Hrnd. rewrite finish_unfold by assumption.
  destruct (index_of _ (dang 1 tokens)) as [i|] eqn:Ei.
  - left. apply index_of_spec in Ei as ((x & Hx & Hx0) & Hmin).
    assert (x = 0%Z) by lia. subst x.
    destruct (dang_slots tokens 1 i 0%Z Hx) as (m & Hs & Hm); [|lia|].
    { intros j y Hj Hy. specialize (Hmin j y Hj Hy). lia. }
    assert (m = 0) by lia. subst m.
    exists (firstn (1 + i) tokens), (skipn (1 + i) tokens).
    split; [reflexivity|]. split; [symmetry; apply firstn_skipn|].
    apply complete_slots. exact Hs.
  - right. unfold index_of in Ei. rewrite index_from_None in Ei.
    destruct (rev (dang 1 tokens)) as [|x rr] eqn:Er.
    { apply (f_equal (@List.length Z)) in Er. rewrite rev_length, dang_length in Er.
      destruct tokens; [congruence|discriminate]. }
    assert (dang 1 tokens = rev rr ++ [x]) as Ed.
    { rewrite <- (rev_involutive (dang 1 tokens)), Er. reflexivity. }
    assert (nth_error (dang (Z.of_nat 1) tokens) (List.length (rev rr)) = Some x) as Hx.
    { change (Z.of_nat 1) with 1%Z. rewrite Ed, nth_error_app2, Nat.sub_diag by lia. reflexivity. }
    destruct (dang_slots _ _ _ _ Hx) as (m & Hs & Hm); [|lia|].
    { intros j y _ Hy. apply nth_error_In in Hy. specialize (Ei _ Hy). lia. }
    assert (S (List.length (rev rr)) = List.length tokens) as El.
    { rewrite <- (dang_length 1 tokens), Ed, app_length. simpl. lia. }
    rewrite El, firstn_all in Hs.
    assert (x <> 0%Z).
    { intros ->. specialize (Ei 0%Z). rewrite Ed in Ei.
      assert (Z.eqb 0 0 = false) by (apply Ei; apply in_app_iff; right; left; reflexivity). lia. }
    destruct (Z.ltb_spec x 0); [lia|].
    destruct m as [|k]; [lia|].
    exists k, (rnd (S k)). subst x. rewrite Nat2Z.id. auto.
Qed.

Lemma choice_terminals rnd n : choice_ok lib rnd -> Forall (fun z => ar z = 0) (rnd n).
Proof.
  intros H. eapply Forall_impl; [|apply (proj2 (H n))].
  intros t Ht. eapply input_tokens_terminal; eauto.
Qed.

Lemma finish_complete rnd tokens :
  Forall (fun t => t < lL lib) tokens -> tokens <> [] -> choice_ok lib rnd ->
  exists r, finish_tokens lib 1 rnd tokens = Ok r /\ complete ar r /\
    ((exists rest, tokens = r ++ rest) \/
     ((forall p q, tokens = p ++ q -> ~ complete ar p) /\
      exists pad, r = tokens ++ pad /\ Forall (fun t => In t (linput_tokens lib)) pad)).
Proof.
  intros HF Hne Hr. destruct (finish_cases rnd tokens HF Hne Hr) as [(r & rest & E & Hp & Hc)|(k & pad & E & Hs & Hp)].
  - exists r. split; [exact E|]. split; [exact Hc|]. left. eauto.
  - exists (tokens ++ pad). split; [exact E|]. split.
    + apply complete_slots. rewrite slots_app, Hs. subst pad.
      pose proof (slots_terms ar (rnd (S k)) (choice_terminals rnd (S k) Hr) 0) as G.
      rewrite (proj1 (Hr (S k))), Nat.add_0_r in G. exact G.
    + right. split.
      * intros p q -> Hc. apply complete_slots in Hc. rewrite slots_app, Hc in Hs.
        destruct q; discriminate.
      * exists pad. split; [reflexivity|]. subst pad. apply Hr.
Qed.

Lemma finish_complete_id rnd r :
  Forall (fun t => t < lL lib) r -> complete ar r -> choice_ok lib rnd ->
  finish_tokens lib 1 rnd r = Ok r.
Proof.
  intros HF Hc Hr.
  assert (r <> []) as Hne.
  { intros ->. apply complete_slots in Hc. discriminate. }
  destruct (finish_cases rnd r HF Hne Hr) as [(r' & rest & E & Hp & Hc')|(k & pad & E & Hs & Hp)].
  - rewrite E. f_equal. symmetry.
    apply (complete_prefix_unique ar r r [] r' rest); auto. symmetry; apply app_nil_r.
  - apply complete_slots in Hc. congruence.
Qed.

Lemma finish_in_range rnd tokens r : Forall (fun t => t < lL lib) tokens -> choice_ok lib rnd ->
  finish_tokens lib 1 rnd tokens = Ok r -> Forall (fun t => t < lL lib) r.
Proof.
  intros HF Hr E.
  assert (tokens <> []) as Hne.
  { intros ->. rewrite finish_unfold in E by constructor. discriminate. }
  destruct (finish_complete rnd tokens HF Hne Hr) as (r' & E' & _ & Hd).
  rewrite E in E'. injection E' as <-.
  destruct Hd as [(rest & ->)|(_ & pad & -> & Hpad)].
  - apply Forall_app in HF. tauto.
  - apply Forall_app. split; [assumption|].
    eapply Forall_impl; [|exact Hpad]. intros t Ht. eapply input_tokens_terminal; eauto.
Qed.

Lemma finish_empty rnd : finish_tokens lib 1 rnd [] = Err IndexError.
Proof. reflexivity. Qed.

(** ** n objects *)
Lemma dang_hit_forest n tokens i :
  index_of (fun x => (x - 1 =? - Z.of_nat n)%Z) (dang 1 tokens) = Some i -> 1 <= n ->
  slots ar n (firstn (S i) tokens) = Some 0.
Proof.
  intros H Hn. apply index_of_spec in H as ((x & Hx & Hx0) & Hmin).
  assert (forall (l : list nat) (s : Z) (k : nat) j y, (0 < k) ->
     nth_error (dang s l) j = Some y -> y = (s - Z.of_nat k)%Z ->
     (forall j' y', j' < j -> nth_error (dang s l) j' = Some y' -> y' <> (s - Z.of_nat k)%Z) ->
     slots ar k (firstn (S j) l) = Some 0) as G.
  { clear. induction l as [|t l IH]; intros s k j y Hk Hn Hy Hmin; [destruct j; discriminate|].
    destruct k as [|k]; [lia|].
    cbn [dang] in Hn, Hmin. destruct j as [|j].
    - cbn [nth_error] in Hn. injection Hn as E. cbn [firstn slots]. f_equal. lia.
    - cbn [nth_error] in Hn. cbn [firstn slots].
      destruct (Nat.eq_dec (ar t + k) 0) as [E0|E0].
      + exfalso. apply (Hmin 0 (s + Z.of_nat (ar t) - 1)%Z); [lia|reflexivity|lia].
      + apply (IH (s + Z.of_nat (ar t) - 1)%Z (ar t + k) j y); [lia|exact Hn|lia|].
        intros j' y' Hj' Hy'. intros ->. apply (Hmin (S j') _ ltac:(lia) Hy'). lia. }
  apply (G tokens 1%Z n i x); [lia|exact Hx|lia|].
  intros j' y' Hj Hy. specialize (Hmin j' y' Hj Hy). lia.
Qed.

Lemma finish_n_objects n rnd tokens : 2 <= n -> Forall (fun t => t < lL lib) tokens ->
  (exists r rest, finish_tokens lib n rnd tokens = Ok r /\ tokens = r ++ rest /\ forest ar n r) \/
  (finish_tokens lib n rnd tokens = Err AssertionError /\
   forall r rest, tokens = r ++ rest -> ~ forest ar n r).
Proof.
  intros Hn HF. unfold finish_tokens. rewrite arities_of_ok by assumption. cbn [bind].
  unfold danglings. rewrite danglings_dang. replace (1 + 0)%Z with 1%Z by lia.
  destruct (index_of _ _) as [i|] eqn:Ei.
  - left. exists (firstn (1 + i) tokens), (skipn (1 + i) tokens). split; [reflexivity|].
    split; [symmetry; apply firstn_skipn|]. apply forest_slots.
    apply dang_hit_forest; [exact Ei|lia].
  - right. destruct (Nat.eqb_spec n 1); [lia|]. split; [reflexivity|].
    intros r rest -> Hf. apply forest_slots in Hf.
    unfold index_of in Ei. rewrite index_from_None in Ei.
    assert (forall (l l' : list nat) s k, (0 < k) -> slots ar k l = Some 0 -> In (s - Z.of_nat k)%Z (dang s (l ++ l'))) as G.
    { clear. induction l as [|t l IH]; intros l' s k Hk Hs.
      - simpl in Hs. injection Hs as ->. lia.
      - destruct k as [|k]; [lia|]. cbn [slots] in Hs. cbn [app dang].
        destruct (Nat.eq_dec (ar t + k) 0) as [E0|E0].
        + left. lia.
        + right. replace (s - Z.of_nat (S k))%Z with (s + Z.of_nat (ar t) - 1 - Z.of_nat (ar t + k))%Z by lia.
          apply IH; [lia|exact Hs]. }
    specialize (G r rest 1%Z n ltac:(lia) Hf). specialize (Ei _ G). lia.
Qed.
End WithLib.

(** Splitting a multi-object traversal. *)
Lemma split_objects_forest {A} (ar : A -> nat) : forall (ts : list (tree A)) m sum n,
  Forall (respects ar) ts -> List.length ts = n -> sum = (- Z.of_nat m)%Z ->
  split_objects ar (map (fun j => - Z.of_nat j)%Z (seq (S m) n)) sum [] (flat_map preorder ts)
  = map preorder ts.
Proof.
  assert (one : forall l k m n sum (cur : list A) rest, (* inside the current object, k open slots *)
     slots ar (S k) l = Some 0 -> sum = (Z.of_nat k - Z.of_nat m)%Z -> 1 <= n ->
     split_objects ar (map (fun j => - Z.of_nat j)%Z (seq (S m) n)) sum cur (l ++ rest)
     = (cur ++ l) :: split_objects ar (map (fun j => - Z.of_nat j)%Z (seq (S (S m)) (n - 1)))
                       (- Z.of_nat (S m))%Z [] rest).
  { induction l as [|t l IH]; intros k m n sum cur rest Hs Hsum Hn; [discriminate|].
    cbn [slots] in Hs. cbn [app split_objects].
    assert (1 + (sum + (Z.of_nat (ar t) - 1)) - 1 = Z.of_nat (ar t + k) - Z.of_nat (S m))%Z as E by lia.
    rewrite E. destruct (Nat.eq_dec (ar t + k) 0) as [E0|E0].
    - rewrite E0 in *. assert (l = []) by (destruct l; [reflexivity|discriminate]). subst l.
      assert (existsb (Z.eqb (Z.of_nat 0 - Z.of_nat (S m))%Z)
                (map (fun j => (- Z.of_nat j)%Z) (seq (S m) n)) = true) as ->.
      { apply existsb_exists. exists (- Z.of_nat (S m))%Z. split; [|lia].
        apply in_map_iff. exists (S m). split; [reflexivity|]. apply in_seq. lia. }
      cbn [app]. f_equal. f_equal; [|lia].
      destruct n as [|n]; [lia|]. cbn [seq map filter].
      destruct (Z.eqb_spec (- Z.of_nat (S m)) (Z.of_nat 0 - Z.of_nat (S m))) as [_|X]; [|lia].
      cbn [negb]. replace (S n - 1) with n by lia.
      assert (forall a, S m < a -> filter (fun z => negb (z =? Z.of_nat 0 - Z.of_nat (S m))%Z)
          (map (fun j => - Z.of_nat j)%Z (seq a n)) = map (fun j => - Z.of_nat j)%Z (seq a n)) as G.
      { induction n as [|n IHn]; intros a Ha; [reflexivity|]. cbn [seq map filter].
        destruct (Z.eqb_spec (- Z.of_nat a) (Z.of_nat 0 - Z.of_nat (S m))) as [X|_]; [lia|].
        cbn [negb]. rewrite IHn by lia. reflexivity. }
      apply G. lia.
    - assert (existsb (Z.eqb (Z.of_nat (ar t + k) - Z.of_nat (S m))%Z)
                (map (fun j => (- Z.of_nat j)%Z) (seq (S m) n)) = false) as ->.
      { apply not_true_is_false. intros H. apply existsb_exists in H as (z & Hz & Hzz).
        apply in_map_iff in Hz as (j & <- & Hj). apply in_seq in Hj. lia. }
      destruct (ar t + k) as [|k'] eqn:Ek; [lia|].
      rewrite (IH k' m n) by (auto; lia). rewrite <- app_assoc. reflexivity. }
  induction ts as [|t ts IH]; intros m sum n HF Hl Hsum; subst.
  - reflexivity.
  - inversion HF; subst. cbn [flat_map map List.length].
    rewrite (one (preorder t) 0 m (S (List.length ts)) _ []); [|apply slots_tree; assumption|lia|lia].
    cbn [app]. f_equal. rewrite <- (IH (S m) (- Z.of_nat (S m))%Z (List.length ts)); auto.
    repeat f_equal. lia.
Qed.

Lemma traversals_forest {A} (ar : A -> nat) n l : forest ar n l ->
  exists parts, traversals ar n l = parts /\ List.length parts = n /\
     Forall (complete ar) parts /\ List.concat parts = l.
Proof.
  intros (ts & Hl & HF & Hp). subst l. unfold traversals.
  exists (map preorder ts). split; [apply split_objects_forest; auto|].
  split; [rewrite map_length; assumption|]. split.
  - clear Hl. induction HF as [|t ts Ht HF IH]; simpl; constructor; auto. exists t. auto.
  - symmetry. apply flat_map_concat_map.
Qed.
