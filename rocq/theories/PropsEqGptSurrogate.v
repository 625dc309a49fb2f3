(** C109: the surrogate networks of KD_EqGPT. *)
From Coq Require Import QArith Ascii Sorted Permutation.
From Coq Require Import Lqa.
From Verif Require Import Base Num EqGptSurrogate.
Local Open Scope string_scope.
Local Open Scope nat_scope.
Local Open Scope list_scope.

(** ** Which cases *)
Lemma sinsert_perm x l : Permutation (sinsert x l) (x :: l).
Proof. induction l as [|y l IH]; cbn; [reflexivity|]. destruct (String.leb x y); [reflexivity|]. rewrite IH. apply perm_swap. Qed.
Lemma ssort_perm l : Permutation (ssort l) l.
Proof. induction l as [|x l IH]; cbn; [reflexivity|]. rewrite sinsert_perm. constructor. exact IH. Qed.
Definition before (a b : string) : Prop := String.leb a b = true.
Lemma leb_total a b : String.leb a b = false -> String.leb b a = true.
Proof. destruct (String.leb_total a b) as [H|H]; congruence. Qed.
Lemma acompare_refl a : Ascii.compare a a = Eq.
Proof. apply N.compare_refl. Qed.
Lemma compare_refl a : String.compare a a = Eq.
Proof. induction a as [|x a IH]; cbn [String.compare]; [reflexivity|]. rewrite acompare_refl. exact IH. Qed.
Lemma ascii_lt_trans a b c : Ascii.compare a b = Lt -> Ascii.compare b c = Lt -> Ascii.compare a c = Lt.
Proof. unfold Ascii.compare. rewrite !N.compare_lt_iff. lia. Qed.
Lemma scompare_trans : forall a b c, String.compare a b = Lt -> String.compare b c = Lt -> String.compare a c = Lt.
Proof.
  induction a as [|x a IH]; intros [|y b] [|z c]; cbn; try discriminate; auto.
  destruct (Ascii.compare x y) eqn:E1; try discriminate; destruct (Ascii.compare y z) eqn:E2; try discriminate; intros H1 H2.
  - apply Ascii.compare_eq_iff in E1, E2. subst. rewrite acompare_refl. eapply IH; eauto.
  - apply Ascii.compare_eq_iff in E1. subst. rewrite E2. reflexivity.
  - apply Ascii.compare_eq_iff in E2. subst. rewrite E1. reflexivity.
  - rewrite (ascii_lt_trans _ _ _ E1 E2). reflexivity.
Qed.
Lemma before_trans a b c : before a b -> before b c -> before a c.
Proof.
  unfold before, String.leb. destruct (String.compare a b) eqn:E1; try discriminate; destruct (String.compare b c) eqn:E2; try discriminate; intros _ _.
  - apply String.compare_eq_iff in E1, E2. subst. rewrite compare_refl. reflexivity.
  - apply String.compare_eq_iff in E1. subst. rewrite E2. reflexivity.
  - apply String.compare_eq_iff in E2. subst. rewrite E1. reflexivity.
  - rewrite (scompare_trans _ _ _ E1 E2). reflexivity.
Qed.
Lemma sinsert_sorted x l : StronglySorted before l -> StronglySorted before (sinsert x l).
Proof.
  intros Sl. induction Sl as [|y l So IH F]; cbn; [repeat constructor|].
  destruct (String.leb x y) eqn:E.
  - constructor; [constructor; assumption|]. constructor; [exact E|]. eapply Forall_impl; [|exact F]. intros z Hz. eapply before_trans; [exact E|exact Hz].
  - constructor; [exact IH|]. rewrite Forall_forall in *. intros z Hz. apply (Permutation_in _ (sinsert_perm x l)) in Hz as [<-|Hz]; [apply leb_total; exact E|apply F; exact Hz].
Qed.
Lemma ssort_sorted l : StronglySorted before (ssort l).
Proof. induction l as [|x l IH]; cbn; [constructor|]. apply sinsert_sorted. exact IH. Qed.
Lemma skipped_spec all n : skipped all n = false <-> all = true \/ contains "N" n = true.
Proof. unfold skipped. destruct all, (contains "N" n); cbn; split; try tauto; try discriminate; intros [|]; discriminate. Qed.
Section S.
Context {Net : Type} (all retrain : bool) (shipped : string -> bool) (train : string -> option exn) (build : dir -> res Net).
Definition wanted (n : string) : Prop := (all = true \/ contains "N" n = true) /\ (retrain = true \/ shipped n = true).
Definition place (n : string) : dir := if retrain then Temp n else Shipped n.
Lemma loop_ok names : forall ev l, cases_loop all retrain shipped train build names = (ev, Ok l) ->
  (forall n, In n (map fst l) <-> In n names /\ wanted n) /\ (forall R, StronglySorted R names -> StronglySorted R (map fst l)) /\
  (forall n net, In (n, net) l -> build (place n) = Ok net /\ (retrain = true -> train n = None)).
Proof.
  induction names as [|n r IH]; intros ev l; cbn [cases_loop].
  - intros [= <- <-]. split; [cbn; tauto|]. split; [intros R _; constructor|intros ? ? []].
  - destruct (skipped all n) eqn:SK.
    + intros H. destruct (IH _ _ H) as (A & B & C). split; [|split; [intros R So; apply B; apply StronglySorted_inv in So; tauto|exact C]]. intros m. rewrite A. cbn [In]. split; [tauto|]. intros [[<-|I] W]; [|tauto].
      destruct W as [W _]. apply skipped_spec in W. congruence.
    + apply skipped_spec in SK.
      assert (GO : forall d bf, d = place n -> (retrain = true -> train n = None) -> (retrain = true \/ shipped n = true) -> match build d with Err e => (bf ++ [Load d], Err e) | Ok net => let (ev0, rs) := cases_loop all retrain shipped train build r in (bf ++ Load d :: ev0, do l <- rs ; Ok ((n, net) :: l)) end = (ev, Ok l) ->
        (forall m, In m (map fst l) <-> In m (n :: r) /\ wanted m) /\ (forall R, StronglySorted R (n :: r) -> StronglySorted R (map fst l)) /\ (forall m net, In (m, net) l -> build (place m) = Ok net /\ (retrain = true -> train m = None))).
      { intros d bf -> TN W2. destruct (build (place n)) as [net|e] eqn:BD; [|discriminate]. destruct (cases_loop all retrain shipped train build r) as [ev0 [l0|e]]; cbn [bind]; [|discriminate]. intros [= _ <-].
        destruct (IH _ _ eq_refl) as (A & B & C). split; [|split].
        - intros m. cbn [map In fst]. rewrite A. split; [intros [<-|[I W]]; [split; [now left|split; assumption]|split; [now right|exact W]]|]. intros [[<-|I] W]; [now left|right; split; assumption].
        - intros R So. cbn [map fst]. apply StronglySorted_inv in So as [So F]. constructor; [apply B; exact So|]. rewrite Forall_forall in *. intros m Hm. apply F. apply A in Hm. tauto.
        - intros m net' [[= <- <-]|I]; [split; assumption|apply C; exact I]. }
      destruct retrain eqn:RT.
      * destruct (train n) as [e|] eqn:TR; [discriminate|]. intros H. apply (GO (Temp n) [Train (Temp n)]); auto. unfold place. rewrite ?RT. reflexivity.
      * destruct (shipped n) eqn:SH.
        -- intros H. apply (GO (Shipped n) []); auto; [unfold place; rewrite ?RT; reflexivity|discriminate].
        -- destruct (cases_loop all false shipped train build r) as [ev0 rs] eqn:Q. intros [= <- ->]. destruct (IH _ _ eq_refl) as (A & B & C). split; [|split; [intros R So; apply B; apply StronglySorted_inv in So; tauto|exact C]].
           intros m. rewrite A. cbn [In]. split; [tauto|]. intros [[<-|I] W]; [|tauto]. destruct W as [_ [W|W]]; congruence.
Qed.
Lemma loop_events names : forall ev rs, cases_loop all retrain shipped train build names = (ev, rs) ->
  forall e, In e ev -> exists n, In n names /\ if retrain then e = Train (Temp n) \/ e = Load (Temp n) else e = Skip n \/ e = Load (Shipped n).
Proof.
  induction names as [|n r IH]; intros ev rs; cbn [cases_loop]; [intros [= <- <-] e []|].
  assert (UP : forall ev0, (forall e, In e ev0 -> exists n, In n r /\ if retrain then e = Train (Temp n) \/ e = Load (Temp n) else e = Skip n \/ e = Load (Shipped n)) -> forall e, In e ev0 -> exists m, In m (n :: r) /\ if retrain then e = Train (Temp m) \/ e = Load (Temp m) else e = Skip m \/ e = Load (Shipped m)).
  { intros ev0 H e He. destruct (H e He) as (m & I & P). exists m. split; [now right|exact P]. }
  destruct (skipped all n); [intros H e He; apply (UP ev); [exact (IH _ _ H)|exact He]|]. destruct (cases_loop all retrain shipped train build r) as [ev0 rs0] eqn:Q. specialize (IH _ _ eq_refl).
  destruct retrain.
  - destruct (train n) as [x|]; [intros [= <- <-] e [<-|[]]; exists n; split; [now left|now left]|].
    destruct (build (Temp n)) as [net|x]; intros [= <- <-] e He.
    + cbn in He. destruct He as [<-|[<-|He]]; [exists n; split; [now left|now left]|exists n; split; [now left|now right]|apply (UP ev0 IH e He)].
    + cbn in He. destruct He as [<-|[<-|[]]]; [exists n; split; [now left|now left]|exists n; split; [now left|now right]].
  - destruct (shipped n).
    + destruct (build (Shipped n)) as [net|x]; intros [= <- <-] e He; cbn in He.
      * destruct He as [<-|He]; [exists n; split; [now left|now right]|apply (UP ev0 IH e He)].
      * destruct He as [<-|[]]. exists n; split; [now left|now right].
    + intros [= <- <-] e [<-|He]; [exists n; split; [now left|now left]|apply (UP ev0 IH e He)].
Qed.
End S.
(** Success: the cases used are exactly those whose name contains N (all of them for the filter all) and that have a shipped network
    (any of them when retraining), in sorted order, each with the network of its own directory. *)
Theorem C109_cases {Net} all retrain shipped train (build : dir -> res Net) keys ev l : load_surrogates all retrain shipped train build keys = (ev, Ok l) ->
  (forall n, In n (map fst l) <-> In n keys /\ (all = true \/ contains "N" n = true) /\ (retrain = true \/ shipped n = true)) /\
  StronglySorted before (map fst l) /\ l <> [] /\
  forall n net, In (n, net) l -> build (if retrain then Temp n else Shipped n) = Ok net /\ (retrain = true -> train n = None).
Proof.
  unfold load_surrogates. destruct (cases_loop all retrain shipped train build (ssort keys)) as [ev0 [l0|e]] eqn:Q; cbn [bind]; [|discriminate]. destruct l0 as [|p l0]; [discriminate|]. intros [= _ <-].
  destruct (loop_ok _ _ _ _ _ _ _ _ Q) as (A & B & C). split; [|split; [apply B; apply ssort_sorted|split; [discriminate|exact C]]].
  intros n. rewrite A. unfold wanted. split; intros [I W]; (split; [|exact W]); (eapply Permutation_in; [|exact I]); [apply ssort_perm|symmetry; apply ssort_perm].
Qed.
(** No such case: RuntimeError. *)
Theorem C109_no_case {Net} all retrain shipped train (build : dir -> res Net) keys : (forall n, In n keys -> ~ ((all = true \/ contains "N" n = true) /\ (retrain = true \/ shipped n = true))) ->
  snd (load_surrogates all retrain shipped train build keys) = Err RuntimeError.
Proof.
  intros H. assert (H' : forall n, In n (ssort keys) -> ~ ((all = true \/ contains "N" n = true) /\ (retrain = true \/ shipped n = true))) by (intros n Hn; apply H; eapply Permutation_in; [apply ssort_perm|exact Hn]).
  unfold load_surrogates. assert (Q : snd (cases_loop all retrain shipped train build (ssort keys)) = Ok []).
  { revert H'. generalize (ssort keys). clear H. intros l. induction l as [|n r IH]; intros H; cbn [cases_loop]; [reflexivity|]. assert (IH' := IH (fun m I => H m (or_intror I))). specialize (H n (or_introl eq_refl)).
    destruct (skipped all n) eqn:SK; [exact IH'|]. apply skipped_spec in SK. destruct retrain; [tauto|]. destruct (shipped n); [tauto|]. destruct (cases_loop all false shipped train build r); exact IH'. }
  destruct (cases_loop all retrain shipped train build (ssort keys)) as [ev rs]. cbn in Q. subst rs. reflexivity.
Qed.
(** Retraining works in a temporary directory that is removed whatever happens, and touches nothing else; otherwise nothing is written. *)
Theorem C109_temporary_directory {Net} all retrain shipped train (build : dir -> res Net) keys : let ev := fst (load_surrogates all retrain shipped train build keys) in
  if retrain then exists mid, ev = MakeTemp :: mid ++ [RemoveTemp] /\ forall e, In e mid -> exists n, In n keys /\ (e = Train (Temp n) \/ e = Load (Temp n))
  else forall e, In e ev -> exists n, In n keys /\ (e = Skip n \/ e = Load (Shipped n)).
Proof.
  unfold load_surrogates. destruct (cases_loop all retrain shipped train build (ssort keys)) as [ev0 rs] eqn:Q. pose proof (loop_events _ _ _ _ _ _ _ _ Q) as E. cbn [fst].
  assert (K : forall n, In n (ssort keys) -> In n keys) by (intros n; apply Permutation_in, ssort_perm). destruct retrain; [exists ev0; split; [reflexivity|]|]; intros e He; destruct (E e He) as (n & I & P); exists n; split; auto.
Qed.

(** ** Training *)
Lemma pymin_fold l : forall x, is_nan x = false -> Forall (fun a => is_nan a = false) l ->
  let m := fold_left (fun m y => if nlt y m then y else m) l x in is_nan m = false /\ In m (x :: l) /\ forall y, In y (x :: l) -> nle m y = true.
Proof.
  induction l as [|y l IH]; intros x Nx F; cbn [fold_left].
  - split; [exact Nx|]. split; [now left|]. intros z [<-|[]]. apply nle_refl. exact Nx.
  - inversion F as [|? ? Ny F']; subst. destruct (nlt y x) eqn:E.
    + destruct (IH y Ny F') as (A & B & C). split; [exact A|]. split; [destruct B as [<-|B]; [right; now left|right; now right]|]. intros z [<-|[<-|Hz]]; [|apply C; now left|apply C; now right].
      eapply nle_trans; [apply C; now left|apply nlt_nle; exact E].
    + destruct (IH x Nx F') as (A & B & C). split; [exact A|]. split; [destruct B as [<-|B]; [now left|right; now right]|]. intros z [<-|[<-|Hz]]; [apply C; now left| |apply C; now right].
      eapply nle_trans; [apply C; now left|apply not_nlt_nle; assumption].
Qed.
Lemma pymin_spec l : l <> [] -> Forall (fun a => is_nan a = false) l -> is_nan (pymin l) = false /\ In (pymin l) l /\ forall y, In y l -> nle (pymin l) y = true.
Proof. destruct l as [|x r]; [congruence|]. intros _ F. inversion F; subst. apply pymin_fold; assumption. Qed.
Lemma index_first m l : is_nan m = false -> In m l -> index_of m l < List.length l /\ neq (nth (index_of m l) l NaN) m /\ forall j, j < index_of m l -> ~ neq (nth j l NaN) m.
Proof.
  intros N. induction l as [|x l IH]; intros I; [destruct I|]. cbn [index_of]. rewrite N. cbn [orb]. destruct (num_is x m) eqn:E.
  - cbn. split; [lia|]. split; [unfold num_is in E; apply andb_true_iff in E; exact E|intros; lia].
  - assert (NE : ~ neq x m) by (intros [A B]; unfold num_is in E; rewrite A, B in E; discriminate). destruct I as [->|I]; [exfalso; apply NE; apply neq_refl; exact N|].
    destruct (IH I) as (A & B & C). cbn [List.length nth]. split; [lia|]. split; [exact B|]. intros [|j] Hj; [exact NE|apply C; lia].
Qed.
(** The weights loaded after training are a saved check point (every 500 steps, or the last step if there were fewer); it has the smallest
    validation error, the first such one. *)
Theorem C109_best_check_point epochs err : (forall k, is_nan (err k) = false) -> let (saved, best) := train_files epochs err in
  In best saved /\
  ((epochs < 500)%Z -> best = epochs) /\
  ((500 <= epochs)%Z -> (forall z, In z saved <-> exists k, (1 <= k)%Z /\ (z = 500 * k)%Z /\ (z <= epochs)%Z) /\
     (forall z, In z saved -> nle (err (Z.to_nat best)) (err (Z.to_nat z)) = true) /\ (forall z, In z saved -> (z < best)%Z -> nlt (err (Z.to_nat best)) (err (Z.to_nat z)) = true)).
Proof.
  intros N. unfold train_files. destruct (checkpoints epochs) as [|c cs] eqn:E.
  - split; [now left|]. split; [reflexivity|]. intros H. exfalso. unfold checkpoints in E. apply map_eq_nil in E. assert (L : Z.to_nat (epochs / 500) = 0) by (rewrite <- (seq_length (Z.to_nat (epochs / 500)) 0), E; reflexivity).
    assert (1 <= epochs / 500)%Z by (apply Z.div_le_lower_bound; lia). lia.
  - rewrite <- E. set (n := Z.to_nat (epochs / 500)). assert (Hn : n <> 0) by (unfold checkpoints in E; fold n in E; destruct n; [discriminate|lia]).
    assert (SV : checkpoints epochs = map (fun i => 500 * S i) (seq 0 n)) by reflexivity. set (es := map err (checkpoints epochs)).
    assert (LE : List.length es = n) by (unfold es; rewrite SV, !map_length; apply seq_length).
    assert (NT : forall i, i < n -> nth i es NaN = err (500 * S i)). { intros i Hi. unfold es. rewrite SV, map_map. rewrite (nth_indep _ NaN (err (500 * S 0))) by (rewrite map_length, seq_length; exact Hi). rewrite (map_nth (fun i => err (500 * S i)) (seq 0 n) 0 i), seq_nth by exact Hi. reflexivity. }
    assert (MN : is_nan (pymin es) = false /\ In (pymin es) es /\ forall y, In y es -> nle (pymin es) y = true).
    { apply pymin_spec; [intros Q; rewrite Q in LE; cbn in LE; congruence|]. apply Forall_forall. intros y Hy. apply in_map_iff in Hy as (k & <- & _). apply N. }
    destruct MN as (M1 & M2 & M3). destruct (index_first _ _ M1 M2) as (I1 & I2 & I3). set (ix := index_of (pymin es) es) in *. rewrite LE in I1.
    assert (IS : forall z, In z (map Z.of_nat (checkpoints epochs)) <-> exists i, i < n /\ z = Z.of_nat (500 * S i)).
    { intros z. rewrite SV, map_map, in_map_iff. split; [intros (i & <- & Hi); apply in_seq in Hi; exists i; split; [lia|reflexivity]|intros (i & Hi & ->); exists i; split; [reflexivity|apply in_seq; lia]]. }
    assert (BE : ((Z.of_nat ix + 1) * 500 = Z.of_nat (500 * S ix))%Z) by lia. rewrite BE.
    assert (LOW : forall i, i < n -> nle (err (500 * S ix)) (err (500 * S i)) = true). { intros i Hi. rewrite <- (NT ix I1), <- (NT i Hi). eapply nle_trans; [apply I2|]. apply M3. apply nth_In. lia. }
    split; [apply IS; exists ix; split; [exact I1|reflexivity]|]. split.
    { intros H. exfalso. apply Hn. unfold n. destruct (Z.lt_ge_cases epochs 0) as [?|?]; [assert (epochs / 500 < 0)%Z by (apply Z.div_lt_upper_bound; lia); lia|]. rewrite Z.div_small by lia. reflexivity. }
    intros H. split; [|split].
    + intros z. rewrite IS. unfold n. split.
      * intros (i & Hi & ->). exists (Z.of_nat (S i)). split; [lia|]. split; [lia|]. assert (Z.of_nat (S i) <= epochs / 500)%Z by lia. pose proof (Z.mul_div_le epochs 500). lia.
      * intros (k & Hk & -> & Hle). exists (Z.to_nat (k - 1)). assert (k <= epochs / 500)%Z by (apply Z.div_le_lower_bound; lia). split; lia.
    + intros z Hz. apply IS in Hz as (i & Hi & ->). rewrite !Nat2Z.id. apply LOW. exact Hi.
    + intros z Hz Hlt. apply IS in Hz as (i & Hi & ->). rewrite !Nat2Z.id. assert (Hi' : i < ix) by lia. specialize (I3 i Hi'). apply not_nle_nlt; try apply N. apply not_true_iff_false. intros X. apply I3. rewrite (NT i Hi). split.
      * eapply nle_trans; [exact X|]. rewrite <- (NT ix I1). apply I2.
      * eapply nle_trans; [|apply LOW; exact Hi]. rewrite <- (NT ix I1). apply I2.
Qed.
(** The rows used for training and for validation are different rows of the case. *)
Theorem C109_rows_disjoint idx : NoDup idx -> (forall r, In r (train_rows idx) -> ~ In r (val_rows idx)) /\ incl (train_rows idx) idx /\ incl (val_rows idx) idx /\
  List.length (train_rows idx) = 95 * List.length idx / 100 /\ List.length (val_rows idx) = 5 * List.length idx / 100.
Proof.
  intros ND. unfold train_rows, val_rows. set (n := List.length idx). assert (T : n_train n + n_val n <= n). { unfold n_train, n_val. pose proof (Nat.div_mod (95 * n) 100). pose proof (Nat.div_mod (5 * n) 100). lia. }
  assert (FI : forall k (l : list nat), incl (firstn k l) l) by (intros k l x Hx; rewrite <- (firstn_skipn k l); apply in_app_iff; now left).
  assert (SI : forall k (l : list nat), incl (skipn k l) l) by (intros k l x Hx; rewrite <- (firstn_skipn k l); apply in_app_iff; now right).
  split; [|split; [apply FI|split; [eapply incl_tran; [apply FI|apply SI]|]]].
  - intros r H1 H2. apply FI in H2. rewrite <- (firstn_skipn (n_train n) idx) in ND. clear - ND H1 H2. revert ND H1 H2. generalize (firstn (n_train n) idx) (skipn (n_train n) idx). induction l as [|a l IH]; intros l0 ND H1 H2; [destruct H1|].
    cbn in ND. apply NoDup_cons_iff in ND as [NI ND]. destruct H1 as [<-|H1]; [apply NI; apply in_app_iff; now right|eapply IH; eauto].
  - rewrite !firstn_length, skipn_length. fold n. unfold n_train, n_val in *. lia.
Qed.
(** "The check point with the smallest validation error is used" is false when a validation error is NaN, as it always is with fewer than
    20 rows: the first check point is used. *)
Theorem C109_nan_error_refuted : (forall idx, List.length idx < 20 -> val_rows idx = []) /\
  exists err, err 500 = NaN /\ nlt (err 1000) (err 1500) = true /\ train_files 1500 err = ([500; 1000; 1500]%Z, 500%Z).
Proof.
  split.
  - intros idx H. unfold val_rows, n_val. rewrite Nat.div_small by lia. reflexivity.
  - exists (fun k => if k =? 500 then NaN else if k =? 1000 then Fin 0 else Fin 1). repeat split; vm_compute; reflexivity.
Qed.

(** ** Names and coordinates *)
Inductive all_digits : list nat -> string -> Prop :=
| ad_nil : all_digits [] ""
| ad_cons a d ds s : digit a = Some d -> all_digits ds s -> all_digits (d :: ds) (String a s).
(** the text starts with G<digits>Tp<digits>A<digits>, the last group being as long as possible *)
Definition starts (s : string) (g tp a : nat) : Prop :=
  exists s1 s2 s3 post d1 d2 d3, s = ("G" ++ s1 ++ "Tp" ++ s2 ++ "A" ++ s3 ++ post)%string /\ all_digits d1 s1 /\ all_digits d2 s2 /\ all_digits d3 s3 /\
    d1 <> [] /\ d2 <> [] /\ d3 <> [] /\ (forall c r, post = String c r -> digit c = None) /\ g = number d1 /\ tp = number d2 /\ a = number d3.
Lemma after_spec p : forall s r, after p s = Some r <-> s = (p ++ r)%string.
Proof.
  induction p as [|a p IH]; intros s r; cbn; [split; congruence|]. destruct s as [|b s]; [split; discriminate|]. destruct (Ascii.eqb a b) eqn:E.
  - apply Ascii.eqb_eq in E. subst b. rewrite IH. split; [intros ->; reflexivity|intros [= ->]; reflexivity].
  - apply Ascii.eqb_neq in E. split; [discriminate|]. intros [= ? ?]. congruence.
Qed.
Lemma digits_app ds s post : all_digits ds s -> (forall c r, post = String c r -> digit c = None) -> digits (s ++ post) = (ds, post).
Proof.
  induction 1 as [|a d ds s E A IH]; intros H; cbn.
  - destruct post as [|c r]; [reflexivity|]. cbn. rewrite (H c r eq_refl). reflexivity.
  - rewrite E, (IH H). reflexivity.
Qed.
Lemma digits_inv s : forall ds r, digits s = (ds, r) -> exists s1, s = (s1 ++ r)%string /\ all_digits ds s1 /\ forall c q, r = String c q -> digit c = None.
Proof.
  induction s as [|a s IH]; intros ds r; cbn.
  - intros [= <- <-]. exists ""%string. split; [reflexivity|]. split; [constructor|discriminate].
  - destruct (digit a) as [d|] eqn:E.
    + destruct (digits s) as [ds' r']. intros [= <- <-]. destruct (IH _ _ eq_refl) as (s1 & -> & A & B). exists (String a s1). split; [reflexivity|]. split; [constructor; assumption|exact B].
    + intros [= <- <-]. exists ""%string. split; [reflexivity|]. split; [constructor|]. intros c q [= <- <-]. exact E.
Qed.
Lemma labelled_spec p s n r : labelled p s = Some (n, r) <-> exists ds s1, s = (p ++ s1 ++ r)%string /\ all_digits ds s1 /\ ds <> [] /\ n = number ds /\ forall c q, r = String c q -> digit c = None.
Proof.
  unfold labelled. split.
  - destruct (after p s) as [q|] eqn:E; [|discriminate]. apply after_spec in E. destruct (digits q) as [[|d ds] r'] eqn:Q; [discriminate|]. intros [= <- <-]. destruct (digits_inv _ _ _ Q) as (s1 & -> & A & B). exists (d :: ds), s1. split; [exact E|]. split; [exact A|]. split; [discriminate|]. split; [reflexivity|exact B].
  - intros (ds & s1 & -> & A & NE & -> & B). replace (after p (p ++ s1 ++ r)%string) with (Some (s1 ++ r)%string) by (symmetry; apply after_spec; reflexivity). rewrite (digits_app ds s1 r A B). destruct ds; [congruence|reflexivity].
Qed.
Lemma sapp_assoc (a b c : string) : ((a ++ b) ++ c = a ++ b ++ c)%string.
Proof. induction a; cbn; congruence. Qed.
Lemma match_here_spec s g tp a : match_here s = Some (g, tp, a) <-> starts s g tp a.
Proof.
  unfold match_here, starts. split.
  - destruct (labelled "G" s) as [[g' r1]|] eqn:E1; [|discriminate]. destruct (labelled "Tp" r1) as [[tp' r2]|] eqn:E2; [|discriminate]. destruct (labelled "A" r2) as [[a' r3]|] eqn:E3; [|discriminate]. intros [= <- <- <-].
    apply labelled_spec in E1 as (d1 & s1 & -> & A1 & N1 & -> & _), E2 as (d2 & s2 & -> & A2 & N2 & -> & _), E3 as (d3 & s3 & -> & A3 & N3 & -> & B3).
    exists s1, s2, s3, r3, d1, d2, d3. repeat split; auto.
  - intros (s1 & s2 & s3 & post & d1 & d2 & d3 & -> & A1 & A2 & A3 & N1 & N2 & N3 & B & -> & -> & ->).
    replace (labelled "G" _) with (Some (number d1, ("Tp" ++ s2 ++ "A" ++ s3 ++ post)%string)) by (symmetry; apply labelled_spec; exists d1, s1; repeat split; auto; intros c q [= <- _]; reflexivity).
    replace (labelled "Tp" _) with (Some (number d2, ("A" ++ s3 ++ post)%string)) by (symmetry; apply labelled_spec; exists d2, s2; repeat split; auto; intros c q [= <- _]; reflexivity).
    replace (labelled "A" _) with (Some (number d3, post)) by (symmetry; apply labelled_spec; exists d3, s3; repeat split; auto). reflexivity.
Qed.
(** A case name gives its parameters exactly when it contains G<digits>Tp<digits>A<digits>; the first such place counts. *)
Theorem C109_case_name s g tp a : parse_case s = Some (g, tp, a) <->
  exists pre rest, s = (pre ++ rest)%string /\ starts rest g tp a /\ forall p q, s = (p ++ q)%string -> String.length p < String.length pre -> ~ exists g' tp' a', starts q g' tp' a'.
Proof.
  assert (NM : forall t, match_here t = None <-> ~ exists g tp a, starts t g tp a).
  { intros t. split; [intros H (g' & tp' & a' & X); apply match_here_spec in X; congruence|]. intros H. destruct (match_here t) as [[[g' tp'] a']|] eqn:E; [|reflexivity]. exfalso. apply H. exists g', tp', a'. apply match_here_spec. exact E. }
  revert g tp a. induction s as [|c s IH]; intros g tp a; cbn [parse_case].
  - destruct (match_here "") eqn:E; [discriminate|]. split; [discriminate|]. intros (pre & rest & Q & St & _). destruct pre; [|discriminate]. cbn in Q. subst rest. apply match_here_spec in St. congruence.
  - destruct (match_here (String c s)) as [x|] eqn:E.
    + split.
      * intros [= ->]. exists ""%string, (String c s). split; [reflexivity|]. split; [apply match_here_spec; exact E|]. cbn. intros. lia.
      * intros (pre & rest & Q & St & F). destruct pre as [|c' pre]; [cbn in Q; subst rest; apply match_here_spec in St; congruence|]. exfalso. apply (F ""%string (String c s) eq_refl); [cbn; lia|]. destruct x as [[g' tp'] a']. exists g', tp', a'. apply match_here_spec. exact E.
    + rewrite IH. split.
      * intros (pre & rest & -> & St & F). exists (String c pre), rest. split; [reflexivity|]. split; [exact St|]. intros [|c' p] q Q L; [cbn in Q; subst q; apply NM; exact E|]. injection Q as _ Q. apply (F p q Q). cbn in L. lia.
      * intros (pre & rest & Q & St & F). destruct pre as [|c' pre]; [cbn in Q; subst rest; apply match_here_spec in St; congruence|]. injection Q as <- Q. exists pre, rest. split; [exact Q|]. split; [exact St|]. intros p q Q' L. apply (F (String c p) q); [rewrite Q'; reflexivity|cbn; lia].
Qed.
(** Rows of the evaluation grid: time by time, position by position. *)
Theorem C109_grid tp lam ts xs i j : i < List.length ts -> j < List.length xs ->
  List.length (database tp lam ts xs) = List.length ts * List.length xs /\
  nth_error (database tp lam ts xs) (i * List.length xs + j) = Some (eval_point tp lam (nth i ts 0%Q) (nth j xs 0%Q)).
Proof.
  intros Hi Hj. assert (L : forall ts, List.length (database tp lam ts xs) = List.length ts * List.length xs) by (induction ts0 as [|t l IH]; [reflexivity|]; unfold database in *; cbn [flat_map List.length]; rewrite app_length, map_length, IH; lia).
  split; [apply L|]. revert i Hi. induction ts as [|t ts IH]; intros i Hi; [cbn in Hi; lia|]. unfold database in *. cbn [flat_map]. destruct i as [|i].
  - cbn [Nat.mul Nat.add]. rewrite nth_error_app1 by (rewrite map_length; exact Hj). rewrite nth_error_map, (nth_error_nth' xs 0%Q Hj). reflexivity.
  - rewrite nth_error_app2 by (rewrite map_length; cbn; lia). rewrite map_length. replace (S i * List.length xs + j - List.length xs) with (i * List.length xs + j) by (cbn; lia). cbn [nth]. apply IH. cbn in Hi. lia.
Qed.
(** "A retrained surrogate is evaluated where it was trained" is false: it is trained on t and x - 8 and evaluated at t / Tp and
    (x - 8.17) / lambda; the two agree nowhere unless Tp is 1 (or t is 0). *)
Theorem C109_coordinates_refuted tp lam t x : ~ (tp == 0)%Q -> ~ (tp == 1)%Q -> ~ (t == 0)%Q -> ~ (fst (eval_point tp lam t x) == fst (train_point t x))%Q.
Proof.
  intros T0 T1 H E. cbn in E. apply T1. assert (M : (t == t * tp)%Q) by (rewrite <- E at 2; field; exact T0).
  assert (t * (tp - 1) == 0)%Q as Z by (ring_simplify; lra). apply Qmult_integral in Z as [Z|Z]; [contradiction|lra].
Qed.
Example C109_case : parse_case "N_G2Tp12A100_broad" = Some (2, 12, 100) /\ parse_case "L_G2T12" = None /\ (peak_period 12 == 6 # 5)%Q /\
  snd (load_surrogates false true (fun _ => false) (fun _ => None) (fun d => Ok d) ["N_b"; "L_a"; "N_a"]) = Ok [("N_a", Temp "N_a"); ("N_b", Temp "N_b")] /\
  fst (load_surrogates (Net := unit) true true (fun _ => false) (fun n => if String.eqb n "b" then Some ValueError else None) (fun d => Ok tt) ["b"; "a"]) =
    [MakeTemp; Train (Temp "a"); Load (Temp "a"); Train (Temp "b"); RemoveTemp] /\
  snd (load_surrogates (Net := unit) true false (fun _ => false) (fun n => None) (fun d => Ok tt) ["b"; "a"]) = Err RuntimeError /\
  train_files 1600 (fun k => Fin (inject_Z (Z.of_nat (k - 1000)))) = ([500; 1000; 1500]%Z, 500%Z) /\ train_files 3 (fun _ => NaN) = ([3]%Z, 3%Z).
Proof. repeat split; vm_compute; reflexivity. Qed.

Print Assumptions C109_cases.
Print Assumptions C109_no_case.
Print Assumptions C109_temporary_directory.
Print Assumptions C109_best_check_point.
Print Assumptions C109_rows_disjoint.
Print Assumptions C109_nan_error_refuted.
Print Assumptions C109_case_name.
Print Assumptions C109_grid.
Print Assumptions C109_coordinates_refuted.
