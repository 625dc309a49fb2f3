(** Lemmas about printed DLGA equations.  The claims are in PropsDlgaEq. *)
From Coq Require Import QArith Qabs Qround Ascii Permutation Sorted Lqa.
From Verif Require Import Base Num Dlga DlgaFacts DlgaEq DlgaEqSpec.
Local Open Scope string_scope.

Lemma app_nil_r_s (s : string) : (s ++ "" = s)%string.
Proof. induction s as [|a s IH]; [reflexivity|]. cbn. f_equal. exact IH. Qed.
Lemma app_assoc_s (a b c : string) : ((a ++ b) ++ c = a ++ (b ++ c))%string.
Proof. induction a as [|x a IH]; [reflexivity|]. cbn. f_equal. exact IH. Qed.

(** No plus or minus sign. *)
Fixpoint nosign (s : string) : bool :=
  match s with "" => true | String a s' => negb (Ascii.eqb a "+" || Ascii.eqb a "-") && nosign s' end.
Lemma plain_nosign s : plain s = true -> nosign s = true.
Proof.
  induction s as [|a s IH]; [reflexivity|]. cbn. intros H. apply andb_prop in H as [H1 H2]. rewrite (IH H2).
  destruct (Ascii.eqb a "+"), (Ascii.eqb a "-"); cbn in *; auto.
Qed.
Lemma nosign_app a b : nosign (a ++ b) = (nosign a && nosign b)%bool.
Proof. induction a as [|x a IH]; [reflexivity|]. cbn. rewrite IH. apply andb_assoc. Qed.

(** Text of a product. *)
Definition product (k : string) (ns : list string) : string := (k ++ "*" ++ joins "*" ns)%string.
Lemma joins_nosign ns : Forall opname ns -> nosign (joins "*" ns) = true.
Proof.
  induction 1 as [|x l [_ Hx] Hl IH]; [reflexivity|]. destruct l as [|y l'].
  - cbn. apply plain_nosign. exact Hx.
  - change (joins "*" (x :: y :: l')) with (x ++ "*" ++ joins "*" (y :: l'))%string. rewrite nosign_app, (plain_nosign _ Hx). exact IH.
Qed.

(** *** Summands *)
Lemma summands_clean t : nosign t = true -> forall acc rest, summands acc (t ++ rest) = summands (acc ++ t) rest.
Proof.
  induction t as [|a t IH]; intros H acc rest.
  - rewrite app_nil_r_s. reflexivity.
  - cbn in H. apply andb_prop in H as [H1 H2]. cbn [String.append]. cbn [summands].
    destruct (Ascii.eqb a "+"); [discriminate|]. destruct (Ascii.eqb a "-"); [discriminate|]. rewrite (IH H2). f_equal.
    rewrite app_assoc_s. reflexivity.
Qed.
(** A summand text: sign and non-empty text without signs. *)
Definition signed (t : string) : Prop := (t <> "" /\ nosign t = true) \/ exists u, t = String "-" u /\ u <> "" /\ nosign u = true.
Lemma eqb_ne (s : string) : s <> "" -> String.eqb s "" = false.
Proof. apply String.eqb_neq. Qed.
(** Reading a signed summand from the empty accumulator. *)
Lemma summands_signed t rest : signed t -> summands "" (t ++ rest) = summands t rest.
Proof.
  intros [[_ H]|(u & -> & _ & H)].
  - rewrite (summands_clean t H). reflexivity.
  - cbn [String.append summands Ascii.eqb]. cbn. rewrite (summands_clean u H). reflexivity.
Qed.
Lemma signed_ne t : signed t -> t <> "".
Proof. intros [[H _]|(u & -> & _)]; [exact H|discriminate]. Qed.
(** A sum: the terms separated by plus signs. *)
Lemma summands_sum ts : Forall signed ts -> ts <> [] -> summands "" (joins "+" ts) = ts.
Proof.
  induction 1 as [|t ts Ht Hts IH]; [congruence|]. intros _. destruct ts as [|t' ts'].
  - cbn [joins]. rewrite <- (app_nil_r_s t) at 1. rewrite (summands_signed t "" Ht). reflexivity.
  - change (joins "+" (t :: t' :: ts')) with (t ++ "+" ++ joins "+" (t' :: ts'))%string. rewrite (summands_signed t _ Ht).
    cbn [String.append summands]. cbn. f_equal. apply IH. congruence.
Qed.
(** The same after replacing +- by -. *)
Lemma replace_clean t rest : nosign t = true -> replace_pm (t ++ rest) = (t ++ replace_pm rest)%string.
Proof.
  induction t as [|a t IH]; intros H; [reflexivity|]. cbn in H. apply andb_prop in H as [H1 H2]. cbn [String.append].
  assert (a <> "+"%char) as N by (intros ->; discriminate).
  transitivity (String a (replace_pm (t ++ rest))).
  - cbn [replace_pm]. destruct a as [[] [] [] [] [] [] [] []]; try reflexivity. exfalso. apply N. reflexivity.
  - f_equal. apply IH. exact H2.
Qed.
Lemma replace_minus s : replace_pm (String "-" s) = String "-" (replace_pm s).
Proof. reflexivity. Qed.
Lemma replace_signed t rest : signed t -> replace_pm (t ++ rest) = (t ++ replace_pm rest)%string.
Proof.
  intros [[_ H]|(u & -> & _ & H)]; [apply replace_clean; exact H|]. cbn [String.append]. rewrite replace_minus. f_equal. apply replace_clean. exact H.
Qed.
Definition isneg (t : string) : bool := match t with String a _ => Ascii.eqb a "-" | "" => false end.
Lemma nosign_isneg t : nosign t = true -> isneg t = false.
Proof. destruct t as [|a t]; [reflexivity|]. cbn [nosign isneg]. destruct (Ascii.eqb a "-"); [|reflexivity]. rewrite orb_true_r. discriminate. Qed.
Lemma replace_plus_signed t rest : signed t ->
  replace_pm (String "+" (t ++ rest)) = if isneg t then (t ++ replace_pm rest)%string else String "+" (t ++ replace_pm rest).
Proof.
  intros H. destruct H as [[N H]|(u & -> & N & H)].
  - rewrite (nosign_isneg t H). destruct t as [|a t]; [congruence|]. rewrite <- (replace_clean (String a t) rest H). cbn [String.append].
    pose proof (nosign_isneg _ H) as H1. cbn [isneg] in H1.
    destruct a as [[] [] [] [] [] [] [] []]; try reflexivity. discriminate.
  - change (isneg (String "-" u)) with true. cbn [String.append]. transitivity (String "-" (replace_pm (u ++ rest))); [reflexivity|]. f_equal. apply replace_clean. exact H.
Qed.
Lemma summands_replaced ts : Forall signed ts -> ts <> [] -> summands "" (replace_pm (joins "+" ts)) = ts.
Proof.
  intros H N. destruct ts as [|t ts]; [congruence|]. apply Forall_cons_iff in H as [Ht Hts]. clear N.
  assert (forall ts, Forall signed ts -> forall t, signed t -> summands t (replace_pm (match ts with [] => "" | _ => String "+" (joins "+" ts) end)) = t :: ts) as G.
  { clear. induction 1 as [|t' ts Ht' Hts IH]; intros t Ht; [reflexivity|].
    assert (String "+" (joins "+" (t' :: ts)) = String "+" (t' ++ match ts with [] => "" | _ => String "+" (joins "+" ts) end)) as ->.
    { f_equal. destruct ts; [cbn; symmetry; apply app_nil_r_s|reflexivity]. }
    rewrite (replace_plus_signed t' _ Ht'). destruct (isneg t') eqn:Ep.
    - destruct Ht' as [[N H]|(u & -> & N & H)].
      + rewrite (nosign_isneg _ H) in Ep. discriminate.
      + cbn [String.append summands]. cbn [Ascii.eqb]. cbn -[summands String.eqb]. rewrite (eqb_ne t (signed_ne t Ht)). f_equal.
        rewrite (summands_clean u H). apply (IH (String "-" u)). right. exists u. auto.
    - cbn [summands]. cbn [Ascii.eqb]. cbn -[summands]. f_equal. rewrite (summands_signed t' _ Ht'). apply IH. exact Ht'. }
  assert (joins "+" (t :: ts) = (t ++ match ts with [] => "" | _ => String "+" (joins "+" ts) end)%string) as -> by (destruct ts; [cbn; symmetry; apply app_nil_r_s|reflexivity]).
  rewrite (replace_signed t _ Ht), (summands_signed t _ Ht). apply G; assumption.
Qed.

(** *** Factors *)
Fixpoint nostar (s : string) : bool := match s with "" => true | String a s' => negb (Ascii.eqb a "*") && nostar s' end.
Lemma plain_nostar s : plain s = true -> nostar s = true.
Proof.
  induction s as [|a s IH]; [reflexivity|]. cbn. intros H. apply andb_prop in H as [H1 H2]. rewrite (IH H2).
  destruct (Ascii.eqb a "+"), (Ascii.eqb a "-"), (Ascii.eqb a "*"); cbn in *; auto.
Qed.
Lemma numeral_nostar s : numeral s -> nostar s = true.
Proof. intros [[_ H]|(t & -> & _ & H)]; [apply plain_nostar; exact H|]. cbn. apply plain_nostar. exact H. Qed.
Lemma factors_clean t : nostar t = true -> forall acc rest, factors acc (t ++ rest) = factors (acc ++ t) rest.
Proof.
  induction t as [|a t IH]; intros H acc rest.
  - rewrite app_nil_r_s. reflexivity.
  - cbn in H. apply andb_prop in H as [H1 H2]. cbn [String.append factors]. destruct (Ascii.eqb a "*"); [discriminate|]. rewrite (IH H2). f_equal. rewrite app_assoc_s. reflexivity.
Qed.
Lemma factors_joins ns : Forall opname ns -> ns <> [] -> factors "" (joins "*" ns) = ns.
Proof.
  induction 1 as [|x l [_ Hx] Hl IH]; [congruence|]. intros _. destruct l as [|y l'].
  - cbn [joins]. rewrite <- (app_nil_r_s x) at 1. rewrite (factors_clean x (plain_nostar _ Hx)). reflexivity.
  - change (joins "*" (x :: y :: l')) with (x ++ "*" ++ joins "*" (y :: l'))%string. rewrite (factors_clean x (plain_nostar _ Hx)).
    cbn [String.append factors]. cbn. f_equal. apply IH. congruence.
Qed.
Lemma factors_product k ns : numeral k -> Forall opname ns -> ns <> [] -> factors "" (product k ns) = k :: ns.
Proof.
  intros Hk Hns N. unfold product. rewrite (factors_clean k (numeral_nostar _ Hk)). cbn [String.append factors]. cbn. f_equal. apply factors_joins; assumption.
Qed.
Lemma product_signed k ns : numeral k -> Forall opname ns -> signed (product k ns).
Proof.
  intros Hk Hns. unfold product. destruct Hk as [[N H]|(t & -> & N & H)].
  - left. split; [destruct k; [congruence|discriminate]|]. rewrite nosign_app, (plain_nosign _ H). cbn. apply joins_nosign. exact Hns.
  - right. exists (t ++ "*" ++ joins "*" ns)%string. split; [reflexivity|]. split; [destruct t; [congruence|discriminate]|]. rewrite nosign_app, (plain_nosign _ H). cbn. apply joins_nosign. exact Hns.
Qed.

(** *** The two printers *)
Definition names_of (names : list string) (m : modul) : list string := flat_map (fun g => match nth_error names g with Some s => [s] | None => [] end) m.
Lemma names_of_map names m : Forall (fun g => (g < List.length names)%nat) m -> names_of names m = map (fun g => nth g names "") m.
Proof.
  induction 1 as [|g m Hg Hm IH]; [reflexivity|]. cbn. fold (names_of names m). rewrite IH.
  destruct (nth_error names g) as [s|] eqn:E; [|apply nth_error_None in E; lia]. cbn. f_equal. symmetry. apply nth_error_nth. exact E.
Qed.
Lemma names_of_op names m : Forall opname names -> Forall opname (names_of names m).
Proof.
  intros H. induction m as [|g m IH]; [constructor|]. cbn. destruct (nth_error names g) eqn:E; cbn; [|exact IH]. constructor; [|exact IH].
  apply nth_error_In in E. rewrite Forall_forall in H. apply H. exact E.
Qed.
Lemma joins_ne ns : Forall opname ns -> ns <> [] -> joins "*" ns <> "".
Proof. intros H N. destruct ns as [|x l]; [congruence|]. apply Forall_cons_iff in H as [[Hx _] _]. destruct l; cbn; [exact Hx|]. destruct x; [congruence|discriminate]. Qed.
Lemma names_of_ne names m : m <> [] -> Forall (fun g => (g < List.length names)%nat) m -> names_of names m <> [].
Proof. intros N H. rewrite (names_of_map _ _ H). destruct m; [congruence|discriminate]. Qed.

Definition good_module (n : nat) (m : modul) : Prop := m <> [] /\ Forall (fun g => (g < n)%nat) m.
Lemma kd_terms_eq names chrom : Forall opname names -> Forall (good_module (List.length names)) chrom -> forall coefs,
  kd_terms names chrom coefs = map (fun p => product (snd p) (names_of names (fst p))) (combine chrom coefs).
Proof.
  intros Hn. induction 1 as [|m ch [Hm1 Hm2] Hch IH]; intros coefs; [reflexivity|]. destruct coefs as [|k ks]; [reflexivity|]. cbn [kd_terms combine map fst snd].
  fold (names_of names m). rewrite (eqb_ne _ (joins_ne _ (names_of_op names m Hn) (names_of_ne names m Hm1 Hm2))). cbn. f_equal. apply IH.
Qed.
Lemma products_read P (l : list (modul * string)) : (forall t, P t = joins "+" t \/ P t = replace_pm (joins "+" t)) -> l <> [] -> forall names, Forall opname names ->
  Forall (fun p => good_module (List.length names) (fst p) /\ numeral (snd p)) l ->
  read_rhs (P (map (fun p => product (snd p) (names_of names (fst p))) l)) = map (fun p => snd p :: map (fun g => nth g names "") (fst p)) l.
Proof.
  intros HP Nl names Hn Hl. unfold read_rhs.
  assert (Forall signed (map (fun p => product (snd p) (names_of names (fst p))) l)) as S.
  { apply Forall_map. eapply Forall_impl; [|exact Hl]. intros p [_ Hk]. apply product_signed; [exact Hk|]. apply names_of_op. exact Hn. }
  assert (map (fun p : modul * string => product (snd p) (names_of names (fst p))) l <> []) as N by (destruct l; [congruence|discriminate]).
  assert (summands "" (P (map (fun p => product (snd p) (names_of names (fst p))) l)) = map (fun p => product (snd p) (names_of names (fst p))) l) as ->.
  { destruct (HP (map (fun p => product (snd p) (names_of names (fst p))) l)) as [->| ->]; [apply summands_sum|apply summands_replaced]; assumption. }
  rewrite map_map. apply map_ext_in. intros [m k] Hin. rewrite Forall_forall in Hl. destruct (Hl _ Hin) as [[H1 H2] H3]. cbn [fst snd] in *.
  rewrite (factors_product k _ H3 (names_of_op _ _ Hn) (names_of_ne _ _ H1 H2)), (names_of_map _ _ H2). reflexivity.
Qed.

(** The list [string] of the code, joined. *)
Lemma concat_app_s l1 l2 : String.concat "" (l1 ++ l2)%list = (String.concat "" l1 ++ String.concat "" l2)%string.
Proof.
  induction l1 as [|x l1 IH]; [reflexivity|]. cbn [app]. destruct l1 as [|y l1]; [|].
  - cbn [app]. destruct l2 as [|z l2]; cbn; [symmetry; apply app_nil_r_s|reflexivity].
  - change (String.concat "" (x :: (y :: l1) ++ l2)%list) with (x ++ "" ++ String.concat "" ((y :: l1) ++ l2)%list)%string.
    rewrite IH. change (String.concat "" (x :: y :: l1)) with (x ++ "" ++ String.concat "" (y :: l1))%string. cbn [String.append]. rewrite app_assoc_s. reflexivity.
Qed.
Lemma concat_2 a b l : String.concat "" (a :: b :: l) = (a ++ b ++ String.concat "" l)%string.
Proof. rewrite <- app_assoc_s. etransitivity; [exact (concat_app_s [a; b] l)|]. reflexivity. Qed.
Lemma star_tokens names m : Forall (fun g => (g < List.length names)%nat) m -> m <> [] ->
  String.concat "" (removelast (flat_map (fun g => match nth_error names g with Some s => [s; "*"] | None => [] end) m)) = joins "*" (names_of names m).
Proof.
  induction 1 as [|g m Hg Hm IH]; [congruence|]. intros _. cbn [flat_map names_of].
  destruct (nth_error names g) as [s|] eqn:E; [|apply nth_error_None in E; lia]. cbn [app]. destruct m as [|g' m'].
  - reflexivity.
  - assert (flat_map (fun g => match nth_error names g with Some s => [s; "*"] | None => [] end) (g' :: m') <> []) as N.
    { apply Forall_cons_iff in Hm as [Hg' _]. cbn. destruct (nth_error names g') eqn:E'; [discriminate|]. apply nth_error_None in E'. lia. }
    set (fm := flat_map _ (g' :: m')) in *. assert (removelast (s :: "*" :: fm) = (s :: "*" :: removelast fm)%list) as -> by (destruct fm; [congruence|reflexivity]).
    fold (names_of names (g' :: m')). assert (names_of names (g' :: m') <> []) as N' by (apply names_of_ne; [discriminate|exact Hm]).
    transitivity (s ++ "*" ++ String.concat "" (removelast fm))%string; [apply concat_2|].
    rewrite IH by discriminate. destruct (names_of names (g' :: m')); [congruence|]. reflexivity.
Qed.
Lemma dlga_tokens_eq chrom : Forall (good_module 6) chrom -> forall coefs acc, combine chrom coefs <> [] ->
  String.concat "" (removelast (dlga_tokens chrom coefs acc)) = (String.concat "" acc ++ joins "+" (map (fun p => product (snd p) (names_of dlga_names (fst p))) (combine chrom coefs)))%string.
Proof.
  induction 1 as [|m ch [Hm1 Hm2] Hch IH]; intros coefs acc N; [cbn in N; congruence|]. destruct coefs as [|k ks]; [cbn in N; congruence|]. clear N.
  cbn [dlga_tokens]. destruct m as [|g0 m0] eqn:Em; [congruence|]. rewrite <- Em in *. clear g0 m0 Em.
  set (fm := flat_map _ m). assert (fm <> []) as Nf.
  { destruct m as [|g m]; [congruence|]. apply Forall_cons_iff in Hm2 as [Hg _]. subst fm. cbn [flat_map].
    destruct (nth_error dlga_names g) eqn:E; [discriminate|]. apply nth_error_None in E. cbn in E. lia. }
  assert (pop_last (acc ++ [k; "*"] ++ fm) = (acc ++ [k; "*"] ++ removelast fm)%list) as ->.
  { unfold pop_last. rewrite removelast_app by discriminate. f_equal. rewrite removelast_app by exact Nf. reflexivity. }
  set (acc' := ((acc ++ [k; "*"] ++ removelast fm) ++ ["+"])%list).
  assert (String.concat "" (acc ++ [k; "*"] ++ removelast fm)%list = (String.concat "" acc ++ product k (names_of dlga_names m))%string) as Ec.
  { rewrite concat_app_s. f_equal. transitivity (k ++ "*" ++ String.concat "" (removelast fm))%string; [apply concat_2|].
    unfold product. do 2 f_equal. apply star_tokens; [|exact Hm1]. exact Hm2. }
  cbn [combine map fst snd]. destruct (combine ch ks) as [|p l] eqn:El.
  - assert (dlga_tokens ch ks acc' = acc') as ->.
    { destruct ch as [|m' ch']; [reflexivity|]. destruct ks as [|k' ks']; [reflexivity|]. discriminate. }
    unfold acc'. rewrite removelast_last. exact Ec.
  - rewrite IH by (rewrite El; discriminate). rewrite El. unfold acc'. rewrite concat_app_s, Ec.
    change (joins "+" (product k (names_of dlga_names m) :: map (fun p => product (snd p) (names_of dlga_names (fst p))) (p :: l)))
      with (product k (names_of dlga_names m) ++ "+" ++ joins "+" (map (fun p => product (snd p) (names_of dlga_names (fst p))) (p :: l)))%string.
    rewrite !app_assoc_s. reflexivity.
Qed.
