(** Lemmas about the LaTeX form of SGA terms.  The claims are in PropsSgaEq. *)
From Coq Require Import QArith Qabs Ascii.
From Verif Require Import Base Trees SgaTree SgaSpec SgaTreeFacts SgaEq SgaEqSpec.
Local Open Scope string_scope.

(** LaTeX of a tree. *)
Fixpoint drawn (lz : bool) (t : tree ent) : string :=
  match t with
  | Nd e cs => match cs with
               | [] => render_leaf (ename e)
               | _ => match combine_node lz (ename e) (map (drawn lz) cs) with Ok s => s | Err _ => "" end
               end
  end.
Lemma ops_combine lz e (ch : list string) : In e OPS -> List.length ch = ear e -> exists s, combine_node lz (ename e) ch = Ok s.
Proof.
  intros H L. cbn in H.
  destruct H as [<-|[<-|[<-|[<-|[<-|[<-|[<-|[<-|[]]]]]]]]]; cbn in L; destruct ch as [|a [|b [|]]]; try discriminate; eexists; reflexivity.
Qed.
Section Levels.
Variable c : sctx.
Hypothesis Hc : ctx_ok c.
Lemma render_build lz ls : wf_levels c ls -> forall i t, nth_error (build ls) i = Some t -> render_levels lz ls i = Ok (drawn lz t).
Proof.
  intros Hw0. pose proof (build_ok c ls Hw0) as Hok. revert Hw0 Hok.
  induction ls as [|L rest IH]; intros Hw Hok i t E; [destruct i; discriminate|].
  destruct Hw as (H1 & H2 & H3). cbn [build] in E.
  assert (term_ok c t) as Ht. { rewrite Forall_forall in Hok. apply Hok. cbn [build]. eapply nth_error_In. exact E. }
  assert (exists n, nth_error L i = Some n) as [n En].
  { destruct (nth_error L i) eqn:X; [eauto|]. apply nth_error_None in X.
    assert (nth_error (attach L (build rest)) i <> None) as Y by congruence. apply nth_error_Some in Y. rewrite attach_length in Y. lia. }
  rewrite (attach_nth _ _ _ _ En) in E. injection E as <-. cbn [render_levels]. rewrite En.
  set (F := skipn (sumar (firstn i L)) (build rest)) in *.
  assert (List.length (firstn (nar n) F) = nar n) as Hlen.
  { rewrite firstn_length. unfold F. rewrite skipn_length, build_length.
    pose proof (feeds_length _ _ _ _ H2) as E2. rewrite E2. apply Nat.min_l.
    pose proof (firstn_skipn i L) as Q. apply (f_equal sumar) in Q. rewrite sumar_app in Q.
    enough (nar n <= sumar (skipn i L))%nat by lia.
    rewrite <- (Nat.add_0_r i), <- skipn_nth_error in En. destruct (skipn i L); [discriminate|]. injection En as ->. cbn. lia. }
  destruct (Nat.eqb_spec (nar n) 0) as [Z|NZ].
  - rewrite Z. cbn [firstn]. reflexivity.
  - rewrite (starts_nth _ _ _ _ H1 En) by lia. cbn [Nat.add].
    assert (mapM (fun k => match rest with [] => Ok "1" | L' :: _ => if Nat.leb (List.length L') (sumar (firstn i L) + k) then Ok "1" else render_levels lz rest (sumar (firstn i L) + k) end) (seq 0 (List.length (firstn (nar n) F)))
            = Ok (map (drawn lz) (firstn (nar n) F))) as EM.
    { apply mapM_seq. intros k x E. cbn [Nat.add].
      assert (k < nar n)%nat as Hk by (rewrite <- Hlen; apply nth_error_Some; congruence).
      rewrite firstn_nth_error in E by assumption. unfold F in E. rewrite skipn_nth_error in E.
      assert (nth_error (build rest) (sumar (firstn i L) + k) <> None) as Nn by congruence. apply nth_error_Some in Nn. rewrite build_length in Nn.
      destruct rest as [|L' r]; [destruct (sumar (firstn i L) + k)%nat; discriminate|]. cbn [hd] in Nn. destruct (Nat.leb_spec (List.length L') (sumar (firstn i L) + k)); [lia|].
      apply IH; [assumption| |exact E]. apply build_ok. exact H3. }
    rewrite Hlen in EM. rewrite EM. cbn [bind]. inversion Ht as [? ? (F1 & F2 & F3 & _) _]; subst. cbn [drawn].
    destruct (firstn (nar n) F) as [|x l] eqn:EF; [cbn in Hlen; lia|]. rewrite <- EF in *.
    destruct (ops_combine lz (nent n) (map (drawn lz) (firstn (nar n) F))) as (s & ->); [apply F3; rewrite EF; discriminate|rewrite map_length; exact Hlen|reflexivity].
Qed.
End Levels.

(** ** Reading Leibniz notation *)
Lemma sapp (a b d : string) : ((a ++ b) ++ d = a ++ (b ++ d))%string.
Proof. induction a; cbn; congruence. Qed.
(** Names: at least one character, all of them name characters other than + and -. *)
Definition okc (a : ascii) : bool := name_char a && negb (Ascii.eqb a "+") && negb (Ascii.eqb a "-").
Fixpoint all_ok (s : string) : bool := match s with "" => true | String a s' => okc a && all_ok s' end.
Definition good_name (s : string) : Prop := s <> "" /\ all_ok s = true.
(** What may follow a name / a factor / an expression. *)
Definition stopc (s : string) : bool := match s with "" => true | String a _ => negb (name_char a) && negb (Ascii.eqb a "{") end.
Definition nopow (s : string) : bool := match s with "" => true | String a _ => negb (Ascii.eqb a "^") end.

Lemma run_ok n : all_ok n = true -> forall rest, stopc rest = true -> run (n ++ rest) = (n, rest).
Proof.
  induction n as [|a n IH]; intros H rest S.
  - cbn. destruct rest as [|b r]; [reflexivity|]. cbn in S |- *. destruct (name_char b); [discriminate|reflexivity].
  - cbn in H. apply andb_prop in H as [H1 H2]. unfold okc in H1. apply andb_prop in H1 as [H1 _]. apply andb_prop in H1 as [H1 _].
    cbn [String.append run]. rewrite H1, (IH H2 rest S). reflexivity.
Qed.
Lemma eat_app p s : eat p (p ++ s) = Some s.
Proof. induction p as [|a p IH]; [reflexivity|]. cbn. rewrite Ascii.eqb_refl. exact IH. Qed.
Lemma stop_eat rest : stopc rest = true -> eat "{" rest = None.
Proof. destruct rest as [|a r]; [reflexivity|]. cbn [stopc]. intros H. cbn [eat]. destruct (Ascii.eqb_spec "{" a) as [<-|]; [|reflexivity]. destruct (name_char "{"); discriminate. Qed.
Lemma lookup_In l k v : lookup l k = Some v -> In v (map snd l).
Proof. induction l as [|[a b] l IH]; cbn; [discriminate|]. destruct (String.eqb a k); [intros [= <-]; auto|auto]. Qed.
(** A leaf as shown reads as a name; it starts with neither a parenthesis nor a command used
    for fractions; it needs no grouping. *)
Definition leafish (s : string) : Prop :=
  (forall rest, stopc rest = true -> read_name (s ++ rest) = Some (s, rest)) /\
  (forall rest, eat "(" (s ++ rest) = None) /\ (forall rest, eat "\frac" (s ++ rest) = None) /\ (forall rest, eat "\partial" (s ++ rest) = None) /\
  ensure_group s = s /\ ends_paren s = false /\ s <> "".
Lemma okc_ne a b : okc a = true -> okc b = false -> Ascii.eqb b a = false.
Proof. intros H1 H2. destruct (Ascii.eqb_spec b a) as [->|]; [congruence|reflexivity]. Qed.
Lemma all_ok_ends n : all_ok n = true -> ends_paren n = false.
Proof. induction n as [|a n IH]; [reflexivity|]. cbn [all_ok]. intros H. apply andb_prop in H as [H1 H2]. specialize (IH H2). cbn. destruct n; [|exact IH]. rewrite Ascii.eqb_sym. apply okc_ne; [exact H1|reflexivity]. Qed.
Lemma all_ok_has n : all_ok n = true -> has_char (fun a => Ascii.eqb a " " || Ascii.eqb a "+" || Ascii.eqb a "-") n = false.
Proof.
  induction n as [|a n IH]; [reflexivity|]. cbn [all_ok has_char]. intros H. apply andb_prop in H as [H1 H2]. rewrite (IH H2), orb_false_r.
  rewrite (Ascii.eqb_sym a " "), (Ascii.eqb_sym a "+"), (Ascii.eqb_sym a "-"), !(okc_ne a) by (auto; reflexivity). reflexivity.
Qed.
Lemma has_prefix_eat p s : has_prefix p s = match eat p s with Some _ => true | None => false end.
Proof. revert s. induction p as [|a p IH]; intros [|b s]; cbn; try reflexivity. destruct (Ascii.eqb a b); [apply IH|reflexivity]. Qed.
Lemma plain_leafish n : good_name n -> leafish n.
Proof.
  intros [N H]. destruct n as [|a n]; [congruence|]. pose proof H as H0. cbn [all_ok] in H0. apply andb_prop in H0 as [Ha Hn].
  assert (forall p rest b, okc b = false -> eat (String b p) (String a n ++ rest) = None) as NE.
  { intros p rest b Hb. cbn [String.append eat]. rewrite (okc_ne a b Ha Hb). reflexivity. }
  repeat split.
  - intros rest S. unfold read_name. rewrite NE by reflexivity. rewrite (run_ok _ H rest S). cbn [String.eqb]. rewrite (stop_eat rest S). reflexivity.
  - intros rest. apply NE. reflexivity.
  - intros rest. apply NE. reflexivity.
  - intros rest. apply NE. reflexivity.
  - unfold ensure_group. rewrite !has_prefix_eat. pose proof (NE "" "" "("%char eq_refl) as A1. pose proof (NE "frac" "" "\"%char eq_refl) as A2.
    replace (String a n ++ "") with (String a n) in A1, A2 by (clear; induction (String a n) as [|x s IHs]; cbn; congruence).
    rewrite A1, A2. cbn [andb]. rewrite (all_ok_has _ H). reflexivity.
  - apply all_ok_ends. exact H.
  - discriminate.
Qed.
Lemma greek_leafish b n : all_ok (String b n) = true -> Ascii.eqb "f" b = false -> Ascii.eqb "p" b = false -> leafish (String "\" (String b n)).
Proof.
  intros H Nf Np. repeat split.
  - intros rest S. unfold read_name. change (String "\" (String b n) ++ rest) with ("\" ++ (String b n ++ rest)). rewrite eat_app.
    rewrite (run_ok _ H rest S). cbn [String.eqb]. rewrite (stop_eat rest S). reflexivity.
  - intros rest. transitivity (if Ascii.eqb "f" b then eat "rac" (n ++ rest) else None); [reflexivity|]. rewrite Nf. reflexivity.
  - intros rest. transitivity (if Ascii.eqb "p" b then eat "artial" (n ++ rest) else None); [reflexivity|]. rewrite Np. reflexivity.
  - unfold ensure_group. change (has_prefix "(" (String "\" (String b n))) with false. change (has_prefix "\frac" (String "\" (String b n))) with (Ascii.eqb "f" b && has_prefix "rac" n)%bool. rewrite Nf. cbn [andb].
    assert (has_char (fun a => Ascii.eqb a " " || Ascii.eqb a "+" || Ascii.eqb a "-") (String "\" (String b n)) = false) as ->; [|reflexivity].
    transitivity (has_char (fun a => Ascii.eqb a " " || Ascii.eqb a "+" || Ascii.eqb a "-") (String b n)); [reflexivity|]. apply all_ok_has. exact H.
  - transitivity (ends_paren (String b n)); [reflexivity|]. apply all_ok_ends. exact H.
  - discriminate.
Qed.
Lemma sub_leafish b n1 n2 : all_ok (String b n1) = true -> all_ok n2 = true -> leafish (String b n1 ++ "{" ++ n2 ++ "}").
Proof.
  intros H H2. pose proof H as H0. cbn [all_ok] in H0. apply andb_prop in H0 as [Hb Hn].
  assert (forall p rest x, okc x = false -> eat (String x p) (String b rest) = None) as NE.
  { intros p rest x Hx. cbn [eat]. rewrite (okc_ne b x Hb Hx). reflexivity. }
  assert (forall n2, all_ok n2 = true -> run (n2 ++ "}" ++ "") = (n2, "}")) as _ by (intros; apply run_ok; auto).
  repeat split.
  - intros rest S. replace ((String b n1 ++ "{" ++ n2 ++ "}") ++ rest) with (String b n1 ++ ("{" ++ (n2 ++ ("}" ++ rest)))) by (rewrite !sapp; reflexivity).
    unfold read_name. assert (eat "\" (String b n1 ++ ("{" ++ (n2 ++ ("}" ++ rest)))) = None) as -> by (apply NE; reflexivity).
    assert (run (String b n1 ++ ("{" ++ (n2 ++ ("}" ++ rest)))) = (String b n1, "{" ++ (n2 ++ ("}" ++ rest)))) as ->.
    { clear -H. revert H. generalize (String b n1). induction s as [|a s IH]; intros H; [reflexivity|].
      cbn [all_ok] in H. apply andb_prop in H as [H1 H2]. unfold okc in H1. apply andb_prop in H1 as [H1 _]. apply andb_prop in H1 as [H1 _]. cbn [String.append run]. cbn [String.append run] in IH. rewrite H1, (IH H2). reflexivity. }
    cbn [String.eqb]. rewrite eat_app. rewrite (run_ok n2 H2) by reflexivity. rewrite eat_app. reflexivity.
  - intros rest. apply NE. reflexivity.
  - intros rest. apply NE. reflexivity.
  - intros rest. apply NE. reflexivity.
  - unfold ensure_group. rewrite !has_prefix_eat.
    assert (eat "(" (String b n1 ++ "{" ++ n2 ++ "}") = None) as -> by (apply NE; reflexivity).
    assert (eat "\frac" (String b n1 ++ "{" ++ n2 ++ "}") = None) as -> by (apply NE; reflexivity). cbn [andb].
    assert (forall p s1 s2, has_char p (s1 ++ s2) = has_char p s1 || has_char p s2)%bool as HA by (clear; intros p s1 s2; induction s1 as [|x s1 IH]; cbn; [reflexivity|]; rewrite IH; apply orb_assoc).
    rewrite !HA, (all_ok_has _ H), (all_ok_has _ H2). reflexivity.
  - clear. cbn [String.append]. assert (forall s x, ends_paren (s ++ String x "") = Ascii.eqb x ")") as E.
    { induction s as [|y s IH]; intros x; [reflexivity|]. cbn [String.append ends_paren]. destruct (s ++ String x "") eqn:Q; [destruct s; discriminate|]. rewrite <- Q. apply IH. }
    replace (String b (n1 ++ String "{" (n2 ++ "}"))) with ((String b n1 ++ "{" ++ n2) ++ "}") by (rewrite !sapp; reflexivity). rewrite E. reflexivity.
  - discriminate.
Qed.
Lemma leaf_leafish n : good_name n -> leafish (render_leaf n).
Proof.
  intros H. unfold render_leaf. destruct (lookup leaf_table n) as [v|] eqn:E; [|apply plain_leafish; exact H].
  apply lookup_In in E. cbn in E. 
  repeat (destruct E as [<-|E]; [first [
     apply plain_leafish; split; [discriminate|reflexivity]
   | apply greek_leafish; reflexivity
   | apply (sub_leafish "u" "_" "x"); reflexivity | apply (sub_leafish "u" "_" "xx"); reflexivity
   | apply (sub_leafish "u" "_" "xxx"); reflexivity | apply (sub_leafish "u" "_" "t"); reflexivity ] |]); destruct E.
Qed.

(** ** The text of a term reads back *)
Inductive tm := TLeaf (s : string) | TSum (minus : bool) (a b : tm) | TMul (a b : tm) | TDiv (a b : tm) | TPow (n : ascii) (a : tm) | TD (second : bool) (a : tm) (x : string).
Fixpoint draw (t : tm) : string :=
  match t with
  | TLeaf s => s
  | TSum m a b => "(" ++ draw a ++ (if m then " - " else " + ") ++ draw b ++ ")"
  | TMul a b => draw a ++ " \cdot " ++ draw b
  | TDiv a b => "\frac{" ++ draw a ++ "}{" ++ draw b ++ "}"
  | TPow n a => ensure_group (draw a) ++ "^{" ++ String n "}"
  | TD k a x => if k then "\frac{\partial^{2} " ++ draw a ++ "}{\partial " ++ x ++ "^{2}}" else "\frac{\partial " ++ draw a ++ "}{\partial " ++ x ++ "}"
  end.
Fixpoint exp_of (f : fac) (l : list fac) : exp := match l with [] => One f | g :: l' => Times f (exp_of g l') end.
Definition exps (l : list fac) : exp := match l with [] => One (FName "") | f :: l' => exp_of f l' end.
Fixpoint parts (t : tm) : list tm := match t with TMul a b => parts a ++ parts b | _ => [t] end.
Fixpoint facs (t : tm) : list fac :=
  match t with
  | TLeaf s => [FName s]
  | TSum m a b => [FSum m (exps (facs a)) (exps (facs b))]
  | TMul a b => facs a ++ facs b
  | TDiv a b => [FFrac (exps (facs a)) (exps (facs b))]
  | TPow n a => [FPow n (if String.eqb (ensure_group (draw a)) (draw a) then hd (FName "") (facs a) else FPar (exps (facs a)))]
  | TD k a x => [FD k (exps (facs a)) x]
  end.
Fixpoint tsize (t : tm) : nat :=
  match t with TLeaf _ => 1 | TSum _ a b | TMul a b | TDiv a b => S (tsize a + tsize b) | TPow _ a | TD _ a _ => S (tsize a) end.
Definition is_mul (t : tm) : bool := match t with TMul _ _ => true | _ => false end.
Fixpoint sum_last (t : tm) : bool := match t with TMul _ b => sum_last b | TSum _ _ _ => true | _ => false end.
Fixpoint tok (t : tm) : Prop :=
  match t with
  | TLeaf s => leafish s
  | TSum _ a b | TMul a b | TDiv a b => tok a /\ tok b
  | TPow n a => tok a /\ (n = "2"%char \/ n = "3"%char) /\ (is_mul a = true -> sum_last a = false)
  | TD _ a x => tok a /\ leafish x
  end.
Definition fac1 (t : tm) : fac := hd (FName "") (facs t).

Lemma eat_none p q s : eat p s = None -> eat (p ++ q) s = None.
Proof. revert s. induction p as [|a p IH]; intros s H; [discriminate|]. destruct s as [|b s]; [reflexivity|]. cbn in H |- *. destruct (Ascii.eqb a b); [apply IH; exact H|reflexivity]. Qed.
Lemma ends_app s1 s2 : s2 <> "" -> ends_paren (s1 ++ s2) = ends_paren s2.
Proof.
  intros N. induction s1 as [|a s1 IH]; [reflexivity|]. cbn [String.append ends_paren]. destruct (s1 ++ s2) eqn:E; [|exact IH].
  destruct s1; [cbn in E; congruence|discriminate].
Qed.
Lemma has_app p s1 s2 : has_char p (s1 ++ s2) = (has_char p s1 || has_char p s2)%bool.
Proof. induction s1 as [|x s1 IH]; cbn; [reflexivity|]. rewrite IH. apply orb_assoc. Qed.
Lemma ensure_cases s : ensure_group s = s \/ ensure_group s = "(" ++ s ++ ")".
Proof. unfold ensure_group. destruct (_ && _)%bool; [auto|]. destruct (has_prefix _ _); [auto|]. destruct (has_char _ _); auto. Qed.
Lemma slen a b : String.length (a ++ b) = (String.length a + String.length b)%nat.
Proof. induction a; cbn; auto. Qed.
Lemma grouped_ne s : "(" ++ s ++ ")" <> s.
Proof. intros E. apply (f_equal String.length) in E. rewrite !slen in E. cbn in E. lia. Qed.
Lemma draw_ne t : tok t -> draw t <> "".
Proof.
  induction t; cbn; intros H.
  - apply H.
  - discriminate.
  - destruct H as [H1 H2]. specialize (IHt1 H1). intros E. apply (f_equal String.length) in E. rewrite slen in E. cbn in E. lia.
  - discriminate.
  - intros E. apply (f_equal String.length) in E. rewrite slen in E. cbn in E. lia.
  - destruct second; discriminate.
Qed.
Lemma ends_app3 s1 s2 : ends_paren (s1 ++ String s2 "") = Ascii.eqb s2 ")".
Proof. rewrite ends_app by discriminate. reflexivity. Qed.
Lemma draw_ends t : tok t -> sum_last t = false -> ends_paren (draw t) = false.
Proof.
  induction t; cbn [tok sum_last draw]; intros H E.
  - apply H.
  - discriminate.
  - destruct H as [H1 H2]. pose proof (draw_ne t2 H2) as N. rewrite <- sapp. rewrite ends_app by exact N. auto.
  - rewrite <- !sapp. rewrite ends_app3. reflexivity.
  - rewrite <- sapp. change (String n "}") with (String n "" ++ "}"). rewrite <- sapp. rewrite ends_app3. reflexivity.
  - destruct second; rewrite <- !sapp.
    + change "^{2}}" with ("^{2}" ++ "}"). rewrite <- sapp. rewrite ends_app3. reflexivity.
    + rewrite ends_app3. reflexivity.
Qed.
Lemma mul_grouped a : tok a -> is_mul a = true -> sum_last a = false -> ensure_group (draw a) = "(" ++ draw a ++ ")".
Proof.
  intros H M L. unfold ensure_group. rewrite (draw_ends a H L), andb_false_r. destruct (has_prefix "\frac" (draw a)); [reflexivity|].
  destruct a; try discriminate. cbn [draw]. rewrite !has_app. assert (has_char (fun a => Ascii.eqb a " " || Ascii.eqb a "+" || Ascii.eqb a "-")%bool " \cdot " = true) as -> by reflexivity.
  rewrite orb_true_r. reflexivity.
Qed.
Lemma no_partial t : tok t -> forall rest, eat "\partial" (draw t ++ rest) = None.
Proof.
  induction t; cbn [tok draw]; intros H rest.
  - apply H.
  - reflexivity.
  - rewrite sapp. apply IHt1. apply H.
  - reflexivity.
  - destruct (ensure_cases (draw t)) as [-> | ->]; [rewrite sapp; apply IHt, H|reflexivity].
  - destruct second; reflexivity.
Qed.
Lemma read_pows_pow n f rest : n = "2"%char \/ n = "3"%char -> read_pows f (("^{" ++ String n "}") ++ rest) = read_pows (FPow n f) rest.
Proof. intros [-> | ->]; reflexivity. Qed.
Lemma read_pows_stop f s : nopow s = true -> read_pows f s = (f, s).
Proof.
  destruct s as [|a [|b [|c [|e s]]]]; try reflexivity. unfold nopow. intros H. cbn [read_pows]. destruct (Ascii.eqb a "^"); [discriminate|reflexivity].
Qed.
(** Texts of the factors. *)
Fixpoint joined (t : tm) (l : list tm) : string := match l with [] => draw t | u :: l' => draw t ++ " \cdot " ++ joined u l' end.
Lemma joined_app l : forall t u l', joined t (l ++ u :: l')%list = joined t l ++ " \cdot " ++ joined u l'.
Proof. induction l as [|v l IH]; intros; [reflexivity|]. cbn [List.app joined]. rewrite IH. rewrite !sapp. reflexivity. Qed.
Lemma parts_joined t : exists p l, parts t = p :: l /\ draw t = joined p l.
Proof.
  induction t; try (eexists; exists []; split; reflexivity).
  destruct IHt1 as (p & l & E & D). destruct IHt2 as (p' & l' & E' & D'). exists p, (l ++ p' :: l')%list. split; [cbn [parts]; rewrite E, E'; reflexivity|].
  cbn [draw]. rewrite joined_app, D, D'. reflexivity.
Qed.
Lemma facs_parts t : facs t = map fac1 (parts t).
Proof. induction t; try reflexivity. cbn [facs parts]. rewrite map_app, IHt1, IHt2. reflexivity. Qed.
Definition sizes (l : list tm) : nat := list_sum (map tsize l).
Lemma sizes_app a b : sizes (a ++ b)%list = (sizes a + sizes b)%nat.
Proof. unfold sizes. rewrite map_app. apply list_sum_app. Qed.
Lemma parts_sizes t : (sizes (parts t) <= tsize t)%nat.
Proof. induction t; try (cbn; lia). cbn [parts tsize]. rewrite sizes_app. lia. Qed.
Lemma parts_tok t : tok t -> Forall tok (parts t).
Proof. induction t; intros H; try (constructor; [exact H|constructor]). cbn [parts]. apply Forall_app. destruct H. split; auto. Qed.
Lemma parts_nomul t : Forall (fun p => is_mul p = false) (parts t).
Proof. induction t; try (constructor; [reflexivity|constructor]). cbn [parts]. apply Forall_app. auto. Qed.
Lemma in_sizes : forall l p, In p l -> (tsize p <= sizes l)%nat.
Proof. induction l as [|q l IH]; intros p; [intros []|]. change (sizes (q :: l)) with (tsize q + sizes l)%nat. intros [-> |I]; [lia|]. specialize (IH p I). lia. Qed.
Lemma tsize_pos t : (1 <= tsize t)%nat. Proof. destruct t; cbn; lia. Qed.

Definition reads_fac (t : tm) : Prop := forall n rest, (2 * tsize t <= S n)%nat -> stopc rest = true -> read_fac n (draw t ++ rest) = Some (read_pows (fac1 t) rest).
Definition reads_exp (t : tm) : Prop := forall n rest, (2 * tsize t <= n)%nat -> stopc rest = true -> nopow rest = true -> eat " \cdot " rest = None ->
  read_exp n (draw t ++ rest) = Some (exps (facs t), rest).
Lemma reads_parts l : forall p, Forall reads_fac (p :: l) -> forall n rest, (2 * sizes (p :: l) <= n)%nat -> stopc rest = true -> nopow rest = true -> eat " \cdot " rest = None ->
  read_exp n (joined p l ++ rest) = Some (exp_of (fac1 p) (map fac1 l), rest).
Proof.
  induction l as [|u l IH]; intros p HF n rest Hn S1 S2 S3; pose proof (Forall_inv HF) as Hp; pose proof (Forall_inv_tail HF) as Hl; pose proof (tsize_pos p) as Pp.
  - unfold sizes in Hn. cbn in Hn. destruct n as [|n]; [lia|]. cbn [read_exp joined]. rewrite (Hp n rest) by (auto; lia). cbn [opt]. rewrite (read_pows_stop _ _ S2). rewrite S3. reflexivity.
  - assert (sizes (p :: u :: l) = tsize p + sizes (u :: l))%nat as E by reflexivity. destruct n as [|n]; [lia|]. cbn [read_exp joined].
    rewrite !sapp. rewrite (Hp n (" \cdot " ++ (joined u l ++ rest))) by (reflexivity || lia). cbn [opt]. rewrite (read_pows_stop _ (" \cdot " ++ (joined u l ++ rest))) by reflexivity.
    rewrite eat_app. rewrite (IH u Hl n rest) by (auto; lia). reflexivity.
Qed.
Lemma exps_of_parts t p l : parts t = p :: l -> exps (facs t) = exp_of (fac1 p) (map fac1 l).
Proof. intros E. rewrite facs_parts, E. reflexivity. Qed.
Lemma exp_from_parts t : Forall reads_fac (parts t) -> reads_exp t.
Proof.
  intros H n rest Hn S1 S2 S3. destruct (parts_joined t) as (p & l & E & D). rewrite (exps_of_parts t p l E), D.
  apply reads_parts; auto; [rewrite <- E; exact H|]. pose proof (parts_sizes t) as P. rewrite E in P. lia.
Qed.
Lemma reads_leaf_name n s rest : leafish s -> stopc rest = true -> read_fac (S n) (s ++ rest) = Some (read_pows (FName s) rest).
Proof.
  intros (L1 & L2 & L3 & _) S. cbn [read_fac]. rewrite L2.
  assert (eat "\frac{\partial^{2} " (s ++ rest) = None) as -> by (apply (eat_none "\frac" "{\partial^{2} "), L3).
  assert (eat "\frac{\partial " (s ++ rest) = None) as -> by (apply (eat_none "\frac" "{\partial "), L3).
  assert (eat "\frac{" (s ++ rest) = None) as -> by (apply (eat_none "\frac" "{"), L3).
  rewrite (L1 rest S). reflexivity.
Qed.
Ltac step H := rewrite H by (reflexivity || lia); cbn [opt].
Lemma reads_all k : forall t, (tsize t <= k)%nat -> tok t -> (is_mul t = false -> reads_fac t) /\ reads_exp t.
Proof.
  induction k as [|k IH]; intros t Hk Ht; [pose proof (tsize_pos t); lia|].
  assert (forall u, (tsize u <= k)%nat -> tok u -> reads_exp u) as IHe by (intros u Hu Hu2; apply (IH u Hu Hu2)).
  assert (is_mul t = false -> reads_fac t) as HF.
  { intros Hm. destruct t as [s|m a b|a b|a b|c a|d a x]; try discriminate; cbn [tsize] in Hk; intros n rest Hn S1; cbn [tsize] in Hn;
    (destruct n as [|n]; [lia|]).
    - apply reads_leaf_name; [exact Ht|exact S1].
    - destruct Ht as [Ta Tb]. pose proof (IHe a ltac:(lia) Ta) as Ra. pose proof (IHe b ltac:(lia) Tb) as Rb.
      cbn [draw]. rewrite !sapp. cbn [read_fac]. rewrite eat_app. destruct m.
      + step (Ra n (" - " ++ (draw b ++ (")" ++ rest)))).
        change (eat ")" (" - " ++ (draw b ++ (")" ++ rest)))) with (@None string). cbn [opt].
        change (eat " + " (" - " ++ (draw b ++ (")" ++ rest)))) with (@None string). rewrite eat_app. cbn [opt].
        step (Rb n (")" ++ rest)). rewrite eat_app. reflexivity.
      + step (Ra n (" + " ++ (draw b ++ (")" ++ rest)))).
        change (eat ")" (" + " ++ (draw b ++ (")" ++ rest)))) with (@None string). cbn [opt].
        rewrite eat_app. cbn [opt]. step (Rb n (")" ++ rest)). rewrite eat_app. reflexivity.
    - destruct Ht as [Ta Tb]. pose proof (IHe a ltac:(lia) Ta) as Ra. pose proof (IHe b ltac:(lia) Tb) as Rb.
      cbn [draw]. rewrite !sapp. cbn [read_fac].
      set (X := draw a ++ ("}{" ++ (draw b ++ ("}" ++ rest)))).
      assert (eat "\partial" X = None) as NP by (apply no_partial; exact Ta).
      change (eat "(" ("\frac{" ++ X)) with (@None string).
      assert (eat "\frac{\partial^{2} " ("\frac{" ++ X) = None) as -> by (transitivity (eat ("\partial" ++ "^{2} ") X); [reflexivity|apply eat_none; exact NP]).
      assert (eat "\frac{\partial " ("\frac{" ++ X) = None) as -> by (transitivity (eat ("\partial" ++ " ") X); [reflexivity|apply eat_none; exact NP]).
      rewrite eat_app. cbn [opt]. unfold X. step (Ra n ("}{" ++ (draw b ++ ("}" ++ rest)))). rewrite eat_app. cbn [opt].
      step (Rb n ("}" ++ rest)). rewrite eat_app. reflexivity.
    - cbn [tok] in Ht. destruct Ht as (Ta & Tn & Tl). pose proof (IHe a ltac:(lia) Ta) as Ra.
      unfold fac1. cbn [draw facs hd]. destruct (String.eqb_spec (ensure_group (draw a)) (draw a)) as [E|NE].
      + rewrite E, sapp. assert (is_mul a = false) as Ma. { destruct (is_mul a) eqn:Q; [|reflexivity]. rewrite (mul_grouped a Ta Q (Tl eq_refl)) in E. destruct (grouped_ne _ E). }
        destruct (IH a ltac:(lia) Ta) as [Fa _]. rewrite (Fa Ma (S n)); [|lia|reflexivity].
        rewrite read_pows_pow by exact Tn. reflexivity.
      + destruct (ensure_cases (draw a)) as [E|E]; [congruence|]. rewrite E, !sapp. cbn [read_fac]. rewrite eat_app.
        step (Ra n (")" ++ (("^{" ++ (String c "}") ++ rest)))). rewrite eat_app. cbn [opt].
        rewrite <- sapp. rewrite read_pows_pow by exact Tn. reflexivity.
    - destruct Ht as [Ta Tx]. pose proof (IHe a ltac:(lia) Ta) as Ra. destruct Tx as (Tx & _). cbn [draw]. destruct d.
      + rewrite !sapp. cbn [read_fac]. set (X := draw a ++ ("}{\partial " ++ (x ++ ("^{2}}" ++ rest)))).
        change (eat "(" ("\frac{\partial^{2} " ++ X)) with (@None string). rewrite eat_app. unfold X.
        step (Ra n ("}{\partial " ++ (x ++ ("^{2}}" ++ rest)))). rewrite eat_app. cbn [opt]. step (Tx ("^{2}}" ++ rest)). rewrite eat_app. reflexivity.
      + rewrite !sapp. cbn [read_fac]. set (X := draw a ++ ("}{\partial " ++ (x ++ ("}" ++ rest)))).
        change (eat "(" ("\frac{\partial " ++ X)) with (@None string). change (eat "\frac{\partial^{2} " ("\frac{\partial " ++ X)) with (@None string). rewrite eat_app. unfold X.
        step (Ra n ("}{\partial " ++ (x ++ ("}" ++ rest)))). rewrite eat_app. cbn [opt]. step (Tx ("}" ++ rest)). rewrite eat_app. reflexivity. }
  split; [exact HF|]. apply exp_from_parts. destruct (is_mul t) eqn:Em.
  - pose proof (parts_tok t Ht) as PT. pose proof (parts_nomul t) as PM.
    assert (Forall (fun p => tsize p <= k)%nat (parts t)) as PS.
    { destruct t; try discriminate. cbn [parts tsize] in *. pose proof (parts_sizes t1). pose proof (parts_sizes t2).
      pose proof in_sizes as G.
      apply Forall_forall. intros p Hp. apply in_app_or in Hp as [Hp|Hp]; apply G in Hp; lia. }
    rewrite Forall_forall in *. intros p Hp. apply (IH p (PS p Hp) (PT p Hp)). apply PM. exact Hp.
  - assert (parts t = [t]) as -> by (destruct t; try discriminate; reflexivity). constructor; [apply HF; reflexivity|constructor].
Qed.

Fixpoint of_tree (t : tree ent) : tm :=
  match t with
  | Nd e [] => TLeaf (render_leaf (ename e))
  | Nd e [a] => TPow (if String.eqb (ename e) "^2" then "2"%char else "3"%char) (of_tree a)
  | Nd e (a :: b :: _) =>
      let n := ename e in
      if String.eqb n "+" then TSum false (of_tree a) (of_tree b)
      else if String.eqb n "-" then TSum true (of_tree a) (of_tree b)
      else if String.eqb n "*" then TMul (of_tree a) (of_tree b)
      else if String.eqb n "/" then TDiv (of_tree a) (of_tree b)
      else TD (String.eqb n "d^2") (of_tree a) (render_leaf (match b with Nd e' _ => ename e' end))
  end.
Definition good_names (c : sctx) : Prop := forall v, In v (c_vars c) -> good_name (ename v).
Lemma root_map (a : tree ent) : root_of a = match a with Nd e' _ => e' end. Proof. destruct a; reflexivity. Qed.
Lemma ends_of_tree c t : term_ok c t -> sum_last (of_tree t) = ends_in_sum t.
Proof.
  induction t as [e cs IH] using tree_ind'. intros H. inversion H as [? ? (F1 & F2 & F3 & F4) HK]; subst.
  destruct cs as [|a [|b l]]; [reflexivity|reflexivity|]. cbn [of_tree ends_in_sum].
  inversion IH as [|? ? _ IH1]; subst. inversion IH1 as [|? ? IHb _]; subst. inversion HK as [|? ? _ HK1]; subst. inversion HK1 as [|? ? Hb _]; subst.
  destruct (String.eqb_spec (ename e) "+") as [->|]; [reflexivity|].
  destruct (String.eqb_spec (ename e) "-") as [->|]; [reflexivity|].
  destruct (String.eqb_spec (ename e) "*") as [E|]; [apply IHb; exact Hb|].
  destruct (String.eqb (ename e) "/"); reflexivity.
Qed.
Lemma mul_of_tree c t : term_ok c t -> is_mul (of_tree t) = true -> ename (root_of t) = "*".
Proof.
  destruct t as [e cs]. intros H. destruct cs as [|a [|b l]]; try discriminate. cbn [of_tree root_of].
  destruct (String.eqb (ename e) "+"); [discriminate|]. destruct (String.eqb (ename e) "-"); [discriminate|].
  destruct (String.eqb_spec (ename e) "*") as [->|]; [reflexivity|]. destruct (String.eqb (ename e) "/"); discriminate.
Qed.
Lemma drawn_of_tree c t : term_ok c t -> good_names c -> clear_powers t -> drawn true t = draw (of_tree t) /\ tok (of_tree t).
Proof.
  intros Ht Hg. induction t as [e cs IH] using tree_ind'. intros Hp. inversion Ht as [? ? (F1 & F2 & F3 & F4) HK]; subst. inversion Hp as [? ? P1 P2]; subst.
  destruct cs as [|a cs].
  - cbn. split; [reflexivity|]. apply leaf_leafish, Hg, F2. reflexivity.
  - assert (In e OPS) as Ho by (apply F3; discriminate). rewrite map_length in F1.
    inversion IH as [|? ? IHa IH1]; subst. inversion HK as [|? ? Ha HK1]; subst. inversion P2 as [|? ? Pa P3]; subst.
    specialize (IHa Ha Pa) as [Da Ta].
    cbn in Ho. destruct Ho as [<-|[<-|[<-|[<-|[<-|[<-|[<-|[<-|[]]]]]]]]]; cbn in F1.
    1-6: destruct cs as [|b [|]]; cbn in F1; try lia; inversion IH1 as [|? ? IHb _]; subst; inversion HK1 as [|? ? Hb _]; subst; inversion P3 as [|? ? Pb _]; subst; specialize (IHb Hb Pb) as [Db Tb].
    1-4: cbn -[String.append] in *; rewrite Da, Db; cbn -[String.append]; auto.
    1-2: destruct (F4 ltac:(discriminate) eq_refl) as (l & r & E & Er & Hd); cbn in E; injection E as <- <-; destruct b as [eb lb]; cbn in Er;
         inversion Hb as [? ? (G1 & G2 & _) _]; subst; rewrite map_length in G1; destruct lb; [|cbn in G1; lia];
         cbn -[String.append] in *; rewrite Da; split; [reflexivity|split; [exact Ta|exact Tb]].
    1-2: destruct cs; cbn in F1; [|lia]; cbn -[String.append] in *; rewrite Da; split; [reflexivity|];
         split; [exact Ta|split; [auto|]]; intros M; rewrite (ends_of_tree c a Ha); apply (P1 a eq_refl); rewrite <- root_map; apply (mul_of_tree c a Ha M).
Qed.
Lemma draw_reads c t : term_ok c t -> good_names c -> clear_powers t -> exists n, read_exp n (drawn true t) = Some (exps (facs (of_tree t)), "").
Proof.
  intros Ht Hg Hp. destruct (drawn_of_tree c t Ht Hg Hp) as [D T]. exists (2 * tsize (of_tree t))%nat.
  destruct (reads_all (tsize (of_tree t)) (of_tree t) (le_n _) T) as [_ R]. specialize (R (2 * tsize (of_tree t))%nat "" (le_n _) eq_refl eq_refl eq_refl).
  rewrite D. rewrite <- R at 1. f_equal. clear. induction (draw (of_tree t)) as [|x s IHs]; cbn; congruence.
Qed.
Section Meanings.
Context {V : Type}.
Variables (nm : string -> V) (add sub mul div : V -> V -> V) (pow : ascii -> V -> V) (d : bool -> V -> string -> V).
Hypothesis mul_assoc : forall a b c, mul a (mul b c) = mul (mul a b) c.
Let EV := eval nm add sub mul div pow d.
Let FV := fval nm add sub mul div pow d.
Lemma eval_app l1 : forall f g l2, EV (exp_of f (l1 ++ g :: l2)%list) = mul (EV (exp_of f l1)) (EV (exp_of g l2)).
Proof. induction l1 as [|h l1 IH]; intros f g l2; [reflexivity|]. cbn. unfold EV in *. cbn. rewrite IH, mul_assoc. reflexivity. Qed.
Lemma facs_cons t : exists f l, facs t = f :: l.
Proof. rewrite facs_parts. destruct (parts_joined t) as (p & l & -> & _). cbn. eauto. Qed.
Fixpoint mval (t : tm) : V :=
  match t with
  | TLeaf s => nm s
  | TSum m a b => if m then sub (mval a) (mval b) else add (mval a) (mval b)
  | TMul a b => mul (mval a) (mval b)
  | TDiv a b => div (mval a) (mval b)
  | TPow n a => pow n (mval a)
  | TD k a x => d k (mval a) x
  end.
Lemma facs_meaning t : tok t -> EV (exps (facs t)) = mval t.
Proof.
  induction t; cbn [tok]; intros H.
  - reflexivity.
  - destruct H as [H1 H2]. cbn [facs mval]. rewrite <- (IHt1 H1), <- (IHt2 H2). destruct minus; reflexivity.
  - destruct H as [H1 H2]. cbn [facs mval]. destruct (facs_cons t1) as (f & l & E1). destruct (facs_cons t2) as (g & l2 & E2). rewrite E1, E2 in *. cbn [exps List.app] in *. rewrite eval_app, IHt1, IHt2 by assumption. reflexivity.
  - destruct H as [H1 H2]. cbn [facs mval]. rewrite <- (IHt1 H1), <- (IHt2 H2). reflexivity.
  - destruct H as (H1 & H2 & H3). cbn [facs mval exps exp_of]. specialize (IHt H1). unfold EV in *.
    destruct (String.eqb_spec (ensure_group (draw t)) (draw t)) as [E|NE].
    + assert (is_mul t = false) as Mm. { destruct (is_mul t) eqn:Q; [|reflexivity]. rewrite (mul_grouped t H1 Q (H3 eq_refl)) in E. destruct (grouped_ne _ E). }
      assert (exists f, facs t = [f]) as [f Ef] by (destruct t; try discriminate; eexists; reflexivity). rewrite Ef in *. cbn in *. now rewrite IHt.
    + rewrite <- IHt. reflexivity.
  - destruct H as [H1 H2]. cbn [facs mval]. rewrite <- (IHt H1). reflexivity.
Qed.
Lemma tval_mval t : tval nm add sub mul div pow d render_leaf t = mval (of_tree t).
Proof.
  induction t as [e cs IH] using tree_ind'. destruct cs as [|a [|b l]]; [reflexivity| |]; inversion IH as [|? ? IHa IH1]; subst.
  - cbn. now rewrite IHa.
  - inversion IH1 as [|? ? IHb _]; subst. cbn. rewrite IHa, IHb.
    destruct (String.eqb (ename e) "+"); [reflexivity|]. destruct (String.eqb (ename e) "-"); [reflexivity|]. destruct (String.eqb (ename e) "*"); [reflexivity|]. destruct (String.eqb (ename e) "/"); reflexivity.
Qed.
End Meanings.
