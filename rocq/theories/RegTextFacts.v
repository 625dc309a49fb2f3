(** Specification of decimal numerals and of substring occurrence, and lemmas about RegText. *)
From Coq Require Import QArith Qround Qabs Ascii Lqa Nnat.
From Verif Require Import Base DlgaEq SgaEq RegText.
Local Open Scope string_scope.

(** ** Specification *)
(** [p] occurs in [s]. *)
Definition occurs (p s : string) : Prop := exists a b, s = a ++ p ++ b.
(** Value of a decimal digit, value of a digit string. *)
Definition digit_val (c : ascii) : option N :=
  let n := N_of_ascii c in if ((48 <=? n) && (n <=? 57))%N%bool then Some (n - 48)%N else None.
Fixpoint dval (acc : N) (s : string) : option N :=
  match s with
  | "" => Some acc
  | String c s' => match digit_val c with Some d => dval (10 * acc + d) s' | None => None end
  end.
(** [s] is a decimal numeral "[-]ddd.ddd" (at least one digit on both sides) of value [q]. *)
Definition numeral (s : string) (q : Q) : Prop :=
  exists (neg : bool) ip fp i f,
    s = (if neg then "-" else "") ++ ip ++ "." ++ fp /\ ip <> "" /\ fp <> "" /\
    dval 0 ip = Some i /\ dval 0 fp = Some f /\
    (q == (if neg then -1 else 1) * (inject_Z (Z.of_N i) + inject_Z (Z.of_N f) / inject_Z (10 ^ Z.of_nat (String.length fp))))%Q.

(** ** Strings *)
Lemma sapp_assoc a b c : (a ++ b) ++ c = a ++ b ++ c.
Proof. induction a; cbn; congruence. Qed.
Lemma sapp_nil a : a ++ "" = a.
Proof. induction a; cbn; congruence. Qed.
Lemma slen_app a b : String.length (a ++ b) = (String.length a + String.length b)%nat.
Proof. induction a; cbn; congruence. Qed.
Lemma string_snoc_case s : s = "" \/ exists s' a, s = s' ++ String a "".
Proof.
  induction s as [|a s IH]; auto. right. destruct IH as [->|(s' & b & ->)].
  - exists "", a. reflexivity.
  - exists (String a s'), b. reflexivity.
Qed.
Lemma snoc_not_nil s a : s ++ String a "" <> "".
Proof. destruct s; discriminate. Qed.

Lemma rstrip_snoc c s a : rstrip c (s ++ String a "") = if Ascii.eqb a c then rstrip c s else s ++ String a "".
Proof.
  induction s as [|b s IH]; cbn [append rstrip].
  - destruct (Ascii.eqb a c); reflexivity.
  - rewrite IH. destruct (Ascii.eqb a c); [reflexivity|].
    destruct (String.eqb_spec (s ++ String a "") "") as [E|E]; [destruct (snoc_not_nil _ _ E)|].
    rewrite andb_false_r. reflexivity.
Qed.
Lemma rstrip_end c s a : a <> c -> rstrip c (s ++ String a "") = s ++ String a "".
Proof. intros H. rewrite rstrip_snoc. destruct (Ascii.eqb_spec a c); [contradiction|reflexivity]. Qed.

(** ** Digits *)
Lemma dchar_val d : (d < 10)%N -> digit_val (dchar d) = Some d.
Proof.
  intros H. unfold digit_val, dchar. rewrite N_ascii_embedding by lia.
  replace ((48 <=? 48 + d)%N && (48 + d <=? 57)%N)%bool with true by (symmetry; rewrite andb_true_iff, !N.leb_le; lia).
  f_equal. lia.
Qed.
Lemma digit_dchar c d : digit_val c = Some d -> c = dchar d /\ (d < 10)%N.
Proof.
  unfold digit_val, dchar. destruct ((48 <=? N_of_ascii c)%N && (N_of_ascii c <=? 57)%N)%bool eqn:E; [|discriminate].
  intros H. injection H as <-. apply andb_true_iff in E as [E1 E2]. rewrite N.leb_le in E1, E2. split; [|lia].
  replace (48 + (N_of_ascii c - 48))%N with (N_of_ascii c) by lia. symmetry. apply ascii_N_embedding.
Qed.
Lemma dval_app a b acc : dval acc (a ++ b) = match dval acc a with Some v => dval v b | None => None end.
Proof. revert acc. induction a as [|c a IH]; intros acc; cbn; [reflexivity|]. destruct (digit_val c); auto. Qed.
Lemma dval_snoc s d acc : (d < 10)%N ->
  dval acc (s ++ String (dchar d) "") = match dval acc s with Some v => Some (10 * v + d)%N | None => None end.
Proof. intros H. rewrite dval_app. destruct (dval acc s); cbn; [|reflexivity]. rewrite dchar_val by exact H. reflexivity. Qed.
Lemma mod10 n : (n mod 10 < 10)%N.
Proof. apply N.mod_upper_bound. lia. Qed.
Lemma dec_fuel_val k : forall n, (n < 2 ^ N.of_nat k)%N -> k <> O -> dval 0 (dec_fuel k n) = Some n.
Proof.
  induction k as [|k IH]; intros n Hn H0; [congruence|]. cbn [dec_fuel]. rewrite dval_snoc by apply mod10.
  destruct (N.ltb_spec n 10).
  - cbn [dval]. f_equal. rewrite N.mod_small by assumption. lia.
  - assert (k <> O) as Hk by (intros ->; cbn in Hn; lia).
    rewrite IH; [f_equal; symmetry; apply N.div_mod; lia| |exact Hk].
    apply N.div_lt_upper_bound; [lia|]. rewrite Nnat.Nat2N.inj_succ, N.pow_succ_r' in Hn. lia.
Qed.
Lemma size_nat_bound n : (n < 2 ^ N.of_nat (N.size_nat n))%N.
Proof.
  assert (H : N.of_nat (N.size_nat n) = N.size n).
  { destruct n as [|p]; [reflexivity|]. cbn. induction p; cbn; try (rewrite <- IHp); try reflexivity; lia. }
  rewrite H. destruct n as [|p]; [cbn; lia|]. rewrite N.size_log2 by discriminate. apply N.log2_spec. lia.
Qed.
Lemma dec_val n : dval 0 (dec n) = Some n.
Proof.
  unfold dec. apply dec_fuel_val; [|discriminate]. pose proof (size_nat_bound n) as H.
  rewrite Nnat.Nat2N.inj_succ, N.pow_succ_r'. lia.
Qed.
Lemma dec_snoc n : exists s, dec n = s ++ String (dchar (n mod 10)) "".
Proof. unfold dec. cbn [dec_fuel]. eexists; reflexivity. Qed.
Lemma dec_not_nil n : dec n <> "".
Proof. destruct (dec_snoc n) as [s ->]. apply snoc_not_nil. Qed.
Lemma dec_inj a b : dec a = dec b -> a = b.
Proof. intros H. pose proof (dec_val a) as A. rewrite H, dec_val in A. congruence. Qed.

Lemma fixed_val k : forall m, (m < 10 ^ N.of_nat k)%N -> dval 0 (fixed k m) = Some m.
Proof.
  induction k as [|k IH]; intros m H.
  - cbn in H. cbn. f_equal. lia.
  - cbn [fixed]. rewrite dval_snoc by apply mod10. rewrite IH; [f_equal; symmetry; apply N.div_mod; lia|].
    apply N.div_lt_upper_bound; [lia|]. rewrite Nnat.Nat2N.inj_succ, N.pow_succ_r' in H. lia.
Qed.
Lemma fixed_len k m : String.length (fixed k m) = k.
Proof. revert m. induction k as [|k IH]; intros m; cbn [fixed]; [reflexivity|]. rewrite slen_app, IH. cbn. lia. Qed.

(** Stripping the zeros: [j] digits [f] are left, where f*10^(k-j) was printed. *)
Lemma strip_zeros k : forall m X, (m < 10 ^ N.of_nat k)%N ->
  (m = 0%N /\ rstrip "0" (X ++ "." ++ fixed k m) = X ++ ".") \/
  exists j f, (1 <= j <= k)%nat /\ (f mod 10 <> 0)%N /\ (m = f * 10 ^ N.of_nat (k - j))%N /\ (f < 10 ^ N.of_nat j)%N /\
              rstrip "0" (X ++ "." ++ fixed k m) = X ++ "." ++ fixed j f.
Proof.
  induction k as [|k IH]; intros m X H.
  - left. cbn in H. split; [lia|]. cbn [fixed]. apply rstrip_end. discriminate.
  - cbn [fixed]. rewrite <- !sapp_assoc. rewrite rstrip_snoc.
    destruct (Ascii.eqb_spec (dchar (m mod 10)) "0") as [E|E].
    + assert (m mod 10 = 0)%N as E0.
      { pose proof (dchar_val _ (mod10 m)) as D. rewrite E in D. change (digit_val "0") with (Some 0%N) in D. congruence. }
      assert (m = 10 * (m / 10))%N as Em by (rewrite (N.div_mod m 10) at 1; lia).
      rewrite Nnat.Nat2N.inj_succ, N.pow_succ_r' in H.
      destruct (IH (m / 10)%N X ltac:(apply N.div_lt_upper_bound; lia)) as [[A B]|(j & f & A & B & C & D & F)].
      * left. split; [lia|]. rewrite sapp_assoc. exact B.
      * right. exists j, f. repeat split; try assumption; try lia.
        -- rewrite Em, C. replace (S k - j)%nat with (S (k - j)) by lia. rewrite Nnat.Nat2N.inj_succ, N.pow_succ_r'. lia.
        -- rewrite sapp_assoc. exact F.
    + right. exists (S k), m. repeat split; try lia.
      * intros E0. apply E. rewrite E0. reflexivity.
      * rewrite Nat.sub_diag. cbn. lia.
      * cbn [fixed]. rewrite <- !sapp_assoc. reflexivity.
Qed.

Definition digits (s : string) : Prop := dval 0 s <> None.
Lemma dval_some_acc s : forall a, dval a s <> None -> forall b, dval b s <> None.
Proof. induction s as [|c s IH]; intros a H b; cbn in *; [discriminate|]. destruct (digit_val c); [eapply IH; eassumption|contradiction]. Qed.
Lemma digits_no_dot s : digits s -> contains "." s = false.
Proof.
  unfold digits. induction s as [|c s IH]; intros H; [reflexivity|]. cbn [dval] in H.
  destruct (digit_val c) as [d|] eqn:E; [|contradiction].
  cbn [contains has_prefix]. rewrite IH by (eapply dval_some_acc; exact H).
  destruct (Ascii.eqb_spec "." c) as [<-|_]; [discriminate|reflexivity].
Qed.
Lemma contains_app_r p a b : contains p b = true -> contains p (a ++ b) = true.
Proof. induction a as [|c a IH]; [auto|]. intros H. cbn [append contains]. rewrite IH by exact H. apply orb_true_r. Qed.
Lemma contains_dot s : contains "." ("." ++ s) = true.
Proof. destruct s; reflexivity. Qed.
Lemma contains_dot_app a b : contains "." (a ++ "." ++ b) = true.
Proof. apply contains_app_r, contains_dot. Qed.
Lemma sign_no_dot (neg : bool) s : contains "." ((if neg then "-" else "") ++ s) = contains "." s.
Proof. destruct neg; reflexivity. Qed.

(** The shape of a printed constant. *)
Lemma format_shape neg mag :
  let m := millionths mag in
  exists j f, (1 <= j <= 6)%nat /\ (m mod 1000000 = f * 10 ^ N.of_nat (6 - j))%N /\ (f < 10 ^ N.of_nat j)%N /\
    (f mod 10 <> 0 \/ (f = 0 /\ j = 1%nat))%N /\
    format_constant (Fin neg mag) = (if neg then "-" else "") ++ dec (m / 1000000) ++ "." ++ fixed j f.
Proof.
  cbn zeta. unfold format_constant, f6. set (m := millionths mag). set (sg := if neg then "-" else "").
  assert (Hm : (m mod 1000000 < 10 ^ N.of_nat 6)%N) by (apply N.mod_upper_bound; discriminate).
  assert (HS : forall s, contains "." (sg ++ s) = contains "." s) by (intros; apply sign_no_dot).
  rewrite <- (sapp_assoc sg). destruct (strip_zeros 6 _ (sg ++ dec (m / 1000000)) Hm) as [[A ->]|(j & f & A & B & C & D & ->)].
  - exists 1%nat, 0%N. split; [lia|]. split; [rewrite A; reflexivity|]. split; [reflexivity|]. split; [right; auto|].
    rewrite rstrip_snoc, Ascii.eqb_refl.
    destruct (dec_snoc (m / 1000000)) as [s E]. rewrite E.
    assert (dchar ((m / 1000000) mod 10) <> "."%char) as Hd.
    { intros F. pose proof (dchar_val _ (mod10 (m / 1000000))) as G. rewrite F in G. discriminate. }
    rewrite <- sapp_assoc. rewrite rstrip_end by exact Hd. rewrite sapp_assoc. rewrite <- E.
    rewrite HS, digits_no_dot by (unfold digits; rewrite dec_val; discriminate).
    rewrite !sapp_assoc. reflexivity.
  - exists j, f. split; [exact A|]. split; [exact C|]. split; [exact D|]. split; [left; exact B|].
    assert (exists s, fixed j f = s ++ String (dchar (f mod 10)) "") as [s E].
    { destruct j; [lia|]. cbn [fixed]. eexists; reflexivity. }
    assert (dchar (f mod 10) <> "."%char) as Hd.
    { intros F. pose proof (dchar_val _ (mod10 f)) as G. rewrite F in G. discriminate. }
    rewrite E. rewrite <- (sapp_assoc "."), <- sapp_assoc. rewrite rstrip_end by exact Hd. rewrite !sapp_assoc.
    rewrite HS, contains_dot_app. reflexivity.
Qed.

Lemma pow10_pos j : (0 < inject_Z (10 ^ Z.of_nat j))%Q.
Proof. change 0%Q with (inject_Z 0). rewrite <- Zlt_Qlt. apply Z.pow_pos_nonneg; lia. Qed.
Lemma pow10_split j : (j <= 6)%nat -> (inject_Z (10 ^ Z.of_nat j) * inject_Z (Z.of_N (10 ^ N.of_nat (6 - j))) == 1000000)%Q.
Proof.
  intros H. rewrite <- inject_Z_mult. rewrite N2Z.inj_pow, nat_N_Z. change (Z.of_N 10) with 10%Z.
  rewrite <- Z.pow_add_r by lia. replace (Z.of_nat j + Z.of_nat (6 - j))%Z with 6%Z by lia. reflexivity.
Qed.

(** The printed constant denotes the rounded value. *)
Lemma format_value neg mag : (0 <= mag)%Q ->
  exists q, numeral (format_constant (Fin neg mag)) q /\
            (q == (if neg then -1 else 1) * (inject_Z (round_half_even (mag * 1000000)) / 1000000))%Q.
Proof.
  intros Hm. destruct (format_shape neg mag) as (j & f & Hj & Hf & Hb & _ & E). set (m := millionths mag) in *.
  assert (Hz : Z.of_N m = round_half_even (mag * 1000000)).
  { unfold m, millionths. apply Z2N.id. unfold round_half_even.
    assert (0 <= Qfloor (mag * 1000000))%Z by (change 0%Z with (Qfloor 0); apply Qfloor_resp_le; lra).
    destruct (Qcompare _ _); [destruct (Z.even _)| |]; lia. }
  eexists. split.
  - exists neg, (dec (m / 1000000)), (fixed j f), (m / 1000000)%N, f. split; [exact E|].
    split; [apply dec_not_nil|]. split; [intros F; pose proof (fixed_len j f) as L; rewrite F in L; cbn in L; lia|].
    split; [apply dec_val|]. split; [apply fixed_val; exact Hb|]. rewrite fixed_len. reflexivity.
  - apply Qmult_comp; [reflexivity|]. rewrite <- Hz.
    assert (inject_Z (Z.of_N m) == inject_Z (Z.of_N (m / 1000000)%N) * (1000000%Q) + inject_Z (Z.of_N (m mod 1000000%N)))%Q as ->.
    { rewrite (N.div_mod m 1000000) at 1 by discriminate. rewrite N2Z.inj_add, N2Z.inj_mul, inject_Z_plus, inject_Z_mult.
      change (inject_Z (Z.of_N 1000000)) with (1000000%Q). lra. }
    rewrite Hf, N2Z.inj_mul, inject_Z_mult. pose proof (pow10_split j ltac:(lia)) as P. pose proof (pow10_pos j) as P0.
    set (a := inject_Z (10 ^ Z.of_nat j)) in *. set (b := inject_Z (Z.of_N (10 ^ N.of_nat (6 - j)))) in *.
    rewrite <- P. assert (~ b == 0)%Q by (intros F; rewrite F in P; lra). assert (~ a == 0)%Q by lra.
    field. auto.
Qed.

(** ** str.replace *)
Lemma has_prefix_iff p s : has_prefix p s = true <-> exists r, s = p ++ r.
Proof.
  revert s. induction p as [|a p IH]; intros s; cbn [has_prefix].
  - split; [intros _; exists s; reflexivity|reflexivity].
  - destruct s as [|b s]; [split; [discriminate|intros [r E]; discriminate]|].
    rewrite andb_true_iff, IH. split.
    + intros [E [r ->]]. apply Ascii.eqb_eq in E as <-. exists r. reflexivity.
    + intros [r E]. cbn in E. injection E as <- ->. split; [apply Ascii.eqb_refl|eauto].
Qed.
Lemma drop_app p r : drop (String.length p) (p ++ r) = r.
Proof. induction p; cbn; auto. Qed.
Lemma drop_len n s : (String.length (drop n s) <= String.length s)%nat.
Proof. revert s. induction n as [|n IH]; intros s; cbn; [destruct s; cbn; lia|]. destruct s; cbn; [lia|]. specialize (IH s). lia. Qed.

Lemma replace_fuel_enough src dst : src <> "" -> forall k k' s, (String.length s < k)%nat -> (String.length s < k')%nat ->
  replace_fuel k src dst s = replace_fuel k' src dst s.
Proof.
  intros H0. induction k as [|k IH]; intros k' s H H'; [lia|]. destruct k' as [|k']; [lia|]. cbn [replace_fuel].
  destruct (has_prefix src s) eqn:E.
  - f_equal. apply has_prefix_iff in E as [r ->]. rewrite drop_app. rewrite slen_app in H, H'.
    assert (1 <= String.length src)%nat by (destruct src; [congruence|cbn; lia]). apply IH; lia.
  - destruct s; [reflexivity|]. cbn in H, H'. f_equal. apply IH; lia.
Qed.
Lemma replace_step k src dst s : replace_fuel (S k) src dst s =
  if has_prefix src s then dst ++ replace_fuel k src dst (drop (String.length src) s)
  else match s with "" => "" | String a s' => String a (replace_fuel k src dst s') end.
Proof. reflexivity. Qed.
Lemma replace_prefix src dst r : src <> "" -> replace src dst (src ++ r) = dst ++ replace src dst r.
Proof.
  intros H0. unfold replace at 1. rewrite replace_step.
  replace (has_prefix src (src ++ r)) with true by (symmetry; apply has_prefix_iff; eauto).
  rewrite drop_app. f_equal. unfold replace. apply replace_fuel_enough; [exact H0| |lia]. rewrite slen_app.
  destruct src; [congruence|cbn; lia].
Qed.
Lemma replace_skip src dst a s : src <> "" -> has_prefix src (String a s) = false ->
  replace src dst (String a s) = String a (replace src dst s).
Proof. intros H0 E. unfold replace at 1. rewrite replace_step, E. reflexivity. Qed.
Lemma replace_nil src dst : src <> "" -> replace src dst "" = "".
Proof. intros H0. destruct src; [congruence|reflexivity]. Qed.

Lemma replace_none src dst s : src <> "" -> ~ occurs src s -> replace src dst s = s.
Proof.
  intros H0. induction s as [|a s IH]; intros H; [apply replace_nil; exact H0|].
  rewrite replace_skip; [|exact H0|].
  - f_equal. apply IH. intros (x & y & ->). apply H. exists (String a x), y. reflexivity.
  - apply not_true_is_false. intros E. apply has_prefix_iff in E as [r E]. apply H. exists "", r. exact E.
Qed.
Lemma replace_whole src dst : src <> "" -> replace src dst src = dst.
Proof. intros H0. rewrite <- (sapp_nil src) at 2. rewrite replace_prefix, replace_nil by exact H0. apply sapp_nil. Qed.
Lemma replace_self src s : src <> "" -> replace src src s = s.
Proof.
  intros H0. remember (String.length s) as n eqn:En. assert (Hn : (String.length s <= n)%nat) by lia. clear En.
  revert s Hn. induction n as [|n IH]; intros s Hn.
  - destruct s; [apply replace_nil; exact H0|cbn in Hn; lia].
  - destruct s as [|a s]; [apply replace_nil; exact H0|]. destruct (has_prefix src (String a s)) eqn:E.
    + apply has_prefix_iff in E as [r E]. rewrite E in Hn |- *. rewrite slen_app in Hn.
      assert (1 <= String.length src)%nat by (destruct src; [congruence|cbn; lia]).
      rewrite replace_prefix by exact H0. f_equal. apply IH. lia.
    + rewrite replace_skip by assumption. f_equal. apply IH. cbn in Hn. lia.
Qed.

(** A pattern without comma matches inside one part of a comma-separated text. *)
Lemma prefix_before_comma p r a b : ~ occurs "," p -> p ++ r = a ++ "," ++ b -> exists r', a = p ++ r'.
Proof.
  revert a. induction p as [|c p IH]; intros a H E; [exists a; reflexivity|].
  destruct a as [|d a].
  - exfalso. cbn in E. injection E as -> _. apply H. exists "", p. reflexivity.
  - cbn in E. injection E as <- E. destruct (IH a) as [r' ->]; [|exact E|exists r'; reflexivity].
    intros (x & y & ->). apply H. exists (String c x), y. reflexivity.
Qed.
Lemma replace_comma src dst a b : src <> "" -> ~ occurs "," src ->
  replace src dst (a ++ "," ++ b) = replace src dst a ++ "," ++ replace src dst b.
Proof.
  intros H0 Hc. remember (String.length a) as n eqn:En. assert (Hn : (String.length a <= n)%nat) by lia. clear En.
  revert a Hn. induction n as [|n IH]; intros a Hn.
  - destruct a; [|cbn in Hn; lia]. rewrite replace_nil by exact H0. cbn [append]. apply replace_skip; [exact H0|].
    apply not_true_is_false. intros E. apply has_prefix_iff in E as [r E].
    destruct (prefix_before_comma src r "" b Hc) as [r' E']; [symmetry; exact E|]. destruct src; [congruence|discriminate].
  - destruct a as [|c a].
    + apply (IH ""). cbn. lia.
    + destruct (has_prefix src (String c a ++ "," ++ b)) eqn:E.
      * apply has_prefix_iff in E as [r E]. destruct (prefix_before_comma src r (String c a) b Hc) as [r' E']; [symmetry; exact E|].
        rewrite E' in Hn |- *. rewrite slen_app in Hn. rewrite sapp_assoc. rewrite !replace_prefix by exact H0.
        rewrite IH, sapp_assoc; [reflexivity|]. assert (1 <= String.length src)%nat by (destruct src; [congruence|cbn; lia]). lia.
      * cbn [append] in E |- *. rewrite replace_skip by assumption.
        rewrite (replace_skip src dst c a H0).
        -- cbn [append]. f_equal. apply IH. cbn in Hn. lia.
        -- apply not_true_is_false. intros F. apply has_prefix_iff in F as [r F]. apply not_true_iff_false in E. apply E.
           apply has_prefix_iff. exists (r ++ "," ++ b). rewrite <- sapp_assoc. rewrite <- F. reflexivity.
Qed.
Lemma replace_commas src dst l : src <> "" -> ~ occurs "," src -> replace src dst (comma l) = comma (map (replace src dst) l).
Proof.
  intros H0 Hc. induction l as [|x l IH]; [apply replace_nil; exact H0|]. destruct l as [|y l]; [reflexivity|].
  change (comma (x :: y :: l)) with (x ++ "," ++ comma (y :: l)). rewrite replace_comma, IH by assumption. reflexivity.
Qed.

(** ** Variable names *)
Lemma digits_char s : digits s -> forall a c b, s = a ++ String c b -> digit_val c <> None.
Proof.
  unfold digits. intros H a c b ->. revert H. generalize 0%N. induction a as [|d a IH]; intros n H; cbn in *.
  - destruct (digit_val c); congruence.
  - destruct (digit_val d); [eapply IH; exact H|contradiction].
Qed.
Lemma dec_digits n : digits (dec n).
Proof. unfold digits. rewrite dec_val. discriminate. Qed.
Lemma xvar_nonempty i : xvar i <> "".
Proof. discriminate. Qed.
Lemma xvar_no_comma i : ~ occurs "," (xvar i).
Proof.
  intros (a & b & E). destruct a as [|c a]; unfold xvar in E; cbn [append] in E; [discriminate|]. injection E as <- E.
  apply (digits_char _ (dec_digits (N.of_nat i)) _ _ _ E). reflexivity.
Qed.
Lemma dval_mono s : forall a v, dval a s = Some v -> (a <= v)%N.
Proof.
  induction s as [|c s IH]; intros a v H; cbn [dval] in H; [injection H as ->; lia|].
  destruct (digit_val c); [|discriminate]. apply IH in H. lia.
Qed.
Lemma xvar_occurs i j : occurs (xvar j) (xvar i) -> (j <= i)%nat.
Proof.
  intros (a & b & E). destruct a as [|c a]; unfold xvar in E; cbn [append] in E; injection E as E.
  - pose proof (dec_val (N.of_nat i)) as H. rewrite E, dval_app, dec_val in H. apply dval_mono in H. clear E. lia.
  - exfalso. refine (digits_char _ (dec_digits (N.of_nat i)) _ _ _ H _). reflexivity.
Qed.
Lemma xvar_inj i j : xvar i = xvar j -> i = j.
Proof. unfold xvar. intros H. injection H as H. apply dec_inj in H. lia. Qed.

(** [x] followed by a digit somewhere in [s]. *)
Fixpoint xdigit (s : string) : bool :=
  match s with
  | String "x" (String c _ as s') => match digit_val c with Some _ => true | None => xdigit s' end
  | String _ s' => xdigit s'
  | "" => false
  end.
Lemma xdigit_cons a s : xdigit (String a s) = false -> xdigit s = false.
Proof.
  intros H. destruct (Ascii.eqb_spec a "x") as [->|N].
  - destruct s as [|c s]; [reflexivity|]. cbn [xdigit] in H. destruct (digit_val c); [discriminate|exact H].
  - destruct a as [[] [] [] [] [] [] [] []]; try exact H. congruence.
Qed.
Lemma xdigit_occurs t i : xdigit t = false -> ~ occurs (xvar i) t.
Proof.
  intros H (a & b & ->). induction a as [|c a IH]; [|apply IH; eapply xdigit_cons; exact H].
  cbn [append] in H. unfold xvar in H. cbn [append] in H.
  pose proof (dec_digits (N.of_nat i)) as D. pose proof (dec_not_nil (N.of_nat i)) as D0.
  destruct (dec (N.of_nat i)) as [|c s] eqn:E; [congruence|]. cbn [append xdigit] in H.
  pose proof (digits_char _ D "" c s eq_refl) as F. destruct (digit_val c); [discriminate|contradiction].
Qed.

Lemma render_commas names : forall start l, render_from start names (comma l) = comma (map (render_from start names) l).
Proof.
  induction names as [|n names IH]; intros start l; cbn [render_from]; [rewrite map_id; reflexivity|].
  rewrite IH, replace_commas by (try apply xvar_no_comma; discriminate). rewrite map_map. reflexivity.
Qed.
Lemma render_plain names : forall start t,
  (forall j, (start <= j < start + List.length names)%nat -> ~ occurs (xvar j) t) -> render_from start names t = t.
Proof.
  induction names as [|n names IH]; intros start t H; cbn [render_from]; [reflexivity|].
  rewrite IH; [|intros j Hj; apply H; cbn; lia]. apply replace_none; [discriminate|]. apply H. cbn. lia.
Qed.
Lemma render_var names : forall start i name, (start <= i)%nat -> nth_error names (i - start) = Some name ->
  (forall j, (start <= j < i)%nat -> ~ occurs (xvar j) name) -> render_from start names (xvar i) = name.
Proof.
  induction names as [|n names IH]; intros start i name Hi Hn Ho; [destruct (i - start)%nat; discriminate|].
  cbn [render_from]. destruct (Nat.eq_dec i start) as [->|Hne].
  - rewrite Nat.sub_diag in Hn. injection Hn as ->. rewrite render_plain; [apply replace_whole; discriminate|].
    intros j Hj F. apply xvar_occurs in F. lia.
  - rewrite (IH (S start) i name); [|lia| |intros j Hj; apply Ho; lia].
    + apply replace_none; [discriminate|]. apply Ho. lia.
    + replace (i - start)%nat with (S (i - S start)) in Hn by lia. exact Hn.
Qed.
Lemma render_default d : forall start s, render_from start (map (fun i => xvar (i + start)) (seq 0 d)) s = s.
Proof.
  induction d as [|d IH]; intros start s; [reflexivity|]. cbn [seq map render_from]. rewrite <- seq_shift, map_map.
  rewrite (map_ext _ (fun i => xvar (i + S start))) by (intros; f_equal; lia).
  rewrite IH. apply replace_self. discriminate.
Qed.

(** A printed number contains no letter x. *)
Lemma xdigit_no_x s : (forall a b, s <> a ++ String "x" b) -> xdigit s = false.
Proof.
  induction s as [|c s IH]; intros H; [reflexivity|].
  assert (c <> "x"%char) as N by (intros ->; apply (H "" s); reflexivity).
  assert (xdigit s = false) as E by (apply IH; intros a b ->; apply (H (String c a) b); reflexivity).
  destruct c as [[] [] [] [] [] [] [] []]; try exact E. congruence.
Qed.
