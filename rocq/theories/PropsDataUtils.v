(** C161-C163: data files, normalisation and splitting. *)
From Coq Require Import QArith Qminmax Qround Ascii Permutation Lqa.
From Verif Require Import Base DataUtils.
Local Open Scope string_scope.
Local Open Scope nat_scope.
Local Open Scope list_scope.

(** ** Specification *)
Definition free_of (c : ascii) (s : string) : Prop := ~ In c (list_ascii_of_string s).
(** The last component of the path [p] is a name (non-empty) followed by the extension [e], which starts with its only dot
    and has something after it. *)
Definition has_extension (p e : string) : Prop := exists pre name x,
  p = (pre ++ name ++ e)%string /\ (pre = "" \/ exists d, pre = (d ++ "/")%string) /\ name <> "" /\ free_of "/" name /\
  e = String "." x /\ x <> "" /\ free_of "." x /\ free_of "/" x.
(** the table of the numbers written in [cells] *)
Definition reads (number : string -> option Q) (cells : list (list string)) (t : list (list Q)) : Prop :=
  Forall2 (Forall2 (fun c v => number c = Some v)) cells t /\ exists w, Forall (fun r => List.length r = w) cells.

(** *** Lemmas on strings *)
Lemma app_assoc_s a b c : ((a ++ b) ++ c = a ++ (b ++ c))%string.
Proof. induction a; cbn; congruence. Qed.
Lemma app_nil_s a : (a ++ "" = a)%string.
Proof. induction a; cbn; congruence. Qed.
Lemma has_char_In c s : has_char c s = true <-> In c (list_ascii_of_string s).
Proof. induction s as [|a s IH]; cbn; [split; [discriminate|tauto]|]. rewrite orb_true_iff, IH, Ascii.eqb_eq. tauto. Qed.
Lemma free_has c s : free_of c s <-> has_char c s = false.
Proof. unfold free_of. rewrite <- has_char_In. destruct (has_char c s); intuition congruence. Qed.
Lemma has_char_app c a b : has_char c (a ++ b) = has_char c a || has_char c b.
Proof. induction a as [|x a IH]; [reflexivity|]. cbn. rewrite IH. apply orb_assoc. Qed.
Lemma base_name_free s : has_char "/" s = false -> base_name s = s.
Proof. destruct s as [|a r]; [reflexivity|]. cbn. intros H. apply orb_false_iff in H as [H1 H2]. rewrite H1, H2. reflexivity. Qed.
Lemma base_name_after d n : has_char "/" n = false -> base_name (d ++ String "/" n) = n.
Proof.
  intros H. induction d as [|a d IH].
  - cbn. rewrite H. reflexivity.
  - cbn [base_name String.append]. rewrite has_char_app. cbn [has_char]. rewrite Ascii.eqb_refl. cbn [orb]. rewrite orb_true_r. exact IH.
Qed.
Lemma base_name_split s : exists pre, s = (pre ++ base_name s)%string /\ (pre = "" \/ exists d, pre = (d ++ "/")%string) /\ has_char "/" (base_name s) = false.
Proof.
  induction s as [|a r (pre & E & P & N)]; [exists ""; cbn; auto|]. cbn [base_name]. destruct (has_char "/" r) eqn:H.
  - destruct P as [->|(d & ->)].
    + cbn in E. rewrite E in H. congruence.
    + exists (String a (d ++ "/")). split; [cbn; congruence|]. split; [right; exists (String a d); reflexivity|exact N].
  - destruct (Ascii.eqb_spec a "/") as [->|A].
    + exists "/". split; [reflexivity|]. split; [right; exists ""; reflexivity|exact H].
    + exists "". split; [reflexivity|]. split; [auto|]. cbn. apply Ascii.eqb_neq in A. rewrite A, H. reflexivity.
Qed.
Lemma from_dot_none s : from_dot s = None <-> has_char "." s = false.
Proof.
  induction s as [|a r IH]; [cbn; tauto|]. cbn. destruct (from_dot r) as [x|].
  - split; [discriminate|]. intros H. apply orb_false_iff in H as [_ H]. apply IH in H. discriminate.
  - destruct (Ascii.eqb a "."); cbn; [split; discriminate|]. split; [intros _; apply IH; reflexivity|reflexivity].
Qed.
Lemma from_dot_some s y : from_dot s = Some y <-> exists pre x, s = (pre ++ y)%string /\ y = String "." x /\ has_char "." x = false.
Proof.
  revert y. induction s as [|a r IH]; intros y; cbn.
  - split; [discriminate|]. intros (pre & x & E & -> & _). destruct pre; discriminate.
  - destruct (from_dot r) as [z|] eqn:F.
    + split.
      * intros [= ->]. destruct (proj1 (IH y) eq_refl) as (pre & x & E & Y & N). exists (String a pre), x. cbn. rewrite <- E. auto.
      * intros (pre & x & E & Y & N). apply IH. destruct pre as [|b pre].
        -- cbn in E. rewrite Y in E. injection E as -> ->. apply from_dot_none in N. congruence.
        -- injection E as -> E. exists pre, x. auto.
    + apply from_dot_none in F. destruct (Ascii.eqb_spec a ".") as [->|A].
      * split.
        -- intros [= <-]. exists "", r. auto.
        -- intros (pre & x & E & Y & N). destruct pre as [|b pre]; [cbn in E; congruence|]. injection E as -> E. rewrite E, Y, has_char_app in F. cbn in F. rewrite orb_true_r in F. discriminate.
      * split; [discriminate|]. intros (pre & x & E & Y & N). destruct pre as [|b pre].
        -- cbn in E. rewrite Y in E. injection E as -> ->. congruence.
        -- injection E as -> E. rewrite E, Y, has_char_app in F. cbn in F. rewrite orb_true_r in F. discriminate.
Qed.
Lemma suffix_spec p e : e <> "" -> (suffix p = e <-> has_extension p e).
Proof.
  intros NE. split.
  - intros H. destruct (base_name_split p) as (pre & E & P & N). unfold suffix in H. destruct (base_name p) as [|a r] eqn:B; [congruence|].
    destruct (from_dot r) as [y|] eqn:F; [|congruence]. destruct (proj1 (from_dot_some r y) F) as (q & x & -> & -> & D).
    destruct x as [|b x]; [congruence|]. subst e. cbn in N. apply orb_false_iff in N as [N1 N2]. rewrite has_char_app in N2. apply orb_false_iff in N2 as [N2 N3].
    exists pre, (String a q), (String b x). split; [exact E|]. split; [exact P|]. split; [discriminate|]. split; [apply free_has; cbn; rewrite N1, N2; reflexivity|].
    split; [reflexivity|]. split; [discriminate|]. split; apply free_has; [exact D|]. exact N3.
  - intros (pre & name & x & -> & P & NN & N1 & -> & NX & D & N2). apply free_has in N1, D, N2.
    assert (B : base_name (pre ++ name ++ String "." x) = (name ++ String "." x)%string).
    { assert (H : has_char "/" (name ++ String "." x) = false) by (rewrite has_char_app, N1; exact N2).
      destruct P as [->|(d & ->)]; [apply base_name_free, H|]. rewrite app_assoc_s. cbn. apply base_name_after, H. }
    unfold suffix. rewrite B. destruct name as [|a q]; [congruence|]. cbn [String.append].
    assert (F : from_dot (q ++ String "." x) = Some (String "." x)) by (apply from_dot_some; exists q, x; auto).
    rewrite F. destruct x; [congruence|reflexivity].
Qed.
Lemma ends_with_app a e : ends_with e (a ++ e) = true.
Proof. induction a as [|c a IH]; cbn; [destruct e; cbn; [reflexivity|rewrite String.eqb_refl, Ascii.eqb_refl; reflexivity]|]. rewrite IH. apply orb_true_r. Qed.

(** ** C161: reading data files *)
Section Files.
Context {F V : Type} (fs : string -> option F) (rows : F -> list (list string)) (number : string -> option Q)
  (mat : F -> res (list (string * V))) (npy : F -> res V).
Notation load := (load_data fs rows number mat npy).
Lemma cells_ok r v : mapM (cell number) r = Ok v <-> Forall2 (fun c v => number c = Some v) r v.
Proof.
  revert v. induction r as [|c r IH]; intros v; cbn.
  - split; [intros [= <-]; constructor|intros H; inversion H; reflexivity].
  - unfold cell at 1. destruct (number c) as [q|] eqn:E; cbn.
    + destruct (mapM (cell number) r) as [w|]; cbn.
      * split; [intros [= <-]; constructor; [exact E|apply IH; reflexivity]|]. intros H. inversion H; subst. rewrite E in *. apply IH in H4. congruence.
      * split; [discriminate|]. intros H. inversion H; subst. apply IH in H4. discriminate.
    + split; [discriminate|]. intros H. inversion H; subst. congruence.
Qed.
Lemma cells_err r e : mapM (cell number) r = Err e -> e = ValueError.
Proof.
  induction r as [|c r IH]; cbn; [discriminate|]. unfold cell at 1. destruct (number c); cbn; [|congruence]. destruct (mapM (cell number) r); cbn; [discriminate|]. auto.
Qed.
Lemma rows_ok rs t : mapM (mapM (cell number)) rs = Ok t <-> Forall2 (Forall2 (fun c v => number c = Some v)) rs t.
Proof.
  revert t. induction rs as [|r rs IH]; intros t; cbn.
  - split; [intros [= <-]; constructor|intros H; inversion H; reflexivity].
  - destruct (mapM (cell number) r) as [v|] eqn:E; cbn.
    + destruct (mapM (mapM (cell number)) rs) as [w|]; cbn.
      * split; [intros [= <-]; constructor; [apply cells_ok, E|apply IH; reflexivity]|]. intros H. inversion H; subst. apply cells_ok in H2. apply IH in H4. congruence.
      * split; [discriminate|]. intros H. inversion H; subst. apply IH in H4. discriminate.
    + split; [discriminate|]. intros H. inversion H; subst. apply cells_ok in H2. congruence.
Qed.
Lemma rows_err rs e : mapM (mapM (cell number)) rs = Err e -> e = ValueError.
Proof.
  induction rs as [|r rs IH]; cbn; [discriminate|]. destruct (mapM (cell number) r) eqn:E; cbn; [|intros [= <-]; eapply cells_err, E].
  destruct (mapM (mapM (cell number)) rs); cbn; [discriminate|]. auto.
Qed.
Lemma to_array_ok rs t : to_array number rs = Ok t <-> reads number rs t.
Proof.
  unfold to_array, reads. destruct (forallb _ rs) eqn:E.
  - rewrite rows_ok. split; [|tauto]. intros H. split; [exact H|]. exists (List.length (hd [] rs)). rewrite forallb_forall in E. apply Forall_forall. intros r I. apply Nat.eqb_eq, E, I.
  - split; [discriminate|]. intros [_ (w & W)]. exfalso. apply not_true_iff_false in E. apply E. apply forallb_forall. intros r I. apply Nat.eqb_eq. rewrite Forall_forall in W.
    rewrite (W r I). destruct rs as [|r0 rs]; [destruct I|]. cbn. rewrite (W r0 (or_introl eq_refl)). reflexivity.
Qed.
Lemma to_array_err rs e : to_array number rs = Err e -> e = ValueError.
Proof. unfold to_array. destruct (forallb _ rs); [apply rows_err|congruence]. Qed.

(** A .csv file is read as the table of the numbers under its first row, which is skipped whatever it holds; every row must
    have the same length and every cell must be a number (ValueError otherwise).  A file without rows raises IndexError. *)
Theorem C161_csv dir name p f : p <> "" -> fs p = Some f -> has_extension p ".csv" ->
  (forall r, load dir name (Some p) = Ok r <-> exists h d t, rows f = h :: d /\ reads number d t /\ r = Table t) /\
  (forall e, load dir name (Some p) = Err e <-> (rows f = [] /\ e = IndexError) \/ (e = ValueError /\ exists h d, rows f = h :: d /\ ~ exists t, reads number d t)).
Proof.
  intros NP Fp Ext. apply suffix_spec in Ext; [|discriminate]. assert (L : load dir name (Some p) = do t <- load_csv rows number true f ; Ok (Table t)).
  { unfold load_data, given. destruct p; [congruence|]. rewrite Fp. unfold read. rewrite Ext. reflexivity. }
  rewrite L. unfold load_csv. destruct (rows f) as [|h d] eqn:R; cbn [bind].
  - split; intros r; split; try discriminate.
    + intros (h & d & t & H & _). discriminate.
    + intros [= <-]. auto.
    + intros [[_ ->]|(_ & h & d & H & _)]; [reflexivity|discriminate].
  - destruct (to_array number d) as [t|e] eqn:T; cbn [bind]; split; intros r; split; try discriminate.
    + intros [= <-]. exists h, d, t. split; [reflexivity|]. split; [apply to_array_ok, T|reflexivity].
    + intros (h' & d' & t' & [= <- <-] & H & ->). apply to_array_ok in H. congruence.
    + intros [[H _]|(-> & h' & d' & [= <- <-] & H)]; [discriminate|]. exfalso. apply H. exists t. apply to_array_ok, T.
    + intros (h' & d' & t' & [= <- <-] & H & ->). apply to_array_ok in H. congruence.
    + intros [= <-]. right. split; [eapply to_array_err, T|]. exists h, d. split; [reflexivity|]. intros (t & H). apply to_array_ok in H. congruence.
    + intros [[H _]|(-> & _)]; [discriminate|]. apply to_array_err in T as ->. reflexivity.
Qed.
(** A .mat file gives the variables of the file, in order, except those whose names start with two underscores; a version
    SciPy does not implement is a ValueError, other failures are passed on. *)
Theorem C161_mat dir name p f : p <> "" -> fs p = Some f -> has_extension p ".mat" ->
  (forall d, mat f = Ok d -> exists d', load dir name (Some p) = Ok (Vars d') /\ d' = filter (fun kv => negb (has_prefix "__" (fst kv))) d /\
     forall k v, In (k, v) d' <-> In (k, v) d /\ forall r, k <> ("__" ++ r)%string) /\
  (forall e, mat f = Err e -> load dir name (Some p) = Err (match e with NotImplementedError => ValueError | _ => e end)).
Proof.
  intros NP Fp Ext. apply suffix_spec in Ext; [|discriminate]. assert (L : load dir name (Some p) = do t <- load_mat mat f ; Ok (Vars t)).
  { unfold load_data, given. destruct p; [congruence|]. rewrite Fp. unfold read. rewrite Ext. reflexivity. }
  rewrite L. unfold load_mat. split.
  - intros d ->. eexists. split; [reflexivity|]. split; [reflexivity|]. intros k v. rewrite filter_In, negb_true_iff. cbn [fst].
    enough (X : has_prefix "__" k = false <-> forall r, k <> ("__" ++ r)%string) by tauto. split.
    + intros H r ->. cbn in H. discriminate.
    + intros H. destruct k as [|a k]; [reflexivity|]. cbn [has_prefix]. destruct (Ascii.eqb_spec "_" a) as [<-|]; [|reflexivity]. destruct k as [|b k]; [reflexivity|].
      cbn [has_prefix andb]. destruct (Ascii.eqb_spec "_" b) as [<-|]; [|reflexivity]. exfalso. apply (H k). reflexivity.
  - intros e ->. destruct e; reflexivity.
Qed.
(** .npy and .npz files give what np.load gives; a file of any other kind is a ValueError, a missing one a
    FileNotFoundError (written OtherError). *)
Theorem C161_numpy dir name p f : p <> "" -> fs p = Some f -> has_extension p ".npy" \/ has_extension p ".npz" ->
  load dir name (Some p) = match npy f with Ok v => Ok (Arr v) | Err e => Err e end.
Proof.
  intros NP Fp Ext. assert (E : ends_with ".npy" p || ends_with ".npz" p = true).
  { destruct Ext as [(a & b & x & -> & _)|(a & b & x & -> & _)]; rewrite <- app_assoc_s, ends_with_app; [reflexivity|apply orb_true_r]. }
  unfold load_data, given. destruct p as [|c q]; [congruence|]. rewrite Fp. unfold read, load_numpy. rewrite E.
  destruct Ext as [Ext|Ext]; apply suffix_spec in Ext; try discriminate; rewrite Ext; cbn; destruct (npy f); reflexivity.
Qed.
Theorem C161_other_files dir name p : p <> "" ->
  (fs p = None -> load dir name (Some p) = Err OtherError) /\
  (forall f, fs p = Some f -> (forall e, In e [".csv"; ".mat"; ".npy"; ".npz"] -> ~ has_extension p e) -> load dir name (Some p) = Err ValueError).
Proof.
  intros NP. unfold load_data, given. destruct p as [|c q]; [congruence|]. set (p := String c q). split; [intros ->; reflexivity|]. intros f -> H.
  assert (X : forall e, In e [".csv"; ".mat"; ".npy"; ".npz"] -> String.eqb (suffix p) e = false).
  { intros e I. apply String.eqb_neq. intros Q. apply (H e I). apply suffix_spec; [|exact Q]. destruct I as [<-|[<-|[<-|[<-|[]]]]]; discriminate. }
  unfold read. cbn [existsb]. rewrite !X by (cbn; auto 6). reflexivity.
Qed.
(** Given only the name of an equation, the loader reads the first file of the directory with that name and extension .csv,
    .mat, .npy or .npz, in this order, as if it had been given by its path; without one it raises FileNotFoundError. *)
Theorem C161_by_name dir name file : name <> "" -> file = None \/ file = Some "" ->
  let path e := (dir ++ "/" ++ name ++ e)%string in
  (forall before e after f, [".csv"; ".mat"; ".npy"; ".npz"] = before ++ e :: after -> fs (path e) = Some f -> (forall b, In b before -> fs (path b) = None) ->
     load dir (Some name) file = load dir None (Some (path e))) /\
  ((forall e, In e [".csv"; ".mat"; ".npy"; ".npz"] -> fs (path e) = None) -> load dir (Some name) file = Err OtherError).
Proof.
  intros NN HF path. assert (G : given file = None) by (destruct HF as [->| ->]; reflexivity). assert (GN : given (Some name) = Some name) by (destruct name; [congruence|reflexivity]).
  assert (NP : forall e, given (Some (path e)) = Some (path e)) by (intros e; unfold path; destruct dir; reflexivity).
  unfold load_data. rewrite G, GN. split.
  - intros before e after f E Fe Fb. rewrite NP, Fe.
    assert (X : find_file fs dir name = Some (path e)).
    { unfold find_file, extensions. rewrite E, map_app. clear E. induction before as [|b before IH]; cbn [map app find].
      - change (in_dir dir (name ++ e)) with (path e). rewrite Fe. reflexivity.
      - change (in_dir dir (name ++ b)) with (path b). rewrite (Fb b (or_introl eq_refl)). apply IH. intros b' I. apply Fb. right. exact I. }
    rewrite X, Fe. reflexivity.
  - intros H. assert (X : find_file fs dir name = None).
    { unfold find_file, extensions. cbn [map find]. change (fun e => in_dir dir (name ++ e)) with path. unfold in_dir.
      change (dir ++ "/" ++ name ++ ".csv")%string with (path ".csv"). change (dir ++ "/" ++ name ++ ".mat")%string with (path ".mat").
      change (dir ++ "/" ++ name ++ ".npy")%string with (path ".npy"). change (dir ++ "/" ++ name ++ ".npz")%string with (path ".npz").
      rewrite !H by (cbn; auto 6). reflexivity. }
    rewrite X. reflexivity.
Qed.
(** A path given wins over a name; with neither (or both empty) the call is refused. *)
Theorem C161_arguments dir : (forall name name' dir' p, p <> "" -> load dir name (Some p) = load dir' name' (Some p)) /\
  (forall name file, name = None \/ name = Some "" -> file = None \/ file = Some "" -> load dir name file = Err ValueError).
Proof.
  split.
  - intros name name' dir' p N. unfold load_data, given. destruct p; [congruence|reflexivity].
  - intros name file [->| ->] [->| ->]; reflexivity.
Qed.
End Files.
Definition demo_fs (p : string) : option nat := if String.eqb p "data/heat.csv" then Some 0 else if String.eqb p "data/heat.npy" then Some 1 else None.
Definition demo_number (s : string) : option Q := if String.eqb s "1" then Some 1%Q else if String.eqb s "2.5" then Some (5 # 2)%Q else None.
Definition demo_load := load_data demo_fs (fun _ => [["1"; "u"]; ["1"; "2.5"]; ["2.5"; "1"]]) demo_number (fun _ => Ok [("__header__", 0); ("usol", 1)]) (fun _ => Ok 7).
Example C161_case : demo_load "data" (Some "heat") None = Ok (Table [[1; 5 # 2]; [5 # 2; 1]]%Q) /\ demo_load "data" None (Some "data/heat.npy") = Ok (Arr 7) /\
  demo_load "data" (Some "wave") None = Err OtherError /\ has_extension "data/heat.csv" ".csv".
Proof. split; [reflexivity|]. split; [reflexivity|]. split; [reflexivity|]. apply suffix_spec; [discriminate|reflexivity]. Qed.

(** ** C162: normalising *)
Local Open Scope Q_scope.
(** The mean of the squared distances from the mean, and [s] as its square root. *)
Definition variance (l : list Q) : Q := let m := mean l in sum (map (fun x => (x - m) * (x - m)) l) / inject_Z (Z.of_nat (List.length l)).
Definition deviation (l : list Q) (s : Q) : Prop := 0 <= s /\ s * s == variance l.
Definition same (a b : list Q) : Prop := Forall2 Qeq a b.
Definition lowest (l : list Q) (m : Q) : Prop := In m l /\ forall x, In x l -> m <= x.
Definition greatest (l : list Q) (m : Q) : Prop := In m l /\ forall x, In x l -> x <= m.

Lemma same_map (f g : Q -> Q) l : (forall x, In x l -> f x == g x) -> same (map f l) (map g l).
Proof. induction l as [|x l IH]; intros H; constructor; [apply H; left; reflexivity|]. apply IH. intros y I. apply H. right. exact I. Qed.
Lemma same_map_id (f : Q -> Q) l : (forall x, In x l -> f x == x) -> same (map f l) l.
Proof. intros H. rewrite <- (map_id l) at 2. apply same_map. exact H. Qed.
Lemma sum_ext (f g : Q -> Q) l : (forall x, f x == g x) -> sum (map f l) == sum (map g l).
Proof. intros H. induction l as [|x l IH]; cbn; [reflexivity|]. rewrite H. unfold sum in IH. rewrite IH. reflexivity. Qed.
Lemma sum_div (f : Q -> Q) b l : ~ b == 0 -> sum (map (fun x => f x / b) l) == sum (map f l) / b.
Proof. intros H. induction l as [|x l IH]; cbn; [field; exact H|]. unfold sum in IH. rewrite IH. field. exact H. Qed.
Lemma sum_sub a l : sum (map (fun x => x - a) l) == sum l - inject_Z (Z.of_nat (List.length l)) * a.
Proof.
  induction l as [|x l IH]; [cbn; ring|]. cbn [map List.length]. rewrite Nat2Z.inj_succ. unfold Z.succ. rewrite inject_Z_plus. unfold sum in *. cbn [fold_right]. rewrite IH.
  assert (E : inject_Z 1 == 1) by reflexivity. rewrite E. ring.
Qed.
Lemma len_nz (l : list Q) : l <> [] -> ~ inject_Z (Z.of_nat (List.length l)) == 0.
Proof. destruct l as [|x l]; [congruence|]. intros _ H. unfold Qeq in H. cbn [List.length inject_Z Qnum Qden] in H. lia. Qed.
Lemma mean_affine a b l : l <> [] -> ~ b == 0 -> mean (map (fun x => (x - a) / b) l) == (mean l - a) / b.
Proof.
  intros L B. unfold mean. rewrite map_length. rewrite (sum_div (fun x => x - a)) by exact B. rewrite sum_sub. pose proof (len_nz l L). field. auto.
Qed.
Lemma mean_shift a l : l <> [] -> mean (map (fun x => x - a) l) == mean l - a.
Proof. intros L. unfold mean. rewrite map_length, sum_sub. pose proof (len_nz l L). field. auto. Qed.
Lemma variance_affine a b l : l <> [] -> ~ b == 0 -> variance (map (fun x => (x - a) / b) l) == variance l / (b * b).
Proof.
  intros L B. unfold variance. rewrite map_length, map_map. pose proof (mean_affine a b l L B) as M.
  rewrite (sum_ext _ (fun x => (x - mean l) * (x - mean l) / (b * b))).
  - rewrite (sum_div (fun x => (x - mean l) * (x - mean l))); [|intros H; apply Qmult_integral in H; tauto]. pose proof (len_nz l L). field. auto.
  - intros x. rewrite M. field. exact B.
Qed.
Lemma deviation_unique l s t : deviation l s -> deviation l t -> s == t.
Proof.
  intros [A B] [C D]. assert (E : (s - t) * (s + t) == 0) by (assert (F : (s - t) * (s + t) == s * s - t * t) by ring; rewrite F, B, D; ring).
  apply Qmult_integral in E. destruct E as [E|E]; lra.
Qed.
Lemma qmin_spec l : l <> [] -> lowest l (qmin_l l).
Proof.
  destruct l as [|x l]; [congruence|]. intros _. cbn [qmin_l]. revert x. induction l as [|y l IH]; intros x; cbn [fold_left].
  - split; [left; reflexivity|]. intros z [<-|[]]. apply Qle_refl.
  - destruct (IH (Qmin x y)) as [I H]. split.
    + destruct I as [I|I]; [|right; right; exact I]. rewrite <- I. unfold Qmin, GenericMinMax.gmin. destruct (x ?= y); cbn; auto.
    + pose proof (H _ (or_introl eq_refl)). intros z [<-|[<-|I']]; [|  |apply H; right; exact I'].
      * eapply Qle_trans; [exact H0|]. apply Q.le_min_l.
      * eapply Qle_trans; [exact H0|]. apply Q.le_min_r.
Qed.
Lemma qmax_spec l : l <> [] -> greatest l (qmax_l l).
Proof.
  destruct l as [|x l]; [congruence|]. intros _. cbn [qmax_l]. revert x. induction l as [|y l IH]; intros x; cbn [fold_left].
  - split; [left; reflexivity|]. intros z [<-|[]]. apply Qle_refl.
  - destruct (IH (Qmax x y)) as [I H]. split.
    + destruct I as [I|I]; [|right; right; exact I]. rewrite <- I. unfold Qmax, GenericMinMax.gmax. destruct (x ?= y); cbn; auto.
    + pose proof (H _ (or_introl eq_refl)). intros z [<-|[<-|I']]; [|  |apply H; right; exact I'].
      * eapply Qle_trans; [|exact H0]. apply Q.le_max_l.
      * eapply Qle_trans; [|exact H0]. apply Q.le_max_r.
Qed.
(** to_unit is (x - low) / (high - low) *)
Lemma to_unit_spec c lo hi : c <> [] -> lowest c lo -> greatest c hi -> lo < hi -> exists b a, to_unit c = map (fun x => (x - a) / b) c /\ a == lo /\ b == hi - lo /\ ~ b == 0.
Proof.
  intros N [L1 L2] [H1 H2] LT. unfold to_unit. rewrite map_map. eexists _, _. split; [reflexivity|].
  destruct (qmin_spec c N) as [A1 A2]. assert (A : qmin_l c == lo) by (apply Qle_antisym; [apply A2, L1|apply L2, A1]).
  split; [exact A|]. destruct (qmax_spec (map (fun x => x - qmin_l c) c)) as [B1 B2]; [destruct c; [congruence|discriminate]|].
  assert (B : qmax_l (map (fun x => x - qmin_l c) c) == hi - lo).
  { apply in_map_iff in B1 as (y & E & I). apply Qle_antisym.
    - rewrite <- E, A. specialize (H2 y I). lra.
    - assert (B3 : hi - qmin_l c <= qmax_l (map (fun x => x - qmin_l c) c)) by (apply B2, in_map_iff; exists hi; auto). lra. }
  split; [exact B|]. rewrite B. lra.
Qed.

Section Normal.
Context (sd : list Q -> Q).
(** For every type but 'min_max' the recorded parameters undo the normalisation; for any type but 'None' a column with
    values that differ gets mean 0 and variance 1, 'None' leaves it as it is. *)
Theorem C162_restored ty c : ty <> "min_max" -> (ty <> "None" -> ~ sd c == 0) ->
  let r := normalize sd ty c in same (unnormalize (fst r) (snd r)) c /\ same (scale_true c (snd r)) (fst r) /\ (ty = "None" -> fst r = c).
Proof.
  intros T D. unfold normalize. apply String.eqb_neq in T. rewrite T. destruct (String.eqb_spec ty "None") as [->|N]; cbn [fst snd]; unfold unnormalize, scale_true; cbn [fst snd].
  - split; [apply same_map_id; intros; ring|]. split; [apply same_map_id; intros; field|auto].
  - split; [rewrite map_map; apply same_map_id; intros x _; field; auto|]. split; [apply same_map; intros; reflexivity|congruence].
Qed.
Theorem C162_standard ty c : ty <> "None" -> ty <> "min_max" -> c <> [] -> deviation c (sd c) -> ~ sd c == 0 ->
  mean (fst (normalize sd ty c)) == 0 /\ variance (fst (normalize sd ty c)) == 1.
Proof.
  intros T1 T2 N [_ V] Z0. unfold normalize. apply String.eqb_neq in T1, T2. rewrite T1, T2. cbn [fst]. split.
  - rewrite mean_affine by assumption. field. exact Z0.
  - rewrite variance_affine by assumption. rewrite <- V. field. exact Z0.
Qed.
(** 'min_max' first maps the column to [0, 1] and then normalises as for every other type: the values are the same as
    without it, but the parameters recorded are those of the column in [0, 1], so that undoing them gives
    (x - low) / (high - low) and not x, and the noise-free field scaled by them is not the normalised field. *)
Theorem C162_min_max ty c lo hi : ty <> "None" -> ty <> "min_max" -> c <> [] -> lowest c lo -> greatest c hi -> lo < hi ->
  deviation c (sd c) -> ~ sd c == 0 -> deviation (to_unit c) (sd (to_unit c)) ->
  let r := normalize sd "min_max" c in
  same (fst r) (fst (normalize sd ty c)) /\
  same (unnormalize (fst r) (snd r)) (map (fun x => (x - lo) / (hi - lo)) c) /\
  fst (snd r) == (mean c - lo) / (hi - lo) /\ snd (snd r) == sd c / (hi - lo).
Proof.
  intros T1 T2 N L H LT D Z0 DU. destruct (to_unit_spec c lo hi N L H LT) as (b & a & E & Ea & Eb & Nb).
  assert (M : mean (to_unit c) == (mean c - a) / b) by (rewrite E; apply mean_affine; assumption).
  assert (S0 : sd (to_unit c) == sd c / b).
  { apply (deviation_unique (to_unit c)); [exact DU|]. destruct D as [D1 D2]. split.
    - apply Qle_shift_div_l; [lra|]. lra.
    - rewrite E. rewrite variance_affine by assumption. rewrite <- D2. field. exact Nb. }
  unfold normalize. cbn [String.eqb Ascii.eqb Bool.eqb]. apply String.eqb_neq in T1, T2. rewrite T1, T2. cbn [fst snd].
  assert (NU : ~ sd (to_unit c) == 0).
  { rewrite S0. intros X. apply Z0. assert (Y : sd c == sd c / b * b) by (field; exact Nb). rewrite Y, X. ring. }
  split; [|split; [|split]].
  - rewrite E at 1. rewrite map_map. apply same_map. intros x _. rewrite M, S0. field. auto.
  - unfold unnormalize. cbn [fst snd]. rewrite map_map. rewrite E at 1. rewrite map_map. apply same_map. intros x _. assert (X : (x - lo) / (hi - lo) == (x - a) / b) by (rewrite Ea, Eb; reflexivity). rewrite X. field. auto.
  - rewrite M, Ea, Eb. reflexivity.
  - rewrite S0, Eb. reflexivity.
Qed.
End Normal.
Definition demo_sd (l : list Q) : Q := match l with [x; y] => (y - x) / 2 | _ => 1 end.
Example C162_case : deviation [1; 5] (demo_sd [1; 5]) /\ deviation (to_unit [1; 5]) (demo_sd (to_unit [1; 5])) /\ lowest [1; 5] 1 /\ greatest [1; 5] 5 /\
  same (fst (normalize demo_sd "standard" [1; 5])) [-1; 1] /\
  same (unnormalize (fst (normalize demo_sd "min_max" [1; 5])) (snd (normalize demo_sd "min_max" [1; 5]))) [0; 1].
Proof.
  split; [split; [discriminate|reflexivity]|]. split; [split; [discriminate|reflexivity]|]. split; [split; [cbn; auto|intros x [<-|[<-|[]]]; discriminate]|].
  split; [split; [cbn; auto|intros x [<-|[<-|[]]]; discriminate]|]. split; repeat constructor; reflexivity.
Qed.
Local Close Scope Q_scope.

(** ** C163: splitting into training and validation data *)
(** the samples of the data at the given places, as pairs *)
Definition at_places {A B} (X : list A) (Y : list B) (ids : list nat) (xs : list A) (ys : list B) : Prop :=
  Forall2 (fun i x => nth_error X i = Some x) ids xs /\ Forall2 (fun i y => nth_error Y i = Some y) ids ys.
Lemma take_rows_ok {A} (X : list A) ids xs : take_rows X ids = Ok xs <-> Forall2 (fun i x => nth_error X i = Some x) ids xs.
Proof.
  unfold take_rows. revert xs. induction ids as [|i ids IH]; intros xs; cbn.
  - split; [intros [= <-]; constructor|intros H; inversion H; reflexivity].
  - destruct (nth_error X i) as [x|] eqn:E; cbn.
    + destruct (mapM _ ids) as [l|]; cbn.
      * split; [intros [= <-]; constructor; [exact E|apply IH; reflexivity]|]. intros H. inversion H; subst. apply IH in H4. congruence.
      * split; [discriminate|]. intros H. inversion H; subst. apply IH in H4. discriminate.
    + split; [discriminate|]. intros H. inversion H; subst. congruence.
Qed.
Lemma take_rows_total {A} (X : list A) ids : Forall (fun i => i < List.length X) ids -> exists xs, take_rows X ids = Ok xs.
Proof.
  unfold take_rows. induction 1 as [|i ids H F (xs & IH)]; [exists []; reflexivity|]. cbn. destruct (nth_error X i) as [x|] eqn:E; [|apply nth_error_None in E; lia].
  cbn. rewrite IH. eexists. reflexivity.
Qed.
Lemma trunc_floor q : (0 <= q)%Q -> trunc q = Qfloor q /\ (0 <= Qfloor q)%Z.
Proof.
  intros H. unfold trunc, Qfloor. destruct q as [a b]. cbn in *. unfold Qle in H. cbn in H. split; [|apply Z.div_pos; lia]. apply Z.quot_div_nonneg; lia.
Qed.
Lemma slice_to {A} (l : list A) k : (0 <= k)%Z -> py_slice l 0 k = firstn (Z.to_nat k) l.
Proof.
  intros H. unfold py_slice, bound. replace (k <? 0)%Z with false by lia. cbn [Z.ltb Z.compare Z.to_nat]. rewrite Nat.min_0_r, Nat.sub_0_r. cbn [skipn].
  destruct (Nat.le_ge_cases (List.length l) (Z.to_nat k)) as [L|L]; [|rewrite Nat.min_r by exact L; reflexivity].
  rewrite Nat.min_l by exact L. rewrite !firstn_all2 by lia. reflexivity.
Qed.
Lemma slice_mid {A} (l : list A) k v : (0 <= k)%Z -> (0 <= v)%Z -> py_slice l k (v + k) = firstn (Z.to_nat v) (skipn (Z.to_nat k) l).
Proof.
  intros H V. unfold py_slice, bound. replace (k <? 0)%Z with false by lia. replace (v + k <? 0)%Z with false by lia. rewrite Z2Nat.inj_add by assumption.
  destruct (Nat.le_ge_cases (List.length l) (Z.to_nat k)) as [L|L].
  - rewrite !Nat.min_l by lia. rewrite !skipn_all2 by lia. rewrite !firstn_nil. reflexivity.
  - rewrite (Nat.min_r _ (Z.to_nat k)) by exact L. destruct (Nat.le_ge_cases (List.length l) (Z.to_nat v + Z.to_nat k)) as [M|M].
    + rewrite Nat.min_l by exact M. rewrite !firstn_all2; [reflexivity| |]; rewrite skipn_length; lia.
    + rewrite Nat.min_r by exact M. f_equal. lia.
Qed.
(** [n] times a ratio, rounded down *)
Definition portion (n : nat) (r : Q) : nat := Z.to_nat (Qfloor (inject_Z (Z.of_nat n) * r)%Q).
Section Split.
Context {A B : Type} (X : list A) (Y : list B) (ids : list nat).
Context (LEN : List.length X = List.length Y) (SHUFFLED : Permutation ids (seq 0 (List.length Y))).
Lemma split_eq r v : (0 <= r)%Q -> (0 <= v)%Q -> let n := List.length Y in
  let tr := firstn (portion n r) ids in let va := if Qlt_le_dec (9 # 10) r then tr else firstn (portion n v) (skipn (portion n r) ids) in
  exists xt yt xv yv, split_data X Y ids r v = Ok (xt, xv, (yt, yv)) /\ at_places X Y tr xt yt /\ at_places X Y va xv yv.
Proof.
  intros R V n tr va. assert (N : (0 <= inject_Z (Z.of_nat n))%Q) by (unfold Qle; cbn; lia).
  assert (Nr : (0 <= inject_Z (Z.of_nat n) * r)%Q) by (apply Qmult_le_0_compat; assumption). assert (Nv : (0 <= inject_Z (Z.of_nat n) * v)%Q) by (apply Qmult_le_0_compat; assumption).
  destruct (trunc_floor _ Nr) as [Er Pr]. destruct (trunc_floor _ Nv) as [Ev Pv]. unfold split_data. fold n. rewrite Er, Ev, slice_to, slice_mid by assumption.
  change (firstn (Z.to_nat (Qfloor (inject_Z (Z.of_nat n) * r))) ids) with tr. change (firstn (Z.to_nat (Qfloor (inject_Z (Z.of_nat n) * v))) (skipn (Z.to_nat (Qfloor (inject_Z (Z.of_nat n) * r))) ids)) with (firstn (portion n v) (skipn (portion n r) ids)).
  fold va. assert (IN : forall i, In i ids -> i < n).
  { intros i I. apply (Permutation_in _ SHUFFLED) in I. apply in_seq in I. fold n in I. lia. }
  assert (Ft : Forall (fun i => i < n) tr) by (apply Forall_forall; intros i I; apply IN; rewrite <- (firstn_skipn (portion n r) ids); apply in_or_app; left; exact I).
  assert (Fv : Forall (fun i => i < n) va).
  { unfold va. destruct (Qlt_le_dec (9 # 10) r); [exact Ft|]. apply Forall_forall. intros i I. apply IN. rewrite <- (firstn_skipn (portion n r) ids). apply in_or_app. right.
    rewrite <- (firstn_skipn (portion n v) (skipn _ ids)). apply in_or_app. left. exact I. }
  assert (FtX : Forall (fun i => i < List.length X) tr) by (rewrite LEN; exact Ft). assert (FvX : Forall (fun i => i < List.length X) va) by (rewrite LEN; exact Fv).
  destruct (take_rows_total X tr FtX) as (xt & E1). destruct (take_rows_total Y tr Ft) as (yt & E2). destruct (take_rows_total X va FvX) as (xv & E3). destruct (take_rows_total Y va Fv) as (yv & E4).
  exists xt, yt, xv, yv. rewrite E1, E2, E3, E4. cbn [bind]. split; [reflexivity|]. split; split; apply take_rows_ok; assumption.
Qed.
(** For a training ratio of at most 0.9, whatever the shuffle, no sample is used twice: the training part takes the ratio
    of the data (rounded down), the validation part its own ratio of the data or what is left of it, and every x goes with
    the y of the same sample. *)
Theorem C163_split r v : (0 <= r)%Q -> (r <= 9 # 10)%Q -> (0 <= v)%Q -> let n := List.length Y in
  exists tr va rest xt yt xv yv, split_data X Y ids r v = Ok (xt, xv, (yt, yv)) /\ at_places X Y tr xt yt /\ at_places X Y va xv yv /\
    Permutation (tr ++ va ++ rest) (seq 0 n) /\ List.length tr = portion n r /\ List.length va = Nat.min (portion n v) (n - portion n r).
Proof.
  intros R R9 V n. destruct (split_eq r v R V) as (xt & yt & xv & yv & E & T & W). fold n in T, W. destruct (Qlt_le_dec (9 # 10) r) as [H|_]; [exfalso; apply (Qlt_not_le _ _ H R9)|].
  exists (firstn (portion n r) ids), (firstn (portion n v) (skipn (portion n r) ids)), (skipn (portion n v) (skipn (portion n r) ids)), xt, yt, xv, yv.
  split; [exact E|]. split; [exact T|]. split; [exact W|]. split; [rewrite firstn_skipn, firstn_skipn; exact SHUFFLED|].
  assert (L : List.length ids = n) by (rewrite (Permutation_length SHUFFLED), seq_length; reflexivity).
  rewrite !firstn_length, skipn_length, L. split; [|reflexivity]. apply Nat.min_l. unfold portion. apply Nat2Z.inj_le. rewrite Z2Nat.id.
  - apply Z.le_trans with (Qfloor (inject_Z (Z.of_nat n))); [|rewrite Qfloor_Z; lia]. apply Qfloor_resp_le. rewrite <- (Qmult_1_r (inject_Z (Z.of_nat n))) at 2.
    rewrite !(Qmult_comm (inject_Z (Z.of_nat n))). apply Qmult_le_compat_r; [|unfold Qle; cbn; lia]. eapply Qle_trans; [exact R9|discriminate].
  - apply trunc_floor. apply Qmult_le_0_compat; [unfold Qle; cbn; lia|exact R].
Qed.
(** Above 0.9 the validation data are the training data; from a ratio of 1 both are the whole data set. *)
Theorem C163_no_validation r v : (9 # 10 < r)%Q -> (0 <= v)%Q -> let n := List.length Y in
  exists tr xt yt, split_data X Y ids r v = Ok (xt, xt, (yt, yt)) /\ at_places X Y tr xt yt /\ NoDup tr /\ List.length tr = Nat.min (portion n r) n /\
    ((1 <= r)%Q -> Permutation tr (seq 0 n)).
Proof.
  intros R V n. assert (R0 : (0 <= r)%Q) by (eapply Qle_trans; [|apply Qlt_le_weak, R]; discriminate). destruct (split_eq r v R0 V) as (xt & yt & xv & yv & E & T & W). fold n in T, W.
  destruct (Qlt_le_dec (9 # 10) r) as [_|H]; [|exfalso; apply (Qlt_not_le _ _ R H)].
  assert (xv = xt /\ yv = yt) as [-> ->].
  { destruct T as [T1 T2], W as [W1 W2]. apply take_rows_ok in T1, T2, W1, W2. split; congruence. }
  assert (L : List.length ids = n) by (rewrite (Permutation_length SHUFFLED), seq_length; reflexivity).
  assert (ND : NoDup ids) by (apply (Permutation_NoDup (Permutation_sym SHUFFLED)), seq_NoDup).
  exists (firstn (portion n r) ids), xt, yt. split; [exact E|]. split; [exact T|]. split.
  { rewrite <- (firstn_skipn (portion n r) ids) in ND. clear - ND. induction (firstn (portion n r) ids) as [|a l IH]; [constructor|]. inversion ND; subst. constructor; [|apply IH; assumption].
    intros I. apply H1. apply in_or_app. left. exact I. }
  split; [rewrite firstn_length, L; reflexivity|]. intros R1. rewrite firstn_all2; [exact SHUFFLED|]. rewrite L. unfold portion.
  apply Nat2Z.inj_le. assert (P : (Z.of_nat n <= Qfloor (inject_Z (Z.of_nat n) * r))%Z).
  { rewrite <- (Qfloor_Z (Z.of_nat n)) at 1. apply Qfloor_resp_le. rewrite <- (Qmult_1_r (inject_Z (Z.of_nat n))) at 1. rewrite !(Qmult_comm (inject_Z (Z.of_nat n))). apply Qmult_le_compat_r; [exact R1|unfold Qle; cbn; lia]. }
  lia.
Qed.
End Split.
Example C163_case : split_data [10; 11; 12; 13; 14] [20; 21; 22; 23; 24] [3; 0; 4; 2; 1] (1 # 2) (1 # 5) = Ok ([13; 10], [14], ([23; 20], [24])) /\
  Permutation [3; 0; 4; 2; 1] (seq 0 (List.length [20; 21; 22; 23; 24])).
Proof.
  split; [reflexivity|]. apply NoDup_Permutation; [repeat constructor; cbn; intuition lia|apply seq_NoDup|]. intros x. rewrite in_seq. cbn. lia.
Qed.
Print Assumptions C161_csv.
Print Assumptions C161_mat.
Print Assumptions C161_numpy.
Print Assumptions C161_other_files.
Print Assumptions C161_by_name.
Print Assumptions C161_arguments.
Print Assumptions C162_restored.
Print Assumptions C162_standard.
Print Assumptions C162_min_max.
Print Assumptions C163_split.
Print Assumptions C163_no_validation.
