(** C141 (RegularData), C142 (Attrdict), C143 (setup_logger). *)
From Coq Require Import QArith.
From Verif Require Import Base FiniteDiff PropsFD Legacy.
Local Open Scope nat_scope.

(** * C141 *)
(** ** Specification *)
(** [f] is a grid file: at least two times, at least three entries in every row (Kdv: and two places) *)
Definition usable (c : content) : Prop := 2 <= List.length (f_t c) /\ 2 <= List.length (f_x c) /\ Forall (fun row => 3 <= List.length row) (f_u c).
(** the three datasets: where the file is, and the true equation in prefix order: u + u^3 + u_xx for
    Chafee-Infante, u u_x + u_xx for Burgers, u u_x + u_xxx for KdV, up to coefficients *)
Definition catalogue : list (string * string * list string) :=
  [("chafee-infante", "./kd/data_file/chafee_infante", ["add"; "add"; "u1"; "n3"; "u1"; "diff2"; "u1"; "x1"]);
   ("Burgers", "./kd/data_file/burgers.mat", ["add"; "mul"; "u1"; "diff"; "u1"; "x1"; "diff2"; "u1"; "x1"]);
   ("Kdv", "./discover/task/pde/data_new/Kdv.mat", ["add"; "mul"; "u1"; "diff"; "u1"; "x1"; "diff3"; "u1"; "x1"])]%string.
(** row i is the polynomial [p] of time on the uniform grid t0, t0 + dt, ... *)
Definition poly_row (t0 dt : Q) (n : nat) (row : list Q) (p : list Q) : Prop := List.length p <= 3 /\ row = sampled p t0 dt n.

(** The constructor takes exactly the three known names, and anything that is not a string. *)
Theorem C141_names s : (In s ["chafee-infante"; "Burgers"; "Kdv"]%string -> exists r, new_regular (Some s) = Ok r /\ get_data r = None) /\
  (~ In s ["chafee-infante"; "Burgers"; "Kdv"]%string -> new_regular (Some s) = Err AssertionError) /\
  (exists r, new_regular None = Ok r /\ forall fs, load_data fs r = (r, Err NotImplementedError)).
Proof.
  assert (E : existsb (String.eqb s) data_list = true <-> In s data_list).
  { rewrite existsb_exists. split; [intros (x & I & Q); apply String.eqb_eq in Q; subst; exact I|intros I; exists s; split; [exact I|apply String.eqb_refl]]. }
  split; [|split].
  - intros I. apply E in I. unfold new_regular. rewrite I. eexists. split; reflexivity.
  - intros I. unfold new_regular. destruct (existsb (String.eqb s) data_list) eqn:B; [|reflexivity]. exfalso. apply I, E. reflexivity.
  - eexists. split; reflexivity.
Qed.
Lemma mapM_fd rows dt : Forall (fun row => 3 <= List.length row) rows -> exists ut, mapM (fun row => finite_diff row dt 1) rows = Ok ut /\
  Forall2 (fun r row => finite_diff row dt 1 = Ok r) ut rows.
Proof.
  induction 1 as [|row rows L F (ut & E & IH)]; [exists []; split; [reflexivity|constructor]|].
  assert (X : exists r, finite_diff row dt 1 = Ok r) by (unfold finite_diff; destruct (Nat.ltb_spec (List.length row) 3); [lia|eexists; reflexivity]).
  destruct X as (r & Er). exists (r :: ut). cbn [mapM]. rewrite Er. cbn [bind]. rewrite E. cbn [bind]. split; [reflexivity|]. constructor; auto.
Qed.
Lemma names_known s : In s ["chafee-infante"; "Burgers"; "Kdv"]%string -> exists path sym, where_ s = Some (path, sym).
Proof. cbn. intros [<-|[<-|[<-|[]]]]; eexists _, _; reflexivity. Qed.
Lemma catalogue_where s path eqn : In (s, path, eqn) catalogue -> where_ s = Some (path, String.concat "," eqn).
Proof. intros Hc. cbn in Hc. destruct Hc as [[= <- <- <-]|[[= <- <- <-]|[[= <- <- <-]|[]]]]; reflexivity. Qed.
Lemma load_usable fs r s path sym c : r_source r = Some s -> where_ s = Some (path, sym) -> fs path = Some c -> usable c ->
  exists ut, load_data fs r = (mkRegular (Some s) (r_X r ++ [f_x c]) (Some sym) (Some (f_u c, ut)), Ok tt) /\
  Forall2 (fun d row => finite_diff row (nth 1 (f_t c) 0 - nth 0 (f_t c) 0)%Q 1 = Ok d) ut (f_u c).
Proof.
  intros Hs Hw Hf (T & X & R). destruct (mapM_fd (f_u c) (nth 1 (f_t c) 0 - nth 0 (f_t c) 0)%Q R) as (ut & E & F). exists ut. split; [|exact F].
  unfold load_data. rewrite Hs, Hw, Hf. destruct (Nat.ltb_spec (List.length (f_t c)) 2); [lia|]. destruct (Nat.ltb_spec (List.length (f_x c)) 2); [lia|].
  cbn [orb]. rewrite andb_false_r. rewrite E. reflexivity.
Qed.
(** Loading a known name whose file is there gives its field, one space axis and the true equation of that
    name; on a uniform time grid the time derivative is exact for rows that are quadratic in time. *)
Theorem C141_load fs s r path eqn c : new_regular (Some s) = Ok r -> In (s, path, eqn) catalogue -> fs path = Some c -> usable c ->
  exists r' d, load_data fs r = (r', Ok tt) /\ get_data r' = Some d /\ d_u d = f_u c /\ d_X d = [f_x c] /\ d_dim d = 1 /\ d_true d = Some (String.concat "," eqn) /\
    List.length (d_ut d) = List.length (f_u c) /\
    forall t0 dt n ps, 3 <= n -> ~ (dt == 0)%Q -> f_t c = map (fun j => node t0 dt j) (seq 0 n) -> Forall2 (poly_row t0 dt n) (f_u c) ps ->
      Forall2 (fun row p => agrees row (pderiv p) t0 dt 0 n) (d_ut d) ps.
Proof.
  intros N Hc Hf U.
  assert (Hw : where_ s = Some (path, String.concat "," eqn)).
  { cbn in Hc. destruct Hc as [[= <- <- <-]|[[= <- <- <-]|[[= <- <- <-]|[]]]]; reflexivity. }
  set (sym := String.concat "," eqn) in *. clearbody sym. assert (Hs : r_source r = Some s /\ r_X r = []).
  { unfold new_regular in N. destruct (existsb _ _); [|discriminate]. injection N as <-. split; reflexivity. }
  destruct Hs as [Hs HX]. destruct (load_usable fs r s path sym c Hs Hw Hf U) as (ut & E & F). rewrite E, HX.
  eexists _, _. split; [reflexivity|]. split; [reflexivity|]. cbn [d_u d_X d_dim d_true d_ut r_X r_true app].
  split; [reflexivity|]. split; [reflexivity|]. split; [reflexivity|]. split; [reflexivity|].
  split; [clear -F; induction F; cbn; congruence|].
  intros t0 dt n ps Hn D HT P.
  assert (DT : (nth 1 (f_t c) 0 - nth 0 (f_t c) 0 == dt)%Q).
  { rewrite HT. rewrite !nth_mapseq by lia. unfold node. cbn. ring. }
  set (q := (nth 1 (f_t c) 0 - nth 0 (f_t c) 0)%Q) in *. clearbody q.
  clear E HX Hf U Hw N. revert ps P. induction F as [|d row ut rows Hd F IH]; intros ps P; inversion P; subst; constructor.
  - destruct H1 as [L ->]. destruct (C25_order1 y t0 dt n L Hn D) as (r1 & E1 & _ & A).
    cbn in E1, Hd. rewrite sampled_length in E1, Hd. destruct (Nat.ltb n 3); [discriminate|]. injection E1 as E1. injection Hd as Hd.
    intros i Hi. rewrite <- (A i Hi), <- E1, <- Hd. rewrite !nth_ends by lia.
    destruct (Nat.eqb i 0); [unfold d1_left; rewrite DT; reflexivity|]. destruct (Nat.eqb i (n - 1)); [unfold d1_right; rewrite DT; reflexivity|].
    unfold d1_mid. rewrite DT. reflexivity.
  - apply IH. assumption.
Qed.
(** KdV is an accepted name, but its file is not among those shipped: loading it fails. *)
Theorem C141_kdv_refuted fs r : (forall p, fs p <> None -> In p shipped) -> new_regular (Some "Kdv"%string) = Ok r -> load_data fs r = (r, Err OtherError).
Proof.
  intros S0 N. cbn in N. injection N as <-. unfold load_data. cbn [r_source].
  change (where_ "Kdv") with (Some ("./discover/task/pde/data_new/Kdv.mat", "add,mul,u1,diff,u1,x1,diff3,u1,x1")%string). cbv iota beta.
  destruct (fs "./discover/task/pde/data_new/Kdv.mat"%string) eqn:E; [|reflexivity]. exfalso.
  assert (I : In "./discover/task/pde/data_new/Kdv.mat"%string shipped) by (apply S0; rewrite E; discriminate). cbn in I. intuition discriminate.
Qed.
(** Loading twice leaves the space axis twice, also in the data handed out before; the stated number of
    dimensions stays 1. *)
Theorem C141_again_refuted fs s r path eqn c : r_source r = Some s -> In (s, path, eqn) catalogue -> fs path = Some c -> usable c ->
  exists r1 r2 d2, load_data fs r = (r1, Ok tt) /\ load_data fs r1 = (r2, Ok tt) /\ get_data r2 = Some d2 /\
    d_X d2 = r_X r ++ [f_x c; f_x c] /\ d_dim d2 = 1.
Proof.
  intros Hs Hc Hf U. pose proof (catalogue_where _ _ _ Hc) as Hw. set (sym := String.concat "," eqn) in *. destruct (load_usable fs r s path sym c Hs Hw Hf U) as (ut & E & _).
  set (r1 := mkRegular (Some s) (r_X r ++ [f_x c]) (Some sym) (Some (f_u c, ut))) in *.
  destruct (load_usable fs r1 s path sym c eq_refl Hw Hf U) as (ut2 & E2 & _).
  eexists r1, _, _. split; [exact E|]. split; [exact E2|]. split; [reflexivity|]. cbn. rewrite <- app_assoc. auto.
Qed.
(** Rows shorter than three: IndexError; nothing is loaded, yet the space axis has been added. *)
Theorem C141_short_refuted fs r s path eqn c row : r_source r = Some s -> In (s, path, eqn) catalogue -> fs path = Some c ->
  2 <= List.length (f_t c) -> 2 <= List.length (f_x c) -> In row (f_u c) -> List.length row < 3 ->
  exists r', load_data fs r = (r', Err IndexError) /\ r_loaded r' = r_loaded r /\ r_X r' = r_X r ++ [f_x c].
Proof.
  intros Hs Hc Hf T X I L. pose proof (catalogue_where _ _ _ Hc) as Hw. set (sym := String.concat "," eqn) in *. unfold load_data. rewrite Hs, Hw, Hf. destruct (Nat.ltb_spec (List.length (f_t c)) 2); [lia|]. destruct (Nat.ltb_spec (List.length (f_x c)) 2); [lia|].
  cbn [orb]. rewrite andb_false_r.
  assert (E : forall dt, mapM (fun row => finite_diff row dt 1) (f_u c) = Err IndexError).
  { intros dt. induction (f_u c) as [|a rows IH]; [destruct I|]. cbn [mapM]. destruct I as [->|I].
    - unfold finite_diff at 1. destruct (Nat.ltb_spec (List.length row) 3); [reflexivity|lia].
    - unfold finite_diff at 1. destruct (Nat.ltb (List.length a) 3); [reflexivity|]. cbn [bind]. rewrite IH by exact I. reflexivity. }
  rewrite E. eexists. split; [reflexivity|]. split; reflexivity.
Qed.
(** The step is taken from the first two times only: on an uneven time grid u = t does not get slope 1. *)
Theorem C141_uneven_refuted : exists fs r r' d, new_regular (Some "Burgers"%string) = Ok r /\ load_data fs r = (r', Ok tt) /\ get_data r' = Some d /\
  d_u d = [[0; 1; 3]]%Q /\ fs "./kd/data_file/burgers.mat"%string = Some (mkContent [[0; 1; 3]] [0; 1] [0; 1; 3])%Q /\ map (map Qred) (d_ut d) = [[1#2; 3#2; 5#2]]%Q.
Proof.
  exists (fun _ => Some (mkContent [[0; 1; 3]] [0; 1] [0; 1; 3])%Q). eexists _, _, _. split; [reflexivity|]. split; [reflexivity|]. split; [reflexivity|].
  split; [reflexivity|]. split; reflexivity.
Qed.
Example C141_example : exists fs r r' d, new_regular (Some "Burgers"%string) = Ok r /\ load_data fs r = (r', Ok tt) /\ get_data r' = Some d /\
  d_u d = [[0; 1; 4]]%Q /\ map (map Qred) (d_ut d) = [[0; 2; 4]]%Q.
Proof. exists (fun _ => Some (mkContent [[0; 1; 4]] [0; 1] [0; 1; 2])%Q). eexists _, _, _. split; [reflexivity|]. split; [reflexivity|]. split; [reflexivity|]. split; reflexivity. Qed.

(** * C142 *)
(** ** Specification *)
(** the operations on keys, by attribute or by item *)
Inductive op {V} := OSet (k : string) (v : V) | ODel (k : string).
Arguments op : clear implicits.
(** an operation that raises leaves the dict as it is *)
Definition by_attr {V} (d : dict V) (o : op V) : dict V := match o with OSet k v => setattr d k v | ODel k => match delattr d k with Ok d' => d' | Err _ => d end end.
Definition by_item {V} (d : dict V) (o : op V) : dict V := match o with OSet k v => d_set d k v | ODel k => match delitem d k with Ok d' => d' | Err _ => d end end.
Lemma d_get_set {V} (d : dict V) k v j : d_get (d_set d k v) j = if String.eqb j k then Some v else d_get d j.
Proof.
  induction d as [|[k' w] d IH]; cbn.
  - reflexivity.
  - destruct (String.eqb_spec k k') as [->|N]; cbn.
    + destruct (String.eqb_spec j k'); reflexivity.
    + rewrite IH. destruct (String.eqb_spec j k'), (String.eqb_spec j k); subst; try reflexivity. congruence.
Qed.
Lemma d_keys_set {V} (d : dict V) k v : map fst (d_set d k v) = if existsb (String.eqb k) (map fst d) then map fst d else map fst d ++ [k].
Proof.
  induction d as [|[k' w] d IH]; cbn; [reflexivity|]. destruct (String.eqb k k'); cbn; [reflexivity|]. rewrite IH. destruct (existsb _ _); reflexivity.
Qed.
Lemma d_get_none {V} (d : dict V) k : ~ In k (map fst d) -> d_get d k = None.
Proof. induction d as [|[k' w] d IH]; cbn; [reflexivity|]. intros N. destruct (String.eqb_spec k k'); [subst; tauto|]. apply IH. tauto. Qed.
Lemma d_get_del {V} (d : dict V) k j : NoDup (map fst d) -> d_get (d_del d k) j = if String.eqb j k then None else d_get d j.
Proof.
  induction d as [|[k' w] d IH]; cbn; intros ND.
  - destruct (String.eqb j k); reflexivity.
  - inversion ND; subst. destruct (String.eqb_spec k k') as [->|N].
    + destruct (String.eqb_spec j k') as [Ej|Ej]; [rewrite Ej; apply d_get_none; assumption|reflexivity].
    + cbn. rewrite IH by assumption. destruct (String.eqb_spec j k'), (String.eqb_spec j k); subst; try reflexivity. congruence.
Qed.
(** Working by attributes is working by keys: any history of assignments and deletions gives the same dict. *)
Theorem C142_same_as_items {V} (d : dict V) ops : fold_left by_attr ops d = fold_left by_item ops d.
Proof.
  revert d. induction ops as [|o ops IH]; intros d; [reflexivity|]. cbn [fold_left].
  replace (by_attr d o) with (by_item d o); [apply IH|]. destruct o as [k v|k]; [reflexivity|]. cbn. unfold delattr, delitem. destruct (d_get d k); reflexivity.
Qed.
(** d.k = v stores key k and nothing else; reading d.k gives v back when k is not one of dict's own names. *)
Theorem C142_set {V} (d : dict V) k v : getitem (setattr d k v) k = Ok v /\
  (forall j, j <> k -> getitem (setattr d k v) j = getitem d j) /\
  (~ In k class_names -> getattr (setattr d k v) k = Ok (Value v)).
Proof.
  unfold getitem, getattr, setattr. split; [|split].
  - rewrite d_get_set, String.eqb_refl. reflexivity.
  - intros j N. rewrite d_get_set. destruct (String.eqb_spec j k); [contradiction|reflexivity].
  - intros N. destruct (existsb (String.eqb k) class_names) eqn:E.
    + exfalso. apply existsb_exists in E. destruct E as (x & I & Q). apply String.eqb_eq in Q. subst. auto.
    + unfold getitem. rewrite d_get_set, String.eqb_refl. reflexivity.
Qed.
(** Keys stay in the order of their first assignment, without repetitions. *)
Theorem C142_order {V} (d : dict V) k v : NoDup (map fst d) -> NoDup (map fst (setattr d k v)) /\
  (In k (map fst d) -> map fst (setattr d k v) = map fst d) /\ (~ In k (map fst d) -> map fst (setattr d k v) = map fst d ++ [k]).
Proof.
  intros ND. unfold setattr. rewrite d_keys_set. destruct (existsb (String.eqb k) (map fst d)) eqn:E.
  - apply existsb_exists in E. destruct E as (x & I & Q). apply String.eqb_eq in Q. subst x. repeat split; auto. contradiction.
  - assert (N : ~ In k (map fst d)).
    { intros I. assert (X : existsb (String.eqb k) (map fst d) = true) by (apply existsb_exists; exists k; split; [exact I|apply String.eqb_refl]). congruence. }
    repeat split; auto; [|contradiction]. clear E. induction (map fst d) as [|a l IH]; cbn; [constructor; [intros []|constructor]|].
    inversion ND; subst. constructor; [|apply IH; auto; intros I; apply N; right; exact I]. rewrite in_app_iff. cbn. intros [I|[I|[]]]; [auto|subst; apply N; left; reflexivity].
Qed.
(** del d.k removes exactly k; a missing name raises AttributeError, by reading and by deleting. *)
Theorem C142_del {V} (d : dict V) k : NoDup (map fst d) ->
  (In k (map fst d) -> exists d', delattr d k = Ok d' /\ getitem d' k = Err KeyError /\ NoDup (map fst d') /\ forall j, j <> k -> getitem d' j = getitem d j) /\
  (~ In k (map fst d) -> delattr d k = Err AttributeError /\ (~ In k class_names -> getattr d k = Err AttributeError)).
Proof.
  intros ND. split.
  - intros I. assert (S0 : exists w, d_get d k = Some w).
    { clear ND. induction d as [|[k' w] d IH]; [destruct I|]. cbn. destruct (String.eqb_spec k k'); [eexists; reflexivity|]. apply IH. destruct I as [I|I]; [cbn in I; congruence|exact I]. }
    destruct S0 as (w & S0). unfold delattr, delitem. rewrite S0. eexists. split; [reflexivity|]. unfold getitem. rewrite d_get_del, String.eqb_refl by exact ND.
    split; [reflexivity|]. split; [|intros j N; rewrite d_get_del by exact ND; destruct (String.eqb_spec j k); [contradiction|reflexivity]].
    clear S0 I. induction d as [|[k' w'] d IH]; cbn; [constructor|]. inversion ND; subst. destruct (String.eqb k k'); [assumption|]. cbn. constructor; [|apply IH; assumption].
    intros I. apply H1. clear -I. induction d as [|[k2 w2] d IH]; cbn in *; [exact I|]. destruct (String.eqb k k2); cbn in *; [auto|]. destruct I; auto.
  - intros N. pose proof (d_get_none d k N) as G. unfold delattr, delitem, getattr, getitem. rewrite G. split; [reflexivity|]. intros C.
    destruct (existsb (String.eqb k) class_names) eqn:E; [|reflexivity]. exfalso. apply existsb_exists in E. destruct E as (x & I & Q). apply String.eqb_eq in Q. subst. auto.
Qed.
(** A key that is one of dict's own names is stored, but reading the attribute never gives it. *)
Theorem C142_shadowed_refuted {V} (d : dict V) k v : In k class_names ->
  getitem (setattr d k v) k = Ok v /\ getattr (setattr d k v) k = Ok (Builtin k) /\ In "items"%string class_names /\ In "values"%string class_names.
Proof.
  intros I. split; [apply C142_set|]. split; [|cbn; tauto]. unfold getattr. replace (existsb (String.eqb k) class_names) with true; [reflexivity|].
  symmetry. apply existsb_exists. exists k. split; [exact I|apply String.eqb_refl].
Qed.
Example C142_example : getattr (by_attr (by_attr [("a", 1)]%string (OSet "c" 3)%string) (ODel "a"%string)) "c" = Ok (Value 3) /\
  getattr (by_attr [("a", 1)]%string (ODel "a"%string)) "a" = Err AttributeError.
Proof. split; reflexivity. Qed.

(** * C143 *)
(** ** Specification: the same call made k times *)
Fixpoint again {A} (k : nat) (f : A -> A) (x : A) : A := match k with 0 => x | S k' => f (again k' f x) end.
Lemma set_same ls n l : set_logger ls n l n = l.
Proof. unfold set_logger. destruct (list_eq_dec string_dec n n); [reflexivity|congruence]. Qed.
Lemma set_other ls n m l : m <> n -> set_logger ls n l m = ls m.
Proof. intros. unfold set_logger. destruct (list_eq_dec string_dec m n); [contradiction|reflexivity]. Qed.
Lemma chain_head n : exists up, chain n = n :: up /\ ~ In n up /\ (n <> [] -> In [] up).
Proof.
  unfold chain. assert (P : exists ps, prefixes n = ps ++ [n] /\ Forall (fun m => List.length m < List.length n) ps /\ (n <> [] -> In [] ps)).
  { induction n as [|x n (ps & E & F & I)]; [exists []; repeat split; [constructor|congruence]|]. cbn. rewrite E, map_app. exists ([] :: map (cons x) ps). split; [reflexivity|].
    split; [|intros _; left; reflexivity]. constructor; [cbn; lia|]. apply Forall_map. eapply Forall_impl; [|exact F]. cbn. intros; lia. }
  destruct P as (ps & E & F & I). exists (rev ps). rewrite E, rev_app_distr. split; [reflexivity|]. split.
  - rewrite <- in_rev. intros J. rewrite Forall_forall in F. specialize (F n J). lia.
  - intros N. rewrite <- in_rev. auto.
Qed.
(** One call: a record of the logger at or above the level reaches one more place (two with a file), below
    the level none; loggers of other names keep their handlers. *)
Theorem C143_once ls n file level lv : level_of level = Some lv -> 0 < lv -> file = None \/ (exists p, file = Some p /\ has_slash p = true) ->
  let ls' := fst (setup_logger ls n file level) in snd (setup_logger ls n file level) = Ok tt /\
  (forall q, q < lv -> emit ls' n q = []) /\
  (forall q, lv <= q -> exists up, emit ls' n q = (l_handlers (ls n) ++ Console :: match file with Some p => [File p] | None => [] end) ++ up) /\
  (forall m, m <> n -> ls' m = ls m).
Proof.
  intros L P F. destruct (chain_head n) as (up & C & NI & _).
  assert (E : exists hs, hs = l_handlers (ls n) ++ Console :: match file with Some p => [File p] | None => [] end /\ setup_logger ls n file level = (set_logger ls n (mkLogger lv hs), Ok tt)).
  { eexists. split; [reflexivity|]. unfold setup_logger. rewrite L. destruct F as [->|(p & -> & S0)]; [reflexivity|]. destruct p as [|a p]; [discriminate|]. rewrite S0. cbn [l_handlers]. rewrite <- app_assoc. reflexivity. }
  destruct E as (hs & EH & E). rewrite E. cbn [fst snd]. split; [reflexivity|].
  assert (EF : effective (set_logger ls n (mkLogger lv hs)) n = lv).
  { unfold effective. rewrite C. cbn [find]. rewrite set_same. cbn [l_level]. destruct (Nat.eqb_spec lv 0); [lia|]. cbn [negb]. rewrite set_same. reflexivity. }
  split; [|split].
  - intros q Q. unfold emit. rewrite EF. rewrite (proj2 (Nat.ltb_lt q lv) Q). reflexivity.
  - intros q Q. unfold emit. rewrite EF. rewrite (proj2 (Nat.ltb_ge q lv) Q). rewrite C. cbn [map List.concat]. rewrite set_same. cbn [l_handlers]. rewrite EH. eexists. reflexivity.
  - intros m N. apply set_other. exact N.
Qed.
(** Calling it again adds handlers again: after k calls every message appears k times on the console. *)
Theorem C143_repeated_refuted k n level lv : level_of level = Some lv -> 0 < lv ->
  forall q, lv <= q -> 0 < k -> emit (again k (fun ls => fst (setup_logger ls n None level)) fresh_loggers) n q = repeat Console k.
Proof.
  intros L P q Q K. set (f := fun ls => fst (setup_logger ls n None level)).
  assert (S1 : forall ls, f ls = set_logger ls n (mkLogger lv (l_handlers (ls n) ++ [Console]))) by (intros ls; unfold f, setup_logger; rewrite L; reflexivity).
  assert (H : forall j, l_handlers (again j f fresh_loggers n) = repeat Console j /\ (0 < j -> l_level (again j f fresh_loggers n) = lv) /\ forall m, m <> n -> l_handlers (again j f fresh_loggers m) = []).
  { induction j as [|j (IH1 & IH2 & IH3)]; [split; [reflexivity|split; [lia|reflexivity]]|]. cbn [again]. rewrite !S1, set_same. cbn [l_handlers l_level]. rewrite IH1.
    split; [|split; [reflexivity|]].
    - change [Console] with (repeat Console 1). rewrite <- repeat_app. f_equal. lia.
    - intros m N. rewrite set_other by exact N. apply IH3. exact N. }
  destruct (H k) as (H1 & H2 & H3). specialize (H2 K). destruct (chain_head n) as (up & C & NI & _). unfold emit, effective. rewrite C. cbn [find].
  rewrite H2. destruct (Nat.eqb_spec lv 0); [lia|]. cbn [negb]. rewrite H2. rewrite (proj2 (Nat.ltb_ge q lv) Q). cbn [map List.concat]. rewrite H1.
  replace (List.concat (map (fun m => l_handlers (again k f fresh_loggers m)) up)) with (@nil place); [apply app_nil_r|].
  symmetry. clear -H3 NI. induction up as [|m up IH]; [reflexivity|]. cbn [map List.concat]. rewrite H3, IH; [reflexivity|intros I; apply NI; right; exact I|].
  intros ->. apply NI. left. reflexivity.
Qed.
(** A logger below another one (a.b below a) also writes through the handlers of the one above. *)
Theorem C143_parent_refuted a b level lv : level_of level = Some lv -> 0 < lv -> forall q, lv <= q ->
  emit (fst (setup_logger (fst (setup_logger fresh_loggers [a] None level)) [a; b] None level)) [a; b] q = [Console; Console].
Proof.
  intros L P q Q. unfold setup_logger. rewrite L. cbn [fst].
  match goal with |- emit ?x _ _ = _ => set (ls2 := x) end.
  assert (A : ls2 [a; b] = mkLogger lv [Console]).
  { unfold ls2. rewrite set_same. f_equal. rewrite set_other by discriminate. reflexivity. }
  assert (B : ls2 [a] = mkLogger lv [Console]).
  { unfold ls2. rewrite set_other by discriminate. rewrite set_same. reflexivity. }
  assert (C : ls2 [] = mkLogger 30 []).
  { unfold ls2. rewrite set_other by discriminate. rewrite set_other by discriminate. reflexivity. }
  clearbody ls2. unfold emit, effective, chain. cbn [prefixes map rev app find]. rewrite A. cbn [l_level]. destruct (Nat.eqb_spec lv 0); [lia|]. cbn [negb].
  try rewrite A. cbn [l_level]. rewrite (proj2 (Nat.ltb_ge q lv) Q). cbn [map List.concat]. try rewrite A; rewrite B, C. reflexivity.
Qed.
(** A log file given without a directory fails, after the console handler is in place; an unknown level fails
    before anything changes. *)
Theorem C143_errors ls n level : (forall lv p, level_of level = Some lv -> p <> ""%string -> has_slash p = false ->
    exists ls', setup_logger ls n (Some p) level = (ls', Err OtherError) /\ l_handlers (ls' n) = l_handlers (ls n) ++ [Console]) /\
  (forall file, level_of level = None -> setup_logger ls n file level = (ls, Err ValueError)).
Proof.
  split.
  - intros lv p L N S0. unfold setup_logger. rewrite L. destruct p as [|a p]; [congruence|]. rewrite S0. eexists. split; [reflexivity|]. rewrite set_same. reflexivity.
  - intros file L. unfold setup_logger. rewrite L. reflexivity.
Qed.
Example C143_example : exists lv, level_of "INFO" = Some lv /\ 0 < lv /\ has_slash "logs/run.log" = true /\ has_slash "run.log" = false /\ level_of "LOUD" = None.
Proof. exists 20. repeat split; auto with arith. Qed.
Print Assumptions C141_names.
Print Assumptions C141_load.
Print Assumptions C141_kdv_refuted.
Print Assumptions C141_again_refuted.
Print Assumptions C141_short_refuted.
Print Assumptions C141_uneven_refuted.
Print Assumptions C142_same_as_items.
Print Assumptions C142_set.
Print Assumptions C142_order.
Print Assumptions C142_del.
Print Assumptions C142_shadowed_refuted.
Print Assumptions C143_once.
Print Assumptions C143_repeated_refuted.
Print Assumptions C143_parent_refuted.
Print Assumptions C143_errors.
