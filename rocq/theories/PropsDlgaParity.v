(** C97 (DLGA parity plot) and C98 (DLGA term relationship charts). *)
From Coq Require Import QArith Qabs List String Bool Arith Lia ZArith Lqa Permutation Sorted.
From Verif Require Import Base Dlga DlgaFacts DlgaEq DlgaEqFacts VizData VizDataFacts TimePick TimePickFacts DlgaPlot PropsVizData PropsDlgaEq.
Import ListNotations.
Local Open Scope string_scope.
Local Open Scope nat_scope.
Local Open Scope list_scope.

(** ** Specification *)
(** The value at point [p] of the product that the genes of [md] name: the product of the recorded
    columns of the named operators; None when a gene names no operator or an operator that is not
    recorded. *)
Fixpoint value_at (meta : string -> option column) (ops : list string) (p : nat) (md : modul) : option Q :=
  match md with
  | [] => Some 1%Q
  | g :: r => match nth_error ops g with
              | Some o => match meta o, value_at meta ops p r with
                          | Some c, Some v => Some (nth p c 0 * v)%Q
                          | _, _ => None
                          end
              | None => None
              end
  end.
(** right-hand side at point [p]: coefficient times product, summed over the modules *)
Fixpoint rhs_at (meta : string -> option column) (ops : list string) (p : nat) (l : list (modul * Q)) : Q :=
  match l with
  | [] => 0%Q
  | (md, k) :: r => ((match value_at meta ops p md with Some v => k * v | None => 0 end) + rhs_at meta ops p r)%Q
  end.
(** A model after a fit: first individual [g] with coefficients [c] and left side [n], recorded
    columns [meta], all as long as the left side's column [l]. *)
Definition fitted (m : mdl) (g : genome) (c : list Q) (n : string) (meta : string -> option column) (l : column) : Prop :=
  hd_error (m_chrom m) = Some g /\ hd_error (m_coef m) = Some c /\ hd_error (m_name m) = Some n /\ m_meta m = Some meta /\
  m_ops m <> [] /\ meta n = Some l /\ (forall o col, meta o = Some col -> List.length col = List.length l) /\ Forall (fun md => md <> []) g.

Lemma fitted_first m g c n meta l : fitted m g c n meta l -> first_individual m = Some (g, c, n, meta, l).
Proof.
  intros (A & B & C & D & E & F & _). unfold first_individual. destruct (m_chrom m); [discriminate|]. destruct (m_coef m); [discriminate|]. destruct (m_name m); [discriminate|].
  cbn in A, B, C. injection A as ->. injection B as ->. injection C as ->. rewrite D. destruct (m_ops m); [congruence|]. rewrite F. reflexivity.
Qed.

Lemma times_nth' a b p : List.length a = List.length b -> (nth p (times a b) 0 == nth p a 0 * nth p b 0)%Q.
Proof.
  intros L. destruct (Nat.lt_ge_cases p (List.length a)) as [H|H]; [rewrite times_nth; auto; reflexivity|].
  rewrite !nth_overflow; [ring|lia|lia|rewrite times_length; auto].
Qed.
Lemma fold_times_length n r : forall c, List.length c = n -> Forall (fun x : column => List.length x = n) r -> List.length (fold_left times r c) = n.
Proof. induction r as [|x r IH]; intros c L F; [exact L|]. inversion F; subst. cbn. apply IH; auto. rewrite times_length; congruence. Qed.
Lemma fold_times_nth p n r : forall c, List.length c = n -> Forall (fun x : column => List.length x = n) r ->
  (nth p (fold_left times r c) 0 == nth p c 0 * fold_right (fun x s => nth p x 0 * s) 1 r)%Q.
Proof.
  induction r as [|x r IH]; intros c L F; cbn [fold_left fold_right]; [ring|]. inversion F as [|? ? Hx F']; subst. rewrite IH; [|rewrite times_length; congruence|exact F'].
  rewrite times_nth' by congruence. ring.
Qed.
Lemma term_arrays_value meta ops N md : (forall o col, meta o = Some col -> List.length col = N) -> bad_gene ops md = false ->
  match term_arrays meta ops md with
  | Some arrs => Forall (fun x : column => List.length x = N) arrs /\ List.length arrs = List.length md /\
                 forall p, exists v, value_at meta ops p md = Some v /\ (v == fold_right (fun x s => nth p x 0 * s) 1 arrs)%Q
  | None => forall p, value_at meta ops p md = None
  end.
Proof.
  intros H. induction md as [|g md IH]; intros B; cbn [term_arrays].
  - split; [constructor|]. split; [reflexivity|]. intros p. exists 1%Q. split; reflexivity.
  - cbn [bad_gene existsb] in B. apply orb_false_iff in B as [B1 B2]. specialize (IH B2). apply Nat.leb_gt in B1.
    cbn [value_at]. rewrite (nth_error_nth' ops "" B1). destruct (meta (nth g ops "")) as [c|] eqn:Ec; [|reflexivity].
    destruct (term_arrays meta ops md) as [arrs|].
    + destruct IH as (F & L & V). split; [constructor; eauto|]. split; [cbn; lia|]. intros p. destruct (V p) as (v & -> & Hv). eexists. split; [reflexivity|]. cbn [fold_right]. rewrite Hv. reflexivity.
    + intros p. rewrite IH. reflexivity.
Qed.
Lemma bad_value meta ops p md : bad_gene ops md = true -> value_at meta ops p md = None.
Proof.
  induction md as [|g md IH]; intros B; [discriminate|]. cbn [bad_gene existsb] in B. cbn [value_at]. apply orb_prop in B as [B|B].
  - apply Nat.leb_le in B. destruct (nth_error ops g) eqn:E; [|reflexivity]. assert (g < List.length ops) by (apply nth_error_Some; congruence). lia.
  - destruct (nth_error ops g); [|reflexivity]. rewrite (IH B). destruct (meta s); reflexivity.
Qed.
Lemma prod_cols_spec N arrs : arrs <> [] -> Forall (fun x : column => List.length x = N) arrs ->
  List.length (prod_cols arrs) = N /\ forall p, (nth p (prod_cols arrs) 0 == fold_right (fun x s => nth p x 0 * s) 1 arrs)%Q.
Proof.
  destruct arrs as [|c r]; [congruence|]. intros _ F. inversion F; subst. cbn [prod_cols fold_right]. split; [apply fold_times_length; auto|].
  intros p. apply (fold_times_nth p _ r c eq_refl). assumption.
Qed.
(** One module: either it can be drawn, with the right value at every point, or it cannot and has
    a value nowhere. *)
Lemma module_case meta ops N md : (forall o col, meta o = Some col -> List.length col = N) -> md <> [] ->
  (exists arrs, bad_gene ops md = false /\ term_arrays meta ops md = Some arrs /\ List.length (prod_cols arrs) = N /\
     forall p, exists v, value_at meta ops p md = Some v /\ (nth p (prod_cols arrs) 0 == v)%Q) \/
  ((bad_gene ops md = true \/ bad_gene ops md = false /\ term_arrays meta ops md = None) /\ forall p, value_at meta ops p md = None).
Proof.
  intros H NE. destruct (bad_gene ops md) eqn:B; [right; split; [now left|intros; now apply bad_value]|].
  pose proof (term_arrays_value meta ops N md H B) as T. destruct (term_arrays meta ops md) as [arrs|]; [|right; split; [now right|exact T]].
  destruct T as (F & L & V). assert (arrs <> []) as NA by (destruct arrs; [destruct md; [congruence|discriminate]|discriminate]).
  destruct (prod_cols_spec N arrs NA F) as [L' P]. left. exists arrs. split; [reflexivity|]. split; [reflexivity|]. split; [exact L'|].
  intros p. destruct (V p) as (v & Ev & Hv). exists v. split; [exact Ev|]. rewrite Hv. apply P.
Qed.

Lemma badd_same a : forall b, List.length a = List.length b -> exists s, badd a b = Some s /\ List.length s = List.length a /\ forall p, (nth p s 0 == nth p a 0 + nth p b 0)%Q.
Proof.
  intros b L. unfold badd. rewrite L, Nat.eqb_refl. eexists. split; [reflexivity|]. split; [rewrite map_length, combine_length; lia|].
  revert b L. induction a as [|x a IH]; intros b L p; destruct b as [|y b]; try discriminate.
  - destruct p; cbn; ring.
  - destruct p as [|p]; cbn; [reflexivity|]. apply IH. cbn in L. lia.
Qed.
Lemma parity_loop_spec meta ops N g : (forall o col, meta o = Some col -> List.length col = N) -> Forall (fun md => md <> []) g ->
  forall cs rhs, List.length rhs = N -> exists r, parity_loop meta ops g cs rhs = Some r /\ List.length r = N /\
    forall p, (nth p r 0 == nth p rhs 0 + rhs_at meta ops p (combine g cs))%Q.
Proof.
  intros H. induction g as [|md g IH]; intros NE cs rhs L.
  - exists rhs. split; [reflexivity|]. split; [exact L|]. intros p. cbn [combine rhs_at]. ring.
  - inversion NE as [|? ? N1 N2]; subst. destruct cs as [|c cs]; [exists rhs; split; [reflexivity|]; split; [reflexivity|]; intros p; cbn; ring|].
    cbn [parity_loop combine rhs_at]. destruct (module_case meta ops _ md H N1) as [(arrs & B & T & LP & V)|[D V]].
    + rewrite B, T. destruct (badd_same rhs (map (Qmult c) (prod_cols arrs))) as (s & -> & Ls & Vs); [rewrite map_length; congruence|].
      destruct (IH N2 cs s Ls) as (r & Er & Lr & Vr). exists r. split; [exact Er|]. split; [exact Lr|]. intros p. rewrite Vr, Vs.
      destruct (V p) as (v & -> & Hv). change 0%Q with (c * 0)%Q at 2 || idtac.
      assert (nth p (map (Qmult c) (prod_cols arrs)) 0 == c * v)%Q as ->; [|ring].
      destruct (Nat.lt_ge_cases p (List.length (prod_cols arrs))) as [Hp|Hp].
      * rewrite (nth_indep _ 0%Q (c * 0)%Q) by (rewrite map_length; exact Hp). rewrite map_nth. rewrite Hv. reflexivity.
      * rewrite nth_overflow by (rewrite map_length; exact Hp). rewrite nth_overflow in Hv by exact Hp. rewrite <- Hv. ring.
    + destruct (IH N2 cs rhs eq_refl) as (r & Er & Lr & Vr). exists r. split; [destruct D as [->|[-> ->]]; exact Er|]. split; [exact Lr|].
      intros p. rewrite Vr, V. ring.
Qed.

(** ** C97 *)
(** After a fit the parity plot is drawn; it pairs, point by point, the recorded left side with the
    sum of coefficient times named product over the modules whose operators are all recorded; the
    reported residual is left side minus right side. *)
Theorem C97_parity_pairs m g c n meta l : fitted m g c n meta l ->
  exists P R, parity_data m = VOk (Some (l, P, R)) /\ List.length P = List.length l /\ List.length R = List.length l /\
    forall p, p < List.length l -> (nth p P 0 == rhs_at meta (m_ops m) p (combine g c))%Q /\ (nth p R 0 == nth p l 0 - nth p P 0)%Q.
Proof.
  intros F. pose proof (fitted_first _ _ _ _ _ _ F) as E. destruct F as (_ & _ & _ & _ & _ & _ & H & NE).
  unfold parity_data. rewrite E. destruct (parity_loop_spec meta (m_ops m) _ g H NE c (map (fun _ => 0%Q) l)) as (P & -> & LP & VP); [apply map_length|].
  destruct (proj1 (C79_parity_accepts (vector l) (vector P)) ltac:(cbn; congruence)) as (x & y & r & Ex).
  rewrite Ex. destruct (C79_parity _ _ _ _ _ Ex) as (-> & -> & L & ->). rewrite !ravel_vector in *.
  exists P, (map (fun q => (fst q - snd q)%Q) (combine l P)). split; [reflexivity|]. split; [exact LP|]. split; [rewrite map_length, combine_length; lia|].
  intros p Hp. split.
  - rewrite VP. assert (Z0 : (nth p (map (fun _ : Q => 0%Q) l) 0 == 0)%Q); [|rewrite Z0; apply Qplus_0_l]. clear. revert p. induction l as [|x l IH]; intros [|p]; cbn; try reflexivity. apply IH.
  - rewrite (nth_indep _ 0%Q ((fun q => (fst q - snd q)%Q) (0%Q, 0%Q))) by (rewrite map_length, combine_length; lia).
    rewrite (map_nth (fun q => (fst q - snd q)%Q)), combine_nth by congruence. reflexivity.
Qed.
(** Without a fitted model, or when the left side was not recorded, the answer is a warning. *)
Theorem C97_no_result m : m_chrom m = [] \/ m_coef m = [] \/ m_name m = [] \/ m_meta m = None \/ m_ops m = [] \/
  (exists n meta, hd_error (m_name m) = Some n /\ m_meta m = Some meta /\ meta n = None) -> parity_data m = VOk None.
Proof.
  intros H. unfold parity_data, first_individual. destruct (m_chrom m), (m_coef m), (m_name m), (m_meta m), (m_ops m); try reflexivity.
  destruct H as [H|[H|[H|[H|[H|(x & meta & A & B & C)]]]]]; try discriminate. cbn in A. injection A as ->. injection B as ->. rewrite C. reflexivity.
Qed.
(** When every configured operator exists, the plotted right side is exactly what the fit
    regressed on: the library columns of the individual times the fitted coefficients. *)
Theorem C97_plots_the_fitted_equation m g c n meta l : fitted m g c n meta l -> List.length c = List.length g ->
  (forall o, In o (m_ops m) -> meta o <> None) -> Forall (good_module (List.length (m_ops m))) g ->
  exists P R cols, parity_data m = VOk (Some (l, P, R)) /\ translate (List.length l) (theta meta (m_ops m)) g = Ok cols /\ List.length cols = List.length g /\
    forall p, p < List.length l -> (nth p P 0 == fold_right Qplus 0 (map (fun kc => fst kc * nth p (snd kc) 0) (combine c cols)))%Q.
Proof.
  intros F Lc A G. destruct (C97_parity_pairs _ _ _ _ _ _ F) as (P & R & E & _ & _ & V). destruct F as (_ & _ & _ & _ & _ & _ & H & NE).
  set (val := fun o => match meta o with Some col => col | None => [] end).
  destruct (C71_columns_are_the_named_products (List.length l) meta (m_ops m) val g) as (cols & T & L & W).
  { intros o Ho. specialize (A o Ho). unfold val. destruct (meta o) as [col|] eqn:Eo; [|congruence]. split; [reflexivity|eauto]. }
  { exact G. }
  exists P, R, cols. split; [exact E|]. split; [exact T|]. split; [exact L|]. intros p Hp. destruct (V p Hp) as [-> _]. clear E V T P R NE.
  revert c cols Lc L W. induction g as [|md g IH]; intros c cols Lc L W; [destruct c; [reflexivity|discriminate]|].
  destruct c as [|k c]; [discriminate|]. destruct cols as [|col cols]; [discriminate|]. cbn [combine rhs_at map fold_right fst snd]. inversion G as [|? ? G1 G2]; subst.
  rewrite (IH G2 c cols ltac:(cbn in Lc; lia) ltac:(cbn in L; lia) (fun i m' c' X Y => W (S i) m' c' X Y)).
  destruct (W 0 md col eq_refl eq_refl) as [_ W0]. rewrite (W0 p Hp).
  assert (value_at meta (m_ops m) p md = Some (prod_at val p (map (fun g => nth g (m_ops m) "") md))) as ->; [|reflexivity].
  destruct G1 as [_ G1]. clear - G1 A. induction G1 as [|x md Hx G1 IH']; [reflexivity|]. cbn [value_at map prod_at].
  rewrite (nth_error_nth' (m_ops m) "" Hx). rewrite IH'. unfold val. pose proof (A (nth x (m_ops m) "") (nth_In _ _ Hx)) as X. destruct (meta (nth x (m_ops m) "")); [reflexivity|congruence].
Qed.
(** The summary: mean, largest absolute residual, mean square. *)
Theorem C97_summary r : r <> [] -> let '(mu, mx, ms) := parity_stats r in
  (mu * inject_Z (Z.of_nat (List.length r)) == fold_right Qplus 0 r)%Q /\
  (forall x, In x r -> (Qabs x <= mx)%Q) /\ (exists x, In x r /\ mx = Qabs x) /\
  (ms * inject_Z (Z.of_nat (List.length r)) == fold_right Qplus 0 (map (fun x => x * x) r))%Q.
Proof.
  intros NE. unfold parity_stats, mean. assert (~ inject_Z (Z.of_nat (List.length r)) == 0)%Q as Z.
  { destruct r; [congruence|]. unfold Qeq. cbn. lia. }
  split; [field; exact Z|]. rewrite map_length. repeat split; [| |field; exact Z].
  - intros x I. unfold max_abs. apply (in_map Qabs) in I. destruct (map Qabs r) as [|y s]; [destruct I|]. destruct (qmax_ge y s) as [Q1 Q2]. destruct I as [<-|I]; auto.
  - unfold max_abs. destruct r as [|y s]; [congruence|]. cbn [map]. pose proof (qmax_in (Qabs y) (map Qabs s)) as I.
    change (Qabs y :: map Qabs s) with (map Qabs (y :: s)) in I. apply in_map_iff in I as (x & E & I). exists x. split; [exact I|]. symmetry. exact E.
Qed.
Definition demo_meta (s : string) : option column :=
  if String.eqb s "u" then Some [1; 2]%Q else if String.eqb s "u_x" then Some [3; 4]%Q else if String.eqb s "u_t" then Some [-2; -8]%Q else None.
Definition demo : mdl := mkM [[[0; 1]; [1]]] [[-1; 1 # 2]%Q] ["u_t"] ["u"; "u_x"] (Some demo_meta).
Example C97_case : fitted demo [[0; 1]; [1]] [-1; 1 # 2]%Q "u_t" demo_meta [-2; -8]%Q /\
  (exists P R, parity_data demo = VOk (Some ([-2; -8]%Q, P, R)) /\ Forall2 Qeq P [-3 # 2; -6]%Q /\ Forall2 Qeq R [-1 # 2; -2]%Q).
Proof.
  split.
  - repeat split; try discriminate; [|repeat constructor; discriminate]. intros o col. cbn [List.length]. unfold demo_meta.
    destruct (String.eqb o "u"); [intros [= <-]; reflexivity|]. destruct (String.eqb o "u_x"); [intros [= <-]; reflexivity|]. destruct (String.eqb o "u_t"); [intros [= <-]; reflexivity|discriminate].
  - eexists _, _. split; [vm_compute; reflexivity|]. split; repeat constructor.
Qed.
(** "The plot always shows the fitted equation" is false: with an operator list that names an
    unknown operator, the fit uses another library column than the plot.  Here the fit u_t = 1 * (column 0),
    column 0 being u_x, is exact, and the plot shows right side 0. *)
Theorem C97_unknown_operator_refuted : exists m g c meta l, fitted m g c "u_t" meta l /\
  translate (List.length l) (theta meta (m_ops m)) g = Ok [l] /\ c = [1%Q] /\ l = [5; 7]%Q /\
  exists R, parity_data m = VOk (Some (l, [0; 0]%Q, R)).
Proof.
  set (meta := fun s => if String.eqb s "u_x" then Some [5; 7]%Q else if String.eqb s "u_t" then Some [5; 7]%Q else None).
  exists (mkM [[[0]]] [[1%Q]] ["u_t"] ["u_y"; "u_x"] (Some meta)), [[0]], [1%Q], meta, [5; 7]%Q. split; [|split; [vm_compute; reflexivity|split; [reflexivity|split; [reflexivity|eexists; vm_compute; reflexivity]]]].
  repeat split; try discriminate; [|repeat constructor; discriminate]. intros o col. unfold meta. cbn [List.length].
  destruct (String.eqb o "u_x"); [intros [= <-]; reflexivity|]. destruct (String.eqb o "u_t"); [intros [= <-]; reflexivity|discriminate].
Qed.

(** ** C98 *)
(** What a chart shows for a module with coefficient [k] on [N] points. *)
Definition shows (meta : string -> option column) (ops : list string) (N : nat) (mk : modul * Q) (t : contribution) : Prop :=
  k_coef t = snd mk /\ k_label t = String.concat " * " (map (fun g => nth g ops "") (fst mk)) /\
  List.length (k_values t) = N /\ forall p, p < N -> exists v, value_at meta ops p (fst mk) = Some v /\ (nth p (k_values t) 0 == v)%Q.
(** the modules that have a value *)
Definition drawable (meta : string -> option column) (ops : list string) (mk : modul * Q) : bool :=
  match value_at meta ops 0 (fst mk) with Some _ => true | None => false end.
(** [order] lists [l] by decreasing size of the coefficient, equal sizes in the order of [l] *)
Definition by_size (l order : list (modul * Q)) : Prop :=
  Permutation l order /\ StronglySorted (fun a b => (Qabs (snd b) <= Qabs (snd a))%Q) order /\
  forall q, filter (fun a => Qeq_bool (Qabs (snd a)) q) order = filter (fun a => Qeq_bool (Qabs (snd a)) q) l.

Lemma joins_concat sep l : joins sep l = String.concat sep l.
Proof. induction l as [|x l IH]; [reflexivity|]. destruct l as [|y l]; [reflexivity|]. cbn [joins String.concat]. cbn [joins] in IH. rewrite IH. reflexivity. Qed.
Lemma contributions_show meta ops N g : (forall o col, meta o = Some col -> List.length col = N) -> Forall (fun md => md <> []) g ->
  forall cs, Forall2 (shows meta ops N) (filter (drawable meta ops) (combine g cs)) (contributions meta ops g cs).
Proof.
  intros H. induction g as [|md g IH]; intros NE cs; [constructor|]. inversion NE as [|? ? N1 N2]; subst. destruct cs as [|c cs]; [constructor|].
  cbn [combine filter contributions]. unfold drawable at 1. cbn [fst]. destruct (module_case meta ops N md H N1) as [(arrs & B & T & LP & V)|[D V]].
  - rewrite B, T. destruct (V 0) as (v & -> & _). cbn [app]. constructor; [|apply IH; exact N2]. repeat split; cbn; auto.
    unfold term_label. destruct md; [congruence|]. apply joins_concat.
  - rewrite V. destruct D as [->|[-> ->]]; cbn [app]; apply IH; exact N2.
Qed.
(** Sorting the contributions is sorting the modules. *)
Fixpoint minsert (x : modul * Q) (l : list (modul * Q)) : list (modul * Q) :=
  match l with [] => [x] | y :: l' => if Qle_bool (Qabs (snd y)) (Qabs (snd x)) then x :: l else y :: minsert x l' end.
Definition msort l := fold_right minsert [] l.
Lemma minsert_perm x l : Permutation (x :: l) (minsert x l).
Proof. induction l as [|y l IH]; [reflexivity|]. cbn. destruct (Qle_bool _ _); [reflexivity|]. rewrite perm_swap. constructor. exact IH. Qed.
Lemma minsert_sorted x l : StronglySorted (fun a b => (Qabs (snd b) <= Qabs (snd a))%Q) l -> StronglySorted (fun a b => (Qabs (snd b) <= Qabs (snd a))%Q) (minsert x l).
Proof.
  induction l as [|y l IH]; intros S; [repeat constructor|]. inversion S as [|? ? S' F]; subst. cbn. destruct (Qle_bool (Qabs (snd y)) (Qabs (snd x))) eqn:E.
  - apply Qle_bool_iff in E. constructor; [exact S|]. constructor; [exact E|]. eapply Forall_impl; [|exact F]. cbn. intros a Ha. lra.
  - constructor; [apply IH; exact S'|]. apply (Permutation_Forall (minsert_perm x l)). constructor; [|exact F].
    assert (~ (Qabs (snd y) <= Qabs (snd x))%Q) by (intros X; apply Qle_bool_iff in X; congruence). lra.
Qed.
Lemma minsert_filter q x l : StronglySorted (fun a b => (Qabs (snd b) <= Qabs (snd a))%Q) l ->
  filter (fun a => Qeq_bool (Qabs (snd a)) q) (minsert x l) = filter (fun a => Qeq_bool (Qabs (snd a)) q) (x :: l).
Proof.
  intros S. induction l as [|y l IH]; [reflexivity|]. inversion S as [|? ? S' F]; subst. cbn [minsert]. destruct (Qle_bool (Qabs (snd y)) (Qabs (snd x))) eqn:E; [reflexivity|].
  cbn [filter]. rewrite (IH S'). cbn [filter]. destruct (Qeq_bool (Qabs (snd y)) q) eqn:Y; [|reflexivity]. destruct (Qeq_bool (Qabs (snd x)) q) eqn:X; [|reflexivity].
  apply Qeq_bool_iff in X, Y. assert (Qle_bool (Qabs (snd y)) (Qabs (snd x)) = true) by (apply Qle_bool_iff; lra). congruence.
Qed.
Lemma msort_by_size l : by_size l (msort l).
Proof.
  assert (StronglySorted (fun a b => (Qabs (snd b) <= Qabs (snd a))%Q) (msort l)) as S by (induction l; [constructor|apply minsert_sorted; assumption]).
  split; [|split; [exact S|]].
  - clear S. induction l as [|x l IH]; [reflexivity|]. cbn. rewrite <- minsert_perm. constructor. exact IH.
  - intros q. clear S. induction l as [|x l IH]; [reflexivity|]. cbn [msort fold_right]. fold (msort l). rewrite minsert_filter; [cbn [filter]; rewrite IH; reflexivity|].
    clear IH. induction l; [constructor|apply minsert_sorted; assumption].
Qed.
Lemma sort_show meta ops N l ks : Forall2 (shows meta ops N) l ks -> Forall2 (shows meta ops N) (msort l) (ksort ks).
Proof.
  assert (I : forall x k l ks, shows meta ops N x k -> Forall2 (shows meta ops N) l ks -> Forall2 (shows meta ops N) (minsert x l) (kinsert k ks)).
  { intros x k l0 ks0 Hx F. induction F as [|y k' l' ks' Hy F IH]; [constructor; [exact Hx|constructor]|]. cbn. destruct Hx as [E Hx], Hy as [E' Hy]. rewrite E, E'.
    destruct (Qle_bool (Qabs (snd y)) (Qabs (snd x))); constructor; auto; try (split; assumption). constructor; [split; assumption|assumption]. }
  induction 1; [constructor|]. cbn. apply I; assumption.
Qed.
Lemma F2_length {A B} (R : A -> B -> Prop) l r : Forall2 R l r -> List.length l = List.length r.
Proof. induction 1; cbn; congruence. Qed.
Lemma F2_firstn {A B} (R : A -> B -> Prop) l r : Forall2 R l r -> forall n, Forall2 R (firstn n l) (firstn n r).
Proof. induction 1; intros [|n]; cbn; constructor; auto. Qed.

(** After a fit with something to draw, the charts are those of the modules with the largest
    coefficients, in decreasing size, as many as asked for (or as there are), each with its own
    coefficient, name and values; the left side and the number of modules are reported. *)
Theorem C98_charts m g c n meta l opt : fitted m g c n meta l ->
  filter (drawable meta (m_ops m)) (combine g c) <> [] ->
  exists order r, by_size (filter (drawable meta (m_ops m)) (combine g c)) order /\
    term_relationships m opt = VOk (Some r) /\ rl_lhs r = l /\ rl_name r = n /\ rl_total r = List.length order /\
    Forall2 (shows meta (m_ops m) (List.length l)) (firstn (top_n opt) order) (rl_terms r) /\
    List.length (rl_terms r) = Nat.min (top_n opt) (List.length order).
Proof.
  intros F NE. pose proof (fitted_first _ _ _ _ _ _ F) as E. destruct F as (_ & _ & _ & _ & _ & _ & H & NM).
  pose proof (contributions_show meta (m_ops m) _ g H NM c) as S. apply sort_show in S.
  set (order := msort (filter (drawable meta (m_ops m)) (combine g c))) in *. exists order.
  pose proof (msort_by_size (filter (drawable meta (m_ops m)) (combine g c))) as O. fold order in O.
  unfold term_relationships. rewrite E. set (ks := ksort (contributions meta (m_ops m) g c)) in *.
  pose proof (F2_length _ _ _ S) as L. destruct O as (P & O).
  assert (ks <> []) as NK. { intros X. rewrite X in L. pose proof (Permutation_length P) as LP. assert (Lz : List.length (filter (drawable meta (m_ops m)) (combine g c)) = 0) by (etransitivity; [exact LP|exact L]). apply length_zero_iff_nil in Lz. contradiction. }
  pose proof (F2_firstn _ _ _ S (top_n opt)) as SF.
  assert (1 <= top_n opt) as T1 by (unfold top_n; lia).
  clearbody ks. destruct (C79_term_relationship (vector l) (map (fun k => vector (k_values k)) (firstn (top_n opt) ks))) as [A _].
  destruct ks as [|k0 ks0] eqn:K; [congruence|]. cbv zeta. rewrite <- K in *. rewrite A.
  - eexists. split; [split; [exact P|exact O]|]. split; [reflexivity|]. cbn [rl_lhs rl_name rl_total rl_terms].
    split; [reflexivity|]. split; [reflexivity|]. split; [symmetry; exact L|]. split; [exact SF|]. rewrite firstn_length. f_equal. symmetry. exact L.
  - split.
    + rewrite K. destruct (top_n opt); [lia|]. discriminate.
    + clear - SF. induction SF as [|x k l0 ks0 Hx F IH]; cbn; constructor; [|exact IH]. destruct Hx as (_ & _ & Hl & _). unfold size, vector. cbn. rewrite Hl. reflexivity.
Qed.
(** Nothing to draw is a warning, as is a model without a result. *)
Theorem C98_nothing_to_draw m g c n meta l opt : fitted m g c n meta l ->
  filter (drawable meta (m_ops m)) (combine g c) = [] -> term_relationships m opt = VOk None.
Proof.
  intros F N. pose proof (fitted_first _ _ _ _ _ _ F) as E. destruct F as (_ & _ & _ & _ & _ & _ & H & NM). unfold term_relationships. rewrite E.
  pose proof (contributions_show meta (m_ops m) _ g H NM c) as S. pose proof (F2_length _ _ _ S) as L.
  assert (Z : List.length (contributions meta (m_ops m) g c) = 0) by (etransitivity; [symmetry; exact L|exact (f_equal (@List.length _) N)]).
  apply length_zero_iff_nil in Z. rewrite Z. reflexivity.
Qed.
(** How many charts are asked for: 4 by default and for 0; a negative number asks for 1. *)
Theorem C98_how_many z : top_n None = 4 /\ top_n (Some 0%Z) = 4 /\ ((1 <= z)%Z -> Z.of_nat (top_n (Some z)) = z) /\ ((z < 0)%Z -> top_n (Some z) = 1).
Proof. unfold top_n. repeat split; intros; destruct (Z.eqb_spec z 0); lia. Qed.
(** Every chosen term has a chart of its own: the grid of axes is large enough. *)
Theorem C98_every_term_has_its_chart ks : map snd (charts ks) = ks /\ NoDup (map fst (charts ks)) /\
  nrows (List.length ks) * ncols (List.length ks) < List.length ks + 3 /\ ncols (List.length ks) <= 3.
Proof.
  set (n := List.length ks). assert (n <= nrows n * ncols n /\ nrows n * ncols n < n + 3) as [B1 B2].
  { unfold nrows. destruct (Nat.eq_dec n 0) as [->|Z]; [cbn; lia|]. assert (1 <= ncols n <= 3) by (unfold ncols; lia).
    pose proof (Nat.div_mod (n + ncols n - 1) (ncols n) ltac:(lia)). pose proof (Nat.mod_upper_bound (n + ncols n - 1) (ncols n) ltac:(lia)). nia. }
  split; [|split; [|split; [exact B2|unfold ncols; lia]]].
  - unfold charts. fold n. assert (n <= List.length (seq 0 (nrows n * ncols n))) as L by (rewrite seq_length; exact B1). unfold n in L. clear B1 B2.
    remember (seq 0 _) as s eqn:Hs. clear Hs n. revert s L. induction ks as [|k ks IH]; intros s L; destruct s as [|x s]; cbn in *; try reflexivity; [lia|]. f_equal. apply IH. lia.
  - unfold charts. fold n. assert (forall (A B : Type) (s : list A) (t : list B), NoDup s -> NoDup (map fst (combine s t))) as G.
    { clear. intros A B s. induction s as [|x s IH]; intros [|y t] D; cbn; try constructor; inversion D; subst; [|now apply IH].
      intros I. apply in_map_iff in I as ((a & b) & E & I). cbn in E. subst. apply in_combine_l in I. contradiction. }
    apply G. apply seq_NoDup.
Qed.
Definition demo2 : mdl := mkM [[[0; 1]; [1]; [0]]] [[-1; 1 # 2; 3]%Q] ["u_t"] ["u"; "u_x"] (Some demo_meta).
Example C98_case : filter (drawable demo_meta (m_ops demo2)) (combine [[0; 1]; [1]; [0]] [-1; 1 # 2; 3]%Q) <> [] /\
  exists r, term_relationships demo2 (Some 2%Z) = VOk (Some r) /\ map k_label (rl_terms r) = ["u"; "u * u_x"] /\ map k_coef (rl_terms r) = [3; -1]%Q /\ rl_total r = 3.
Proof. split; [discriminate|]. eexists. split; [vm_compute; reflexivity|]. repeat split. Qed.
Print Assumptions C97_parity_pairs.
Print Assumptions C97_no_result.
Print Assumptions C97_plots_the_fitted_equation.
Print Assumptions C97_summary.
Print Assumptions C97_unknown_operator_refuted.
Print Assumptions C98_charts.
Print Assumptions C98_nothing_to_draw.
Print Assumptions C98_how_many.
Print Assumptions C98_every_term_has_its_chart.
