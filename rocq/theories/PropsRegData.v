(** C154: tabular data sets. *)
From Verif Require Import Base RegData.
Local Open Scope string_scope.
Local Open Scope list_scope.

(** ** Specification *)
(** a file with a table of [w] columns *)
Definition table {V} (w : nat) (d : list (list V)) : Prop := Forall (fun r => List.length r = w) d.
(** the file and the target of the two data sets *)
Definition dataset (name file target : string) : Prop :=
  (name = "tlc_cc_t1" /\ file = "tlc_cc_Rf_t1.npy" /\ target = "mean(V_S)") \/ (name = "tlc_cc_t2" /\ file = "tlc_cc_Rf_t2.npy" /\ target = "mean(V_E)").
(** the edits a program made to the variable names it got for [name], applied in order *)
Definition edited (acts : list action) (name : string) (l : list string) : list string :=
  fold_left (fun l (a : action) => match a with EditNames n f => if String.eqb n name then f l else l | _ => l end) acts l.

(** ** Lemmas *)
Lemma lookup_names name f t : dataset name f t -> exists e, lookup name registry = Some e /\ e_file e = f /\ e_x e = [0; 1] /\ e_y e = 2 /\ e_target e = t.
Proof. intros [(-> & -> & ->)|(-> & -> & ->)]; eexists; repeat split. Qed.
Lemma rows_ok {V} w (d : list (list V)) k : k < w -> table w d -> exists y, mapM (fun r => match nth_error r k with Some x => Ok x | None => Err OtherError end) d = Ok y /\ Forall2 (fun r x => nth_error r k = Some x) d y.
Proof.
  intros K. induction 1 as [|r d H F (y & E & G)]; [exists []; split; [reflexivity|constructor]|]. destruct (nth_error r k) as [x|] eqn:R; [|apply nth_error_None in R; lia].
  exists (x :: y). cbn. rewrite R. cbn. rewrite E. split; [reflexivity|]. constructor; assumption.
Qed.
Lemma rows2_ok {V} w (d : list (list V)) : 2 <= w -> table w d ->
  exists X, mapM (fun r => mapM (fun k => match nth_error r k with Some x => Ok x | None => Err OtherError end) [0; 1]) d = Ok X /\ Forall2 (fun r x => exists a b, x = [a; b] /\ nth_error r 0 = Some a /\ nth_error r 1 = Some b) d X.
Proof.
  intros K. induction 1 as [|r d H F (y & E & G)]; [exists []; split; [reflexivity|constructor]|]. destruct r as [|a [|b r]]; cbn in H; try lia.
  exists ([a; b] :: y). cbn in *. rewrite E. split; [reflexivity|]. constructor; [|exact G]. exists a, b. auto.
Qed.
Lemma lookup_edit names n f name : lookup name (map (fun p => (fst p, if String.eqb (fst p) n then f (snd p) else snd p)) names) = option_map (fun l : list string => if String.eqb n name then f l else l) (lookup name names).
Proof.
  induction names as [|[k l] names IH]; [reflexivity|]. cbn. destruct (String.eqb_spec k name) as [->|N]; [|exact IH]. cbn. rewrite (String.eqb_sym n name). reflexivity.
Qed.
Lemma program_names {V} file width (acts : list action) : forall names name, lookup name (program (V := V) file width names acts) = option_map (edited acts name) (lookup name names).
Proof.
  induction acts as [|a acts IH]; intros names name; cbn [program]; [destruct (lookup name names); reflexivity|]. rewrite IH. destruct a as [n| |n f]; cbn [step fst]; [destruct (lookup name names); reflexivity|destruct (lookup name names); reflexivity|].
  rewrite lookup_edit. destruct (lookup name names); reflexivity.
Qed.

Section S.
Context {V : Type}.
Variables (file : string -> option (list (list V))) (width : string -> nat).

(** ** C154 *)
(** Whatever the program did before, loading a data set whose file has at least three columns gives X with one row of two
    entries for each row of the file, y with its third entry, and the data set's own description. *)
Theorem C154_rows acts name f t d : dataset name f t -> file f = Some d -> table (width f) d -> 3 <= width f ->
  exists X y m, load_regression file width (program file width names0 acts) name = Ok (X, y, m) /\
    Forall2 (fun r x => exists a b, x = [a; b] /\ nth_error r 0 = Some a /\ nth_error r 1 = Some b) d X /\
    Forall2 (fun r z => nth_error r 2 = Some z) d y /\ target_name m = t /\ source m = "Nature Comm. 2025:16:832".
Proof.
  intros D E T W. destruct (lookup_names name f t D) as (e & L & F & EX & EY & ET). unfold load_regression. rewrite L, F, E, EX, EY.
  unfold columns, column. cbn [forallb]. assert (Nat.ltb 0 (width f) = true /\ Nat.ltb 1 (width f) = true /\ Nat.ltb 2 (width f) = true) as (-> & -> & ->) by (repeat split; apply Nat.ltb_lt; lia). cbn [andb].
  destruct (rows2_ok (width f) d ltac:(lia) T) as (X & HX & GX). destruct (rows_ok (width f) d 2 ltac:(lia) T) as (y & Hy & Gy). rewrite HX. cbn [bind]. rewrite Hy. cbn [bind].
  do 3 eexists. split; [reflexivity|]. split; [exact GX|]. split; [exact Gy|]. cbn. split; [exact ET|]. destruct D as [(-> & _)|(-> & _)]; injection L as <-; reflexivity.
Qed.
(** The variable names are R_F and r unless the program edited a list it was given earlier for the same data set. *)
Theorem C154_names acts name X y m : load_regression file width (program file width names0 acts) name = Ok (X, y, m) -> var_names m = edited acts name ["R_F"; "r"].
Proof.
  unfold load_regression. destruct (lookup name registry) as [e|] eqn:L; [|discriminate]. destruct (file (e_file e)); [|discriminate]. destruct (columns _ _ _); [|discriminate]. cbn [bind]. destruct (column _ _ _); [|discriminate]. cbn [bind]. intros [= _ _ <-]. cbn [var_names].
  rewrite program_names. assert (lookup name names0 = Some ["R_F"; "r"]) as ->; [|reflexivity]. unfold registry in L; unfold names0, registry; cbn [lookup map fst snd e_names] in L |- *. destruct (String.eqb "tlc_cc_t1" name); [reflexivity|]. destruct (String.eqb "tlc_cc_t2" name); [reflexivity|discriminate].
Qed.
(** Other names are refused with ValueError, a missing file is reported, a table with fewer than three columns is an
    IndexError. *)
Theorem C154_refused names name : ((forall f t, ~ dataset name f t) -> load_regression file width names name = Err ValueError) /\
  (forall f t, dataset name f t -> file f = None -> load_regression file width names name = Err OtherError) /\
  (forall f t d, dataset name f t -> file f = Some d -> table (width f) d -> width f < 3 -> load_regression file width names name = Err IndexError).
Proof.
  split; [|split].
  - intros N. unfold load_regression, registry. cbn [lookup]. destruct (String.eqb_spec "tlc_cc_t1" name) as [<-|A]; [exfalso; apply (N "tlc_cc_Rf_t1.npy" "mean(V_S)"); left; auto|].
    destruct (String.eqb_spec "tlc_cc_t2" name) as [<-|B]; [exfalso; apply (N "tlc_cc_Rf_t2.npy" "mean(V_E)"); right; auto|]. reflexivity.
  - intros f t D E. destruct (lookup_names name f t D) as (e & L & F & _). unfold load_regression. rewrite L, F, E. reflexivity.
  - intros f t d D E T W. destruct (lookup_names name f t D) as (e & L & F & EX & EY & _). unfold load_regression. rewrite L, F, E, EX, EY. unfold columns, column. cbn [forallb].
    destruct (Nat.ltb_spec 0 (width f)); [|reflexivity]. destruct (Nat.ltb_spec 1 (width f)); [|reflexivity]. cbn [andb]. destruct (rows2_ok (width f) d ltac:(lia) T) as (X & HX & _). rewrite HX. cbn [bind].
    destruct (Nat.ltb_spec 2 (width f)); [lia|reflexivity].
Qed.
(** Explicit imports work exactly for the names the package binds. *)
Theorem C154_import l : (exists r, import_names l = Ok r) <-> Forall (fun n => In n bound) l.
Proof.
  unfold import_names. induction l as [|n l IH]; cbn [mapM]; [split; [constructor|eauto]|]. destruct (existsb (String.eqb n) bound) eqn:E.
  - apply existsb_exists in E as (x & I & Q). apply String.eqb_eq in Q. subst x. cbn [bind]. split.
    + intros (r & H). destruct (mapM _ l) eqn:M; [|discriminate]. constructor; [exact I|]. apply IH. eauto.
    + intros F. inversion F; subst. destruct (proj2 IH ltac:(assumption)) as (r & R). rewrite R. cbn [bind]. eauto.
  - split; [intros (r & H); discriminate|]. intros F. inversion F as [|x l' I F' Q]; subst. assert (existsb (String.eqb n) bound = true); [|congruence]. apply existsb_exists. exists n. split; [exact I|apply String.eqb_refl].
Qed.
End S.

(** A concrete file. *)
Definition case_file (f : string) : option (list (list nat)) := if String.eqb f "tlc_cc_Rf_t2.npy" then Some [[1; 2; 3; 4]; [5; 6; 7; 8]] else None.
Example C154_case : dataset "tlc_cc_t2" "tlc_cc_Rf_t2.npy" "mean(V_E)" /\ exists m, load_regression case_file (fun _ => 4) names0 "tlc_cc_t2" = Ok ([[1; 2]; [5; 6]], [3; 7], m) /\ var_names m = ["R_F"; "r"].
Proof. split; [right; auto|]. eexists. split; reflexivity. Qed.
(** The variable names are shared between all results: editing those of one changes the next. *)
Theorem C154_shared_refuted : exists X y m, load_regression case_file (fun _ => 4) (program case_file (fun _ => 4) names0 [Load "tlc_cc_t2"; EditNames "tlc_cc_t2" (fun l => l ++ ["extra"])]) "tlc_cc_t2" = Ok (X, y, m) /\
  List.length (var_names m) = 3 /\ Forall (fun r => List.length r = 2) X.
Proof. do 3 eexists. split; [reflexivity|]. split; [reflexivity|repeat constructor]. Qed.
(** Not every exported name exists: importing all of them fails. *)
Theorem C154_star_refuted : import_star = Err AttributeError /\ In "KdV_equation" exported /\ ~ In "KdV_equation" bound /\ exists r, import_names ["load_pde"; "load_regression"; "PDEDataset"] = Ok r.
Proof. split; [vm_compute; reflexivity|]. split; [cbn; tauto|]. split; [cbn; intuition discriminate|]. eexists. reflexivity. Qed.
Print Assumptions C154_rows.
Print Assumptions C154_names.
Print Assumptions C154_refused.
Print Assumptions C154_import.
Print Assumptions C154_shared_refuted.
Print Assumptions C154_star_refuted.
