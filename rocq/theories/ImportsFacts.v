(** Facts about the import interpreter: fuel monotonicity and the closed set
    of reachable process states. *)
From Coq Require Import List Bool Arith Lia.
From Verif Require Import Imports.
Import ListNotations.

(** More fuel does not change a finished run. *)
Lemma exec_more av : forall n j s s' o, exec av n j s = (s', o) -> o <> NoFuel -> exec av (S n) j s = (s', o).
Proof.
  induction n as [|n IH]; intros j s s' o H N; [cbn in H; inversion H; subst; congruence|].
  destruct j as [m|cur m k|cur l].
  - cbn [exec] in H. change (exec av (S (S n)) (JImport m) s) with
      (if loaded s m then (s, Done) else
          let '(s1, o1) := match parent m with
                           | Some (p, _) => exec av (S n) (JImport p) s
                           | None => (s, Done)
                           end in
          match o1 with
          | Done =>
              if loaded s1 m then (s1, Done) else
              let '(s2, o2) := exec av (S n) (JBody (Some m) (code m)) (put s1 m (Some [])) in
              match o2 with
              | Done => (match parent m with Some (p, k) => bind_in s2 (Some p) k | None => s2 end, Done)
              | Exc => (put s2 m None, Exc)
              | NoFuel => (s2, NoFuel)
              end
          | o => (s1, o)
          end).
    destruct (loaded s m); [exact H|].
    destruct (match parent m with Some (p, _) => exec av n (JImport p) s | None => (s, Done) end) as [s1 o1] eqn:E1.
    assert (o1 <> NoFuel -> match parent m with Some (p, _) => exec av (S n) (JImport p) s | None => (s, Done) end = (s1, o1)) as E2.
    { intros X. destruct (parent m) as [[p q]|]; [now apply IH|exact E1]. }
    destruct o1; [|rewrite E2 by discriminate; exact H|inversion H; subst; congruence].
    rewrite E2 by discriminate. destruct (loaded s1 m); [exact H|].
    destruct (exec av n (JBody (Some m) (code m)) (put s1 m (Some []))) as [s2 o2] eqn:E3.
    destruct o2; [rewrite (IH _ _ _ _ E3) by discriminate; exact H|rewrite (IH _ _ _ _ E3) by discriminate; exact H|inversion H; subst; congruence].
  - cbn [exec] in H. change (exec av (S (S n)) (JFrom cur m k) s) with
      (let '(s1, o1) := exec av (S n) (JImport m) s in
          match o1 with
          | Done =>
              if has s1 m k then (bind_in s1 cur k, Done) else
              match module_getattr m k with
              | Some body =>
                  let '(s2, o2) := exec av (S n) (JBody None body) s1 in
                  match o2 with Done => (bind_in s2 cur k, Done) | o => (s2, o) end
              | None =>
                  match submodule m k with
                  | Some sub =>
                      let '(s2, o2) := exec av (S n) (JImport sub) s1 in
                      match o2 with Done => (bind_in s2 cur k, Done) | o => (s2, o) end
                  | None => (s1, Exc)
                  end
              end
          | o => (s1, o)
          end).
    destruct (exec av n (JImport m) s) as [s1 o1] eqn:E1.
    destruct o1; [|rewrite (IH _ _ _ _ E1) by discriminate; exact H|inversion H; subst; congruence]. rewrite (IH _ _ _ _ E1) by discriminate.
    destruct (has s1 m k); [exact H|]. destruct (module_getattr m k) as [body|].
    + destruct (exec av n (JBody None body) s1) as [s2 o2] eqn:E3.
      destruct o2; [rewrite (IH _ _ _ _ E3) by discriminate; exact H|rewrite (IH _ _ _ _ E3) by discriminate; exact H|inversion H; subst; congruence].
    + destruct (submodule m k) as [x|]; [|exact H]. destruct (exec av n (JImport x) s1) as [s2 o2] eqn:E3.
      destruct o2; [rewrite (IH _ _ _ _ E3) by discriminate; exact H|rewrite (IH _ _ _ _ E3) by discriminate; exact H|inversion H; subst; congruence].
  - destruct l as [|x r]; [exact H|]. cbn [exec] in H.
    change (exec av (S (S n)) (JBody cur (x :: r)) s) with
      (let '(s1, o1) :=
            match x with
            | SImport m => exec av (S n) (JImport m) s
            | SFrom m n0 => exec av (S n) (JFrom cur m n0) s
            | SDef n => (bind_in s cur n, Done)
            | SExt e => (s, if av e then Done else Exc)
            | STry b e =>
                let '(s2, o2) := exec av (S n) (JBody cur b) s in
                match o2 with
                | Done => exec av (S n) (JBody cur e) s2
                | Exc => (s2, Done)
                | NoFuel => (s2, NoFuel)
                end
            | SRegister c => ({| mods := mods s; registered := ins c (registered s); lazy_pysr := lazy_pysr s |}, Done)
            | SLazy => ({| mods := mods s; registered := registered s; lazy_pysr := true |}, Done)
            end in
          match o1 with Done => exec av (S n) (JBody cur r) s1 | o => (s1, o) end).
    destruct x as [m|m k|k|e|b e|c|].
    + destruct (exec av n (JImport m) s) as [s1 o1] eqn:E. destruct o1; [| |inversion H; subst; congruence]; rewrite (IH _ _ _ _ E) by discriminate; [now apply IH|exact H].
    + destruct (exec av n (JFrom cur m k) s) as [s1 o1] eqn:E. destruct o1; [| |inversion H; subst; congruence]; rewrite (IH _ _ _ _ E) by discriminate; [now apply IH|exact H].
    + now apply IH.
    + destruct (av e); [now apply IH|exact H].
    + destruct (exec av n (JBody cur b) s) as [s2 o2] eqn:E. destruct o2; [| |inversion H; subst; congruence]; rewrite (IH _ _ _ _ E) by discriminate.
      * destruct (exec av n (JBody cur e) s2) as [s3 o3] eqn:E3. destruct o3; [| |inversion H; subst; congruence]; rewrite (IH _ _ _ _ E3) by discriminate; [now apply IH|exact H].
      * now apply IH.
    + now apply IH.
    + now apply IH.
Qed.
Lemma exec_ge av n k j s : n <= k -> snd (exec av n j s) <> NoFuel -> exec av k j s = exec av n j s.
Proof.
  intros H N. induction H as [|k H IH]; [reflexivity|]. destruct (exec av n j s) as [s' o] eqn:E. now apply exec_more.
Qed.

(** [import kd; kd.viz] (and [from kd import viz]) in a process where kd.viz
    has not been imported: kd.__getattr__('viz') runs [from . import viz],
    which asks for the attribute again. *)
Lemma kd_viz_diverges av : forall n cur s, has s Kd n_viz = false -> snd (exec av n (JFrom cur Kd n_viz) s) = NoFuel \/ loaded s Kd = false.
Proof.
  intros n. induction n as [n IH] using lt_wf_ind. intros cur s H. destruct (loaded s Kd) eqn:L; [left|now right].
  destruct n as [|n]; [reflexivity|]. cbn [exec]. destruct n as [|n]; [reflexivity|].
  change (exec av (S n) (JImport Kd) s) with (if loaded s Kd then (s, Done) else
          let '(s1, o1) := (s, Done) in
          match o1 with
          | Done =>
              if loaded s1 Kd then (s1, Done) else
              let '(s2, o2) := exec av n (JBody (Some Kd) (code Kd)) (put s1 Kd (Some [])) in
              match o2 with
              | Done => (s2, Done)
              | Exc => (put s2 Kd None, Exc)
              | NoFuel => (s2, NoFuel)
              end
          | o => (s1, o)
          end). rewrite L, H. cbn [module_getattr].
  change (exec av (S n) (JBody None [SFrom Kd n_viz]) s) with
    (let '(s1, o1) := exec av n (JFrom None Kd n_viz) s in match o1 with Done => exec av n (JBody None []) s1 | o => (s1, o) end).
  destruct (IH n ltac:(lia) None s H) as [E|E]; [|congruence]. destruct (exec av n (JFrom None Kd n_viz) s) as [s1 o1]. cbn in E. subst. reflexivity.
Qed.

(** *** Reachable states *)
Definition nm_list_eqb (a b : list nm) : bool := if list_eq_dec nm_eq_dec a b then true else false.
Definition proc_eq_dec : forall a b : proc, {a = b} + {a <> b}.
Proof. decide equality; [apply bool_dec|apply (list_eq_dec nm_eq_dec)|]. apply list_eq_dec. intros x y. decide equality. apply (list_eq_dec nm_eq_dec). Defined.

(** The public entry points considered: every module a user would
    import (not kd.base, kd.data, kd.utils and other internals), and every [from kd.model import X] / [from kd import X]. *)
Definition entries : list entry :=
  map EImport [Kd; KdDataset; KdModel; Dlga; KdDlga; KdDiscover; KdDiscoverReg; KdSga; KdPysr; KdEqgpt;
               Viz; VizCoreM; VizRegistry; VizApi; VizAdapters; DlgaViz; DiscoverViz; EqRenderer; DlgaEq2latex; DiscoverEq2latex]
  ++ map (EFrom KdModel) [c_DLGA; c_KD_DLGA; c_KD_Discover; c_KD_Discover_SPR; c_KD_Discover_Regression; c_KD_SGA; c_KD_PySR; c_KD_EqGPT]
  ++ map (EFrom Kd) [c_DLGA; c_KD_DLGA; c_KD_Discover; c_KD_Discover_SPR; c_KD_Discover_Regression; n_model; n_dataset; n_viz]
  ++ [EFrom Viz render; EFrom Viz n_equation_renderer; EFrom VizCoreM VizResult; EFrom KdDlga c_KD_DLGA; EFrom Dlga c_DLGA;
      EFrom KdDiscover c_KD_Discover; EFrom KdSga c_KD_SGA; EFrom KdPysr c_KD_PySR].

(** Is the entry an import of (something in) kd.viz ([Some true]), of the DLGA
    model ([Some false]), or of neither? *)
Definition in_viz (m : md) : bool :=
  match m with
  | Viz | VizCoreM | VizRegistry | VizContracts | VizHelpers | VizStyle | VizApi | VizAdapters
  | Ads | AdsDlga | AdsDiscover | AdsSga | AdsPysr | DlgaViz | DiscoverViz | EqRenderer | DlgaEq2latex | DiscoverEq2latex => true
  | _ => false
  end.
Definition kind (e : entry) : option bool :=
  match e with
  | EImport m => if in_viz m then Some true else match m with Dlga | KdDlga => Some false | _ => None end
  | EFrom m n => if in_viz m then Some true else
                 match m, n with
                 | Dlga, _ | KdDlga, _ => Some false
                 | KdModel, (c_DLGA | c_KD_DLGA) | Kd, (c_DLGA | c_KD_DLGA) => Some false
                 | _, _ => None
                 end
  end.
Definition track (t : option bool) (e : entry) : option bool := match t with Some b => Some b | None => kind e end.

Definition tstate := (proc * option bool)%type.
Definition tstate_eq_dec : forall a b : tstate, {a = b} + {a <> b}.
Proof. decide equality; [|apply proc_eq_dec]. decide equality. apply bool_dec. Defined.
Fixpoint same_loaded (a b : list (option (list nm))) : bool :=
  match a, b with
  | [], [] => true
  | None :: a, None :: b => same_loaded a b
  | Some _ :: a, Some _ :: b => same_loaded a b
  | _, _ => false
  end.
Fixpoint mem (x : tstate) (l : list tstate) : bool :=
  match l with
  | [] => false
  | y :: r => if same_loaded (mods (fst x)) (mods (fst y)) then (if tstate_eq_dec x y then true else mem x r) else mem x r
  end.
Definition tstep (av : ext -> bool) (x : tstate) (e : entry) : tstate := (do_entry av (fst x) e, track (snd x) e).
Definition add_new (acc : list tstate * list tstate) (x : tstate) : list tstate * list tstate :=
  let '(seen, new) := acc in if mem x seen then acc else (x :: seen, x :: new).
Fixpoint explore (av : ext -> bool) (n : nat) (seen frontier : list tstate) : list tstate :=
  match n with
  | 0 => seen
  | S n => match frontier with
           | [] => seen
           | _ => let '(seen', new) := fold_left (fun acc x => fold_left (fun acc e => add_new acc (tstep av x e)) entries acc) frontier (seen, [])
                  in explore av n seen' new
           end
  end.
Definition av_of (p d g : bool) (e : ext) : bool := match e with EProgram => p | EDiscover => d | ESga => g end.

(** Sessions over the public entries stay inside a set closed under [tstep]. *)
Definition closed (av : ext -> bool) (l : list tstate) : bool :=
  forallb (fun x => forallb (fun e => mem (tstep av x e) l) entries) l.
Lemma mem_In x l : mem x l = true -> In x l.
Proof.
  induction l as [|y r IH]; cbn; [discriminate|]. destruct (same_loaded _ _); [|auto]. destruct (tstate_eq_dec x y); [now left|auto].
Qed.
Definition tsession (av : ext -> bool) (h : list entry) : tstate := fold_left (tstep av) h (fresh, None).
Lemma fold_inv {X E} (f : X -> E -> X) (P : X -> Prop) (Q : E -> Prop) :
  (forall x e, P x -> Q e -> P (f x e)) -> forall h x, Forall Q h -> P x -> P (fold_left f h x).
Proof. intros H h. induction h as [|e h IH]; intros x F Px; [exact Px|]. inversion F; subst. cbn [fold_left]. apply IH; auto. Qed.
Lemma tsession_reach av l : closed av l = true -> In (fresh, None) l -> forall h, Forall (fun e => In e entries) h -> In (tsession av h) l.
Proof.
  intros C I h H. refine (fold_inv (tstep av) (fun x => In x l) (fun e => In e entries) _ h (fresh, None) H I).
  intros x e Hx He. apply mem_In. unfold closed in C. rewrite forallb_forall in C. specialize (C x Hx). rewrite forallb_forall in C. exact (C e He).
Qed.
Lemma tstep_fst av x e : fst (tstep av x e) = do_entry av (fst x) e.
Proof. unfold tstep. generalize (do_entry av (fst x) e). intros y. reflexivity. Qed.
Lemma fold_proj {X A E} (f : X -> E -> X) (g : A -> E -> A) (p : X -> A) :
  (forall x e, p (f x e) = g (p x) e) -> forall h x, p (fold_left f h x) = fold_left g h (p x).
Proof. intros H h. induction h as [|e h IH]; intros x; [reflexivity|]. cbn [fold_left]. rewrite IH, H. reflexivity. Qed.
Lemma tsession_proc av h : fst (tsession av h) = session av h.
Proof. exact (fold_proj (tstep av) (do_entry av) fst (tstep_fst av) h (fresh, None)). Qed.
Definition explore_all (p d g : bool) : list tstate := explore (av_of p d g) 40 [(fresh, None)] [(fresh, None)].
(** The reachable sets, computed once. *)
Definition reach_ttt : list tstate := Eval vm_compute in explore_all true true true.
Definition reach_ttf : list tstate := Eval vm_compute in explore_all true true false.
Definition reach_tft : list tstate := Eval vm_compute in explore_all true false true.
Definition reach_tff : list tstate := Eval vm_compute in explore_all true false false.
Definition reach_ftt : list tstate := Eval vm_compute in explore_all false true true.
Definition reach_ftf : list tstate := Eval vm_compute in explore_all false true false.
Definition reach_fft : list tstate := Eval vm_compute in explore_all false false true.
Definition reach_fff : list tstate := Eval vm_compute in explore_all false false false.
Definition reach (p d g : bool) : list tstate :=
  match p, d, g with
  | true, true, true => reach_ttt | true, true, false => reach_ttf | true, false, true => reach_tft | true, false, false => reach_tff
  | false, true, true => reach_ftt | false, true, false => reach_ftf | false, false, true => reach_fft | false, false, false => reach_fff
  end.
Definition cfgs : list (bool * bool * bool) :=
  [(true,true,true);(true,true,false);(true,false,true);(true,false,false);(false,true,true);(false,true,false);(false,false,true);(false,false,false)].
Lemma reach_closed : forallb (fun x => match x with (p, d, g) => (closed (av_of p d g) (reach p d g) && mem (fresh, None) (reach p d g))%bool end) cfgs = true.
Proof. vm_compute. reflexivity. Qed.
Lemma session_reach p d g h : Forall (fun e => In e entries) h -> In (tsession (av_of p d g) h) (reach p d g).
Proof.
  intros H. pose proof reach_closed as R. rewrite forallb_forall in R.
  assert ((closed (av_of p d g) (reach p d g) && mem (fresh, None) (reach p d g))%bool = true) as X by (apply (R (p, d, g)); destruct p, d, g; cbn; tauto).
  apply andb_prop in X as [X1 X2]. apply tsession_reach; [exact X1|now apply mem_In|exact H].
Qed.
