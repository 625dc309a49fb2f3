(** Properties of [render] / [configure]: C77. *)
From Coq Require Import List String Ascii Bool Arith Lia Permutation.
From Verif Require Import VizCore.
Import ListNotations.
Local Open Scope string_scope.

(** *** Specification vocabulary *)

(** matplotlib's own contract: a stored value is accepted again unchanged,
    and the name [use] stores is a valid value of the "backend" parameter. *)
Definition mpl_contract (m : mpl) : Prop :=
  (forall k v v', conv m k v = Some v' -> conv m k v' = Some v') /\
  (forall b n, usable m b = Some n -> conv m "backend" n = Some n).
(** An rcParams object: each parameter once, each value one that the
    validator accepts as it is. *)
Definition rc_wf (m : mpl) (d : dict) : Prop :=
  NoDup (map fst d) /\ Forall (fun p => conv m (fst p) (snd p) = Some (snd p)) d.
(** An adapter leaves an rcParams object an rcParams object (matplotlib
    validates every assignment); it may change any value. *)
Definition adapter_wf (m : mpl) (a : adapter) : Prop :=
  forall r k c, rc_wf m r -> rc_wf m (fst (arender a r k c)).
Definition call_wf (m : mpl) (c : vcall) : Prop :=
  match c with VRender (Some a) _ _ _ _ => adapter_wf m a | _ => True end.
(** all settings of style [e] are accepted by matplotlib *)
Definition style_ok (m : mpl) (e : dict) : Prop := Forall (fun p => conv m (fst p) (snd p) <> None) e.

(** *** Dict lemmas *)
Lemma dget_dset k v d : dget k (dset k v d) = Some v.
Proof. induction d as [|[k' v'] d IH]; cbn; [now rewrite String.eqb_refl|]. destruct (String.eqb k k') eqn:E; cbn; rewrite E; auto. Qed.
Lemma dget_dset_ne k j v d : j <> k -> dget k (dset j v d) = dget k d.
Proof.
  intros H. induction d as [|[k' v'] d IH]; cbn.
  - destruct (String.eqb k j) eqn:E; [apply String.eqb_eq in E; congruence|reflexivity].
  - destruct (String.eqb j k') eqn:E; cbn; [|destruct (String.eqb k k'); auto].
    apply String.eqb_eq in E. subst. destruct (String.eqb k k') eqn:E; [apply String.eqb_eq in E; congruence|reflexivity].
Qed.
Lemma dget_dset_eq k j v d : dget k (dset j v d) = if String.eqb j k then Some v else dget k d.
Proof. destruct (String.eqb j k) eqn:E; [apply String.eqb_eq in E; subst; apply dget_dset|apply dget_dset_ne; now apply String.eqb_neq]. Qed.
Lemma dget_none k d : dget k d = None <-> ~ In k (map fst d).
Proof.
  induction d as [|[k' v'] d IH]; cbn; [tauto|]. destruct (String.eqb k k') eqn:E.
  - apply String.eqb_eq in E. subst. split; [discriminate|]. intros H. exfalso. apply H. now left.
  - apply String.eqb_neq in E. rewrite IH. split; [intros H [F|F]; [congruence|tauto]|tauto].
Qed.
Lemma dget_In k v d : dget k d = Some v -> In (k, v) d.
Proof. induction d as [|[k' v'] d IH]; cbn; [discriminate|]. destruct (String.eqb k k') eqn:E; [apply String.eqb_eq in E; intros F; inversion F; subst; now left|auto]. Qed.
Lemma dset_keys_in k v d x : In x (map fst (dset k v d)) <-> x = k \/ In x (map fst d).
Proof.
  induction d as [|[k' v'] d IH]; cbn; [intuition|]. destruct (String.eqb k k') eqn:E; cbn.
  - apply String.eqb_eq in E. subst. intuition.
  - rewrite IH. intuition.
Qed.
Lemma dset_nodup k v d : NoDup (map fst d) -> NoDup (map fst (dset k v d)).
Proof.
  induction d as [|[k' v'] d IH]; cbn; intros H; [constructor; [tauto|constructor]|]. inversion H; subst.
  destruct (String.eqb k k') eqn:E; cbn; [exact H|]. constructor; [|auto].
  rewrite dset_keys_in. intros [F|F]; [|tauto]. apply String.eqb_neq in E. congruence.
Qed.
Lemma dset_forall (P : string * string -> Prop) k v d : P (k, v) -> Forall P d -> Forall P (dset k v d).
Proof.
  intros H F. induction F as [|[k' v'] d Hp F IH]; cbn; [constructor; auto|].
  destruct (String.eqb k k') eqn:E; constructor; auto. apply String.eqb_eq in E. now subst.
Qed.
Lemma dset_wf m k v d : conv m k v = Some v -> rc_wf m d -> rc_wf m (dset k v d).
Proof. intros H [N F]. split; [now apply dset_nodup|now apply dset_forall]. Qed.

(** the last value a list of assignments gives to [k] *)
Fixpoint last_of (k : string) (e : dict) : option string :=
  match e with
  | [] => None
  | (k', v) :: r => match last_of k r with Some x => Some x | None => if String.eqb k' k then Some v else None end
  end.
Lemma dget_dupdate k e : forall d, dget k (dupdate d e) = match last_of k e with Some v => Some v | None => dget k d end.
Proof.
  induction e as [|[k' v] e IH]; intros d; [reflexivity|]. change (dupdate d ((k', v) :: e)) with (dupdate (dset k' v d) e). cbn [last_of]. rewrite IH. rewrite dget_dset_eq.
  destruct (last_of k e); [reflexivity|]. destruct (String.eqb k' k); reflexivity.
Qed.
Lemma last_of_notin k e : ~ In k (map fst e) -> last_of k e = None.
Proof.
  induction e as [|[k' v] e IH]; cbn; [reflexivity|]. intros H. rewrite IH by tauto. destruct (String.eqb k' k) eqn:E; [apply String.eqb_eq in E; tauto|reflexivity].
Qed.
Lemma last_of_dget k e : NoDup (map fst e) -> last_of k e = dget k e.
Proof.
  induction e as [|[k' v] e IH]; cbn; [reflexivity|]. intros H. inversion H; subst. rewrite (String.eqb_sym k k').
  destruct (String.eqb k' k) eqn:E.
  - apply String.eqb_eq in E. subst. now rewrite last_of_notin.
  - rewrite IH by assumption. destruct (dget k e); reflexivity.
Qed.
Lemma dupdate_nodup e : forall d, NoDup (map fst d) -> NoDup (map fst (dupdate d e)).
Proof. unfold dupdate. induction e as [|p e IH]; cbn; intros d H; [exact H|]. apply IH. now apply dset_nodup. Qed.

Lemma rcupdate_dget m k e : forall r, style_ok m e -> snd (rcupdate m r e) = true /\
  dget k (fst (rcupdate m r e)) = match last_of k e with Some v => conv m k v | None => dget k r end.
Proof.
  induction e as [|[k' v] e IH]; intros r H; cbn; [split; reflexivity|]. inversion H; subst. cbn in H2. destruct (conv m k' v) as [v'|] eqn:E; [|congruence].
  destruct (IH (dset k' v' r) H3) as [A B]. split; [exact A|]. rewrite B. destruct (last_of k e); [reflexivity|]. rewrite dget_dset_eq.
  destruct (String.eqb k' k) eqn:F; [apply String.eqb_eq in F; subst; now rewrite E|reflexivity].
Qed.
Lemma rcupdate_bad m e : forall r, ~ style_ok m e -> snd (rcupdate m r e) = false.
Proof.
  induction e as [|[k' v] e IH]; intros r H; cbn; [exfalso; apply H; constructor|]. destruct (conv m k' v) as [v'|] eqn:E; [|reflexivity].
  apply IH. intros F. apply H. constructor; [cbn; congruence|exact F].
Qed.
Lemma rcupdate_wf m e : mpl_contract m -> forall r, rc_wf m r -> rc_wf m (fst (rcupdate m r e)).
Proof.
  intros [C _]. induction e as [|[k' v] e IH]; intros r H; cbn; [exact H|]. destruct (conv m k' v) as [v'|] eqn:E; [|exact H].
  apply IH. apply dset_wf; [|exact H]. eapply C; exact E.
Qed.
Lemma restore m r0 r k v : rc_wf m r0 -> dget k r0 = Some v ->
  snd (rcupdate m r r0) = true /\ dget k (fst (rcupdate m r r0)) = Some v.
Proof.
  intros [N F] H. destruct (rcupdate_dget m k r0 r) as [A B].
  - eapply Forall_impl; [|exact F]. cbn. congruence.
  - split; [exact A|]. rewrite B, last_of_dget, H by assumption. apply dget_In in H. rewrite Forall_forall in F. apply (F _ H).
Qed.
Lemma restore_ok m r0 r : rc_wf m r0 -> snd (rcupdate m r r0) = true.
Proof. intros [N F]. destruct (rcupdate_dget m "" r0 r) as [A B]; [|exact A]. eapply Forall_impl; [|exact F]. cbn. congruence. Qed.
Lemma rcupdate_keeps m e k : forall r, In k (map fst r) -> In k (map fst (fst (rcupdate m r e))).
Proof. induction e as [|[k' v] e IH]; intros r H; cbn; [exact H|]. destruct (conv m k' v); [|exact H]. apply IH. rewrite dset_keys_in. now right. Qed.

(** the back end a [render] call asks matplotlib for, if any *)
Definition asks (backend : string) (s : st) : option string :=
  if String.eqb backend "matplotlib" || String.eqb backend "" then None
  else if match cfg_backend (cfg s) with Some b => String.eqb backend b | None => false end then None
  else Some backend.
Lemma render_unfold m ad t k e b s :
  render m ad t k e b s =
  let '(s1, ok) := match asks b s with Some b => configure m None None (Some b) s | None => (s, true) end in
  if negb ok then (s1, Raises "matplotlib.use", None) else
  let active := if negb (String.eqb b "matplotlib" || String.eqb b "") then b
                else match cfg_backend (cfg s1) with Some "" | None => "matplotlib" | Some c => c end in
  let ctx := {| ctx_config := cfg s1; ctx_backend := active |} in
  match ad with
  | None => (s1, Returned {| intent := k; has_content := false;
               warnings := ["No visualization adapter registered for " ++ t ++ "."];
               md_capabilities := None |}, None)
  | Some a =>
      if negb (existsb (String.eqb k) (capabilities a)) then
        (s1, Returned {| intent := k; has_content := false;
             warnings := ["Adapter " ++ acls a ++ " does not support intent '" ++ k ++ "'."];
             md_capabilities := Some (sorted (capabilities a)) |}, None)
      else
        let entered := fst (rcupdate m (rc s1)
              (match e with None => style (cfg s1) | Some e => dupdate (style (cfg s1)) e end)) in
        let '(s2, out, called) := style_context m e (fun r => arender a r k ctx) s1 in
        (s2, out, if called then Some ({| cfg := cfg s1; rc := entered |}, ctx) else None)
  end.
Proof.
  unfold render, asks. destruct (String.eqb b "matplotlib") eqn:E; cbn [orb negb truthy andb].
  - destruct (cfg_backend (cfg s)) as [[|c x]|]; reflexivity.
  - destruct b as [|c b]; [cbn; destruct (cfg_backend (cfg s)) as [[|c x]|]; reflexivity|]. change (String.eqb (String c b) "") with false. cbn [orb truthy andb].
    destruct (cfg_backend (cfg s)) as [d|]; cbn [negb]; [destruct (String.eqb (String c b) d)|]; reflexivity.
Qed.

(** *** C77 theorems *)

(** The default style of a whole process: after any history of calls the
    style in force is DEFAULT_STYLE overlaid with the LAST style passed to
    [configure] (earlier ones leave no trace), the save directory is the last
    one passed, rendering changes neither. *)
Definition last_style (h : list vcall) : option dict :=
  fold_left (fun o c => match c with VConfigure (Some e) _ _ => Some e | _ => o end) h None.
Definition last_dir (h : list vcall) : option string :=
  fold_left (fun o c => match c with VConfigure _ (Some d) _ => Some d | _ => o end) h None.
Lemma render_cfg m ad t k e b s : style (cfg (fst (fst (render m ad t k e b s)))) = style (cfg s) /\ save_dir (cfg (fst (fst (render m ad t k e b s)))) = save_dir (cfg s).
Proof.
  rewrite render_unfold. assert (style (cfg (fst (match asks b s with Some b => configure m None None (Some b) s | None => (s, true) end))) = style (cfg s) /\ save_dir (cfg (fst (match asks b s with Some b => configure m None None (Some b) s | None => (s, true) end))) = save_dir (cfg s)) as G.
  { destruct (asks b s) as [x|]; [|split; reflexivity]. cbn. destruct (usable m x); split; reflexivity. }
  destruct (match asks b s with Some b => configure m None None (Some b) s | None => (s, true) end) as [s1 ok]. cbn [fst] in G. destruct ok; cbn [negb]; [|exact G].
  destruct ad as [a|]; [|exact G]. cbv zeta. destruct (negb (existsb _ _)); [exact G|]. unfold style_context.
  destruct (rcupdate m (rc s1) _) as [r1 o1]. cbn. destruct (if o1 then _ else _) as [r2 o2]. destruct (rcupdate m r2 (rc s1)). exact G.
Qed.
Theorem C77_configuration_history : forall m h s,
  cfg s = initial_config ->
  (forall k, dget k (style (cfg (vrun m h s))) =
     match last_style h with Some e => match last_of k e with Some v => Some v | None => dget k default_style end
                           | None => dget k default_style end) /\
  save_dir (cfg (vrun m h s)) = last_dir h.
Proof.
  intros m h s Hs. induction h as [|c h [IH1 IH2]] using rev_ind.
  - cbn. rewrite Hs. split; reflexivity.
  - unfold vrun, last_style, last_dir in *. rewrite !fold_left_app. cbn [fold_left]. set (x := fold_left (vstep m) h s) in *. clearbody x.
    destruct c as [sty sd b|ad t k e b].
    + cbn [vstep]. unfold configure. destruct b as [b|]; [destruct (usable m b)|]; destruct sty as [e|], sd as [d|]; cbn [fst cfg style save_dir]; (split; [|auto]); intros k; try apply IH1; apply dget_dupdate.
    + cbn [vstep]. destruct (render_cfg m ad t k e b x) as [E1 E2]. rewrite E1, E2. split; assumption.
Qed.
Example C77_configuration_history_ex :
  let m := {| conv := fun k v => if String.eqb k "bogus" then None else Some v; usable := fun b => Some b |} in
  let s := vrun m [VConfigure (Some [("font.size", "20")]) (Some "out") None; VConfigure (Some [("lines.linewidth", "3")]) None None]
              {| cfg := initial_config; rc := [] |} in
  dget "font.size" (style (cfg s)) = Some "12" /\ dget "lines.linewidth" (style (cfg s)) = Some "3" /\ save_dir (cfg s) = Some "out".
Proof. repeat split. Qed.

(** After [render], returned or raised, every rcParam has the value it had
    before, except that "backend" follows an explicit back end request. *)
Lemma step_rc m s c : mpl_contract m -> rc_wf m (rc s) -> call_wf m c ->
  rc_wf m (rc (vstep m s c)) /\ forall k v, k <> "backend" -> dget k (rc s) = Some v -> dget k (rc (vstep m s c)) = Some v.
Proof.
  intros C W A. destruct c as [sty sd b|ad t k e b]; cbn [vstep].
  - unfold configure. destruct b as [b|]; [|split; auto]. destruct (usable m b) as [n|] eqn:U; cbn; [|split; auto].
    split; [apply dset_wf; [apply (proj2 C _ _ U)|exact W]|]. intros k v Hk H. now rewrite dget_dset_ne by congruence.
  - rewrite render_unfold. assert (rc_wf m (rc (fst (match asks b s with Some b => configure m None None (Some b) s | None => (s, true) end))) /\
      forall k v, k <> "backend" -> dget k (rc s) = Some v -> dget k (rc (fst (match asks b s with Some b => configure m None None (Some b) s | None => (s, true) end))) = Some v) as G.
    { destruct (asks b s) as [x|]; [|split; auto]. cbn. destruct (usable m x) as [n|] eqn:U; cbn; [|split; auto].
      split; [apply dset_wf; [apply (proj2 C _ _ U)|exact W]|]. intros j v Hk H. now rewrite dget_dset_ne by congruence. }
    destruct (match asks b s with Some b => configure m None None (Some b) s | None => (s, true) end) as [s1 ok]. cbn [fst] in G. destruct G as [W1 G].
    destruct ok; cbn [negb]; [|split; assumption]. destruct ad as [a|]; [|split; assumption]. cbv zeta. destruct (negb (existsb _ _)); [split; assumption|].
    unfold style_context. set (comb := match e with None => _ | Some _ => _ end).
    pose proof (rcupdate_wf m comb C (rc s1) W1) as W2. destruct (rcupdate m (rc s1) comb) as [r1 o1]. cbn in W2 |- *.
    assert (rc_wf m (fst (if o1 then arender a r1 k {| ctx_config := cfg s1; ctx_backend := if negb (String.eqb b "matplotlib" || String.eqb b "") then b else match cfg_backend (cfg s1) with Some "" | None => "matplotlib" | Some c => c end |} else (r1, Raises "rcParams")))) as W3.
    { destruct o1; [apply A; exact W2|exact W2]. }
    destruct (if o1 then _ else _) as [r2 o2]. cbn in W3. pose proof (rcupdate_wf m (rc s1) C r2 W3) as W4. destruct (rcupdate m r2 (rc s1)) as [r3 o3] eqn:R. cbn in *.
    split; [exact W4|]. intros j v Hj Hv. destruct (restore m (rc s1) r2 j v W1 (G j v Hj Hv)) as [_ Q]. rewrite R in Q. exact Q.
Qed.
Theorem C77_rcparams_restored : forall m h s,
  mpl_contract m -> rc_wf m (rc s) -> Forall (call_wf m) h ->
  forall k v, k <> "backend" -> dget k (rc s) = Some v -> dget k (rc (vrun m h s)) = Some v.
Proof.
  intros m h s C W F. unfold vrun. revert s W. induction F as [|c h Hc F IH]; cbn [fold_left]; intros s W k v Hk H; [exact H|].
  destruct (step_rc m s c C W Hc) as [W' G]. apply IH; auto.
Qed.
(** an adapter that changes a parameter and raises, after a rejected style *)
Definition noisy : adapter := {| acls := "Noisy"; capabilities := ["equation"]; arender := fun r _ _ => (dset "font.size" "99" r, Raises "boom") |}.
Definition demo_mpl : mpl := {| conv := fun k v => if String.eqb k "bogus" then None else Some v; usable := fun b => if String.eqb b "agg" then Some "agg" else None |}.
Example C77_rcparams_restored_ex :
  mpl_contract demo_mpl /\ rc_wf demo_mpl [("font.size", "7"); ("backend", "qt")] /\ adapter_wf demo_mpl noisy /\
  let s := {| cfg := initial_config; rc := [("font.size", "7"); ("backend", "qt")] |} in
  let h := [VRender (Some noisy) "M" "equation" (Some [("font.size", "8"); ("bogus", "1")]) "matplotlib"; VRender (Some noisy) "M" "equation" None "agg"] in
  dget "font.size" (rc (vrun demo_mpl h s)) = Some "7" /\ dget "backend" (rc (vrun demo_mpl h s)) = Some "agg".
Proof.
  split; [split|split; [split|split]].
  - cbn. intros k v v'. destruct (String.eqb k "bogus"); congruence.
  - cbn. intros b n. destruct (String.eqb b "agg"); [reflexivity|discriminate].
  - cbn. repeat constructor; cbn; intuition discriminate.
  - repeat constructor.
  - intros r k c W. cbn. apply dset_wf; [reflexivity|exact W].
  - split; reflexivity.
Qed.

(** When the adapter is entered, and under which settings: exactly when the
    requested back end (if any) could be activated, there is an adapter, it
    lists the intent, and matplotlib accepts every style setting; each
    parameter then has the request's value, else the configured one, else the
    ambient one; what the adapter returns or raises is what the caller gets. *)
Definition overlay (m : mpl) (k : string) (extra : option dict) (conf : dict) (ambient : option string) : option string :=
  match match extra with Some e => last_of k e | None => None end with
  | Some v => conv m k v
  | None => match dget k conf with Some v => conv m k v | None => ambient end
  end.
Definition conf_wf (s : st) : Prop := NoDup (map fst (style (cfg s))).
Theorem C77_adapter_entered : forall m a t k e b s,
  mpl_contract m -> rc_wf m (rc s) -> conf_wf s -> asks b s = None ->
  In k (capabilities a) -> style_ok m (style (cfg s)) -> style_ok m (match e with Some e => e | None => [] end) ->
  exists entered ctx,
    snd (render m (Some a) t k e b s) = Some (entered, ctx) /\
    snd (fst (render m (Some a) t k e b s)) = snd (arender a (rc entered) k ctx) /\
    cfg entered = cfg s /\ ctx_config ctx = cfg s /\
    ctx_backend ctx = (match cfg_backend (cfg s) with None | Some "" => "matplotlib" | Some c => c end) /\
    forall key, dget key (rc entered) = overlay m key e (style (cfg s)) (dget key (rc s)).
Proof.
  intros m a t k e b s C W N A I S1 S2. rewrite render_unfold, A. cbn [negb]. cbv zeta.
  assert (existsb (String.eqb k) (capabilities a) = true) as -> by (apply existsb_exists; exists k; split; [exact I|apply String.eqb_refl]). cbn [negb].
  set (ctx := {| ctx_config := cfg s; ctx_backend := _ |}).
  set (comb := match e with None => style (cfg s) | Some e => dupdate (style (cfg s)) e end).
  assert (style_ok m comb) as S3.
  { subst comb. destruct e as [e|]; [|exact S1]. clear -S1 S2. unfold dupdate. revert S1. generalize (style (cfg s)). induction S2 as [|[p q] e Hp S2 IH]; cbn; intros d H; [exact H|]. apply IH. apply dset_forall; assumption. }
  unfold style_context. fold comb. destruct (rcupdate_dget m "" comb (rc s) S3) as [O _].
  destruct (rcupdate m (rc s) comb) as [r1 o1] eqn:R. cbn [fst snd] in *. subst o1.
  destruct (arender a r1 k ctx) as [r2 out] eqn:AR. destruct (rcupdate m r2 (rc s)) as [r3 o3] eqn:R3. cbn [fst snd].
  pose proof (restore_ok m (rc s) r2 W) as O3. rewrite R3 in O3. cbn in O3. subst o3.
  exists {| cfg := cfg s; rc := r1 |}, ctx. split; [reflexivity|]. split; [cbn [rc]; now rewrite AR|]. split; [reflexivity|]. split; [reflexivity|].
  split. { unfold asks in A. subst ctx. cbn [ctx_backend]. destruct (String.eqb b "matplotlib") eqn:B1; cbn [orb negb]; [reflexivity|].
    destruct (String.eqb b "") eqn:B2; cbn [orb negb]; [reflexivity|]. cbn [orb] in A. destruct (cfg_backend (cfg s)) as [x|]; [|discriminate A].
    destruct (String.eqb b x) eqn:B3; [|discriminate A]. apply String.eqb_eq in B3. subst x. destruct b; [discriminate B2|reflexivity]. }
  intros key. cbn [rc]. destruct (rcupdate_dget m key comb (rc s) S3) as [_ B]. rewrite R in B. cbn in B. rewrite B. unfold overlay.
  subst comb. destruct e as [e|].
  - rewrite last_of_dget by now apply dupdate_nodup. rewrite dget_dupdate. destruct (last_of key e); [reflexivity|]. destruct (dget key (style (cfg s))); reflexivity.
  - rewrite last_of_dget by exact N. destruct (dget key (style (cfg s))); reflexivity.
Qed.
(** A back end that can be activated: rendering with it is the same as
    configuring it globally first, after which the call asks for nothing (so
    the theorems about [asks b s = None] apply to the second state). *)
Theorem C77_backend_request_is_configure : forall m ad t k e b s x n,
  asks b s = Some x -> usable m x = Some n ->
  let s1 := fst (configure m None None (Some b) s) in
  render m ad t k e b s = render m ad t k e b s1 /\ asks b s1 = None /\ cfg_backend (cfg s1) = Some b /\ dget "backend" (rc s1) = Some n.
Proof.
  intros m ad t k e b s x n A U s1.
  assert (x = b) as ->. { unfold asks in A. destruct (_ || _); [discriminate|]. destruct (match cfg_backend (cfg s) with Some _ => _ | None => _ end); congruence. }
  assert (asks b s1 = None) as A1. { subst s1. unfold asks. cbn. rewrite U. cbn. rewrite String.eqb_refl. destruct (_ || _); reflexivity. }
  split; [|split; [exact A1|]].
  - rewrite !render_unfold, A, A1. subst s1. destruct (configure m None None (Some b) s) as [s1 ok] eqn:E. cbn in E. rewrite U in E. inversion E. subst. reflexivity.
  - subst s1. cbn. rewrite U. cbn. split; [reflexivity|apply dget_dset].
Qed.
Example C77_adapter_entered_ex : 
  let s := {| cfg := initial_config; rc := [("font.size", "7"); ("backend", "qt")] |} in
  conf_wf s /\ asks "matplotlib" s = None /\ style_ok demo_mpl (style (cfg s)) /\
  match render demo_mpl (Some noisy) "M" "equation" (Some [("font.size", "8")]) "matplotlib" s with
  | (s', out, Some (entered, ctx)) => out = Raises "boom" /\ dget "font.size" (rc entered) = Some "8" /\ dget "savefig.dpi" (rc entered) = Some "300" /\ dget "backend" (rc entered) = Some "qt" /\ dget "font.size" (rc s') = Some "7"
  | _ => False end.
Proof.
  split; [|split; [|split]].
  - cbn. repeat constructor; cbn; intuition discriminate.
  - reflexivity.
  - cbn. repeat constructor; discriminate.
  - repeat split.
Qed.

(** The adapter is NOT entered in every other case, and then: with no adapter
    or an unlisted intent the caller gets a result without content carrying
    exactly one warning and the requested intent, and rcParams and
    configuration are untouched; a rejected style setting or back end raises. *)
Theorem C77_adapter_not_entered : forall m t k e b s,
  mpl_contract m -> rc_wf m (rc s) ->
  (asks b s = None ->
     (exists msg, render m None t k e b s = (s, Returned {| intent := k; has_content := false; warnings := [msg]; md_capabilities := None |}, None)) /\
     (forall a, ~ In k (capabilities a) -> exists msg caps,
        render m (Some a) t k e b s = (s, Returned {| intent := k; has_content := false; warnings := [msg]; md_capabilities := Some caps |}, None) /\
        Permutation caps (capabilities a)) /\
     (forall a, In k (capabilities a) -> ~ style_ok m (match e with None => style (cfg s) | Some e => dupdate (style (cfg s)) e end) ->
        snd (render m (Some a) t k e b s) = None /\ exists err, snd (fst (render m (Some a) t k e b s)) = Raises err)) /\
  (forall x ad, asks b s = Some x -> usable m x = None -> render m ad t k e b s = (s, Raises "matplotlib.use", None)).
Proof.
  intros m t k e b s C W. split.
  - intros A. split; [|split].
    + rewrite render_unfold, A. cbn. eexists. reflexivity.
    + intros a NI. rewrite render_unfold, A. cbn [negb]. cbv zeta.
      assert (existsb (String.eqb k) (capabilities a) = false) as ->.
      { destruct (existsb _ _) eqn:X; [|reflexivity]. apply existsb_exists in X as (y & Hy & Ey). apply String.eqb_eq in Ey. now subst. }
      cbn [negb]. eexists. eexists. split; [reflexivity|]. unfold sorted. induction (capabilities a) as [|c l IH]; [constructor|]. cbn [fold_right].
      assert (forall y r, Permutation (insert_sorted y r) (y :: r)) as P.
      { intros y r. induction r as [|z r IHr]; cbn; [constructor; constructor|]. destruct (String.leb y z); [apply Permutation_refl|].
        transitivity (z :: y :: r); [now constructor|]. constructor. }
      rewrite P. constructor. apply IH. intros F. apply NI. now right.
    + intros a I S1. rewrite render_unfold, A. cbn [negb]. cbv zeta.
      assert (existsb (String.eqb k) (capabilities a) = true) as -> by (apply existsb_exists; exists k; split; [exact I|apply String.eqb_refl]). cbn [negb].
      unfold style_context. set (comb := match e with None => _ | Some _ => _ end) in *. pose proof (rcupdate_bad m comb (rc s) S1) as B.
      destruct (rcupdate m (rc s) comb) as [r1 o1]. cbn in B |- *. subst o1. destruct (rcupdate m r1 (rc s)) as [r3 o3]. cbn. split; [reflexivity|]. destruct o3; eexists; reflexivity.
  - intros x ad A U. rewrite render_unfold, A. cbn. rewrite U. cbn. destruct s as [[a0 b0 c0] d0]. reflexivity.
Qed.
Example C77_adapter_not_entered_ex :
  let s := {| cfg := initial_config; rc := [("font.size", "7"); ("backend", "qt")] |} in
  snd (fst (render demo_mpl (Some noisy) "M" "parity" None "matplotlib" s)) =
    Returned {| intent := "parity"; has_content := false; warnings := ["Adapter Noisy does not support intent 'parity'."]; md_capabilities := Some ["equation"] |}
  /\ render demo_mpl (Some noisy) "M" "equation" None "nope" s = (s, Raises "matplotlib.use", None).
Proof. split; reflexivity. Qed.

(** "A back end passed to one render call applies to that call" is false: it
    becomes the global configuration, even when the call finds no adapter,
    and later default calls use it. *)
Theorem C77_backend_one_call_only_refuted : exists s,
  cfg s = initial_config /\
  ctx_backend (match snd (render demo_mpl (Some noisy) "M" "equation" None "matplotlib" s) with Some (_, c) => c | None => {| ctx_config := cfg s; ctx_backend := "" |} end) = "matplotlib" /\
  let s' := fst (fst (render demo_mpl None "M" "equation" None "agg" s)) in
  cfg_backend (cfg s') = Some "agg" /\ dget "backend" (rc s') = Some "agg" /\
  ctx_backend (match snd (render demo_mpl (Some noisy) "M" "equation" None "matplotlib" s') with Some (_, c) => c | None => {| ctx_config := cfg s; ctx_backend := "" |} end) = "agg".
Proof. exists {| cfg := initial_config; rc := [("backend", "qt")] |}. repeat split. Qed.

(** "A [configure] call that raises changes nothing" is false: the style and
    directory of the same call are already in force. *)
Theorem C77_configure_atomic_refuted : exists s s',
  configure demo_mpl (Some [("font.size", "30")]) (Some "out") (Some "nope") s = (s', false) /\
  dget "font.size" (style (cfg s)) = Some "12" /\ dget "font.size" (style (cfg s')) = Some "30" /\ save_dir (cfg s') = Some "out".
Proof. exists {| cfg := initial_config; rc := [] |}. eexists. split; [reflexivity|]. repeat split. Qed.

(** Files go under the configured directory, else the working directory; an
    absolute name is used as it is. *)
Theorem C77_save_path : forall cwd d name, name <> "" -> (forall r, name <> String "/"%char r) ->
  resolve_output_path cwd name (Some d) = d ++ "/" ++ name /\
  resolve_output_path cwd name None = cwd ++ "/" ++ name /\
  resolve_output_path cwd (String "/"%char name) (Some d) = String "/"%char name.
Proof.
  intros cwd d name H1 H2. destruct name as [|c r]; [congruence|]. unfold resolve_output_path. destruct (Ascii.eqb c "/") eqn:E.
  - apply Ascii.eqb_eq in E. subst. exfalso. now apply (H2 r).
  - repeat split.
Qed.
Print Assumptions C77_configuration_history.
Print Assumptions C77_rcparams_restored.
Print Assumptions C77_adapter_entered.
Print Assumptions C77_adapter_not_entered.
Print Assumptions C77_backend_one_call_only_refuted.
Print Assumptions C77_configure_atomic_refuted.
Print Assumptions C77_save_path.
Print Assumptions C77_backend_request_is_configure.
