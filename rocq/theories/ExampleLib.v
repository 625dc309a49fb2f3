(** A concrete library, used only in non-vacuity examples and refutations: the
    default PDE function set (config/config_pde.json:13) with one state variable
    and two input variables. *)
From Verif Require Import Base Trees Library Prior PriorSpec.
Local Open Scope string_scope.
Definition op (n : string) (a : nat) : token := mkTok n a None None None.
Definition ex_toks : list token :=
  [op "add" 2; op "mul" 2; op "div" 2; op "diff" 2; op "diff2" 2; op "diff3" 2; op "n2" 1; op "n3" 1;
   mkTok "u1" 0 None (Some 0) None; mkTok "x1" 0 (Some 0) None None; mkTok "x2" 0 (Some 1) None None].
Definition the (r : res library) : library :=
  match r with
  | Ok l => l
  | Err _ => mkLib [] 0 [] [] [] [] [] [] [] [] None [] [] [] [] 0 0 0
  end.
Definition ex_lib : library := the (make_library ex_toks).
Lemma ex_tokens_ok : tokens_ok ex_toks.
Proof. repeat constructor. Qed.
Lemma ex_make : make_library ex_toks = Ok ex_lib.
Proof. reflexivity. Qed.
Lemma small_arities lib : forallb (fun a => Nat.leb a 2) (larities lib) = true -> forall t, ar_of lib t <= 2.
Proof.
  intros H t. unfold ar_of. rewrite forallb_forall in H.
  destruct (nth_in_or_default t (larities lib) 0) as [Hin| ->]; [|lia]. apply H in Hin. apply Nat.leb_le in Hin. exact Hin.
Qed.
Lemma ex_lib_ok : lib_ok ex_lib.
Proof. split; [exists ex_toks; split; [exact ex_tokens_ok|exact ex_make]|]. apply small_arities. reflexivity. Qed.

(** A library with trigonometric functions, and a tiny one. *)
Definition mk (l : list token) : library := the (make_library l).
Lemma mk_ok l : tokens_ok l -> (exists lib, make_library l = Ok lib) -> forallb (fun a => Nat.leb a 2) (map tarity l) = true -> lib_ok (mk l).
Proof.
  intros H1 (lib & E) H2. unfold mk. rewrite E. cbn [the]. split; [exists l; auto|]. apply small_arities.
  assert (larities lib = map tarity l) as ->; [|exact H2].
  unfold make_library in E. destruct (_ && _) in E; [discriminate|]. injection E as <-. reflexivity.
Qed.
Definition trig_toks : list token :=
  [op "add" 2; op "sin" 1; op "exp" 1; op "cos" 1; mkTok "u1" 0 None (Some 0) None; mkTok "x1" 0 (Some 0) None None].
Lemma trig_lib_ok : lib_ok (mk trig_toks).
Proof. apply mk_ok; [repeat constructor|eexists; reflexivity|reflexivity]. Qed.
Definition tiny_toks : list token := [op "add" 2; mkTok "u1" 0 None (Some 0) None; mkTok "x1" 0 (Some 0) None None].
Lemma tiny_lib_ok : lib_ok (mk tiny_toks).
Proof. apply mk_ok; [repeat constructor|eexists; reflexivity|reflexivity]. Qed.

Local Close Scope string_scope.
(** Deciding [sampled] on concrete sequences. *)
Definition permittedb lib ps l t : bool := Nat.ltb t (lL lib) && forallb (fun p => negb (memb t (forbidden lib p l))) ps.
Fixpoint sampledb_from lib ps (done rest : list nat) : bool :=
  match rest with [] => true | t :: rest' => permittedb lib ps done t && sampledb_from lib ps (done ++ [t]) rest' end.
Definition sampledb lib ps l := sampledb_from lib ps [] l.
Lemma permittedb_iff lib ps l t : permittedb lib ps l t = true <-> permitted lib ps l t.
Proof.
  unfold permittedb, permitted. rewrite andb_true_iff, Nat.ltb_lt, forallb_forall. split; intros [H1 H2]; split; auto.
  - intros p Hp. specialize (H2 p Hp). apply negb_true_iff in H2. apply memb_nIn in H2. exact H2.
  - intros p Hp. apply negb_true_iff. apply memb_nIn. auto.
Qed.
Lemma sampledb_from_ok lib ps rest : forall done, sampled lib ps done -> sampledb_from lib ps done rest = true -> sampled lib ps (done ++ rest).
Proof.
  induction rest as [|t rest IH]; intros done H E; [rewrite app_nil_r; exact H|].
  cbn [sampledb_from] in E. apply andb_true_iff in E as [E1 E2].
  replace (done ++ t :: rest) with ((done ++ [t]) ++ rest) by (rewrite <- app_assoc; reflexivity).
  apply IH; [|exact E2]. apply sampled_snoc; [exact H|]. apply permittedb_iff. exact E1.
Qed.
Lemma sampledb_ok lib ps l : sampledb lib ps l = true -> sampled lib ps l.
Proof. intros H. exact (sampledb_from_ok lib ps l [] (sampled_nil lib ps) H). Qed.
Definition stuckb lib ps l : bool := forallb (fun t => negb (permittedb lib ps l t)) (seq 0 (lL lib)).
Lemma stuckb_ok lib ps l : stuckb lib ps l = true -> ~ exists t, permitted lib ps l t.
Proof.
  intros H (t & Ht). unfold stuckb in H. rewrite forallb_forall in H.
  specialize (H t). rewrite (proj2 (permittedb_iff lib ps l t) Ht) in H.
  destruct Ht as [Ht _]. assert (In t (seq 0 (lL lib))) as Hin by (apply in_seq; lia). specialize (H Hin). discriminate H.
Qed.
