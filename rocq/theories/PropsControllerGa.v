(** C48: programs built outside the sampler are trained with the observations the sampler would have recorded. *)
From Coq Require Import QArith.
From Verif Require Import Base Num Library Subroutines Prior PriorSpec PriorFacts EqGpt Controller Aggregator ExampleLib PropsController.
Local Open Scope nat_scope.
Local Open Scope list_scope.

Lemma dangling_sum lib l : forall z, (fold_left (fun d t => d + (Z.of_nat (ar_of lib t) - 1)) l z = z + fold_right (fun a s => Z.of_nat (ar_of lib a) - 1 + s) 0 l)%Z.
Proof. induction l as [|a l IH]; intros z; cbn [fold_left fold_right]; [lia|]. rewrite IH. lia. Qed.
Lemma last_nth t (l : list nat) : S t <= List.length l -> last (firstn (S t) l) 0 = nth t l 0.
Proof.
  revert l. induction t as [|t IH]; intros [|a l] Hl; cbn [List.length] in Hl; try lia; [reflexivity|].
  cbn [nth]. rewrite <- IH by lia. destruct l as [|b l]; [cbn [List.length] in Hl; lia|]. reflexivity.
Qed.

(** The tokens of a sampled episode, given to the aggregator as a program of its own, get at every step the previous token
    and the number of open slots that sampling recorded for training. *)
Theorem C48_as_recorded H cell zero lib m ps soft0 soft draw n s t : lib_ok lib ->
  sample_episode H cell zero lib m ps soft0 soft draw n = Ok s -> t < Nat.max 1 n ->
  exists o, nth_error (l_obs s) t = Some o /\ agent_obs lib (l_actions s) t = (ob_action o, ob_dangling o).
Proof.
  intros K E Ht. destruct (C126_episode H cell zero lib m ps soft0 soft draw n s K E) as (L1 & _ & _ & _ & A).
  destruct (A t Ht) as (_ & _ & Eo). eexists. split; [exact Eo|]. unfold agent_obs. cbn [set_dangling ob_action ob_dangling]. f_equal.
  - destruct t as [|t]; [reflexivity|]. unfold seen.
    destruct (obs_of_Ok lib (firstn (S t) (l_actions s))) as (o & E1). { destruct (l_actions s); [cbn [List.length] in L1; lia|discriminate]. }
    rewrite E1. cbn [ob_action]. symmetry. apply last_nth. lia.
  - unfold dangling_of. rewrite dangling_sum. reflexivity.
Qed.
(** ... while the open slots the policy was shown when it chose the token are those before the step. *)
Theorem C48_as_seen lib l t : lib_ok lib -> t <= List.length l ->
  sampler_obs lib l t = (ob_action (seen lib (firstn t l)), ob_dangling (seen lib (firstn t l))).
Proof.
  intros ((toks & _ & E) & _) Ht. unfold sampler_obs. rewrite seen_dangling. unfold dangling_of. rewrite dangling_sum. f_equal.
  destruct t as [|t].
  - unfold make_library in E. destruct (_ && _) in E; [discriminate|]. injection E as <-. cbn [firstn]. unfold seen. rewrite obs_nil. cbn [ob_action lEMPTY_ACTION lL]. lia.
  - unfold seen. destruct (obs_of_Ok lib (firstn (S t) l)) as (o & E1). { destruct l; [cbn in Ht; lia|discriminate]. }
    rewrite E1. cbn [ob_action]. symmetry. apply last_nth. lia.
Qed.
Print Assumptions C48_as_recorded.
Print Assumptions C48_as_seen.
