(** Further statements for C156 and C158, added after edits of the model that the earlier ones accepted. *)
From Coq Require Import QArith.
From Verif Require Import Base.
From Verif Require NdFigures LegacyDlga DlgaEq.
Local Open Scope string_scope.
Local Open Scope nat_scope.
Local Open Scope list_scope.

(** The figures over one or two space axes carry no warning; three axes and more than three have each their own. *)
Theorem C156_notes n : (n <= 2 -> NdFigures.notes n = []) /\
  (n = 3 -> NdFigures.notes n = ["3D spatial visualization is experimental; showing 2D slice."]) /\
  (3 < n -> NdFigures.notes n = ["ND spatial visualization uses degraded slice mode."]).
Proof.
  unfold NdFigures.notes. destruct (Nat.eqb_spec n 3) as [->|N]; [split; [lia|split; [reflexivity|lia]]|].
  destruct (Nat.ltb_spec 3 n); (split; [intros; try lia; reflexivity|split; [lia|intros; try lia; reflexivity]]).
Qed.

Lemma joins_concat l : DlgaEq.joins "-" l = String.concat "-" l.
Proof. induction l as [|x l IH]; [reflexivity|]. destruct l as [|y l]; [reflexivity|]. cbn [DlgaEq.joins String.concat]. cbn [DlgaEq.joins] in IH. rewrite IH. reflexivity. Qed.
(** Without a label of their own the axes are labelled by the names of their variables with "-" between them. *)
Theorem C158_default_labels meta x y color d : LegacyDlga.equation_terms meta x y color = Ok (Some d) ->
  (LegacyDlga.label x = None -> LegacyDlga.ch_xlabel d = String.concat "-" (LegacyDlga.vars x)) /\
  (LegacyDlga.label y = None -> LegacyDlga.ch_ylabel d = String.concat "-" (LegacyDlga.vars y)).
Proof.
  unfold LegacyDlga.equation_terms. destruct (LegacyDlga.vars x) as [|a xs]; [discriminate|]. destruct (LegacyDlga.vars y) as [|b ys]; [discriminate|]. destruct (forallb _ _); [|discriminate].
  destruct (LegacyDlga.product _); [|discriminate]. cbn [bind]. destruct (LegacyDlga.product _); [|discriminate]. cbn [bind]. destruct (negb _); [discriminate|]. intros E.
  split; intros L; rewrite L in E; rewrite <- joins_concat; (destruct color as [c|]; [destruct (meta c); [destruct (_ =? _); [|discriminate]|]|]); injection E as <-; reflexivity.
Qed.
Example C158_default_case : exists d, LegacyDlga.equation_terms (fun v => Some [2%Q]) (LegacyDlga.mkTerm ["u"; "u_x"] None) (LegacyDlga.mkTerm ["a"; "b"; "c"] None) None = Ok (Some d) /\ LegacyDlga.ch_ylabel d = "a-b-c".
Proof. eexists. split; reflexivity. Qed.
Print Assumptions C156_notes.
Print Assumptions C158_default_labels.
