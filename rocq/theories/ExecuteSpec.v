(** Specification of expression evaluation: recursion over the tree. *)
From Verif Require Import Base Trees Library Execute.

Section Spec.
Context {V : Type}.
Variables (u x : list V) (param : token -> V).
Variable call : token -> list V -> extra -> option V.

(** Values of a list of expressions, left to right, stopping at the first failure. *)
Definition seqv (f : tree token -> out V) : list (tree token) -> list V + out V :=
  fix go (l : list (tree token)) :=
    match l with
    | [] => inl []
    | t :: l' => match f t with
                 | OVal v => match go l' with inl vs => inl (v :: vs) | inr o => inr o end
                 | o => inr o
                 end
    end.

(** The variable named by an expression that is just an input variable. *)
Definition var_of (t : tree token) : option nat :=
  match t with Nd tok [] => tinput tok | _ => None end.

Definition last_child (cs : list (tree token)) : option (tree token) :=
  match rev cs with [] => None | c :: _ => Some c end.

(** Dimension (1-based) named by the last argument. *)
Definition own_dim (cs : list (tree token)) : option nat :=
  match last_child cs with
  | Some c => match var_of c with Some i => Some (i + 1) | None => None end
  | None => None
  end.

(** Meaning of an expression in which every derivative operator takes its
    dimension from its own last argument. *)
Fixpoint sem (t : tree token) : out V :=
  match t with
  | Nd tok cs =>
      match seqv sem cs with
      | inr o => o
      | inl vs =>
          match tinput tok with
          | Some i => match nth_error x i with Some v => OVal v | None => ORaise IndexError end
          | None =>
          match tparam tok with
          | Some _ => OVal (param tok)
          | None =>
          match tstate tok with
          | Some i => match nth_error u i with Some v => OVal v | None => ORaise IndexError end
          | None =>
              match call tok vs (if has_diff (tname tok) then Dim (own_dim cs)
                                 else if is_lap (tname tok) then AllX else NoExtra) with
              | Some v => OVal v
              | None => ONone
              end
          end end end
      end
  end.

(** Every derivative operator has an input variable as last argument. *)
Inductive diff_ok : tree token -> Prop :=
| diff_ok_Nd tok cs :
    (has_diff (tname tok) = true -> tinput tok = None -> tparam tok = None -> tstate tok = None ->
     exists c i, last_child cs = Some c /\ var_of c = Some i) ->
    Forall diff_ok cs -> diff_ok (Nd tok cs).
End Spec.

(** Evaluation threading the "last variable seen" flag, for arbitrary
    expressions (also those violating [diff_ok]). *)
Section Threaded.
Context {V F : Type}.
Variable app : token -> list V -> F -> (V * F) + out V.
Definition seqf (f : tree token -> F -> (V * F) + out V) : list (tree token) -> F -> (list V * F) + out V :=
  fix go (l : list (tree token)) (flag : F) :=
    match l with
    | [] => inl ([], flag)
    | t :: l' => match f t flag with
                 | inl (v, flag') => match go l' flag' with
                                     | inl (vs, flag'') => inl (v :: vs, flag'')
                                     | inr o => inr o end
                 | inr o => inr o
                 end
    end.
Fixpoint evalf (t : tree token) (flag : F) : (V * F) + out V :=
  match t with
  | Nd tok cs => match seqf evalf cs flag with
                 | inl (vs, flag') => app tok vs flag'
                 | inr o => inr o
                 end
  end.
End Threaded.
