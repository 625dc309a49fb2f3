(** Model of the network of DLGA (kd/utils/utils_GA.py:34-88 Rational, 91-110 Sin, 113-330 NN; used by
    kd/model/dlga.py:90-99 and by KD_DLGA).  Numbers are rationals (float rounding is not modelled); a matrix is the
    list of its rows; a batch with no rows carries no width.  Batch_Norm=True (never used by the package) and the
    optimiser are not modelled; the random initial weights are a parameter [draw layer row column]. *)
From Coq Require Import QArith.
From Verif Require Import Base.
Local Open Scope list_scope.

(** torch.nn.Linear: weight (out_features rows of in_features), bias *)
Record linear := mkLinear { weight : list (list Q); bias : list Q }.
Inductive activation := Tanh | Sine | Rational (a : Q * Q * Q * Q) (b : Q * Q * Q).
Record network := mkNet { layers : list linear; acts : list activation }.
Record config := mkCfg { hidden : Z; neurons : Z; inputs : Z; outputs : Z; act_name : string }.
(** Rational's initial coefficients (utils_GA.py:62-72) *)
Definition rational0 : activation := Rational (11915 # 10000, 15957 # 10000, 1 # 2, 218 # 10000)%Q (2383 # 1000, 0, 1)%Q.
(** What __init__ does: the network, an exception, or exit() *)
Inductive made := Made (n : network) | Raised (e : exn) | Exited.
Section Net.
Variables (draw : nat -> nat -> nat -> Q).
Definition fresh_linear (l i o : nat) : linear := mkLinear (map (fun r => map (draw l r) (seq 0 i)) (seq 0 o)) (repeat 0%Q o).
(** the widths of the layers (utils_GA.py:177-206): input, hidden times neurons, output *)
Definition widths (c : config) : list nat := Z.to_nat (inputs c) :: repeat (Z.to_nat (neurons c)) (Z.to_nat (hidden c)) ++ [Z.to_nat (outputs c)].
Fixpoint chain (l : nat) (ws : list nat) : list linear :=
  match ws with i :: (o :: _) as ws' => fresh_linear l i o :: chain (S l) ws' | _ => [] end.
(** NN.__init__ (utils_GA.py:141-257): the assertions come first; an unknown activation exits the process after all
    layers have been made. *)
Definition make (c : config) : made :=
  if negb (0 <? hidden c)%Z || negb (0 <? neurons c)%Z || negb (0 <? inputs c)%Z || negb (0 <? outputs c)%Z then Raised AssertionError else
  let ls := chain 0 (widths c) in let k := Z.to_nat (hidden c) in
  if String.eqb (act_name c) "Tanh" then Made (mkNet ls (repeat Tanh k))
  else if String.eqb (act_name c) "Sin" then Made (mkNet ls (repeat Sine k))
  else if String.eqb (act_name c) "Rational" then Made (mkNet ls (repeat rational0 k))
  else Exited.
End Net.
(** the network of DLGA(epi, input_dim) (dlga.py:90-99) *)
Definition dlga_config (input_dim : Z) : config := mkCfg 5 50 input_dim 1 "Sin".

Section Forward.
Variables (tanh sin : Q -> Q).
(** Rational.forward (utils_GA.py:74-88), Sin.forward (105-107), torch.nn.Tanh *)
Definition apply_act (f : activation) (x : Q) : Q :=
  match f with
  | Tanh => tanh x
  | Sine => sin x
  | Rational (a0, a1, a2, a3) (b0, b1, b2) => ((a0 + x * (a1 + x * (a2 + a3 * x))) / (b0 + x * (b1 + b2 * x)))%Q
  end.
Fixpoint dotp (a b : list Q) : Q := match a, b with x :: a', y :: b' => (x * y + dotp a' b')%Q | _, _ => 0%Q end.
(** Linear on one row: RuntimeError unless the row is as wide as the weight *)
Definition linear_row (l : linear) (x : list Q) : res (list Q) :=
  if forallb (fun w => Nat.eqb (List.length w) (List.length x)) (weight l) then Ok (map (fun p => (dotp (fst p) x + snd p)%Q) (combine (weight l) (bias l))) else Err RuntimeError.
Definition linear_batch (l : linear) (X : list (list Q)) : res (list (list Q)) := mapM (linear_row l) X.
(** forward (utils_GA.py:291-330) *)
Fixpoint forward_from (ls : list linear) (fs : list activation) (X : list (list Q)) : res (list (list Q)) :=
  match ls, fs with
  | l :: ls', f :: fs' => do Y <- linear_batch l X ; forward_from ls' fs' (map (map (apply_act f)) Y)
  | l :: _, [] => linear_batch l X
  | [], _ => Err IndexError
  end.
Definition forward (n : network) (X : list (list Q)) : res (list (list Q)) := forward_from (layers n) (acts n) X.
End Forward.
