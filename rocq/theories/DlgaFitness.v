(** Model of DLGA's score (kd/model/dlga.py:283-320 get_fitness, 260-281 translate_DNA through DlgaEq.v).
    A matrix is the list of its columns, each of length n (the number of rows of Theta).  Numbers are rationals:
    float rounding is not modelled, and neither is the case that the first entry of the singular vector is
    exactly -1e-8, in which numpy divides by zero (x / 0 is 0 here; the theorems exclude it).
    [last_vec] stands for  u, d, v = np.linalg.svd(A, full_matrices=False); v.T[:, -1]. *)
From Coq Require Import QArith.
From Verif Require Import Base Num Dlga DlgaEq.
Local Open Scope list_scope.

Definition eps : Q := 1 # 100000000.
Fixpoint qsum (l : list Q) : Q := match l with [] => 0 | x :: l' => x + qsum l' end.
(** v.T[:, -1] / (v.T[:, -1][0] + 1e-8) (dlga.py:296) *)
Definition coef_NN (v : list Q) : list Q := map (fun x => (x / (nth 0 v 0 + eps))%Q) v.
(** -coef_NN[1:] (dlga.py:297) *)
Definition coef (v : list Q) : list Q := map Qopp (tl (coef_NN v)).
(** np.dot(G, c), row i *)
Definition dot (G : list column) (c : list Q) (i : nat) : Q := qsum (map (fun p => (nth i (fst p) 0 * snd p)%Q) (combine G c)).
(** u_t - np.dot(gene_translate, coef) (dlga.py:298) *)
Definition res (n : nat) (u : column) (G : list column) (c : list Q) : list Q := map (fun i => (nth i u 0 - dot G c i)%Q) (seq 0 n).
(** np.sum(np.array(res) ** 2) / total (dlga.py:308) *)
Definition mse (n : nat) (r : list Q) : Q := (qsum (map (fun x => x * x) r) / inject_Z (Z.of_nat n))%Q.

Record fitness := mkFit { f_coef : list Q; f_mse : Q; f_true : Q; f_name : string }.
Section Fit.
Variable last_vec : list column -> list Q.
(** get_fitness (dlga.py:283-320): MSE_true < MSE_true_tt is tested by [negb (tt <= t)]. *)
Definition get_fitness (n : nat) (u_t u_tt : column) (epi : Q) (G : list column) (pen : nat) : fitness :=
  let c := coef (last_vec (u_t :: G)) in
  let c2 := coef (last_vec (u_tt :: G)) in
  let m := mse n (res n u_t G c) in
  let m2 := mse n (res n u_tt G c2) in
  if negb (Qle_bool m2 m) then mkFit c (m + epi * inject_Z (Z.of_nat pen)) m "u_t"
  else mkFit c2 (m2 + epi * inject_Z (Z.of_nat pen)) m2 "u_tt".
(** What the search gets for a genome (dlga.py:388-395): translate_DNA, then get_fitness.  A gene without column
    is an IndexError. *)
Definition assess (n : nat) (th : list column) (u_t u_tt : column) (epi : Q) (g : genome) : Base.res fitness :=
  do G <- translate n th g ; Ok (get_fitness n u_t u_tt epi G (penalty g)).
(** The same as the function [fit] of Dlga.v (score, (coefficients, name)); a failing genome, which no run of a
    usable configuration contains, is given infinity. *)
Definition dlga_fit (n : nat) (th : list column) (u_t u_tt : column) (epi : Q) (g : genome) : num * (list Q * string) :=
  match assess n th u_t u_tt epi g with Ok f => (Fin (f_mse f), (f_coef f, f_name f)) | Err _ => (PInf, ([], EmptyString)) end.
End Fit.
