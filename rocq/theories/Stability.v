(** Model of PDEPINNTask.stability_test and cal_mse_cv (kd/model/discover/task/pde/pde_pinn.py:377-434).
    Least squares, the standard deviation and the random draws are arguments; numbers are rationals, and None stands for
    a result numpy reports as nan or inf (mean of nothing, division by zero). *)
From Coq Require Import QArith Qabs.
From Verif Require Import Base SparseReg.
Local Open Scope nat_scope.

(** a[index] (pde_pinn.py:411-412, 423-424) *)
Definition take {A} (idx : list nat) (l : list A) : res (list A) :=
  mapM (fun i => match nth_error l i with Some x => Ok x | None => Err IndexError end) idx.
(** .mean() *)
Definition mean_opt (l : list Q) : option Q := match l with [] => None | _ => Some (fold_right Qplus 0 l / inject_Z (Z.of_nat (List.length l)))%Q end.
Fixpoint all_some {A} (l : list (option A)) : option (list A) :=
  match l with [] => Some [] | Some x :: l' => option_map (cons x) (all_some l') | None :: _ => None end.
(** np.mean((ut_sub - y_rhs_sub.dot(w_sub)) ** 2) (pde_pinn.py:427-428) *)
Definition mean_error (rows : list (list Q)) (ut w : list Q) : option Q :=
  mean_opt (map (fun p => let e := (snd p - dot (fst p) w)%Q in (e * e)%Q) (combine rows ut)).
Section Test.
Context (lstsq : list (list Q) -> list Q -> list Q) (sd : list Q -> Q).
(** np.abs(np.std(coefs[:,i]) / np.mean(coefs[:,i])) (pde_pinn.py:417) *)
Definition cv_one (col : list Q) : option Q :=
  match mean_opt col with Some m => if Qeq_bool m 0 then None else Some (Qabs (sd col / m)) | None => None end.
(** calculate_cv (pde_pinn.py:405-418); [k] is the number of terms, [inner] the resamplings *)
Definition calculate_cv (k : nat) (ut : list Q) (rows : list (list Q)) (inner : list (list nat)) : res (option Q) :=
  do coefs <- mapM (fun idx => do u <- take idx ut ; do r <- take idx rows ; Ok (lstsq r u)) inner ;
  Ok (match all_some (map (fun i => cv_one (map (fun c => nth i c 0%Q) coefs)) (seq 0 k)) with Some l => mean_opt l | None => None end).
(** one round of the loop (pde_pinn.py:420-431) *)
Definition round_ (k : nat) (ut : list Q) (rows : list (list Q)) (draw : list nat * list (list nat)) : res (option Q * option Q) :=
  do u <- take (fst draw) ut ; do r <- take (fst draw) rows ;
  do cv <- calculate_cv k u r (snd draw) ;
  Ok (mean_error r u (lstsq r u), cv).
(** cal_mse_cv (pde_pinn.py:392-434); [rows] are the rows of y_right *)
Definition cal_mse_cv (k : nat) (ut : list Q) (rows : list (list Q)) (draws : list (list nat * list (list nat))) : res (list (option Q) * list (option Q)) :=
  if Nat.eqb (List.length ut) (List.length rows) then do l <- mapM (round_ k ut rows) draws ; Ok (map fst l, map snd l)
  else Err ValueError.
End Test.
