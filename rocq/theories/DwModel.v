(** Model of the normal approximation in computeDurbinWatsonTest, /repo/otpod/_math_tools.py 191-216 (one input
    dimension: dim + 1 = 2 columns). *)
From Verif Require Import RealBase MatBase.
Local Open Scope R_scope.

(** 192-194: X = [1, x]. *)
Definition design (x : nat -> R) : mat := fun i j => match j with O => 1 | 1%nat => x i | _ => 0 end.
(** 195-199: a zero matrix, whose second column is filled entry by entry. *)
Definition dw_B (n : nat) (x : nat -> R) : mat := fun i j =>
  if Nat.eqb j 1 then
    if Nat.eqb i 0 then x 0%nat - x 1%nat
    else if Nat.eqb i (n - 1) then x (n - 1)%nat - x (n - 2)%nat
    else - x (i - 1)%nat + 2 * x i - x (i + 1)%nat
  else 0.
(** 201-202; [inv] is the inverse of the Gram matrix X'X (solveLinearSystem(M) = inv M). *)
Definition dw_XBQt (n : nat) (x : nat -> R) (inv : mat) : mat := mmul 2 inv (mmul n (mtr (dw_B n x)) (design x)).
(** Line 203: P = 2 (nx - 1) - trace. *)
Definition dw_P (n : nat) (x : nat -> R) (inv : mat) : R := 2 * (INR n - 1) - mtrace 2 (dw_XBQt n x inv).
(** Lines 204-214: Q. *)
Definition dw_Q (n : nat) (x : nat -> R) (inv : mat) : R :=
  2 * (3 * INR n - 4) - 2 * mtrace 2 (mmul 2 inv (mmul n (mtr (dw_B n x)) (dw_B n x)))
  + mtrace 2 (mmul 2 (dw_XBQt n x inv) (dw_XBQt n x inv)).
(** Line 215: dmean, dim = 1. *)
Definition dw_mean (n : nat) (x : nat -> R) (inv : mat) : R := dw_P n x inv / (INR n - 2).
(** Line 216: dvar, dim = 1. *)
Definition dw_var (n : nat) (x : nat -> R) (inv : mat) : R :=
  2 / ((INR n - 2) * (INR n - 2 + 2)) * (dw_Q n x inv - dw_P n x inv * dw_mean n x inv).
