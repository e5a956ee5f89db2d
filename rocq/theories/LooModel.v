(** Model of the analytical leave-one-out predictions and of Q2 of the kriging and of the polynomial chaos, over the reals.
    /repo/otpod/_kriging_tools.py 520-565 and _polynomial_chaos_pod.py 417-433.  Vectors are functions of the index. *)
From Verif Require Import RealBase MatBase.
Local Open Scope R_scope.

(** numpy division: None stands for an infinite or NaN quotient. General Python or numpy semantics, no line of its own. *)
Definition qdiv (a b : R) : option R := if Reqb b 0 then None else Some (a / b).

(** *** KrigingBase._computeLOO *)
(** Line 548: S = [[K, F], [F^T, 0]], K of size n x n (line 533), F of size n x p (lines 542-544). *)
Definition block_matrix (n : nat) (K F : mat) : mat :=
  fun i j => if Nat.ltb i n then (if Nat.ltb j n then K i j else F i (j - n)%nat)
             else (if Nat.ltb j n then F j (i - n)%nat else 0).
(** Line 549: np.linalg.inv(S); the matrix it returns is an argument [M] of the model, specified by this predicate. *)
Definition is_inverse (n : nat) (S M : mat) : Prop := meq n n (mmul n M S) mid /\ meq n n (mmul n S M) mid.
(** Lines 550-553: B is the upper left block of the inverse; prediction i is minus the product of row i of B without its
    diagonal, divided by the diagonal element, and the outputs. *)
Definition y_loo (n : nat) (M : mat) (y : nat -> R) (i : nat) : option R :=
  if Reqb (M i i) 0 then None
  else Some (- bigsum n (fun k => M i k * (1 - mid i k) / M i i * y k)).

(** Mean of a vector, and the sum of the squared deviations from it. General Python or numpy semantics, no line of its own. *)
Definition vmean (n : nat) (y : nat -> R) : R := bigsum n y / INR n.
(** Sum of squared deviations from the mean. General Python or numpy semantics, no line of its own. *)
Definition vss (n : nat) (y : nat -> R) : R := bigsum n (fun i => (y i - vmean n y) * (y i - vmean n y)).
(** KrigingBase._computeQ2, lines 556-565; np.var has denominator n.  [loo] are the predictions. *)
Definition kriging_q2 (n : nat) (y loo : nat -> R) : option R :=
  option_map (Rminus 1) (qdiv (bigsum n (fun i => (y i - loo i) * (y i - loo i)) / INR n) (vss n y / INR n)).

(** *** PolynomialChaosPOD.getQ2 *)
(** Line 427: Gram matrix of the basis matrix X (n observations). *)
Definition gram (n : nat) (X : mat) : mat := mmul n (mtr X) X.
(** Line 428: H = X Z with Z the solution of gram Z = X^T returned by solveLinearSystem. *)
Definition hat (p : nat) (X Z : mat) : mat := mmul p X Z.
(** Line 430: the predictions of the chaos at the observations. *)
Definition fitted (p : nat) (X : mat) (beta : nat -> R) (i : nat) : R := bigsum p (fun a => X i a * beta a).
(** Line 431. *)
Definition chaos_delta (p : nat) (X Z : mat) (beta y : nat -> R) (i : nat) : option R :=
  qdiv (y i - fitted p X beta i) (1 - hat p X Z i i).
(** Line 433: ot.Sample.computeVariance has denominator n - 1.  [delta] are the values of line 431. *)
Definition chaos_q2 (n : nat) (y delta : nat -> R) : option R :=
  option_map (Rminus 1) (qdiv (bigsum n (fun i => delta i * delta i) / INR n) (vss n y / (INR n - 1))).
(** PolynomialChaosPOD.getR2, lines 405-415, through computeR2, _math_tools.py 114-120 (subtracting the mean of the signals
    does not change their variance). *)
Definition chaos_r2 (n : nat) (y e : nat -> R) : option R :=
  option_map (Rminus 1) (qdiv (vss n e / (INR n - 1)) (vss n y / (INR n - 1))).
