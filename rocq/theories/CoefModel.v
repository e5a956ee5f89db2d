(** The law of the coefficients of the polynomial chaos and the functions simulated from it: PolynomialChaosPOD.run, /repo/otpod/_polynomial_chaos_pod.py
    175-215, and _buildChaosFunction, 734-742. Real numbers. n observations, p basis functions, X the basis values at the observations. *)
From Verif Require Import RealBase MatBase LooModel.
Local Open Scope R_scope.

(** inputSize - basisSize - 1, lines 181 and 197. *)
Definition dof (n p : nat) : Z := Z.of_nat n - Z.of_nat p - 1.
(** Lines 178-182: [e] are the residuals. None: infinite or NaN (numpy division by zero, square root of a negative number). *)
Definition chaos_stderr (n p : nat) (e : nat -> R) : option R :=
  match qdiv (bigsum n (fun i => e i * e i)) (IZR (dof n p)) with
  | None => None
  | Some v => if Rltb v 0 then None else Some (sqrt v)
  end.
(** Lines 198-200, [x] is the realisation of ChiSquare(dof), drawn once; a number of degrees of freedom that is not positive is refused by OpenTURNS. *)
Definition varEpsilon (n p : nat) (s : option R) (x : R) : res R :=
  if Z.leb (dof n p) 0 then Raise GenericException
  else match s with None => Raise GenericException | Some s => Ok (/ x * IZR (dof n p) * (s * s)) end.
(** ot.Normal with its mean and covariance matrix, line 205. *)
Record law := { l_mean : nat -> R; l_cov : mat }.
(** Lines 196-208: [M] is the solution of gram M = identity returned by solveLinearSystem (203); ot.Normal refuses a covariance matrix that is not
    positive definite, which is what [pd] tests. *)
Definition coefs_law (pd : nat -> mat -> bool) (n p : nat) (e beta : nat -> R) (M : mat) (x : R) : res law :=
  do v <- varEpsilon n p (chaos_stderr n p e) x;
  let C := fun a b => M a b * v in
  if pd p C then Ok {| l_mean := beta; l_cov := C |} else Raise GenericException.
(** _buildChaosFunction, lines 734-742, at a point where the basis functions (after the transformation) take the values phi. *)
Definition chaos_value (p : nat) (phi coefs : nat -> R) : R := bigsum p (fun a => phi a * coefs a).
