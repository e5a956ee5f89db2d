(** Search of the covariance parameters of the kriging: KrigingBase._estimKrigingTheta, /repo/otpod/_kriging_tools.py 492-518, as called by
    KrigingPOD.run (_kriging_pod.py 167-173) and AdaptiveSignalPOD.run (_adaptive_signal_pod.py 214-220). Real numbers. *)
From Coq Require Import Reals.
From Verif Require Import RealBase.
Local Open Scope R_scope.

(** The GaussianProcessFitter: bounds, starting points of MultiStart, whether the parameters are optimised. Set at lines 508-516. *)
Record fitter := { f_bounds : option (list R * list R); f_starts : option (list (list R)); f_optimise : bool }.
(** The fitter built by _buildKrigingAlgo (_kriging_tools.py 414-420): OpenTURNS' own bounds and starting point, optimisation on. *)
Definition new_fitter : fitter := {| f_bounds := None; f_starts := None; f_optimise := true |}.
(** The point of the box that corresponds to a point of the unit cube: each coordinate is a uniform quantile. Lines 501-503 and 510-513. *)
Fixpoint stretch (lower upper u : list R) : list R :=
  match lower, upper, u with a :: l, b :: h, v :: u' => (a + (b - a) * v) :: stretch l h u' | _, _, _ => [] end.
(** ot.Uniform(a, b) refuses a >= b (line 502); zip order of the loop 501-502. *)
Fixpoint proper (lower upper : list R) : bool :=
  match lower, upper with
  | [], [] => true
  | a :: l, b :: h => Rltb a b && proper l h
  | _, _ => false
  end.
(** Lines 492-518. [sobol d n]: the first n points of the Sobol sequence in dimension d. A JointDistribution of no marginal is refused (503), as
    an improper box; which exception OpenTURNS raises is not modelled. The size is a Python integer. *)
Definition estimKrigingTheta (sobol : nat -> nat -> list (list R)) (f : fitter) (lower upper : list R) (size : Z) : res fitter :=
  if Z.ltb 0 size then
    if Nat.eqb (length lower) 0 then Raise GenericException
    else if proper lower upper
         then Ok {| f_bounds := Some (lower, upper); f_starts := Some (map (stretch lower upper) (sobol (length lower) (Z.to_nat size))); f_optimise := f_optimise f |}
         else Raise GenericException
  else Ok {| f_bounds := f_bounds f; f_starts := f_starts f; f_optimise := false |}.
(** ot.MultiStart: the best of the local searches (TNC, line 515) from the starting points; [lik] is the reduced log-likelihood. *)
Definition best (lik : list R -> R) (a b : list R) : list R := if Rltb (lik a) (lik b) then b else a.
(** ot.MultiStart.run, called by fitter.run (_kriging_pod.py 173). *)
Definition multistart (lik : list R -> R) (local : list R -> list R) (starts : list (list R)) (theta0 : list R) : list R :=
  match starts with [] => theta0 | s :: l => fold_left (fun a s => best lik a (local s)) l (local s) end.
(** fitter.run: the parameters of the covariance model afterwards. [default] is OpenTURNS' own optimisation when no algorithm is set.
    _kriging_pod.py 173. *)
Definition fitter_run (lik : list R -> R) (local : fitter -> list R -> list R) (default : list R -> list R) (f : fitter) (theta0 : list R) : list R :=
  if f_optimise f then match f_starts f with Some s => multistart lik (local f) s theta0 | None => default theta0 end else theta0.
(** _kriging_pod.py 167-173 and _adaptive_signal_pod.py 214-220: the box [0.001, 50]^llDim. *)
Definition covariance_search (sobol : nat -> nat -> list (list R)) (lik : list R -> R) (local : fitter -> list R -> list R) (default : list R -> list R)
  (size : Z) (theta0 : list R) : res (list R) :=
  let d := length theta0 in
  do f <- estimKrigingTheta sobol new_fitter (repeat (1 / 1000) d) (repeat 50 d) size;
  Ok (fitter_run lik local default f theta0).
