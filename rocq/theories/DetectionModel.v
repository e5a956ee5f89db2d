(** Detection size computations. *)
From Verif Require Import RealBase Solver QuantileModel InterpModel.
Local Open Scope R_scope.

(** POD._computeDetectionSize, /repo/otpod/_pod.py 84-148, on curves defined everywhere; [modelCl] is None when no confidence
    level is given.  The labels are modelled in LabelsModel.v.  Used by the linear (_univariate_linear_model_pod.py 273-279),
    kriging (_kriging_tools.py 59-77), chaos (_polynomial_chaos_pod.py 256-274) and hit-miss (_adaptive_hitmiss_pod.py
    455-473) classes. *)
Definition computeDetectionSize (solve : solver) (model : R -> R) (modelCl : option (R -> R)) (p lo hi : R)
  : res (list R) :=
  if Rleb (model lo) p && Rleb p (model hi) then
    do a <- solve model p lo hi;
    match modelCl with
    | None => Ok [a]
    | Some cl =>
      if Rleb (cl lo) p && Rleb p (cl hi) then
        do b <- solve cl p lo hi; Ok [a; b]
      else Raise GenericException
    end
  else Raise GenericException.

(** An interpolated curve as a function on all reals; 0 where the code raises (never evaluated there, see C61 and below). *)
Definition total (curve : R -> res R) (t : R) : R := match curve t with Ok v => v | Raise _ => 0 end.

(** QuantileRegressionPOD.computeDetectionSize, _quantile_regression_pod.py 294-332.  [line p] is the regression line of
    level 1 - p built by _buildModel (470-482), [cl] the confidence curve.  The comparison is chained, so the second curve
    value is computed only if the first comparison holds. *)
Definition qr_detection (solve : solver) (line : R -> R -> R) (threshold : R) (cl : option (R -> res R)) (p lo hi : R)
  : res (list R) :=
  match solve (line p) threshold lo hi with
  | Raise _ => Raise GenericException
  | Ok a =>
    match cl with
    | None => Ok [a]
    | Some c =>
      do v0 <- c lo;
      do inside <- (if Rleb v0 p then do v1 <- c hi; Ok (Rleb p v1) else Ok false);
      if inside : bool then do b <- solve (total c) p lo hi; Ok [a; b] else Raise GenericException
    end
  end.
(** The confidence curve: getPODCLModel, 226-252: confidence quantile of the bootstrap sizes, column by column. *)
Definition qr_cl_sizes (rows : list (list R)) (n : nat) (confidence : R) : res (list R) :=
  quantile_per_component rows n confidence.
(** getPODCLModel(confidence)(t), 226-252. *)
Definition qr_evalCL (levels : list R) (rows : list (list R)) (dmax confidence t : R) : res R :=
  do sizes <- qr_cl_sizes rows (length levels) confidence; qr_curve levels sizes dmax t.
(** One row of _defectsPerQuantile, lines 186-207: as in run, but the root is searched down to [lowest] = -MaxScalar and up
    to the largest defect of the bootstrap sample. *)
Definition qr_boot_row (solve : solver) (line : R -> R -> R) (threshold lowest bootMax : R) (levels : list R) : res (list R) :=
  qr_sizes solve line threshold lowest bootMax levels.
