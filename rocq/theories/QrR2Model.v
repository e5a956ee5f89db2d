(** The pseudo R2 of QuantileRegressionPOD and the regressions behind the figures of the same probability level
    (/repo/otpod/_quantile_regression_pod.py 254-268, 290-310, 402-443, 470-482). Real numbers. *)
From Coq Require Import String.
From Verif Require Import RealBase.
Local Open Scope R_scope.
Local Open Scope list_scope.

(** The two ways the regression is fitted: the defaults of statsmodels (lines 268 and 423), or at most 300 iterations and the tolerance
    0.01 (line 476). *)
Inductive effort := Default | Loose.
(** What run() leaves, lines 124-133: the defects, the signals and the object _algoQuantReg, known by the lines (intercept, slope) its
    method fit returns (external). An object that was not run has no such attribute. *)
Record qr := { q_defects : list R; q_signals : list R; q_fit : effort -> R -> res (R * R) }.
(** self._algoQuantReg.fit(...), lines 268, 423 and 476. *)
Definition fit (o : option qr) (e : effort) (q : R) : res (R * R) :=
  match o with None => Raise AttributeError | Some o => q_fit o e q end.

(** scipy.stats.scoreatpercentile(signals, 100 q), used by statsmodels' prsquared (line 268, external, the documented algorithm): linear
    interpolation of the order statistics at the index q (n - 1). *)
Definition score (l : list R) (q : R) : R :=
  let t := q * (INR (List.length l) - 1) in
  let k := Z.to_nat (Int_part t) in
  nth k (Rsort l) 0 + (t - INR k) * (nth (S k) (Rsort l) 0 - nth k (Rsort l) 0).
(** np.abs(np.where(e < 0, (1 - q) * e, q * e)), in statsmodels' prsquared (line 268, external). *)
Definition weigh (q e : R) : R := Rabs (if Rltb e 0 then (1 - q) * e else q * e).
(** statsmodels' prsquared (line 268, external): one minus the ratio of the weighted residuals of the line to those of the quantile of the
    signals; None is the nan or inf of a division by zero. *)
Definition prsquared (q : R) (defects signals : list R) (ab : R * R) : option R :=
  let e := map (fun xy => weigh q (snd xy - (fst ab + snd ab * fst xy))) (combine defects signals) in
  let ered := map (fun y => weigh q (y - score signals q)) signals in
  if Reqb (Rsum ered) 0 then None else Some (1 - Rsum e / Rsum ered).
(** getR2, lines 254-268. *)
Definition getR2 (o : option qr) (q : R) : res (option R) :=
  do ab <- fit o Default q;
  match o with None => Raise AttributeError | Some o => Ok (prsquared q (q_defects o) (q_signals o) ab) end.
(** _buildModel, lines 470-482, as the line it evaluates; it is called with 1 - probability level in run (line 140) and computeDetectionSize (line 298). *)
Definition buildModel (o : option qr) (q : R) : res (R * R) := fit o Loose q.
(** The line computeDetectionSize(probabilityLevel) intersects with the detection threshold, line 298. *)
Definition size_line (o : option qr) (p : R) : res (R * R) := buildModel o (1 - p).
(** The line drawLinearModel(probabilityLevel) plots, line 423. *)
Definition drawn_line (o : option qr) (p : R) : res (R * R) := fit o Default (1 - p).
(** The cell of PODSummary's validation table beside "Quantile Regression at level p (> 0.6)", _pod_summary.py 655-664, before rounding. *)
Definition reported (o : option qr) (p : R) : res (option R) := getR2 o p.
