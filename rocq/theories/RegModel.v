(** Model of the linear regression and of the residual statistics: _computeLinearModel
    (/repo/otpod/_univariate_linear_model_pod.py 588-625) and /repo/otpod/_math_tools.py 112-227.
    Real numbers; a division by zero (numpy NaN / inf) is [None]. *)
From Verif Require Import RealBase.
Local Open Scope R_scope.

(** Observations (defect, signal), after filtering and Box-Cox. _univariate_linear_model_pod.py 585-595. *)
Definition data := list (R * R).
(** Number of observations. General Python or numpy semantics, no line of its own. *)
Definition num {A} (d : list A) : R := INR (length d).
(** Mean of the defects. General Python or numpy semantics, no line of its own. *)
Definition xbar (d : data) : R := Rmean (map fst d).
(** Mean of the signals. General Python or numpy semantics, no line of its own. *)
Definition ybar (d : data) : R := Rmean (map snd d).
(** Sum of squared deviations of the defects. Part of the least squares formula, external code. *)
Definition Sxx (d : data) : R := Rsum (map (fun p => (fst p - xbar d) * (fst p - xbar d)) d).
(** Sum of products of deviations. Part of the least squares formula, external code. *)
Definition Sxy (d : data) : R := Rsum (map (fun p => (fst p - xbar d) * (snd p - ybar d)) d).

(** statsmodels OLS(signals, [1, defects]).fit().params, _univariate_linear_model_pod.py 588-591 and
    _univariate_linear_model_analysis.py 243-248, for non constant defects (the closed form of the solution of the
    normal equations; constant defects, where statsmodels uses a pseudo inverse, are not modelled). *)
Definition ols (d : data) : R * R :=
  let b := Sxy d / Sxx d in (ybar d - b * xbar d, b).
(** LinModel, _univariate_linear_model_pod.py 176-177. *)
Definition linear (a b x : R) : R := a + b * x.
(** algoLinear.resid (595) and [signals - (intercept + slope * defects)] (613). *)
Definition residuals (a b : R) (d : data) : list R := map (fun p => snd p - linear a b (fst p)) d.
(** np.sqrt(algoLinear.scale), 593: sum of squares over n - 2. *)
Definition ssq (l : list R) : R := Rsum (map (fun r => r * r) l).
(** Standard error of the estimate, line 593. *)
Definition stderr (d : data) : R :=
  let (a, b) := ols d in sqrt (ssq (residuals a b d) / (num d - 2)).

(** ot.Sample.computeVariance: denominator n - 1. General Python or numpy semantics, no line of its own. *)
Definition variance (l : list R) : R := Rsum (map (fun x => (x - Rmean l) * (x - Rmean l)) l) / (num l - 1).
(** numpy division: None stands for the inf or nan given by a zero denominator. General Python or numpy semantics, no line of its own. *)
Definition div (x y : R) : option R := if Reqb y 0 then None else Some (x / y).

(** computeR2, _math_tools.py 114-120. *)
Definition computeR2 (signals resid : list R) : option R :=
  option_map (fun q => 1 - q) (div (variance resid) (variance (map (fun s => s - Rmean signals) signals))).

(** computeZeroMeanTest, _math_tools.py 125-132; [pStudent nu t] is the distribution function (an argument). *)
Definition computeZeroMeanTest (pStudent : R -> R -> R) (resid : list R) : option R :=
  let se := sqrt (variance resid / num resid) in
  option_map (fun t => 2 * pStudent (num resid - 1) (- Rabs t)) (div (Rmean resid) se).

(** computeBreuschPaganTest, _math_tools.py 137-151: the statistic, and the p-value with the chi-square
    distribution function [pChi2] as argument. *)
Definition bp_w (resid : list R) : list R :=
  let sigma2 := ssq resid / num resid in map (fun r => r * r - sigma2) resid.
(** Lines 144-149: the statistic. *)
Definition bp_stat (xs resid : list R) : option R :=
  let w := bp_w resid in
  let (a, b) := ols (combine xs w) in
  let wpred := map (linear a b) xs in
  div (num xs * ssq wpred) (ssq w).
(** _math_tools.py 137-151. *)
Definition computeBreuschPaganTest (pChi2 : R -> R) (xs resid : list R) : option R :=
  option_map (fun s => 1 - pChi2 s) (bp_stat xs resid).

(** computeHarrisonMcCabeTest, _math_tools.py 156-174: [bp] is the break point int(floor(ratio * n)); [stats] are the
    simulated statistics, np.mean of the booleans. *)
Definition hmc_stat (bp : nat) (resid : list R) : option R := div (ssq (firstn bp resid)) (ssq resid).
(** Line 174: np.mean(stat <= hmc). *)
Definition hmc_pvalue (stats : list R) (hmc : R) : R := INR (countb (fun s => Rleb s hmc) stats) / num stats.
(** Line 161: int(np.floor(breakRatio * nx)). *)
Definition break_point (ratio : R) (n : nat) : nat := Z.to_nat (Int_part (ratio * INR n)).
(** _math_tools.py 156-174; the simulated statistics are an argument. *)
Definition computeHarrisonMcCabeTest (ratio : R) (stats resid : list R) : option R :=
  option_map (hmc_pvalue stats) (hmc_stat (break_point ratio (length resid)) resid).

(** Durbin-Watson statistic, _math_tools.py 189. *)
Fixpoint diffs (l : list R) : list R :=
  match l with x :: ((y :: _) as l') => (y - x) :: diffs l' | _ => [] end.
(** Line 189. *)
Definition dw_stat (resid : list R) : option R := div (ssq (diffs resid)) (ssq resid).

(** The p-value, _math_tools.py 221-227; [ccdf] is ot.DistFunc.pNormal(., True). *)
Inductive hypothesis := Equal | Less | Greater.
(** Lines 221-227. *)
Definition dw_pvalue (ccdf : R -> R) (dw dmean dvar : R) (h : hypothesis) : R :=
  let p := 2 * ccdf (Rabs (dw - dmean) / sqrt dvar) in
  match h with Equal => p | Less => 1 - p / 2 | Greater => p / 2 end.
