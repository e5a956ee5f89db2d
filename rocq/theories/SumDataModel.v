(** What PODSummary.run gives to the analysis and to its six objects, and the data each of them fits (/repo/otpod/_pod_summary.py 79-94 and 124-235).
    Real numbers. The order of the blocks, the flags and the failures are in SummaryModel.v. *)
From Verif Require Import RealBase RegModel BoxCoxModel LinObjModel AnaModel.
Local Open Scope R_scope.
Local Open Scope list_scope.

(** The argument boxCox of every class: a flag or a float (_pod.py 31-36). *)
Inductive choice := Flag (b : bool) | Given (lam : R).
(** _boxCox and _lambdaBoxCox after the constructor: _pod.py 31-36, _univariate_linear_model_analysis.py 150-155. *)
Definition flag_of (c : choice) : bool := match c with Flag b => b | Given _ => true end.
(** _pod.py 32 and 35. *)
Definition lambda_of (c : choice) : option R := match c with Flag _ => None | Given l => Some l end.
(** The arguments kept by PODSummary, _pod_summary.py 80-85: rows of the input sample, signals, thresholds, boxCox. *)
Record inputs := { i_rows : list (list R); i_signals : list R; i_det : R; i_noise : option R; i_sat : option R; i_box : choice }.
(** _censored of every class, _pod.py 43-47, _univariate_linear_model_analysis.py 132-142. *)
Definition i_censored (i : inputs) : bool := match i_noise i, i_sat i with None, None => false | _, _ => true end.
(** self._inputSample[:, 0], _pod_summary.py 125, 138, 157, 175 and 192 (a row always has a first value). *)
Definition first_column (rows : list (list R)) : list R := map (hd 0) rows.

(** POD._run, _pod.py 290-348, on rows of any dimension: filter, then Box-Cox. *)
Definition prelim (opt : list R -> R -> res R) (rows : list (list R)) (i : inputs) : res (list (list R) * bc_out) :=
  let d := combine rows (i_signals i) in
  let obs := if i_censored i then filter (fun p => inside (i_noise i) (i_sat i) (snd p)) d else d in
  do o <- pod_run opt (map snd obs) (i_det i) (i_noise i) (i_sat i) (flag_of (i_box i)) (i_censored i);
  Ok (map fst obs, o).
(** The quantile regression gets the first column, _pod_summary.py 191-198. *)
Definition quantile_data (opt : list R -> R -> res R) (i : inputs) : res (list (list R) * bc_out) :=
  prelim opt (map (fun x => [x]) (first_column (i_rows i))) i.
(** The polynomial chaos and the kriging get all the columns, _pod_summary.py 207-214 and 224-231. *)
Definition meta_data (opt : list R -> R -> res R) (i : inputs) : res (list (list R) * bc_out) := prelim opt (i_rows i) i.
(** The pairs given to the analysis and the linear classes. _pod_summary.py 125-126, 138-139. *)
Definition pairs (i : inputs) : data := combine (first_column (i_rows i)) (i_signals i).
(** The settings of the three linear objects, _pod_summary.py 137-145, 156-164, 174-182 (the residual factory does not enter the fit). *)
Definition linear_settings (i : inputs) : settings :=
  {| c_det := i_det i; c_noise := i_noise i; c_sat := i_sat i; c_boxcox := flag_of (i_box i); c_censored := i_censored i |}.
(** Their fit. _univariate_linear_model_pod.py 152-172. *)
Definition linear_fit (s : solver) (i : inputs) : res linres := computeLinearModel s (linear_settings i) (pairs i).
(** The analysis, _pod_summary.py 124-131. *)
Definition analysis_args (i : inputs) : arguments := {| g_noise := i_noise i; g_sat := i_sat i; g_boxcox := flag_of (i_box i); g_lambda := lambda_of (i_box i) |}.
(** _pod_summary.py 124-131. *)
Definition analyse {Dist Tests} (e : calls Dist Tests) (i : inputs) : res (analysis Dist Tests) := run e (analysis_args i) (pairs i).
(** The R2 of the analysis, _univariate_linear_model_analysis.py 315 (in _computeTests, called at 295 and 300 with the signals and residuals of each result). *)
Definition analysis_R2 {Dist Tests} (a : analysis Dist Tests) : list (option R) :=
  computeR2 (map snd (a_obs a)) (r_resid (a_unc a)) :: match a_cens a with None => [] | Some c => [computeR2 (map snd (a_obs a)) (r_resid c)] end.
(** UnivariateLinearModelPOD.getR2, _univariate_linear_model_pod.py 260-269. *)
Definition pod_R2 (l : linres) : option R := computeR2 (map snd (l_obs l)) (l_resid l).
