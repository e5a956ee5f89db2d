(** QuantileRegressionPOD.run with its regression lines: /repo/otpod/_quantile_regression_pod.py 127-212 and 470-482 on top of QrObjModel.v. *)
From Verif Require Import RealBase Solver InterpModel DetectionModel QrObjModel.
Local Open Scope R_scope.

Section Run.
Variables Data Prep : Type.
(** algoQuantReg.fit(tau).params on a prepared sample (statsmodels, external; lines 193 and 476): intercept and slope. *)
Variable fit : Prep -> R -> R * R.
(** result["detectionBoxCox"], lines 126 and 181; defects.getMax()[0], lines 136 and 190; -ot.SpecFunc.MaxScalar, line 206. *)
Variable threshold max_defect : Prep -> R.
Variable lowest : R.
(** The function solved at a level, lines 192-199 and 470-482: fit(1 - level).predict([1, x]). *)
Definition level_line (p : Prep) (level x : R) : R := fst (fit p (1 - level)) + snd (fit p (1 - level)) * x.
(** The external computations of run with these lines: lines 136-145 on the data, 164-210 on the bootstrap samples [draws]. *)
Definition line_world (solve : solver) (draws : nat -> Data) : world Data Prep :=
  {| w_sizes := fun p l => qr_run solve (level_line p) (threshold p) (max_defect p) l;
     w_data := draws;
     w_boot := fun _ p l => qr_boot_row solve (level_line p) (threshold p) lowest (max_defect p) l |}.
End Run.
