(** Model of the Box-Cox stage: POD._run (/repo/otpod/_pod.py 290-348), _computeLinearModel
    (/repo/otpod/_univariate_linear_model_pod.py 538-587) and UnivariateLinearModelAnalysis._run
    (/repo/otpod/_univariate_linear_model_analysis.py 175-241), after the censored data have been filtered
    (the filter itself is FilterModel.v), and the design of experiments of AdaptiveSignalPOD.
    Real numbers; rounding is not modelled. *)
From Verif Require Import RealBase.
Local Open Scope R_scope.

(** ot.BoxCoxTransform([lambda]) at one value, as called at _pod.py 328-336: x must be positive (OpenTURNS raises otherwise);
    logarithm for lambda = 0 and (x^lambda - 1) / lambda otherwise.  Simplification: the series used by OpenTURNS
    near lambda = 0 is replaced by the exact value. *)
Definition boxcox (lam x : R) : res R :=
  if Rltb 0 x then Ok (if Reqb lam 0 then ln x else (Rpower x lam - 1) / lam) else Raise GenericException.

(** ot.InverseBoxCoxTransform (getInverse, _adaptive_signal_pod.py 458-459): exp for lambda = 0, otherwise
    (lambda y + 1)^(1/lambda), which needs lambda y + 1 > 0. *)
Definition inv_boxcox (lam y : R) : res R :=
  if Reqb lam 0 then Ok (exp y)
  else if Rltb 0 (lam * y + 1) then Ok (Rpower (lam * y + 1) (/ lam)) else Raise GenericException.

(** Applying an OpenTURNS function to a sample, row by row (first failure wins). E.g. _pod.py 329. *)
Fixpoint map_res {A B} (f : A -> res B) (l : list A) : res (list B) :=
  match l with
  | [] => Ok []
  | x :: l' => do y <- f x; do ys <- map_res f l'; Ok (y :: ys)
  end.

(** The shift, _pod.py 319-321, _univariate_linear_model_pod.py 562-565, _univariate_linear_model_analysis.py
    212-215.  [getMin] of an empty sample raises. *)
Definition auto_shift (signals : list R) : res R :=
  match signals with
  | [] => Raise GenericException
  | _ => Ok (if Rltb (Rlmin signals) 0 then - Rlmin signals + 100 else 0)
  end.

(** Result of the stage. [o_noise], [o_sat]: the thresholds handed to the censored likelihood. _pod.py 290-348. *)
Record bc_out := { o_signals : list R; o_shift : R; o_detection : R; o_noise : option R; o_sat : option R;
                   o_lambda : option R }.

(** A threshold that may be missing, _pod.py 332-335. *)
Definition bc_threshold (lam shift : R) (t : option R) : res (option R) :=
  match t with None => Ok None | Some t => do v <- boxcox lam (t + shift); Ok (Some v) end.

(** POD._run, _pod.py 316-340, and _computeLinearModel, _univariate_linear_model_pod.py 559-587 (same code).
    [opt signals shift] is computeBoxCox (an optimiser of OpenTURNS, _math_tools.py 87-109).  The thresholds are
    transformed only when the data are censored. *)
Definition pod_run (opt : list R -> R -> res R) (signals : list R) (detection : R) (noise sat : option R)
           (boxCox censored : bool) : res bc_out :=
  if boxCox then
    do shift <- auto_shift signals;
    do lam <- opt signals shift;
    do sig <- map_res (fun s => boxcox lam (s + shift)) signals;
    do no <- (if censored then bc_threshold lam shift noise else Ok noise);
    do sa <- (if censored then bc_threshold lam shift sat else Ok sat);
    do det <- boxcox lam (detection + shift);
    Ok {| o_signals := sig; o_shift := shift; o_detection := det; o_noise := no; o_sat := sa;
          o_lambda := Some lam |}
  else Ok {| o_signals := signals; o_shift := 0; o_detection := detection; o_noise := noise; o_sat := sat;
             o_lambda := None |}.

(** UnivariateLinearModelAnalysis._run, _univariate_linear_model_analysis.py 210-241: no detection threshold (0 is
    stored in [o_detection]), a given lambda is used without optimisation, thresholds always transformed. *)
Definition analysis_run (opt : list R -> R -> res R) (signals : list R) (noise sat : option R)
           (boxCox : bool) (lambda : option R) : res bc_out :=
  if boxCox then
    do shift <- auto_shift signals;
    do lam <- match lambda with None => opt signals shift | Some l => Ok l end;
    do sig <- map_res (fun s => boxcox lam (s + shift)) signals;
    do no <- bc_threshold lam shift noise;
    do sa <- bc_threshold lam shift sat;
    Ok {| o_signals := sig; o_shift := shift; o_detection := 0; o_noise := no; o_sat := sa;
          o_lambda := Some lam |}
  else Ok {| o_signals := signals; o_shift := 0; o_detection := 0; o_noise := noise; o_sat := sat;
             o_lambda := lambda |}.

(** *** Output DOE of AdaptiveSignalPOD *)
(** Attributes used: [_signals], [_shift], [_boxCoxTransform] (None when Box-Cox is off), set by the constructor
    from POD._run, _adaptive_signal_pod.py 144-160. *)
Record doe := { d_signals : list R; d_shift : R; d_lambda : option R }.
(** _adaptive_signal_pod.py 144-160: the attributes after construction. *)
Definition doe_new (opt : list R -> R -> res R) (signals : list R) (detection : R) (noise sat : option R)
           (boxCox censored : bool) : res doe :=
  do o <- pod_run opt signals detection noise sat boxCox censored;
  Ok {| d_signals := o_signals o; d_shift := o_shift o; d_lambda := o_lambda o |}.
(** _adaptive_signal_pod.py 348-355: the physical model value of the added point is transformed, then appended. *)
Definition doe_add (d : doe) (value : R) : res doe :=
  match d_lambda d with
  | Some lam => do v <- boxcox lam (value + d_shift d);
                Ok {| d_signals := d_signals d ++ [v]; d_shift := d_shift d; d_lambda := d_lambda d |}
  | None => Ok {| d_signals := d_signals d ++ [value]; d_shift := d_shift d; d_lambda := d_lambda d |}
  end.
(** The additions of all iterations (of all runs), in order. _adaptive_signal_pod.py 348-355. *)
Fixpoint doe_adds (d : doe) (values : list R) : res doe :=
  match values with [] => Ok d | v :: l => do d' <- doe_add d v; doe_adds d' l end.
(** getOutputDOE, _adaptive_signal_pod.py 453-461. *)
Definition getOutputDOE (d : doe) : res (list R) :=
  match d_lambda d with
  | Some lam => do s <- map_res (inv_boxcox lam) (d_signals d); Ok (map (fun x => x - d_shift d) s)
  | None => Ok (d_signals d)
  end.
