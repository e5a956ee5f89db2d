(** Model of the POD curves of the linear regression: /repo/otpod/_univariate_linear_model_pod.py 358-455
    and of the censored likelihood, /repo/otpod/_math_tools.py 301-383.  Real numbers. *)
From Verif Require Import RealBase RegModel.
Local Open Scope R_scope.

(** ot.UserDefined(residuals).computeComplementaryCDF(t), 362, 367: proportion of residuals strictly greater than t.
    Simplification: exact proportion. *)
Definition empirical_ccdf (resid : list R) (t : R) : R := INR (countb (fun r => Rltb t r) resid) / num resid.

(** _PODbinomialModel, 361-369. *)
Definition binomial_pod (resid : list R) (a b detection x : R) : R :=
  empirical_ccdf resid (detection - linear a b x).

(** _PODbinomialModelCl, 371-391: [qBeta] is ot.DistFunc.qBeta; m.trunc of a non negative number is its floor;
    gamma ** (1.0 / n) is a real power. *)
Definition binomial_cl_value (qBeta : R -> R -> R -> R) (n k : nat) (gamma : R) : R :=
  if Nat.eqb k n then Rpower gamma (1 / INR n)
  else 1 - qBeta (INR (n - k)) (INR (k + 1)) gamma.
(** _PODbinomialModelCl, 371-391: the whole curve. *)
Definition binomial_cl (qBeta : R -> R -> R -> R) (resid : list R) (a b detection gamma x : R) : R :=
  let n := length resid in
  let k := Z.to_nat (Int_part (INR n * empirical_ccdf resid (detection - linear a b x))) in
  binomial_cl_value qBeta n k gamma.

(** _PODgaussModel, 397-416: prediction variance with the Gram matrix of [1, defects] and
    Y . gram.solveLinearSystem(Y) for Y = (1, x) (two by two system solved by Cramer's rule). *)
Definition gram_form (d : list R) (x : R) : R :=
  let n := num d in
  let s1 := Rsum d in
  let s2 := Rsum (map (fun v => v * v) d) in
  let det := n * s2 - s1 * s1 in
  let u0 := (s2 * 1 - s1 * x) / det in
  let u1 := (n * x - s1 * 1) / det in
  1 * u0 + x * u1.
(** Lines 397-416: the variance of the prediction. *)
Definition prediction_variance (d : list R) (stderr x : R) : R := stderr * stderr * (1 + gram_form d x).
(** [ccdf] is ot.DistFunc.pNormal(., True). Lines 397-416. *)
Definition gauss_pod (ccdf : R -> R) (d : list R) (stderr a b detection x : R) : R :=
  ccdf ((detection - linear a b x) / sqrt (prediction_variance d stderr x)).

(** _PODgaussModelCl, 418-455: the POD function of one simulation; [z0], [z1] the simulated normal pair, [sigma] the
    simulated residual deviation. *)
Definition gauss_simulated_pod (ccdf : R -> R) (a b detection z0 z1 sigma x : R) : R :=
  let a' := z0 * sigma + a in
  let b' := z1 * sigma + b in
  ccdf ((detection - linear a' b' x) / sigma).

(** *** MLE, _math_tools.py 304-339.  [cdf] is ot.DistFunc.pNormal; [None] stands for +inf (the result is never NaN, 337-338;
    for s <= 0 the logarithm or the quotients are NaN; log 0 gives +inf).  A missing threshold is accepted only with
    an empty list of censored defects (None - array raises TypeError otherwise). *)
Definition censored_arg (t : option R) (xs : list R) : res R :=
  match t, xs with
  | Some t, _ => Ok t
  | None, [] => Ok 0
  | None, _ :: _ => Raise TypeError
  end.
(** MLE, _math_tools.py 304-339. *)
Definition MLE (cdf : R -> R) (par : R * R * R) (d : data) (xnoise xsat : list R) (noise sat : option R)
  : res (option R) :=
  let '(b0, b1, s) := par in
  do tn <- censored_arg noise xnoise;
  do ts <- censored_arg sat xsat;
  let cn := map (fun x => cdf ((tn - linear b0 b1 x) / s)) xnoise in
  let cs := map (fun x => 1 - cdf ((ts - linear b0 b1 x) / s)) xsat in
  if Rleb s 0 then Ok None
  else if forallb (fun c => Rltb 0 c) (cn ++ cs) then
    Ok (Some (num d * ln (s * sqrt (2 * PI))
              + 1 / (2 * (s * s)) * ssq (residuals b0 b1 d)
              + - Rsum (map ln cn) + - Rsum (map ln cs)))
  else Ok None.

(** *** computeLinearParametersCensored, _math_tools.py 342-383: the search of a starting point.  [inf p] tells whether
    MLE(p) == inf; [draws i] is the i-th call of np.random.randn(3).  Result: the point given to fmin and the number of
    draws.  The optimiser itself is not modelled. *)
Section Start.
  Context {P : Type} (inf : P -> bool) (draws : nat -> P).
  (** the while loop, 367-370; [fuel] bounds the number of turns (100 suffice, see C17). *)
  Fixpoint start_loop (fuel iteration : nat) (cur : P) : option (nat * P) :=
    if inf cur && Nat.ltb iteration 100 then
      match fuel with
      | O => None
      | S f => start_loop f (S iteration) (draws iteration)
      end
    else Some (iteration, cur).
  (** Lines 364-375 of _math_tools.py: a starting point where the likelihood is finite, or an exception. *)
  Definition find_start (start : P) : option (res (P * nat)) :=
    if inf start then
      match start_loop 100 0 start with
      | None => None
      | Some (iteration, cur) =>
        if Nat.eqb iteration 100 then Some (Raise GenericException) else Some (Ok (cur, iteration))
      end
    else Some (Ok (start, O)).
End Start.
