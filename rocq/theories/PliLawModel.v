(** The perturbed probability of the PLI as a random quantity: the Monte Carlo points are independent draws of the distribution,
    /repo/otpod/_pli.py 106-214 and _pli_pod.py 77-100. *)
From Verif Require Import RealBase PliModel LawModel.
Local Open Scope R_scope.

(** _computePfdelta on a given history, _pli.py 138-186: the failure sample of the points, then the mean of the ratios; [g] is the performance
    function. *)
Definition pfdelta_of (o : operator) (threshold : R) (g : list R -> R) (pdfs : list (R -> R)) (marginal : nat) (perturbed : R -> R) (xs : list (list R)) : res R :=
  do fail <- failureSample o threshold xs (map g xs);
  match all_some (map (likelihood_ratio pdfs marginal perturbed) fail) with
  | None => Raise GenericException
  | Some l => Ok (pfdelta (length xs) l)
  end.
(** _computeVariancePfdelta on a given history, _pli.py 188-214. *)
Definition varPfdelta_of (o : operator) (threshold : R) (g : list R -> R) (pdfs : list (R -> R)) (marginal : nat) (perturbed : R -> R) (xs : list (list R)) : res R :=
  do fail <- failureSample o threshold xs (map g xs);
  match all_some (map (likelihood_ratio pdfs marginal perturbed) fail) with
  | None => Raise GenericException
  | Some l => Ok (varPfdelta (length xs) l)
  end.
(** The value of a computation that did not fail; 0 otherwise. General Python or numpy semantics, no line of its own. *)
Definition value (r : res R) : R := match r with Ok x => x | Raise _ => 0 end.
