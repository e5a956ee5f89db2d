(** Model of the perturbed densities of the perturbation law indices, /repo/otpod/_pli.py lines 572-919, over the reals. *)
From Verif Require Import RealBase LooModel.
From Coquelicot Require Import Coquelicot.
Local Open Scope R_scope.

(** Marginals the code accepts: Normal(mean, standard deviation), Uniform(a, b), anything else. Lines 657, 665, 693. *)
Inductive marginal_dist := MNormal (mu sd : R) | MUniform (a b : R) | MOther (mean variance : R) (pdf : R -> R).
(** computePDF of the marginals (external): the usual densities. *)
Definition normal_pdf (mu sd x : R) : R := exp (- ((x - mu) * (x - mu)) / (2 * (sd * sd))) / (sd * sqrt (2 * PI)).
(** Density of ot.Uniform (external). *)
Definition uniform_pdf (a b x : R) : R := if Rleb a x && Rleb x b then / (b - a) else 0.
(** getMean, getCovariance of the marginals (external). *)
Definition dist_mean (d : marginal_dist) : R := match d with MNormal mu _ => mu | MUniform a b => (a + b) / 2 | MOther m _ _ => m end.
(** Variance of the marginal (external). *)
Definition dist_variance (d : marginal_dist) : R := match d with MNormal _ s => s * s | MUniform a b => (b - a) * (b - a) / 12 | MOther _ v _ => v end.
(** Density of the marginal (external). *)
Definition dist_pdf (d : marginal_dist) (x : R) : R :=
  match d with MNormal mu s => normal_pdf mu s x | MUniform a b => uniform_pdf a b x | MOther _ _ f => f x end.

(** Lines 658-663 and 768-774: the analytical normal density written in the code. *)
Definition code_normal (m s x : R) : R := 1 / (s * sqrt (2 * PI)) * exp (- (1 / 2) * ((x - m) / s * ((x - m) / s))).
(** MprimeOverM, lines 667-675; None when the denominator vanishes. *)
Definition MprimeOverM (lamb a b delta : R) : option R :=
  if Reqb lamb 0 then Some ((a + b) / 2 - delta)
  else option_map (fun q => q - delta)
         (qdiv (exp (lamb * b) * (lamb * b - 1) + exp (lamb * a) * (1 - lamb * a)) (lamb * (exp (lamb * b) - exp (lamb * a)))).
(** Lines 687-692: the tilted density; None for 0/0 (NaN). *)
Definition tilted (lamb a b x : R) : option R :=
  option_map (fun q => q * exp (lamb * x) * (if Rleb x b && Rleb a x then 1 else 0)) (qdiv lamb (exp (lamb * b) - exp (lamb * a))).
(** PLIMeanBase._perturbedMarginalPDF, lines 636-696; [solve] is fsolve (external); other distributions raise
    NotImplementedError (represented by GenericException) unless the requested mean is their mean. *)
Definition mean_perturbed (solve : (R -> option R) -> R) (d : marginal_dist) (delta x : R) : res (option R) :=
  if Reqb delta (dist_mean d) then Ok (Some (dist_pdf d x))
  else match d with
       | MNormal mu s => Ok (Some (code_normal delta s x))
       | MUniform a b => Ok (tilted (solve (fun l => MprimeOverM l a b delta)) a b x)
       | MOther _ _ _ => Raise GenericException
       end.

(** *** Variance perturbation, lines 733-919 *)
(** pdfExp lines 805-825, for the uniform marginal on [a, b]. *)
Definition pdfExp (a b : R) (l0 l1 : R) (degree : nat) (x : R) : R := x ^ degree * uniform_pdf a b x * exp (l0 * x + l1 * (x * x)).
(** computeIntegral lines 827-836: GaussKronrod is taken as the exact integral (simplification). *)
Definition computeIntegral (a b l0 l1 : R) (degree : nat) : R := RInt (pdfExp a b l0 l1 degree) a b.
(** H, lines 838-855. *)
Definition lagrange (a b : R) (rhs0 rhs1 l0 l1 : R) : R := ln (computeIntegral a b l0 l1 0) - (l0 * rhs0 + l1 * rhs1).
(** gradH, lines 857-868; None for the ZeroDivisionError. *)
Definition gradH (a b : R) (rhs0 rhs1 l0 l1 : R) : option (R * R) :=
  let e := computeIntegral a b l0 l1 0 in
  if Reqb e 0 then None
  else Some (computeIntegral a b l0 l1 1 / e - rhs0, computeIntegral a b l0 l1 2 / e - rhs1).
(** hessianH, lines 870-882: entries 11, 12, 22; None where the code divides by 0. *)
Definition hessianH (a b l0 l1 : R) : option (R * R * R) :=
  let e := computeIntegral a b l0 l1 0 in
  let r k := computeIntegral a b l0 l1 k in
  if Reqb e 0 then None
  else Some (r 2%nat / e - r 1%nat ^ 2 / e ^ 2, r 3%nat / e - r 1%nat * r 2%nat / e ^ 2, r 4%nat / e - r 2%nat ^ 2 / e ^ 2).
(** Lines 780-784: right hand side, and the perturbed density; [optimize] is optimizeLambda (external solver). *)
Definition variance_rhs (d : marginal_dist) (delta : R) : R * R := (dist_mean d, delta + dist_mean d ^ 2).
(** Density of the perturbed uniform distribution, lines 785-788. *)
Definition variance_tilted (a b l0 l1 x : R) : R :=
  exp (l0 * x + l1 * (x * x) - ln (computeIntegral a b l0 l1 0)) * uniform_pdf a b x.
(** PLIVarianceBase._perturbedMarginalPDF, lines 746-792. *)
Definition variance_perturbed (optimize : R * R -> R * R) (d : marginal_dist) (delta x : R) : res R :=
  if Reqb delta (dist_variance d) then Ok (dist_pdf d x)
  else match d with
       | MNormal mu s => Ok (code_normal mu (sqrt delta) x)
       | MUniform a b => let l := optimize (variance_rhs d delta) in Ok (variance_tilted a b (fst l) (snd l) x)
       | MOther _ _ _ => Raise GenericException
       end.

(** *** _computeHellinger, lines 572-601 *)
(** [f] is the original density, [g] the perturbed one and [a, b] the range of the original marginal; GaussKronrod is taken as the
    exact integral (simplification). Lines 572-601. *)
Definition hellinger_value (f g : R -> R) (a b : R) : R := 2 - 2 * RInt (fun x => sqrt (f x * g x)) a b.
