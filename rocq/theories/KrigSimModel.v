(** Model of the normalisation and of the simulation step of KrigingBase, /repo/otpod/_kriging_tools.py, over the reals. *)
From Verif Require Import RealBase MatBase.
Local Open Scope R_scope.

(** *** Normalisation, _buildKrigingAlgo lines 402-412 *)
(** Column j of a sample whose points are lists of coordinates. General Python or numpy semantics, no line of its own. *)
Definition column (j : nat) (sample : list (list R)) : list R := map (fun p => nth j p 0) sample.
(** ot.Sample.computeMean of one column, line 403. *)
Definition col_mean (j : nat) (sample : list (list R)) : R := Rmean (column j sample).
(** ot.Sample.computeStandardDeviation of one column, lines 404-407 (denominator n - 1; OpenTURNS needs two points,
    smaller samples are not modelled). *)
Definition stddev (l : list R) : R := sqrt (Rsum (map (fun x => (x - Rmean l) * (x - Rmean l)) l) / (INR (length l) - 1)).
(** Standard deviation of column j, lines 404-407. *)
Definition col_stddev (j : nat) (sample : list (list R)) : R := stddev (column j sample).
(** 408-410: the diagonal matrix; the other entries of an ot.SquareMatrix are 0. *)
Definition tiny : R := 1 / 1000000000000.
(** Lines 408-410: the matrix of the inverse deviations. *)
Definition linear (sample : list (list R)) : mat :=
  fun i j => if Nat.eqb i j then (if Rltb tiny (Rabs (col_stddev j sample)) then 1 / col_stddev j sample else 1) else 0.
(** 411-412: ot.LinearFunction(center, constant, linear) maps x to constant + linear (x - center). *)
Definition linear_function (dim : nat) (center constant : nat -> R) (A : mat) (x : list R) : list R :=
  map (fun i => constant i + bigsum dim (fun j => A i j * (nth j x 0 - center j))) (seq 0 dim).
(** Lines 404-412: the normalisation of the input sample. *)
Definition transformation (dim : nat) (sample : list (list R)) : list R -> list R :=
  linear_function dim (fun j => col_mean j sample) (fun _ => 0) (linear sample).

(** *** Conditional realisations, _randomVectorSampling lines 470-490 *)
(** One entry of the broadcast normalSample (M,1) * sqrt(variance) (N,) + pred (N,): None is NaN (square root of a
    negative conditional variance). Lines 470-490. *)
Definition realisation (z : R) (mv : R * R) : option R :=
  let (m, v) := mv in if Rltb v 0 then None else Some (z * sqrt v + m).
(** The M x N array; [draws] are the M standard normal draws, [preds] and [vars] the N conditional means and variances. Lines 470-490. *)
Definition randomVector (draws preds vars : list R) : list (list (option R)) :=
  map (fun z => map (realisation z) (combine preds vars)) draws.

(** *** POD sample at one defect size, _computePODSamplePerDefect lines 450-468 *)
(** numpy comparison Y > detection; false for NaN. Line 450. *)
Definition exceeds (detection : R) (y : option R) : bool := match y with Some v => Rltb detection v | None => false end.
(** 451: np.mean of one row of booleans. *)
Definition pod_of_row (detection : R) (row : list (option R)) : R :=
  Rmean (map (fun y => if exceeds detection y then 1 else 0) row).
(** 452. *)
Definition var_tcl (N : nat) (p : R) : R := p * (1 - p) / INR N.
(** 455-463: one distribution per realisation. *)
Inductive component := Normal (mu sigma : R) | Dirac (x : R).
(** Lines 455-463. *)
Definition component_of (N : nat) (p : R) : component :=
  if Rltb 0 (var_tcl N p) then Normal p (sqrt (var_tcl N p)) else if Rltb p 1 then Dirac 0 else Dirac 1.
(** The list given to ot.Mixture (equal weights), line 463. *)
Definition mixture (detection : R) (Y : list (list (option R))) : list component :=
  map (fun row => component_of (length row) (pod_of_row detection row)) Y.
(** One draw of the mixture, line 466: the component number and a standard normal draw are the randomness. *)
Definition draw (c : component) (z : R) : R := match c with Normal mu s => mu + s * z | Dirac x => x end.
(** Line 466: the sample drawn from the mixture. *)
Definition mixture_sample (cs : list component) (rnd : list (nat * R)) : list R :=
  map (fun iz => draw (nth (fst iz) cs (Dirac 0)) (snd iz)) rnd.
(** The whole step: draws of the conditional process then draws of the mixture. Lines 445-468. *)
Definition pod_sample (detection : R) (draws preds vars : list R) (rnd : list (nat * R)) : list R :=
  mixture_sample (mixture detection (randomVector draws preds vars)) rnd.
