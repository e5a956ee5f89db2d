(** Laws of the Monte Carlo points behind the POD curves, the enrichment and the sensitivity analyses: which part of the joint distribution given
    to setDistribution is used. A law is given by its expectations; the estimates at one defect size are those of KrigSimModel.v and
    LayoutModel.v on real numbers. *)
From Verif Require Import RealBase KrigSimModel.
Local Open Scope R_scope.

(** A law of values of type A, known by the expectation of each function. Representation of ot.Distribution, general. *)
Definition law (A : Type) := (A -> R) -> R.
(** ot.Dirac(defect), _kriging_tools.py 438. *)
Definition dirac {A} (a : A) : law A := fun f => f a.
(** distribution.getMarginal(i), _kriging_tools.py 439, _sobol_indices.py 89, _pli_pod.py 56. *)
Definition marginal (i : nat) (E : law (list R)) : law R := fun f => E (fun x => f (nth i x 0)).
(** ot.JointDistribution(marginals): without a copula argument the components are independent, _kriging_tools.py 440, _sobol_indices.py 88,
    _pli_pod.py 55. *)
Fixpoint joint (ms : list (law R)) : law (list R) :=
  match ms with
  | [] => fun f => f []
  | m :: ms' => fun f => m (fun x => joint ms' (fun xs => f (x :: xs)))
  end.
(** getSample(n): n independent points, _kriging_tools.py 443, _polynomial_chaos_pod.py 749. *)
Fixpoint sample {A} (E : law A) (n : nat) : law (list A) :=
  match n with
  | O => fun f => f []
  | S n' => fun f => E (fun x => sample E n' (fun xs => f (x :: xs)))
  end.

(** Law of the points of _computePODSamplePerDefect, _kriging_tools.py 435-443: used by KrigingPOD.run, by the criterion and by the final POD of
    AdaptiveSignalPOD.run. *)
Definition kriging_points (dim : nat) (E : law (list R)) (defect : R) : law (list R) :=
  joint (dirac defect :: map (fun i => marginal (S i) E) (seq 0 (dim - 1))).
(** Law of one point of the vectorised evaluations: a draw of the distribution whose first coordinate is replaced by the defect size,
    _polynomial_chaos_pod.py 749-754, _adaptive_hitmiss_pod.py 835-840, _adaptive_signal_pod.py 252-260. *)
Definition merged_points (E : law (list R)) (defect : R) : law (list R) := fun f => E (fun x => f (defect :: tl x)).
(** Law of the parameters kept by the constructors of the Sobol and PLI analyses, _sobol_indices.py 86-90, _pli_pod.py 53-57; [dim] is
    the number of parameters without the defect. *)
Definition analysis_points (dim : nat) (E : law (list R)) : law (list R) := joint (map (fun i => marginal (1 + i) E) (seq 0 dim)).

(** *** Estimates at one defect size *)
(** One draw of the mixture of [M] equally weighted components: the component number and a standard draw, _kriging_tools.py 464-466. *)
Definition mixture_draw (M : nat) (Z : law R) : law (nat * R) := fun f => Rmean (map (fun i => Z (fun z => f (i, z))) (seq 0 M)).
(** The ordinate of the mean POD curve, _kriging_pod.py 203-215: the mean of the sample of _computePODSamplePerDefect for the points [xs], the
    draws and the mixture draws given; [m] and [v] are the conditional mean and variance of the kriging after the normalisation. *)
Definition kriging_node (detection : R) (m v : list R -> R) (xs : list (list R)) (draws : list R) (rnd : list (nat * R)) : R :=
  Rmean (pod_sample detection draws (map m xs) (map v xs) rnd).
(** Its expectation over the points, the draws of the conditional process and the draws of the mixture. _kriging_tools.py 435-468; the size of
    the mixture sample is simulationSize * samplingSize (466). *)
Definition kriging_node_expectation (Z : law R) (points : law (list R)) (detection : R) (m v : list R -> R) (N M : nat) : R :=
  sample points N (fun xs => sample Z M (fun draws => sample (mixture_draw M Z) (M * N) (fun rnd => kriging_node detection m v xs draws rnd))).
(** The ordinate of the chaos POD at one size, _polynomial_chaos_pod.py 761-774: the column of the size, [eps] its residual draws. The layout
    of the columns is LayoutModel.v. *)
Definition chaos_node (detection : R) (chaos : list R -> R) (stderr : R) (xs : list (list R)) (eps : list R) : R :=
  Rmean (map (fun p => if Rltb detection (chaos (fst p) + snd p * stderr) then 1 else 0) (combine xs eps)).
(** Its expectation, _polynomial_chaos_pod.py 749-774. *)
Definition chaos_node_expectation (Z : law R) (points : law (list R)) (detection : R) (chaos : list R -> R) (stderr : R) (N : nat) : R :=
  sample points N (fun xs => sample Z N (fun eps => chaos_node detection chaos stderr xs eps)).
(** The ordinate of the hit-miss POD at one size: the mean of the class 1 probabilities, _adaptive_hitmiss_pod.py 404-409 and 842-846. *)
Definition hitmiss_node_expectation (points : law (list R)) (proba : list R -> R) (N : nat) : R :=
  sample points N (fun xs => Rmean (map proba xs)).
