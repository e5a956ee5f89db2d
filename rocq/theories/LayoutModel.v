(** Model of the vectorised evaluations over (defect size, Monte Carlo point).
    /repo/otpod/_polynomial_chaos_pod.py 744-774, _adaptive_hitmiss_pod.py 818-846, _adaptive_signal_pod.py 249-269 and
    532-542, _sobol_indices.py 572-617.  Points are lists of coordinates; numbers are any type [V] (binary64 or real)
    with an addition and a comparison. *)
From Verif Require Import Base Float64.

Section Layout.
  Context {V : Type}.
  (** _mergeDefectInX (three copies): the defect becomes the first coordinate of each row. _adaptive_hitmiss_pod.py 818-827, _adaptive_signal_pod.py 532-542, _polynomial_chaos_pod.py 722-731. *)
  Definition mergeDefectInX (d : V) (X : list (list V)) : list (list V) := map (cons d) X.
  (** sample[a:b, :] = rows on an ot.Sample; OpenTURNS raises when the slice and the rows differ in size. General Python or numpy semantics, no line of its own. *)
  Definition set_slice (full : list (list V)) (start : nat) (rows : list (list V)) : res (list (list V)) :=
    if Nat.leb (start + length rows) (length full)
    then Ok (firstn start full ++ rows ++ skipn (start + length rows) full) else Raise GenericException.
  (** for i, defect in enumerate(defectSizes): full[N*i : N*(i+1), :] = merge(defect, X). _polynomial_chaos_pod.py 751-754. *)
  Fixpoint fill (N i : nat) (sizes : list V) (X full : list (list V)) : res (list (list V)) :=
    match sizes with
    | [] => Ok full
    | d :: l => do f <- set_slice full (N * i) (mergeDefectInX d X); fill N (i + 1) l X f
    end.
  (** fullSamplePred: a zero sample of N * _defectNumber rows, filled block by block. _polynomial_chaos_pod.py 750-754. *)
  Definition fullSamplePred (zero : V) (N number dim : nat) (sizes : list V) (X : list (list V)) : res (list (list V)) :=
    fill N 0 sizes X (repeat (repeat zero dim) (N * number)).
End Layout.

(** np.reshape(flat, (N, D), "F"): column i holds flat[N*i .. N*i+N-1]; the matrix is given by its columns. _polynomial_chaos_pod.py 767. *)
Fixpoint chunks {A} (N D : nat) (l : list A) : list (list A) :=
  match D with O => [] | S D' => firstn N l :: chunks N D' (skipn N l) end.
(** np.reshape raises ValueError when the number of values differs. _polynomial_chaos_pod.py 767. *)
Definition reshape {A} (N D : nat) (flat : list A) : res (list (list A)) :=
  if Nat.eqb (length flat) (N * D) then Ok (chunks N D flat) else Raise ValueError.

(** np.mean of booleans: the number of true values divided by the length, in binary64. *)
Definition fraction {A} (test : A -> bool) (l : list A) : float :=
  of_ratio (Z.of_nat (length (filter test l))) (Z.of_nat (length l)).
(** Elementwise operation on two arrays of the same length. General Python or numpy semantics, no line of its own. *)
Definition map2 {A B C} (f : A -> B -> C) (l1 : list A) (l2 : list B) : list C := map (fun p => f (fst p) (snd p)) (combine l1 l2).

Section Pod.
  Context {V : Type} (zero : V) (add : V -> V -> V) (gt : V -> V -> bool).
  (** PolynomialChaosPOD._computePOD, lines 744-774; [X] is the Monte Carlo sample without the defect column,
      [residuals] the residual draws (N * _defectNumber of them). *)
  Definition chaos_pod (N number dim : nat) (sizes : list V) (X : list (list V)) (chaos : list V -> V) (residuals : list V)
             (detection : V) : res (list float) :=
    do full <- fullSamplePred zero N number dim sizes X;
    do cols <- reshape N number (map2 add (map chaos full) residuals);
    Ok (map (fraction (fun v => gt v detection)) cols).
  (** AdaptiveSignalPOD.run lines 249-269: POD of the metamodel before the addition. *)
  Definition current_pod (N number dim : nat) (sizes : list V) (X : list (list V)) (metamodel : list V -> V) (detection : V)
    : res (list float) :=
    do full <- fullSamplePred zero N number dim sizes X;
    do cols <- reshape N number (map metamodel full);
    Ok (map (fraction (fun v => gt v detection)) cols).
  (** AdaptiveHitMissPOD._computePOD, lines 831-846: the probabilities of class 1, one column per defect size. *)
  Definition hitmiss_pod (N number dim : nat) (sizes : list V) (X : list (list V)) (proba : list V -> V) : res (list (list V)) :=
    do full <- fullSamplePred zero N number dim sizes X;
    reshape N number (map proba full).
  (** np.transpose of a matrix of [n] columns given by its rows. _sobol_indices.py 609. *)
  Definition transpose (n : nat) (rows : list (list V)) : list (list V) :=
    map (fun c => map (fun row => nth c row zero) rows) (seq 0 n).
  (** PODaggrChaos._exec_sample, _sobol_indices.py 588-617: [chaos] is the aggregated function (one value per simulated
      chaos), [residuals] has one row per simulation and one column per point; the result is one row per point. *)
  Fixpoint fill_points (number i : nat) (sizes : list V) (X full : list (list V)) : res (list (list V)) :=
    match X with
    | [] => Ok full
    | x :: l => do f <- set_slice full (number * i) (map (fun d => d :: x) sizes); fill_points number (i + 1) sizes l f
    end.
  (** PODaggrChaos._exec_sample, _sobol_indices.py 588-617. *)
  Definition exec_sample (dim : nat) (sizes : list V) (chaos : list V -> list V) (detection : V)
             (residuals : list (list V)) (X : list (list V)) : res (list (list float)) :=
    let n := length X in
    let number := length sizes in
    do fullX <- fill_points number 0 sizes X (repeat (repeat zero (dim + 1)) (n * number));
    let fullRes := map (fun row => flat_map (fun r => repeat r number) row) residuals in
    let signals := map chaos fullX in
    let prob := map2 (fun y r => fraction (fun v => gt v detection) (map2 add y r)) signals (transpose (n * number) fullRes) in
    reshape number n prob.
  (** PODaggrChaos._exec, _sobol_indices.py 572-585: one point, one residual draw per simulated chaos; the defect sizes
      are those of the POD object, whereas the point is repeated once per defect size of the Sobol object
      (np.concatenate raises ValueError when the numbers differ). *)
  Definition exec (podSizes sizes : list V) (chaos : list V -> list V) (detection : V) (residuals x : list V)
    : res (list float) :=
    if Nat.eqb (length podSizes) (length sizes)
    then Ok (map (fun d => fraction (fun v => gt v detection) (map2 add (chaos (d :: x)) residuals)) podSizes)
    else Raise ValueError.
End Pod.
