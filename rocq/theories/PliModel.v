(** Model of the perturbation law indices at one defect size, /repo/otpod/_pli.py, over the reals. *)
From Verif Require Import RealBase LooModel.
Local Open Scope R_scope.

(** *** Deltas, PLI.__init__ lines 71-89 *)
(** What np.array(deltas) can be: a scalar, a vector, a matrix (rectangular, [cols] columns) or a three dimensional array.
    Simplification: ragged sequences (rejected by numpy itself) and more dimensions are left out. Line 73. *)
Inductive deltas := D0 (x : R) | D1 (l : list R) | D2 (cols : nat) (rows : list (list R)) | D3 (cols : nat) (l : list (list (list R))).
(** np.vstack: the matrix and its number of columns; TypeError for a scalar, ValueError for an empty vector. Line 73. *)
Definition vstack (d : deltas) : res (nat * list (list R)) :=
  match d with
  | D0 _ => Raise TypeError
  | D1 [] => Raise ValueError
  | D1 l => Ok (1%nat, map (fun x => [x]) l)
  | D2 _ [] => Raise ValueError
  | D2 c rows => Ok (c, rows)
  | D3 _ [] => Raise ValueError
  | D3 c l => Ok (c, concat l)
  end.
(** Lines 76-88. *)
Definition pli_deltas (dim : nat) (d : deltas) : res (list (list R)) :=
  do (c, rows) <- vstack d;
  if negb (Nat.eqb c 1) && negb (Nat.eqb c dim) then Raise AttributeError
  else if Nat.eqb c 1 then Ok (map (fun row => repeat (nth 0 row 0) dim) rows) else Ok rows.
(** PLIMeanBase.__init__, lines 627-634; [means], [stds] are the moments of the marginals. *)
Definition map3 {A B C D} (f : A -> B -> C -> D) (l1 : list A) (l2 : list B) (l3 : list C) : list D :=
  map (fun p => f (fst p) (fst (snd p)) (snd (snd p))) (combine l1 (combine l2 l3)).
(** PLIMeanBase.__init__, lines 627-634. *)
Definition mean_deltas (dim : nat) (means stds : list R) (sigmaScaled : bool) (d : deltas) : res (list (list R)) :=
  do v <- pli_deltas dim d;
  Ok (if sigmaScaled then map (fun row => map3 (fun x m s => x * s + m) row means stds) v else v).
(** PLIVarianceBase.__init__, lines 733-744. *)
Definition variance_deltas (dim : nat) (means stds : list R) (covScaled : bool) (d : deltas) : res (list (list R)) :=
  do v <- pli_deltas dim d;
  if negb (forallb (forallb (Rltb 0)) v) && negb covScaled then Raise AttributeError
  else Ok (if covScaled then map (fun row => map3 (fun x m s => (x * m + s) * (x * m + s)) row means stds) v else v).

(** *** The Monte Carlo result *)
(** The comparison operators told apart by _getFailureSample, _pli.py 138-164. *)
Inductive operator := Less | LessOrEqual | Greater | GreaterOrEqual | OtherOperator.
(** What OpenTURNS counts as a failure (external). *)
Definition event_holds (o : operator) (threshold y : R) : bool :=
  match o with
  | Less => Rltb y threshold | LessOrEqual => Rleb y threshold
  | Greater => Rltb threshold y | GreaterOrEqual => Rleb threshold y | OtherOperator => false
  end.
(** getProbabilityEstimate and getOuterSampling * getBlockSize, lines 114-118: the fraction of failures among the evaluations
    of the history (external). *)
Definition mc_probability (o : operator) (threshold : R) (outs : list R) : R := INR (countb (event_holds o threshold) outs) / INR (length outs).
(** _getFailureSample, lines 138-164. *)
Definition failureSample {P} (o : operator) (threshold : R) (xs : list P) (outs : list R) : res (list P) :=
  match o with
  | Less | LessOrEqual => bool_index (map (fun y => Rltb y threshold) outs) xs
  | Greater | GreaterOrEqual => bool_index (map (fun y => Rltb threshold y) outs) xs
  | OtherOperator => Raise NameError
  end.

(** *** Perturbed density, _computePerturbedPDF lines 515-536 *)
(** Product over the coordinates; [pdfs] are the marginal densities, [perturbed] replaces that of [marginal]. Lines 515-536. *)
Fixpoint product_pdf (pdfs : list (R -> R)) (x : list R) : R :=
  match pdfs, x with f :: pdfs', v :: x' => f v * product_pdf pdfs' x' | _, _ => 1 end.
(** The list with its n-th element replaced (the loop of lines 515-536 picks the perturbed density for one index). *)
Fixpoint replace_nth {A} (n : nat) (v : A) (l : list A) : list A :=
  match n, l with O, _ :: l' => v :: l' | S n', x :: l' => x :: replace_nth n' v l' | _, [] => [] end.
(** _computePerturbedPDF, lines 515-536. *)
Definition perturbedPDF (pdfs : list (R -> R)) (marginal : nat) (perturbed : R -> R) (x : list R) : R :=
  product_pdf (replace_nth marginal perturbed pdfs) x.
(** The quotient of lines 180-185 and 202-212 (distribution.computePDF is the product of the marginal densities because the
    copula is independent, line 66); None when the density vanishes. *)
Definition likelihood_ratio (pdfs : list (R -> R)) (marginal : nat) (perturbed : R -> R) (x : list R) : option R :=
  qdiv (perturbedPDF pdfs marginal perturbed x) (product_pdf pdfs x).
(** A list of numbers in which no quotient failed. General Python or numpy semantics, no line of its own. *)
Fixpoint all_some {A} (l : list (option A)) : option (list A) :=
  match l with
  | [] => Some []
  | Some x :: l' => option_map (cons x) (all_some l')
  | None :: _ => None
  end.

(** *** Estimators *)
(** _computePfdelta, lines 166-186: [ratios] are the likelihood ratios on the failure sample, N the simulation size. *)
Definition pfdelta (N : nat) (ratios : list R) : R := 1 / INR N * Rsum ratios.
(** _computeVariancePfdelta, lines 188-214. *)
Definition varPfdelta (N : nat) (ratios : list R) : R :=
  1 / INR N * Rsum (map (fun l => l * l) ratios) - pfdelta N ratios * pfdelta N ratios.
(** _computePLIndices, lines 216-232. *)
Definition pl_index (pf pfd : R) : option R := if Rltb pfd pf then qdiv (pfd - pf) pfd else qdiv (pfd - pf) pf.
(** _computeEstimatorDistribution, lines 251-275: the variance; None for an infinite or NaN value. *)
Definition estimator_var (pf pfd v : R) : option R :=
  let c00 := pf * (1 - pf) in let c01 := pfd * (1 - pf) in
  if Rltb pfd pf then
    if Reqb pfd 0 then None
    else let d0 := - 1 / pfd in let d1 := pf / (pfd * pfd) in
         Some (d0 * (c00 * d0 + c01 * d1) + d1 * (c01 * d0 + v * d1))
  else
    if Reqb pf 0 then None
    else let d0 := - pfd / (pf * pf) in let d1 := 1 / pf in
         Some (d0 * (c00 * d0 + c01 * d1) + d1 * (c01 * d0 + v * d1)).
(** Lines 276-281: the standard deviation of the normal distribution; ot.Normal raises on NaN. *)
Definition sigma_of (N : nat) (var : option R) : res R :=
  match var with
  | None => Raise GenericException
  | Some v =>
      if (Rltb (Rabs v) (1 / 1000000) && Rltb v 0) || Reqb v 0 then Ok (1 / 10 ^ 30)
      else if Rltb v 0 then Raise GenericException else Ok (sqrt (v / INR N))
  end.
(** One cell of the loop of run, lines 122-136: perturbed probability, index, mean and deviation of its estimator. *)
Record pli_cell := { c_pfdelta : R; c_index : R; c_sigma : R }.
(** Lines 122-136 for one delta and one marginal. *)
Definition pli_one (N : nat) (pf : R) (ratios : list (option R)) : res pli_cell :=
  match all_some ratios with
  | None => Raise GenericException
  | Some l =>
      let pfd := pfdelta N l in
      do s <- sigma_of N (estimator_var pf pfd (varPfdelta N l));
      match pl_index pf pfd with
      | Some i => Ok {| c_pfdelta := pfd; c_index := i; c_sigma := s |}
      | None => Raise GenericException
      end
  end.
(** The whole analysis of one marginal for one perturbed density, from the history of the Monte Carlo simulation. Lines 106-136. Without a
    failure point np.vstack of the empty column raises ValueError (line 535, called at 180). *)
Definition pli_run (o : operator) (threshold : R) (xs : list (list R)) (outs : list R) (pdfs : list (R -> R)) (marginal : nat)
           (perturbed : R -> R) : res pli_cell :=
  do fail <- failureSample o threshold xs outs;
  if Nat.eqb (length fail) 0 then Raise ValueError
  else pli_one (length outs) (mc_probability o threshold outs) (map (likelihood_ratio pdfs marginal perturbed) fail).
(** computeConfidenceInterval, lines 305-329; [zq level] is the half width of the bilateral interval of the standard normal
    distribution (external). *)
Definition confidence_interval (zq : R -> R) (level : R) (c : pli_cell) : R * R :=
  (c_index c - zq level * c_sigma c, c_index c + zq level * c_sigma c).

(** *** drawIndices, lines 342-428: the abscissas *)
(** 389: np.hstack of the matrix of the original deltas; [integer] tells whether they were given as integers. *)
(** 391-398: with the Hellinger abscissas, entry i is overwritten by the signed distance of delta i; an integer array keeps
    the integer part only (numpy assignment). *)
Definition hstack_rows (rows : list (list R)) : list R := concat rows.
(** Assignment into an integer or float array (numpy casting), lines 391-398. *)
Definition to_dtype (integer : bool) (x : R) : R :=
  if integer then (if Rltb x 0 then - IZR (Int_part (- x)) else IZR (Int_part x)) else x.
(** [h i] is the Hellinger value of the i-th delta and [below i] tells that the i-th delta is lower than the original one. Lines 389-398. *)
Definition abscissas (integer hellinger : bool) (rows : list (list R)) (h : nat -> R) (below : nat -> bool) : list R :=
  let x := hstack_rows rows in
  if hellinger
  then map (fun i => if Nat.ltb i (length rows)
                     then to_dtype integer (if below i then - to_dtype integer (h i) else h i) else nth i x 0) (seq 0 (length x))
  else x.
(** 401-407: ax.plot(x_support, indices[:, marginal]) raises ValueError when the lengths differ. *)
Definition draw_marginal (integer hellinger : bool) (rows : list (list R)) (h : nat -> R) (below : nat -> bool) (indices : list R)
  : res (list (R * R)) :=
  let x := abscissas integer hellinger rows h below in
  if Nat.eqb (length x) (length indices) then Ok (combine x indices) else Raise ValueError.
