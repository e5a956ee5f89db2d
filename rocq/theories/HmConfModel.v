(** The two curves of AdaptiveHitMissPOD from the classifier to the curve: _computePOD, the means, the quantiles and the interpolation. *)
From Coq Require Import Reals Lra.
From Verif Require Import RealBase LayoutModel QuantileModel InterpModel.
Local Open Scope R_scope.

(** ot.Sample of the matrix of _adaptive_hitmiss_pod.py 843-846: [n] rows, the columns being those that LayoutModel.hitmiss_pod gives. *)
Definition rows_of (n : nat) (cols : list (list R)) : list (list R) := map (fun k => map (fun col => nth k col 0) cols) (seq 0 n).
(** run, _adaptive_hitmiss_pod.py 401-409, from the final classifier on: _PODPerDefect, the nodes of the POD curve.  [sizes] is
    _defectSizes, [number] _defectNumber, [dim] _dim, [X] the Monte Carlo points without the defect column (line 835), [proba]
    the probability of class 1 of the final classifier.  The state is InterpModel.meta_obj. *)
Definition hm_finish (number dim : nat) (sizes : list R) (X : list (list R)) (proba : list R -> R) : res meta_obj :=
  do cols <- hitmiss_pod 0 (length X) number dim sizes X proba;
  let rows := rows_of (length X) cols in
  Ok {| mo_sizes := sizes; mo_curve := Some (sizes, col_means sizes rows); mo_rows := Some (rows, number) |}.
