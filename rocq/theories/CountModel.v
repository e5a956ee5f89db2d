(** The number of detections of the binomial confidence curve, in binary64. *)
From Verif Require Import Base Float64.

(** _univariate_linear_model_pod.py 377-379: NbDepDef = m.trunc(sizeResiduals * empiricalDist.computeComplementaryCDF(threshold)).
    [ccdf] is the double returned by OpenTURNS (external); ValueError or OverflowError of m.trunc on a value that is not finite are
    both ValueError here. *)
Definition nb_detections (size : nat) (ccdf : float) : res Z :=
  match ftrunc (fmul (of_int (Z.of_nat size)) ccdf) with Some z => Ok z | None => Raise ValueError end.
