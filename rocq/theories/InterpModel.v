(** Interpolated POD curves: scipy interp1d, the curves of the meta-model PODs and of the quantile regression POD, drawPOD. *)
From Verif Require Import RealBase Solver QuantileModel.
Local Open Scope R_scope.

(** scipy.interpolate.interp1d(x, y, kind="linear") evaluated at [t], on nodes sorted by abscissa (external library; for
    one-dimensional doubles scipy calls numpy.interp; outside the nodes it raises ValueError).  The last node with abscissa
    <= t is used on its left side, as numpy.interp does. *)
Fixpoint interp (nodes : list (R * R)) (t : R) : res R :=
  match nodes with
  | [] => Raise ValueError
  | (a, y) :: rest =>
    if Rltb t a then Raise ValueError
    else match rest with
         | [] => if Rltb a t then Raise ValueError else Ok y
         | (b, z) :: _ => if Rltb t b then Ok (y + (z - y) / (b - a) * (t - a)) else interp rest t
         end
  end.
(** interp1d sorts the nodes by abscissa (stable) and requires as many ordinates as abscissae. General Python or numpy semantics, no line of its own. *)
Definition node_leb (p q : R * R) : bool := Rleb (fst p) (fst q).
(** The sort of interp1d (assume_sorted is False). General Python or numpy semantics, no line of its own. *)
Definition node_sort : list (R * R) -> list (R * R) := isort node_leb.
(** scipy interp1d(xs, ys)(t), used at _kriging_pod.py 218, _polynomial_chaos_pod.py 194 and others. *)
Definition interp1d (xs ys : list R) (t : R) : res R :=
  if Nat.eqb (length xs) (length ys) then interp (node_sort (combine xs ys)) t else Raise ValueError.

(** *** Kriging, adaptive signal, chaos and hit-miss POD objects *)
Section MetaModel.
  (** [simulate sizes]: the sample _PODPerDefect computed by run, one row per simulation, one column per defect size
      (_kriging_pod.py 198-212, _adaptive_signal_pod.py 426-440, _polynomial_chaos_pod.py 209-215,
      _adaptive_hitmiss_pod.py 404);
      [pod_values sizes rows]: the ordinates of the POD curve: the column means (_kriging_pod.py 215-218,
      _adaptive_signal_pod.py 444-446, _adaptive_hitmiss_pod.py 406-409) or the POD of the fitted chaos
      (_polynomial_chaos_pod.py 191-194). *)
  Variable simulate : list R -> list (list R).
  Variable pod_values : list R -> list (list R) -> list R.
  (** Attributes of a metamodel POD object; see the files cited above. _kriging_pod.py 198-218. *)
  Record meta_obj := {
    mo_sizes : list R;                            (* _defectSizes *)
    mo_curve : option (list R * list R);          (* nodes of the interp1d stored in _PODmodel *)
    mo_rows : option (list (list R) * nat) }.     (* _PODPerDefect and its dimension *)
  (** The attributes after construction, _kriging_pod.py 72-140: no curve yet. *)
  Definition meta_new (sizes : list R) : meta_obj := {| mo_sizes := sizes; mo_curve := None; mo_rows := None |}.
  (** run (see above); interp1d copies the abscissae. _kriging_pod.py 198-218. *)
  Definition meta_run (o : meta_obj) : meta_obj :=
    let rows := simulate (mo_sizes o) in
    {| mo_sizes := mo_sizes o; mo_curve := Some (mo_sizes o, pod_values (mo_sizes o) rows);
       mo_rows := Some (rows, length (mo_sizes o)) |}.
  (** setDefectSizes when the argument is accepted (the checks are modelled in SettersModel.v). _kriging_tools.py 247-268. *)
  Definition meta_setSizes (o : meta_obj) (sizes : list R) : meta_obj :=
    {| mo_sizes := sizes; mo_curve := mo_curve o; mo_rows := mo_rows o |}.
  (** getPODModel()(t): _kriging_tools.py 19-30, _polynomial_chaos_pod.py 217-227, _adaptive_hitmiss_pod.py 413-423. *)
  Definition meta_evalPOD (o : meta_obj) (t : R) : res R :=
    match mo_curve o with None => Raise AttributeError | Some (xs, ys) => interp1d xs ys t end.
  (** getPODCLModel(c)(t): _kriging_tools.py 46-55, _polynomial_chaos_pod.py 244-252, _adaptive_hitmiss_pod.py 441-451. *)
  Definition meta_evalCL (o : meta_obj) (c t : R) : res R :=
    match mo_rows o with
    | None => Raise AttributeError
    | Some (rows, d) => do vs <- pod_cl_values rows d c; interp1d (mo_sizes o) vs t
    end.
End MetaModel.
(** The mean of each column of a sample (ot.Sample.computeMean). _kriging_pod.py 215-218. *)
Definition col_means (sizes : list R) (rows : list (list R)) : list R :=
  map (fun j => Rmean (column rows j)) (seq 0 (length sizes)).

(** *** Quantile regression POD *)
(** Abscissae and ordinates of the curve, _quantile_regression_pod.py 148-150 and 246-249. *)
Definition qr_xs (sizes : list R) (defectMax : R) : list R := 0 :: sizes ++ [defectMax].
(** Ordinates of the curve, same lines. _quantile_regression_pod.py 148-150. *)
Definition qr_ys (levels : list R) : list R := 0 :: levels ++ [Rlmax levels].
(** The POD curve, given the sizes a_q found for the levels q. _quantile_regression_pod.py 148-150. *)
Definition qr_curve (levels sizes : list R) (defectMax t : R) : res R :=
  interp1d (qr_xs sizes defectMax) (qr_ys levels) t.
(** run, lines 127-147: for each level the (1-q) regression line [line q] is solved on [0, defectMax]; the solver raises
    when the line does not cross the threshold there.  [solve] is ot.Brent().solve. *)
Fixpoint qr_sizes (solve : solver) (line : R -> R -> R) (threshold lo hi : R) (levels : list R) : res (list R) :=
  match levels with
  | [] => Ok []
  | q :: qs => do a <- solve (line q) threshold lo hi;
               do l <- qr_sizes solve line threshold lo hi qs; Ok (a :: l)
  end.
(** The sizes kept by run, _quantile_regression_pod.py 127-147. *)
Definition qr_run (solve : solver) (line : R -> R -> R) (threshold defectMax : R) (levels : list R) : res (list R) :=
  qr_sizes solve line threshold 0 defectMax levels.

(** *** Interval checks of drawPOD: _kriging_tools.py 91-116, _polynomial_chaos_pod.py 288-313,
    _adaptive_hitmiss_pod.py 487-512 ([lo], [hi] = extreme defect sizes) and _quantile_regression_pod.py 346-371
    (extreme defects).  Returns the interval that is drawn. *)
Definition draw_interval (lo hi : R) (dmin dmax : option R) : res (R * R) :=
  do a <- match dmin with
          | None => Ok lo
          | Some a => if Rltb a lo then Raise ValueError else if Rltb hi a then Raise ValueError else Ok a
          end;
  do b <- match dmax with
          | None => Ok hi
          | Some b => if Rltb hi b then Raise ValueError else if Rltb b lo then Raise ValueError else Ok b
          end;
  Ok (a, b).
(** The points at which ot.Function.draw evaluates the curve: nbPt >= 2 equally spaced points of the interval (external). *)
Definition draw_points (a b : R) (nbPt : nat) : list R :=
  map (fun i => a + INR i * (b - a) / INR (nbPt - 1)) (seq 0 nbPt).
