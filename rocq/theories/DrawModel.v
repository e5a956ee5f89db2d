(** The graphs of the POD classes: _drawPOD and drawPOD, _drawValidationGraph (/repo/otpod/_pod.py 150-288 and the classes), the meta-model
    graph of PolynomialChaosPOD, the regression graph of QuantileRegressionPOD and the density graph of the perturbation law indices. Real
    numbers. A figure is the list of what is plotted, in order, with title and axes; colours, legend place and saved file are not modelled. *)
From Coq Require Import String.
From Verif Require Import RealBase Solver QuantileModel InterpModel DetectionModel.
Local Open Scope R_scope.
Local Open Scope list_scope.

(** What is drawn: a curve on an interval with a number of points (the label says the confidence level, if any), the horizontal line at the
    probability level, a vertical line from 0 to the level at a detection size (the label says the level, the confidence level and the size
    rounded). /repo/otpod/_pod.py 198-250. *)
Inductive element :=
| Curve (f : R -> res R) (lo hi : R) (n : nat) (conf : option R)
| Level (p lo hi : R)
| Size (x p : R) (conf : option R).
(** Which class draws: the linear one with its residual factory, the kriging ones, chaos, hit-miss, quantile regression. Classes at
    _univariate_linear_model_pod.py 20, _kriging_tools.py 16, _polynomial_chaos_pod.py 16, _adaptive_hitmiss_pod.py 19, _quantile_regression_pod.py 16. *)
Inductive family := FLinear (factory : option string) | FKriging | FChaos | FHitMiss | FQuantile.
(** The titles: _univariate_linear_model_pod.py 316-325, _kriging_tools.py 141, _polynomial_chaos_pod.py 338, _adaptive_hitmiss_pod.py 537,
    _quantile_regression_pod.py 396. *)
Definition title (c : family) : string :=
  match c with
  | FLinear None => "POD - Linear regression model - Binomial"
  | FLinear (Some f) => if String.eqb f "NormalFactory" then "POD - Linear regression model - Gauss" else "POD - Linear regression model - " ++ f
  | FKriging => "POD - Kriging model"
  | FChaos => "POD - Polynomial chaos model"
  | FHitMiss => "POD - Classifier model"
  | FQuantile => "POD - Quantile regression model"
  end.

Section DrawPOD.
(** The object as drawPOD sees it: the extreme sizes of the range of the class (input sample of the linear POD, defect sizes or defects of the
    others), getPODModel, getPODCLModel and computeDetectionSize. *)
Variable lo hi : R.
Variable model : R -> res R.
Variable getCL : R -> res (R -> res R).
Variable detect : R -> option R -> res (list R).
(** The interval: no check in the linear class (_pod.py 190-193), the checks of the others (InterpModel.v). *)
Definition interval (c : family) (dmin dmax : option R) : res (R * R) :=
  match c with
  | FLinear _ => Ok (match dmin with Some x => x | None => lo end, match dmax with Some x => x | None => hi end)
  | _ => draw_interval lo hi dmin dmax
  end.
(** POD._drawPOD, _pod.py 150-255, on the interval. The size is computed by the method of the class, which is not given the interval (223). *)
Definition inner_drawPOD (cl : option (R -> res R)) (p conf : option R) (a b : R) (n : nat) : res (list element) :=
  do e2 <- match conf with
           | None => Ok []
           | Some g => match cl with Some f => Ok [Curve f a b n (Some g)] | None => Raise AttributeError end
           end;
  do e3 <- match p with
           | None => Ok []
           | Some p =>
               do sizes <- detect p conf;
               do x0 <- match nth_error sizes 0 with Some x => Ok x | None => Raise IndexError end;
               do e4 <- match conf with
                        | None => Ok []
                        | Some g => do x1 <- match nth_error sizes 1 with Some x => Ok x | None => Raise IndexError end; Ok [Size x1 p (Some g)]
                        end;
               Ok (Level p a b :: Size x0 p None :: e4)
           end;
  Ok (Curve model a b n None :: e2 ++ e3).
(** drawPOD: _univariate_linear_model_pod.py 283-330, _kriging_tools.py 81-145, _polynomial_chaos_pod.py 278-342, _adaptive_hitmiss_pod.py
    477-541, _quantile_regression_pod.py 336-400. *)
Definition drawPOD (c : family) (p conf dmin dmax : option R) (n : nat) : res (string * list element) :=
  do ab <- interval c dmin dmax;
  do cl <- match conf with None => Ok None | Some g => do f <- getCL g; Ok (Some f) end;
  do els <- inner_drawPOD cl p conf (fst ab) (snd ab) n;
  Ok (title c, els).
End DrawPOD.

(** computeDetectionSize of the linear, kriging, chaos and hit-miss classes: _univariate_linear_model_pod.py 273-279, _kriging_tools.py 59-77,
    _polynomial_chaos_pod.py 256-274, _adaptive_hitmiss_pod.py 455-473: always on the whole range of the class. *)
Definition class_detect (solve : solver) (lo hi : R) (model : R -> res R) (getCL : R -> res (R -> res R)) (p : R) (conf : option R) : res (list R) :=
  match conf with
  | None => computeDetectionSize solve (total model) None p lo hi
  | Some g => do f <- getCL g; computeDetectionSize solve (total model) (Some (total f)) p lo hi
  end.

(** POD._drawValidationGraph, _pod.py 257-288: the limits of both axes and of the diagonal, and the points. np.min of nothing raises ValueError. *)
Record validation := { v_lo : R; v_hi : R; v_points : list (R * R) }.
(** _pod.py 257-288; ax.plot of lists of different lengths raises ValueError. *)
Definition drawValidationGraph (target prediction : list R) : res validation :=
  match target ++ prediction with
  | [] => Raise ValueError
  | all => if Nat.eqb (List.length target) (List.length prediction)
           then Ok {| v_lo := 99 / 100 * Rlmin all; v_hi := 101 / 100 * Rlmax all; v_points := combine target prediction |}
           else Raise ValueError
  end.

(** drawPolynomialChaosModel, _polynomial_chaos_pod.py 356-404: data and curve; the exception of 378-382 in more than one dimension. *)
Definition drawPolynomialChaosModel (dim : nat) (chaos : R -> R) (defects signals : list R) : res (list (R * R) * list (R * R)) :=
  if Nat.eqb dim 1 then let s := Rsort defects in Ok (combine defects signals, combine s (map chaos s)) else Raise GenericException.
(** QuantileRegressionPOD.drawLinearModel, _quantile_regression_pod.py 402-443: [fit q] is the line of level q of statsmodels (423). *)
Definition qr_drawLinearModel (fit : R -> res (R * R)) (defects signals : list R) (p : R) : res (list (R * R) * list (R * R)) :=
  do ab <- fit (1 - p);
  Ok (combine defects signals, combine defects (map (fun x => fst ab + snd ab * x) defects)).
(** PLI.drawMarginal1DPDF, _pli.py 430-513: bounds from the quantiles of the original marginal (472-477), the perturbed density on the grid of
    np.linspace (487-490), the original density drawn on the same bounds (500-507). [quantile] and [pdf] of the marginal, [pert] the perturbed
    density of the child class, [deltas] the array _deltaValues (rows idelta); negative indices are not modelled. *)
Definition drawMarginal1DPDF (quantile : R -> R) (pdf : R -> R) (pert : R -> R -> R) (deltas : list (list R)) (marginal idelta : nat)
  (original : bool) (xmin xmax : option R) (n : nat) : res (R * list (R * R) * option (list (R * R))) :=
  let a := match xmin with Some x => x | None => quantile (5 / 100) end in
  let b := match xmax with Some x => x | None => quantile (95 / 100) end in
  match nth_error deltas idelta with
  | None => Raise IndexError
  | Some row => match nth_error row marginal with
                | None => Raise IndexError
                | Some delta => Ok (delta, map (fun x => (x, pert delta x)) (draw_points a b n), if original then Some (map (fun x => (x, pdf x)) (draw_points a b n)) else None)
                end
  end.
