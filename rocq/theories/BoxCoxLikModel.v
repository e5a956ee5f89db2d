(** The Box-Cox likelihood with a linear trend: ReducedLogLikelihood and the starting point of LinearBoxCoxFactory,
    /repo/otpod/_math_tools.py 12-82. Real numbers. *)
From Verif Require Import RealBase RegModel BoxCoxModel.
Local Open Scope R_scope.

(** sumLogY_i, lines 33-35: the mean of the logarithms times the size. Simplification: the logarithm of a signal that is not positive is not
    modelled here; such a signal is refused by the transformation of line 38. *)
Definition sumLogY (ys : list R) : R := Rmean (map ln ys) * num ys.
(** sigma2, lines 43-47, for the transformed data and the least squares line (39-42). *)
Definition sigma2 (d : data) : R := let (b0, b1) := ols d in (num d - 1) / (num d - 2) * variance (residuals b0 b1 d).
(** _exec, lines 37-48: a Python float division by N - 2 = 0 raises ZeroDivisionError, m.log of a number that is not positive ValueError. *)
Definition reducedLL (d : data) (lam : R) : res R :=
  do yl <- map_res (boxcox lam) (map snd d);
  let dl := combine (map fst d) yl in
  if Nat.eqb (length d) 2 then Raise ZeroDivisionError
  else if Rleb (sigma2 dl) 0 then Raise ValueError
  else Ok (- (1 / 2) * num d * ln (sigma2 dl) + (lam - 1) * sumLogY (map snd d)).
(** np.array(values).argmax(), line 67: the first position of the largest value; ValueError for no value. *)
Fixpoint argmax_from (best : R) (at_ i : nat) (l : list R) : nat :=
  match l with [] => at_ | v :: l' => if Rltb best v then argmax_from v i (S i) l' else argmax_from best at_ (S i) l' end.
(** np.argmax, line 67. *)
Definition argmax (l : list R) : res nat := match l with [] => Raise ValueError | v :: l' => Ok (argmax_from v 0 1 l') end.
(** np.linspace(lambdaMin, lambdaMax, num=500), line 64, in real numbers (the binary64 version is LinspaceModel.v). *)
Definition grid (lo hi : R) (n : nat) : list R := map (fun i => lo + INR i * ((hi - lo) / INR (n - 1))) (seq 0 n).
(** The starting point of the optimiser, lines 63-67; the optimiser itself (66-73) is external. *)
Definition starting_point (d : data) (lo hi : R) (n : nat) : res R :=
  do vs <- map_res (reducedLL d) (grid lo hi n);
  do i <- argmax vs;
  Ok (nth i (grid lo hi n) 0).

(** The factory of the installed library as computeBoxCox sees it (lines 89-102): buildWithGraph (92-94), a build that returns a transformation
    and a graph (96-98), or a build that returns a transformation only, which cannot be unpacked (99-102). *)
Inductive library (T G : Type) : Type :=
| WithGraph (f : list R -> R -> res (T * G))
| PairBuild (f : list R -> R -> res (T * G))
| PlainBuild (f : list R -> R -> res T).
Arguments WithGraph {T G} _. Arguments PairBuild {T G} _. Arguments PlainBuild {T G} _.
(** computeBoxCox, lines 87-109; [lam] is transform.getLambda()[0] (103), [empty] is ot.Graph() (102). The second build of the TypeError branch (101)
    repeats the first call; a TypeError raised by the build of the second interface leads to it too, and then the second call raises again. *)
Definition computeBoxCox {T G} (lam : T -> R) (empty : G) (l : library T G) (factors ys : list R) (shift : R) : res (R * G) :=
  match l with
  | WithGraph f => do tg <- f ys shift; let (t, g) := tg in Ok (lam t, g)
  | PairBuild f => match f ys shift with
                   | Ok (t, g) => Ok (lam t, g)
                   | Raise TypeError => do tg <- f ys shift; let (t, g) := tg in Ok (lam t, empty)
                   | Raise e => Raise e
                   end
  | PlainBuild f => match (do t <- f ys shift; Raise TypeError) with
                    | Ok (t, g) => Ok (lam t, g)
                    | Raise TypeError => do t <- f ys shift; Ok (lam t, empty)
                    | Raise e => Raise e
                    end
  end.
