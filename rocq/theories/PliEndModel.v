(** The objects PLIMean and PLIVariance from the Monte Carlo simulations to the tables of indices: /repo/otpod/_pli_pod.py lines 80-143
    and 416-473 with the objects of /repo/otpod/_pli.py. The two levels are PliObjModel.v and PliTableModel.v; here the first calls the second. *)
From Verif Require Import RealBase LooModel KrigAttrModel PliModel PliPodModel PliObjModel PliDensityModel PliTableModel.
Local Open Scope R_scope.

(** The joint distribution of the parameters (_pli_pod.py 54-57, 207-223): is it a JointDistribution, is its copula the independent one, its
    marginals. *)
Record joint := { j_joint : bool; j_independent : bool; j_margs : list marginal_dist }.
(** The class of _pli.py built by _definePLIAlgorithm, _pli_pod.py 439-445 and 470-473. *)
Definition kind_of (c : pli_class) : kind := match c with PLIMean _ => Mean (scaled c) | PLIVariance _ => Variance (scaled c) end.
(** The matrix _delta (59) given as deltas to the object; its number of columns is read on its first row (matrices are rectangular). *)
Definition matrix (delta : list (list R)) : deltas := D2 match delta with row :: _ => length row | [] => O end delta.

Section PliEnd.
(** Values of the sampling size, integration algorithms. *)
Variables N G : Type.
(** The metamodel of the signal (26-33) and the detection threshold (50), the matrix of the deltas (59), the class, _dim (42). *)
Variable metamodel : list R -> R.
Variable detection : R.
Variable delta : list (list R).
Variable class : pli_class.

(** What is drawn or solved outside during a run: the points of the successive simulations (80-96), the root of fsolve (_pli.py 677-684) and
    the optimisation (884-919) for the successive simulations. *)
Record outside := { e_points : nat -> list (list R); e_root : (R -> option R) -> R; e_optimum : nat -> G -> nat -> R * R -> res (R * R) }.
(** The signal of a defect of size x at the points: the function with its first variable fixed, line 82. *)
Definition signals (x : R) (points : list (list R)) : list R := map (fun p => metamodel (x :: p)) points.
(** The result of the n-th simulation, run for size x: the event is "greater than the detection threshold" (88), lines 82-96. *)
Definition simulation (e : outside) (n : nat) (x : R) : PliTableModel.world G :=
  {| w_op := Greater; w_threshold := detection; w_xs := e_points e n; w_outs := signals x (e_points e n);
     PliTableModel.w_solve := e_root e; w_opt := e_optimum e n |}.
(** getProbabilityEstimate of that result, line 117. *)
Definition estimate (e : outside) (n : nat) (x : R) : R := mc_probability Greater detection (signals x (e_points e n)).

(** The object built for one simulation: its marginals, its deltas, the result it was given (439-445, 470-473; _pli.py 52-104). *)
Record one := { one_margs : list marginal_dist; one_deltas : list (list R); one_result : PliTableModel.world G }.
(** _definePLIAlgorithm, lines 439-445 and 470-473: the constructor may refuse the distribution or the deltas. *)
Definition define (e : outside) (d : joint) (dl : list (list R)) (c : pli_class) (n : nat) (x : R) : res one :=
  do v <- construct (kind_of c) (length (e_points e n)) (j_independent d) (j_margs d) (matrix dl);
  Ok {| one_margs := j_margs d; one_deltas := v; one_result := simulation e n x |}.
(** setGaussKronrod and run of that object, lines 121-122, from the state its constructor left. *)
Definition object_run (g : G) (o : one) : PliTableModel.obj G * res unit :=
  PliTableModel.run G (kind_of class) (one_margs o) (one_deltas o) (one_result o) (PliTableModel.fresh G g).
(** run, then the table read by getIndices, lines 122-125. *)
Definition object_indices (g : G) (o : one) : res (nat -> nat -> option R) :=
  match object_run g o with
  | (_, Raise ex) => Raise ex
  | (s, Ok _) => Ok (fun i j => nth j (nth i (PliTableModel.getIndices G (one_margs o) (one_deltas o) s) []) None)
  end.
(** What run of the outer object calls, lines 114-131, in the form expected by PliObjModel.v. *)
Definition calls (e : outside) : PliObjModel.world joint N G one :=
  {| w_mc := fun _ _ => estimate e; w_define := define e; PliObjModel.w_solve := object_indices |}.
(** run of PLIMean and PLIVariance, lines 98-143. *)
Definition run (e : outside) (s : PliObjModel.state joint N G one) : PliObjModel.state joint N G one * res unit :=
  PliObjModel.run joint N G one delta class (calls e) s.
End PliEnd.
