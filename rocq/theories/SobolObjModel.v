(** The SobolIndices object over the calls made on it: /repo/otpod/_sobol_indices.py (constructor 59-97, run 99-169, drawing 184-341,
    accessors 343-458). The evaluation of the POD function and the sensitivity algorithms are external. *)
From Coq Require Import String.
From Verif Require Import RealBase Float64 SettersModel HitMissModel SobolModel.
Local Open Scope string_scope.
Local Open Scope list_scope.

Section SobolObj.
(** Distributions, output columns, sensitivity algorithms of OpenTURNS, the values given to setSimulationSize (never checked) and the numbers
    of a sensitivity index. *)
Variables D Col Alg N V : Type.
(** isinstance(distribution, ot.JointDistribution) and its dimension (_sobol_indices.py 416-422). *)
Variable is_joint : D -> bool.
Variable dimension : D -> nat.
(** _podType == "chaos" (61-72), _dim (75), extreme defects of the POD input (384-385). *)
Variable chaos : bool.
Variable dim : nat.
Variables lo hi : float.

(** What the external computations of one call of run give: the output columns for a distribution, a simulation size (chaos only, lines
    106-121) and defect sizes (123-126), whether a variance is not null (131-138), the sensitivity object (152-169). *)
Record world := { w_design : D -> option N -> list float -> res (list Col); w_nonzero : Col -> bool; w_algo : string -> list Col -> res Alg }.

(** Attributes _defectSizes and _defectNumber, _method, _distribution, _simulationSize, _sa. _sobol_indices.py 80-97. *)
Record state := { sizes : sizes_state; method : string; dist : D; sims : N; sa : option Alg }.
(** The end of the constructor, lines 80-97, for the sizes and the marginals of the POD; [thousand] is the 1000 of line 84. *)
Definition init (pod_sizes : list float) (marginals : D) (thousand : N) : state :=
  {| sizes := {| st_sizes := pod_sizes; st_number := List.length pod_sizes |}; method := "Saltelli"; dist := marginals; sims := thousand; sa := None |}.
(** setSensitivityMethod, lines 354-370. *)
Definition setSensitivityMethod (m : string) (s : state) : state * res unit :=
  if existsb (String.eqb m) ["Saltelli"; "Jansen"; "Martinez"; "MauntzKucherenko"]
  then ({| sizes := sizes s; method := m; dist := dist s; sims := sims s; sa := sa s |}, Ok tt)
  else (s, Raise AttributeError).
(** setDistribution, lines 407-423. *)
Definition setDistribution (d : D) (s : state) : state * res unit :=
  if negb (is_joint d) then (s, Raise ValueError)
  else if negb (Nat.eqb (dimension d) dim) then (s, Raise AttributeError)
  else ({| sizes := sizes s; method := method s; dist := d; sims := sims s; sa := sa s |}, Ok tt).
(** setSimulationSize, lines 448-458. *)
Definition setSimulationSize (n : N) (s : state) : state :=
  {| sizes := sizes s; method := method s; dist := dist s; sims := n; sa := sa s |}.
(** setDefectSizes, lines 372-393. *)
Definition setSizes (l : list float) (s : state) : state * res unit :=
  let '(z, r) := setDefectSizes lo hi (sizes s) l in
  ({| sizes := z; method := method s; dist := dist s; sims := sims s; sa := sa s |}, r).
(** run, lines 99-169: the output columns (104-126), the removal of the constant ones (128-150, see SobolModel.v), the sensitivity object
    (152-169). *)
Definition run (w : world) (s : state) : state * res unit :=
  match w_design w (dist s) (if chaos then Some (sims s) else None) (st_sizes (sizes s)) with
  | Raise e => (s, Raise e)
  | Ok outs =>
      let '(b, r) := sobol_run lo hi (fun _ => outs) (w_nonzero w) {| sb_sizes := sizes s; sb_sa := None |} in
      let s1 := {| sizes := sb_sizes b; method := method s; dist := dist s; sims := sims s; sa := sa s |} in
      match r, sb_sa b with
      | Ok _, Some cols =>
          match w_algo w (method s) cols with
          | Raise e => (s1, Raise e)
          | Ok a => ({| sizes := sizes s1; method := method s; dist := dist s; sims := sims s; sa := Some a |}, Ok tt)
          end
      | Raise e, _ => (s1, Raise e)
      | Ok _, None => (s1, Raise AttributeError)
      end
  end.
(** getSensitivityResult, lines 171-182. *)
Definition getSensitivityResult (s : state) : res Alg := match sa s with None => Raise GenericException | Some a => Ok a end.
(** The label check, lines 204-210 and 292-298.  The parentheses of the code call format on the exception itself, which has no such
    method: an AttributeError is raised all the same, with another message (messages are not modelled). *)
Definition check_label (label : option (list string)) : res unit :=
  match label with None => Ok tt | Some l => if Nat.eqb (List.length l) dim then Ok tt else Raise AttributeError end.
(** drawAggregatedIndices, lines 204-222: the sensitivity object that is drawn; None has no method draw. *)
Definition drawAggregatedIndices (label : option (list string)) (s : state) : res Alg :=
  do _ <- check_label label; match sa s with None => Raise AttributeError | Some a => Ok a end.
(** The two kinds of indices, and those of output i of a sensitivity object (getFirstOrderIndices 306, getTotalOrderIndices 308). *)
Inductive order := First | Total.
Variable index : order -> Alg -> nat -> res (list V).
(** The loop of _drawIndices, lines 301-311, from output i: a point is drawn when the indices of output i can be computed and have _dim
    components (otherwise the sample of line 302 refuses them); every exception is swallowed. *)
Fixpoint points (k : order) (a : option Alg) (i : nat) (l : list float) : list (float * list V) :=
  match l with
  | [] => []
  | x :: l' =>
      match a with
      | None => points k a (S i) l'
      | Some g =>
          match index k g i with
          | Ok v => if Nat.eqb (List.length v) dim then (x, v) :: points k a (S i) l' else points k a (S i) l'
          | Raise _ => points k a (S i) l'
          end
      end
  end.
(** _drawIndices, lines 270-341, called by drawFirstOrderIndices (224-245) and drawTotalOrderIndices (247-268): the points that are drawn
    (one curve per parameter, line 317) and the title (328-335). *)
Definition drawIndices (k : order) (label : option (list string)) (s : state) : res (list (float * list V) * string) :=
  do _ <- check_label label;
  Ok (points k (sa s) 0 (st_sizes (sizes s)),
      match k with First => "First" | Total => "Total" end ++ " order sensitivity indices - " ++ method s ++ " Algorithm")%string.

(** The calls made on the object. No line of its own: the calls of a client. *)
Inductive op := Run (w : world) | SetMethod (m : string) | SetDist (d : D) | SetSims (n : N) | SetSizes (l : list float).
(** One call: the object afterwards and the outcome. No line of its own: the calls of a client. *)
Definition call (o : op) (s : state) : state * res unit :=
  match o with
  | Run w => run w s
  | SetMethod m => setSensitivityMethod m s
  | SetDist d => setDistribution d s
  | SetSims n => (setSimulationSize n s, Ok tt)
  | SetSizes l => setSizes l s
  end.
(** The object after the calls, newest first; exceptions are caught by the client. No line of its own: the calls of a client. *)
Fixpoint after (s0 : state) (past : list op) : state :=
  match past with [] => s0 | o :: past' => fst (call o (after s0 past')) end.
End SobolObj.
