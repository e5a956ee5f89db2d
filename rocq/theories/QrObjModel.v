(** The QuantileRegressionPOD object over the calls made on it: /repo/otpod/_quantile_regression_pod.py (run 99-212, accessors) with
    POD._run (/repo/otpod/_pod.py 290-348). The regressions and the optimisation of the Box-Cox parameter are external. *)
From Verif Require Import RealBase QuantileModel InterpModel DetectionModel KrigAttrModel.
Local Open Scope R_scope.

Section Qr.
(** Samples, filtered samples, Box-Cox parameters, likelihood graphs, transformed samples with their threshold. *)
Variables Data F L Gr Prep : Type.
(** The attribute _boxCox (_pod.py 30-36) and the sample of the constructor. *)
Variable boxCox : bool.
Variable data : Data.
(** filterCensoredData (_pod.py 304-315), computeBoxCox with the shift (319-326), the transformation of signals and threshold
    (328-338), largest filtered defect (_quantile_regression_pod.py 136, 247). *)
Variable filtered : Data -> res F.
Variable optimise : F -> res (L * Gr).
Variable transform : F -> option L -> res Prep.
Variable max_defect : Prep -> R.

(** What the external computations of one call of run give. *)
Record world := {
  (** the sizes found for the levels on the data, one per level (128-145) *)
  w_sizes : Prep -> list R -> res (list R);
  (** the i-th bootstrap sample (166) and the sizes found on it, one per level (179-208) *)
  w_data : nat -> Data;
  w_boot : nat -> Prep -> list R -> res (list R) }.

(** Attributes _lambdaBoxCox, _graphBoxCox, _defects and _signals and _detectionBoxCox, _quantile, _simulationSize, nodes of
    _PODmodel, _defectsPerQuantile with its dimension. _quantile_regression_pod.py 60-97. *)
Record state := { lam : option L; graph : attr Gr; prep : attr Prep; levels : list R; sims : nat;
                  curve : attr (list R * list R * R); rows : attr (list (list R) * nat) }.
(** The constructor (_pod.py 21, 30-36, _quantile_regression_pod.py 70-76): [given] is the float passed as boxCox. *)
Definition init (given : option L) (l : list R) : state :=
  {| lam := given; graph := Missing; prep := Missing; levels := l; sims := 1000; curve := Missing; rows := Missing |}.
(** self._lambdaBoxCox, self._graphBoxCox = ... (_pod.py 324). *)
Definition set_boxcox (l : L) (g : Gr) (s : state) : state :=
  {| lam := Some l; graph := Val g; prep := prep s; levels := levels s; sims := sims s; curve := curve s; rows := rows s |}.
(** self._lambdaBoxCox = None (_pod.py 339). *)
Definition clear_lam (s : state) : state :=
  {| lam := None; graph := graph s; prep := prep s; levels := levels s; sims := sims s; curve := curve s; rows := rows s |}.
(** self._defects = ... (_quantile_regression_pod.py 124-126). *)
Definition set_prep (p : Prep) (s : state) : state :=
  {| lam := lam s; graph := graph s; prep := Val p; levels := levels s; sims := sims s; curve := curve s; rows := rows s |}.
(** self._PODmodel = ... (148-151). *)
Definition set_curve (c : list R * list R * R) (s : state) : state :=
  {| lam := lam s; graph := graph s; prep := prep s; levels := levels s; sims := sims s; curve := Val c; rows := rows s |}.
(** self._defectsPerQuantile = ... and the assignments of its rows (163, 210). *)
Definition set_rows (r : list (list R) * nat) (s : state) : state :=
  {| lam := lam s; graph := graph s; prep := prep s; levels := levels s; sims := sims s; curve := curve s; rows := Val r |}.

(** POD._run, _pod.py 290-348: the attributes are written before the transformation, which may raise. *)
Definition run_ (d : Data) (s : state) : state * res Prep :=
  match filtered d with
  | Raise e => (s, Raise e)
  | Ok f =>
      if boxCox then match optimise f with
                     | Raise e => (s, Raise e)
                     | Ok (l, g) => (set_boxcox l g s, transform f (Some l))
                     end
      else (clear_lam s, transform f None)
  end.
(** The bootstrap loop, lines 164-212: _run is called on every bootstrap sample. [filled] are the rows already written, the
    others are zeros. *)
Fixpoint boot (w : world) (is : list nat) (filled : list (list R)) (s : state) : state * res unit :=
  match is with
  | [] => (s, Ok tt)
  | i :: is' =>
      match run_ (w_data w i) s with
      | (s1, Raise e) => (s1, Raise e)
      | (s1, Ok p) =>
          match w_boot w i p (levels s1) with
          | Raise e => (s1, Raise e)
          | Ok r => boot w is' (filled ++ [r])
                      (set_rows (filled ++ [r] ++ repeat (repeat 0 (length (levels s1))) (length is'), length (levels s1)) s1)
          end
      end
  end.
(** run, lines 99-212. *)
Definition run (w : world) (s : state) : state * res unit :=
  match run_ data s with
  | (s1, Raise e) => (s1, Raise e)
  | (s1, Ok p) =>
      let s2 := set_prep p s1 in
      match w_sizes w p (levels s2) with
      | Raise e => (s2, Raise e)
      | Ok a =>
          let s3 := set_curve (levels s2, a, max_defect p) s2 in
          let n := length (levels s3) in
          boot w (seq 0 (sims s3)) [] (set_rows (repeat (repeat 0 n) (sims s3), n) s3)
      end
  end.
(** setQuantile when the argument is accepted (276-290; the checks are in SettersModel.v). *)
Definition setQuantile (l : list R) (s : state) : state :=
  {| lam := lam s; graph := graph s; prep := prep s; levels := l; sims := sims s; curve := curve s; rows := rows s |}.
(** setSimulationSize, _pod.py 69-78. *)
Definition setSimulationSize (n : nat) (s : state) : state :=
  {| lam := lam s; graph := graph s; prep := prep s; levels := levels s; sims := n; curve := curve s; rows := rows s |}.
(** getBoxCoxParameter, _pod.py 389-399. *)
Definition getBoxCoxParameter (s : state) : option L := lam s.
(** drawBoxCoxLikelihood, _pod.py 350-387 (the graph that is shown). *)
Definition drawBoxCoxLikelihood (s : state) : res (option Gr) := if boxCox then read (graph s) else Raise GenericException.
(** getPODModel()(t), 214-224. *)
Definition evalPOD (s : state) (t : R) : res R :=
  match curve s with Val (l, a, dmax) => qr_curve l a dmax t | _ => Raise AttributeError end.
(** getPODCLModel(confidence)(t), 226-252: the rows of the run with the levels of now. *)
Definition evalCL (s : state) (confidence t : R) : res R :=
  match rows s with
  | Val (r, d) =>
      do a <- quantile_per_component r d confidence;
      match prep s with Val p => qr_curve (levels s) a (max_defect p) t | _ => Raise AttributeError end
  | _ => Raise AttributeError
  end.
(** The calls made on the object. No line of its own: the calls of a client. *)
Inductive op := Run (w : world) | SetLevels (l : list R) | SetSims (n : nat).
(** One call; an exception of run may be caught by the caller. No line of its own: the calls of a client. *)
Definition step (o : op) (s : state) : state :=
  match o with Run w => fst (run w s) | SetLevels l => setQuantile l s | SetSims n => setSimulationSize n s end.
(** The object after the calls, newest first. No line of its own: the calls of a client. *)
Fixpoint after (given : option L) (l : list R) (past : list op) : state :=
  match past with [] => init given l | o :: past' => step o (after given l past') end.
End Qr.
