(** Model of the constructors: POD.__init__, the POD classes and UnivariateLinearModelAnalysis. *)
From Verif Require Import Base Float64.

(** A 2-d sample of [s_dim] columns (the result of [ot.Sample(np.vstack(x))]). /repo/otpod/_pod.py 24-25. *)
Record sample := { s_data : list (list float); s_dim : nat }.
(** ot.Sample.getSize. General Python or numpy semantics, no line of its own. *)
Definition s_size (s : sample) : nat := length (s_data s).

(** The boxCox argument as the code sees it (/repo/otpod/_pod.py 31-36): a value whose type is exactly float, or any
    other value of which only the truth value is used (None, True, False, an int, a numpy.float64...). *)
Inductive boxarg := BFloat (lambda : float) | BTruth (b : bool).
(** [_lambdaBoxCox] and [_boxCox] after the constructor: /repo/otpod/_pod.py 31-36 and
    _univariate_linear_model_analysis.py 150-155. *)
Definition box_lambda (a : boxarg) : option float := match a with BFloat l => Some l | BTruth _ => None end.
(** [_boxCox], same lines. _pod.py 31-36. *)
Definition box_flag (a : boxarg) : bool := match a with BFloat _ => true | BTruth b => b end.

(** The POD classes whose constructors are modelled, one file each. Classes at _univariate_linear_model_pod.py 20, _quantile_regression_pod.py 16, _kriging_pod.py 14, _adaptive_signal_pod.py 16, _polynomial_chaos_pod.py 16, _adaptive_hitmiss_pod.py 19. *)
Inductive pod_class := LinearPOD | QuantilePOD | KrigingClass | AdaptiveSignalClass | ChaosClass | HitMissClass.
(** The assertion that fails. _pod.py 48-56. *)
Inductive check := NotEnoughObservations | SizesDiffer | OutputDimension | InputDimension.

(** Outcome of a constructor's assertions: the first false one, if any. General Python or numpy semantics, no line of its own. *)
Definition asserts (l : list (bool * check)) : option check :=
  fold_right (fun bc k => if fst bc : bool then k else Some (snd bc)) None l.

(** POD.__init__, /repo/otpod/_pod.py 50-56. *)
Definition pod_asserts (i o : sample) : list (bool * check) :=
  [ (Nat.leb 3 (s_size i), NotEnoughObservations);
    (Nat.eqb (s_size i) (s_size o), SizesDiffer);
    (Nat.eqb (s_dim o) 1, OutputDimension) ].
(** The extra assertion of the subclasses: _univariate_linear_model_pod.py 137, _quantile_regression_pod.py 91,
    _kriging_pod.py 99, _adaptive_signal_pod.py 121; none in _polynomial_chaos_pod.py 71-139 and
    _adaptive_hitmiss_pod.py 83-175. *)
Definition class_asserts (c : pod_class) (i : sample) : list (bool * check) :=
  match c with
  | LinearPOD | QuantilePOD => [ (Nat.eqb (s_dim i) 1, InputDimension) ]
  | KrigingClass | AdaptiveSignalClass => [ (Nat.ltb 1 (s_dim i), InputDimension) ]
  | ChaosClass | HitMissClass => []
  end.
(** Argument checking of a POD constructor; what follows it (the preliminary [_run] of the meta-model classes) is
    modelled elsewhere. _pod.py 17-56 and the constructors of the classes above. *)
Definition pod_checks (c : pod_class) (i o : sample) : option check :=
  asserts (pod_asserts i o ++ class_asserts c i).
(** UnivariateLinearModelAnalysis.__init__, _univariate_linear_model_analysis.py 161-168. *)
Definition analysis_checks (i o : sample) : option check :=
  asserts [ (Nat.leb 3 (s_size i), NotEnoughObservations);
            (Nat.eqb (s_size i) (s_size o), SizesDiffer);
            (Nat.eqb (s_dim i) 1, InputDimension);
            (Nat.eqb (s_dim o) 1, OutputDimension) ].

(** *** UnivariateLinearModelAnalysis object: the attributes read by the POD constructor.
    [a_res] is never None (lines 143-147), a string names the class of the distribution factory. *)
Section Analysis.
  Context {F : Type}.        (* distribution factories *)
  Record analysis := {
    a_in : sample; a_out : sample; a_noise : option float; a_sat : option float;
    a_res : F; a_lambda : option float   (* what getBoxCoxParameter returns, line 1036 *) }.

  (** Optimiser computeBoxCox (_math_tools.py 87-109) as an oracle of the data given to it. *)
  Variable optimise : sample -> sample -> float.
  Variable normalFactory : F.
  (** Constructor, lines 117-173, with lambda as in [_run] 213-223: a given lambda is kept, otherwise it is optimised.
      Simplifications: the samples given to the optimiser are the whole data (censoring is modelled in FilterModel.v), and
      numerical failures of the regression are not modelled. *)
  Definition analysis_ctor (i o : sample) (noise sat : option float) (res : option F) (box : boxarg)
    : Base.res analysis :=
    match analysis_checks i o with
    | Some _ => Raise AssertionError
    | None =>
      let lam := if box_flag box then
                   match box_lambda box with Some l => Some l | None => Some (optimise i o) end
                 else box_lambda box in
      Ok {| a_in := i; a_out := o; a_noise := noise; a_sat := sat;
            a_res := match res with None => normalFactory | Some f => f end; a_lambda := lam |}
    end.

  (** *** UnivariateLinearModelPOD object, _univariate_linear_model_pod.py 77-137 *)
  Record linear_pod := {
    p_in : sample; p_out : sample; p_detection : option float; p_noise : option float; p_sat : option float;
    p_res : option F; p_boxCox : bool; p_lambda : option float }.
  (** Arguments; [None] is Python's None.  [g_box] cannot be told from its default when an analysis is given. _univariate_linear_model_pod.py 77-87. *)
  Record args := {
    g_in : option sample; g_out : option sample; g_detection : option float; g_noise : option float;
    g_sat : option float; g_res : option F; g_box : boxarg; g_analysis : option analysis }.
  (** Python "x is None", lines 92-105. *)
  Definition is_none {A} (o : option A) : bool := match o with None => true | Some _ => false end.

  (** POD.__init__ followed by the input dimension assertion; [np.vstack(None)] raises TypeError. _pod.py 17-56 and _univariate_linear_model_pod.py 106-137. *)
  Definition linear_init (i o : option sample) (det noise sat : option float) (res : option F) (box : boxarg)
    : Base.res linear_pod :=
    match i, o with
    | Some i, Some o =>
      match pod_checks LinearPOD i o with
      | Some _ => Raise AssertionError
      | None => Ok {| p_in := i; p_out := o; p_detection := det; p_noise := noise; p_sat := sat; p_res := res;
                      p_boxCox := box_flag box; p_lambda := box_lambda box |}
      end
    | _, _ => Raise TypeError
    end.
  (** UnivariateLinearModelPOD.__init__, _univariate_linear_model_pod.py 77-139: with an analysis its data are taken over. *)
  Definition linear_ctor (g : args) : Base.res linear_pod :=
    match g_analysis g with
    | Some a =>
      (* lines 92-105: any failed assertion becomes an AttributeError *)
      if is_none (g_in g) && is_none (g_out g) && is_none (g_noise g) && is_none (g_sat g)
         && is_none (g_res g) && negb (is_none (g_detection g))
      then linear_init (Some (a_in a)) (Some (a_out a)) (g_detection g) (a_noise a) (a_sat a) (Some (a_res a))
                       (match a_lambda a with Some l => BFloat l | None => BTruth false end)
      else Raise AttributeError
    | None => linear_init (g_in g) (g_out g) (g_detection g) (g_noise g) (g_sat g) (g_res g) (g_box g)
    end.

  (** Lambda after [run]: _univariate_linear_model_pod.py 559-580 and 168; the same in POD._run, _pod.py 317-340, used by
      the four other classes (at construction, or in run for the quantile regression). *)
  Definition pod_run_lambda (box : bool) (i o : sample) : option float :=
    if box then Some (optimise i o) else None.
  (** Attributes after UnivariateLinearModelPOD.run, _univariate_linear_model_pod.py 144-215: only lambda changes. *)
  Definition linear_run (p : linear_pod) : linear_pod :=
    {| p_in := p_in p; p_out := p_out p; p_detection := p_detection p; p_noise := p_noise p; p_sat := p_sat p;
       p_res := p_res p; p_boxCox := p_boxCox p; p_lambda := pod_run_lambda (p_boxCox p) (p_in p) (p_out p) |}.
End Analysis.
Arguments analysis : clear implicits.
Arguments linear_pod : clear implicits.
Arguments args : clear implicits.
