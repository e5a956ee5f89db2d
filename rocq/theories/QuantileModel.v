(** Empirical quantile and the objects that use it: confidence curves of the linear, kriging and chaos POD. *)
From Coq Require Import String.
From Verif Require Import RealBase.
Local Open Scope R_scope.

(** OpenTURNS Sample.computeQuantilePerComponent for one column of [length l > 0] values (external library; the algorithm is
    the documented one: linear interpolation of the order statistics at index prob * size - 1/2, clamped). *)
Definition quantile (l : list R) (p : R) : R :=
  let s := Rsort l in
  let n := length l in
  let t := p * INR n - / 2 in
  if Rleb (INR n - 1) t then nth (n - 1) s 0
  else if Rleb t 0 then nth 0 s 0
  else let k := Z.to_nat (Int_part t) in
       nth k s 0 + (t - INR k) * (nth (S k) s 0 - nth k s 0).

(** computeQuantilePerComponent on a sample given by rows, [d] columns; raises on an empty sample.
    Used at _kriging_tools.py 48-50 and _polynomial_chaos_pod.py 246-248. *)
Definition column (rows : list (list R)) (j : nat) : list R := map (fun r => nth j r 0) rows.
(** ot.Sample.computeQuantilePerComponent (external). *)
Definition quantile_per_component (rows : list (list R)) (d : nat) (p : R) : res (list R) :=
  match rows with
  | [] => Raise GenericException
  | _ => Ok (map (fun j => quantile (column rows j) p) (seq 0 d))
  end.
(** The values interpolated by getPODCLModel of the kriging and chaos classes. _kriging_tools.py 48-50, _polynomial_chaos_pod.py 246-248. *)
Definition pod_cl_values (PODPerDefect : list (list R)) (d : nat) (confidence : R) : res (list R) :=
  quantile_per_component PODPerDefect d (1 - confidence).

(** *** UnivariateLinearModelPOD object *)
(** The three kinds of POD function, _univariate_linear_model_pod.py 181-191. *)
Inductive kind := Binomial | Gauss | Bootstrap.

(** A distribution factory is represented by the class name that [getClassName] returns.
    Dispatch of the POD function, _univariate_linear_model_pod.py 183-193. *)
Definition pod_kind (factory : option string) : kind :=
  match factory with
  | None => Binomial
  | Some name => if String.eqb name "NormalFactory" then Gauss else Bootstrap
  end.
(** Dispatch of the collection of simulated curves, lines 197-213. *)
Definition coll_kind (factory : option string) : option kind :=
  match factory with
  | None => None
  | Some name => Some (if String.eqb name "NormalFactory" then Gauss else Bootstrap)
  end.

(** A POD curve. General Python or numpy semantics, no line of its own. *)
Definition curve := R -> R.
Section Linear.
  (** [sim k r i]: i-th simulated curve of kind k in the r-th run (random, lines 397-530);
      [pod k]: the POD curve of kind k (lines 361-416 and 461-482); [binomial_cl c]: binomial curve at confidence c (371-391). *)
  Variable sim : kind -> nat -> nat -> curve.
  Variable pod : kind -> curve.
  Variable binomial_cl : R -> curve.

  (** Attributes: [_simulationSize], [_PODmodel] (None when not set), [_PODcollDict] (None when not set), number of runs. _univariate_linear_model_pod.py 77-215. *)
  Record lin_obj := {
    lo_factory : option string; lo_size : nat; lo_pod : option (kind * curve);
    lo_coll : option (kind * list curve); lo_runs : nat }.
  (** After the constructor: _pod.py 21, no run yet. *)
  Definition lin_new (f : option string) : lin_obj :=
    {| lo_factory := f; lo_size := 1000; lo_pod := None; lo_coll := None; lo_runs := 0 |}.
  (** setSimulationSize, _pod.py 69-78 (the argument is a natural number here; nothing is checked by the code). *)
  Definition lin_setSize (o : lin_obj) (n : nat) : lin_obj :=
    {| lo_factory := lo_factory o; lo_size := n; lo_pod := lo_pod o; lo_coll := lo_coll o; lo_runs := lo_runs o |}.
  (** run, lines 139-213: assumed to complete (numerical failures are not modelled). *)
  Definition lin_run (o : lin_obj) : lin_obj :=
    {| lo_factory := lo_factory o; lo_size := lo_size o;
       lo_pod := Some (pod_kind (lo_factory o), pod (pod_kind (lo_factory o)));
       lo_coll := match coll_kind (lo_factory o) with
                  | None => lo_coll o
                  | Some k => Some (k, map (sim k (lo_runs o)) (seq 0 (lo_size o)))
                  end;
       lo_runs := S (lo_runs o) |}.
  (** The loop of lines 252-253: samplePODDef[i] = PODcollDict[i](x) for i in range(simulationSize). *)
  Fixpoint collect (coll : list curve) (x : R) (is : list nat) : res (list R) :=
    match is with
    | [] => Ok []
    | i :: is' => match nth_error coll i with
                  | None => Raise IndexError
                  | Some c => do vs <- collect coll x is'; Ok (c x :: vs)
                  end
    end.
  (** getPODCLModel(confidence) then evaluation at x, lines 227-258.  The function object that is returned reads the
      attributes when it is evaluated, so the state is the one at evaluation time (for the binomial kind the residuals are
      those of the latest run at the time of the get call; they are the same in every run as the data cannot be changed).
      The quantile of an empty sample raises. *)
  Definition lin_evalCL (o : lin_obj) (c : R) (x : R) : res (kind * R) :=
    match lo_factory o with
    | None => match lo_pod o with
              | None => Raise AttributeError         (* self._residuals *)
              | Some _ => Ok (Binomial, binomial_cl c x)
              end
    | Some _ =>
      match lo_coll o with
      | None => if Nat.eqb (lo_size o) 0 then Raise GenericException else Raise AttributeError
      | Some (k, coll) =>
        do vs <- collect coll x (seq 0 (lo_size o));
        match vs with
        | [] => Raise GenericException
        | _ => Ok (k, quantile vs (1 - c))
        end
      end
    end.
  (** getPODModel() then evaluation at x, lines 215-225 and 193. *)
  Definition lin_evalPOD (o : lin_obj) (x : R) : res (kind * R) :=
    match lo_pod o with None => Raise AttributeError | Some (k, c) => Ok (k, c x) end.

  (** Calls of a history. No line of its own: the calls of a client. *)
  Inductive lin_op := SetSize (n : nat) | Run | EvalPOD (x : R) | EvalCL (c x : R).
  (** One call. No line of its own: the calls of a client. *)
  Definition lin_step (o : lin_obj) (op : lin_op) : lin_obj :=
    match op with SetSize n => lin_setSize o n | Run => lin_run o | EvalPOD _ | EvalCL _ _ => o end.
  (** A history from construction, oldest call first. No line of its own: the calls of a client. *)
  Definition lin_history (f : option string) (ops : list lin_op) : lin_obj :=
    fold_left lin_step ops (lin_new f).
End Linear.
