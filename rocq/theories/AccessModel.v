(** The plain settings of the POD classes and of PODSummary: verbosity, sizes, distribution, graph options, and the getters of AdaptiveHitMissPOD
    which depend on run. Values given by the user are Python objects of which only the type matters to the checks. *)
From Coq Require Import String.
From Verif Require Import Base Float64 SettersModel HitMissModel.
Local Open Scope list_scope.

(** A Python argument: a bool, a string, None, an OpenTURNS JointDistribution, or anything else; the natural numbers only tell objects apart. The
    types tested by the setters below. *)
Inductive arg := ABool (b : bool) | AStr (s : string) | ANone | AJoint (n : nat) | AOther (n : nat).
(** The classes with these methods: _univariate_linear_model_pod.py 20, _quantile_regression_pod.py 16, _polynomial_chaos_pod.py 16,
    _kriging_pod.py 14, _adaptive_signal_pod.py 16, _adaptive_hitmiss_pod.py 19, _pod_summary.py 16. *)
Inductive pclass := CLinear | CQuantile | CChaos | CKriging | CSignal | CHitMiss | CSummary.
(** Calls of the setters. *)
Inductive call :=
| SetVerbose (v : arg)                     (* _univariate_linear_model_pod.py 343, _quantile_regression_pod.py 456, _polynomial_chaos_pod.py 643, _kriging_tools.py 369, _adaptive_hitmiss_pod.py 804, _pod_summary.py 278 *)
| SetSimulation (n : arg)                  (* _pod.py 69, _pod_summary.py 303 *)
| SetSampling (n : arg)                    (* _polynomial_chaos_pod.py 447, _kriging_tools.py 199, _adaptive_hitmiss_pod.py 704, _pod_summary.py 430 *)
| SetStart (n : arg)                       (* _kriging_tools.py 223 *)
| SetCandidates (n : arg)                  (* _adaptive_signal_pod.py 480, _adaptive_hitmiss_pod.py 640 *)
| SetDistribution (d : arg)                (* _polynomial_chaos_pod.py 494, _kriging_tools.py 270, _adaptive_hitmiss_pod.py 751 *)
| SetGraph (g p c dir : arg).              (* _adaptive_signal_pod.py 503, _adaptive_hitmiss_pod.py 663 *)
(** The attributes; [s_dist] None before setDistribution or run, [s_p], [s_c] the levels of the graphs. Initial values: _pod.py 21,
    _kriging_pod.py 106-108, _adaptive_signal_pod.py 127-135, _adaptive_hitmiss_pod.py 119-127, _polynomial_chaos_pod.py 100-106, _pod_summary.py
    96-98, _quantile_regression_pod.py 71, _univariate_linear_model_pod.py 117. Attributes a class does not have keep an unused value. The getters return these
    fields: getVerbose (_univariate_linear_model_pod.py 332-341, _quantile_regression_pod.py 445-454, _polynomial_chaos_pod.py 632-641, _kriging_tools.py
    358-367, _adaptive_hitmiss_pod.py 793-802, _pod_summary.py 267-276), getSimulationSize (_pod.py 58-67, _pod_summary.py 292-301), getSamplingSize
    (_polynomial_chaos_pod.py 435-445, _kriging_tools.py 187-197, _adaptive_hitmiss_pod.py 692-702), getInitialStartSize (_kriging_tools.py 211-221),
    getCandidateSize (_adaptive_signal_pod.py 469-478, _adaptive_hitmiss_pod.py 629-638), getGraphActive, the switch only (_adaptive_signal_pod.py
    491-501, _adaptive_hitmiss_pod.py 651-661). *)
Record settings := {
  s_verbose : bool; s_simulation : arg; s_sampling : arg; s_start : arg; s_candidates : arg; s_dist : option nat;
  s_graph : bool; s_p : arg; s_c : arg; s_dir : option string }.
(** The constructors, lines above. *)
Definition initial (c : pclass) : settings :=
  {| s_verbose := true; s_simulation := AOther 1000;
     s_sampling := AOther (match c with CHitMiss => 10000 | _ => 5000 end);
     s_start := AOther (match c with CHitMiss => 1000 | _ => 100 end);
     s_candidates := AOther (match c with CSignal => 1000 | _ => 5000 end);
     s_dist := None; s_graph := false; s_p := ANone; s_c := ANone; s_dir := None |}.
(** Which class has which method (the lines given at [call]; inheritance _kriging_pod.py 14, _adaptive_signal_pod.py 16, _adaptive_hitmiss_pod.py 19). *)
Definition has_method (c : pclass) (o : call) : bool :=
  match o, c with
  | SetVerbose _, _ => true
  | SetSimulation _, _ => true
  | SetSampling _, (CChaos | CKriging | CSignal | CHitMiss | CSummary) => true
  | SetStart _, (CKriging | CSignal) => true
  | SetCandidates _, (CSignal | CHitMiss) => true
  | SetDistribution _, (CChaos | CKriging | CSignal | CHitMiss) => true
  | SetGraph _ _ _ _, (CSignal | CHitMiss) => true
  | _, _ => false
  end.
(** The bodies of the setters, lines given at [call]. *)
Definition body (o : call) (s : settings) : settings * res unit :=
  match o with
  | SetVerbose v =>
      match v with
      | ABool b => ({| s_verbose := b; s_simulation := s_simulation s; s_sampling := s_sampling s; s_start := s_start s; s_candidates := s_candidates s;
                       s_dist := s_dist s; s_graph := s_graph s; s_p := s_p s; s_c := s_c s; s_dir := s_dir s |}, Ok tt)
      | _ => (s, Raise TypeError)
      end
  | SetSimulation n => ({| s_verbose := s_verbose s; s_simulation := n; s_sampling := s_sampling s; s_start := s_start s; s_candidates := s_candidates s;
                           s_dist := s_dist s; s_graph := s_graph s; s_p := s_p s; s_c := s_c s; s_dir := s_dir s |}, Ok tt)
  | SetSampling n => ({| s_verbose := s_verbose s; s_simulation := s_simulation s; s_sampling := n; s_start := s_start s; s_candidates := s_candidates s;
                         s_dist := s_dist s; s_graph := s_graph s; s_p := s_p s; s_c := s_c s; s_dir := s_dir s |}, Ok tt)
  | SetStart n => ({| s_verbose := s_verbose s; s_simulation := s_simulation s; s_sampling := s_sampling s; s_start := n; s_candidates := s_candidates s;
                      s_dist := s_dist s; s_graph := s_graph s; s_p := s_p s; s_c := s_c s; s_dir := s_dir s |}, Ok tt)
  | SetCandidates n => ({| s_verbose := s_verbose s; s_simulation := s_simulation s; s_sampling := s_sampling s; s_start := s_start s; s_candidates := n;
                           s_dist := s_dist s; s_graph := s_graph s; s_p := s_p s; s_c := s_c s; s_dir := s_dir s |}, Ok tt)
  | SetDistribution d =>
      match d with
      | AJoint n => ({| s_verbose := s_verbose s; s_simulation := s_simulation s; s_sampling := s_sampling s; s_start := s_start s; s_candidates := s_candidates s;
                        s_dist := Some n; s_graph := s_graph s; s_p := s_p s; s_c := s_c s; s_dir := s_dir s |}, Ok tt)
      | _ => (s, Raise ValueError)
      end
  | SetGraph g p c dir =>
      match g with
      | ABool b =>
          match (match dir with AStr d => Some (Some d) | ANone => Some None | _ => None end) with
          | Some d => ({| s_verbose := s_verbose s; s_simulation := s_simulation s; s_sampling := s_sampling s; s_start := s_start s; s_candidates := s_candidates s;
                          s_dist := s_dist s; s_graph := b; s_p := p; s_c := c; s_dir := d |}, Ok tt)
          | None => (s, Raise TypeError)
          end
      | _ => (s, Raise TypeError)
      end
  end.
(** A call on an object of a class; a missing method is an AttributeError. *)
Definition do_call (c : pclass) (s : settings) (o : call) : settings * res unit :=
  if has_method c o then body o s else (s, Raise AttributeError).
(** A sequence of calls, the user catching the exceptions; the settings after it. *)
Definition calls (c : pclass) (l : list call) : settings := fold_left (fun s o => fst (do_call c s o)) l (initial c).

(** run of the meta-model classes as far as the distribution is concerned: a default one when none is given (_adaptive_hitmiss_pod.py 189-195,
    _adaptive_signal_pod.py 188-194; kriging and chaos: KrigAttrModel.v, ChaosAttrModel.v). *)
Definition run_distribution (default : nat) (s : settings) : settings :=
  {| s_verbose := s_verbose s; s_simulation := s_simulation s; s_sampling := s_sampling s; s_start := s_start s; s_candidates := s_candidates s;
     s_dist := Some (match s_dist s with Some d => d | None => default end); s_graph := s_graph s; s_p := s_p s; s_c := s_c s; s_dir := s_dir s |}.
(** getConfusionMatrix, getClassifier, getDistribution of AdaptiveHitMissPOD, _adaptive_hitmiss_pod.py 543-550, 764-777, 779-791: a message is printed
    and None returned when the attribute is None. Returns whether the message is printed and the value. *)
Definition guarded_get {A} (attribute : option A) : bool * option A := match attribute with None => (true, None) | Some a => (false, Some a) end.
(** _confMat across successive runs: None in the constructor (116), replaced when the loop of run turns at least once (340-348). *)
Definition confMat_after {X} (previous : option (cm (T := float))) (s : hm_state (X := X)) : option (cm (T := float)) :=
  match h_conf s with None => previous | m => m end.
(** getOutputDOE, _adaptive_hitmiss_pod.py 613-621; the constructor sets _boxCox to False (95-98). [inverse]: inverse transformation, then minus the
    shift. *)
Definition hitmiss_outputDOE {Y} (boxCox : bool) (inverse : list Y -> list Y) (signals : list Y) : list Y := if boxCox then inverse signals else signals.
