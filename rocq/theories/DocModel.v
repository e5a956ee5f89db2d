(** The decorators of /repo/otpod/_decorator.py (DocInherit 30-74, keepingArgs 77-84) and the classes they are used in.
    Attributes named "_" + method are plain values (functions in otpod): descriptors among them, metaclasses and __getattr__ are not
    modelled. *)
From Coq Require Import String.
From Verif Require Import Base.
Local Open Scope string_scope.

(** *** Classes *)
(** A class attribute or None (general Python semantics): its truth value and its docstring. *)
Inductive pyval := PyNone | Obj (truth : bool) (doc : option string).
(** "if overridden" (_decorator.py 61). *)
Definition truthy (v : pyval) : bool := match v with PyNone => false | Obj b _ => b end.

(** A method before decoration: def statements of the decorated methods, e.g. _kriging_tools.py 57-81: its name, module, positional or
    keyword parameters with their defaults (self first), body. *)
Record method (V : Type) := { m_name : string; m_module : string; m_params : list (string * option V); m_body : list V -> res V }.
Arguments m_name {V}. Arguments m_module {V}. Arguments m_params {V}. Arguments m_body {V}.
Arguments Build_method {V}.
(** The function that DocInherit.__get__ returns (_decorator.py 51-55, 64-68): what calling it does, and its attributes __name__,
    __module__, __doc__. *)
Record func (V : Type) := { f_call : list V -> list (string * V) -> res V; f_name : string; f_module : string; f_doc : option string }.
Arguments f_call {V}. Arguments f_name {V}. Arguments f_module {V}. Arguments f_doc {V}.
Arguments Build_func {V}.

(** kw[n] (general Python semantics; a call has no keyword twice). *)
Fixpoint keyword {V} (n : string) (kw : list (string * V)) : option V :=
  match kw with [] => None | (k, v) :: kw' => if String.eqb n k then Some v else keyword n kw' end.
(** Binding of arguments to parameters (general Python semantics for parameters that are positional or keyword, as are all the
    parameters of the decorated methods). *)
Fixpoint bind_params {V} (ps : list (string * option V)) (args : list V) (kw : list (string * V)) : res (list V) :=
  match ps, args with
  | [], [] => Ok []
  | [], _ :: _ => Raise TypeError
  | (n, _) :: ps', a :: args' =>
      match keyword n kw with Some _ => Raise TypeError | None => do r <- bind_params ps' args' kw; Ok (a :: r) end
  | (n, d) :: ps', [] =>
      match keyword n kw, d with
      | Some v, _ | None, Some v => do r <- bind_params ps' [] kw; Ok (v :: r)
      | None, None => Raise TypeError
      end
  end.
(** An unknown keyword is refused (general Python semantics). *)
Definition known {V} (ps : list (string * option V)) (kw : list (string * V)) : bool :=
  forallb (fun k => existsb (fun p => String.eqb (fst k) (fst p)) ps) kw.
(** m( *args, **kw) (general Python semantics). *)
Definition call {V} (m : method V) (args : list V) (kw : list (string * V)) : res V :=
  if known (m_params m) kw then do vs <- bind_params (m_params m) args kw; m_body m vs else Raise TypeError.
(** keepingArgs, _decorator.py 77-84: decorator.decorator (external) makes a function with the signature of the target, which binds the
    arguments and calls wrapper(target, ...) with the bound values by position; wrapper calls target. *)
Definition keepingArgs {V} (m : method V) : method V :=
  {| m_name := m_name m; m_module := m_module m; m_params := m_params m; m_body := fun vs => call m vs [] |}.

Section Classes.
(** Classes, C.__mro__ and the class dictionary (general Python semantics). *)
Variable C : Type.
Variable mro : C -> list C.
Variable own : C -> string -> option pyval.
(** Objects. *)
Variable V : Type.

(** Search of a name along a resolution order; getattr(x, name, None) is None when it is not found (general Python semantics). *)
Fixpoint lookup (l : list C) (n : string) : pyval :=
  match l with [] => PyNone | c :: l' => match own c n with Some v => v | None => lookup l' n end end.
(** getattr(parent, name, None), _decorator.py 60. *)
Definition getattr_class (c : C) (n : string) : pyval := lookup (mro c) n.
(** getattr(super(cls, obj), name, None) where cls is type(obj), _decorator.py 49. *)
Definition getattr_super (c : C) (n : string) : pyval := lookup (tl (mro c)) n.

(** An instance: the object, its class and its truth value. *)
Record instance := { i_obj : V; i_class : C; i_truth : bool }.

(** self.name, _decorator.py 39. *)
Definition parent_name (m : method V) : string := "_" ++ m_name m.
(** use_parent_doc, _decorator.py 70-74. *)
Definition use_parent_doc (f : func V) (source : pyval) : res (func V) :=
  match source with
  | PyNone => Raise NameError
  | Obj _ d => Ok {| f_call := f_call f; f_name := f_name f; f_module := f_module f; f_doc := d |}
  end.
(** get_with_inst, _decorator.py 47-55. *)
Definition get_with_inst (m : method V) (o : instance) (c : C) : res (func V) :=
  let overridden := getattr_super c (parent_name m) in
  use_parent_doc {| f_call := fun args kw => call m (i_obj o :: args) kw; f_name := m_name m; f_module := m_module m; f_doc := None |} overridden.
(** The loop of lines 59-62: the value of [overridden] after it, None when it was never assigned. *)
Fixpoint first_parent (parents : list C) (n : string) (overridden : option pyval) : option pyval :=
  match parents with
  | [] => overridden
  | p :: ps => let v := getattr_class p n in if truthy v then Some v else first_parent ps n (Some v)
  end.
(** get_no_inst, _decorator.py 57-68. *)
Definition get_no_inst (m : method V) (c : C) : res (func V) :=
  match first_parent (tl (mro c)) (parent_name m) None with
  | None => Raise UnboundLocalError
  | Some overridden =>
      use_parent_doc {| f_call := fun args kw => call m args kw; f_name := m_name m; f_module := m_module m; f_doc := None |} overridden
  end.
(** DocInherit.__get__, _decorator.py 41-45: called with the instance and its class, or with None and the class. *)
Definition get (m : method V) (o : option instance) (c : C) : res (func V) :=
  match o with
  | Some i => if i_truth i then get_with_inst m i c else get_no_inst m c
  | None => get_no_inst m c
  end.
End Classes.
Arguments lookup {C}.
Arguments getattr_class {C}.
Arguments getattr_super {C}.
Arguments first_parent {C}.
Arguments i_obj {C V}.
Arguments i_class {C V}.
Arguments i_truth {C V}.
Arguments get {C} mro own {V}.
Arguments parent_name {V}.

(** *** The classes of otpod that use the decorator *)
(** _pod.py 12, _kriging_tools.py 11, _kriging_pod.py 14, _adaptive_signal_pod.py 16, _polynomial_chaos_pod.py 16,
    _quantile_regression_pod.py 16, _adaptive_hitmiss_pod.py 19, _univariate_linear_model_pod.py 20; object is the root class. *)
Inductive otclass := ObjectC | PodC | KrigingBaseC | KrigingC | AdaptiveSignalC | ChaosC | QuantileC | HitMissC | LinearC.
(** Their __mro__: the linearisation of the bases in the class statements at the same lines. _kriging_pod.py 14, _polynomial_chaos_pod.py 16, _adaptive_signal_pod.py 16 and the other classes. *)
Definition ot_mro (c : otclass) : list otclass :=
  match c with
  | ObjectC => [ObjectC]
  | PodC => [PodC; ObjectC]
  | KrigingBaseC => [KrigingBaseC; ObjectC]
  | KrigingC => [KrigingC; PodC; KrigingBaseC; ObjectC]
  | AdaptiveSignalC => [AdaptiveSignalC; PodC; KrigingBaseC; ObjectC]
  | ChaosC => [ChaosC; PodC; ObjectC]
  | QuantileC => [QuantileC; PodC; ObjectC]
  | HitMissC => [HitMissC; PodC; ObjectC]
  | LinearC => [LinearC; PodC; ObjectC]
  end.
(** The attributes of these classes with one of the underscored names: _pod.py 84, 150, 257 (docstrings external to this model:
    [doc]). *)
Definition ot_own (doc : string -> option string) (c : otclass) (n : string) : option pyval :=
  match c with
  | PodC => if existsb (String.eqb n) ["_computeDetectionSize"; "_drawPOD"; "_drawValidationGraph"] then Some (Obj true (doc n)) else None
  | _ => None
  end.
(** Where the decorated methods are defined: _kriging_tools.py 57-59, 79-81, 147-149, _polynomial_chaos_pod.py 254-256, 276-278,
    344-346, _quantile_regression_pod.py 292-294, 334-336, _adaptive_hitmiss_pod.py 453-455, 475-477,
    _univariate_linear_model_pod.py 271-273, 281-283. *)
Definition ot_decorated (c : otclass) : list string :=
  match c with
  | KrigingBaseC | ChaosC => ["computeDetectionSize"; "drawPOD"; "drawValidationGraph"]
  | QuantileC | HitMissC | LinearC => ["computeDetectionSize"; "drawPOD"]
  | _ => []
  end.
