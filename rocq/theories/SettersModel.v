(** Model of the validating setters: setDefectSizes (5 copies), setQuantile, setPMin, setPMax,
    setClassifierType. *)
From Coq Require Import String.
From Verif Require Import Base Float64.
Local Open Scope string_scope.
Local Open Scope list_scope.

(** *** setDefectSizes
    /repo/otpod/_kriging_tools.py 247-268, _polynomial_chaos_pod.py 471-492, _adaptive_hitmiss_pod.py 728-749,
    _sobol_indices.py 372-393, _pli_pod.py 145-169 (identical up to the object holding the input sample;
    the extra result matrix reset of PLIBase is modelled in PliPodModel.v). *)

(** Attributes [_defectSizes] and [_defectNumber]. _kriging_tools.py 247-268. *)
Record sizes_state := { st_sizes : list float; st_number : nat }.

(** [lo], [hi] are [_input[:, 0].getMin()[0]] and [getMax()[0]].  [np.hstack] of an empty list raises
    ValueError before anything is assigned; otherwise the sorted copy is assigned first, then checked
    ([size.max() > maxMax or size.min() < minMin]), and [_defectNumber] is updated last. _kriging_tools.py 247-268 and the other copies. *)
Definition setDefectSizes (lo hi : float) (st : sizes_state) (arg : list float)
  : sizes_state * res unit :=
  match fsort arg with
  | [] => (st, Raise ValueError)
  | y :: ys =>
    let size := y :: ys in
    let st1 := {| st_sizes := size; st_number := st_number st |} in
    if fgtb (np_max y ys) hi || fltb (np_min y ys) lo
    then (st1, Raise ValueError)
    else ({| st_sizes := st_sizes st1; st_number := List.length (st_sizes st1) |}, Ok tt)
  end.

(** A client that calls the setter with each argument in turn, catching the exceptions. No line of its own: the calls of a client. *)
Definition set_history (lo hi : float) (st : sizes_state) (args : list (list float)) : sizes_state :=
  fold_left (fun s a => fst (setDefectSizes lo hi s a)) args st.

(** Shapes in KrigingPOD.run, /repo/otpod/_kriging_pod.py 198-217 (same in AdaptiveSignalPOD.run 426-445): the
    result sample has [_defectNumber] columns, column i is assigned for every i-th defect size (out of range
    column: exception), then interp1d requires as many values as sizes (ValueError). *)
Fixpoint assign_columns (ncol i : nat) (sizes : list float) : res unit :=
  match sizes with
  | [] => Ok tt
  | _ :: l => if Nat.ltb i ncol then assign_columns ncol (S i) l else Raise IndexError
  end.
(** The whole shape check of run. _kriging_pod.py 198-217. *)
Definition run_shapes (st : sizes_state) : res unit :=
  do _ <- assign_columns (st_number st) 0 (st_sizes st);
  if Nat.eqb (List.length (st_sizes st)) (st_number st) then Ok tt else Raise ValueError.

(** *** setQuantile, /repo/otpod/_quantile_regression_pod.py 276-290.  The state is [_quantile]. *)
Definition setQuantile (st : list float) (arg : list float) : list float * res unit :=
  match fsort arg with
  | [] => (st, Raise ValueError)
  | y :: ys =>
    if fgeb (np_max y ys) fone || fleb (np_min y ys) fzero
    then (st, Raise ValueError)
    else (y :: ys, Ok tt)
  end.
(** Successive calls of setQuantile, exceptions caught. No line of its own: the calls of a client. *)
Definition quantile_history (st : list float) (args : list (list float)) : list float :=
  fold_left (fun s a => fst (setQuantile s a)) args st.

(** *** Probability band of the hit-miss enrichment, /repo/otpod/_adaptive_hitmiss_pod.py 558-580,
    defaults 0.45 and 0.52 at lines 117-118. *)
Record band := { pmin : float; pmax : float }.
(** Calls of the two setters. No line of its own: the calls of a client. *)
Inductive band_op := SetPMin (p : float) | SetPMax (p : float).
(** setPMin and setPMax, lines 558-580. *)
Definition band_step (b : band) (o : band_op) : band * res unit :=
  match o with
  | SetPMin p => if fltb p fzero || fgtb p fone then (b, Raise ValueError)
                 else ({| pmin := p; pmax := pmax b |}, Ok tt)
  | SetPMax p => if fltb p fzero || fgtb p fone then (b, Raise ValueError)
                 else ({| pmin := pmin b; pmax := p |}, Ok tt)
  end.
(** Successive calls, exceptions caught. No line of its own: the calls of a client. *)
Definition band_history (b : band) (ops : list band_op) : band :=
  fold_left (fun s o => fst (band_step s o)) ops b.

(** *** setClassifierType / setClassifierParameters / getClassifierParameters,
    /repo/otpod/_adaptive_hitmiss_pod.py 113-114, 588-611.  The name is a string; the parameters are an
    arbitrary value of type [P]; [svc_default], [rf_default] are the literals of lines 597 and 599. *)
Record classifier_state (P : Type) := { c_type : string; c_params : P }.
Arguments c_type {P}. Arguments c_params {P}.
(** Calls of the two setters. No line of its own: the calls of a client. *)
Inductive classifier_op (P : Type) := SetType (name : string) | SetParams (p : P).
Arguments SetType {P}. Arguments SetParams {P}.
(** setClassifierType and setClassifierParameters, lines 588-611. *)
Definition classifier_step {P} (rf_default svc_default : P) (s : classifier_state P) (o : classifier_op P)
  : classifier_state P * res unit :=
  match o with
  | SetType name =>
      if negb (String.eqb name "rf") && negb (String.eqb name "svc") then (s, Raise ValueError)
      else let s1 := {| c_type := name; c_params := c_params s |} in
           let s2 := if String.eqb name "svc" then {| c_type := c_type s1; c_params := svc_default |} else s1 in
           let s3 := if String.eqb name "rf" then {| c_type := c_type s2; c_params := rf_default |} else s2 in
           (s3, Ok tt)
  | SetParams p => ({| c_type := c_type s; c_params := p |}, Ok tt)
  end.
