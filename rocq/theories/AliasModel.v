(** Which objects the two adaptive classes share with their client: the samples behind getInputDOE and getOutputDOE, in a memory.
    /repo/otpod/_adaptive_signal_pod.py and _adaptive_hitmiss_pod.py.  Values are those of the other files (AdaptiveModel.v, HitMissModel.v); here
    only who holds which object matters, so what an enrichment adds is an argument. *)
From Verif Require Import Base.

Section Alias.
(** A row of a sample; the transformations of whole samples are arguments. *)
Variable row : Type.
(** Content of an object of the memory: an openturns Sample (changed in place by add and erase) or a numpy array. General Python or numpy semantics, no line of its own. *)
Inductive cell := Samp (rows : list row) | Arr (rows : list row).
(** The rows whatever the type. General Python or numpy semantics, no line of its own. *)
Definition rows_of (c : cell) : list row := match c with Samp l => l | Arr l => l end.
(** The memory: the address is the position; a new object takes the next one. General Python or numpy semantics, no line of its own. *)
Definition memory := list cell.
(** Reading an object. General Python or numpy semantics, no line of its own. *)
Definition read (m : memory) (a : nat) : list row := match nth_error m a with Some c => rows_of c | None => [] end.
(** Is it a numpy array. General Python or numpy semantics, no line of its own. *)
Definition is_array (m : memory) (a : nat) : bool := match nth_error m a with Some (Arr _) => true | _ => false end.
(** Changing an object in place, its type stays. General Python or numpy semantics, no line of its own. *)
Fixpoint write (m : memory) (a : nat) (l : list row) : memory :=
  match m, a with
  | [], _ => []
  | c :: m', O => (match c with Samp _ => Samp l | Arr _ => Arr l end) :: m'
  | c :: m', S a' => c :: write m' a' l
  end.

(** The settings that decide about copies.  [signal_class] is true for AdaptiveSignalPOD and false for AdaptiveHitMissPOD; [censored] with the
    filter of the observations (_math_tools.py 276-298); [box] the transformation of signals and its inverse (_pod.py 330, hit-miss: none,
    _adaptive_hitmiss_pod.py 95); [labels] the hit-miss labels when a detection threshold is given (_adaptive_hitmiss_pod.py 163-175). *)
Record cfg := { signal_class : bool; censored : option (list row -> list row -> list row * list row);
  box : option ((list row -> list row) * (list row -> list row)); labels : option (list row -> list row) }.
Variable c : cfg.

(** Where a reference of the client comes from: an argument of the constructor or one of the getters. No line of its own: the calls of a client. *)
Inductive origin := FromClient | FromInput | FromOutput.
(** Attributes _input and _signals as addresses, and the references the client has, oldest first. _adaptive_signal_pod.py 157-158. *)
Record state := { mem : memory; a_in : nat; a_sig : nat; held : list (origin * nat) }.

(** The constructor for the samples of the client, at the addresses 0 and 1: _pod.py 24-25 makes new samples (np.vstack, then ot.Sample), _run
    makes other ones when it filters (_pod.py 304-313) or transforms (330) and passes them on otherwise (314-315).
    _adaptive_signal_pod.py 146-158, _adaptive_hitmiss_pod.py 138-150 and 163-175. *)
Definition init (xin xout : list row) : state :=
  let m0 := [Samp xin; Samp xout; Samp xin; Samp xout] in
  let '(m1, i, o) := match censored c with
    | Some f => let '(fi, fo) := f xin xout in (m0 ++ [Samp fi; Samp fo], 4, 5)
    | None => (m0, 2, 3)
    end in
  let '(m2, o2) := match box c with Some (t, _) => (m1 ++ [Samp (t (read m1 o))], List.length m1) | None => (m1, o) end in
  let '(m3, o3) := match labels c with Some g => (m2 ++ [Arr (g (read m2 o2))], List.length m2) | None => (m2, o2) end in
  {| mem := m3; a_in := i; a_sig := o3; held := [(FromClient, 0); (FromClient, 1)] |}.

(** The enrichment of AdaptiveSignalPOD: in place, input first, then its signal (_adaptive_signal_pod.py 346-355). *)
Fixpoint enrich (m : memory) (i o : nat) (added : list (row * row)) : memory :=
  match added with
  | [] => m
  | (x, y) :: l => let m1 := write m i (read m i ++ [x]) in enrich (write m1 o (read m1 o ++ [y])) i o l
  end.
(** What a run of AdaptiveSignalPOD adds: pairs, and a last input without signal when the physical model failed there (346-355, see C86);
    of AdaptiveHitMissPOD: nothing when something fails before line 216, otherwise batches (303-304) and the outcome of the loop (up to 400; a failure after line 402 would leave samples, it is left out).
    No line of its own: the outcome of the external calls. *)
Inductive outcome := SignalRun (added : list (row * row)) (lone : option row) (r : res unit) | EarlyFailure (e : exn) | HitMissRun (batches : list (list (row * row))) (r : res unit).
(** Simplification: the signals, an array of one dimension there, are rows too. The arrays of AdaptiveHitMissPOD.run: np.vstack and np.hstack make new ones at each iteration (303-304). *)
Fixpoint batches_run (m : memory) (i o : nat) (bs : list (list (row * row))) : memory * nat * nat :=
  match bs with
  | [] => (m, i, o)
  | b :: bs' =>
      let m1 := m ++ [Arr (read m i ++ map fst b); Arr (read m o ++ map snd b)] in
      batches_run m1 (List.length m) (S (List.length m)) bs'
  end.
(** run.  Signal: 346-355 in place.  Hit-miss: line 216 needs a Sample (getSize), 217-218 make arrays, the loop, 401-402 make Samples.
    An outcome of the other class changes nothing (such a call does not exist). _adaptive_hitmiss_pod.py 178-404. *)
Definition run (w : outcome) (s : state) : state * res unit :=
  match signal_class c, w with
  | true, SignalRun added lone r =>
      let m1 := enrich (mem s) (a_in s) (a_sig s) added in
      let m2 := match lone with Some x => write m1 (a_in s) (read m1 (a_in s) ++ [x]) | None => m1 end in
      ({| mem := m2; a_in := a_in s; a_sig := a_sig s; held := held s |}, r)
  | false, EarlyFailure e => (s, Raise e)
  | false, HitMissRun bs r =>
      if is_array (mem s) (a_in s) then (s, Raise AttributeError)
      else
        let m0 := mem s in
        let m1 := m0 ++ [Arr (read m0 (a_in s)); Arr (read m0 (a_sig s))] in
        let '(m2, i, o) := batches_run m1 (List.length m0) (S (List.length m0)) bs in
        match r with
        | Raise e => ({| mem := m2; a_in := i; a_sig := o; held := held s |}, Raise e)
        | Ok _ => ({| mem := m2 ++ [Samp (read m2 i); Samp (read m2 o)]; a_in := List.length m2; a_sig := S (List.length m2); held := held s |}, Ok tt)
        end
  | _, _ => (s, Ok tt)
  end.
(** getInputDOE: the object itself. _adaptive_signal_pod.py 463-467, _adaptive_hitmiss_pod.py 623-627. *)
Definition getInputDOE (s : state) : state :=
  {| mem := mem s; a_in := a_in s; a_sig := a_sig s; held := held s ++ [(FromInput, a_in s)] |}.
(** getOutputDOE: with Box-Cox a new sample in the unit of the data, otherwise the object itself. _adaptive_signal_pod.py 453-461,
    _adaptive_hitmiss_pod.py 613-621. *)
Definition getOutputDOE (s : state) : state :=
  match box c with
  | Some (_, inv) => {| mem := mem s ++ [Samp (inv (read (mem s) (a_sig s)))]; a_in := a_in s; a_sig := a_sig s; held := held s ++ [(FromOutput, List.length (mem s))] |}
  | None => {| mem := mem s; a_in := a_in s; a_sig := a_sig s; held := held s ++ [(FromOutput, a_sig s)] |}
  end.
(** The client changes an object it has (the k-th reference), in place, for instance with add or erase. No line of its own: the calls of a client. *)
Definition change (k : nat) (l : list row) (s : state) : state :=
  match nth_error (held s) k with
  | Some (_, a) => {| mem := write (mem s) a l; a_in := a_in s; a_sig := a_sig s; held := held s |}
  | None => s
  end.
(** The range check of setDefectSizes reads _input[:, 0].getMin(), which an array does not have (_adaptive_hitmiss_pod.py 741;
    _kriging_tools.py 260); None means that the check goes on (SettersModel.v). *)
Definition setDefectSizes_fails (s : state) : option exn := if is_array (mem s) (a_in s) then Some AttributeError else None.
(** Calls. No line of its own: the calls of a client. *)
Inductive op := Run (w : outcome) | GetIn | GetOut | Change (k : nat) (l : list row).
(** One call. No line of its own: the calls of a client. *)
Definition step (s : state) (o : op) : state :=
  match o with Run w => fst (run w s) | GetIn => getInputDOE s | GetOut => getOutputDOE s | Change k l => change k l s end.
(** A history, oldest call first. No line of its own: the calls of a client. *)
Definition play (xin xout : list row) (l : list op) : state := fold_left step l (init xin xout).
End Alias.
