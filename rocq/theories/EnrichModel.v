(** The end of each enrichment iteration of the adaptive PODs: optimisation of the covariance parameters that may fail, graph of the current
    POD and its file. /repo/otpod/_adaptive_signal_pod.py 171-451 and /repo/otpod/_adaptive_hitmiss_pod.py 172-412. The rest of an iteration is
    AdaptiveModel.v and HitMissModel.v. *)
From Coq Require Import String.
From Verif Require Import Base Float64 SettersModel AdaptiveModel HitMissModel.
Local Open Scope list_scope.

(** The disk as the runs see it: existing directories, files written as directory and iteration number. Simplifications: nothing but directories
    exists at start, os.makedirs does not show the parents it creates, a disk error other than a missing directory does not happen. *)
Record disk := { d_dirs : list string; d_files : list (string * nat) }.
(** os.path.exists, _adaptive_signal_pod.py 413. *)
Definition has_dir (d : string) (w : disk) : bool := existsb (String.eqb d) (d_dirs w).
(** fig.savefig in a directory (name prefix + iteration), _adaptive_signal_pod.py 415-420 and _adaptive_hitmiss_pod.py 394-399. *)
Definition savefig (d : string) (it : nat) (w : disk) : disk * res unit :=
  if has_dir d w then ({| d_dirs := d_dirs w; d_files := d_files w ++ [(d, it)] |}, Ok tt) else (w, Raise OSError).
(** _adaptive_signal_pod.py 412-420: the directory is made if needed. *)
Definition signal_save (dir : option string) (it : nat) (w : disk) : disk * res unit :=
  match dir with
  | None => (w, Ok tt)
  | Some d => savefig d it (if has_dir d w then w else {| d_dirs := d :: d_dirs w; d_files := d_files w |})
  end.
(** _adaptive_hitmiss_pod.py 393-399: the directory is not made. *)
Definition hitmiss_save (dir : option string) (it : nat) (w : disk) : disk * res unit :=
  match dir with None => (w, Ok tt) | Some d => savefig d it w end.

Section Signal.
  (** As in AdaptiveModel.v (same lines), except [reopt]: lines 380-384 can raise. *)
  Context {P Y K T D C : Type}.
  Variable fit_init : option K -> list P -> list Y -> K.
  Variable normalise : list P -> T.
  Variable fit_fixed : K -> list P -> list Y -> K.
  Variable q2 : K -> T -> list P -> list Y -> float.
  Variable reopt : K -> res K.
  Variable metamodel : K -> T -> P -> Y.
  Variable refpod : nat -> (P -> Y) -> C.
  Variable crit : nat -> nat -> K -> list P -> list Y -> C -> float * D.
  Variable final_pod : K -> T -> D.
  Variable observe : P -> res Y.
  (** Attributes _graph and _graphDirectory; [draw]: lines 401-411, interpolation and drawPOD with the levels chosen, which can raise. *)
  Variable graph : bool.
  Variable dir : option string.
  Variable draw : option D -> res unit.

  (** Lines 363-384: update of the kriging. *)
  Definition grefit (k : K) (input : list P) (signals : list Y) : res K :=
    let k' := fit_fixed k input signals in
    if fltb (q2 k' (normalise input) input signals) f095 then reopt k' else Ok k'.
  (** Lines 244-398. _krigingResult is only replaced at line 387. *)
  Definition giterate (it : nat) (k : K) (meta : P -> Y) (st : astate P Y K D) (idx : option nat) (cands : list P)
    : astate P Y K D * res (nat * K * list P) :=
    let evals := map (evaluate refpod crit it k meta st) (enumerate cands) in
    let '(idx', pod') := scan evals 0 f1e9 idx (a_pod st) in
    let st1 := {| a_input := a_input st; a_signals := a_signals st; a_model := a_model st; a_pod := pod'; a_log := a_log st |} in
    match idx' with
    | None => (st1, Raise UnboundLocalError)
    | Some i =>
        match nth_error cands i with
        | None => (st1, Raise IndexError)
        | Some c =>
            let st2 := {| a_input := a_input st ++ [c]; a_signals := a_signals st; a_model := a_model st; a_pod := pod';
                          a_log := a_log st ++ [{| e_it := it; e_model := k; e_cands := cands; e_pred := map meta cands;
                                                   e_crit := map fst evals; e_idx := i |}] |} in
            match observe c with
            | Raise e => (st2, Raise e)
            | Ok y =>
                let signals := a_signals st ++ [y] in
                let st3 m := {| a_input := a_input st2; a_signals := signals; a_model := m; a_pod := pod'; a_log := a_log st2 |} in
                match grefit k (a_input st2) signals with
                | Raise e => (st3 (a_model st), Raise e)
                | Ok k' => (st3 (Some k'), Ok (i, k', erase i cands))
                end
            end
        end
    end.
  (** Lines 400-420. *)
  Definition signal_graph (it : nat) (st : astate P Y K D) (w : disk) : disk * res unit :=
    if graph then match draw (a_pod st) with Raise e => (w, Raise e) | Ok _ => signal_save dir it w end else (w, Ok tt).
  (** Lines 242-420. *)
  Fixpoint gloop (n it : nat) (k : K) (t : T) (meta : P -> Y) (st : astate P Y K D) (w : disk) (idx : option nat) (cands : list P)
    : astate P Y K D * disk * res (K * T) :=
    match n with
    | O => (st, w, Ok (k, t))
    | S n' =>
        match giterate (it + 1) k meta st idx cands with
        | (st', Raise e) => (st', w, Raise e)
        | (st', Ok (i, k', cands')) =>
            match signal_graph (it + 1) st' w with
            | (w', Raise e) => (st', w', Raise e)
            | (w', Ok _) => gloop n' (it + 1) k' (normalise (a_input st')) meta st' w' (Some i) cands'
            end
        end
    end.
  (** AdaptiveSignalPOD.run, lines 171-451. *)
  Definition grun (st : astate P Y K D) (w : disk) (cands : list P) (n : nat) : astate P Y K D * disk * res unit :=
    let k := fit_init (a_model st) (a_input st) (a_signals st) in
    let t := normalise (a_input st) in
    let st1 := {| a_input := a_input st; a_signals := a_signals st; a_model := Some k; a_pod := a_pod st; a_log := a_log st |} in
    match gloop n 0 k t (metamodel k t) st1 w None cands with
    | (st', w', Raise e) => (st', w', Raise e)
    | (st', w', Ok (k', t')) =>
        ({| a_input := a_input st'; a_signals := a_signals st'; a_model := a_model st';
            a_pod := Some (final_pod k' t'); a_log := a_log st' |}, w', Ok tt)
    end.
End Signal.

Section HitMiss.
  (** As in HitMissModel.v. *)
  Context {X : Type}.
  Variable argsort : list float -> list nat.
  Variable fit : nat -> list X -> list bool -> X -> float.
  Variable phys : X -> bool.
  Variable candidates : list X.
  Variable b : band.
  Variable nMore : nat.
  (** _graph, _graphDirectory; [draw]: lines 381-392. *)
  Variable graph : bool.
  Variable dir : option string.
  Variable draw : hm_state (X := X) -> res unit.
  (** _adaptive_hitmiss_pod.py 380-399. *)
  Definition hitmiss_graph (s : hm_state (X := X)) (w : disk) : disk * res unit :=
    if graph then match draw s with Raise e => (w, Raise e) | Ok _ => hitmiss_save dir (h_iter s) w end else (w, Ok tt).
  (** Lines 265-399; None: out of fuel. *)
  Fixpoint ghm_loop (fuel n_ini : nat) (s : hm_state (X := X)) (w : disk) : option (hm_state (X := X) * disk * res unit) :=
    if Nat.ltb (h_added s) nMore then
      match fuel with
      | O => None
      | S f => match hm_step argsort fit phys candidates b nMore n_ini s with
               | (s', Raise e) => Some (s', w, Raise e)
               | (s', Ok _) => match hitmiss_graph s' w with
                               | (w', Raise e) => Some (s', w', Raise e)
                               | (w', Ok _) => ghm_loop f n_ini s' w'
                               end
               end
      end
    else Some (s, w, Ok tt).
  (** run up to the end of the loop, lines 186-399. *)
  Definition ghm_run (fuel : nat) (input : list X) (labels : list bool) (w : disk) : option (hm_state (X := X) * disk * res unit) :=
    ghm_loop fuel (List.length input) (hm_start fit input labels) w.
End HitMiss.
