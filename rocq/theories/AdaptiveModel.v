(** Model of the enrichment loop of AdaptiveSignalPOD.run, /repo/otpod/_adaptive_signal_pod.py 171-451. *)
From Verif Require Import Base Float64.

(** ot.Sample.erase(i), line 364. *)
Fixpoint erase {A} (i : nat) (l : list A) : list A :=
  match l, i with
  | [], _ => []
  | _ :: l', O => l'
  | x :: l', S i' => x :: erase i' l'
  end.
(** Literals of lines 269 (criterion = 1000000000) and 376 (0.95). *)
Definition f1e9 : float := of_int 1000000000.
(** Literal 0.95, line 382. *)
Definition f095 : float := of_ratio 95 100.

Section Adaptive.
  (** Input points, signals, kriging results (with their covariance and basis), normalisations, POD samples, current POD. *)
  Context {P Y K T D C : Type}.
  (** 207-222: fit with optimised covariance parameters, starting from the covariance of a previous run if any. *)
  Variable fit_init : option K -> list P -> list Y -> K.
  (** _kriging_tools.py 402-412: the normalisation of a DOE. *)
  Variable normalise : list P -> T.
  (** 363-370: fit with the covariance of the given kriging, without optimisation. *)
  Variable fit_fixed : K -> list P -> list Y -> K.
  (** 235-237, 371-373 and 394-396: computeQ2. *)
  Variable q2 : K -> T -> list P -> list Y -> float.
  (** 376-384: optimisation of the covariance parameters.  Simplification: assumed to work, though the object of line 380
      is the regression of line 369, not the fitter. *)
  Variable reoptimise : K -> K.
  (** 231-233: metamodel = kriging composed with the normalisation. *)
  Variable metamodel : K -> T -> P -> Y.
  (** 249-266: POD before the addition (Monte Carlo, [it] numbers the draws). *)
  Variable refpod : nat -> (P -> Y) -> C.
  (** 282-330: criterion of a candidate, from the covariance and basis of the current kriging, the augmented DOE
      and the POD before the addition; also returns the POD sample.  Simplification: it does not raise. *)
  Variable crit : nat -> nat -> K -> list P -> list Y -> C -> float * D.
  (** 422-438: the final POD sample. *)
  Variable final_pod : K -> T -> D.
  (** 348-355: physical model, then Box-Cox transformation if it is enabled; both can raise. *)
  Variable observe : P -> res Y.

  (** Ghost record of what one iteration saw: the remaining candidates, the signals predicted for them, their
      criteria and the index used at line 344. *)
  Record event := { e_it : nat; e_model : K; e_cands : list P; e_pred : list Y; e_crit : list float; e_idx : nat }.
  (** Attributes _input, _signals, _krigingResult (None before the first run), _PODPerDefect; a_log is ghost. _adaptive_signal_pod.py 92-169. *)
  Record astate := { a_input : list P; a_signals : list Y; a_model : option K; a_pod : option D; a_log : list event }.

  (** 269-336, the candidate loop: [best] is criterion, [idx] the Python variable indexOpt (None: unbound). *)
  Fixpoint scan (evals : list (float * D)) (i : nat) (best : float) (idx : option nat) (pod : option D)
    : option nat * option D :=
    match evals with
    | [] => (idx, pod)
    | (v, d) :: l => if fltb v best then scan l (i + 1) v (Some i) (Some d) else scan l (i + 1) best idx pod
    end.
  (** 272-278: the DOE augmented with a candidate and the predicted signal of the candidate. *)
  Definition evaluate (it : nat) (k : K) (meta : P -> Y) (st : astate) (ic : nat * P) : float * D :=
    crit it (fst ic) k (a_input st ++ [snd ic]) (a_signals st ++ [meta (snd ic)]) (refpod it meta).
  (** Python enumerate, line 271. *)
  Definition enumerate {A} (l : list A) : list (nat * A) := combine (seq 0 (length l)) l.
  (** 363-388: update of the kriging model. *)
  Definition refit (k : K) (input : list P) (signals : list Y) : K :=
    let k' := fit_fixed k input signals in
    if fltb (q2 k' (normalise input) input signals) f095 then reoptimise k' else k'.
  (** One iteration, lines 244-398 (the graphs of 400-420 are left out).  Returns the new state even when an exception
      is raised; the point is added to _input before the physical model is evaluated (346 before 348-355). *)
  Definition iterate (it : nat) (k : K) (meta : P -> Y) (st : astate) (idx : option nat) (cands : list P)
    : astate * res (nat * K * list P) :=
    let evals := map (evaluate it k meta st) (enumerate cands) in
    let '(idx', pod') := scan evals 0 f1e9 idx (a_pod st) in
    let st1 := {| a_input := a_input st; a_signals := a_signals st; a_model := a_model st; a_pod := pod'; a_log := a_log st |} in
    match idx' with
    | None => (st1, Raise UnboundLocalError)
    | Some i =>
        match nth_error cands i with
        | None => (st1, Raise IndexError)
        | Some c =>
            let st2 := {| a_input := a_input st ++ [c]; a_signals := a_signals st; a_model := a_model st; a_pod := pod';
                          a_log := a_log st ++ [{| e_it := it; e_model := k; e_cands := cands; e_pred := map meta cands;
                                                   e_crit := map fst evals; e_idx := i |}] |} in
            match observe c with
            | Raise e => (st2, Raise e)
            | Ok y =>
                let signals := a_signals st ++ [y] in
                let k' := refit k (a_input st2) signals in
                ({| a_input := a_input st2; a_signals := signals; a_model := Some k'; a_pod := pod'; a_log := a_log st2 |},
                 Ok (i, k', erase i cands))
            end
        end
    end.
  (** 240-241: while iteration < nIteration.  Returns the last kriging and the last normalisation. *)
  Fixpoint loop (n it : nat) (k : K) (t : T) (meta : P -> Y) (st : astate) (idx : option nat) (cands : list P)
    : astate * res (K * T) :=
    match n with
    | O => (st, Ok (k, t))
    | S n' =>
        match iterate (it + 1) k meta st idx cands with
        | (st', Raise e) => (st', Raise e)
        | (st', Ok (i, k', cands')) => loop n' (it + 1) k' (normalise (a_input st')) meta st' (Some i) cands'
        end
    end.
  (** AdaptiveSignalPOD.run, 171-451; [cands] is the candidate DOE drawn at lines 196-205. *)
  Definition run (st : astate) (cands : list P) (n : nat) : astate * res unit :=
    let k := fit_init (a_model st) (a_input st) (a_signals st) in
    let t := normalise (a_input st) in
    let st1 := {| a_input := a_input st; a_signals := a_signals st; a_model := Some k; a_pod := a_pod st; a_log := a_log st |} in
    match loop n 0 k t (metamodel k t) st1 None cands with
    | (st', Raise e) => (st', Raise e)
    | (st', Ok (k', t')) =>
        ({| a_input := a_input st'; a_signals := a_signals st'; a_model := a_model st';
            a_pod := Some (final_pod k' t'); a_log := a_log st' |}, Ok tt)
    end.
End Adaptive.
Arguments event : clear implicits.
Arguments astate : clear implicits.
