(** Model of the perturbation law indices over the defect sizes, PLIBase in /repo/otpod/_pli_pod.py lines 12-313. *)
From Verif Require Import RealBase.
Require Import ZArith.
Local Open Scope R_scope.

(** A three dimensional numpy array [delta, marginal, defect]; None is NaN.  Entries outside of the shape are not used. General Python or numpy semantics, no line of its own. *)
Record arr3 := { n_delta : nat; n_marginal : nat; n_defect : nat; at3 : nat -> nat -> nat -> option R }.
(** What indexing returns: an array of three, two, one or zero dimensions. General Python or numpy semantics, no line of its own. *)
Inductive slice := S3 (a : arr3) | S2 (rows cols : nat) (f : nat -> nat -> option R) | S1 (n : nat) (f : nat -> option R) | S0 (v : option R).
(** Python index of an axis of length n: negative indices count from the end; None for IndexError. General Python or numpy semantics, no line of its own. *)
Definition py_index (n : nat) (z : Z) : option nat :=
  if (0 <=? z)%Z && (z <? Z.of_nat n)%Z then Some (Z.to_nat z)
  else if (- Z.of_nat n <=? z)%Z && (z <? 0)%Z then Some (Z.to_nat (z + Z.of_nat n)) else None.
(** IndexError raised by indexing. General Python or numpy semantics, no line of its own. *)
Definition or_index (o : option nat) : res nat := match o with Some i => Ok i | None => Raise IndexError end.
(** getIndices, lines 276-313, branch by branch. *)
Definition getIndices (a : arr3) (idelta marginal idefect : option Z) : res slice :=
  match idelta, marginal, idefect with
  | None, None, None => Ok (S3 a)
  | None, None, Some k => do k <- or_index (py_index (n_defect a) k); Ok (S2 (n_delta a) (n_marginal a) (fun i j => at3 a i j k))
  | None, Some j, None => do j <- or_index (py_index (n_marginal a) j); Ok (S2 (n_delta a) (n_defect a) (fun i k => at3 a i j k))
  | Some i, None, None => do i <- or_index (py_index (n_delta a) i); Ok (S2 (n_marginal a) (n_defect a) (fun j k => at3 a i j k))
  | None, Some j, Some k =>
      do j <- or_index (py_index (n_marginal a) j); do k <- or_index (py_index (n_defect a) k); Ok (S1 (n_delta a) (fun i => at3 a i j k))
  | Some i, None, Some k =>
      do i <- or_index (py_index (n_delta a) i); do k <- or_index (py_index (n_defect a) k); Ok (S1 (n_marginal a) (fun j => at3 a i j k))
  | Some i, Some j, None =>
      do i <- or_index (py_index (n_delta a) i); do j <- or_index (py_index (n_marginal a) j); Ok (S1 (n_defect a) (fun k => at3 a i j k))
  | Some i, Some j, Some k =>
      do i <- or_index (py_index (n_delta a) i); do j <- or_index (py_index (n_marginal a) j); do k <- or_index (py_index (n_defect a) k);
      Ok (S0 (at3 a i j k))
  end.
(** _indices[:, :, k] = m (lines 125 and 129-131). *)
Definition set_defect (a : arr3) (k : nat) (m : nat -> nat -> option R) : arr3 :=
  {| n_delta := n_delta a; n_marginal := n_marginal a; n_defect := n_defect a; at3 := fun i j k' => if Nat.eqb k' k then m i j else at3 a i j k' |}.

(** The kept defects, line 119: constants taken as exact decimals (simplification). *)
Definition kept (pf : R) : bool := Rltb (1 / 1000) pf && Rltb pf (999 / 1000).

Section PliPod.
(** The object built by _definePLIAlgorithm (external to this file; see PliModel.v). *)
Variable Obj : Type.
(** Probability estimate of the n-th Monte Carlo simulation, run for the given size (_runMonteCarlo lines 80-96, random). *)
Variable mc : nat -> R -> R.
(** _definePLIAlgorithm on that simulation, and run / getIndices of the object (lines 120-125). *)
Variable define : nat -> R -> res Obj.
Variable solve : Obj -> res (nat -> nat -> option R).

(** Entries of the list _pli: the class [object] (line 78) or a PLI object. *)
Inductive slot := Placeholder | Filled (o : Obj).
(** The attributes; [keeped] is None while the attribute does not exist; [clock] counts the simulations (ghost). _pli_pod.py 22-80. *)
Record pstate := { sizes : list R; number : nat; indices : arr3; pli : list slot; keeped : option (list nat); clock : nat }.

(** _initializeResultMatrix, lines 68-78. *)
Definition initialize (nd nm : nat) (st : pstate) : pstate :=
  {| sizes := sizes st; number := number st;
     indices := {| n_delta := nd; n_marginal := nm; n_defect := number st; at3 := fun _ _ _ => Some 0 |};
     pli := repeat Placeholder (number st); keeped := keeped st; clock := clock st |}.
(** __init__, lines 22-66 (the checks of the POD class are left out): [nd] deltas, [nm] parameters, sizes of the POD. *)
Definition init (nd nm : nat) (pod_sizes : list R) : pstate :=
  initialize nd nm {| sizes := pod_sizes; number := length pod_sizes;
                      indices := {| n_delta := 0; n_marginal := 0; n_defect := 0; at3 := fun _ _ _ => None |};
                      pli := []; keeped := None; clock := 0 |}.
(** setDefectSizes, lines 145-169; [lo], [hi] are the extreme defects of the POD input. np.hstack raises on an empty list. *)
Definition setDefectSizes (lo hi : R) (l : list R) (st : pstate) : pstate * res unit :=
  match l with
  | [] => (st, Raise ValueError)
  | _ =>
      let s := Rsort l in
      let st1 := {| sizes := s; number := number st; indices := indices st; pli := pli st; keeped := keeped st; clock := clock st |} in
      if Rltb hi (Rlmax s) || Rltb (Rlmin s) lo then (st1, Raise ValueError)
      else
        let st2 := {| sizes := s; number := length s; indices := indices st; pli := pli st; keeped := keeped st; clock := clock st |} in
        (initialize (n_delta (indices st)) (n_marginal (indices st)) st2, Ok tt)
  end.
(** Assignment to one item of a list, self._pli[idefect] = ... at line 120. *)
Fixpoint set_nth {A} (n : nat) (v : A) (l : list A) : list A :=
  match n, l with O, _ :: l' => v :: l' | S n', x :: l' => x :: set_nth n' v l' | _, [] => [] end.
(** list.remove of an integer: first occurrence; None for ValueError. _pli_pod.py 127. *)
Fixpoint remove_first (i : nat) (l : list nat) : option (list nat) :=
  match l with
  | [] => None
  | j :: l' => if Nat.eqb i j then Some l' else option_map (cons j) (remove_first i l')
  end.
(** Body of the loop, lines 114-131, for defect i of size x; [ks] is the current _keepedDefect. *)
Definition step (i : nat) (x : R) (ks : list nat) (st : pstate) : pstate * res unit :=
  let n := clock st in
  let upd p a k := {| sizes := sizes st; number := number st; indices := a; pli := p; keeped := Some k; clock := S n |} in
  if kept (mc n x) then
    match define n x with
    | Raise e => (upd (pli st) (indices st) ks, Raise e)
    | Ok o =>
        if negb (Nat.ltb i (length (pli st))) then (upd (pli st) (indices st) ks, Raise IndexError)
        else
          let p := set_nth i (Filled o) (pli st) in
          match solve o with
          | Raise e => (upd p (indices st) ks, Raise e)
          | Ok m => if Nat.ltb i (n_defect (indices st)) then (upd p (set_defect (indices st) i m) ks, Ok tt) else (upd p (indices st) ks, Raise IndexError)
          end
    end
  else
    match remove_first i ks with
    | None => (upd (pli st) (indices st) ks, Raise ValueError)
    | Some ks' =>
        if Nat.ltb i (n_defect (indices st)) then (upd (pli st) (set_defect (indices st) i (fun _ _ => None)) ks', Ok tt)
        else (upd (pli st) (indices st) ks', Raise IndexError)
    end.
(** The loop over the defect sizes, lines 114-131. *)
Fixpoint loop (i : nat) (xs : list R) (st : pstate) : pstate * res unit :=
  match xs with
  | [] => (st, Ok tt)
  | x :: xs' =>
      match keeped st with
      | None => (st, Raise AttributeError)
      | Some ks => match step i x ks st with (st', Ok _) => loop (S i) xs' st' | (st', Raise e) => (st', Raise e) end
      end
  end.
(** run, lines 98-143: the attribute is set first (112); the warning (133-143) indexes the sizes by the kept defects. *)
Definition run (st : pstate) : pstate * res unit :=
  let st0 := {| sizes := sizes st; number := number st; indices := indices st; pli := pli st; keeped := Some (seq 0 (number st)); clock := clock st |} in
  match loop 0 (sizes st) st0 with
  | (st', Raise e) => (st', Raise e)
  | (st', Ok _) =>
      match keeped st' with
      | None => (st', Raise AttributeError)
      | Some ks =>
          if Nat.eqb (length ks) (number st') then (st', Ok tt)
          else if forallb (fun i => Nat.ltb i (length (sizes st'))) ks then (st', Ok tt) else (st', Raise IndexError)
      end
  end.
(** getPLIObject, lines 257-274. *)
Definition getPLIObject (st : pstate) (idefect : Z) : res slot :=
  match keeped st with
  | None => Raise AttributeError
  | Some ks =>
      if existsb (fun k => Z.eqb idefect (Z.of_nat k)) ks
      then match nth_error (pli st) (Z.to_nat idefect) with Some s => Ok s | None => Raise IndexError end
      else Raise GenericException
  end.
End PliPod.
