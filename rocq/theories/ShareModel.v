(** Which arrays a POD object, the sensitivity objects built from it and their client share: the defect sizes behind getDefectSizes
    and the indices behind getIndices, in a memory.  /repo/otpod/_kriging_tools.py 236-268, _polynomial_chaos_pod.py 459-492,
    _sobol_indices.py 80-82, 140-142 and 372-405, _pli_pod.py 46-78, 98-131, 145-181 and 276-313.  What the runs compute is an argument
    here (SobolModel.v, PliPodModel.v); only who holds which array matters. *)
From Verif Require Import Base Float64 SettersModel.

Section Share.
(** One block [:, :, idefect] of the indices of the PLI; its value zero (_pli_pod.py 75); the values of a POD run. *)
Variables V W : Type.
Variable zero : V.
(** Extreme defects of the input sample of the POD: _kriging_tools.py 260-261, _sobol_indices.py 385-386, _pli_pod.py 158-159. *)
Variables lo hi : float.

(** The array at an address. General Python or numpy semantics, no line of its own. *)
Definition at_ {A} (m : list (list A)) (a : nat) : list A := nth a m [].
(** An array is changed in place, its length stays. General Python or numpy semantics, no line of its own. *)
Fixpoint put {A} (m : list (list A)) (a : nat) (l : list A) : list (list A) :=
  match m, a with
  | [], _ => []
  | x :: m', O => (if Nat.eqb (List.length l) (List.length x) then l else x) :: m'
  | x :: m', S a' => x :: put m' a' l
  end.

(** _defectSizes (an address), _defectNumber, the curve of the last run: interp1d copies its abscissas (_kriging_pod.py 217,
    _polynomial_chaos_pod.py 193, _adaptive_signal_pod.py 445) and the table of the run (_PODPerDefect, _kriging_pod.py 198). *)
Record pod := { p_sizes : nat; p_number : nat; p_curve : option (list float * W) }.
(** The two families of sensitivity objects. _sobol_indices.py 21, _pli_pod.py 12. *)
Inductive kind := Sobol | Pli.
(** Attributes _defectSizes, _defectNumber and, for the PLI, _indices (an address; not used for SobolIndices).
    _sobol_indices.py 81-82, _pli_pod.py 48-49 and 75. *)
Record sens := { s_kind : kind; s_sizes : nat; s_number : nat; s_indices : nat }.
(** What the client holds: arrays of sizes (its own ones or those of getDefectSizes) and arrays of indices. No line of its own: the calls of a client. *)
Inductive ref := RSizes (a : nat) | RIndices (a : nat).
(** The memory of both types of arrays, the objects, the references of the client (oldest first). No line of its own. *)
Record state := { arrays : list (list float); tables : list (list V); the_pod : pod; the_sens : list sens; held : list ref }.

(** The POD object after its constructor, with its default sizes. _kriging_pod.py 135-140, _adaptive_signal_pod.py 164-169, _polynomial_chaos_pod.py 133-139. *)
Definition init (sizes : list float) : state :=
  {| arrays := [sizes]; tables := []; the_pod := {| p_sizes := 0; p_number := List.length sizes; p_curve := None |}; the_sens := []; held := [] |}.

(** setDefectSizes on an object with sizes at address a: np.array copies the argument, the copy is sorted, a copy of it becomes
    _defectSizes before the check of the range. _kriging_tools.py 257-268 and the four other copies (values: SettersModel.v). *)
Definition assign (m : list (list float)) (a n : nat) (arg : list float) : list (list float) * nat * nat * res unit :=
  let '(st, r) := setDefectSizes lo hi {| st_sizes := at_ m a; st_number := n |} arg in
  match arg with [] => (m, a, n, r) | _ => (m ++ [st_sizes st], List.length m, st_number st, r) end.
(** POD.setDefectSizes. _kriging_tools.py 247-268, _polynomial_chaos_pod.py 471-492. *)
Definition pod_set (arg : list float) (s : state) : state * res unit :=
  let p := the_pod s in
  let '(m, a, n, r) := assign (arrays s) (p_sizes p) (p_number p) arg in
  ({| arrays := m; tables := tables s; the_pod := {| p_sizes := a; p_number := n; p_curve := p_curve p |}; the_sens := the_sens s; held := held s |}, r).
(** Replacement of one object in the list. No line of its own. *)
Fixpoint update {A} (k : nat) (x : A) (l : list A) : list A :=
  match l, k with [], _ => [] | _ :: l', O => x :: l' | y :: l', S k' => y :: update k' x l' end.
(** setDefectSizes of SobolIndices (_sobol_indices.py 372-393) and of the PLI, which makes a new matrix of zeros when the sizes are accepted
    (_pli_pod.py 145-169, 68-78). *)
Definition sens_set (k : nat) (arg : list float) (s : state) : state * res unit :=
  match nth_error (the_sens s) k with
  | None => (s, Ok tt)
  | Some o =>
      let '(m, a, n, r) := assign (arrays s) (s_sizes o) (s_number o) arg in
      match s_kind o, r with
      | Pli, Ok _ =>
          ({| arrays := m; tables := tables s ++ [repeat zero n]; the_pod := the_pod s;
              the_sens := update k {| s_kind := Pli; s_sizes := a; s_number := n; s_indices := List.length (tables s) |} (the_sens s); held := held s |}, r)
      | q, _ =>
          ({| arrays := m; tables := tables s; the_pod := the_pod s;
              the_sens := update k {| s_kind := q; s_sizes := a; s_number := n; s_indices := s_indices o |} (the_sens s); held := held s |}, r)
      end
  end.
(** The constructors: _defectSizes is the array of the POD itself (_sobol_indices.py 81-82; _pli_pod.py 48-49 and 66, 75).
    Simplification: the checks of the class of the POD and of the dimension (C07) are left out. *)
Definition make (q : kind) (s : state) : state :=
  let a := p_sizes (the_pod s) in let n := List.length (at_ (arrays s) a) in
  let t := match q with Sobol => tables s | Pli => tables s ++ [repeat zero n] end in
  {| arrays := arrays s; tables := t; the_pod := the_pod s;
     the_sens := the_sens s ++ [{| s_kind := q; s_sizes := a; s_number := n; s_indices := List.length (tables s) |}]; held := held s |}.
(** The last part of the run of a POD, with its result: _kriging_pod.py 217, _polynomial_chaos_pod.py 193. *)
Definition pod_run (w : W) (s : state) : state :=
  let p := the_pod s in
  {| arrays := arrays s; tables := tables s;
     the_pod := {| p_sizes := p_sizes p; p_number := p_number p; p_curve := Some (at_ (arrays s) (p_sizes p), w) |}; the_sens := the_sens s; held := held s |}.
(** Part of SobolIndices.run: the sizes whose output has a variance (positions [keep]) when some have none. _sobol_indices.py 128-143. *)
Definition sobol_run (k : nat) (keep : list nat) (s : state) : state * res unit :=
  match nth_error (the_sens s) k with
  | Some o =>
      let z := at_ (arrays s) (s_sizes o) in
      match s_kind o with
      | Sobol => if Nat.eqb (List.length keep) (List.length z) then (s, Ok tt) else sens_set k (map (fun i => nth i z fzero) keep) s
      | Pli => (s, Ok tt)
      end
  | None => (s, Ok tt)
  end.
(** Blocks assigned one after the other from the first defect, as far as the matrix goes. _pli_pod.py 125 and 129-131. *)
Fixpoint blocks {A} (new old : list A) : list A :=
  match new, old with x :: new', _ :: old' => x :: blocks new' old' | [], _ => old | _, [] => [] end.
(** PLI run: assigns into the matrix it has; [new] are the blocks up to the end of the loop or to the first exception. _pli_pod.py 114-131. *)
Definition pli_run (k : nat) (new : list V) (s : state) : state :=
  match nth_error (the_sens s) k with
  | Some o =>
      match s_kind o with
      | Pli => {| arrays := arrays s; tables := put (tables s) (s_indices o) (blocks new (at_ (tables s) (s_indices o))); the_pod := the_pod s;
                  the_sens := the_sens s; held := held s |}
      | Sobol => s
      end
  | None => s
  end.
(** A reference is handed to the client. No line of its own. *)
Definition give (r : ref) (s : state) : state :=
  {| arrays := arrays s; tables := tables s; the_pod := the_pod s; the_sens := the_sens s; held := held s ++ [r] |}.
(** Calls: the client makes an array; getDefectSizes and setDefectSizes of the POD (with one of the arrays the client holds) and of the
    k-th sensitivity object (_kriging_tools.py 236-245, _polynomial_chaos_pod.py 459-469, _sobol_indices.py 395-405, _pli_pod.py 171-181);
    getIndices without argument, a view of the matrix (_pli_pod.py 297-298); changes in place of an array the client holds. *)
Inductive op := Own (l : list float) | GetPod | SetPod (h : nat) | RunPod (w : W) | New (q : kind) | GetSens (k : nat) | SetSens (k h : nat)
  | RunSobol (k : nat) (keep : list nat) | RunPli (k : nat) (new : list V) | GetIndices (k : nat)
  | ChangeSizes (h : nat) (l : list float) | ChangeIndices (h : nat) (l : list V).
(** The content of the h-th reference when it is an array of sizes. No line of its own. *)
Definition content (h : nat) (s : state) : list float :=
  match nth_error (held s) h with Some (RSizes a) => at_ (arrays s) a | _ => [] end.
(** One call; a call on an object or a reference that does not exist does nothing. No line of its own: the calls of a client. *)
Definition step (s : state) (o : op) : state :=
  match o with
  | Own l => give (RSizes (List.length (arrays s))) {| arrays := arrays s ++ [l]; tables := tables s; the_pod := the_pod s; the_sens := the_sens s; held := held s |}
  | GetPod => give (RSizes (p_sizes (the_pod s))) s
  | SetPod h => fst (pod_set (content h s) s)
  | RunPod w => pod_run w s
  | New q => make q s
  | GetSens k => match nth_error (the_sens s) k with Some x => give (RSizes (s_sizes x)) s | None => s end
  | SetSens k h => fst (sens_set k (content h s) s)
  | RunSobol k keep => fst (sobol_run k keep s)
  | RunPli k new => pli_run k new s
  | GetIndices k => match nth_error (the_sens s) k with
                    | Some x => match s_kind x with Pli => give (RIndices (s_indices x)) s | Sobol => s end
                    | None => s end
  | ChangeSizes h l => match nth_error (held s) h with
                       | Some (RSizes a) => {| arrays := put (arrays s) a l; tables := tables s; the_pod := the_pod s; the_sens := the_sens s; held := held s |}
                       | _ => s end
  | ChangeIndices h l => match nth_error (held s) h with
                         | Some (RIndices a) => {| arrays := arrays s; tables := put (tables s) a l; the_pod := the_pod s; the_sens := the_sens s; held := held s |}
                         | _ => s end
  end.
(** A history, oldest call first. No line of its own: the calls of a client. *)
Definition play (sizes : list float) (l : list op) : state := fold_left step l (init sizes).
End Share.
