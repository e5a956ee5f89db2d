(** Who holds the probability levels of a QuantileRegressionPOD: the array behind getQuantile, the arrays of the client and the functions
    already returned, in a memory.  /repo/otpod/_quantile_regression_pod.py 70, 138-163, 214-252, 270-290.  What the regressions find is an argument here
    (QrObjModel.v, QrRunModel.v); only who holds which array matters. *)
From Verif Require Import Base Float64 SettersModel ShareModel LinspaceModel.

Section QrShare.
(** What the regressions and the bootstrap of a run find: sizes for the curve, rows for the confidence curves. *)
Variables A B : Type.
(** Default levels, np.linspace(0.05, 0.98, 21), line 70. *)
Variable default : list float.

(** A function returned by getPODModel or getPODCLModel: np.hstack copies the levels (149, 248), interp1d keeps the copy. *)
Inductive curve := Pod (levels : list float) (a : A) | Cl (levels : list float) (confidence : float) (b : B).
(** Attributes _quantile (an address), _PODmodel (151) and _defectsPerQuantile with its number of columns (163). What the client has: arrays and functions, oldest first.
    _quantile_regression_pod.py 70, 151, 163. *)
Record state := { arrays : list (list float); q : nat; podmodel : option curve; rows : option (B * nat); held : list nat; functions : list curve }.
(** The constructor, lines 60-97. *)
Definition init : state := {| arrays := [default]; q := 0; podmodel := None; rows := None; held := []; functions := [] |}.
(** The levels now: the content of self._quantile. Lines 138, 149, 163, 192, 248, 274. *)
Definition levels (s : state) : list float := at_ (arrays s) (q s).

(** setQuantile, lines 276-290: np.array and np.hstack copy the argument, the copy is sorted and becomes the attribute when it passes the checks. *)
Definition set_levels (arg : list float) (s : state) : state * res unit :=
  let '(l, r) := setQuantile (levels s) arg in
  match r with
  | Ok _ => ({| arrays := arrays s ++ [l]; q := List.length (arrays s); podmodel := podmodel s; rows := rows s; held := held s; functions := functions s |}, r)
  | Raise e => (s, Raise e)
  end.
(** run, lines 99-212, for the levels of now: curve, then rows. [a] and [b] are what is found; a run that raises earlier ([None]) keeps what was there:
    nothing is assigned before line 151, and the rows before line 163. The rows written before an exception of the bootstrap are in QrObjModel.v. *)
Definition run (a : option A) (b : option B) (s : state) : state :=
  match a with
  | None => s
  | Some a => {| arrays := arrays s; q := q s; podmodel := Some (Pod (levels s) a);
                 rows := match b with Some b => Some (b, List.length (levels s)) | None => rows s end; held := held s; functions := functions s |}
  end.
(** getPODModel, lines 214-224. *)
Definition getPODModel (s : state) : res curve := match podmodel s with Some c => Ok c | None => Raise AttributeError end.
(** getPODCLModel, lines 226-252: the rows of the run with the levels of now; interp1d refuses different numbers (ValueError). *)
Definition getPODCLModel (confidence : float) (s : state) : res curve :=
  match rows s with
  | None => Raise AttributeError
  | Some (b, n) => if Nat.eqb n (List.length (levels s)) then Ok (Cl (levels s) confidence b) else Raise ValueError
  end.

(** The calls of a client: an array of its own, getQuantile (270-274), setQuantile with an array it has, run, the two getters of functions (kept by
    the client when they return), an array it has changed in place. No line of its own: the calls of a client. *)
Inductive op := Own (l : list float) | GetQuantile | SetQuantile (h : nat) | Run (a : option A) (b : option B) | GetPod | GetCl (c : float) | Change (h : nat) (l : list float).
(** The content of an array of the client. No line of its own. *)
Definition content (h : nat) (s : state) : list float := match nth_error (held s) h with Some a => at_ (arrays s) a | None => [] end.
(** The client keeps the array. No line of its own. *)
Definition keep_array (a : nat) (s : state) : state :=
  {| arrays := arrays s; q := q s; podmodel := podmodel s; rows := rows s; held := held s ++ [a]; functions := functions s |}.
(** The client keeps the function, when there is one. No line of its own. *)
Definition keep_curve (r : res curve) (s : state) : state :=
  match r with
  | Ok c => {| arrays := arrays s; q := q s; podmodel := podmodel s; rows := rows s; held := held s; functions := functions s ++ [c] |}
  | Raise _ => s
  end.
(** One call; exceptions are caught, a call with an array the client does not have does nothing. No line of its own: the calls of a client. *)
Definition step (s : state) (o : op) : state :=
  match o with
  | Own l => keep_array (List.length (arrays s)) {| arrays := arrays s ++ [l]; q := q s; podmodel := podmodel s; rows := rows s; held := held s; functions := functions s |}
  | GetQuantile => keep_array (q s) s
  | SetQuantile h => match nth_error (held s) h with Some _ => fst (set_levels (content h s) s) | None => s end
  | Run a b => run a b s
  | GetPod => keep_curve (getPODModel s) s
  | GetCl c => keep_curve (getPODCLModel c s) s
  | Change h l => match nth_error (held s) h with
                  | Some a => {| arrays := put (arrays s) a l; q := q s; podmodel := podmodel s; rows := rows s; held := held s; functions := functions s |}
                  | None => s
                  end
  end.
(** A history, oldest call first. No line of its own: the calls of a client. *)
Definition play (l : list op) : state := fold_left step l init.
End QrShare.
(** The default of the constructor, np.linspace(0.05, 0.98, 21). _quantile_regression_pod.py 70. *)
Definition default_levels : list float := linspace (of_ratio 1 20) (of_ratio 49 50) 21.
