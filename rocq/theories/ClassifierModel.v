(** The classifiers built by AdaptiveHitMissPOD.run from the type and the parameters of the object, and who holds the parameters.
    /repo/otpod/_adaptive_hitmiss_pod.py 113-114, 216-251, 309-335, 582-611. *)
From Verif Require Import Base Float64.
From Coq Require Import String.
Local Open Scope string_scope.
Local Open Scope list_scope.

(** Python values found in the parameters. General Python semantics, no line of its own. *)
Inductive value := VNone | VBool (b : bool) | VInt (z : Z) | VFloat (x : float) | VStr (s : string).
(** One entry of the parameters: something that can be iterated over, with the values it gives (a string gives its characters), or not (line 114: lists of one value). *)
Inductive entry := Values (l : list value) | NoIter.
(** The argument of setClassifierParameters (607-611), anything: entries, or something that "*" of lines 235, 249, 320 and 333 refuses. *)
Inductive params := Entries (l : list entry) | NotIterable.
(** The literals of lines 114 and 599. *)
Definition rf_default : params := Entries [Values [VInt 100]; Values [VNone]; Values [VInt 2]; Values [VInt 0]].
(** The literal of line 597. *)
Definition svc_default : params := Entries [Values [VFloat fone]; Values [VStr "poly"]; Values [VInt 3]; Values [VBool true]].

(** svm.SVC with the four arguments of lines 227-234 (gamma "auto" and coef0 1 always), ExtraTreesClassifier with those of lines 243-248. *)
Inductive classifier := SVC (C kernel degree probability : value) | Trees (n_estimators max_depth min_samples_split random_state : value).
(** The columns given to map: "*" needs an iterable, map at least one argument besides the function, and each must be iterable; TypeError otherwise. Lines 225-237, 241-251. *)
Fixpoint all_values (l : list entry) : res (list (list value)) :=
  match l with
  | [] => Ok []
  | Values v :: l' => do r <- all_values l'; Ok (v :: r)
  | NoIter :: _ => Raise TypeError
  end.
(** As above. Lines 225-237, 241-251. *)
Definition columns (p : params) : res (list (list value)) :=
  match p with NotIterable | Entries [] => Raise TypeError | Entries l => all_values l end.
(** The next tuple of map: none as soon as one column is exhausted. General Python semantics, no line of its own. *)
Fixpoint heads (cs : list (list value)) : option (list value) :=
  match cs with
  | [] => Some []
  | [] :: _ => None
  | (v :: _) :: cs' => match heads cs' with Some r => Some (v :: r) | None => None end
  end.
(** The tuples of map, at most as many as the first column has values. General Python semantics, no line of its own. *)
Fixpoint tuples (n : nat) (cs : list (list value)) : list (list value) :=
  match n with
  | O => []
  | S n' => match heads cs with None => [] | Some r => r :: tuples n' (map (@tl value) cs) end
  end.
(** The lambdas of lines 227-234 and 243-248: four arguments, TypeError for another number. The constructors of sklearn only keep their arguments. *)
Definition make (kind : string) (r : list value) : res classifier :=
  match r with
  | [a; b; c; d] => if String.eqb kind "svc" then Ok (SVC a b c d) else Ok (Trees a b c d)
  | _ => Raise TypeError
  end.
(** list(map(...)): every tuple is used. Lines 225-237, 241-251. *)
Fixpoint make_all (kind : string) (l : list (list value)) : res (list classifier) :=
  match l with [] => Ok [] | r :: l' => do c <- make kind r; do cs <- make_all kind l'; Ok (c :: cs) end.
(** list(map(...))[0], lines 224-251 and again 309-335. [algo_temp] is not bound for another type; no setter gives one. *)
Definition build (kind : string) (p : params) : res classifier :=
  if negb (String.eqb kind "svc") && negb (String.eqb kind "rf") then Raise UnboundLocalError
  else do cs <- columns p;
       do l <- make_all kind (tuples (List.length (hd [] cs)) cs);
       match l with [] => Raise IndexError | c :: _ => Ok c end.
(** The classifiers of n constructions in a row. Lines 224-251, then 309-335 at each iteration. *)
Fixpoint builds (n : nat) (kind : string) (p : params) : res (list classifier) :=
  match n with O => Ok [] | S n' => do c <- build kind p; do l <- builds n' kind p; Ok (c :: l) end.

(** Attributes _classifierType, _ClassifierParameters (an address) and whether _input is left a numpy array; what the client has, oldest first.
    Simplification: a change in place at any depth is a change of the whole content, and lists made by the client share nothing with each other. Lines 113-114, 217. *)
Record state := { memory : list params; ref : nat; kind : string; held : list nat; spoiled : bool }.
(** Lines 113-114. *)
Definition init : state := {| memory := [rf_default]; ref := 0; kind := "rf"; held := []; spoiled := false |}.
(** The content of an address. General Python semantics, no line of its own. *)
Definition load (m : list params) (a : nat) : params := nth a m NotIterable.
(** A change in place. General Python semantics, no line of its own. *)
Fixpoint store (m : list params) (a : nat) (p : params) : list params :=
  match m, a with [], _ => [] | _ :: m', O => p :: m' | x :: m', S a' => x :: store m' a' p end.
(** The parameters now: the content of self._ClassifierParameters. Lines 235, 249, 320, 333, 605. *)
Definition in_force (s : state) : params := load (memory s) (ref s).
(** setClassifierType, lines 588-599: a new list, also when the type is the one already set. *)
Definition set_type (name : string) (s : state) : state * res unit :=
  if negb (String.eqb name "rf") && negb (String.eqb name "svc") then (s, Raise ValueError)
  else ({| memory := memory s ++ [if String.eqb name "svc" then svc_default else rf_default]; ref := List.length (memory s); kind := name;
           held := held s; spoiled := spoiled s |}, Ok tt).
(** run, lines 177-405, for k iterations of the enrichment, as to the classifiers built; nothing else fails here (EnrichModel.v, HitMissModel.v). Line 216 (or 191) refuses a
    numpy array; line 217 makes one, and line 401 is not reached when a construction raises. *)
Definition run (k : nat) (s : state) : state * res (list classifier) :=
  if spoiled s then (s, Raise AttributeError)
  else match builds (S k) (kind s) (in_force s) with
       | Ok l => (s, Ok l)
       | Raise e => ({| memory := memory s; ref := ref s; kind := kind s; held := held s; spoiled := true |}, Raise e)
       end.

(** The calls of a client: a list of its own, getClassifierParameters (601-605), setClassifierParameters with a list it has, setClassifierType, a list it has changed in place, run.
    No line of its own: the calls of a client. *)
Inductive op := Own (p : params) | GetParams | SetParams (h : nat) | SetType (name : string) | Change (h : nat) (p : params) | Run (k : nat).
(** The content of a list of the client. No line of its own. *)
Definition content (h : nat) (s : state) : option params := option_map (load (memory s)) (nth_error (held s) h).
(** One call; exceptions are caught, a call with a list the client does not have does nothing. No line of its own: the calls of a client. *)
Definition step (s : state) (o : op) : state :=
  match o with
  | Own p => {| memory := memory s ++ [p]; ref := ref s; kind := kind s; held := held s ++ [List.length (memory s)]; spoiled := spoiled s |}
  | GetParams => {| memory := memory s; ref := ref s; kind := kind s; held := held s ++ [ref s]; spoiled := spoiled s |}
  | SetParams h => match nth_error (held s) h with
                   | Some a => {| memory := memory s; ref := a; kind := kind s; held := held s; spoiled := spoiled s |}
                   | None => s
                   end
  | SetType name => fst (set_type name s)
  | Change h p => match nth_error (held s) h with
                  | Some a => {| memory := store (memory s) a p; ref := ref s; kind := kind s; held := held s; spoiled := spoiled s |}
                  | None => s
                  end
  | Run k => fst (run k s)
  end.
(** A history, oldest call first. No line of its own: the calls of a client. *)
Definition play (l : list op) : state := fold_left step l init.
