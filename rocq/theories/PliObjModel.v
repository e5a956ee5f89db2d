(** The objects PLIMean and PLIVariance over the calls made on them: /repo/otpod/_pli_pod.py. The bookkeeping of the defect sizes is in
    PliPodModel.v; here are the other settings, the classes themselves (416-473) and the drawing methods (315-413). *)
From Verif Require Import RealBase KrigAttrModel PliModel PliPodModel.
Require Import ZArith.
Local Open Scope R_scope.

(** The two classes with the value given to sigmaScaled or covScaled (None when the argument is left out). Lines 416-473. *)
Inductive pli_class := PLIMean (sigmaScaled : option bool) | PLIVariance (covScaled : option bool).
(** The scaling flag kept by the object: both constructors have True as default, lines 435-437 and 466-468. *)
Definition scaled (c : pli_class) : bool :=
  match c with PLIMean o | PLIVariance o => match o with Some b => b | None => true end end.
(** The deltas of the object built by _definePLIAlgorithm (439-445, 470-473) for marginals of means [means] and deviations [stds]: the
    constructors PLIMeanBase and PLIVarianceBase of _pli.py, see PliModel.v. *)
Definition class_deltas (c : pli_class) (dim : nat) (means stds : list R) (d : deltas) : res (list (list R)) :=
  match c with
  | PLIMean _ => mean_deltas dim means stds (scaled c) d
  | PLIVariance _ => variance_deltas dim means stds (scaled c) d
  end.

(** sizes[list of positions] of numpy, as used at lines 385-386: IndexError out of range. *)
Fixpoint take_at {A} (l : list A) (ks : list nat) : res (list A) :=
  match ks with
  | [] => Ok []
  | k :: ks' => match nth_error l k with Some x => do r <- take_at l ks'; Ok (x :: r) | None => Raise IndexError end
  end.

Section PliObj.
(** Distributions, values of the sampling size (never checked), integration algorithms, PLI objects of _pli.py. *)
Variables D N G Obj : Type.
(** isinstance(distribution, ot.JointDistribution) and the dimension (_pli_pod.py 216-222). *)
Variable is_joint : D -> bool.
Variable dimension : D -> nat.
(** _dim (42), the matrix of the deltas (59), the class, the extreme defects of the POD input (159-160). *)
Variable dim : nat.
Variable delta : list (list R).
Variable class : pli_class.
Variables lo hi : R.

(** What the external computations of one call of run give: the probability estimates of the successive Monte Carlo simulations for a
    distribution and a sampling size (_runMonteCarlo 80-96), the PLI objects (_definePLIAlgorithm 439-445, 470-473) for a distribution,
    the deltas and the scaling flag, and the indices they compute with an integration algorithm (121-125). *)
Record world := { w_mc : D -> N -> nat -> R -> R;
                  w_define : D -> list (list R) -> pli_class -> nat -> R -> res Obj;
                  w_solve : G -> Obj -> res (nat -> nat -> option R) }.

(** The attributes of PliPodModel.v and _distribution, _samplingSize, _gaussKronrod. Lines 47-66. *)
Record state := { core : pstate Obj; dist : D; sampling : N; gk : G }.
(** The constructor (22-66) for the sizes and the marginals of the POD, the default sampling size 10000 (51) and the default G7K15 rule
    (61-63). *)
Definition init (pod_sizes : list R) (d : D) (n : N) (g : G) : state :=
  {| core := PliPodModel.init Obj (length delta) dim pod_sizes; dist := d; sampling := n; gk := g |}.
(** setDistribution, lines 207-223. *)
Definition setDistribution (d : D) (s : state) : state * res unit :=
  if negb (is_joint d) then (s, Raise ValueError)
  else if negb (Nat.eqb (dimension d) dim) then (s, Raise AttributeError)
  else ({| core := core s; dist := d; sampling := sampling s; gk := gk s |}, Ok tt).
(** setSamplingSize, lines 195-205. *)
Definition setSamplingSize (n : N) (s : state) : state := {| core := core s; dist := dist s; sampling := n; gk := gk s |}.
(** setGaussKronrod, lines 243-255: the argument is copied; NotImplementedError becomes AttributeError, other exceptions go through. *)
Definition setGaussKronrod (g : given G) (s : state) : state * res unit :=
  match g with
  | Accepted a => ({| core := core s; dist := dist s; sampling := sampling s; gk := a |}, Ok tt)
  | Unaccepted => (s, Raise AttributeError)
  | Fails e => (s, Raise e)
  end.
(** setDefectSizes, lines 145-169 (see PliPodModel.v). *)
Definition setSizes (l : list R) (s : state) : state * res unit :=
  let '(c, r) := PliPodModel.setDefectSizes Obj lo hi l (core s) in ({| core := c; dist := dist s; sampling := sampling s; gk := gk s |}, r).
(** run, lines 98-143 (see PliPodModel.v), with the settings of now. *)
Definition run (w : world) (s : state) : state * res unit :=
  let '(c, r) := PliPodModel.run Obj (w_mc w (dist s) (sampling s)) (w_define w (dist s) delta class) (w_solve w (gk s)) (core s) in
  ({| core := c; dist := dist s; sampling := sampling s; gk := gk s |}, r).

(** drawIndices, lines 313-355: the object whose graph is drawn and the defect size of the title; the graph of the placeholder class
    [object] does not exist. *)
Definition drawIndices (s : state) (idefect : Z) : res (Obj * R) :=
  do sl <- getPLIObject Obj (core s) idefect;
  match sl with
  | Placeholder _ => Raise AttributeError
  | Filled _ o => match nth_error (sizes _ (core s)) (Z.to_nat idefect) with Some x => Ok (o, x) | None => Raise IndexError end
  end.

(** The graph of drawContourIndices: abscissas of the columns, ordinates of the rows, indices (rows are the deltas), bounds of the picture. *)
Record contour := { cx : list R; cy : list R; cz : list (list (option R)); extent : R * R * R * R }.
(** Where matplotlib's contour (line 405) puts n columns (or rows) between the two bounds of the extent (external). *)
Definition even (a b : R) (n : nat) : list R := map (fun j => a + INR j * ((b - a) / INR (n - 1))) (seq 0 n).
(** drawContourIndices, lines 357-413. *)
Definition drawContourIndices (s : state) (marginal : Z) : res contour :=
  if (Z.of_nat dim - 1 <? marginal)%Z then Raise AttributeError
  else
    match keeped _ (core s) with
    | None => Raise AttributeError
    | Some ks =>
        do kept <- take_at (sizes _ (core s)) ks;
        match kept with
        | [] => Raise ValueError
        | _ =>
            let a := indices _ (core s) in
            do m <- or_index (py_index (n_marginal a) marginal);
            if negb (forallb (fun k => Nat.ltb k (n_defect a)) ks) then Raise IndexError
            else if Nat.ltb (length ks) 2 || Nat.ltb (n_delta a) 2 then Raise TypeError
            else
              let xs := (Rlmin kept, Rlmax kept) in let ys := (Rlmin (concat delta), Rlmax (concat delta)) in
              Ok {| cx := even (fst xs) (snd xs) (length ks); cy := even (fst ys) (snd ys) (n_delta a);
                    cz := map (fun i => map (fun k => at3 a i m k) ks) (seq 0 (n_delta a));
                    extent := (fst xs, snd xs, fst ys, snd ys) |}
        end
    end.

(** The calls made on the object. No line of its own: the calls of a client. *)
Inductive op := Run (w : world) | SetDist (d : D) | SetSampling (n : N) | SetGK (g : given G) | SetSizes (l : list R).
(** One call: the object afterwards and the outcome. No line of its own: the calls of a client. *)
Definition call (o : op) (s : state) : state * res unit :=
  match o with
  | Run w => run w s
  | SetDist d => setDistribution d s
  | SetSampling n => (setSamplingSize n s, Ok tt)
  | SetGK g => setGaussKronrod g s
  | SetSizes l => setSizes l s
  end.
(** The object after the calls, newest first; exceptions are caught by the client. No line of its own: the calls of a client. *)
Fixpoint after (s0 : state) (past : list op) : state :=
  match past with [] => s0 | o :: past' => fst (call o (after s0 past')) end.
End PliObj.
