(** Which attributes of KrigingPOD and AdaptiveSignalPOD exist and what they hold, over the calls made on the object:
    /repo/otpod/_kriging_pod.py, _adaptive_signal_pod.py, _kriging_tools.py, and the constructors of the analyses
    /repo/otpod/_pli_pod.py and _sobol_indices.py. The numerical work is external to this file (see [world]). *)
From Verif Require Import Base.

(** An attribute of a Python object: absent, None, or a value (general Python semantics, no line). *)
Inductive attr (A : Type) := Missing | PyNone | Val (a : A).
Arguments Missing {A}.
Arguments PyNone {A}.
Arguments Val {A} a.
(** self.x: AttributeError when absent (general Python semantics). *)
Definition read {A} (x : attr A) : res (option A) :=
  match x with Missing => Raise AttributeError | PyNone => Ok None | Val a => Ok (Some a) end.
(** x.method(): AttributeError when x is None (general Python semantics). *)
Definition object {A} (x : option A) : res A := match x with None => Raise AttributeError | Some a => Ok a end.
(** x if x is not None else default (general Python semantics of the blocks "if self._x is None", e.g. _kriging_tools.py 387-400). *)
Definition or_default {A} (x : attr A) (d : A) : A := match x with Val a => a | _ => d end.
(** The argument of a checked setter, as seen by the check: accepted, NotImplementedError (e.g. _kriging_pod.py 233-236), or
    another exception of OpenTURNS. For setDistribution (_kriging_tools.py 279) [Unaccepted] is a failed isinstance. *)
Inductive given (A : Type) := Accepted (a : A) | Unaccepted | Fails (e : exn).
Arguments Accepted {A} a.
Arguments Unaccepted {A}.
Arguments Fails {A} e.

(** The two classes (_kriging_pod.py 14, _adaptive_signal_pod.py 16). *)
Inductive cls := KrigingPOD | AdaptiveSignalPOD.

Section Kriging.
(** Kriging results, normalisations, distributions, bases, covariance models, Q2 values, POD functions, lists of defect sizes. *)
Variables KR T D B C Q PM Sz : Type.
(** The uniform distribution on the ranges of the inputs and of the defect sizes (_kriging_pod.py 189-195,
    _adaptive_signal_pod.py 187-194); the input sample is that of the constructor. *)
Variable default_dist : Sz -> D.
(** _kriging_tools.py 387-396 and 398-400. *)
Variable default_basis : B.
Variable default_cov : C.
(** The normalisation of the input sample of KrigingPOD (_kriging_tools.py 403-413); that sample never changes. *)
Variable norm : T.
(** getCovarianceModel and getBasis of a kriging result (_adaptive_signal_pod.py 226-230), input dimension of its metamodel
    (_pli_pod.py 42). *)
Variable cov_of : KR -> C.
Variable basis_of : KR -> B.
Variable input_dim : KR -> nat.
(** The law of the parameters without the defect (_pli_pod.py 54-57, _sobol_indices.py 86-89). *)
Variable strip : D -> nat -> res D.
(** _computeLOO and the graph (_kriging_tools.py 151-160). *)
Variable G : Type.
Variable validation : KR -> T -> res G.

(** What the external computations of one call of run give; every call has its own (random draws, failures). *)
Record world := {
  (** the fit (_kriging_pod.py 163-177; _adaptive_signal_pod.py 207-222) with the basis and covariance model *)
  w_fit : B -> C -> res KR;
  (** _computeQ2 (_kriging_tools.py 556) *)
  w_q2 : KR -> T -> res Q;
  (** the POD samples and their interpolation (_kriging_pod.py 198-218; _adaptive_signal_pod.py 424-446) *)
  w_pod : Sz -> KR -> T -> D -> res PM;
  (** AdaptiveSignalPOD only: the candidate points (_adaptive_signal_pod.py 196-205), *)
  w_candidates : D -> res unit;
  (** the normalisation of the current input sample (line 209), *)
  w_norm : T;
  (** and the enrichment loop (240-420): the successive kriging results, with the POD function when the graph is active
      (400-406), and the outcome, which is the last normalisation; detailed in AdaptiveModel.v *)
  w_loop : KR -> T -> D -> Sz -> list (KR * option PM) * res T }.

(** The attributes: _userKriging, _krigingResult, _transformation, _distribution, _basis, _covarianceModel, _Q2, _PODmodel,
    _defectSizes. _PODPerDefect, assigned next to _PODmodel, is left out. _kriging_pod.py 72-140, _adaptive_signal_pod.py 92-169. *)
Record state := { kind : cls; user : bool; kresult : attr KR; transf : attr T; dist : attr D; basis : attr B; cov : attr C;
                  q2 : attr Q; podmodel : attr PM; sizes : Sz }.
(** Assignments of one attribute (self._x = ...), one per attribute written below. General Python or numpy semantics, no line of its own. *)
Definition set_user (u : bool) (s : state) : state :=
  {| kind := kind s; user := u; kresult := kresult s; transf := transf s; dist := dist s; basis := basis s; cov := cov s; q2 := q2 s; podmodel := podmodel s; sizes := sizes s |}.
(** self._krigingResult = (_kriging_pod.py 178, 237; _adaptive_signal_pod.py 225, 387). *)
Definition set_kresult (k : KR) (s : state) : state :=
  {| kind := kind s; user := user s; kresult := Val k; transf := transf s; dist := dist s; basis := basis s; cov := cov s; q2 := q2 s; podmodel := podmodel s; sizes := sizes s |}.
(** self._transformation = (_kriging_pod.py 179). *)
Definition set_transf (t : T) (s : state) : state :=
  {| kind := kind s; user := user s; kresult := kresult s; transf := Val t; dist := dist s; basis := basis s; cov := cov s; q2 := q2 s; podmodel := podmodel s; sizes := sizes s |}.
(** self._distribution = (_kriging_pod.py 195, _kriging_tools.py 281). *)
Definition set_dist (d : D) (s : state) : state :=
  {| kind := kind s; user := user s; kresult := kresult s; transf := transf s; dist := Val d; basis := basis s; cov := cov s; q2 := q2 s; podmodel := podmodel s; sizes := sizes s |}.
(** self._basis = (_kriging_tools.py 311, 396; _adaptive_signal_pod.py 228, 390). *)
Definition set_basis (b : B) (s : state) : state :=
  {| kind := kind s; user := user s; kresult := kresult s; transf := transf s; dist := dist s; basis := Val b; cov := cov s; q2 := q2 s; podmodel := podmodel s; sizes := sizes s |}.
(** self._covarianceModel = (_kriging_tools.py 341, 400; _adaptive_signal_pod.py 226, 388). *)
Definition set_cov (c : C) (s : state) : state :=
  {| kind := kind s; user := user s; kresult := kresult s; transf := transf s; dist := dist s; basis := basis s; cov := Val c; q2 := q2 s; podmodel := podmodel s; sizes := sizes s |}.
(** self._Q2 = (_kriging_pod.py 182, _adaptive_signal_pod.py 235, 394). *)
Definition set_q2 (q : Q) (s : state) : state :=
  {| kind := kind s; user := user s; kresult := kresult s; transf := transf s; dist := dist s; basis := basis s; cov := cov s; q2 := Val q; podmodel := podmodel s; sizes := sizes s |}.
(** self._PODmodel = (_kriging_pod.py 218, _adaptive_signal_pod.py 406, 446). *)
Definition set_podmodel (m : PM) (s : state) : state :=
  {| kind := kind s; user := user s; kresult := kresult s; transf := transf s; dist := dist s; basis := basis s; cov := cov s; q2 := q2 s; podmodel := Val m; sizes := sizes s |}.
(** self._defectSizes = (_kriging_tools.py 259). *)
Definition set_sizes (z : Sz) (s : state) : state :=
  {| kind := kind s; user := user s; kresult := kresult s; transf := transf s; dist := dist s; basis := basis s; cov := cov s; q2 := q2 s; podmodel := podmodel s; sizes := z |}.

(** The constructors, _kriging_pod.py 100-140 and _adaptive_signal_pod.py 120-169: only KrigingPOD creates _krigingResult
    (_kriging_pod.py 102); neither creates _transformation. z are the default defect sizes. The class AdaptiveSignalPOD has no
    attribute _userKriging; it is not read there. *)
Definition init (c : cls) (z : Sz) : state :=
  {| kind := c; user := false; kresult := match c with KrigingPOD => PyNone | AdaptiveSignalPOD => Missing end; transf := Missing;
     dist := PyNone; basis := PyNone; cov := PyNone; q2 := Missing; podmodel := Missing; sizes := z |}.

(** _buildKrigingAlgo, _kriging_tools.py 387-400: the defaults are stored in the object, and given to the fit. *)
Definition buildKrigingAlgo (s : state) : state * (B * C) :=
  let b := or_default (basis s) default_basis in
  let c := or_default (cov s) default_cov in
  (set_cov c (set_basis b s), (b, c)).

(** KrigingPOD.run, _kriging_pod.py 142-220. The local variable transformation is only bound in the block 157-179; it is read
    at line 183, so line 182 raises UnboundLocalError when the block was skipped. *)
Definition run_kriging (w : world) (s : state) : state * res unit :=
  let '(s1, local) :=
    if user s then (s, Ok None)
    else let '(s0, (b, c)) := buildKrigingAlgo s in
         match w_fit w b c with
         | Raise e => (s0, Raise e)
         | Ok k => (set_transf norm (set_kresult k s0), Ok (Some norm))
         end in
  match local with
  | Raise e => (s1, Raise e)
  | Ok None => (s1, Raise UnboundLocalError)
  | Ok (Some t) =>
      match (do k <- read (kresult s1); do k <- object k; do q <- w_q2 w k t; Ok (k, q)) with
      | Raise e => (s1, Raise e)
      | Ok (k, q) =>
          let s2 := set_q2 q s1 in
          let d := or_default (dist s2) (default_dist (sizes s2)) in
          let s3 := set_dist d s2 in
          match w_pod w (sizes s3) k t d with
          | Raise e => (s3, Raise e)
          | Ok m => (set_podmodel m s3, Ok tt)
          end
      end
  end.

(** "Get kriging results" of AdaptiveSignalPOD.run (225-230 and 387-392). *)
Definition keep (k : KR) (s : state) : state := set_basis (basis_of k) (set_cov (cov_of k) (set_kresult k s)).
(** The results stored by the enrichment loop, one after the other (387-392, 400-406). *)
Fixpoint keep_all (l : list (KR * option PM)) (k : KR) (s : state) : state * KR :=
  match l with
  | [] => (s, k)
  | (k', m) :: l' => keep_all l' k' (match m with Some m => set_podmodel m (keep k' s) | None => keep k' s end)
  end.
(** AdaptiveSignalPOD.run, _adaptive_signal_pod.py 171-450. The variable transformation is local: no line stores it. *)
Definition run_adaptive (w : world) (s : state) : state * res unit :=
  let d := or_default (dist s) (default_dist (sizes s)) in
  let s0 := set_dist d s in
  match w_candidates w d with
  | Raise e => (s0, Raise e)
  | Ok _ =>
      let '(s1, (b, c)) := buildKrigingAlgo s0 in
      match w_fit w b c with
      | Raise e => (s1, Raise e)
      | Ok k =>
          let s2 := keep k s1 in
          match w_q2 w k (w_norm w) with
          | Raise e => (s2, Raise e)
          | Ok q =>
              let s3 := set_q2 q s2 in
              let '(l, out) := w_loop w k (w_norm w) d (sizes s3) in
              let '(s4, k) := keep_all l k s3 in
              match out with
              | Raise e => (s4, Raise e)
              | Ok t => match w_pod w (sizes s4) k t d with
                        | Raise e => (s4, Raise e)
                        | Ok m => (set_podmodel m s4, Ok tt)
                        end
              end
          end
      end
  end.
(** run of the class of the object. _kriging_pod.py 142-220, _adaptive_signal_pod.py 171-451. *)
Definition run (w : world) (s : state) : state * res unit :=
  match kind s with KrigingPOD => run_kriging w s | AdaptiveSignalPOD => run_adaptive w s end.

(** setKrigingResult, _kriging_pod.py 222-238; AdaptiveSignalPOD has no such method. *)
Definition setKrigingResult (g : given KR) (s : state) : state * res unit :=
  match kind s with
  | AdaptiveSignalPOD => (s, Raise AttributeError)
  | KrigingPOD =>
      match g with
      | Accepted k => (set_user true (set_kresult k s), Ok tt)
      | Unaccepted => (s, Raise GenericException)
      | Fails e => (s, Raise e)
      end
  end.
(** setDistribution, _kriging_tools.py 270-281. *)
Definition setDistribution (g : given D) (s : state) : state * res unit :=
  match g with Accepted d => (set_dist d s, Ok tt) | Unaccepted => (s, Raise ValueError) | Fails e => (s, Raise e) end.
(** setBasis, _kriging_tools.py 298-311. *)
Definition setBasis (g : given B) (s : state) : state * res unit :=
  match g with Accepted b => (set_basis b s, Ok tt) | Unaccepted => (s, Raise GenericException) | Fails e => (s, Raise e) end.
(** setCovarianceModel, _kriging_tools.py 328-341. *)
Definition setCovarianceModel (g : given C) (s : state) : state * res unit :=
  match g with Accepted c => (set_cov c s, Ok tt) | Unaccepted => (s, Raise GenericException) | Fails e => (s, Raise e) end.
(** setDefectSizes, _kriging_tools.py 247-268: the attribute is written before the range test; the test itself is in
    InterpModel.v. *)
Definition setDefectSizes (z : Sz) (in_range : bool) (s : state) : state * res unit :=
  (set_sizes z s, if in_range then Ok tt else Raise ValueError).

(** getKrigingResult, _kriging_tools.py 173-185 (a message is printed when None is returned). *)
Definition getKrigingResult (s : state) : res (option KR) := read (kresult s).
(** getDistribution, _kriging_tools.py 283-296. *)
Definition getDistribution (s : state) : res (option D) := read (dist s).
(** getBasis, _kriging_tools.py 313-326. *)
Definition getBasis (s : state) : res (option B) := read (basis s).
(** getCovarianceModel, _kriging_tools.py 343-356. *)
Definition getCovarianceModel (s : state) : res (option C) := read (cov s).
(** getPODModel, _kriging_tools.py 20-30. *)
Definition getPODModel (s : state) : res (option PM) := read (podmodel s).
(** getQ2, _kriging_tools.py 162-171. *)
Definition getQ2 (s : state) : res (option Q) := read (q2 s).
(** drawValidationGraph, _kriging_tools.py 149-160: the arguments are read in order, then _computeLOO calls a method of the
    kriging result (line 528). *)
Definition drawValidationGraph (s : state) : res G :=
  do k <- read (kresult s); do t <- read (transf s); do k <- object k; do t <- object t; validation k t.
(** PLIBase.__init__, _pli_pod.py 22-57, for a POD of the two classes: kriging result, normalisation, dimension, law of the
    parameters (the defect sizes and the threshold always exist). *)
Definition newPLI (s : state) : res (KR * T * D) :=
  do k <- getKrigingResult s; do k <- object k; do t <- read (transf s); do t <- object t;
  do _ <- assert_ (Nat.leb 2 (input_dim k - 1));
  do d <- getDistribution s; do d <- object d; do d <- strip d (input_dim k - 1); Ok (k, t, d).
(** SobolIndices.__init__, _sobol_indices.py 59-97. *)
Definition newSobol (s : state) : res (KR * D) :=
  do k <- getKrigingResult s; do k <- object k;
  do _ <- assert_ (Nat.leb 2 (input_dim k - 1));
  do d <- getDistribution s; do d <- object d; do d <- strip d (input_dim k - 1); Ok (k, d).

(** The public calls; [Look] stands for the calls above that only read. No line of its own: the calls of a client. *)
Inductive op := Run (w : world) | SetResult (g : given KR) | SetDist (g : given D) | SetBasis (g : given B) | SetCov (g : given C)
              | SetSizes (z : Sz) (in_range : bool) | Look.
(** One call; the caller may catch the exception and go on. No line of its own: the calls of a client. *)
Definition step (o : op) (s : state) : state * res unit :=
  match o with
  | Run w => run w s | SetResult g => setKrigingResult g s | SetDist g => setDistribution g s | SetBasis g => setBasis g s
  | SetCov g => setCovarianceModel g s | SetSizes z b => setDefectSizes z b s | Look => (s, Ok tt)
  end.
(** The object after the calls, newest first. No line of its own: the calls of a client. *)
Fixpoint after (c : cls) (z : Sz) (past : list op) : state :=
  match past with [] => init c z | o :: past' => fst (step o (after c z past')) end.
End Kriging.
