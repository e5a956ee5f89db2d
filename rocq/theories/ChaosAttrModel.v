(** Which attributes of PolynomialChaosPOD exist and what they hold, over the calls made on the object:
    /repo/otpod/_polynomial_chaos_pod.py, and the analyses that read them (_pli_pod.py, _sobol_indices.py).
    The numerical work is external to this file (see [world]). *)
From Verif Require Import Base KrigAttrModel.

Section Chaos.
(** Chaos results, distributions, adaptive and projection strategies, predictions (metamodel, coefficients, reduced basis,
    transformation, basis function: lines 166-173), residuals with their deviation (177-182), POD functions, laws of the
    coefficients, samples of POD values, lists of defect sizes. *)
Variables CR D A P M E PM CD CF Sz : Type.
(** The uniform distribution on the ranges of the inputs and of the defect sizes (673-681). *)
Variable default_dist : Sz -> D.
(** The fixed strategy on the polynomials orthogonal to the distribution, up to the degree (686-701). *)
Variable fixed : D -> Z -> res A.
(** The least squares strategy (703-712); it depends on the samples only. *)
Variable default_projection : P.
(** setDescription of the distribution (684). *)
Variable describe : D -> res unit.
(** The metamodel and the other parts of the chaos result (166-173), and the input dimension of the metamodel (_pli_pod.py 42). *)
Variable predict : CR -> res M.
Variable input_dim : CR -> nat.
(** The law of the parameters without the defect (_pli_pod.py 54-57, _sobol_indices.py 86-89). *)
Variable strip : D -> nat -> res D.

(** What the external computations of one call of run give. *)
Record world := {
  (** FunctionalChaosAlgorithm and its run (lines 160-163, 714-720) *)
  w_fit : D -> A -> P -> res CR;
  (** residuals and their deviation (175-182), then R2 and Q2 (185-186) *)
  w_resid : M -> res E;
  w_quality : M -> E -> res unit;
  (** the POD at the defect sizes and its interpolation (191-194); the distribution is sampled (line 749) *)
  w_pod : Sz -> M -> E -> D -> res PM;
  (** the law of the coefficients (196-208) and the POD samples (209-215) *)
  w_coefs : M -> E -> res CD;
  w_conf : CD -> Sz -> M -> E -> D -> res CF }.

(** The attributes _userChaos, _chaosResult, _distribution, _adaptiveStrategy, _projectionStrategy, _degree, _defectSizes,
    then those that only run creates: _chaosPred and its group, _residuals and _stderr, _PODmodel, _coefsDist, _PODPerDefect. _polynomial_chaos_pod.py 71-150. *)
Record state := { user : bool; cresult : attr CR; dist : attr D; adaptive : attr A; projection : attr P; degree : Z; sizes : Sz;
                  pred : attr M; resid : attr E; podmodel : attr PM; coefs : attr CD; conf : attr CF }.
(** self._userChaos, self._chaosResult = ... (lines 163, 615-616). *)
Definition set_result (u : bool) (r : CR) (s : state) : state :=
  {| user := u; cresult := Val r; dist := dist s; adaptive := adaptive s; projection := projection s; degree := degree s; sizes := sizes s;
     pred := pred s; resid := resid s; podmodel := podmodel s; coefs := coefs s; conf := conf s |}.
(** self._distribution = ... (lines 505, 681). *)
Definition set_dist (d : D) (s : state) : state :=
  {| user := user s; cresult := cresult s; dist := Val d; adaptive := adaptive s; projection := projection s; degree := degree s; sizes := sizes s;
     pred := pred s; resid := resid s; podmodel := podmodel s; coefs := coefs s; conf := conf s |}.
(** self._adaptiveStrategy = ... (lines 535, 701). *)
Definition set_adaptive (a : A) (s : state) : state :=
  {| user := user s; cresult := cresult s; dist := dist s; adaptive := Val a; projection := projection s; degree := degree s; sizes := sizes s;
     pred := pred s; resid := resid s; podmodel := podmodel s; coefs := coefs s; conf := conf s |}.
(** self._projectionStrategy = ... (lines 564, 710). *)
Definition set_projection (p : P) (s : state) : state :=
  {| user := user s; cresult := cresult s; dist := dist s; adaptive := adaptive s; projection := Val p; degree := degree s; sizes := sizes s;
     pred := pred s; resid := resid s; podmodel := podmodel s; coefs := coefs s; conf := conf s |}.
(** self._degree = ... (line 589). *)
Definition set_degree (n : Z) (s : state) : state :=
  {| user := user s; cresult := cresult s; dist := dist s; adaptive := adaptive s; projection := projection s; degree := n; sizes := sizes s;
     pred := pred s; resid := resid s; podmodel := podmodel s; coefs := coefs s; conf := conf s |}.
(** self._defectSizes = ... (line 483). *)
Definition set_sizes (z : Sz) (s : state) : state :=
  {| user := user s; cresult := cresult s; dist := dist s; adaptive := adaptive s; projection := projection s; degree := degree s; sizes := z;
     pred := pred s; resid := resid s; podmodel := podmodel s; coefs := coefs s; conf := conf s |}.
(** self._chaosPred = ... and its group (lines 166-173). *)
Definition set_pred (m : M) (s : state) : state :=
  {| user := user s; cresult := cresult s; dist := dist s; adaptive := adaptive s; projection := projection s; degree := degree s; sizes := sizes s;
     pred := Val m; resid := resid s; podmodel := podmodel s; coefs := coefs s; conf := conf s |}.
(** self._residuals, self._stderr = ... (lines 178-182). *)
Definition set_resid (e : E) (s : state) : state :=
  {| user := user s; cresult := cresult s; dist := dist s; adaptive := adaptive s; projection := projection s; degree := degree s; sizes := sizes s;
     pred := pred s; resid := Val e; podmodel := podmodel s; coefs := coefs s; conf := conf s |}.
(** self._PODmodel = ... (line 194). *)
Definition set_podmodel (m : PM) (s : state) : state :=
  {| user := user s; cresult := cresult s; dist := dist s; adaptive := adaptive s; projection := projection s; degree := degree s; sizes := sizes s;
     pred := pred s; resid := resid s; podmodel := Val m; coefs := coefs s; conf := conf s |}.
(** self._coefsDist = ... (line 205). *)
Definition set_coefs (c : CD) (s : state) : state :=
  {| user := user s; cresult := cresult s; dist := dist s; adaptive := adaptive s; projection := projection s; degree := degree s; sizes := sizes s;
     pred := pred s; resid := resid s; podmodel := podmodel s; coefs := Val c; conf := conf s |}.
(** self._PODPerDefect = ... (line 211); filled in place afterwards, taken here as filled when the loop succeeds. *)
Definition set_conf (c : CF) (s : state) : state :=
  {| user := user s; cresult := cresult s; dist := dist s; adaptive := adaptive s; projection := projection s; degree := degree s; sizes := sizes s;
     pred := pred s; resid := resid s; podmodel := podmodel s; coefs := coefs s; conf := Val c |}.

(** __init__, lines 98-139; z are the default defect sizes. *)
Definition init (z : Sz) : state :=
  {| user := false; cresult := PyNone; dist := PyNone; adaptive := PyNone; projection := PyNone; degree := 3; sizes := z;
     pred := Missing; resid := Missing; podmodel := Missing; coefs := Missing; conf := Missing |}.

(** _buildChaosAlgo, lines 668-720: the distribution and the two strategies are created when None, and stored. *)
Definition buildChaosAlgo (s : state) : state * res (D * A * P) :=
  let d := or_default (dist s) (default_dist (sizes s)) in
  let s1 := set_dist d s in
  match describe d with
  | Raise e => (s1, Raise e)
  | Ok _ =>
      match (match adaptive s1 with Val a => Ok a | _ => fixed d (degree s1) end) with
      | Raise e => (s1, Raise e)
      | Ok a =>
          let p := or_default (projection s1) default_projection in
          (set_projection p (set_adaptive a s1), Ok (d, a, p))
      end
  end.

(** The rest of run once there is a chaos result, lines 166-215. *)
Definition run_rest (w : world) (s : state) : state * res unit :=
  match (do r <- read (cresult s); do r <- object r; predict r) with
  | Raise e => (s, Raise e)
  | Ok m =>
      let s1 := set_pred m s in
      match w_resid w m with
      | Raise e => (s1, Raise e)
      | Ok v =>
          let s2 := set_resid v s1 in
          match (do _ <- w_quality w m v; do d <- read (dist s2); do d <- object d; do p <- w_pod w (sizes s2) m v d; Ok (d, p)) with
          | Raise e => (s2, Raise e)
          | Ok (d, p) =>
              let s3 := set_podmodel p s2 in
              match w_coefs w m v with
              | Raise e => (s3, Raise e)
              | Ok c => let s4 := set_coefs c s3 in
                        match w_conf w c (sizes s4) m v d with Raise e => (s4, Raise e) | Ok f => (set_conf f s4, Ok tt) end
              end
          end
      end
  end.
(** run, lines 141-215. *)
Definition run (w : world) (s : state) : state * res unit :=
  if user s then run_rest w s
  else match buildChaosAlgo s with
       | (s1, Raise e) => (s1, Raise e)
       | (s1, Ok (d, a, p)) => match w_fit w d a p with Raise e => (s1, Raise e) | Ok r => run_rest w (set_result false r s1) end
       end.

(** setDistribution, lines 494-505. *)
Definition setDistribution (g : given D) (s : state) : state * res unit :=
  match g with Accepted d => (set_dist d s, Ok tt) | Unaccepted => (s, Raise ValueError) | Fails e => (s, Raise e) end.
(** setAdaptiveStrategy, lines 522-535. *)
Definition setAdaptiveStrategy (g : given A) (s : state) : state * res unit :=
  match g with Accepted a => (set_adaptive a s, Ok tt) | Unaccepted => (s, Raise GenericException) | Fails e => (s, Raise e) end.
(** setProjectionStrategy, lines 551-564. *)
Definition setProjectionStrategy (g : given P) (s : state) : state * res unit :=
  match g with Accepted p => (set_projection p s, Ok tt) | Unaccepted => (s, Raise GenericException) | Fails e => (s, Raise e) end.
(** setDegree, lines 580-589 (no check). *)
Definition setDegree (n : Z) (s : state) : state * res unit := (set_degree n s, Ok tt).
(** setPolynomialChaosResult, lines 602-616. *)
Definition setPolynomialChaosResult (g : given CR) (s : state) : state * res unit :=
  match g with Accepted r => (set_result true r s, Ok tt) | Unaccepted => (s, Raise GenericException) | Fails e => (s, Raise e) end.
(** setDefectSizes, lines 471-492: the attribute is written before the range test; the test itself is in InterpModel.v. *)
Definition setDefectSizes (z : Sz) (in_range : bool) (s : state) : state * res unit :=
  (set_sizes z s, if in_range then Ok tt else Raise ValueError).

(** getPolynomialChaosResult, lines 618-630. *)
Definition getPolynomialChaosResult (s : state) : res (option CR) := read (cresult s).
(** getDistribution, lines 507-520. *)
Definition getDistribution (s : state) : res (option D) := read (dist s).
(** getAdaptiveStrategy, lines 537-549. *)
Definition getAdaptiveStrategy (s : state) : res (option A) := read (adaptive s).
(** getProjectionStrategy, lines 566-578. *)
Definition getProjectionStrategy (s : state) : res (option P) := read (projection s).
(** getDegree, lines 591-600. *)
Definition getDegree (s : state) : Z := degree s.
(** getPODModel, lines 217-227. *)
Definition getPODModel (s : state) : res (option PM) := read (podmodel s).
(** getCoefficientDistribution, lines 657-666. *)
Definition getCoefficientDistribution (s : state) : res (option CD) := read (coefs s).
(** PLIBase.__init__ and SobolIndices.__init__ for a chaos (_pli_pod.py 22-57, _sobol_indices.py 59-97): both read the chaos
    result, its dimension and the law of the parameters. *)
Definition newAnalysis (s : state) : res (CR * D) :=
  do r <- getPolynomialChaosResult s; do r <- object r;
  do _ <- assert_ (Nat.leb 2 (input_dim r - 1));
  do d <- getDistribution s; do d <- object d; do d <- strip d (input_dim r - 1); Ok (r, d).
(** PODaggrChaos.__init__ (_sobol_indices.py 545-570, called by SobolIndices.run): draws of the coefficients put on the basis of
    the chaos result. *)
Definition newPODaggr (s : state) : res (CD * CR) :=
  do c <- getCoefficientDistribution s; do c <- object c; do r <- getPolynomialChaosResult s; do r <- object r; Ok (c, r).

(** The public calls; [Look] stands for the calls that only read. No line of its own: the calls of a client. *)
Inductive op := Run (w : world) | SetResult (g : given CR) | SetDist (g : given D) | SetAdaptive (g : given A) | SetProjection (g : given P)
              | SetDegree (n : Z) | SetSizes (z : Sz) (in_range : bool) | Look.
(** One call; the caller may catch the exception and go on. No line of its own: the calls of a client. *)
Definition step (o : op) (s : state) : state * res unit :=
  match o with
  | Run w => run w s | SetResult g => setPolynomialChaosResult g s | SetDist g => setDistribution g s | SetAdaptive g => setAdaptiveStrategy g s
  | SetProjection g => setProjectionStrategy g s | SetDegree n => setDegree n s | SetSizes z b => setDefectSizes z b s | Look => (s, Ok tt)
  end.
(** The object after the calls, newest first. No line of its own: the calls of a client. *)
Fixpoint after (z : Sz) (past : list op) : state :=
  match past with [] => init z | o :: past' => fst (step o (after z past')) end.
End Chaos.
