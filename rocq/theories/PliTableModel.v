(** The objects PLI, PLIMeanBase and PLIVarianceBase over the calls made on them: the tables written cell by cell by run and read by the
    getters, /repo/otpod/_pli.py 52-137, 283-340, 515-570. The formulas are those of PliModel.v and PliDensityModel.v. *)
From Verif Require Import RealBase LooModel KrigAttrModel PliModel PliDensityModel.
Local Open Scope R_scope.

(** The base class (52-104, the only one named in __all__, line 3) and its two children with their scaling argument (627, 733). *)
Inductive kind := Base | Mean (sigmaScaled : bool) | Variance (covScaled : bool).
(** The deltas kept by the constructors, lines 72-88, 627-634, 733-744; getStandardDeviation is the square root of the variance (external). *)
Definition kind_deltas (k : kind) (margs : list marginal_dist) (d : deltas) : res (list (list R)) :=
  let means := map dist_mean margs in let stds := map (fun m => sqrt (dist_variance m)) margs in
  match k with
  | Base => pli_deltas (length margs) d
  | Mean b => mean_deltas (length margs) means stds b d
  | Variance b => variance_deltas (length margs) means stds b d
  end.
(** The checks of the constructor before the deltas: an empty history is refused (56-63), and so are dependent parameters (66-69, class
    Exception); the value is the matrix of the deltas. *)
Definition construct (k : kind) (history : nat) (independent : bool) (margs : list marginal_dist) (d : deltas) : res (list (list R)) :=
  if Nat.eqb history 0 then Raise AttributeError
  else if negb independent then Raise GenericException
  else kind_deltas k margs d.

(** The entries of _estimatorDist: the default Distribution of the collection (97-99) or the Normal law of lines 281. *)
Inductive law := DefaultLaw | NormalLaw (mean sigma : R).
(** Assignment t[d, m] = v into a table with a row per delta and a column per marginal, lines 123-136. *)
Definition put {V} (d m : nat) (v : V) (t : nat -> nat -> V) : nat -> nat -> V :=
  fun d' m' => if Nat.eqb d' d && Nat.eqb m' m then v else t d' m'.
(** A function applied to each element in turn, the first exception stops. General Python semantics, no line of its own. *)
Fixpoint map_res {A B} (f : A -> res B) (l : list A) : res (list B) :=
  match l with [] => Ok [] | x :: l' => do y <- f x; do r <- map_res f l'; Ok (y :: r) end.

(** _computeVariancePfdelta, lines 188-214, with the perturbed probability read in the table; None: not a finite number. *)
Definition table_var (N : nat) (ratios : list (option R)) (pfd : option R) : option R :=
  match all_some ratios, pfd with
  | Some l, Some p => Some (1 / INR N * Rsum (map (fun r => r * r) l) - p * p)
  | _, _ => None
  end.
(** _computePLIndices, lines 216-232, with the perturbed probability read in the table. *)
Definition table_index (pf : R) (pfd : option R) : option R := match pfd with Some p => pl_index pf p | None => None end.
(** _computeEstimatorDistribution, lines 234-281, with the values read in the tables; ot.Normal refuses what is not a number. *)
Definition table_law (N : nat) (pf : R) (pfd var index : option R) : res law :=
  match pfd, var with
  | Some p, Some v => do s <- sigma_of N (estimator_var pf p v);
                      match index with Some i => Ok (NormalLaw i s) | None => Raise GenericException end
  | _, _ => Raise GenericException
  end.

Section PliTable.
(** Integration algorithms (100-104). *)
Variable G : Type.
(** The class, the marginals and the deltas: not changed after the constructor. *)
Variable k : kind.
Variable margs : list marginal_dist.
Variable dl : list (list R).

(** What the external computations give to a run: the event of the Monte Carlo result with its history (114-121, 143-151), fsolve (677-684)
    and optimizeLambda (884-919), which uses the integration algorithm and may raise. *)
Record world := { w_op : operator; w_threshold : R; w_xs : list (list R); w_outs : list R;
                  w_solve : (R -> option R) -> R; w_opt : G -> nat -> R * R -> res (R * R) }.
(** The attributes set by the constructor (92-104) and by run (114-121). *)
Record obj := { o_pf : option R; o_size : option nat; o_fail : option (list (list R));
                o_pfd : nat -> nat -> option R; o_var : nat -> nat -> option R; o_idx : nat -> nat -> option R;
                o_est : nat -> nat -> law; o_gk : G }.
(** The object after the constructor, lines 90-104: tables of zeros and default distributions; _pf, _simulationSize and _failureSample do
    not exist yet. *)
Definition fresh (g : G) : obj :=
  {| o_pf := None; o_size := None; o_fail := None; o_pfd := fun _ _ => Some 0; o_var := fun _ _ => Some 0; o_idx := fun _ _ => Some 0;
     o_est := fun _ _ => DefaultLaw; o_gk := g |}.
(** The object with other tables, lines 123-136. *)
Definition with_tables (s : obj) pfd var idx est : obj :=
  {| o_pf := o_pf s; o_size := o_size s; o_fail := o_fail s; o_pfd := pfd; o_var := var; o_idx := idx; o_est := est; o_gk := o_gk s |}.

(** _perturbedMarginalPDF at one point: the base class has it with one parameter (538-539) and is called with three (532), TypeError; the
    children are in PliDensityModel.v (636-696, 746-792); the optimisation is made only for a uniform marginal (776-785). *)
Definition marginal_density (w : world) (g : G) (m : nat) (dist : marginal_dist) (delta x : R) : res (option R) :=
  match k with
  | Base => Raise TypeError
  | Mean _ => mean_perturbed (w_solve w) dist delta x
  | Variance _ =>
      do l <- match dist with
              | MUniform _ _ => if Reqb delta (dist_variance dist) then Ok (0, 0) else w_opt w g m (variance_rhs dist delta)
              | _ => Ok (0, 0)
              end;
      do v <- variance_perturbed (fun _ => l) dist delta x; Ok (Some v)
  end.
(** The quotients of lines 180-185 and 202-212 over the failure sample, _computePerturbedPDF 515-536: ValueError for the empty sample (line
    535), then the density of the perturbed marginal at all the points. *)
Definition table_ratios (w : world) (g : G) (m : nat) (delta : R) (fail : list (list R)) : res (list (option R)) :=
  match fail with
  | [] => Raise ValueError
  | _ =>
      match nth_error margs m with
      | None => Raise IndexError
      | Some dist =>
          do vs <- map_res (fun x => marginal_density w g m dist delta (nth m x 0)) fail;
          Ok (map (fun p => match snd p with None => None | Some v => likelihood_ratio (map dist_pdf margs) m (fun _ => v) (fst p) end)
                  (combine fail vs))
      end
  end.
(** One turn of the loops of run, lines 124-136: three numbers written one after the other, then the law, which can be refused. *)
Definition step (w : world) (N : nat) (pf : R) (fail : list (list R)) (m d : nat) (s : obj) : obj * res unit :=
  match table_ratios w (o_gk s) m (nth m (nth d dl []) 0) fail with
  | Raise e => (s, Raise e)
  | Ok rs =>
      let pfd := put d m (option_map (pfdelta N) (all_some rs)) (o_pfd s) in
      let var := put d m (table_var N rs (pfd d m)) (o_var s) in
      let idx := put d m (table_index pf (pfd d m)) (o_idx s) in
      match table_law N pf (pfd d m) (var d m) (idx d m) with
      | Raise e => (with_tables s pfd var idx (o_est s), Raise e)
      | Ok l => (with_tables s pfd var idx (put d m l (o_est s)), Ok tt)
      end
  end.
(** The turns one after the other; the first exception stops, lines 122-136. *)
Fixpoint steps (w : world) (N : nat) (pf : R) (fail : list (list R)) (cells : list (nat * nat)) (s : obj) : obj * res unit :=
  match cells with
  | [] => (s, Ok tt)
  | (m, d) :: cells' => match step w N pf fail m d s with (s', Ok _) => steps w N pf fail cells' s' | (s', Raise e) => (s', Raise e) end
  end.
(** The order of the turns: the marginals outside, the deltas inside, lines 122-123. *)
Definition turns : list (nat * nat) := flat_map (fun m => map (fun d => (m, d)) (seq 0 (length dl))) (seq 0 (length margs)).
(** run, lines 106-136. *)
Definition run (w : world) (s : obj) : obj * res unit :=
  let pf := mc_probability (w_op w) (w_threshold w) (w_outs w) in let N := length (w_outs w) in
  let s1 := {| o_pf := Some pf; o_size := Some N; o_fail := o_fail s; o_pfd := o_pfd s; o_var := o_var s; o_idx := o_idx s;
               o_est := o_est s; o_gk := o_gk s |} in
  match failureSample (w_op w) (w_threshold w) (w_xs w) (w_outs w) with
  | Raise e => (s1, Raise e)
  | Ok fail =>
      steps w N pf fail turns {| o_pf := Some pf; o_size := Some N; o_fail := Some fail; o_pfd := o_pfd s; o_var := o_var s;
                                 o_idx := o_idx s; o_est := o_est s; o_gk := o_gk s |}
  end.

(** getIndices and getPerturbedProbabilityEstimate, lines 283-292, 331-340: the tables, rows by rows, never refused. *)
Definition table_of {V} (t : nat -> nat -> V) : list (list V) := map (fun d => map (t d) (seq 0 (length margs))) (seq 0 (length dl)).
(** getIndices, lines 283-292. *)
Definition getIndices (s : obj) : list (list (option R)) := table_of (o_idx s).
(** getPerturbedProbabilityEstimate, lines 331-340. *)
Definition getPerturbedProbabilityEstimate (s : obj) : list (list (option R)) := table_of (o_pfd s).
(** getDeltaSample, lines 294-303. *)
Definition getDeltaSample (s : obj) : list (list R) := dl.
(** computeBilateralConfidenceInterval (external) of an entry of _estimatorDist: [zq level] is the half width for the standard normal law
    and [dflt level] the interval of the default Distribution. Line 325. *)
Definition law_interval (zq : R -> R) (dflt : R -> R * R) (level : R) (l : law) : R * R :=
  match l with DefaultLaw => dflt level | NormalLaw i s => (i - zq level * s, i + zq level * s) end.
(** computeConfidenceInterval, lines 305-329: a list over the marginals of arrays over the deltas, never refused. *)
Definition computeConfidenceInterval (zq : R -> R) (dflt : R -> R * R) (level : R) (s : obj) : list (list (R * R)) :=
  map (fun m => map (fun d => law_interval zq dflt level (o_est s d m)) (seq 0 (length dl))) (seq 0 (length margs)).
(** setGaussKronrod, lines 558-570: the argument is copied; NotImplementedError becomes AttributeError, other exceptions go through. *)
Definition setGaussKronrod (g : given G) (s : obj) : obj * res unit :=
  match g with
  | Accepted a => ({| o_pf := o_pf s; o_size := o_size s; o_fail := o_fail s; o_pfd := o_pfd s; o_var := o_var s; o_idx := o_idx s;
                      o_est := o_est s; o_gk := a |}, Ok tt)
  | Unaccepted => (s, Raise AttributeError)
  | Fails e => (s, Raise e)
  end.
(** getOriginalDelta: class Exception for the base class (541-550), the mean (698-707) or the variance (794-803) of the marginal otherwise. *)
Definition getOriginalDelta (m : nat) : res R :=
  match k, nth_error margs m with
  | Base, _ => Raise GenericException
  | Mean _, Some dist => Ok (dist_mean dist)
  | Variance _, Some dist => Ok (dist_variance dist)
  | _, None => Raise GenericException
  end.
End PliTable.
