(** UnivariateLinearModelPOD from the data to the curves: _computeLinearModel, run, the three POD models and the bootstrap collection,
    /repo/otpod/_univariate_linear_model_pod.py 139-258 and 361-625. Real numbers. The history of the simulation size is in
    QuantileModel.v; here the data, the failures and the attributes read later by the returned functions. *)
From Verif Require Import RealBase RegModel LinPodModel BoxCoxModel QuantileModel.
Local Open Scope R_scope.

(** filterCensoredData, _math_tools.py 238-298, on real numbers: strictly between the thresholds, below or at the noise threshold, above or
    at the saturation threshold. Simplification: a missing threshold never censors (the binary64 version is FilterModel.v). *)
Definition inside (noise sat : option R) (y : R) : bool :=
  (match noise with Some t => Rltb t y | None => true end) && (match sat with Some t => Rltb y t | None => true end).
(** _math_tools.py 284. *)
Definition under_noise (noise : option R) (y : R) : bool := match noise with Some t => Rleb y t | None => false end.
(** _math_tools.py 286. *)
Definition over_sat (sat : option R) (y : R) : bool := match sat with Some t => Rleb t y | None => false end.

(** The dictionary returned by _computeLinearModel, lines 615-625. *)
Record linres := { l_obs : data; l_a : R; l_b : R; l_stderr : R; l_resid : list R; l_det : R; l_lambda : option R }.

(** What the optimisers give at one call of _computeLinearModel: the Box-Cox parameter (567) and the censored maximum likelihood (601-609). *)
Record solver := { s_opt : list R -> R -> res R;
                   s_fit : R * R * R -> data -> list R -> list R -> option R -> option R -> res (R * R * R) }.

(** The settings of the object, never changed after the constructor: detection, thresholds, boxCox (a flag) and censored. *)
Record settings := { c_det : R; c_noise : option R; c_sat : option R; c_boxcox : bool; c_censored : bool }.

(** _computeLinearModel, lines 538-625. The fit of an empty sample raises ValueError (statsmodels, external). *)
Definition computeLinearModel (s : solver) (c : settings) (d : data) : res linres :=
  let obs := if c_censored c then filter (fun p => inside (c_noise c) (c_sat c) (snd p)) d else d in
  let xn := map fst (filter (fun p => under_noise (c_noise c) (snd p)) d) in
  let xs := map fst (filter (fun p => over_sat (c_sat c) (snd p)) d) in
  do o <- pod_run (s_opt s) (map snd obs) (c_det c) (c_noise c) (c_sat c) (c_boxcox c) (c_censored c);
  let obs' := combine (map fst obs) (o_signals o) in
  match obs' with
  | [] => Raise ValueError
  | _ =>
      let (a, b) := ols obs' in let se := stderr obs' in
      if c_censored c then
        do p <- s_fit s (a, b, se) obs' xn xs (o_noise o) (o_sat o);
        let '(a', b', se') := p in
        Ok {| l_obs := obs'; l_a := a'; l_b := b'; l_stderr := se'; l_resid := residuals a' b' obs'; l_det := o_detection o; l_lambda := o_lambda o |}
      else Ok {| l_obs := obs'; l_a := a; l_b := b; l_stderr := se; l_resid := residuals a b obs'; l_det := o_detection o; l_lambda := o_lambda o |}
  end.

(** What a POD function keeps of the run that made it, lines 361-369, 397-416, 461-469: the residuals, or the defects and the standard error,
    or the complementary distribution function of the law fitted to the residuals. The detection threshold and the line are read on the
    object when the function is called (176-179, 365, 410, 465). *)
Inductive closure := KBinomial (resid : list R) | KGauss (defects : list R) (se : R) | KBootstrap (ccdf : R -> R).
(** The value of a POD function when the object holds the line and threshold of [l]; [ccdf] is ot.DistFunc.pNormal(., True). Lines
    364-367, 402-414, 464-467. *)
Definition eval (ccdf : R -> R) (k : closure) (l : linres) (x : R) : R :=
  match k with
  | KBinomial resid => binomial_pod resid (l_a l) (l_b l) (l_det l) x
  | KGauss d se => gauss_pod ccdf d se (l_a l) (l_b l) (l_det l) x
  | KBootstrap f => f (l_det l - linear (l_a l) (l_b l) x)
  end.

(** What the external code gives in one run: the optimisers at the k-th call of _computeLinearModel (0 is the one of line 152), the law
    fitted by the factory at its k-th call (462, 499), the normal pair and deviation simulated (438-449), the indices drawn by
    BootstrapExperiment (513). *)
Record world := { w_solver : nat -> solver; w_build : nat -> list R -> res (R -> R); w_normal : nat -> R * R * R; w_draw : nat -> list nat }.

(** The rows drawn, with their two columns, line 513. *)
Definition resample (d : data) (idx : list nat) : data := map (fun k => nth k d (0, 0)) idx.
(** buildPODModel of _PODbootstrapModelCl, lines 472-503: one curve; the line and threshold of the sample are kept. *)
Definition bootstrap_curve (s : solver) (build : list R -> res (R -> R)) (c : settings) (d : data) : res curve :=
  do l <- computeLinearModel s c d;
  do f <- build (l_resid l);
  Ok (fun x => f (l_det l - linear (l_a l) (l_b l) x)).
(** _PODbootstrapModelCl, lines 505-530: the loop from the i-th sample, n samples left. *)
Fixpoint bootstrap_coll (w : world) (c : settings) (d : data) (i n : nat) : res (list curve) :=
  match n with
  | O => Ok []
  | S n' =>
      do f <- bootstrap_curve (w_solver w (S i)) (w_build w (S i)) c (resample d (w_draw w i));
      do fs <- bootstrap_coll w c d (S i) n';
      Ok (f :: fs)
  end.
(** _PODgaussModelCl, lines 418-455; Chi(N - 2) needs N > 2 (442). *)
Definition gauss_coll (ccdf : R -> R) (w : world) (l : linres) (n : nat) : res (list curve) :=
  if Nat.leb (length (l_obs l)) 2 then Raise GenericException
  else Ok (map (fun i => let '(z0, z1, sigma) := w_normal w i in gauss_simulated_pod ccdf (l_a l) (l_b l) (l_det l) z0 z1 sigma) (seq 0 n)).

Section Obj.
(** ot.DistFunc.pNormal(., True), the settings, the data, the kind of residual law (182-191) and the simulation size (251). *)
Variable ccdf : R -> R.
Variable c : settings.
Variable d : data.
Variable k : kind.
Variable n : nat.
(** The attributes written by run: the results of the fit (162-172), _PODmodel (193), _PODcollDict (202, 213). *)
Record obj := { fitted : option linres; pod : option closure; coll : option (list curve) }.
(** Before any run. Lines 22-137. *)
Definition fresh : obj := {| fitted := None; pod := None; coll := None |}.
(** run, lines 139-213. *)
Definition run (w : world) (o : obj) : obj * res unit :=
  match computeLinearModel (w_solver w 0) c d with
  | Raise e => (o, Raise e)
  | Ok l =>
      match k with
      | Binomial => ({| fitted := Some l; pod := Some (KBinomial (l_resid l)); coll := coll o |}, Ok tt)
      | Gauss =>
          let o1 := {| fitted := Some l; pod := Some (KGauss (map fst (l_obs l)) (l_stderr l)); coll := coll o |} in
          match gauss_coll ccdf w l n with
          | Raise e => (o1, Raise e)
          | Ok fs => ({| fitted := fitted o1; pod := pod o1; coll := Some fs |}, Ok tt)
          end
      | Bootstrap =>
          match w_build w 0 (l_resid l) with
          | Raise e => ({| fitted := Some l; pod := pod o; coll := coll o |}, Raise e)
          | Ok f =>
              let o1 := {| fitted := Some l; pod := Some (KBootstrap f); coll := coll o |} in
              match bootstrap_coll w c d 0 n with
              | Raise e => (o1, Raise e)
              | Ok fs => ({| fitted := fitted o1; pod := pod o1; coll := Some fs |}, Ok tt)
              end
          end
      end
  end.
(** The function returned by getPODModel (215-225), called on a size while the object is in state [now]: AttributeError before any run. *)
Definition getPODModel (o : obj) : res closure := match pod o with Some f => Ok f | None => Raise AttributeError end.
(** A call of a returned function: it reads the object of that moment. Lines 176-177, 365, 410, 465. *)
Definition call_pod (f : closure) (now : obj) (x : R) : res R :=
  match fitted now with Some l => Ok (eval ccdf f l x) | None => Raise AttributeError end.
(** The object after the runs, newest first. No line of its own: the calls of a client. *)
Fixpoint runs (ws : list world) : obj := match ws with [] => fresh | w :: ws' => fst (run w (runs ws')) end.
End Obj.
