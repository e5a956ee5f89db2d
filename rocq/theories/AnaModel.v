(** UnivariateLinearModelAnalysis from the data to its results, its samples and two of its graphs,
    /repo/otpod/_univariate_linear_model_analysis.py 118-303, 608-710 and 871-952. Real numbers. The tests are in RegModel.v and DwModel.v, the
    printed tables in TableModel.v, the warnings in SummaryModel.v. *)
From Coq Require Import String.
From Verif Require Import RealBase RegModel BoxCoxModel LinObjModel.
Local Open Scope R_scope.
Local Open Scope list_scope.

Section Analysis.
(** Distributions fitted to the residuals, and the dictionary of the test results (308-341). *)
Context {Dist Tests : Type}.
(** One _Results object, lines 23-34, with the attributes added by _run (277-303): the line, the standard error, the fitted signals, the residuals, their law and the tests. *)
Record results := { r_a : R; r_b : R; r_se : R; r_fitted : list R; r_resid : list R; r_dist : Dist; r_tests : Tests }.
(** The arguments kept by the constructor, lines 128-155: thresholds, the flag _boxCox and the given parameter. *)
Record arguments := { g_noise : option R; g_sat : option R; g_boxcox : bool; g_lambda : option R }.
(** _censored, lines 132-142. *)
Definition censored (g : arguments) : bool := match g_noise g, g_sat g with None, None => false | _, _ => true end.
(** The object after the constructor: samples, arguments, the data of the fit (line 245), the two results (136-141) and the parameter (219). *)
Record analysis := { a_input : list R; a_output : list R; a_args : arguments; a_obs : data; a_unc : results; a_cens : option results; a_lambda : option R }.
(** The external calls of one analysis: the optimisers (LinObjModel.v), resDistFact.build at its k-th call (279, 290) and the tests at their
    k-th call (295, 300), which simulate. *)
Record calls := { e_solver : solver; e_build : nat -> list R -> res Dist; e_tests : nat -> list R -> list R -> list R -> Dist -> res Tests }.

(** _run, lines 175-303, on checked samples (the checks 161-168 are in CtorModel.v). The fit of an empty sample raises ValueError. *)
Definition run (e : calls) (g : arguments) (d : data) : res analysis :=
  let obs := if censored g then filter (fun p => inside (g_noise g) (g_sat g) (snd p)) d else d in
  let xn := map fst (filter (fun p => under_noise (g_noise g) (snd p)) d) in
  let xs := map fst (filter (fun p => over_sat (g_sat g) (snd p)) d) in
  do o <- analysis_run (s_opt (e_solver e)) (map snd obs) (g_noise g) (g_sat g) (g_boxcox g) (g_lambda g);
  let obs' := combine (map fst obs) (o_signals o) in
  match obs' with
  | [] => Raise ValueError
  | _ =>
      let (a, b) := ols obs' in let se := stderr obs' in
      do p <- (if censored g then do p <- s_fit (e_solver e) (a, b, se) obs' xn xs (o_noise o) (o_sat o); Ok (Some p) else Ok None);
      let ru := residuals a b obs' in
      do du <- e_build e 0%nat ru;
      do c1 <- match p with
               | None => Ok None
               | Some (a', b', se') => do dc <- e_build e 1%nat (residuals a' b' obs'); Ok (Some (a', b', se', dc))
               end;
      do tu <- e_tests e 0%nat (map fst obs') (map snd obs') ru du;
      do c2 <- match c1 with
               | None => Ok None
               | Some (a', b', se', dc) =>
                   do tc <- e_tests e 1%nat (map fst obs') (map snd obs') (residuals a' b' obs') dc;
                   Ok (Some {| r_a := a'; r_b := b'; r_se := se'; r_fitted := map (linear a' b') (map fst obs'); r_resid := residuals a' b' obs'; r_dist := dc; r_tests := tc |})
               end;
      Ok {| a_input := map fst d; a_output := map snd d; a_args := g; a_obs := obs';
            a_unc := {| r_a := a; r_b := b; r_se := se; r_fitted := map (linear a b) (map fst obs'); r_resid := ru; r_dist := du; r_tests := tu |};
            a_cens := c2; a_lambda := o_lambda o |}
  end.

(** getInputSample, lines 871-880. *)
Definition getInputSample (a : analysis) : list R := a_input a.
(** getOutputSample, lines 882-891. *)
Definition getOutputSample (a : analysis) : list R := a_output a.
(** getNoiseThreshold, lines 893-902. *)
Definition getNoiseThreshold (a : analysis) : option R := g_noise (a_args a).
(** getSaturationThreshold, lines 904-913. *)
Definition getSaturationThreshold (a : analysis) : option R := g_sat (a_args a).
(** getResiduals, lines 915-937: the columns with their descriptions. An attribute missing from an object without censoring (AttributeError) is
    the None of [a_cens]. *)
Definition getResiduals (a : analysis) : res (list (string * list R)) :=
  if censored (a_args a) then
    match a_cens a with
    | None => Raise AttributeError
    | Some c => Ok [("Residuals for uncensored case"%string, r_resid (a_unc a)); ("Residuals for censored case"%string, r_resid c)]
    end
  else Ok [("Residuals for uncensored case"%string, r_resid (a_unc a))].
(** getResidualsDistribution, lines 939-952. *)
Definition getResidualsDistribution (a : analysis) : res (list Dist) :=
  if censored (a_args a) then match a_cens a with None => Raise AttributeError | Some c => Ok [r_dist (a_unc a); r_dist c] end
  else Ok [r_dist (a_unc a)].

(** The content of a figure: title, labels of the axes, marked points, line. Lines 645-655 and 697-707. *)
Record figure := { f_title : string; f_xlabel : string; f_ylabel : string; f_points : list (R * R); f_line : list (R * R) }.
(** drawLinearModel, lines 608-660. The saved file is not modelled. *)
Definition drawLinearModel (a : analysis) (model : string) : res figure :=
  if String.eqb model "censored" && negb (censored (a_args a)) then Raise NameError
  else
    let defects := map fst (a_obs a) in let signals := map snd (a_obs a) in
    do fit <- (if String.eqb model "uncensored" then Ok (r_fitted (a_unc a))
               else if String.eqb model "censored" then match a_cens a with None => Raise AttributeError | Some c => Ok (r_fitted c) end
               else Raise NameError);
    Ok {| f_xlabel := "Defects"; f_points := combine defects signals; f_line := combine defects fit;
          f_ylabel := if String.eqb model "uncensored" then "Signals" else "Box Cox (signals)";
          f_title := if String.eqb model "uncensored" then "Linear regression model" else "Linear regression model for censored data" |}.
(** drawResiduals, lines 662-710: the horizontal line at 0 goes from the smallest to the largest defect (700). *)
Definition drawResiduals (a : analysis) (model : string) : res figure :=
  if String.eqb model "censored" && negb (censored (a_args a)) then Raise NameError
  else
    let defects := map fst (a_obs a) in
    do r <- (if String.eqb model "uncensored" then Ok (r_resid (a_unc a))
             else if String.eqb model "censored" then match a_cens a with None => Raise AttributeError | Some c => Ok (r_resid c) end
             else Raise NameError);
    Ok {| f_xlabel := "Defects"; f_points := combine defects r; f_line := [(Rlmin defects, 0); (Rlmax defects, 0)];
          f_ylabel := "Residuals dispersion"; f_title := if String.eqb model "uncensored" then "Residuals" else "Residuals for censored data" |}.
End Analysis.
Arguments calls : clear implicits. Arguments analysis : clear implicits. Arguments results : clear implicits.
