(** Model of PODSummary, /repo/otpod/_pod_summary.py: activation of the methods, run, accessors, result tables, saved file and graphs. *)
From Verif Require Import Base Float64 LabelsModel TableModel CtorModel.
From Coq Require Import Ascii String SpecFloat.
Local Open Scope string_scope.
Local Open Scope list_scope.

(** The six methods, in the order of run (lines 134-235). *)
Inductive meth := Gauss | Bin | KS | QR | Chaos | Kriging.
(** Equality of methods (the code has one attribute per method). General Python or numpy semantics, no line of its own. *)
Definition meth_eqb (a b : meth) : bool :=
  match a, b with Gauss, Gauss | Bin, Bin | KS, KS | QR, QR | Chaos, Chaos | Kriging, Kriging => true | _, _ => false end.
(** The keys of _activeMethods, lines 107-114. *)
Definition key_of (m : meth) : string :=
  match m with
  | Gauss => "LinearGauss" | Bin => "LinearBinomial" | KS => "LinearKernelSmoothing" | QR => "QuantileRegression"
  | Chaos => "PolynomialChaos" | Kriging => "Kriging"
  end.
(** A Python value given as a flag: a bool, or anything else, of which only the truth value matters. General Python or numpy semantics, no line of its own. *)
Inductive pyval := PBool (b : bool) | POther (truthy : bool).
(** Truth value (the tests "if self._activeMethods[...]", line 134 and others). *)
Definition truth (v : pyval) : bool := match v with PBool b => b | POther b => b end.
(** The dictionary _activeMethods as a function; None is a missing key. Lines 107-114. *)
Definition flags := string -> option pyval.
(** Lines 107-114. *)
Definition default_flags : flags := fun k =>
  if existsb (fun m => String.eqb k (key_of m)) [Gauss; Bin; KS; QR; Chaos; Kriging] then Some (PBool true) else None.
(** d[k] = v (line 265). *)
Definition assign (k : string) (v : pyval) (d : flags) : flags := fun k' => if String.eqb k' k then Some v else d k'.
(** if self._activeMethods[key] (line 134 and others): KeyError for a missing key. *)
Definition active (d : flags) (m : meth) : res bool := match d (key_of m) with Some v => Ok (truth v) | None => Raise KeyError end.

Section Summary.
(** The POD objects, and the analysis; the calls to them are external to this file. *)
Variable Obj : Type.
(** Number of columns of the input sample (line 94). *)
Variable dim : nat.
(** Constructor and setters of the object of a method at the n-th run (for example lines 137-147) with the sizes given to
    setSimulationSize and setSamplingSize (None when the block does not call the setter), then its run method. *)
Variable build : nat -> meth -> option Z -> option Z -> res Obj.
Variable exec : Obj -> res unit.
(** UnivariateLinearModelAnalysis at the n-th run (lines 122-131). *)
Variable Analysis : Type.
Variable analyse : nat -> res Analysis.

(** The attributes; the objects are None until assigned (lines 100-105), the attribute _analysis does not exist before run;
    [runs] counts the calls of run (ghost). *)
Record state := { acts : flags; sims : Z; samps : Z; objs : meth -> option Obj; analysis : option Analysis; runs : nat }.
(** __init__, lines 70-114 (samples and thresholds are inside of the external calls). *)
Definition init : state := {| acts := default_flags; sims := 1000; samps := 5000; objs := fun _ => None; analysis := None; runs := 0 |}.
(** setMethodActive, lines 249-265. *)
Definition setMethodActive (k : string) (v : pyval) (s : state) : state * res unit :=
  match acts s k with
  | None => (s, Raise NameError)
  | Some _ =>
      match v with
      | POther _ => (s, Raise ValueError)
      | PBool _ => ({| acts := assign k v (acts s); sims := sims s; samps := samps s; objs := objs s; analysis := analysis s; runs := runs s |}, Ok tt)
      end
  end.
(** getMethodActive, lines 237-247, returns the dictionary itself: what a caller does with getMethodActive()[k] = v. *)
Definition writeThroughGetter (k : string) (v : pyval) (s : state) : state :=
  {| acts := assign k v (acts s); sims := sims s; samps := samps s; objs := objs s; analysis := analysis s; runs := runs s |}.
(** setSimulationSize and setSamplingSize, lines 303-312 and 430-440 (no check). *)
Definition setSimulationSize (n : Z) (s : state) : state :=
  {| acts := acts s; sims := n; samps := samps s; objs := objs s; analysis := analysis s; runs := runs s |}.
(** setSamplingSize, lines 430-440. *)
Definition setSamplingSize (n : Z) (s : state) : state :=
  {| acts := acts s; sims := sims s; samps := n; objs := objs s; analysis := analysis s; runs := runs s |}.
(** Which blocks of run call setSimulationSize (lines 147, 184, 200, 216 and 233; not the binomial one, lines 151-166) and
    setSamplingSize (lines 217 and 234). *)
Definition given_simulation (m : meth) (s : state) : option Z := match m with Bin => None | _ => Some (sims s) end.
(** Lines 217 and 234. *)
Definition given_sampling (m : meth) (s : state) : option Z := match m with Chaos | Kriging => Some (samps s) | _ => None end.
(** Replacing one object attribute. E.g. lines 137-147. *)
Definition put (m : meth) (o : Obj) (s : state) : state :=
  {| acts := acts s; sims := sims s; samps := samps s; objs := fun m' => if meth_eqb m' m then Some o else objs s m'; analysis := analysis s; runs := runs s |}.
(** One block of run, e.g. lines 134-147; the kriging block (line 221) tests the dimension first. *)
Definition run_method (n : nat) (m : meth) (s : state) : state * res unit :=
  if match m with Kriging => Nat.leb dim 1 | _ => false end then (s, Ok tt)
  else match active (acts s) m with
       | Raise e => (s, Raise e)
       | Ok false => (s, Ok tt)
       | Ok true =>
           match build n m (given_simulation m s) (given_sampling m s) with
           | Raise e => (s, Raise e)
           | Ok o => match exec o with Ok _ => (put m o s, Ok tt) | Raise e => (put m o s, Raise e) end
           end
       end.
(** The blocks in order; an exception skips the rest. Lines 134-235. *)
Fixpoint run_methods (n : nat) (l : list meth) (s : state) : state * res unit :=
  match l with
  | [] => (s, Ok tt)
  | m :: l' => match run_method n m s with (s', Ok _) => run_methods n l' s' | (s', Raise e) => (s', Raise e) end
  end.
(** run, lines 116-235. *)
Definition run (s : state) : state * res unit :=
  let n := runs s in
  let s1 a := {| acts := acts s; sims := sims s; samps := samps s; objs := objs s; analysis := a; runs := S n |} in
  match analyse n with
  | Raise e => (s1 (analysis s), Raise e)
  | Ok a => run_methods n [Gauss; Bin; KS; QR; Chaos; Kriging] (s1 (Some a))
  end.
(** The six accessors, lines 324-428. *)
Definition getPOD (m : meth) (s : state) : res Obj :=
  do a <- active (acts s) m;
  if negb a then Raise GenericException
  else if match m with Kriging => Nat.eqb dim 1 | _ => false end then Raise GenericException
  else match objs s m with None => Raise GenericException | Some o => Ok o end.
(** Calls of a history. No line of its own: the calls of a client. *)
Inductive op := SetActive (k : string) (v : pyval) | Run | SetSim (n : Z) | SetSamp (n : Z) | WriteFlag (k : string) (v : pyval).
(** One call. No line of its own: the calls of a client. *)
Definition step (s : state) (o : op) : state :=
  match o with SetActive k v => fst (setMethodActive k v s) | Run => fst (run s) | SetSim n => setSimulationSize n s | SetSamp n => setSamplingSize n s
  | WriteFlag k v => writeThroughGetter k v s end.
(** A history, oldest call first. No line of its own: the calls of a client. *)
Definition history (l : list op) : state := fold_left step l init.

(** *** Result tables, _buildPrintResults lines 557-737 *)
(** What the report reads in the analysis and in the objects (external): getR2() of the analysis (two values when censored), getR2 and
    getQ2 of the objects (getR2 of the quantile regression takes a level) and computeDetectionSize. *)
Variable analysisR2 : Analysis -> list float.
Variable objR2 : Obj -> option float -> res float.
Variable objQ2 : Obj -> res float.
Variable detect : Obj -> float -> float -> res (list float).
(** round(x, 2) and str(round(p, 2)) (external). *)
Variable round2 : float -> float.
Variable show : float -> string.
Variable censored : bool.

(** l[i] of a Point. General Python or numpy semantics, no line of its own. *)
Definition item (l : list float) (i : nat) : res float := match nth_error l i with Some x => Ok x | None => Raise IndexError end.
(** obj.f(): AttributeError when the attribute is still None. General Python or numpy semantics, no line of its own. *)
Definition on (o : option Obj) {A} (f : Obj -> res A) : res A := match o with Some x => f x | None => Raise AttributeError end.
(** The try blocks, e.g. lines 597-613: [-1, -1] replaces the sizes when anything is raised; then both are rounded. *)
Definition size_row (label : string) (p g : float) (o : option Obj) : res row :=
  match on o (fun x => detect x p g) with
  | Ok l => do a <- item l 0; do b <- item l 1; Ok [Txt label; Num (round2 a); Num (round2 b)]
  | Raise _ => Ok [Txt label; Txt "-1"; Txt "-1"]
  end.
(** The labels of the rows (lines 609, 628, 647, 679, 707 and 733). *)
Definition label_of (m : meth) : string :=
  match m with
  | Gauss => "Gaussian residuals :" | Bin => "No residuals hypothesis :" | KS => "Kernel smoothing on residuals :"
  | QR => "Quantile Regression :" | Chaos => "Polynomial chaos :" | Kriging => "Kriging :"
  end.
(** A block "if active: append". E.g. lines 597-613. *)
Definition when (b : bool) (r : res row) : res table := if b then do x <- r; Ok [x] else Ok [].
(** Header of the table, lines 569-577. *)
Definition header (p g : float) : res row :=
  do a <- percent p; do b <- percent p; do c <- percent g; Ok [Txt ""; Txt ("a" ++ dec a)%string; Txt ("a" ++ dec b ++ "/" ++ dec c)%string].
(** The attribute _analysis. Line 124. *)
Definition the_analysis (s : state) : res Analysis := match analysis s with Some a => Ok a | None => Raise AttributeError end.
(** The validation and POD tables. Lines 557-737. *)
Definition buildPrintResults (p g : float) (s : state) : res (table * table) :=
  do h <- header p g;
  do fg <- active (acts s) Gauss; do fb <- (if fg then Ok false else active (acts s) Bin);
  do fk <- (if fg || fb then Ok false else active (acts s) KS);
  do (v1, t1) <-
    (if fg || fb || fk then
       do a <- the_analysis s;
       do r2 <- item (analysisR2 a) 0;
       do c <- (if censored then do x <- item (analysisR2 a) 1; Ok (Num (round2 x)) else Ok (Txt ""));
       do ag <- active (acts s) Gauss; do rg <- when ag (size_row (label_of Gauss) p g (objs s Gauss));
       do ab <- active (acts s) Bin; do rb <- when ab (size_row (label_of Bin) p g (objs s Bin));
       do ak <- active (acts s) KS; do rk <- when ak (size_row (label_of KS) p g (objs s KS));
       Ok ([[Txt "Linear Regression (> 0.8):"; Num (round2 r2); Txt ""; c]],
           [[Txt "Linear Regression"; Txt ""; Txt ""]] ++ rg ++ rb ++ rk ++ [[Txt ""; Txt ""; Txt ""]])
     else Ok ([], []));
  do aq <- active (acts s) QR;
  do (v2, t2) <-
    (if aq then
       do r <- on (objs s QR) (fun x => objR2 x (Some p));
       do t <- size_row (label_of QR) p g (objs s QR);
       Ok ([[Txt ("Quantile Regression at level " ++ show p ++ " (> 0.6):")%string; Num (round2 r); Txt ""; Txt ""]], [t])
     else Ok ([], []));
  do ac <- active (acts s) Chaos;
  do (v3, t3) <-
    (if ac then
       do r <- on (objs s Chaos) (fun x => objR2 x None);
       do q <- on (objs s Chaos) objQ2;
       do t <- size_row (label_of Chaos) p g (objs s Chaos);
       Ok ([[Txt "Polynomial Chaos (> 0.8):"; Num (round2 r); Num (round2 q); Txt ""]], [t])
     else Ok ([], []));
  do (v4, t4) <-
    (if Nat.leb dim 1 then Ok ([], [])
     else
       do akr <- active (acts s) Kriging;
       if akr then
         do q <- on (objs s Kriging) objQ2;
         do t <- size_row (label_of Kriging) p g (objs s Kriging);
         Ok ([[Txt "Kriging (> 0.8):"; Txt ""; Num (round2 q); Txt ""]], [t])
       else Ok ([], []));
  Ok ([[Txt ""; Txt ""; Txt "Uncensored"; Txt "Censored"]; [Txt ""; Txt ""; Txt ""; Txt ""]; [Txt ""; Txt "R2"; Txt "Q2"; Txt "R2"]; [Txt ""; Txt ""; Txt ""; Txt ""]]
        ++ v1 ++ v2 ++ v3 ++ v4, h :: t1 ++ t2 ++ t3 ++ t4).

(** *** Saved file, saveResults lines 504-555 *)
(** "{}\t{}\t{}\t{}".format( *line ), line 542. *)
Definition tsv4 (line : row) : res string :=
  match line with
  | a :: b :: c :: d :: _ => Ok (show_cell show a ++ tab ++ show_cell show b ++ tab ++ show_cell show c ++ tab ++ show_cell show d)%string
  | _ => Raise IndexError
  end.
(** The content written; [reg], [rs] are the tables of the analysis (_dataRegression, _dataResiduals). Lines 504-555. *)
Definition saveResults (reg rs valid pods : table) : res string :=
  do a <- map_res (tsv show) reg; do b <- map_res (tsv show) rs; do c <- map_res tsv4 valid; do d <- map_res (tsv show) pods;
  Ok ("Linear model analysis results" ++ nl ++ nl ++ String.concat nl a ++ nl ++ nl ++ "Residuals analysis results" ++ nl ++ nl ++
      String.concat nl b ++ "Model validation results" ++ nl ++ nl ++ String.concat nl c ++ nl ++ nl ++ "POD results" ++ nl ++ nl ++ String.concat nl d)%string.

(** *** Graphs, drawGraphs lines 739-908 *)
(** A figure is known by the name of its file without directory and extension.  External calls: the graphs of the analysis, drawPOD of
    an object with the optional levels, drawLinearModel of the quantile regression at a level and drawValidationGraph. *)
Variable drawAnalysis : Analysis -> string -> res unit.
Variable drawPOD : Obj -> option float -> option float -> res unit.
Variable drawLinearModel : Obj -> float -> res unit.
Variable drawValidationGraph : Obj -> res unit.
(** The argument boxCox, kept as given (line 85). *)
Variable box : boxarg.
(** if self._boxCox, line 768: a float is true when it is not 0 (nan is true). *)
Definition box_truth (b : boxarg) : bool := match b with BFloat x => negb (SFeqb x fzero) | BTruth t => t end.
(** UnivariateLinearModelAnalysis.drawBoxCoxLikelihood, _univariate_linear_model_analysis.py 828-862, for the analysis built with the
    same argument (line 130): _graphBoxCox is only assigned when no float is given (its line 221, the flag of lines 150-155). *)
Definition drawBoxCoxLikelihood (a : Analysis) : res unit :=
  if negb (box_flag box) then Raise GenericException
  else match box_lambda box with Some _ => Raise AttributeError | None => drawAnalysis a "BoxCox_likelihood" end.
(** f, ax = draw(...); fig.append(f). Lines 770-800. *)
Definition fig (name : string) (r : res unit) : res (list string) := do _ <- r; Ok [name].
(** The same in a try block (e.g. lines 818-829): nothing is appended when anything is raised. *)
Definition try_fig (name : string) (r : res unit) : res (list string) := match r with Ok _ => Ok [name] | Raise _ => Ok [] end.
(** QuantileRegressionPOD.drawLinearModel(probabilityLevel), _quantile_regression_pod.py 402-443: 1.0 - None is a TypeError (an object
    without _algoQuantReg would raise AttributeError instead; not distinguished for None). *)
Definition drawQuantileModel (o : Obj) (p : option float) : res unit := match p with None => Raise TypeError | Some p => drawLinearModel o p end.
(** A block "if active: ..." returning figures. Lines 815-905. *)
Definition figs_when (a : res bool) (r : res (list string)) : res (list string) := do b <- a; if b then r else Ok [].
(** drawGraphs, lines 739-908. *)
Definition drawGraphs (p g : option float) (s : state) : res (list string) :=
  do f0 <- (if box_truth box then do a <- the_analysis s; fig "BoxCox_likelihood" (drawBoxCoxLikelihood a) else Ok []);
  do a <- the_analysis s;
  do f1 <- fig "Linear_model" (drawAnalysis a "Linear_model");
  do f2 <- fig "Residuals" (drawAnalysis a "Residuals");
  do f3 <- fig "Residuals_distribution" (drawAnalysis a "Residuals_distribution");
  do f4 <- fig "Residuals_QQ_plot" (drawAnalysis a "Residuals_QQ_plot");
  do fc <- (if censored then
              do c1 <- fig "Linear_model_censored" (drawAnalysis a "Linear_model_censored");
              do c2 <- fig "Residuals_censored" (drawAnalysis a "Residuals_censored");
              do c3 <- fig "Residuals_distribution_censored" (drawAnalysis a "Residuals_distribution_censored");
              do c4 <- fig "Residuals_QQ_plot_censored" (drawAnalysis a "Residuals_QQ_plot_censored");
              Ok (c1 ++ c2 ++ c3 ++ c4)
            else Ok []);
  do p1 <- figs_when (active (acts s) Gauss) (try_fig "POD_Gauss" (on (objs s Gauss) (fun o => drawPOD o p g)));
  do p2 <- figs_when (active (acts s) Bin) (try_fig "POD_Binomial" (on (objs s Bin) (fun o => drawPOD o p g)));
  do p3 <- figs_when (active (acts s) KS) (try_fig "POD_Kernel_Smoothing" (on (objs s KS) (fun o => drawPOD o p g)));
  do p4 <- figs_when (active (acts s) QR)
       (do x <- try_fig "POD_Quantile_Regression" (on (objs s QR) (fun o => drawPOD o p g));
        do y <- fig "Quantile_regression_model" (on (objs s QR) (fun o => drawQuantileModel o p)); Ok (x ++ y));
  do p5 <- figs_when (active (acts s) Chaos)
       (do x <- try_fig "POD_Polynomial_chaos" (on (objs s Chaos) (fun o => drawPOD o p g));
        do y <- fig "Validation_graph_Polynomial_chaos" (on (objs s Chaos) drawValidationGraph); Ok (x ++ y));
  do p6 <- (if Nat.leb dim 1 then Ok []
            else figs_when (active (acts s) Kriging)
                   (do x <- try_fig "POD_Kriging" (on (objs s Kriging) (fun o => drawPOD o p g));
                    do y <- fig "Validation_graph_Kriging" (on (objs s Kriging) drawValidationGraph); Ok (x ++ y)));
  Ok (f0 ++ f1 ++ f2 ++ f3 ++ f4 ++ fc ++ p1 ++ p2 ++ p3 ++ p4 ++ p5 ++ p6).
End Summary.
