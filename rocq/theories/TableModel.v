(** Model of the report of UnivariateLinearModelAnalysis: result tables, saved file, printed text, warnings and accessors.
    /repo/otpod/_univariate_linear_model_analysis.py lines 311-602 and 954-1158. *)
From Verif Require Import Base Float64.
From Coq Require Import Ascii String SpecFloat.
Local Open Scope string_scope.
Local Open Scope list_scope.

(** *** Text *)
(** The characters written "\n" and "\t" in the format strings (lines 354, 451). *)
Definition nl : string := String (Ascii.ascii_of_nat 10) "".
(** "\t" (line 451). *)
Definition tab : string := String (Ascii.ascii_of_nat 9) "".
(** n spaces: padding of the format "{:<47} {:>13} {:>13}" (line 355). *)
Fixpoint spaces (n : nat) : string := match n with O => "" | S n' => String " "%char (spaces n') end.
(** "{:<n}" and "{:>n}" of line 355. *)
Definition ljust (n : nat) (s : string) : string := (s ++ spaces (n - String.length s))%string.
(** "{:>n}" of line 355. *)
Definition rjust (n : nat) (s : string) : string := (spaces (n - String.length s) ++ s)%string.
(** "-" * n (line 363). *)
Fixpoint dashes (n : nat) : string := match n with O => "" | S n' => String "-"%char (dashes n') end.

(** *** Results of one regression *)
(** testResults: a Python dict in insertion order. Line 311. *)
Definition dict := list (string * float).
(** dict lookup: KeyError for a missing key (line 522 and others). *)
Fixpoint lookup (k : string) (d : dict) : res float :=
  match d with [] => Raise KeyError | (k', v) :: d' => if String.eqb k k' then Ok v else lookup k d' end.
(** _computeTests, lines 311-340: keys in the order of the code; the values are those of the eight computations (see RegModel.v). *)
Definition computeTests (r2 ad cvm zm kol bp hmc dw : float) : dict :=
  [("R2", r2); ("AndersonDarling", ad); ("CramerVonMises", cvm); ("ZeroMean", zm); ("Kolmogorov", kol); ("BreuschPagan", bp);
   ("HarrisonMcCabe", hmc); ("DurbinWatson", dw)].
(** The attributes of _resultsUnc and _resultsCens read by the report (class at lines 22-35); the distribution is known by its
    printed form and its class name. *)
Record figures := { intercept : float; slope : float; stderr : float; confInt : (float * float) * (float * float);
                    distStr : string; distClass : string; tests : dict }.

(** A table cell holds a text or a number. Lines 495-573. *)
Inductive cell := Txt (s : string) | Num (x : float).
(** A row of a table. Lines 495-573. *)
Definition row := list cell.
(** A table, lines 495-573. *)
Definition table := list row.
(** t[r][c] = v with constant indices (lines 579-602): IndexError outside of the table. *)
Fixpoint set_item {A} (n : nat) (v : A) (l : list A) : res (list A) :=
  match n, l with
  | _, [] => Raise IndexError
  | O, _ :: l' => Ok (v :: l')
  | S n', x :: l' => do l1 <- set_item n' v l'; Ok (x :: l1)
  end.
(** t[r][c] = v. Lines 579-602. *)
Definition set_cell (r c : nat) (v : cell) (t : table) : res table :=
  match nth_error t r with None => Raise IndexError | Some line => do line' <- set_item c v line; set_item r line' t end.
(** list.insert(1, line), line 587. *)
Definition insert_at_1 (line : row) (t : table) : table := match t with [] => [line] | x :: t' => x :: line :: t' end.

Section Report.
(** Python round(x, 2), "{:0.2f}".format(x) and str(x) (external). *)
Variable round2 : float -> float.
Variable fixed2 : float -> string.
Variable show : float -> string.

(** Line 485. *)
Definition interval_str (ci : float * float) : string := ("[" ++ fixed2 (fst ci) ++ ", " ++ fixed2 (snd ci) ++ "]")%string.
(** round(testResults[key], n_digits), lines 522-602. *)
Definition rounded (k : string) (d : dict) : res cell := do v <- lookup k d; Ok (Num (round2 v)).
(** _dataRegression, lines 495-523; [lambda] is None when Box-Cox is not enabled (487-490). *)
Definition regression_table (lambda : option float) (u : figures) : res table :=
  do r2 <- rounded "R2" (tests u);
  Ok [[Txt "Box Cox parameter :"; match lambda with Some l => Num (round2 l) | None => Txt "Not enabled" end; Txt ""];
      [Txt ""; Txt ""; Txt ""];
      [Txt ""; Txt "Uncensored"; Txt ""];
      [Txt ""; Txt ""; Txt ""];
      [Txt "Intercept coefficient :"; Num (round2 (intercept u)); Txt ""];
      [Txt "Slope coefficient :"; Num (round2 (slope u)); Txt ""];
      [Txt "Standard error of the estimate :"; Num (round2 (stderr u)); Txt ""];
      [Txt ""; Txt ""; Txt ""];
      [Txt "Confidence interval on coefficients"; Txt ""; Txt ""];
      [Txt "Intercept coefficient :"; Txt (interval_str (fst (confInt u))); Txt ""];
      [Txt "Slope coefficient :"; Txt (interval_str (snd (confInt u))); Txt ""];
      [Txt "Level :"; Num (of_ratio 95 100); Txt ""];
      [Txt ""; Txt ""; Txt ""];
      [Txt "Quality of regression"; Txt ""; Txt ""];
      [Txt "R2 (> 0.8):"; r2; Txt ""]].
(** _dataResiduals, lines 525-573. *)
Definition residual_table (u : figures) : res table :=
  do kol <- rounded "Kolmogorov" (tests u); do ad <- rounded "AndersonDarling" (tests u); do cvm <- rounded "CramerVonMises" (tests u);
  do zm <- rounded "ZeroMean" (tests u); do bp <- rounded "BreuschPagan" (tests u); do hmc <- rounded "HarrisonMcCabe" (tests u);
  do dw <- rounded "DurbinWatson" (tests u);
  Ok [[Txt "Fitted distribution (uncensored) :"; Txt (distStr u); Txt ""];
      [Txt ""; Txt ""; Txt ""];
      [Txt ""; Txt "Uncensored"; Txt ""];
      [Txt "Distribution fitting test"; Txt ""; Txt ""];
      [Txt "Kolmogorov p-value (> 0.05):"; kol; Txt ""];
      [Txt ""; Txt ""; Txt ""];
      [Txt "Normality test"; Txt ""; Txt ""];
      [Txt "Anderson Darling p-value (> 0.05):"; ad; Txt ""];
      [Txt "Cramer Von Mises p-value (> 0.05):"; cvm; Txt ""];
      [Txt ""; Txt ""; Txt ""];
      [Txt "Zero residual mean test"; Txt ""; Txt ""];
      [Txt "p-value (> 0.05):"; zm; Txt ""];
      [Txt ""; Txt ""; Txt ""];
      [Txt "Homoskedasticity test (constant variance)"; Txt ""; Txt ""];
      [Txt "Breush Pagan p-value (> 0.05):"; bp; Txt ""];
      [Txt "Harrison McCabe p-value (> 0.05):"; hmc; Txt ""];
      [Txt ""; Txt ""; Txt ""];
      [Txt "Non autocorrelation test"; Txt ""; Txt ""];
      [Txt "Durbin Watson p-value (> 0.05):"; dw; Txt ""]].
(** Lines 579-585. *)
Definition regression_censored (c : figures) (t : table) : res table :=
  do t <- set_cell 2 2 (Txt "Censored") t;
  do t <- set_cell 4 2 (Num (round2 (intercept c))) t;
  do t <- set_cell 5 2 (Num (round2 (slope c))) t;
  do t <- set_cell 6 2 (Num (round2 (stderr c))) t;
  do r2 <- rounded "R2" (tests c);
  set_cell 14 2 r2 t.
(** Lines 587-602. *)
Definition residual_censored (c : figures) (t : table) : res table :=
  let t := insert_at_1 [Txt "Fitted distribution (censored) :"; Txt (distStr c); Txt ""] t in
  do t <- set_cell 3 2 (Txt "Censored") t;
  do v <- rounded "Kolmogorov" (tests c); do t <- set_cell 5 2 v t;
  do v <- rounded "AndersonDarling" (tests c); do t <- set_cell 8 2 v t;
  do v <- rounded "CramerVonMises" (tests c); do t <- set_cell 9 2 v t;
  do v <- rounded "ZeroMean" (tests c); do t <- set_cell 12 2 v t;
  do v <- rounded "BreuschPagan" (tests c); do t <- set_cell 15 2 v t;
  do v <- rounded "HarrisonMcCabe" (tests c); do t <- set_cell 16 2 v t;
  do v <- rounded "DurbinWatson" (tests c); set_cell 19 2 v t.
(** _buildPrintResults, lines 477-602; [c] is None without censoring. *)
Definition buildPrintResults (lambda : option float) (u : figures) (c : option figures) : res (table * table) :=
  do reg <- regression_table lambda u; do rs <- residual_table u;
  match c with
  | None => Ok (reg, rs)
  | Some c => do reg <- regression_censored c reg; do rs <- residual_censored c rs; Ok (reg, rs)
  end.

(** *** Warnings, _printWarnings lines 390-432 *)
(** The constant of lines 396 and 398. *)
Definition c005 : float := of_ratio 5 100.
(** (values < 0.05).any(). *)
Definition any_below (d : dict) : bool := existsb (fun kv => fltb (snd kv) c005) d.
(** The three messages of lines 403, 412 and 422. *)
Definition msg_boxcox : string := "Some hypothesis tests failed : you may consider to use the Box Cox transformation.".
(** Message of line 412. *)
Definition msg_other : string :=
  "Some hypothesis tests failed : you may consider to use quantile regression or kriging (if input dimension > 1) to build POD.".
(** Message of line 422. *)
Definition msg_normal : string :=
  "Confidence interval, Normality tests and zero residual mean test are given assuming the residuals follow a Normal distribution.".
(** The list of messages it returns; logging is left out. Lines 390-432. *)
Definition printWarnings (boxCox : bool) (u : figures) (c : option figures) : list string :=
  let failed := any_below (tests u) || match c with Some c => any_below (tests c) | None => false end in
  [if failed && negb boxCox then msg_boxcox else "";
   if failed && boxCox then msg_other else "";
   if String.eqb (distClass u) "Normal" then "" else msg_normal].
(** The lines 377-387 and 465-475: a text made of the messages that are not empty. *)
Definition warning_text (ws : list string) : string :=
  ("Warning : " ++ String.concat (nl ++ "Warning : ") (filter (fun w => negb (Nat.eqb (String.length w) 0)) ws))%string.
(** ws.count("") != len(ws), lines 376 and 464. *)
Definition some_warning (ws : list string) : bool := negb (Nat.eqb (List.length (filter (String.eqb "") ws)) (List.length ws)).

(** *** Saved file, saveResults lines 434-475 *)
(** "{}".format(cell). Line 451. *)
Definition show_cell (c : cell) : string := match c with Txt s => s | Num x => show x end.
(** "{}\t{}\t{}".format( *line ): the three first cells; IndexError when there are less. Lines 451 and 455. *)
Definition tsv (line : row) : res string :=
  match line with
  | a :: b :: c :: _ => Ok (show_cell a ++ tab ++ show_cell b ++ tab ++ show_cell c)%string
  | _ => Raise IndexError
  end.
(** The list comprehension of lines 451 and 455. *)
Fixpoint map_res {A B} (f : A -> res B) (l : list A) : res (list B) :=
  match l with [] => Ok [] | x :: l' => do y <- f x; do ys <- map_res f l'; Ok (y :: ys) end.
(** The content written. Lines 434-475. *)
Definition saveResults (reg rs : table) (ws : list string) : res string :=
  do a <- map_res tsv reg; do b <- map_res tsv rs;
  Ok ("Linear model analysis results" ++ nl ++ nl ++ String.concat nl a ++ nl ++ nl ++ "Residuals analysis results" ++ nl ++ nl ++
      String.concat nl b ++ (if some_warning ws then nl ++ nl ++ warning_text ws else ""))%string.

(** *** Printed text, getResults lines 347-388 *)
(** "{:<47} {:>13} {:>13}".format( *line ). *)
Definition aligned (line : row) : res string :=
  match line with
  | a :: b :: c :: _ => Ok (ljust 47 (show_cell a) ++ " " ++ rjust 13 (show_cell b) ++ " " ++ rjust 13 (show_cell c))%string
  | _ => Raise IndexError
  end.
(** The text returned. Lines 347-388. *)
Definition getResults (reg rs : table) (ws : list string) : res string :=
  do a <- map_res aligned reg; do b <- map_res aligned rs;
  let bar := (dashes 80 ++ nl)%string in
  Ok (bar ++ "         Linear model analysis results" ++ nl ++ bar ++ String.concat nl a ++ nl ++ bar ++ "" ++ nl ++ bar ++
      "         Residuals analysis results" ++ nl ++ bar ++ String.concat nl b ++ nl ++ bar ++ "" ++ nl ++
      (if some_warning ws then warning_text ws else ""))%string.

(** *** Accessors *)
(** _getResultValue, lines 1126-1158: the described values. *)
Definition getResultValue (test description : string) (u : figures) (c : option figures) : res (list (string * float)) :=
  match c with
  | Some c =>
      do a <- lookup test (tests u); do b <- lookup test (tests c);
      Ok [((description ++ " for uncensored case")%string, a); ((description ++ " for censored case")%string, b)]
  | None => do a <- lookup test (tests u); Ok [((description ++ " for uncensored case")%string, a)]
  end.
(** getIntercept, getSlope, getStandardError, lines 954-1024: same shape. *)
Definition getCoefficient (name : string) (field : figures -> float) (u : figures) (c : option figures) : list (string * float) :=
  match c with
  | Some c => [((name ++ " for uncensored case")%string, field u); ((name ++ " for censored case")%string, field c)]
  | None => [((name ++ " for uncensored case")%string, field u)]
  end.
(** Lines 954-976. *)
Definition getIntercept := getCoefficient "Intercept" intercept.
(** Lines 978-1000. *)
Definition getSlope := getCoefficient "Slope" slope.
(** Lines 1002-1024. *)
Definition getStandardError := getCoefficient "Stderr" stderr.
(** The accessors of the figures, lines 1038-1124. *)
Definition getR2 := getResultValue "R2" "R2".
(** Lines 1049-1058. *)
Definition getAndersonDarlingPValue := getResultValue "AndersonDarling" "Anderson Darling p-value".
(** Lines 1060-1069. *)
Definition getCramerVonMisesPValue := getResultValue "CramerVonMises" "Cramer Von Mises p-value".
(** Lines 1071-1080. *)
Definition getKolmogorovPValue := getResultValue "Kolmogorov" "Kolmogorov p-value".
(** Lines 1082-1091. *)
Definition getZeroMeanPValue := getResultValue "ZeroMean" "Zero Mean p-value".
(** Lines 1093-1102. *)
Definition getBreuschPaganPValue := getResultValue "BreuschPagan" "Breusch Pagan p-value".
(** Lines 1104-1113. *)
Definition getHarrisonMcCabePValue := getResultValue "HarrisonMcCabe" "Harrison McCabe p-value".
(** Lines 1115-1124. *)
Definition getDurbinWatsonPValue := getResultValue "DurbinWatson" "Durbin Watson p-value".
End Report.
