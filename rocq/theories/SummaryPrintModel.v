(** Model of the text returned by PODSummary.getResults, /repo/otpod/_pod_summary.py lines 442-502. *)
From Verif Require Import Base Float64 LabelsModel TableModel SummaryModel.
From Coq Require Import Ascii String SpecFloat.
Local Open Scope string_scope.
Local Open Scope list_scope.

Section Text.
Variable Obj : Type.
Variable dim : nat.
Variable Analysis : Type.
Variable analysisR2 : Analysis -> list float.
Variable objR2 : Obj -> option float -> res float.
Variable objQ2 : Obj -> res float.
Variable detect : Obj -> float -> float -> res (list float).
Variable round2 : float -> float.
Variable show : float -> string.
Variable censored : bool.

(** "{:<42} {:>10} {:>10} {:>10}".format( *line ), lines 465-470. *)
Definition aligned4 (line : row) : res string :=
  match line with
  | a :: b :: c :: d :: _ =>
      Ok (ljust 42 (show_cell show a) ++ " " ++ rjust 10 (show_cell show b) ++ " " ++ rjust 10 (show_cell show c) ++ " " ++ rjust 10 (show_cell show d))%string
  | _ => Raise IndexError
  end.
(** Lines 491-500, the message added for censored data; logging is left out. *)
Definition filtered_warning (d : flags) : res string :=
  do q <- active d QR; do c <- active d Chaos;
  do k <- (if Nat.ltb 1 dim then active d Kriging else Ok false);
  Ok ("Warning : For " ++ (if q then "quantile regression, " else "") ++ (if c then "polynomial chaos, " else "") ++ (if k then "kriging, " else "") ++
      "results are given for filtered data.")%string.
(** Lines 463-502: the text returned.  The report of the analysis, printed at line 476, is left out (see getResults of TableModel), but its
    AttributeError before run is kept. *)
Definition getResults (p g : float) (s : state Obj Analysis) : res string :=
  do (valid, pods) <- SummaryModel.buildPrintResults Obj dim Analysis analysisR2 objR2 objQ2 detect round2 show censored p g s;
  do v <- map_res aligned4 valid; do q <- map_res (aligned show) pods;
  do _ <- the_analysis Obj Analysis s;
  do w <- (if censored then filtered_warning (acts Obj Analysis s) else Ok "");
  let bar := (dashes 80 ++ nl)%string in
  Ok ("" ++ nl ++ bar ++ "         Model validation results" ++ nl ++ bar ++ String.concat nl v ++ nl ++ bar ++ "" ++ nl ++ bar ++
      "         POD results" ++ nl ++ bar ++ String.concat nl q ++ nl ++ bar ++ "" ++ nl ++ w)%string.
End Text.
