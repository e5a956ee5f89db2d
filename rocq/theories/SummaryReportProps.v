(** C58, C69, C70: report, saved file and graphs of PODSummary. *)
From Verif Require Import Base Float64 LabelsModel TableModel TableProps CtorModel SummaryModel SummaryProps.
From Coq Require Import Ascii String SpecFloat.
Local Open Scope string_scope.
Local Open Scope list_scope.

Section Report.
Variable Obj : Type.
Variable dim : nat.
Variable build : nat -> meth -> option Z -> option Z -> res Obj.
Variable exec : Obj -> res unit.
Variable Analysis : Type.
Variable analyse : nat -> res Analysis.
Variable analysisR2 : Analysis -> list float.
Variable objR2 : Obj -> option float -> res float.
Variable objQ2 : Obj -> res float.
Variable detect : Obj -> float -> float -> res (list float).
Variable round2 : float -> float.
Variable show : float -> string.
Variable censored : bool.
Notation history := (history Obj dim build exec Analysis analyse).
Notation latest := (latest Obj dim build exec Analysis analyse).
Notation wanted := (wanted dim).
Notation report := (SummaryModel.buildPrintResults Obj dim Analysis analysisR2 objR2 objQ2 detect round2 show censored).
(** The calls made so far, newest first. *)
Variable l : list op.
Hypothesis Hl : Forall documented l.
Notation past := (rev l).
Variables p g : float.
(** What a reader finds in the table for a method: its detection sizes, or -1 when they cannot be had. *)
Definition sizes (m : meth) : row :=
  match latest m past with
  | Some o => match detect o p g with Ok (a :: b :: _) => [Num (round2 a); Num (round2 b)] | _ => [Txt "-1"; Txt "-1"] end
  | None => [Txt "-1"; Txt "-1"]
  end.
Definition line (m : meth) : row := Txt (label m) :: sizes m.
Definition linear : list meth := [Gauss; Bin; KS].
Definition others : list meth := [QR; Chaos; Kriging].
(** computeDetectionSize returns two sizes or raises. *)
Hypothesis Hdetect : forall o x, detect o p g = Ok x -> exists a b, x = [a; b].

(** Quality figures of a method: R2 and Q2 cells; R2 of the quantile regression is asked at the level p. *)
Definition quality (m : meth) : res row :=
  match latest m past with
  | None => Raise AttributeError
  | Some o =>
      match m with
      | QR => do r <- objR2 o (Some p); Ok [Txt ("Quantile Regression at level " ++ show p ++ " (> 0.6):")%string; Num (round2 r); Txt ""; Txt ""]
      | Chaos => do r <- objR2 o None; do q <- objQ2 o; Ok [Txt "Polynomial Chaos (> 0.8):"; Num (round2 r); Num (round2 q); Txt ""]
      | _ => do q <- objQ2 o; Ok [Txt "Kriging (> 0.8):"; Txt ""; Num (round2 q); Txt ""]
      end
  end.
Lemma size_row_spec m : SummaryModel.size_row Obj detect round2 (label_of m) p g (latest m past) = Ok (line m).
Proof.
  unfold SummaryModel.size_row, line, sizes, on. replace (label_of m) with (label m) by now destruct m. destruct (latest m past) as [o|]; [|reflexivity].
  destruct (detect o p g) as [x|] eqn:E; [|reflexivity]. destruct (Hdetect _ _ E) as (a & b & ->). reflexivity.
Qed.
Lemma objs_latest m : objs Obj Analysis (history l) m = latest m past.
Proof. now apply (history_spec Obj dim build exec Analysis analyse l Hl). Qed.
Lemma active_flag m : active (acts Obj Analysis (history l)) m = Ok (flag m past).
Proof. apply agrees_active. now apply (history_spec Obj dim build exec Analysis analyse l Hl). Qed.
Lemma wanted_plain m : m <> Kriging -> flag m past = wanted past m.
Proof. intros H. unfold SummaryProps.wanted. destruct m; try now rewrite andb_true_r. congruence. Qed.
Lemma wanted_kriging : wanted past Kriging = negb (Nat.leb dim 1) && flag Kriging past.
Proof. unfold SummaryProps.wanted. now rewrite Nat.ltb_antisym, andb_comm. Qed.

Variables P G : Z.
Hypothesis HP : percent p = Ok P.
Hypothesis HG : percent g = Ok G.
Variable a : Analysis.
Hypothesis Ha : analysis Obj Analysis (history l) = Some a.
Variables ru rc : float.
Hypothesis Hr2 : analysisR2 a = if censored then [ru; rc] else [ru].
(** Validation row of the linear regression. *)
Definition linear_quality : row := [Txt "Linear Regression (> 0.8):"; Num (round2 ru); Txt ""; if censored then Num (round2 rc) else Txt ""].

(** One block of the report. *)
Definition blk (m : meth) : res (table * table) := if wanted past m then do r <- quality m; Ok ([r], [line m]) else Ok ([], []).
Lemma block_QR :
  (if flag QR past then
     do r <- on Obj (latest QR past) (fun x => objR2 x (Some p));
     do t <- Ok (line QR);
     Ok ([[Txt ("Quantile Regression at level " ++ show p ++ " (> 0.6):")%string; Num (round2 r); Txt ""; Txt ""]], [t])
   else Ok ([], [])) = blk QR.
Proof. unfold blk. rewrite (wanted_plain QR) by discriminate. unfold quality, on. destruct (wanted past QR), (latest QR past) as [o|]; try reflexivity. cbn [bind]. now destruct (objR2 o _). Qed.
Lemma block_Chaos :
  (if flag Chaos past then
     do r <- on Obj (latest Chaos past) (fun x => objR2 x None);
     do q <- on Obj (latest Chaos past) objQ2;
     do t <- Ok (line Chaos);
     Ok ([[Txt "Polynomial Chaos (> 0.8):"; Num (round2 r); Num (round2 q); Txt ""]], [t])
   else Ok ([], [])) = blk Chaos.
Proof.
  unfold blk. rewrite (wanted_plain Chaos) by discriminate. unfold quality, on. destruct (wanted past Chaos), (latest Chaos past) as [o|]; try reflexivity.
  cbn [bind]. destruct (objR2 o _); [|reflexivity]. cbn [bind]. now destruct (objQ2 o).
Qed.
Lemma block_Kriging :
  (if Nat.leb dim 1 then Ok ([], [])
   else
     do akr <- Ok (flag Kriging past);
     if akr then
       do q <- on Obj (latest Kriging past) objQ2;
       do t <- Ok (line Kriging);
       Ok ([[Txt "Kriging (> 0.8):"; Txt ""; Num (round2 q); Txt ""]], [t])
     else Ok ([], [])) = blk Kriging.
Proof.
  unfold blk. rewrite wanted_kriging. destruct (Nat.leb dim 1); [reflexivity|]. cbn [bind negb andb]. unfold quality, on.
  destruct (flag Kriging past), (latest Kriging past) as [o|]; try reflexivity. cbn [bind]. now destruct (objQ2 o).
Qed.
Lemma linear_rows :
  (do rg <- when (flag Gauss past) (Ok (line Gauss)); do ab <- Ok (flag Bin past); do rb <- when ab (Ok (line Bin));
   do ak <- Ok (flag KS past); do rk <- when ak (Ok (line KS)); Ok (rg ++ rb ++ rk)) = Ok (map line (filter (wanted past) linear)).
Proof.
  unfold linear. cbn [filter]. rewrite <- !wanted_plain by discriminate.
  destruct (flag Gauss past), (flag Bin past), (flag KS past); reflexivity.
Qed.

(** *** C58 *)
(** The whole report, whatever is active and whatever fails: the detection size table has the title row, then, when a linear method is
    active, its block, then the others; each active and applicable method has its row and no other method changes it.  The report
    fails only with the quality figures of the quantile regression, chaos or kriging. *)
Theorem C58_report :
  report p g (history l) =
  do vs <- map_res quality (filter (wanted past) others);
  Ok ([[Txt ""; Txt ""; Txt "Uncensored"; Txt "Censored"]; [Txt ""; Txt ""; Txt ""; Txt ""]; [Txt ""; Txt "R2"; Txt "Q2"; Txt "R2"]; [Txt ""; Txt ""; Txt ""; Txt ""]]
        ++ (if existsb (wanted past) linear then [linear_quality] else []) ++ vs,
      [Txt ""; Txt ("a" ++ dec P)%string; Txt ("a" ++ dec P ++ "/" ++ dec G)%string]
        :: (if existsb (wanted past) linear
            then [[Txt "Linear Regression"; Txt ""; Txt ""]] ++ map line (filter (wanted past) linear) ++ [[Txt ""; Txt ""; Txt ""]] else [])
        ++ map line (filter (wanted past) others)).
Proof.
  assert (EI : item (analysisR2 a) 0 = Ok ru) by (rewrite Hr2; now destruct censored).
  assert (EC : (if censored then do x <- item (analysisR2 a) 1; Ok (Num (round2 x)) else Ok (Txt "")) = Ok (if censored then Num (round2 rc) else Txt "")).
  { rewrite Hr2. now destruct censored. }
  unfold SummaryModel.buildPrintResults, header, the_analysis. rewrite HP, HG, Ha.
  rewrite !active_flag, !objs_latest, !size_row_spec, block_Kriging. cbn [bind]. rewrite EI. cbn [bind]. rewrite EC. cbn [bind].
  assert (EO : forall (C A B : table) h,
    (do (v2, t2) <- (if flag QR past then do r <- on Obj (latest QR past) (fun x => objR2 x (Some p)); 
     Ok ([[Txt ("Quantile Regression at level " ++ show p ++ " (> 0.6):")%string; Num (round2 r); Txt ""; Txt ""]], [line QR]) else Ok ([], []));
     do (v3, t3) <- (if flag Chaos past then
     do r <- on Obj (latest Chaos past) (fun x => objR2 x None); do q <- on Obj (latest Chaos past) objQ2; 
     Ok ([[Txt "Polynomial Chaos (> 0.8):"; Num (round2 r); Num (round2 q); Txt ""]], [line Chaos]) else Ok ([], []));
     do (v4, t4) <- blk Kriging; Ok (C ++ A ++ v2 ++ v3 ++ v4, h :: B ++ t2 ++ t3 ++ t4)) =
    (do vs <- map_res quality (filter (wanted past) others); Ok (C ++ A ++ vs, h :: B ++ map line (filter (wanted past) others)))).
  { intros C A B h. pose proof block_QR as E1. pose proof block_Chaos as E2. cbn [bind] in E1, E2. rewrite E1, E2. unfold blk, others. cbn [filter].
    destruct (wanted past QR), (wanted past Chaos), (wanted past Kriging); cbn [map_res]; try reflexivity;
      repeat (match goal with |- context [quality ?m] => destruct (quality m) end; cbn [bind map app]; try reflexivity). }
  pose proof linear_rows as ER.
  assert (HE : existsb (wanted past) linear = flag Gauss past || (flag Bin past || (flag KS past || false))).
  { unfold linear. cbn [existsb]. now rewrite <- !wanted_plain by discriminate. }
  rewrite HE. clear HE. unfold linear_quality. generalize dependent (map line (filter (wanted past) linear)). intros X ER.
  destruct (flag Gauss past), (flag Bin past), (flag KS past); cbn [bind when orb] in ER |- *; injection ER as <-; apply EO.
Qed.
(** A method that failed to reach the level, or that was activated after the run, leaves the other rows as they are: the rows are a
    function of the detection sizes of their own method. *)
Theorem C58_rows : forall valid pods, report p g (history l) = Ok (valid, pods) -> forall m,
  filter (is_label (label m)) pods = if wanted past m then [line m] else [].
Proof.
  intros valid pods. rewrite C58_report. destruct (map_res _ _); [|discriminate]. cbn [bind].
  assert (INJ : forall (x y v u : table), Ok (v, x) = Ok (u, y) -> y = x) by congruence. intros H m. apply INJ in H. subst pods. clear INJ.
  assert (F : forall x, is_label (label m) (line x) = same x m) by (intros x; destruct m, x; reflexivity).
  assert (FM : forall xs, NoDup xs -> filter (is_label (label m)) (map line (filter (wanted past) xs)) = if existsb (same m) xs && wanted past m then [line m] else []).
  { induction xs as [|x xs IH]; intros HN; [reflexivity|]. inversion HN as [|? ? Hx HN']; subst. cbn [filter existsb].
    assert (Hs : same m x = same x m) by (destruct m, x; reflexivity). rewrite Hs.
    assert (Hz : same x m = true -> existsb (same m) xs = false).
    { intros E. apply same_spec in E. subst x. destruct (existsb (same m) xs) eqn:X; [|reflexivity]. apply existsb_exists in X.
      destruct X as (y & Hy & E). apply same_spec in E. now subst. }
    destruct (wanted past x) eqn:W; cbn [map filter]; rewrite ?F, IH by assumption.
    - destruct (same x m) eqn:E; cbn [orb andb]; [|reflexivity]. rewrite Hz by reflexivity. apply same_spec in E. subst. now rewrite W.
    - destruct (same x m) eqn:E; cbn [orb andb]; [|reflexivity]. rewrite Hz by reflexivity. apply same_spec in E. subst. now rewrite W. }
  assert (N1 : NoDup linear) by (repeat constructor; cbn; intuition discriminate).
  assert (N2 : NoDup others) by (repeat constructor; cbn; intuition discriminate).
  replace (filter (is_label (label m)) _) with
    (filter (is_label (label m)) (map line (filter (wanted past) linear)) ++ filter (is_label (label m)) (map line (filter (wanted past) others))).
  - rewrite !FM by assumption. destruct m; cbn [existsb linear others same andb orb]; cbn; rewrite ?app_nil_r; reflexivity.
  - assert (K1 : forall x y, is_label (label m) [Txt ""; x; y] = false) by (intros; now destruct m).
    assert (K2 : forall x y, is_label (label m) [Txt "Linear Regression"; x; y] = false) by (intros; now destruct m).
    generalize dependent (is_label (label m)). intros f _ _ K1 K2. cbn [filter]. rewrite K1, filter_app. f_equal.
    destruct (existsb (wanted past) linear) eqn:E.
    + cbn [filter app]. rewrite K2, filter_app. cbn [filter]. now rewrite K1, app_nil_r.
    + unfold linear in E |- *. cbn [existsb filter] in E |- *. destruct (wanted past Gauss), (wanted past Bin), (wanted past KS); try discriminate. reflexivity.
Qed.
(** Finding: a method other than the linear ones without an object (activated after the run) or whose quality figure cannot be computed
    makes the whole report fail. *)
Theorem C58_report_fails : is_ok (report p g (history l)) = false <-> exists m, In m others /\ wanted past m = true /\ is_ok (quality m) = false.
Proof.
  assert (GM : forall xs, is_ok (map_res quality xs) = false <-> exists m, In m xs /\ is_ok (quality m) = false).
  { induction xs as [|x xs IH]; cbn; [split; [discriminate|intros (m & [] & _)]|]. destruct (quality x) as [r|e] eqn:E; cbn [bind].
    - destruct (map_res quality xs) as [rs|e]; cbn in IH |- *.
      + split; [discriminate|]. intros (m & [->|Hm] & Q); [rewrite E in Q; discriminate|]. apply IH. eauto.
      + split; [|reflexivity]. intros _. destruct IH as [IH _]. destruct (IH eq_refl) as (m & Hm & Q). eauto.
    - cbn. split; [|reflexivity]. intros _. exists x. rewrite E. auto. }
  rewrite C58_report. destruct (map_res quality _) eqn:E.
  - split; [discriminate|]. intros (m & Hm & W & Q). assert (X : is_ok (map_res quality (filter (wanted past) others)) = false).
    { apply GM. exists m. split; [now apply filter_In|assumption]. } rewrite E in X. discriminate.
  - split; [|reflexivity]. intros _. assert (X : is_ok (map_res quality (filter (wanted past) others)) = false) by now rewrite E.
    apply GM in X. destruct X as (m & Hm & Q). apply filter_In in Hm. exists m. tauto.
Qed.
(** Activation after the run, in particular. *)
Theorem C58_late_activation : forall m, wanted past m = true -> latest m past = None ->
  (In m others -> is_ok (report p g (history l)) = false) /\
  (In m linear -> forall valid pods, report p g (history l) = Ok (valid, pods) -> In [Txt (label m); Txt "-1"; Txt "-1"] pods).
Proof.
  intros m W L. split.
  - intros Hm. apply C58_report_fails. exists m. repeat split; try assumption. unfold quality. now rewrite L.
  - intros Hm valid pods H. assert (X := C58_rows _ _ H m). rewrite W in X.
    assert (Y : In (line m) (filter (is_label (label m)) pods)) by (rewrite X; now left). apply filter_In in Y. destruct Y as [Y _].
    unfold line, sizes in Y. now rewrite L in Y.
Qed.
End Report.

(** *** C69: the saved file *)
Section Saved.
Variable show : float -> string.
Definition wide (n : nat) (t : table) : Prop := forall r, In r t -> List.length r = n.
Definition title : string := "Model validation results".
(** The lines of the file.  The title of the third table is written at the end of the last line of the second one. *)
Definition summary_lines (a b : list string) (last : string) (c d : list string) : list string :=
  ["Linear model analysis results"; ""] ++ a ++ [""; "Residuals analysis results"; ""] ++ b ++ [(last ++ title)%string; ""] ++ c ++
  [""; "POD results"; ""] ++ d.
Lemma split_last sep : forall xs x y, (forall s, In s xs -> has sep s = false) -> has sep x = false -> has sep y = false ->
  split sep (String.concat (String sep "") (xs ++ [x]) ++ y)%string = xs ++ [(x ++ y)%string].
Proof.
  induction xs as [|z xs IH]; intros x y Hxs Hx Hy.
  - cbn. apply split_none. now rewrite has_app, Hx, Hy.
  - assert (E : String.concat (String sep "") ((z :: xs) ++ [x]) = (z ++ String sep (String.concat (String sep "") (xs ++ [x])))%string) by (destruct xs; reflexivity).
    rewrite E, string_app_assoc. cbn [append]. rewrite split_app by (apply Hxs; now left). cbn [app]. f_equal. apply IH; try assumption.
    intros s Hs. apply Hxs. now right.
Qed.
Theorem C69_saved_file :
  forall reg rs r valid pods, reg <> [] -> valid <> [] -> pods <> [] -> wide 3 reg -> wide 3 (rs ++ [r]) -> wide 4 valid -> wide 3 pods ->
  clean show reg -> clean show (rs ++ [r]) -> clean show valid -> clean show pods ->
  exists text a b last c d, SummaryModel.saveResults show reg (rs ++ [r]) valid pods = Ok text /\
  split newline text = summary_lines a b last c d /\
  map (split tabulation) a = map (map (show_cell show)) reg /\ map (split tabulation) b = map (map (show_cell show)) rs /\
  split tabulation last = map (show_cell show) r /\
  map (split tabulation) c = map (map (show_cell show)) valid /\ map (split tabulation) d = map (map (show_cell show)) pods /\
  (* finding: the title is not a line of the file, it ends the last cell of the table above *)
  ~ In title (split newline text) /\
  split tabulation (last ++ title) = map (show_cell show) (removelast r) ++ [(show_cell show (List.last r (Txt "")) ++ title)%string].
Proof.
  intros reg rs r valid pods Nreg Nv Np Wreg Wrs Wv Wp Creg Crs Cv Cp.
  set (line := fun r : row => String.concat tab (map (show_cell show) r)).
  assert (T3 : forall r, List.length r = 3 -> tsv show r = Ok (line r)).
  { intros [|x [|y [|z [|]]]] E; try discriminate. reflexivity. }
  assert (T4 : forall r, List.length r = 4 -> tsv4 show r = Ok (line r)).
  { intros [|x [|y [|z [|w [|]]]]] E; try discriminate. reflexivity. }
  assert (SL : forall n t r, wide (S n) t -> clean show t -> In r t -> split tabulation (line r) = map (show_cell show) r).
  { intros n t q Wt Ct Hq. unfold line. apply split_concat.
    - intros E. apply map_eq_nil in E. assert (X := Wt q Hq). rewrite E in X. discriminate.
    - intros s Hs. apply in_map_iff in Hs. destruct Hs as (x & <- & Hx). now apply (Ct q x). }
  assert (SP : forall n t, wide (S n) t -> clean show t -> map (split tabulation) (map line t) = map (map (show_cell show)) t).
  { intros n t Wt Ct. rewrite map_map. apply map_ext_in. intros q Hq. now apply (SL n t). }
  assert (HC : forall sep xs, has sep tab = false -> (forall s, In s xs -> has sep s = false) -> has sep (String.concat tab xs) = false).
  { intros sep xs Hs. induction xs as [|x xs IH]; intros H; [reflexivity|]. destruct xs as [|y xs]; [apply H; now left|].
    change (String.concat tab (x :: y :: xs)) with (x ++ tab ++ String.concat tab (y :: xs))%string. rewrite !has_app, Hs, H by now left.
    rewrite IH by (intros; apply H; now right). reflexivity. }
  assert (NL : forall t, clean show t -> forall s, In s (map line t) -> has newline s = false).
  { intros t Ct s Hs. apply in_map_iff in Hs. destruct Hs as (q & <- & Hq). unfold line. apply HC; [reflexivity|].
    intros x Hx. apply in_map_iff in Hx. destruct Hx as (y & <- & Hy). now apply (Ct q y). }
  assert (TB : forall n t, wide (S (S n)) t -> forall s, In s (map line t) -> has tabulation s = true).
  { intros n t Wt s Hs. apply in_map_iff in Hs. destruct Hs as (q & <- & Hq). assert (X := Wt q Hq). destruct q as [|x [|y q]]; try discriminate.
    unfold line. cbn [map]. change (String.concat tab (?u :: ?v :: ?w)) with (u ++ tab ++ String.concat tab (v :: w))%string. rewrite !has_app. cbn. now rewrite orb_true_r. }
  unfold SummaryModel.saveResults.
  rewrite (map_res_ok (tsv show) line reg) by (intros; apply T3; auto). rewrite (map_res_ok (tsv show) line (rs ++ [r])) by (intros; apply T3; auto).
  rewrite (map_res_ok (tsv4 show) line valid) by (intros; apply T4; auto). rewrite (map_res_ok (tsv show) line pods) by (intros; apply T3; auto). cbn [bind].
  exists ("Linear model analysis results" ++ nl ++ nl ++ String.concat nl (map line reg) ++ nl ++ nl ++ "Residuals analysis results" ++ nl ++ nl ++
      String.concat nl (map line (rs ++ [r])) ++ "Model validation results" ++ nl ++ nl ++ String.concat nl (map line valid) ++ nl ++ nl ++ "POD results" ++ nl ++ nl ++ String.concat nl (map line pods))%string.
  exists (map line reg), (map line rs), (line r), (map line valid), (map line pods). split; [reflexivity|].
  assert (Hr : In r (rs ++ [r])) by (apply in_app_iff; right; now left).
  assert (Wrs' : wide 3 rs) by (intros q Hq; apply Wrs, in_app_iff; now left).
  assert (Crs' : clean show rs) by (intros q x Hq; apply Crs, in_app_iff; now left).
  assert (Hlast : has newline (line r) = false) by (apply (NL (rs ++ [r])); [assumption|now apply in_map]).
  match goal with |- split newline ?t = _ /\ _ => assert (E : split newline t = summary_lines (map line reg) (map line rs) (line r) (map line valid) (map line pods)) end.
  { set (a := map line reg). set (b := map line rs). set (c := map line valid). set (d := map line pods).
    assert (Na : a <> []) by (unfold a; destruct reg; [contradiction|discriminate]).
    assert (Nc : c <> []) by (unfold c; destruct valid; [contradiction|discriminate]).
    assert (Nd : d <> []) by (unfold d; destruct pods; [contradiction|discriminate]).
    transitivity (split newline (String.concat nl (summary_lines a b (line r) c d))).
    - f_equal. unfold summary_lines.
      rewrite (concat_app nl ["Linear model analysis results"; ""]) by (discriminate || (destruct a; [contradiction|discriminate])).
      rewrite (concat_app nl a) by (assumption || discriminate).
      rewrite (concat_app nl [""; "Residuals analysis results"; ""]) by (discriminate || (destruct b; discriminate)).
      change (b ++ [(line r ++ title)%string; ""] ++ c ++ [""; "POD results"; ""] ++ d) with (b ++ [(line r ++ title)%string] ++ [""] ++ c ++ [""; "POD results"; ""] ++ d).
      rewrite app_assoc. rewrite (concat_app nl (b ++ _)) by (discriminate || (destruct b; discriminate)).
      rewrite (concat_app nl [""]) by (discriminate || (destruct c; [contradiction|discriminate])).
      rewrite (concat_app nl c) by (assumption || discriminate).
      rewrite (concat_app nl [""; "POD results"; ""]) by (assumption || discriminate).
      assert (Z : forall b x y, String.concat nl (b ++ [(x ++ y)%string]) = (String.concat nl (b ++ [x]) ++ y)%string).
      { clear. induction b as [|z b IH]; intros x y; [reflexivity|].
        assert (E : forall w, String.concat nl ((z :: b) ++ [w]) = (z ++ nl ++ String.concat nl (b ++ [w]))%string) by (destruct b; reflexivity).
        rewrite !E, IH. now rewrite !string_app_assoc. }
      rewrite Z. unfold b. rewrite map_app. cbn [map String.concat]. rewrite !string_app_assoc. reflexivity.
    - apply split_concat; [discriminate|]. intros s Hs. unfold summary_lines in Hs. rewrite !in_app_iff in Hs.
      destruct Hs as [Hs|[Hs|[Hs|[Hs|[Hs|[Hs|[Hs|Hs]]]]]]].
      + destruct Hs as [<-|[<-|[]]]; reflexivity.
      + now apply (NL reg).
      + destruct Hs as [<-|[<-|[<-|[]]]]; reflexivity.
      + now apply (NL rs).
      + destruct Hs as [<-|[<-|[]]]; [|reflexivity]. rewrite has_app, Hlast. reflexivity.
      + now apply (NL valid).
      + destruct Hs as [<-|[<-|[<-|[]]]]; reflexivity.
      + now apply (NL pods). }
  rewrite E. split; [reflexivity|]. split; [now apply (SP 2)|]. split; [now apply (SP 2)|]. split; [now apply (SL 2 (rs ++ [r]))|].
  split; [now apply (SP 3)|]. split; [now apply (SP 2)|]. split.
  - intros Hs. unfold summary_lines in Hs. rewrite !in_app_iff in Hs.
    assert (K : has tabulation title = true -> False) by discriminate.
    destruct Hs as [Hs|[Hs|[Hs|[Hs|[Hs|[Hs|[Hs|Hs]]]]]]].
    + destruct Hs as [Hs|[Hs|[]]]; discriminate.
    + now apply K, (TB 1 reg).
    + destruct Hs as [Hs|[Hs|[Hs|[]]]]; discriminate.
    + now apply K, (TB 1 rs).
    + destruct Hs as [Hs|[Hs|[]]]; [|discriminate]. apply K. rewrite <- Hs, has_app. rewrite (TB 1 (rs ++ [r])); [reflexivity|assumption|now apply in_map].
    + now apply K, (TB 2 valid).
    + destruct Hs as [Hs|[Hs|[Hs|[]]]]; discriminate.
    + now apply K, (TB 1 pods).
  - assert (X := Wrs r Hr). destruct r as [|x [|y [|z [|]]]]; try discriminate. unfold line.
    change (map (show_cell show) [x; y; z]) with ([show_cell show x; show_cell show y] ++ [show_cell show z]).
    rewrite (split_last tabulation); [reflexivity| | |reflexivity].
    + intros s [<-|[<-|[]]]; apply (Crs [x; y; z]); try assumption; cbn; auto.
    + apply (Crs [x; y; z]); [assumption|cbn; auto].
Qed.
End Saved.

(** *** C70: the graphs *)
Section Graphs.
Variable Obj : Type.
Variable dim : nat.
Variable build : nat -> meth -> option Z -> option Z -> res Obj.
Variable exec : Obj -> res unit.
Variable Analysis : Type.
Variable analyse : nat -> res Analysis.
Variable censored : bool.
Variable drawAnalysis : Analysis -> string -> res unit.
Variable drawPOD : Obj -> option float -> option float -> res unit.
Variable drawLinearModel : Obj -> float -> res unit.
Variable drawValidationGraph : Obj -> res unit.
Variable box : boxarg.
Notation history := (history Obj dim build exec Analysis analyse).
Notation latest := (latest Obj dim build exec Analysis analyse).
Notation wanted := (wanted dim).
Notation draw := (drawGraphs Obj dim Analysis censored drawAnalysis drawPOD drawLinearModel drawValidationGraph box).
Variable l : list op.
Hypothesis Hl : Forall documented l.
Notation past := (rev l).
Variables p g : option float.

(** The graphs of a method: its POD when it can be drawn, then the graph of its model. *)
Definition pod_name (m : meth) : string :=
  match m with
  | Gauss => "POD_Gauss" | Bin => "POD_Binomial" | KS => "POD_Kernel_Smoothing" | QR => "POD_Quantile_Regression"
  | Chaos => "POD_Polynomial_chaos" | Kriging => "POD_Kriging"
  end.
Definition model_name (m : meth) : option string :=
  match m with
  | QR => Some "Quantile_regression_model" | Chaos => Some "Validation_graph_Polynomial_chaos" | Kriging => Some "Validation_graph_Kriging" | _ => None
  end.
Definition pod_drawn (m : meth) : bool := match latest m past with Some o => is_ok (drawPOD o p g) | None => false end.
Definition graphs_of (m : meth) : list string :=
  (if pod_drawn m then [pod_name m] else []) ++ match model_name m with Some n => [n] | None => [] end.
(** The graph of the model can be drawn. *)
Definition model_drawn (m : meth) : bool :=
  match latest m past with
  | None => match model_name m with Some _ => false | None => true end
  | Some o => match m with
              | QR => match p with Some q => is_ok (drawLinearModel o q) | None => false end
              | Chaos | Kriging => is_ok (drawValidationGraph o)
              | _ => true
              end
  end.
Definition analysis_graphs : list string :=
  ["Linear_model"; "Residuals"; "Residuals_distribution"; "Residuals_QQ_plot"] ++
  (if censored then ["Linear_model_censored"; "Residuals_censored"; "Residuals_distribution_censored"; "Residuals_QQ_plot_censored"] else []).
Definition analysis_drawn : bool :=
  match analysis Obj Analysis (history l) with Some a => forallb (fun n => is_ok (drawAnalysis a n)) analysis_graphs | None => false end.
(** The likelihood of the Box-Cox parameter. *)
Definition likelihood_wanted : bool := match box with BFloat x => negb (SFeqb x fzero) | BTruth b => b end.
Definition likelihood_drawn : bool :=
  match analysis Obj Analysis (history l), box with Some a, BTruth _ => is_ok (drawAnalysis a "BoxCox_likelihood") | _, _ => false end.

Definition all_drawn : bool :=
  (negb likelihood_wanted || likelihood_drawn) && analysis_drawn && forallb (fun m => negb (wanted past m) || model_drawn m) methods.
Definition all_graphs : list string :=
  (if likelihood_wanted then ["BoxCox_likelihood"] else []) ++ analysis_graphs ++ flat_map graphs_of (filter (wanted past) methods).

(** Steps in sequence. *)
Fixpoint collect (xs : list (res (list string))) : res (list string) :=
  match xs with [] => Ok [] | x :: xs' => do a <- x; do b <- collect xs'; Ok (a ++ b) end.
Lemma collect_spec xs (ok : list bool) (names : list (list string)) :
  Forall2 (fun x on => match x with Ok n => fst on = true /\ n = snd on | Raise _ => fst on = false end) xs (combine ok names) ->
  List.length ok = List.length names ->
  match collect xs with Ok n => forallb (fun b => b) ok = true /\ n = List.concat names | Raise _ => forallb (fun b => b) ok = false end.
Proof.
  revert ok names. induction xs as [|x xs IH]; intros [|b ok] [|n names] H L; try discriminate; inversion H; subst; [now split|].
  cbn [collect forallb List.concat]. injection L as L. specialize (IH ok names ltac:(assumption) L). cbn [fst snd] in *. destruct x as [x|e]; cbn [bind].
  - match goal with K : _ /\ _ |- _ => destruct K as [-> ->] end. destruct (collect xs); cbn [bind andb]; [|assumption]. destruct IH as [-> ->]. now split.
  - match goal with K : b = false |- _ => now rewrite K end.
Qed.
(** The graphs are drawn in a fixed order; a POD that cannot be drawn is left out, anything else that cannot be drawn makes the call fail. *)
Theorem C70_graphs : match draw p g (history l) with Ok names => all_drawn = true /\ names = all_graphs | Raise _ => all_drawn = false end.
Proof.
  assert (HF : forall m, active (acts Obj Analysis (history l)) m = Ok (flag m past)).
  { intros m. apply agrees_active. now apply (history_spec Obj dim build exec Analysis analyse l Hl). }
  assert (HO : forall m, objs Obj Analysis (history l) m = latest m past).
  { intros m. now apply (history_spec Obj dim build exec Analysis analyse l Hl). }
  assert (HT : forall m n, try_fig n (on Obj (latest m past) (fun o => drawPOD o p g)) = Ok (if pod_drawn m then [n] else [])).
  { intros m n. unfold try_fig, on, pod_drawn. destruct (latest m past) as [o|]; [|reflexivity]. now destruct (drawPOD o p g). }
  set (A := the_analysis Obj Analysis (history l)).
  set (an := fun n => do a <- A; fig n (drawAnalysis a n)).
  set (mg := fun m r => if wanted past m then do y <- (match model_name m with Some n => fig n r | None => Ok [] end); Ok ((if pod_drawn m then [pod_name m] else []) ++ y) else Ok []).
  set (xs := [(if box_truth box then do a <- A; fig "BoxCox_likelihood" (drawBoxCoxLikelihood Analysis drawAnalysis box a) else Ok []);
    an "Linear_model"; an "Residuals"; an "Residuals_distribution"; an "Residuals_QQ_plot";
    (if censored then an "Linear_model_censored" else Ok []); (if censored then an "Residuals_censored" else Ok []);
    (if censored then an "Residuals_distribution_censored" else Ok []); (if censored then an "Residuals_QQ_plot_censored" else Ok []);
    mg Gauss (Ok tt); mg Bin (Ok tt); mg KS (Ok tt); mg QR (on Obj (latest QR past) (fun o => drawQuantileModel Obj drawLinearModel o p));
    mg Chaos (on Obj (latest Chaos past) drawValidationGraph); mg Kriging (on Obj (latest Kriging past) drawValidationGraph)]).
  assert (E : draw p g (history l) = collect xs).
  { unfold drawGraphs. rewrite !HF, !HO, !HT. unfold xs. cbn [collect]. unfold an, figs_when. fold A. cbn [bind].
    destruct A as [a|e]; [|now destruct (box_truth box)]. cbn [bind].
    destruct (if box_truth box then _ else _) as [f0|]; [|reflexivity]. cbn [bind].
    assert (LN : forall m, m <> Kriging -> flag m past = wanted past m).
    { intros m H. unfold SummaryProps.wanted. destruct m; try now rewrite andb_true_r. congruence. }
    rewrite (LN Gauss), (LN Bin), (LN KS), (LN QR), (LN Chaos) by discriminate. unfold mg. cbn [model_name bind pod_name].
    assert (EK : forall (X : Type) (x y : X), (if Nat.leb dim 1 then x else if flag Kriging past then y else x) = if wanted past Kriging then y else x).
    { intros X x y. unfold SummaryProps.wanted. rewrite Nat.ltb_antisym. destruct (Nat.leb dim 1), (flag Kriging past); reflexivity. }
    rewrite EK. rewrite !app_nil_r.
    assert (EP : forall m, (if wanted past m then Ok (if pod_drawn m then [pod_name m] else []) else Ok []) = Ok (if wanted past m then (if pod_drawn m then [pod_name m] else []) else [])).
    { intros m. now destruct (wanted past m). }
    pose proof (EP Gauss) as E1. pose proof (EP Bin) as E2. pose proof (EP KS) as E3. cbn [pod_name] in E1, E2, E3. rewrite E1, E2, E3. clear E1 E2 E3 EP.
    set (q := if wanted past QR then _ else _). set (c := if wanted past Chaos then _ else _). set (k := if wanted past Kriging then _ else _).
    generalize (if wanted past Gauss then if pod_drawn Gauss then ["POD_Gauss"] else [] else []).
    generalize (if wanted past Bin then if pod_drawn Bin then ["POD_Binomial"] else [] else []).
    generalize (if wanted past KS then if pod_drawn KS then ["POD_Kernel_Smoothing"] else [] else []).
    generalize q c k. clear. intros q c k x1 x2 x3.
    destruct (fig "Linear_model" _) as [f1|]; [|reflexivity]. cbn [bind].
    destruct (fig "Residuals" _) as [f2|]; [|reflexivity]. cbn [bind].
    destruct (fig "Residuals_distribution" _) as [f3|]; [|reflexivity]. cbn [bind].
    destruct (fig "Residuals_QQ_plot" _) as [f4|]; [|reflexivity]. cbn [bind].
    destruct censored; cbn [bind].
    - destruct (fig "Linear_model_censored" _) as [g1|]; [|reflexivity]. cbn [bind].
      destruct (fig "Residuals_censored" _) as [g2|]; [|reflexivity]. cbn [bind].
      destruct (fig "Residuals_distribution_censored" _) as [g3|]; [|reflexivity]. cbn [bind].
      destruct (fig "Residuals_QQ_plot_censored" _) as [g4|]; [|reflexivity]. cbn [bind].
      destruct q; [|reflexivity]. cbn [bind]. destruct c; [|reflexivity]. cbn [bind]. destruct k; [|reflexivity]. cbn [bind].
      now rewrite !app_nil_r, <- !app_assoc.
    - destruct q; [|reflexivity]. cbn [bind]. destruct c; [|reflexivity]. cbn [bind]. destruct k; [|reflexivity]. cbn [bind].
      now rewrite !app_nil_r. }
  rewrite E.
  set (da := fun n => match analysis Obj Analysis (history l) with Some a => is_ok (drawAnalysis a n) | None => false end).
  set (ok := [negb likelihood_wanted || likelihood_drawn; da "Linear_model"; da "Residuals"; da "Residuals_distribution"; da "Residuals_QQ_plot";
     negb censored || da "Linear_model_censored"; negb censored || da "Residuals_censored"; negb censored || da "Residuals_distribution_censored"; negb censored || da "Residuals_QQ_plot_censored"]
     ++ map (fun m => negb (wanted past m) || model_drawn m) methods).
  set (ns := [if likelihood_wanted then ["BoxCox_likelihood"] else []; ["Linear_model"]; ["Residuals"]; ["Residuals_distribution"]; ["Residuals_QQ_plot"];
     if censored then ["Linear_model_censored"] else []; if censored then ["Residuals_censored"] else []; if censored then ["Residuals_distribution_censored"] else [];
     if censored then ["Residuals_QQ_plot_censored"] else []] ++ map (fun m => if wanted past m then graphs_of m else []) methods).
  assert (Eok : forallb (fun b => b) ok = all_drawn).
  { unfold ok, all_drawn, analysis_drawn. cbn [app map methods forallb]. unfold da.
    destruct (analysis Obj Analysis (history l)) as [a|]; [|now rewrite !andb_false_r].
    unfold analysis_graphs. rewrite forallb_app. destruct censored; cbn [forallb negb orb andb]; rewrite ?andb_assoc, ?andb_true_r, ?andb_assoc; reflexivity. }
  assert (Ens : List.concat ns = all_graphs).
  { unfold ns, all_graphs, analysis_graphs, methods. cbn [app map filter List.concat].
    destruct (wanted past Gauss), (wanted past Bin), (wanted past KS), (wanted past QR), (wanted past Chaos), (wanted past Kriging), censored, likelihood_wanted; reflexivity. }
  rewrite <- Eok, <- Ens. apply collect_spec; [|reflexivity]. unfold xs, ok, ns. cbn [app map methods combine].
  assert (DA : forall n, match an n with Ok x => da n = true /\ x = [n] | Raise _ => da n = false end).
  { intros n. unfold an, da, A, the_analysis. destruct (analysis Obj Analysis (history l)) as [a|]; [|reflexivity]. cbn [bind]. unfold fig. now destruct (drawAnalysis a n). }
  assert (DC : forall n, match (if censored then an n else Ok []) with Ok x => negb censored || da n = true /\ x = (if censored then [n] else []) | Raise _ => negb censored || da n = false end).
  { intros n. destruct censored; [apply DA|now split]. }
  assert (MG : forall m r, (match model_name m with Some _ => is_ok r | None => true end = model_drawn m) ->
     match mg m r with Ok x => negb (wanted past m) || model_drawn m = true /\ x = (if wanted past m then graphs_of m else []) | Raise _ => negb (wanted past m) || model_drawn m = false end).
  { intros m r H. unfold mg. rewrite <- H. destruct (wanted past m); [|now split]. unfold graphs_of. cbn [negb orb]. destruct (model_name m); [|now split]. unfold fig. now destruct r. }
  repeat constructor; cbn [fst snd]; try apply DA; try apply DC; try apply MG; unfold model_drawn, on; cbn [model_name].
  - unfold box_truth, likelihood_wanted, likelihood_drawn, drawBoxCoxLikelihood, A, the_analysis.
    destruct box as [x|t]; cbn [box_flag box_lambda].
    + destruct (SFeqb x fzero); cbn [negb orb]; [now split|]. now destruct (analysis Obj Analysis (history l)).
    + destruct t; cbn [negb orb]; [|now split]. destruct (analysis Obj Analysis (history l)); [|reflexivity]. cbn [bind]. unfold fig. now destruct (drawAnalysis _ _).
  - now destruct (latest Gauss past).
  - now destruct (latest Bin past).
  - now destruct (latest KS past).
  - unfold drawQuantileModel. destruct (latest QR past); [|reflexivity]. now destruct p.
  - now destruct (latest Chaos past).
  - now destruct (latest Kriging past).
Qed.
(** Findings: with the default levels drawGraphs never succeeds while the quantile regression is active, and never with a given (not
    null) Box-Cox parameter. *)
Theorem C70_default_level_fails : p = None -> flag QR past = true -> is_ok (draw p g (history l)) = false.
Proof.
  intros Hp Hf. assert (X := C70_graphs). destruct (draw p g (history l)); [|reflexivity]. destruct X as [X _].
  unfold all_drawn in X. apply andb_true_iff in X. destruct X as [_ X]. rewrite forallb_forall in X. specialize (X QR ltac:(cbn; tauto)).
  cbn beta in X. unfold SummaryProps.wanted in X. rewrite Hf in X. cbn [andb negb orb] in X. unfold model_drawn in X. rewrite Hp in X. now destruct (latest QR past).
Qed.
Theorem C70_given_lambda_fails : forall x, box = BFloat x -> SFeqb x fzero = false -> is_ok (draw p g (history l)) = false.
Proof.
  intros x Hb Hx. assert (X := C70_graphs). destruct (draw p g (history l)); [|reflexivity]. destruct X as [X _].
  unfold all_drawn, likelihood_wanted, likelihood_drawn in X. rewrite Hb, Hx in X. cbn [negb orb] in X. now destruct (analysis Obj Analysis (history l)).
Qed.
(** What is raised then: AttributeError for the given parameter, whatever the calls before; TypeError for the missing level, once every
    graph that comes before the quantile regression is drawn. *)
Theorem C70_given_lambda_exception : forall x, box = BFloat x -> SFeqb x fzero = false -> draw p g (history l) = Raise AttributeError.
Proof.
  intros x Hb Hx. unfold drawGraphs, box_truth, drawBoxCoxLikelihood. rewrite Hb. cbn [box_flag box_lambda]. rewrite Hx.
  unfold the_analysis. now destruct (analysis Obj Analysis (history l)).
Qed.
Theorem C70_default_level_exception : p = None -> flag QR past = true -> latest QR past <> None ->
  (negb likelihood_wanted || likelihood_drawn) = true -> analysis_drawn = true -> draw p g (history l) = Raise TypeError.
Proof.
  intros Hp Hf Hq HL HA.
  assert (HF : forall m, active (acts Obj Analysis (history l)) m = Ok (flag m past)).
  { intros m. apply agrees_active. now apply (history_spec Obj dim build exec Analysis analyse l Hl). }
  assert (HO : forall m, objs Obj Analysis (history l) m = latest m past).
  { intros m. now apply (history_spec Obj dim build exec Analysis analyse l Hl). }
  assert (HT : forall m n, exists q, try_fig n (on Obj (latest m past) (fun o => drawPOD o p g)) = Ok q).
  { intros m n. unfold try_fig. destruct (on Obj (latest m past) (fun o => drawPOD o p g)); eauto. }
  unfold drawGraphs. rewrite !HF, !HO.
  destruct (HT Gauss "POD_Gauss") as [q1 ->]. destruct (HT Bin "POD_Binomial") as [q2 ->]. destruct (HT KS "POD_Kernel_Smoothing") as [q3 ->].
  destruct (HT QR "POD_Quantile_Regression") as [q4 ->]. unfold figs_when. cbn [bind]. rewrite Hf. destruct (latest QR past) as [o|]; [|easy].
  subst p. unfold on at 1. unfold drawQuantileModel. unfold fig at 10. cbn [bind].
  unfold analysis_drawn in HA. unfold likelihood_wanted, likelihood_drawn in HL. unfold the_analysis.
  destruct (analysis Obj Analysis (history l)) as [a|]; [|discriminate]. cbn [bind].
  assert (HN : forall n, In n analysis_graphs -> fig n (drawAnalysis a n) = Ok [n]).
  { intros n Hn. rewrite forallb_forall in HA. specialize (HA n Hn). unfold fig. now destruct (drawAnalysis a n). }
  unfold analysis_graphs in HN.
  rewrite !HN by (cbn; tauto). cbn [bind].
  assert (H0 : exists f0, (if box_truth box then fig "BoxCox_likelihood" (drawBoxCoxLikelihood Analysis drawAnalysis box a) else Ok []) = Ok f0).
  { unfold box_truth, drawBoxCoxLikelihood. destruct box as [x|b]; cbn [box_flag box_lambda].
    - destruct (SFeqb x fzero); [eexists; reflexivity|discriminate].
    - destruct b; [|eexists; reflexivity]. cbn [negb orb] in HL. cbn [negb]. unfold fig. destruct (drawAnalysis a "BoxCox_likelihood"); [eexists; reflexivity|discriminate]. }
  destruct H0 as [f0 ->]. cbn [bind].
  assert (H1 : exists fc, (if censored then
              do c1 <- fig "Linear_model_censored" (drawAnalysis a "Linear_model_censored");
              do c2 <- fig "Residuals_censored" (drawAnalysis a "Residuals_censored");
              do c3 <- fig "Residuals_distribution_censored" (drawAnalysis a "Residuals_distribution_censored");
              do c4 <- fig "Residuals_QQ_plot_censored" (drawAnalysis a "Residuals_QQ_plot_censored");
              Ok (c1 ++ c2 ++ c3 ++ c4)
            else Ok []) = Ok fc).
  { destruct censored; [|eauto]. rewrite !HN by (cbn; tauto). cbn [bind]. eauto. }
  destruct H1 as [fc ->]. cbn [bind]. now destruct (flag Gauss past), (flag Bin past), (flag KS past).
Qed.
End Graphs.

(** *** The hypotheses are met *)
Definition demo_detect (o : nat * meth * option Z * option Z) (p g : float) : res (list float) :=
  let '(n, m, _, _) := o in if same m Gauss then Raise ValueError else Ok [of_int (Z.of_nat n); of_ratio 3 2].
Definition p90 := of_ratio 9 10.
Definition p95 := of_ratio 95 100.
Definition demo_ops := [SetActive "LinearBinomial" (PBool false); Run; Run; SetActive "LinearBinomial" (PBool true); SetActive "PolynomialChaos" (PBool false)].
Definition demo_history := history _ 1 demo_build (fun _ => Ok tt) unit demo_analyse demo_ops.
Definition demo_report := SummaryModel.buildPrintResults _ 1 unit (fun _ => [p90; p95]) (fun _ _ => Ok p95) (fun _ => Ok p90) demo_detect (fun x => x) (fun _ => "0.9") true p90 p95.
Example C58_example :
  (forall o x, demo_detect o p90 p95 = Ok x -> exists a b, x = [a; b]) /\ percent p90 = Ok 90%Z /\ percent p95 = Ok 95%Z /\
  Forall documented demo_ops /\ analysis _ _ demo_history = Some tt /\
  demo_report demo_history = Ok
    ([[Txt ""; Txt ""; Txt "Uncensored"; Txt "Censored"]; [Txt ""; Txt ""; Txt ""; Txt ""]; [Txt ""; Txt "R2"; Txt "Q2"; Txt "R2"]; [Txt ""; Txt ""; Txt ""; Txt ""];
      [Txt "Linear Regression (> 0.8):"; Num p90; Txt ""; Num p95]; [Txt "Quantile Regression at level 0.9 (> 0.6):"; Num p95; Txt ""; Txt ""]],
     [[Txt ""; Txt "a90"; Txt "a90/95"]; [Txt "Linear Regression"; Txt ""; Txt ""]; [Txt "Gaussian residuals :"; Txt "-1"; Txt "-1"];
      [Txt "No residuals hypothesis :"; Txt "-1"; Txt "-1"]; [Txt "Kernel smoothing on residuals :"; Num fone; Num (of_ratio 3 2)]; [Txt ""; Txt ""; Txt ""];
      [Txt "Quantile Regression :"; Num fone; Num (of_ratio 3 2)]]) /\
  is_ok (demo_report (history _ 1 demo_build (fun _ => Ok tt) unit demo_analyse [SetActive "QuantileRegression" (PBool false); Run; SetActive "QuantileRegression" (PBool true)])) = false.
Proof.
  split; [|repeat split; try (vm_compute; reflexivity); repeat constructor].
  intros [[[n m] a] b] x. unfold demo_detect. destruct (same m Gauss); [discriminate|]. intros [= <-]. eauto.
Qed.
Example C69_example :
  let t := [[Txt "a"; Num fone; Txt ""]; [Txt "b"; Txt "c"; Num fone]] in
  let v := [[Txt "a"; Num fone; Txt ""; Txt "x"]] in
  let show := fun _ => "1.0" in
  wide 3 t /\ wide 4 v /\ clean show t /\ clean show v /\
  option_map (split newline) (match SummaryModel.saveResults show t t v t with Ok s => Some s | Raise _ => None end) =
  let a := String.concat tab ["a"; "1.0"; ""] in let b := String.concat tab ["b"; "c"; "1.0"] in
  Some ["Linear model analysis results"; ""; a; b; ""; "Residuals analysis results"; ""; a; (b ++ "Model validation results")%string; "";
        String.concat tab ["a"; "1.0"; ""; "x"]; ""; "POD results"; ""; a; b].
Proof.
  cbn zeta. repeat split.
  - intros r [<-|[<-|[]]]; reflexivity.
  - intros r [<-|[]]; reflexivity.
  - destruct H as [<-|[<-|[]]]; destruct H0 as [<-|[<-|[<-|[]]]]; reflexivity.
  - destruct H as [<-|[<-|[]]]; destruct H0 as [<-|[<-|[<-|[]]]]; reflexivity.
  - destruct H as [<-|[]]; destruct H0 as [<-|[<-|[<-|[<-|[]]]]]; reflexivity.
  - destruct H as [<-|[]]; destruct H0 as [<-|[<-|[<-|[<-|[]]]]]; reflexivity.
Qed.
Definition demo_draw (box : boxarg) (p : option float) :=
  drawGraphs _ 2 unit false (fun _ _ => Ok tt) (fun o _ _ => match snd (fst (fst o)) with Gauss => Raise ValueError | _ => Ok tt end)
    (fun _ _ => Ok tt) (fun _ => Ok tt) box p None (history _ 2 demo_build (fun _ => Ok tt) unit demo_analyse [SetActive "PolynomialChaos" (PBool false); Run]).
Example C70_example :
  demo_draw (BTruth true) (Some p90) = Ok ["BoxCox_likelihood"; "Linear_model"; "Residuals"; "Residuals_distribution"; "Residuals_QQ_plot"; "POD_Binomial";
    "POD_Kernel_Smoothing"; "POD_Quantile_Regression"; "Quantile_regression_model"; "POD_Kriging"; "Validation_graph_Kriging"] /\
  demo_draw (BTruth true) None = Raise TypeError /\ demo_draw (BFloat p90) (Some p90) = Raise AttributeError.
Proof. repeat split; vm_compute; reflexivity. Qed.
(** The hypotheses of the exception at the default level hold there: the quantile regression is active and built, the other graphs are drawn. *)
Example C70_default_level_case :
  let l := [SetActive "PolynomialChaos" (PBool false); Run] in
  Forall documented l /\ flag QR (rev l) = true /\ latest _ 2 demo_build (fun _ => Ok tt) unit demo_analyse QR (rev l) = Some (0, QR, Some 1000%Z, None) /\
  analysis_drawn _ 2 demo_build (fun _ => Ok tt) unit demo_analyse false (fun _ _ => Ok tt) l = true.
Proof. repeat split; repeat constructor. Qed.

Print Assumptions C58_report.
Print Assumptions C58_rows.
Print Assumptions C58_report_fails.
Print Assumptions C58_late_activation.
Print Assumptions C69_saved_file.
Print Assumptions C70_graphs.
Print Assumptions C70_default_level_fails.
Print Assumptions C70_given_lambda_fails.
Print Assumptions C70_given_lambda_exception.
Print Assumptions C70_default_level_exception.
