(** C77: the text returned by PODSummary.getResults. *)
From Coq Require Import Ascii String List Lia Decimal DecimalString SpecFloat.
From Verif Require Import Base Float64 LabelsModel TableModel TableProps PrintProps CtorModel SummaryModel SummaryProps SummaryReportProps SummaryPrintModel.
Import ListNotations.
Local Open Scope string_scope.
Local Open Scope list_scope.
Local Open Scope nat_scope.

(** A line of four cells, in order, with blanks in between; columns end at 53, 64 and 75 when the cells are narrow. *)
Definition line4_shows (line a b c d : string) : Prop :=
  exists i j k, line = (a ++ spaces (S i) ++ b ++ spaces (S j) ++ c ++ spaces (S k) ++ d)%string /\
    (String.length a <= 42 -> String.length b <= 10 -> String.length (a ++ spaces (S i) ++ b)%string = 53 /\
      (String.length c <= 10 -> String.length (a ++ spaces (S i) ++ b ++ spaces (S j) ++ c)%string = 64 /\
        (String.length d <= 10 -> String.length line = 75))).
(** Names of the methods that only see the filtered data. *)
Definition filtered_name (m : meth) : string :=
  match m with QR => "quantile regression, " | Chaos => "polynomial chaos, " | Kriging => "kriging, " | _ => "" end.
Definition text_lines (c d : list string) (w : string) : list string :=
  [""; bar; "         Model validation results"; bar] ++ c ++ [bar; ""; bar; "         POD results"; bar] ++ d ++ [bar; ""; w].

Lemma spaces_merge i j : (spaces i ++ " " ++ spaces j)%string = spaces (S (i + j)).
Proof. induction i; cbn in *; [reflexivity|now rewrite IHi]. Qed.
Lemma aligned4_shows show a b c d : exists line, aligned4 show [a; b; c; d] = Ok line /\
  line4_shows line (show_cell show a) (show_cell show b) (show_cell show c) (show_cell show d).
Proof.
  unfold aligned4. set (A := show_cell show a). set (B := show_cell show b). set (C := show_cell show c). set (D := show_cell show d).
  eexists. split; [reflexivity|]. exists (42 - String.length A + (10 - String.length B)), (10 - String.length C), (10 - String.length D). unfold ljust, rjust.
  match goal with |- ?l = ?r /\ _ => assert (E : l = r) by (rewrite <- spaces_merge, !string_app_assoc; reflexivity) end.
  split; [exact E|]. intros H1 H2. rewrite E, !length_app, !length_spaces. split; [lia|]. intros H3. split; [lia|]. intros H4. lia.
Qed.
Lemma clean_uint u : has newline (NilEmpty.string_of_uint u) = false /\ has tabulation (NilEmpty.string_of_uint u) = false.
Proof. induction u; cbn in *; auto. Qed.
Lemma clean_dec z : has newline (dec z) = false /\ has tabulation (dec z) = false.
Proof. unfold dec. destruct (Z.to_int z); cbn; apply clean_uint. Qed.

Section Text.
Variable Obj : Type.
Variable dim : nat.
Variable build : nat -> meth -> option Z -> option Z -> res Obj.
Variable exec : Obj -> res unit.
Variable Analysis : Type.
Variable analyse : nat -> res Analysis.
Variable analysisR2 : Analysis -> list float.
Variable objR2 : Obj -> option float -> res float.
Variable objQ2 : Obj -> res float.
Variable detect : Obj -> float -> float -> res (list float).
Variable round2 : float -> float.
Variable show : float -> string.
Variable censored : bool.
Notation history := (history Obj dim build exec Analysis analyse).
Notation wanted := (wanted dim).
Notation report := (SummaryModel.buildPrintResults Obj dim Analysis analysisR2 objR2 objQ2 detect round2 show censored).
Notation getResults := (SummaryPrintModel.getResults Obj dim Analysis analysisR2 objR2 objQ2 detect round2 show censored).
Variable l : list op.
Hypothesis Hl : Forall documented l.
Variables p g : float.
Hypothesis Hdetect : forall o x, detect o p g = Ok x -> exists a b, x = [a; b].
Variables P G : Z.
Hypothesis HP : percent p = Ok P.
Hypothesis HG : percent g = Ok G.
Variable a : Analysis.
Hypothesis Ha : analysis Obj Analysis (history l) = Some a.
Variables ru rc : float.
Hypothesis Hr2 : analysisR2 a = if censored then [ru; rc] else [ru].
(** Numbers are printed without tabulation and new line. *)
Hypothesis Hshow : forall x, has newline (show x) = false /\ has tabulation (show x) = false.
Notation past := (rev l).
Notation quality := (quality Obj dim build exec Analysis analyse objR2 objQ2 round2 show l p).
Notation line := (SummaryReportProps.line Obj dim build exec Analysis analyse detect round2 l p g).

Definition clean_row (r : row) : Prop := forall x, In x r -> has newline (show_cell show x) = false /\ has tabulation (show_cell show x) = false.
Lemma quality_row m r : quality m = Ok r -> List.length r = 4 /\ clean_row r.
Proof.
  unfold SummaryReportProps.quality. destruct (latest _ _ _ _ _ _ m past) as [o|]; [|discriminate].
  assert (Q : has newline ("Quantile Regression at level " ++ show p ++ " (> 0.6):")%string = false /\ has tabulation ("Quantile Regression at level " ++ show p ++ " (> 0.6):")%string = false).
  { rewrite !has_app. destruct (Hshow p) as [-> ->]. split; reflexivity. }
  intros E. destruct m; cbn [bind] in E;
    repeat match type of E with (do _ <- ?t; _) = _ => destruct t; cbn [bind] in E; [|discriminate] end; injection E as <-;
    (split; [reflexivity|]; intros y Hy; cbn [In] in Hy; repeat (destruct Hy as [<-|Hy]; [first [exact Q|exact (Hshow _)|split; reflexivity]|]); destruct Hy).
Qed.
Lemma line_row m : List.length (line m) = 3 /\ clean_row (line m).
Proof.
  unfold SummaryReportProps.line, sizes. destruct (latest _ _ _ _ _ _ m past) as [o|]; [|split; [reflexivity|]].
  - destruct (detect o p g) as [x|] eqn:E; [destruct (Hdetect _ _ E) as (x1 & x2 & ->)|]; (split; [reflexivity|]);
    intros y Hy; cbn [In] in Hy; repeat (destruct Hy as [<-|Hy]; [first [exact (Hshow _)|destruct m; split; reflexivity]|]); destruct Hy.
  - intros y Hy; cbn [In] in Hy; repeat (destruct Hy as [<-|Hy]; [destruct m; split; reflexivity|]); destruct Hy.
Qed.
Lemma map_res_in {A B} (f : A -> res B) : forall xs ys, map_res f xs = Ok ys -> forall y, In y ys -> exists x, In x xs /\ f x = Ok y.
Proof.
  induction xs as [|x xs IH]; cbn; intros ys E y Hy; [injection E as <-; destruct Hy|].
  destruct (f x) eqn:F; [|discriminate]. cbn [bind] in E. destruct (map_res f xs) as [zs|]; [|discriminate]. cbn [bind] in E. injection E as <-.
  destruct Hy as [<-|Hy]; [eauto|]. destruct (IH zs eq_refl y Hy) as (x' & ? & ?). eauto.
Qed.
(** The tables of the report: shape, and cells that can be written in a file. *)
Lemma report_rows valid pods : report p g (history l) = Ok (valid, pods) ->
  valid <> [] /\ pods <> [] /\ (forall r, In r valid -> List.length r = 4 /\ clean_row r) /\ (forall r, In r pods -> List.length r = 3 /\ clean_row r).
Proof.
  rewrite (C58_report Obj dim build exec Analysis analyse analysisR2 objR2 objQ2 detect round2 show censored l Hl p g Hdetect P G HP HG a Ha ru rc Hr2).
  destruct (map_res quality _) as [vs|] eqn:EV; [|discriminate]. cbn [bind].
  match goal with |- Ok (?x, ?y) = _ -> _ => set (X := x); set (Y := y) end. intros E. assert (E1 : valid = X) by congruence. assert (E2 : pods = Y) by congruence. clear E. subst valid pods.
  split; [discriminate|]. split; [discriminate|].
  assert (K : forall n (r : row), List.length r = n -> (forall x, In x r -> (exists s, x = Txt s /\ has newline s = false /\ has tabulation s = false) \/ exists v, x = Num v) -> List.length r = n /\ clean_row r).
  { intros n r Hn Hx. split; [exact Hn|]. intros x Hin. destruct (Hx x Hin) as [(s & -> & H)|(v & ->)]; [exact H|exact (Hshow v)]. }
  Local Ltac txt_row K := apply K; [reflexivity|]; let x := fresh "x" in let Hx := fresh "Hx" in intros x Hx; cbn [In] in Hx;
     repeat (destruct Hx as [<-|Hx]; [first [right; eexists; reflexivity | left; eexists; split; [reflexivity|split; reflexivity]]|]); destruct Hx.
  split.
  - intros r Hr. unfold X in Hr. rewrite !in_app_iff in Hr. destruct Hr as [Hr|[Hr|Hr]].
    + cbn [In] in Hr. repeat (destruct Hr as [<-|Hr]; [txt_row K|]). destruct Hr.
    + destruct (existsb (wanted past) linear); [|destruct Hr]. destruct Hr as [<-|[]]. unfold linear_quality. destruct censored; txt_row K.
    + destruct (map_res_in _ _ _ EV r Hr) as (m & _ & Q). exact (quality_row m r Q).
  - intros r Hr. unfold Y in Hr. destruct Hr as [<-|Hr].
    + apply K; [reflexivity|]. destruct (clean_dec P) as [A1 A2], (clean_dec G) as [A3 A4].
      intros x Hx. cbn [In] in Hx. left. destruct Hx as [<-|[<-|[<-|[]]]]; eexists; (split; [reflexivity|]); rewrite ?has_app, ?A1, ?A2, ?A3, ?A4; split; reflexivity.
    + apply in_app_or in Hr. destruct Hr as [Hr|Hr].
      * destruct (existsb (wanted past) linear); [|destruct Hr]. rewrite !in_app_iff in Hr. destruct Hr as [[<-|[]]|[Hr|[<-|[]]]]; [txt_row K| |txt_row K].
        apply in_map_iff in Hr. destruct Hr as (m & <- & _). exact (line_row m).
      * apply in_map_iff in Hr. destruct Hr as (m & <- & _). exact (line_row m).
Qed.

(** The warning shown for censored data names the active and applicable methods other than the linear ones, in order. *)
Definition warning : string :=
  ("Warning : For " ++ String.concat "" (map filtered_name (filter (wanted past) [QR; Chaos; Kriging])) ++ "results are given for filtered data.")%string.
Lemma warning_spec : filtered_warning dim (acts Obj Analysis (history l)) = Ok warning.
Proof.
  unfold filtered_warning, warning. rewrite !(active_flag Obj dim build exec Analysis analyse l Hl). cbn [bind]. unfold SummaryProps.wanted. cbn [filter].
  destruct (Nat.ltb 1 dim), (flag QR past), (flag Chaos past), (flag Kriging past); reflexivity.
Qed.
Lemma warning_clean : has newline warning = false.
Proof.
  unfold warning. cbn [filter]. destruct (wanted past QR), (wanted past Chaos), (wanted past Kriging); reflexivity.
Qed.

Theorem C77_text : forall valid pods, report p g (history l) = Ok (valid, pods) ->
  exists text c d, getResults p g (history l) = Ok text /\
    split newline text = text_lines c d (if censored then warning else "") /\
    Forall2 (fun ln r => exists x y z t, r = [x; y; z; t] /\ line4_shows ln (text_of show x) (text_of show y) (text_of show z) (text_of show t)) c valid /\
    Forall2 (fun ln r => exists x y z, r = [x; y; z] /\ line_shows ln (text_of show x) (text_of show y) (text_of show z)) d pods.
Proof.
  intros valid pods E. destruct (report_rows _ _ E) as (Nv & Np & Rv & Rp).
  assert (Lab : forall r, In r pods -> String.length (text_of show (nth 0 r (Txt ""))) <= 47).
  { revert E. rewrite (C58_report Obj dim build exec Analysis analyse analysisR2 objR2 objQ2 detect round2 show censored l Hl p g Hdetect P G HP HG a Ha ru rc Hr2).
    destruct (map_res quality _) as [vs|] eqn:EV; [|discriminate]. cbn [bind].
    match goal with |- Ok (?x, ?y) = _ -> _ => set (X := x); set (Y := y) end. intros E. assert (E2 : pods = Y) by congruence. clear E. subst pods.
    intros r Hr. unfold Y in Hr. destruct Hr as [<-|Hr]; [cbn; lia|]. apply in_app_or in Hr.
    assert (LL : forall m, String.length (text_of show (nth 0 (line m) (Txt ""))) <= 47) by (intros []; cbn; lia).
    destruct Hr as [Hr|Hr].
    - destruct (existsb (wanted past) linear); [|destruct Hr]. rewrite !in_app_iff in Hr. destruct Hr as [[<-|[]]|[Hr|[<-|[]]]]; try (cbn; lia).
      apply in_map_iff in Hr. destruct Hr as (m & <- & _). apply LL.
    - apply in_map_iff in Hr. destruct Hr as (m & <- & _). apply LL. }
  assert (M : forall (f : row -> res string) (t : table) Q, (forall r, In r t -> exists ln, f r = Ok ln /\ Q ln r /\ has newline ln = false) ->
    exists ls, map_res f t = Ok ls /\ Forall2 Q ls t /\ (forall s, In s ls -> has newline s = false)).
  { intros f t Q. induction t as [|r t IH]; intros H; [exists []; cbn; repeat split; [constructor|intros s []]|].
    destruct (H r (or_introl eq_refl)) as (ln & E1 & E2 & E3). destruct IH as (ls & F1 & F2 & F3); [intros; apply H; now right|].
    exists (ln :: ls). cbn [map_res]. rewrite E1. cbn [bind]. rewrite F1. cbn [bind]. split; [reflexivity|]. split; [now constructor|].
    intros s [<-|Hs]; auto. }
  destruct (M (aligned4 show) valid (fun ln r => exists x y z t, r = [x; y; z; t] /\ line4_shows ln (text_of show x) (text_of show y) (text_of show z) (text_of show t))) as (c & C1 & C2 & C3).
  { intros r Hr. destruct (Rv r Hr) as [Ln Cl]. destruct r as [|x [|y [|z [|t [|]]]]]; try discriminate.
    destruct (aligned4_shows show x y z t) as (ln & E1 & E2). exists ln. split; [exact E1|]. split; [exists x, y, z, t; auto|].
    destruct E2 as (i & j & k & -> & _). rewrite !has_app, !has_spaces.
    destruct (Cl x) as [-> _]; [cbn; auto|]. destruct (Cl y) as [-> _]; [cbn; auto|]. destruct (Cl z) as [-> _]; [cbn; auto|]. destruct (Cl t) as [-> _]; [cbn; auto|]. reflexivity. }
  destruct (M (aligned show) pods (fun ln r => exists x y z, r = [x; y; z] /\ line_shows ln (text_of show x) (text_of show y) (text_of show z))) as (d & D1 & D2 & D3).
  { intros r Hr. destruct (Rp r Hr) as [Ln Cl]. assert (Y := Lab r Hr). destruct r as [|x [|y [|z [|]]]]; try discriminate.
    destruct (C76_line show x y z Y) as (ln & E1 & E2). exists ln. split; [exact E1|]. split; [exists x, y, z; auto|].
    destruct E2 as (i & j & -> & _). unfold text_of. rewrite !has_app, !has_spaces.
    destruct (Cl x) as [-> _]; [cbn; auto|]. destruct (Cl y) as [-> _]; [cbn; auto|]. destruct (Cl z) as [-> _]; [cbn; auto|]. reflexivity. }
  assert (Nc : c <> []) by (intros ->; inversion C2; congruence). assert (Nd : d <> []) by (intros ->; inversion D2; congruence).
  unfold SummaryPrintModel.getResults. rewrite E. cbn [bind]. rewrite C1. cbn [bind]. rewrite D1. unfold the_analysis. rewrite Ha. cbn [bind].
  rewrite warning_spec. set (w := if censored then warning else "").
  assert (Ew : (if censored then Ok warning else Ok "") = Ok w) by (unfold w; destruct censored; reflexivity). rewrite Ew. cbn [bind].
  eexists _, c, d. split; [reflexivity|]. split; [|split; assumption]. change (dashes 80) with bar.
  match goal with |- split _ ?t = _ => assert (EE : t = String.concat nl (text_lines c d w)) end.
  { unfold text_lines. assert (Ab : forall x y : list string, y <> [] -> x ++ y <> []) by (intros [|] y H; [exact H|discriminate]).
    rewrite concat_app by (discriminate || (apply Ab; discriminate)). rewrite concat_app by (assumption || discriminate).
    rewrite concat_app by (discriminate || (apply Ab; discriminate)). rewrite concat_app by (assumption || discriminate).
    cbn [String.concat]. rewrite !string_app_assoc. reflexivity. }
  rewrite EE. apply split_concat; [discriminate|].
  intros s Hs. unfold text_lines in Hs. rewrite !in_app_iff in Hs. destruct Hs as [Hs|[Hs|[Hs|[Hs|Hs]]]].
  - cbn in Hs. destruct Hs as [<-|[<-|[<-|[<-|[]]]]]; reflexivity.
  - now apply C3.
  - cbn in Hs. destruct Hs as [<-|[<-|[<-|[<-|[<-|[]]]]]]; reflexivity.
  - now apply D3.
  - cbn in Hs. destruct Hs as [<-|[<-|[<-|[]]]]; try reflexivity. unfold w. destruct censored; [apply warning_clean|reflexivity].
Qed.
(** No text is returned exactly when the tables cannot be built. *)
Theorem C77_fails : is_ok (getResults p g (history l)) = is_ok (report p g (history l)).
Proof.
  destruct (report p g (history l)) as [[valid pods]|e] eqn:E.
  - destruct (C77_text _ _ E) as (t & c & d & H & _). now rewrite H.
  - unfold SummaryPrintModel.getResults. now rewrite E.
Qed.
(** Finding: when only linear methods are active the warning names no method at all. *)
Theorem C77_warning_without_method : (forall m, In m [QR; Chaos; Kriging] -> wanted past m = false) ->
  filtered_warning dim (acts Obj Analysis (history l)) = Ok "Warning : For results are given for filtered data.".
Proof. intros H. rewrite warning_spec. unfold warning. cbn [filter]. rewrite !H by (cbn; tauto). reflexivity. Qed.
End Text.
Print Assumptions C77_text.
Print Assumptions C77_fails.
Print Assumptions C77_warning_without_method.
Example C77_example :
  match SummaryPrintModel.getResults _ 1 unit (fun _ => [p90; p95]) (fun _ _ => Ok p95) (fun _ => Ok p90) demo_detect (fun x => x) (fun _ => "0.9") true p90 p95 demo_history with
  | Ok t => split newline t | Raise _ => [] end =
  ["";
   "--------------------------------------------------------------------------------";
   "         Model validation results";
   "--------------------------------------------------------------------------------";
   "                                                      Uncensored   Censored";
   "                                                                           ";
   "                                                   R2         Q2         R2";
   "                                                                           ";
   "Linear Regression (> 0.8):                        0.9                   0.9";
   "Quantile Regression at level 0.9 (> 0.6):         0.9                      ";
   "--------------------------------------------------------------------------------";
   "";
   "--------------------------------------------------------------------------------";
   "         POD results";
   "--------------------------------------------------------------------------------";
   "                                                          a90        a90/95";
   "Linear Regression                                                          ";
   "Gaussian residuals :                                       -1            -1";
   "No residuals hypothesis :                                  -1            -1";
   "Kernel smoothing on residuals :                           0.9           0.9";
   "                                                                           ";
   "Quantile Regression :                                     0.9           0.9";
   "--------------------------------------------------------------------------------";
   "";
   "Warning : For quantile regression, results are given for filtered data."].
Proof. vm_compute. reflexivity. Qed.

(** Before any run, whatever was set: no text and no graph, an AttributeError for the missing analysis or the missing objects. *)
Section BeforeRun.
Variable Obj : Type.
Variable dim : nat.
Variable build : nat -> meth -> option Z -> option Z -> res Obj.
Variable exec : Obj -> res unit.
Variable Analysis : Type.
Variable analyse : nat -> res Analysis.
Notation history := (history Obj dim build exec Analysis analyse).
Lemma not_run_yet l : ~ In Run l -> analysis Obj Analysis (history l) = None /\ forall m, objs Obj Analysis (history l) m = None.
Proof.
  induction l as [|o l IH] using rev_ind; intros H; [split; reflexivity|]. unfold SummaryModel.history in *. rewrite fold_left_app. cbn [fold_left].
  destruct IH as [I1 I2]; [intros X; apply H; apply in_or_app; now left|]. set (s := fold_left _ l _) in *.
  destruct o as [k v| |n|n|k v]; cbn [step].
  - unfold SummaryModel.setMethodActive. destruct (acts Obj Analysis s k); [destruct v|]; split; assumption.
  - destruct H. apply in_or_app. right. now left.
  - split; assumption.
  - split; assumption.
  - split; assumption.
Qed.
Theorem C77_before_run analysisR2 objR2 objQ2 detect round2 show censored l p g P G :
  Forall documented l -> ~ In Run l -> percent p = Ok P -> percent g = Ok G ->
  SummaryPrintModel.getResults Obj dim Analysis analysisR2 objR2 objQ2 detect round2 show censored p g (history l) = Raise AttributeError.
Proof.
  intros Hl HR HP HG. destruct (not_run_yet l HR) as [NA NO].
  assert (HF : forall m, active (acts Obj Analysis (history l)) m = Ok (flag m (rev l))).
  { intros m. apply agrees_active. now apply (history_spec Obj dim build exec Analysis analyse l Hl). }
  unfold SummaryPrintModel.getResults, SummaryModel.buildPrintResults, header, the_analysis. rewrite HP, HG, NA, !NO, !HF. cbn [bind].
  destruct (flag Gauss (rev l)); [reflexivity|]. cbn [orb]. destruct (flag Bin (rev l)); [reflexivity|]. cbn [orb bind].
  destruct (flag KS (rev l)); [reflexivity|]. cbn [bind]. destruct (flag QR (rev l)); [reflexivity|]. cbn [bind].
  destruct (flag Chaos (rev l)); [reflexivity|]. cbn [bind]. destruct (Nat.leb dim 1); cbn [bind]; [reflexivity|].
  destruct (flag Kriging (rev l)); reflexivity.
Qed.
Theorem C70_before_run censored drawAnalysis drawPOD drawLinearModel drawValidationGraph box l p g :
  ~ In Run l -> drawGraphs Obj dim Analysis censored drawAnalysis drawPOD drawLinearModel drawValidationGraph box p g (history l) = Raise AttributeError.
Proof. intros HR. destruct (not_run_yet l HR) as [NA _]. unfold drawGraphs, the_analysis. rewrite NA. now destruct (box_truth box). Qed.
End BeforeRun.
Print Assumptions C77_before_run.
Print Assumptions C70_before_run.
(** The hypotheses hold for a new object with two settings changed. *)
Example C77_before_run_case : Forall documented [SetActive "Kriging" (PBool false); SetSim 10] /\ ~ In Run [SetActive "Kriging" (PBool false); SetSim 10] /\
  exists P G, percent p90 = Ok P /\ percent p95 = Ok G.
Proof. split; [repeat constructor|]. split; [intros [H|[H|[]]]; discriminate|]. eexists _, _. split; vm_compute; reflexivity. Qed.
