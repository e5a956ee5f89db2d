(** C21, C22: report of the linear analysis. *)
From Verif Require Import Base Float64 TableModel.
From Coq Require Import Ascii String SpecFloat.
Local Open Scope string_scope.
Local Open Scope list_scope.

(** *** Specification vocabulary *)
(** The eight figures, with the words a reader knows them by. *)
Inductive figure := R2 | AndersonDarling | CramerVonMises | ZeroMean | Kolmogorov | BreuschPagan | HarrisonMcCabe | DurbinWatson.
Definition all_figures := [R2; AndersonDarling; CramerVonMises; ZeroMean; Kolmogorov; BreuschPagan; HarrisonMcCabe; DurbinWatson].
(** The row of each figure: section title and label. *)
Definition section_of (f : figure) : string :=
  match f with
  | R2 => "Quality of regression" | AndersonDarling | CramerVonMises => "Normality test" | ZeroMean => "Zero residual mean test"
  | Kolmogorov => "Distribution fitting test" | BreuschPagan | HarrisonMcCabe => "Homoskedasticity test (constant variance)"
  | DurbinWatson => "Non autocorrelation test"
  end.
Definition label_of (f : figure) : string :=
  match f with
  | R2 => "R2 (> 0.8):" | AndersonDarling => "Anderson Darling p-value (> 0.05):" | CramerVonMises => "Cramer Von Mises p-value (> 0.05):"
  | ZeroMean => "p-value (> 0.05):" | Kolmogorov => "Kolmogorov p-value (> 0.05):" | BreuschPagan => "Breush Pagan p-value (> 0.05):"
  | HarrisonMcCabe => "Harrison McCabe p-value (> 0.05):" | DurbinWatson => "Durbin Watson p-value (> 0.05):"
  end.
(** The figures given to the report. *)
Definition tests_of (v : figure -> float) : dict :=
  computeTests (v R2) (v AndersonDarling) (v CramerVonMises) (v ZeroMean) (v Kolmogorov) (v BreuschPagan) (v HarrisonMcCabe) (v DurbinWatson).
Definition is_label (s : string) (r : row) : bool := match r with Txt t :: _ => String.eqb s t | _ => false end.
Definition is_num (c : cell) : bool := match c with Num _ => true | Txt _ => false end.
(** Title of the section a row belongs to: the last row above with a label and two empty cells. *)
Definition is_title (r : row) : option string := match r with [Txt (String a s); Txt ""; Txt ""] => Some (String a s) | _ => None end.
Fixpoint sections (current : string) (t : table) : list (string * row) :=
  match t with [] => [] | r :: t' => let c := match is_title r with Some s => s | None => current end in (c, r) :: sections c t' end.
(** The rows of a table with the given label, with their sections. *)
Definition rows_of (s : string) (t : table) : list (string * row) := filter (fun sr => is_label s (snd sr)) (sections "" t).
(** Column titles: the only row with the text "Uncensored". *)
Definition is_header (r : row) : bool := match r with [Txt ""; Txt s; _] => String.eqb s "Uncensored" | _ => false end.
(** Second column: empty without censoring. *)
Definition second {A} (c : option A) (f : A -> cell) : cell := match c with Some x => f x | None => Txt "" end.

Section C21.
Variable round2 : float -> float.
Variable fixed2 : float -> string.
Variable show : float -> string.
Variable lambda : option float.
Variables u : figures.
Variable c : option figures.
Variables vu vc : figure -> float.
Hypothesis Hu : tests u = tests_of vu.
Hypothesis Hc : forall c', c = Some c' -> tests c' = tests_of vc.
Notation build := (buildPrintResults round2 fixed2 lambda u c).

(** Every figure is in one row only, under its own title and label, each value in the column of its data; no other cell of the
    residual table is a number. *)
Theorem C21_figures :
  exists reg rs, build = Ok (reg, rs) /\
  (forall f, rows_of (label_of f) (reg ++ rs) = [(section_of f, [Txt (label_of f); Num (round2 (vu f)); second c (fun _ => Num (round2 (vc f)))])]) /\
  (forall r, In r rs -> existsb is_num r = true -> exists f, f <> R2 /\ is_label (label_of f) r = true) /\
  filter is_header reg = [[Txt ""; Txt "Uncensored"; second c (fun _ => Txt "Censored")]] /\
  filter is_header rs = [[Txt ""; Txt "Uncensored"; second c (fun _ => Txt "Censored")]] /\
  (forall r, In r (reg ++ rs) -> List.length r = 3).
Proof.
  destruct c as [c'|].
  - specialize (Hc c' eq_refl). unfold buildPrintResults, regression_table, residual_table, rounded. rewrite Hu. cbn [tests_of computeTests lookup String.eqb Ascii.eqb Bool.eqb bind].
    unfold regression_censored, residual_censored, rounded. rewrite Hc. cbn [tests_of computeTests lookup String.eqb Ascii.eqb Bool.eqb bind].
    do 2 eexists. split; [reflexivity|]. split; [|split; [|split; [destruct lambda; reflexivity|split; [reflexivity|]]]].
    + intros []; destruct lambda; reflexivity.
    + intros r Hr Hn. cbn [In] in Hr.
      repeat (destruct Hr as [<-|Hr]; [first [discriminate Hn | now eexists AndersonDarling | now eexists CramerVonMises | now eexists ZeroMean | now eexists Kolmogorov | now eexists BreuschPagan | now eexists HarrisonMcCabe | now eexists DurbinWatson]|]). destruct Hr.
    + intros r Hr. cbn [app In] in Hr. repeat (destruct Hr as [<-|Hr]; [reflexivity|]). destruct Hr.
  - unfold buildPrintResults, regression_table, residual_table, rounded. rewrite Hu. cbn [tests_of computeTests lookup String.eqb Ascii.eqb Bool.eqb bind].
    do 2 eexists. split; [reflexivity|]. split; [|split; [|split; [destruct lambda; reflexivity|split; [reflexivity|]]]].
    + intros []; destruct lambda; reflexivity.
    + intros r Hr Hn. cbn [In] in Hr.
      repeat (destruct Hr as [<-|Hr]; [first [discriminate Hn | now eexists AndersonDarling | now eexists CramerVonMises | now eexists ZeroMean | now eexists Kolmogorov | now eexists BreuschPagan | now eexists HarrisonMcCabe | now eexists DurbinWatson]|]). destruct Hr.
    + intros r Hr. cbn [app In] in Hr. repeat (destruct Hr as [<-|Hr]; [reflexivity|]). destruct Hr.
Qed.
(** The rows of both tables, in order; a censored analysis adds the row of its fitted law after that of the uncensored one. *)
Definition label (r : row) : string := match r with Txt s :: _ => s | _ => "?" end.
Theorem C21_rows :
  exists reg rs, build = Ok (reg, rs) /\
  map label reg = ["Box Cox parameter :"; ""; ""; ""; "Intercept coefficient :"; "Slope coefficient :"; "Standard error of the estimate :"; "";
    "Confidence interval on coefficients"; "Intercept coefficient :"; "Slope coefficient :"; "Level :"; ""; "Quality of regression"; "R2 (> 0.8):"]%string /\
  map label rs = ("Fitted distribution (uncensored) :" :: (match c with Some _ => ["Fitted distribution (censored) :"] | None => [] end) ++
    [""; ""; "Distribution fitting test"; "Kolmogorov p-value (> 0.05):"; ""; "Normality test"; "Anderson Darling p-value (> 0.05):"; "Cramer Von Mises p-value (> 0.05):"; "";
     "Zero residual mean test"; "p-value (> 0.05):"; ""; "Homoskedasticity test (constant variance)"; "Breush Pagan p-value (> 0.05):"; "Harrison McCabe p-value (> 0.05):"; "";
     "Non autocorrelation test"; "Durbin Watson p-value (> 0.05):"])%string.
Proof.
  destruct c as [c'|].
  - specialize (Hc c' eq_refl). unfold buildPrintResults, regression_table, residual_table, rounded. rewrite Hu. cbn [tests_of computeTests lookup String.eqb Ascii.eqb Bool.eqb bind].
    unfold regression_censored, residual_censored, rounded. rewrite Hc. cbn [tests_of computeTests lookup String.eqb Ascii.eqb Bool.eqb bind].
    do 2 eexists. split; [reflexivity|]. split; reflexivity.
  - unfold buildPrintResults, regression_table, residual_table, rounded. rewrite Hu. cbn [tests_of computeTests lookup String.eqb Ascii.eqb Bool.eqb bind].
    do 2 eexists. split; [reflexivity|]. split; reflexivity.
Qed.
(** Coefficients: estimate rows above, interval rows under their title; no interval is shown for the censored regression. *)
Theorem C21_coefficients :
  exists reg rs, build = Ok (reg, rs) /\
  rows_of "Intercept coefficient :" reg =
    [("", [Txt "Intercept coefficient :"; Num (round2 (intercept u)); second c (fun c' => Num (round2 (intercept c')))]);
     ("Confidence interval on coefficients", [Txt "Intercept coefficient :"; Txt ("[" ++ fixed2 (fst (fst (confInt u))) ++ ", " ++ fixed2 (snd (fst (confInt u))) ++ "]")%string; Txt ""])] /\
  rows_of "Slope coefficient :" reg =
    [("", [Txt "Slope coefficient :"; Num (round2 (slope u)); second c (fun c' => Num (round2 (slope c')))]);
     ("Confidence interval on coefficients", [Txt "Slope coefficient :"; Txt ("[" ++ fixed2 (fst (snd (confInt u))) ++ ", " ++ fixed2 (snd (snd (confInt u))) ++ "]")%string; Txt ""])] /\
  rows_of "Standard error of the estimate :" reg =
    [("", [Txt "Standard error of the estimate :"; Num (round2 (stderr u)); second c (fun c' => Num (round2 (stderr c')))])] /\
  rows_of "Box Cox parameter :" reg =
    [("", [Txt "Box Cox parameter :"; match lambda with Some l => Num (round2 l) | None => Txt "Not enabled" end; Txt ""])] /\
  filter (is_label "Fitted distribution (uncensored) :") rs = [[Txt "Fitted distribution (uncensored) :"; Txt (distStr u); Txt ""]] /\
  filter (is_label "Fitted distribution (censored) :") rs =
    match c with Some c' => [[Txt "Fitted distribution (censored) :"; Txt (distStr c'); Txt ""]] | None => [] end.
Proof.
  destruct c as [c'|].
  - specialize (Hc c' eq_refl). unfold buildPrintResults, regression_table, residual_table, rounded. rewrite Hu. cbn [tests_of computeTests lookup String.eqb Ascii.eqb Bool.eqb bind].
    unfold regression_censored, residual_censored, rounded. rewrite Hc. cbn [tests_of computeTests lookup String.eqb Ascii.eqb Bool.eqb bind].
    do 2 eexists. split; [reflexivity|]. repeat split; destruct lambda; reflexivity.
  - unfold buildPrintResults, regression_table, residual_table, rounded. rewrite Hu. cbn [tests_of computeTests lookup String.eqb Ascii.eqb Bool.eqb bind].
    do 2 eexists. split; [reflexivity|]. repeat split; destruct lambda; reflexivity.
Qed.
End C21.

(** *** The saved file can be read back *)
Fixpoint split (sep : ascii) (s : string) : list string :=
  match s with
  | "" => [""]
  | String a s' => if Ascii.eqb a sep then "" :: split sep s'
                   else match split sep s' with [] => [String a ""] | x :: l => String a x :: l end
  end.
Fixpoint has (sep : ascii) (s : string) : bool := match s with "" => false | String a s' => Ascii.eqb a sep || has sep s' end.
Lemma split_not_nil sep s : split sep s <> [].
Proof. destruct s as [|a s]; cbn; [discriminate|]. destruct (Ascii.eqb a sep); [discriminate|]. destruct (split sep s); discriminate. Qed.
Lemma split_app sep s t : has sep s = false -> split sep (s ++ String sep t)%string = s :: split sep t.
Proof.
  induction s as [|a s IH]; cbn; intros H; [now rewrite Ascii.eqb_refl|]. apply orb_false_elim in H. destruct H as [H1 H2].
  rewrite H1, IH by assumption. reflexivity.
Qed.
Lemma split_none sep s : has sep s = false -> split sep s = [s].
Proof.
  induction s as [|a s IH]; cbn; intros H; [reflexivity|]. apply orb_false_elim in H. destruct H as [H1 H2]. now rewrite H1, IH.
Qed.
Lemma split_concat sep l : l <> [] -> (forall s, In s l -> has sep s = false) -> split sep (String.concat (String sep "") l) = l.
Proof.
  induction l as [|x l IH]; intros H Hl; [contradiction|]. destruct l as [|y l]; [cbn; apply split_none, Hl; now left|].
  change (String.concat (String sep "") (x :: y :: l)) with (x ++ String sep (String.concat (String sep "") (y :: l)))%string.
  rewrite split_app by (apply Hl; now left). f_equal. apply IH; [discriminate|]. intros s Hs. apply Hl. now right.
Qed.
Lemma string_app_assoc a b c : ((a ++ b) ++ c = a ++ (b ++ c))%string.
Proof. induction a; cbn; congruence. Qed.
Lemma has_app sep a b : has sep (a ++ b)%string = has sep a || has sep b.
Proof. induction a; cbn; [reflexivity|]. now rewrite IHa, orb_assoc. Qed.
Lemma concat_app sep (a b : list string) : a <> [] -> b <> [] -> String.concat sep (a ++ b) = (String.concat sep a ++ sep ++ String.concat sep b)%string.
Proof.
  induction a as [|x a IH]; intros Ha Hb; [contradiction|]. destruct a as [|y a].
  - cbn. destruct b; [contradiction|reflexivity].
  - change ((x :: y :: a) ++ b) with (x :: (y :: a) ++ b).
    change (String.concat sep (x :: (y :: a) ++ b)) with (x ++ sep ++ String.concat sep ((y :: a) ++ b))%string.
    rewrite IH by (discriminate || assumption).
    change (String.concat sep (x :: y :: a)) with (x ++ sep ++ String.concat sep (y :: a))%string. now rewrite !string_app_assoc.
Qed.
Lemma map_res_ok {A B} (f : A -> res B) g l : (forall x, In x l -> f x = Ok (g x)) -> map_res f l = Ok (map g l).
Proof.
  induction l as [|x l IH]; intros H; [reflexivity|]. cbn. rewrite H by now left. cbn. rewrite IH by (intros; apply H; now right). reflexivity.
Qed.

Lemma some_warning_filter ws : some_warning ws = match filter (fun w => negb (String.eqb w "")) ws with [] => false | _ => true end.
Proof.
  unfold some_warning. assert (G : forall l : list string, List.length (filter (String.eqb "") l) <= List.length l).
  { induction l as [|x l IH]; [constructor|]. cbn [filter]. destruct (String.eqb "" x); cbn [List.length]; lia. }
  induction ws as [|x ws IH]; [reflexivity|]. cbn [filter]. rewrite (String.eqb_sym x ""). destruct (String.eqb "" x); cbn [List.length negb].
  - exact IH.
  - assert (X := G ws). destruct (Nat.eqb_spec (List.length (filter (String.eqb "") ws)) (S (List.length ws))); [lia|reflexivity].
Qed.
Definition newline := ascii_of_nat 10.
Definition tabulation := ascii_of_nat 9.
(** Every line of the file, in order: the titles, the rows of both tables and one line per warning. *)
Definition file_lines (a b ws : list string) : list string :=
  ["Linear model analysis results"; ""] ++ a ++ [""; "Residuals analysis results"; ""] ++ b ++
  match ws with [] => [] | _ => "" :: map (append "Warning : ") ws end.
Section Saved.
Variable show : float -> string.
(** Neither tabulation nor new line in the cells. *)
Definition clean (t : table) : Prop := forall r c, In r t -> In c r -> has newline (show_cell show c) = false /\ has tabulation (show_cell show c) = false.
Definition rectangular (t : table) : Prop := forall r, In r t -> List.length r = 3.
(** Reading the file line by line, then each line at the tabulations, gives back the titles, every cell of the two tables and the
    messages that are not empty. *)
Theorem C21_saved_file_reads_back :
  forall reg rs ws, reg <> [] -> rs <> [] -> rectangular reg -> rectangular rs -> clean reg -> clean rs ->
  (forall w, In w ws -> has newline w = false) ->
  exists text a b, saveResults show reg rs ws = Ok text /\
  split newline text = file_lines a b (filter (fun w => negb (String.eqb w "")) ws) /\
  map (split tabulation) a = map (map (show_cell show)) reg /\ map (split tabulation) b = map (map (show_cell show)) rs.
Proof.
  intros reg rs ws Nreg Nrs Rreg Rrs Creg Crs Hws.
  set (line := fun r : row => String.concat tab (map (show_cell show) r)).
  assert (T : forall r, List.length r = 3 -> tsv show r = Ok (line r)).
  { intros [|x [|y [|z [|]]]] E; try discriminate. unfold line. cbn [tsv map String.concat]. reflexivity. }
  assert (SP : forall t, rectangular t -> clean t -> map (split tabulation) (map line t) = map (map (show_cell show)) t).
  { intros t Rt Ct. rewrite map_map. apply map_ext_in. intros r Hr. unfold line. apply split_concat.
    - intros E. apply map_eq_nil in E. assert (X := Rt r Hr). rewrite E in X. discriminate.
    - intros s Hs. apply in_map_iff in Hs. destruct Hs as (x & <- & Hx). now apply (Ct r x). }
  assert (NL : forall t, rectangular t -> clean t -> forall s, In s (map line t) -> has newline s = false).
  { intros t Rt Ct s Hs. apply in_map_iff in Hs. destruct Hs as (r & <- & Hr). assert (X := Rt r Hr).
    destruct r as [|x [|y [|z [|]]]]; try discriminate. unfold line. cbn [map String.concat]. rewrite !has_app.
    destruct (Ct _ x Hr) as [-> _]; [cbn; auto|]. destruct (Ct _ y Hr) as [-> _]; [cbn; auto|]. destruct (Ct _ z Hr) as [-> _]; [cbn; auto|]. reflexivity. }
  unfold saveResults. rewrite (map_res_ok (tsv show) line) by (intros; apply T; auto). rewrite (map_res_ok (tsv show) line) by (intros; apply T; auto). cbn [bind].
  do 3 eexists. split; [reflexivity|]. split; [|split; [now apply SP|now apply SP]].
  set (a := map line reg). set (b := map line rs).
  assert (Na : a <> []) by (unfold a; destruct reg; [contradiction|discriminate]). assert (Nb : b <> []) by (unfold b; destruct rs; [contradiction|discriminate]).
  set (fs := filter (fun w => negb (String.eqb w "")) ws).
  assert (Ff : filter (fun w => negb (Nat.eqb (String.length w) 0)) ws = fs) by (apply filter_ext; intros []; reflexivity).
  assert (Sw : some_warning ws = match fs with [] => false | _ => true end).
  { unfold fs. apply some_warning_filter. }
  assert (E : forall body, (if some_warning ws then nl ++ nl ++ warning_text ws else "")%string = body ->
              ("Linear model analysis results" ++ nl ++ nl ++ String.concat nl a ++ nl ++ nl ++ "Residuals analysis results" ++ nl ++ nl ++ String.concat nl b ++ body)%string
              = String.concat nl (file_lines a b fs)).
  { intros body <-. rewrite Sw. unfold warning_text. rewrite Ff. unfold file_lines.
    rewrite concat_app by (discriminate || (destruct a; [contradiction|discriminate])). rewrite concat_app by (assumption || discriminate).
    rewrite concat_app by (discriminate || (destruct b; [contradiction|discriminate])).
    assert (W : forall x l, String.concat nl (map (append "Warning : ") (x :: l)) = ("Warning : " ++ String.concat (nl ++ "Warning : ") (x :: l))%string).
    { intros x l. revert x. induction l as [|y l IH]; intros x; [reflexivity|].
      change (map (append "Warning : ") (x :: y :: l)) with (("Warning : " ++ x)%string :: map (append "Warning : ") (y :: l)).
      change (String.concat nl (("Warning : " ++ x)%string :: map (append "Warning : ") (y :: l))) with (("Warning : " ++ x) ++ nl ++ String.concat nl (map (append "Warning : ") (y :: l)))%string.
      rewrite IH. change (String.concat (nl ++ "Warning : ") (x :: y :: l)) with (x ++ (nl ++ "Warning : ") ++ String.concat (nl ++ "Warning : ") (y :: l))%string.
      now rewrite !string_app_assoc. }
    destruct fs as [|x l].
    - rewrite app_nil_r. cbn [String.concat]. rewrite !string_app_assoc. cbn. 
      assert (Z : forall s, (s ++ "")%string = s) by (induction s; cbn; congruence). rewrite Z. reflexivity.
    - rewrite concat_app by (assumption || discriminate). 
      change (String.concat nl ("" :: map (append "Warning : ") (x :: l))) with ("" ++ nl ++ String.concat nl (map (append "Warning : ") (x :: l)))%string.
      rewrite W. cbn [String.concat]. rewrite !string_app_assoc. reflexivity. }
  rewrite (E _ eq_refl). apply split_concat.
  - discriminate.
  - intros s Hs. unfold file_lines in Hs. rewrite !in_app_iff in Hs. destruct Hs as [Hs|[Hs|[Hs|[Hs|Hs]]]].
    + cbn in Hs. destruct Hs as [<-|[<-|[]]]; reflexivity.
    + now apply (NL reg).
    + cbn in Hs. destruct Hs as [<-|[<-|[<-|[]]]]; reflexivity.
    + now apply (NL rs).
    + assert (Hs' : s = "" \/ In s (map (append "Warning : ") fs)) by (destruct fs; [destruct Hs|destruct Hs as [<-|Hs]; auto]).
      destruct Hs' as [->|Hs']; [reflexivity|]. apply in_map_iff in Hs'. destruct Hs' as (w & <- & Hw). rewrite has_app. cbn. apply Hws.
      unfold fs in Hw. apply filter_In in Hw. tauto.
Qed.
End Saved.

(** *** C22: warnings *)
(** Some stored figure is below 0.05 (an actual comparison of floats: NaN is not below). *)
Definition figure_below (v : figure -> float) : Prop := exists f, fltb (v f) (of_ratio 5 100) = true.
Lemma any_below_iff v : any_below (tests_of v) = true <-> figure_below v.
Proof.
  unfold any_below, figure_below. rewrite existsb_exists. split.
  - intros ([k x] & H & L). cbn [tests_of computeTests In] in H. cbn [snd] in L.
    repeat (destruct H as [[= <- <-]|H]; [eexists; exact L|]). destruct H.
  - intros [f L]. destruct f; [exists ("R2", v R2)|exists ("AndersonDarling", v AndersonDarling)|exists ("CramerVonMises", v CramerVonMises)|exists ("ZeroMean", v ZeroMean)|
      exists ("Kolmogorov", v Kolmogorov)|exists ("BreuschPagan", v BreuschPagan)|exists ("HarrisonMcCabe", v HarrisonMcCabe)|exists ("DurbinWatson", v DurbinWatson)];
      (split; [cbn [tests_of computeTests In]; auto 10|exact L]).
Qed.
Section C22.
Variables (boxCox : bool) (u : figures) (c : option figures) (vu vc : figure -> float).
Hypothesis Hu : tests u = tests_of vu.
Hypothesis Hc : forall c', c = Some c' -> tests c' = tests_of vc.
(** The messages that are not empty. *)
Definition messages := filter (fun w => negb (String.eqb w "")) (printWarnings boxCox u c).
Theorem C22_warnings :
  let failed := figure_below vu \/ (c <> None /\ figure_below vc) in
  (In "Some hypothesis tests failed : you may consider to use the Box Cox transformation." messages <-> failed /\ boxCox = false) /\
  (In "Some hypothesis tests failed : you may consider to use quantile regression or kriging (if input dimension > 1) to build POD." messages
     <-> failed /\ boxCox = true) /\
  (In "Confidence interval, Normality tests and zero residual mean test are given assuming the residuals follow a Normal distribution." messages
     <-> distClass u <> "Normal") /\
  (messages = [] <-> ~ failed /\ distClass u = "Normal") /\ List.length messages <= 2.
Proof.
  intros failed.
  set (fl := any_below (tests u) || match c with Some c => any_below (tests c) | None => false end).
  assert (F : fl = true <-> failed).
  { unfold fl, failed. rewrite orb_true_iff, Hu, any_below_iff. destruct c as [c'|].
    - rewrite (Hc c' eq_refl), any_below_iff. split; intros [H|H]; auto. { right. split; [discriminate|exact H]. } right. apply H.
    - split; intros [H|H]; auto; [discriminate|]. now destruct H as [[] _]. }
  assert (E : printWarnings boxCox u c = [if fl && negb boxCox then msg_boxcox else ""; if fl && boxCox then msg_other else ""; if String.eqb (distClass u) "Normal" then "" else msg_normal]) by reflexivity.
  unfold messages. rewrite E. rewrite <- F. clear E F Hu Hc failed. generalize fl. clear fl. intros fl.
  change "Some hypothesis tests failed : you may consider to use the Box Cox transformation." with msg_boxcox.
  change "Some hypothesis tests failed : you may consider to use quantile regression or kriging (if input dimension > 1) to build POD." with msg_other.
  change "Confidence interval, Normality tests and zero residual mean test are given assuming the residuals follow a Normal distribution." with msg_normal.
  assert (N1 : msg_boxcox <> msg_other) by discriminate. assert (N2 : msg_boxcox <> msg_normal) by discriminate. assert (N3 : msg_other <> msg_normal) by discriminate.
  assert (Z1 : msg_boxcox <> "") by discriminate. assert (Z2 : msg_other <> "") by discriminate. assert (Z3 : msg_normal <> "") by discriminate.
  generalize dependent msg_boxcox. generalize dependent msg_other. generalize dependent msg_normal. intros m3 Z3 m2 N3 Z2 m1 N1 N2 Z1.
  apply String.eqb_neq in Z1. apply String.eqb_neq in Z2. apply String.eqb_neq in Z3. set (C := distClass u). clearbody C.
  destruct (String.eqb_spec C "Normal") as [D|D]; destruct fl, boxCox; cbn [andb negb filter]; rewrite ?Z1, ?Z2, ?Z3; cbn [negb String.eqb In List.length];
    repeat match goal with |- _ /\ _ => split end; try lia; intuition congruence.
Qed.
(** Every accessor returns its own figure: one value, or the uncensored then the censored one. *)
Theorem C22_getters :
  forall getter f,
  In (getter, f) [(getR2, R2); (getAndersonDarlingPValue, AndersonDarling); (getCramerVonMisesPValue, CramerVonMises); (getKolmogorovPValue, Kolmogorov);
                  (getZeroMeanPValue, ZeroMean); (getBreuschPaganPValue, BreuschPagan); (getHarrisonMcCabePValue, HarrisonMcCabe); (getDurbinWatsonPValue, DurbinWatson)] ->
  exists l, getter u c = Ok l /\ map snd l = match c with Some _ => [vu f; vc f] | None => [vu f] end /\
  (forall d v, nth_error l 0 = Some (d, v) -> exists n, d = (n ++ " for uncensored case")%string) /\
  (forall d v, nth_error l 1 = Some (d, v) -> exists n, d = (n ++ " for censored case")%string).
Proof.
  assert (G : forall test description f, (forall v, lookup test (tests_of v) = Ok (v f)) ->
    exists l, getResultValue test description u c = Ok l /\ map snd l = match c with Some _ => [vu f; vc f] | None => [vu f] end /\
    (forall d v, nth_error l 0 = Some (d, v) -> exists n, d = (n ++ " for uncensored case")%string) /\
    (forall d v, nth_error l 1 = Some (d, v) -> exists n, d = (n ++ " for censored case")%string)).
  { intros test description f L. unfold getResultValue. rewrite Hu, L. cbn [bind]. destruct c as [c'|].
    - rewrite (Hc c' eq_refl), L. cbn [bind]. eexists. split; [reflexivity|]. split; [reflexivity|]. split; intros d v [= <- <-]; eexists; reflexivity.
    - eexists. split; [reflexivity|]. split; [reflexivity|]. split; [intros d v [= <- <-]; eexists; reflexivity|discriminate]. }
  intros getter f H. cbn [In] in H.
  repeat (destruct H as [H|H]; [injection H; intros Hf Hg; rewrite <- Hf, <- Hg; apply G; reflexivity|]). destruct H.
Qed.
Theorem C22_coefficient_getters :
  map snd (getIntercept u c) = match c with Some c' => [intercept u; intercept c'] | None => [intercept u] end /\
  map snd (getSlope u c) = match c with Some c' => [slope u; slope c'] | None => [slope u] end /\
  map snd (getStandardError u c) = match c with Some c' => [stderr u; stderr c'] | None => [stderr u] end.
Proof. destruct c; auto. Qed.
(** The descriptions of the values name the figure and the case. *)
Definition described (n : string) : list string :=
  match c with Some _ => [(n ++ " for uncensored case")%string; (n ++ " for censored case")%string] | None => [(n ++ " for uncensored case")%string] end.
Theorem C22_descriptions :
  (forall getter n, In (getter, n) [(getR2, "R2"); (getAndersonDarlingPValue, "Anderson Darling p-value"); (getCramerVonMisesPValue, "Cramer Von Mises p-value");
     (getKolmogorovPValue, "Kolmogorov p-value"); (getZeroMeanPValue, "Zero Mean p-value"); (getBreuschPaganPValue, "Breusch Pagan p-value");
     (getHarrisonMcCabePValue, "Harrison McCabe p-value"); (getDurbinWatsonPValue, "Durbin Watson p-value")] ->
   exists l, getter u c = Ok l /\ map fst l = described n) /\
  map fst (getIntercept u c) = described "Intercept" /\ map fst (getSlope u c) = described "Slope" /\ map fst (getStandardError u c) = described "Stderr".
Proof.
  assert (G : forall test n, (exists f, forall v, lookup test (tests_of v) = Ok (v f)) -> exists l, getResultValue test n u c = Ok l /\ map fst l = described n).
  { intros test n (f & L). unfold getResultValue, described. rewrite Hu, L. cbn [bind]. destruct c as [c'|].
    - rewrite (Hc c' eq_refl), L. cbn [bind]. eexists. split; reflexivity.
    - eexists. split; reflexivity. }
  split; [|unfold described; now destruct c].
  intros getter n H. cbn [In] in H.
  repeat (destruct H as [H|H]; [injection H; intros Hn Hg; rewrite <- Hn, <- Hg; apply G; first [now exists R2 | now exists AndersonDarling | now exists CramerVonMises | now exists ZeroMean | now exists Kolmogorov | now exists BreuschPagan | now exists HarrisonMcCabe | now exists DurbinWatson]|]). destruct H.
Qed.
End C22.
(** Finding: all the tests may pass (p-values 1) and the analysis still says that hypothesis tests failed: R2 is 0. *)
Theorem C22_r2_counts_as_a_test_refuted :
  exists u vu, tests u = tests_of vu /\ (forall f, f <> R2 -> vu f = fone) /\ distClass u = "Normal" /\
  messages false u None = ["Some hypothesis tests failed : you may consider to use the Box Cox transformation."].
Proof.
  set (vu := fun f => match f with R2 => fzero | _ => fone end).
  exists {| intercept := fone; slope := fone; stderr := fone; confInt := ((fone, fone), (fone, fone)); distStr := "d"; distClass := "Normal"; tests := tests_of vu |}, vu.
  split; [reflexivity|]. split; [intros []; (contradiction || reflexivity)|]. split; [reflexivity|]. vm_compute. reflexivity.
Qed.
(** The printed cells of the report have neither tabulation nor new line, nor have the warnings. *)
Lemma report_clean round2 fixed2 show lambda u c vu vc reg rs :
  tests u = tests_of vu -> (forall c', c = Some c' -> tests c' = tests_of vc) ->
  (forall x, has newline (show x) = false /\ has tabulation (show x) = false) ->
  (forall x, has newline (fixed2 x) = false /\ has tabulation (fixed2 x) = false) ->
  (forall f, f = u \/ c = Some f -> has newline (distStr f) = false /\ has tabulation (distStr f) = false) ->
  buildPrintResults round2 fixed2 lambda u c = Ok (reg, rs) -> clean show (reg ++ rs).
Proof.
  intros Hu Hc Sh Fx Ds E.
  assert (I : forall ci, has newline (interval_str fixed2 ci) = false /\ has tabulation (interval_str fixed2 ci) = false).
    { intros ci. unfold interval_str. rewrite !has_app. destruct (Fx (fst ci)) as [-> ->], (Fx (snd ci)) as [-> ->]. split; reflexivity. }
    Ltac cell_tac := match goal with
      | Sh : (forall x, has newline (?show x) = false /\ _) |- has _ (show_cell ?show (Num ?x)) = false /\ _ => exact (Sh x)
      | I : (forall ci, has newline (interval_str _ ci) = false /\ _) |- has _ (show_cell _ (Txt (interval_str _ ?ci))) = false /\ _ => exact (I ci)
      | D : has newline (distStr ?f) = false /\ _ |- has _ (show_cell _ (Txt (distStr ?f))) = false /\ _ => exact D
      | _ => split; reflexivity end.
    assert (Du := Ds u (or_introl eq_refl)).  intros r x Hin Hx.
    destruct c as [c'|].
    - specialize (Hc c' eq_refl). assert (Dc := Ds c' (or_intror eq_refl)). unfold buildPrintResults, regression_table, residual_table, rounded in E. rewrite Hu in E. cbn [tests_of computeTests lookup String.eqb Ascii.eqb Bool.eqb bind] in E.
      unfold regression_censored, residual_censored, rounded in E. rewrite Hc in E. cbn [tests_of computeTests lookup String.eqb Ascii.eqb Bool.eqb bind set_cell nth_error set_item insert_at_1] in E.
      injection E as <- <-. cbn [app In] in Hin.
      repeat (destruct Hin as [<-|Hin]; [cbn [In] in Hx; repeat (destruct Hx as [<-|Hx]; [destruct lambda; cell_tac|]); destruct Hx|]). destruct Hin.
    - unfold buildPrintResults, regression_table, residual_table, rounded in E. rewrite Hu in E. cbn [tests_of computeTests lookup String.eqb Ascii.eqb Bool.eqb bind] in E.
      injection E as <- <-. cbn [app In] in Hin.
      repeat (destruct Hin as [<-|Hin]; [cbn [In] in Hx; repeat (destruct Hx as [<-|Hx]; [destruct lambda; cell_tac|]); destruct Hx|]). destruct Hin.
Qed.
Lemma warnings_clean boxCox u c w : In w (printWarnings boxCox u c) -> has newline w = false.
Proof.
  intros H. unfold printWarnings in H. cbn [In] in H.
  destruct H as [<-|[<-|[<-|[]]]]; match goal with |- has _ (if ?b then _ else _) = _ => destruct b end; reflexivity.
Qed.
(** The report really produced: its two tables satisfy the hypotheses of C21_saved_file_reads_back as soon as the printed numbers and
    distributions hold neither tabulation nor new line. *)
Theorem C21_report_reads_back :
  forall round2 fixed2 show lambda u c vu vc boxCox,
  tests u = tests_of vu -> (forall c', c = Some c' -> tests c' = tests_of vc) ->
  (forall x, has newline (show x) = false /\ has tabulation (show x) = false) ->
  (forall x, has newline (fixed2 x) = false /\ has tabulation (fixed2 x) = false) ->
  (forall f, f = u \/ c = Some f -> has newline (distStr f) = false /\ has tabulation (distStr f) = false) ->
  exists reg rs text a b, buildPrintResults round2 fixed2 lambda u c = Ok (reg, rs) /\
  saveResults show reg rs (printWarnings boxCox u c) = Ok text /\
  split newline text = file_lines a b (messages boxCox u c) /\
  map (split tabulation) a = map (map (show_cell show)) reg /\ map (split tabulation) b = map (map (show_cell show)) rs.
Proof.
  intros round2 fixed2 show lambda u c vu vc boxCox Hu Hc Sh Fx Ds.
  destruct (C21_figures round2 fixed2 lambda u c vu vc Hu Hc) as (reg & rs & E & _ & _ & Hr & Hs & L).
  assert (Nreg : reg <> []) by (intros ->; discriminate Hr). assert (Nrs : rs <> []) by (intros ->; discriminate Hs).
  assert (CL := report_clean round2 fixed2 show lambda u c vu vc reg rs Hu Hc Sh Fx Ds E).
  assert (W := warnings_clean boxCox u c).
  destruct (C21_saved_file_reads_back show reg rs (printWarnings boxCox u c) Nreg Nrs) as (text & a & b & S1 & S2 & S3 & S4); auto.
  - intros r Hr'. apply L. apply in_or_app. now left.
  - intros r Hr'. apply L. apply in_or_app. now right.
  - intros r x Hr'. apply CL. apply in_or_app. now left.
  - intros r x Hr'. apply CL. apply in_or_app. now right.
  - exists reg, rs, text, a, b. auto.
Qed.
Example C21_example :
  exists u c vu vc, tests u = tests_of vu /\ (forall c', Some c = Some c' -> tests c' = tests_of vc) /\
  (forall f, f = u \/ Some c = Some f -> has newline (distStr f) = false /\ has tabulation (distStr f) = false) /\ vu Kolmogorov <> vc Kolmogorov.
Proof.
  set (F := fun v => {| intercept := fone; slope := fone; stderr := fone; confInt := ((fzero, fone), (fzero, fone)); distStr := "Normal(mu = 0, sigma = 1)"; distClass := "Normal"; tests := tests_of v |}).
  exists (F (fun _ => fone)), (F (fun _ => fzero)), (fun _ => fone), (fun _ => fzero). split; [reflexivity|]. split; [intros c' [= <-]; reflexivity|].
  split; [intros f [->|[= <-]]; split; reflexivity|discriminate].
Qed.
Print Assumptions C21_figures.
Print Assumptions C21_coefficients.
Print Assumptions C21_saved_file_reads_back.
Print Assumptions C21_report_reads_back.
Print Assumptions C22_warnings.
Print Assumptions C22_getters.
Print Assumptions C22_coefficient_getters.
Print Assumptions C22_descriptions.
Print Assumptions C22_r2_counts_as_a_test_refuted.
