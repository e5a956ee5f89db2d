(** C76: the text printed by the linear analysis. *)
From Coq Require Import Ascii String List Lia.
From Verif Require Import Base Float64 TableModel TableProps.
Import ListNotations.
Local Open Scope string_scope.
Local Open Scope list_scope.
Local Open Scope nat_scope.

(** A line shows a label and two cells: in that order, with at least one blank in between; as long as the second cell has at most 13
    characters it ends at column 61, and the third cell, with at most 13 characters, ends at column 75. *)
Definition line_shows (line a b c : string) : Prop :=
  exists i j, line = (a ++ spaces (S i) ++ b ++ spaces (S j) ++ c)%string /\
    (String.length b <= 13 -> String.length (a ++ spaces (S i) ++ b)%string = 61) /\
    (String.length b <= 13 -> String.length c <= 13 -> String.length line = 75).
(** The lines of the printed text, [ws] the warnings. *)
Definition bar : string := "--------------------------------------------------------------------------------".
Definition print_lines (a b ws : list string) : list string :=
  [bar; "         Linear model analysis results"; bar] ++ a ++ [bar; ""; bar; "         Residuals analysis results"; bar] ++ b ++ [bar; ""] ++
  match ws with [] => [""] | _ => map (append "Warning : ") ws end.

Lemma length_app a b : String.length (a ++ b)%string = String.length a + String.length b.
Proof. induction a; cbn; auto. Qed.
Lemma length_spaces n : String.length (spaces n) = n.
Proof. induction n; cbn; auto. Qed.
Lemma spaces_S n : (spaces n ++ " ")%string = spaces (S n).
Proof. induction n; cbn in *; congruence. Qed.
Lemma has_spaces n : has newline (spaces n) = false.
Proof. induction n; cbn in *; auto. Qed.
Lemma app_empty s : (s ++ "")%string = s.
Proof. induction s; cbn; congruence. Qed.
Lemma warn_lines x l : String.concat nl (map (append "Warning : ") (x :: l)) = ("Warning : " ++ String.concat (nl ++ "Warning : ") (x :: l))%string.
Proof.
  revert x. induction l as [|y l IH]; intros x; [reflexivity|].
  change (map (append "Warning : ") (x :: y :: l)) with (("Warning : " ++ x)%string :: map (append "Warning : ") (y :: l)).
  change (String.concat nl (("Warning : " ++ x)%string :: map (append "Warning : ") (y :: l))) with (("Warning : " ++ x) ++ nl ++ String.concat nl (map (append "Warning : ") (y :: l)))%string.
  rewrite IH. change (String.concat (nl ++ "Warning : ") (x :: y :: l)) with (x ++ (nl ++ "Warning : ") ++ String.concat (nl ++ "Warning : ") (y :: l))%string.
  now rewrite !string_app_assoc.
Qed.
Section Print.
Variable show : float -> string.
Definition text_of (x : cell) : string := show_cell show x.

Theorem C76_line : forall a b c, String.length (text_of a) <= 47 ->
  exists line, aligned show [a; b; c] = Ok line /\ line_shows line (text_of a) (text_of b) (text_of c).
Proof.
  intros a b c Ha. unfold aligned, text_of in *. set (A := show_cell show a) in *. set (B := show_cell show b). set (C := show_cell show c).
  eexists. split; [reflexivity|]. exists (47 - String.length A + (13 - String.length B)), (13 - String.length C). unfold ljust, rjust.
  assert (E : forall i j, (spaces i ++ " " ++ spaces j)%string = spaces (S (i + j))) by (induction i; intros j; cbn in *; [reflexivity|now rewrite IHi]).
  assert (E1 : (((A ++ spaces (47 - String.length A)) ++ " " ++ (spaces (13 - String.length B) ++ B) ++ " " ++ spaces (13 - String.length C) ++ C)%string
    = (A ++ spaces (S (47 - String.length A + (13 - String.length B))) ++ B ++ spaces (S (13 - String.length C)) ++ C)%string)).
  { rewrite <- E. rewrite !string_app_assoc. reflexivity. }
  split; [exact E1|]. split.
  - intros HB. rewrite !length_app, length_spaces. lia.
  - intros HB HC. rewrite E1, !length_app, !length_spaces. lia.
Qed.

(** The whole text: its lines are the two titles between bars, one line per row of each table, and the warnings. *)
Theorem C76_text : forall reg rs ws, reg <> [] -> rs <> [] -> rectangular reg -> rectangular rs -> clean show reg -> clean show rs ->
  (forall r, In r (reg ++ rs) -> String.length (text_of (nth 0 r (Txt ""))) <= 47) ->
  (forall w, In w ws -> has newline w = false) ->
  exists text a b, getResults show reg rs ws = Ok text /\
    split newline text = print_lines a b (filter (fun w => negb (String.eqb w "")) ws) /\
    Forall2 (fun line r => line_shows line (text_of (nth 0 r (Txt ""))) (text_of (nth 1 r (Txt ""))) (text_of (nth 2 r (Txt "")))) a reg /\
    Forall2 (fun line r => line_shows line (text_of (nth 0 r (Txt ""))) (text_of (nth 1 r (Txt ""))) (text_of (nth 2 r (Txt "")))) b rs.
Proof.
  intros reg rs ws Nreg Nrs Rreg Rrs Creg Crs Lab Hws.
  set (line := fun r : row => (ljust 47 (text_of (nth 0 r (Txt ""))) ++ " " ++ rjust 13 (text_of (nth 1 r (Txt ""))) ++ " " ++ rjust 13 (text_of (nth 2 r (Txt ""))))%string).
  assert (T : forall r, List.length r = 3 -> aligned show r = Ok (line r)) by (intros [|x [|y [|z [|]]]] E; try discriminate; reflexivity).
  assert (NL : forall t, rectangular t -> clean show t -> forall s, In s (map line t) -> has newline s = false).
  { intros t Rt Ct s Hs. apply in_map_iff in Hs. destruct Hs as (r & <- & Hr). assert (X := Rt r Hr).
    destruct r as [|x [|y [|z [|]]]]; try discriminate. unfold line, ljust, rjust, text_of. cbn [nth]. rewrite !has_app, !has_spaces.
    destruct (Ct _ x Hr) as [-> _]; [cbn; auto|]. destruct (Ct _ y Hr) as [-> _]; [cbn; auto|]. destruct (Ct _ z Hr) as [-> _]; [cbn; auto|]. reflexivity. }
  assert (SH : forall t, rectangular t -> (forall r, In r t -> In r (reg ++ rs)) ->
    Forall2 (fun line r => line_shows line (text_of (nth 0 r (Txt ""))) (text_of (nth 1 r (Txt ""))) (text_of (nth 2 r (Txt "")))) (map line t) t).
  { intros t Rt Ht. induction t as [|r t IH]; cbn [map]; constructor; [|apply IH; [intros ? ?; apply Rt; now right|intros ? ?; apply Ht; now right]].
    assert (X := Rt r (or_introl eq_refl)). assert (Y := Lab r (Ht r (or_introl eq_refl))). assert (Z := T r X). destruct r as [|x [|y [|z [|]]]]; try discriminate.
    destruct (C76_line x y z Y) as (l & El & Hl). rewrite El in Z. injection Z as <-. exact Hl. }
  unfold getResults. rewrite (map_res_ok (aligned show) line) by (intros; apply T; auto). rewrite (map_res_ok (aligned show) line) by (intros; apply T; auto). cbn [bind].
  set (a := map line reg) in *. set (b := map line rs) in *.
  eexists _, a, b. split; [reflexivity|]. split; [|split; apply SH; auto; intros r Hr; apply in_or_app; auto].
  assert (Na : a <> []) by (unfold a; destruct reg; [contradiction|discriminate]). assert (Nb : b <> []) by (unfold b; destruct rs; [contradiction|discriminate]).
  set (fs := filter (fun w => negb (String.eqb w "")) ws).
  assert (Ff : filter (fun w => negb (Nat.eqb (String.length w) 0)) ws = fs) by (apply filter_ext; intros []; reflexivity).
  rewrite some_warning_filter. fold fs. unfold warning_text. rewrite Ff.
  change (dashes 80) with bar.
  match goal with |- split _ ?t = _ => assert (E : t = String.concat nl (print_lines a b fs)) end.
  { unfold print_lines.
    assert (Ab : forall x y : list string, y <> [] -> x ++ y <> []) by (intros [|] y H; [exact H|discriminate]).
    assert (Lst : [bar; ""] ++ match fs with [] => [""] | _ :: _ => map (append "Warning : ") fs end <> []) by discriminate.
    rewrite concat_app by (discriminate || (apply Ab; discriminate)). rewrite concat_app by (assumption || discriminate).
    rewrite concat_app by (discriminate || (apply Ab; discriminate)). rewrite concat_app by (assumption || discriminate).
    rewrite concat_app by (discriminate || (destruct fs; discriminate)).
    assert (W : (if match fs with [] => false | _ :: _ => true end then "Warning : " ++ String.concat (nl ++ "Warning : ") fs else "")%string
                = String.concat nl match fs with [] => [""] | _ :: _ => map (append "Warning : ") fs end).
    { destruct fs as [|x l]; [reflexivity|]. now rewrite warn_lines. }
    rewrite W. cbn [String.concat]. rewrite !string_app_assoc. reflexivity. }
  rewrite E. apply split_concat; [discriminate|].
  intros s Hs. unfold print_lines in Hs. rewrite !in_app_iff in Hs. destruct Hs as [Hs|[Hs|[Hs|[Hs|[Hs|Hs]]]]].
  - cbn in Hs. destruct Hs as [<-|[<-|[<-|[]]]]; reflexivity.
  - now apply (NL reg).
  - cbn in Hs. destruct Hs as [<-|[<-|[<-|[<-|[<-|[]]]]]]; reflexivity.
  - now apply (NL rs).
  - cbn in Hs. destruct Hs as [<-|[<-|[]]]; reflexivity.
  - assert (G : s = "" \/ In s (map (append "Warning : ") fs)) by (destruct fs; [destruct Hs as [<-|[]]; auto|auto]).
    destruct G as [->|G]; [reflexivity|]. apply in_map_iff in G. destruct G as (w & <- & Hw). rewrite has_app. cbn. apply Hws.
    unfold fs in Hw. apply filter_In in Hw. tauto.
Qed.
End Print.
(** The text of the report really produced. *)
Theorem C76_report : forall round2 fixed2 show lambda u c vu vc boxCox,
  tests u = tests_of vu -> (forall c', c = Some c' -> tests c' = tests_of vc) ->
  (forall x, has newline (show x) = false /\ has tabulation (show x) = false) ->
  (forall x, has newline (fixed2 x) = false /\ has tabulation (fixed2 x) = false) ->
  (forall f, f = u \/ c = Some f -> has newline (distStr f) = false /\ has tabulation (distStr f) = false) ->
  exists reg rs text a b, buildPrintResults round2 fixed2 lambda u c = Ok (reg, rs) /\
    getResults show reg rs (printWarnings boxCox u c) = Ok text /\
    split newline text = print_lines a b (messages boxCox u c) /\
    Forall2 (fun line r => exists x y z, r = [x; y; z] /\ line_shows line (text_of show x) (text_of show y) (text_of show z)) a reg /\
    Forall2 (fun line r => exists x y z, r = [x; y; z] /\ line_shows line (text_of show x) (text_of show y) (text_of show z)) b rs.
Proof.
  intros round2 fixed2 show lambda u c vu vc boxCox Hu Hc Sh Fx Ds.
  destruct (C21_figures round2 fixed2 lambda u c vu vc Hu Hc) as (reg & rs & E & _ & _ & Hr & Hs & L).
  assert (Nreg : reg <> []) by (intros ->; discriminate Hr). assert (Nrs : rs <> []) by (intros ->; discriminate Hs).
  assert (CL := report_clean round2 fixed2 show lambda u c vu vc reg rs Hu Hc Sh Fx Ds E).
  assert (W := warnings_clean boxCox u c).
  assert (Lab : forall r, In r (reg ++ rs) -> String.length (text_of show (nth 0 r (Txt ""))) <= 47).
  { intros r Hin. clear Hr Hs L Nreg Nrs CL W. destruct c as [c'|].
    - specialize (Hc c' eq_refl). unfold buildPrintResults, regression_table, residual_table, rounded in E. rewrite Hu in E. cbn [tests_of computeTests lookup String.eqb Ascii.eqb Bool.eqb bind] in E.
      unfold regression_censored, residual_censored, rounded in E. rewrite Hc in E. cbn [tests_of computeTests lookup String.eqb Ascii.eqb Bool.eqb bind set_cell nth_error set_item insert_at_1] in E.
      injection E as <- <-. cbn [app In] in Hin. repeat (destruct Hin as [<-|Hin]; [cbn; lia|]). destruct Hin.
    - unfold buildPrintResults, regression_table, residual_table, rounded in E. rewrite Hu in E. cbn [tests_of computeTests lookup String.eqb Ascii.eqb Bool.eqb bind] in E.
      injection E as <- <-. cbn [app In] in Hin. repeat (destruct Hin as [<-|Hin]; [cbn; lia|]). destruct Hin. }
  assert (Rr : rectangular reg) by (intros r H; apply L, in_or_app; auto). assert (Rs : rectangular rs) by (intros r H; apply L, in_or_app; auto).
  destruct (C76_text show reg rs (printWarnings boxCox u c) Nreg Nrs Rr Rs) as (text & a & b & H1 & H2 & H3 & H4); auto.
  { intros r x H. apply CL, in_or_app; auto. }
  { intros r x H. apply CL, in_or_app; auto. }
  exists reg, rs, text, a, b. split; [exact E|]. split; [exact H1|]. split; [exact H2|].
  assert (F : forall t ls, rectangular t -> Forall2 (fun line r => line_shows line (text_of show (nth 0 r (Txt ""))) (text_of show (nth 1 r (Txt ""))) (text_of show (nth 2 r (Txt "")))) ls t ->
    Forall2 (fun line r => exists x y z, r = [x; y; z] /\ line_shows line (text_of show x) (text_of show y) (text_of show z)) ls t).
  { intros t ls Rt H. induction H as [|line r ls t H HF IH]; constructor.
    - assert (X := Rt r (or_introl eq_refl)). destruct r as [|x [|y [|z [|]]]]; try discriminate. exists x, y, z. auto.
    - apply IH. intros r' Hr'. apply Rt. now right. }
  split; apply F; assumption.
Qed.
(** Finding: the row of the fitted distribution is not aligned with the others, its text being longer than the column. *)
Theorem C76_distribution_not_aligned :
  forall (show : float -> string) d, 13 < String.length d ->
  exists line, aligned show [Txt "Fitted distribution (uncensored) :"; Txt d; Txt ""] = Ok line /\ String.length line > 75.
Proof.
  intros show d H. eexists. split; [reflexivity|]. unfold ljust, rjust. cbn [show_cell]. rewrite !length_app, !length_spaces. cbn [String.length]. lia.
Qed.
Print Assumptions C76_line.
Print Assumptions C76_text.
Print Assumptions C76_report.
Print Assumptions C76_distribution_not_aligned.
(** A line as it is printed (numbers shown as x here). *)
Example C76_example :
  aligned (fun _ => "0.12") [Txt "Slope coefficient :"; Num fone; Num fone] =
    Ok "Slope coefficient :                                      0.12          0.12" /\
  String.length "Normal(mu = 0, sigma = 1)" > 13 /\
  exists u c vu vc, tests u = tests_of vu /\ (forall c', Some c = Some c' -> tests c' = tests_of vc) /\
  (forall f, f = u \/ Some c = Some f -> has newline (distStr f) = false /\ has tabulation (distStr f) = false).
Proof.
  split; [reflexivity|]. split; [cbn; lia|].
  destruct C21_example as (u & c & vu & vc & H1 & H2 & H3 & _). exists u, c, vu, vc. auto.
Qed.
