(** C91: the objects of one PODSummary work on the same data, and the reported R2 belongs to the regression of the reported sizes, or not. *)
From Coq Require Import Reals Lra Lia List.
From Verif Require Import RealBase RegModel RegProofs RegProps LinPodModel LinPodProps BoxCoxModel BoxCoxProps LinObjModel LinObjProps AnaModel AnaProps SumDataModel.
Import ListNotations.
Local Open Scope R_scope.
Local Open Scope list_scope.

(** The rows whose signal is strictly between the given thresholds, with their signals. *)
Definition between (i : inputs) (y : R) : Prop := (forall t, i_noise i = Some t -> t < y) /\ (forall t, i_sat i = Some t -> y < t).
Definition used (i : inputs) : list (list R * R) := filter (fun p => inside (i_noise i) (i_sat i) (snd p)) (combine (i_rows i) (i_signals i)).
Lemma used_spec i r y : In (r, y) (used i) <-> In (r, y) (combine (i_rows i) (i_signals i)) /\ between i y.
Proof.
  unfold used. rewrite filter_In. cbn [snd]. unfold inside, between. rewrite andb_true_iff. split; intros [A [B C]]; (split; [exact A|]); split.
  - intros t E. rewrite E in B. now apply Rltb_true.
  - intros t E. rewrite E in C. now apply Rltb_true.
  - destruct (i_noise i); [|reflexivity]. apply Rltb_true. auto.
  - destruct (i_sat i); [|reflexivity]. apply Rltb_true. auto.
Qed.
Lemma filter_all {A} (f : A -> bool) l : (forall x, f x = true) -> filter f l = l.
Proof. intros H. induction l as [|x l IH]; [reflexivity|]. cbn. now rewrite H, IH. Qed.
Lemma prelim_filter {A} i (d : list (A * R)) :
  (if i_censored i then filter (fun p => inside (i_noise i) (i_sat i) (snd p)) d else d) = filter (fun p => inside (i_noise i) (i_sat i) (snd p)) d.
Proof. unfold i_censored. destruct (i_noise i) eqn:E1, (i_sat i) eqn:E2; try reflexivity. symmetry. now apply filter_all. Qed.
Lemma filter_fst {A B} (g : A -> B) (f : R -> bool) (rows : list A) (sig : list R) :
  filter (fun p => f (snd p)) (combine (map g rows) sig) = map (fun p => (g (fst p), snd p)) (filter (fun p => f (snd p)) (combine rows sig)).
Proof.
  revert sig. induction rows as [|r rows IH]; intros [|y sig]; try reflexivity. cbn [map combine filter snd]. rewrite IH. destruct (f y); reflexivity.
Qed.
Lemma pairs_used i : filter (fun p => inside (i_noise i) (i_sat i) (snd p)) (pairs i) = map (fun p => (hd 0 (fst p), snd p)) (used i).
Proof. unfold pairs, first_column, used. apply filter_fst. Qed.

Lemma pod_run_length opt sig det no sa bx ce o : pod_run opt sig det no sa bx ce = Ok o -> List.length (o_signals o) = List.length sig.
Proof.
  unfold pod_run. destruct bx; [|intros [= <-]; reflexivity]. destruct (auto_shift sig) as [sh|]; [|discriminate]. cbn [bind]. destruct (opt sig sh) as [lam|]; [|discriminate]. cbn [bind].
  destruct (map_res _ sig) as [sg|] eqn:F; [|discriminate]. cbn [bind]. repeat match goal with |- context [do _ <- ?x; _] => destruct x; [|discriminate]; cbn [bind] end. intros [= <-].
  apply map_res_inv in F. cbn [o_signals]. clear - F. induction F; cbn; congruence.
Qed.

(** *** C91: the data *)
(** The preliminary treatment of the polynomial chaos and of the kriging, which see all the columns, succeeds exactly when the one of the quantile
    regression, which sees the first, does, with the same signals, threshold and Box-Cox parameter; the rows are those of the observations strictly
    between the thresholds, in order. Whenever the linear fit succeeds so do they, and it is a fit of exactly these sizes and signals, with the
    same threshold and parameter; it only fails when they do, when no observation is left, or when its optimiser does. *)
Theorem C91_same_data (s : solver) (i : inputs) :
  (forall rows o, meta_data (s_opt s) i = Ok (rows, o) -> rows = map fst (used i) /\ quantile_data (s_opt s) i = Ok (map (fun r => [hd 0 r]) rows, o)) /\
  (forall e, meta_data (s_opt s) i = Raise e <-> quantile_data (s_opt s) i = Raise e) /\
  (forall l, linear_fit s i = Ok l -> exists rows o, meta_data (s_opt s) i = Ok (rows, o) /\ used i <> [] /\
     l_obs l = combine (map (hd 0) rows) (o_signals o) /\ l_det l = o_detection o /\ l_lambda l = o_lambda o) /\
  (forall e, linear_fit s i = Raise e -> meta_data (s_opt s) i = Raise e \/ used i = [] \/
     (i_censored i = true /\ exists st d xn xs n t, s_fit s st d xn xs n t = Raise e)).
Proof.
  unfold meta_data, quantile_data, prelim. rewrite !prelim_filter. fold (used i).
  assert (Q : filter (fun p => inside (i_noise i) (i_sat i) (snd p)) (combine (map (fun x => [x]) (first_column (i_rows i))) (i_signals i)) = map (fun p => ([hd 0 (fst p)], snd p)) (used i)).
  { unfold first_column. rewrite map_map. apply (filter_fst (fun r : list R => [hd 0 r])). }
  rewrite Q, !map_map. cbn [fst snd].
  split; [|split; [|split]].
  - intros rows o. destruct (pod_run _ _ _ _ _ _ _) as [o'|] eqn:E; [|discriminate]. cbn [bind]. intros [= <- <-]. split; [reflexivity|]. now rewrite map_map.
  - intros e. destruct (pod_run _ _ _ _ _ _ _) as [o'|]; cbn [bind]; [split; discriminate|reflexivity].
  - intros l. unfold linear_fit, computeLinearModel. cbn [linear_settings c_det c_noise c_sat c_boxcox c_censored]. rewrite prelim_filter, pairs_used, !map_map. cbn [fst snd].
    destruct (pod_run _ _ _ _ _ _ _) as [o|] eqn:E; [|discriminate]. cbn [bind]. rewrite <- (map_map fst (hd 0) (used i)).
    assert (NE : combine (map (hd 0) (map fst (used i))) (o_signals o) <> [] -> used i <> []) by (intros H F; rewrite F in H; cbn in H; congruence).
    destruct (combine (map (hd 0) (map fst (used i))) (o_signals o)) as [|q qs] eqn:Eo; [discriminate|]. rewrite <- Eo. specialize (NE ltac:(discriminate)). rewrite map_map in Eo |- *.
    intros H. exists (map fst (used i)), o. split; [reflexivity|]. split; [exact NE|]. rewrite (map_map fst (hd 0)). revert H. destruct (ols _) as [a b]. destruct (i_censored i).
    + destruct (s_fit _ _ _ _ _ _ _) as [[[a' b'] se']|]; [|discriminate]. cbn [bind]. intros [= <-]. cbn. repeat split.
    + intros [= <-]. cbn. repeat split.
  - intros e. unfold linear_fit, computeLinearModel. cbn [linear_settings c_det c_noise c_sat c_boxcox c_censored]. rewrite prelim_filter, pairs_used, !map_map. cbn [fst snd].
    destruct (pod_run _ _ _ _ _ _ _) as [o|] eqn:E; cbn [bind]; [|intros [= ->]; now left]. destruct (used i) as [|u us] eqn:U; [auto|]. intros H. right. right.
    assert (L : List.length (o_signals o) = List.length (u :: us)).
    { apply pod_run_length in E. now rewrite map_length in E. }
    destruct (o_signals o) as [|y ys]; [discriminate|]. cbn [map combine] in H. revert H. destruct (ols _) as [a b]. destruct (i_censored i); [|discriminate].
    destruct (s_fit _ _ _ _ _ _ _) as [[[a' b'] se']|] eqn:F; cbn [bind]; [discriminate|]. intros [= ->]. split; [reflexivity|]. do 6 eexists. exact F.
Qed.

(** *** C91: the R2 of the report *)
Lemma censored_iff i : i_censored i = false <-> i_noise i = None /\ i_sat i = None.
Proof. unfold i_censored. destruct (i_noise i), (i_sat i); split; try discriminate; try (intros [? ?]; discriminate); auto. Qed.
Section Report.
Context {Dist Tests : Type}.
(** When boxCox is a flag, the last R2 of the analysis (the only one without censoring) is the R2 of the regression the three linear objects take
    their sizes from, and the Box-Cox parameter is the same. *)
Theorem C91_report (e : calls Dist Tests) i b a l : i_box i = Flag b -> analyse e i = Ok a -> linear_fit (e_solver e) i = Ok l ->
  last (analysis_R2 a) None = pod_R2 l /\ a_lambda a = l_lambda l /\ a_obs a = l_obs l /\
  (List.length (analysis_R2 a) = 1%nat <-> i_noise i = None /\ i_sat i = None).
Proof.
  intros HB HA HL. unfold analyse in HA. unfold linear_fit in HL.
  destruct (C83_same_as_POD e (analysis_args i) (linear_settings i) (pairs i) a HA) as [S _]; try reflexivity; [cbn; now rewrite HB|apply censored_iff|].
  specialize (S l HL). cbn zeta in S. destruct S as (S1 & S2 & _ & _ & _ & S6).
  destruct (C83_analysis _ _ _ a HA) as (T & obs & _ & _ & _ & _ & _ & _ & _ & _ & _ & _ & _ & D & _). cbn [analysis_args g_noise g_sat] in D.
  split; [|split; [now symmetry|split; [now symmetry|]]].
  - unfold analysis_R2, pod_R2. rewrite S1, S6. destruct (a_cens a); reflexivity.
  - unfold analysis_R2. destruct D as [(N1 & N2 & ->)|(NN & c & xn & xs & -> & _)]; cbn; split; auto; [discriminate|intros [? ?]; exfalso; auto].
Qed.
(** Finding: when boxCox is a number, the analysis uses it, whereas the linear objects use the one of the optimiser. *)
Theorem C91_given_lambda (e : calls Dist Tests) i lam a l : i_box i = Given lam -> analyse e i = Ok a -> linear_fit (e_solver e) i = Ok l ->
  a_lambda a = Some lam /\ exists shift opt, auto_shift (map snd (used i)) = Ok shift /\ s_opt (e_solver e) (map snd (used i)) shift = Ok opt /\ l_lambda l = Some opt.
Proof.
  intros HB HA HL. split.
  - revert HA. unfold analyse, run. cbn [analysis_args g_noise g_sat g_boxcox g_lambda]. rewrite HB. cbn [flag_of lambda_of]. destruct (analysis_run _ _ _ _ _ _) as [o|] eqn:E; [|discriminate]. cbn [bind].
    apply analysis_stage in E. destruct E as (T & _ & _ & _ & _ & _ & E6). destruct (E6 eq_refl) as (lam' & shift & E7 & _ & _ & E8 & _). specialize (E8 lam eq_refl). subst lam'.
    destruct (combine _ _) as [|q qs]; [discriminate|]. destruct (ols _) as [u w].
    repeat match goal with |- context [do _ <- ?x; _] => destruct x; [|discriminate]; cbn [bind] end. intros [= <-]. exact E7.
  - destruct (C91_same_data (e_solver e) i) as (_ & _ & S & _). destruct (S l HL) as (rows & o & M & _ & _ & _ & ->). revert M. unfold meta_data, prelim. rewrite prelim_filter. fold (used i).
    unfold pod_run. rewrite HB. cbn [flag_of]. destruct (auto_shift (map snd (used i))) as [shift|]; [|discriminate]. cbn [bind]. destruct (s_opt (e_solver e) (map snd (used i)) shift) as [opt|] eqn:E; [|discriminate]. cbn [bind].
    destruct (map_res _ _) as [sg|]; [|discriminate]. cbn [bind]. destruct (if i_censored i then bc_threshold opt shift (i_noise i) else _) as [n1|]; [|discriminate]. cbn [bind].
    destruct (if i_censored i then bc_threshold opt shift (i_sat i) else _) as [n2|]; [|discriminate]. cbn [bind]. destruct (boxcox opt _) as [dt|]; [|discriminate]. cbn [bind]. intros [= <- <-]. exists shift, opt. split; [reflexivity|]. split; [exact E|reflexivity].
Qed.
End Report.
(** The case: signals proportional to the sizes, the parameter 1 given and the parameter 2 found by the optimiser. *)
Definition line_inputs (c : choice) : inputs := {| i_rows := [[1]; [2]; [3]]; i_signals := [1; 2; 3]; i_det := 2; i_noise := None; i_sat := None; i_box := c |}.
Definition opt2 : solver := {| s_opt := fun _ _ => Ok 2; s_fit := fun st _ _ _ _ _ => Ok st |}.
Definition line_calls : calls nat unit := {| e_solver := opt2; e_build := fun k _ => Ok k; e_tests := fun _ _ _ _ _ => Ok tt |}.
Lemma line_shift : auto_shift [1; 2; 3] = Ok 0.
Proof. unfold auto_shift. replace (Rltb (Rlmin [1; 2; 3]) 0) with false; [reflexivity|]. symmetry. apply Rltb_false. cbn. unfold Rmin. repeat destruct (Rle_dec _ _); lra. Qed.
Lemma bc1 x : 0 < x -> bc 1 x = x - 1.
Proof. intros H. unfold bc. destruct (Reqb_spec 1 0); [lra|]. rewrite Rpower_1 by exact H. field. Qed.
Lemma bc2 x : 0 < x -> bc 2 x = (x * x - 1) / 2.
Proof. intros H. unfold bc. destruct (Reqb_spec 2 0); [lra|]. replace (Rpower x 2) with (x * x); [reflexivity|]. replace 2 with (INR 2) by (cbn; ring). rewrite Rpower_pow by exact H. cbn. ring. Qed.
Lemma line_analysis lam : exists a, analyse line_calls (line_inputs (Given lam)) = Ok a /\ a_obs a = [(1, bc lam 1); (2, bc lam 2); (3, bc lam 3)].
Proof.
  unfold analyse, run. cbn [analysis_args line_inputs i_noise i_sat i_box g_noise g_sat g_boxcox g_lambda flag_of lambda_of censored pairs first_column i_rows i_signals map hd combine fst snd filter under_noise over_sat line_calls e_solver e_build e_tests].
  unfold analysis_run. rewrite line_shift. cbn [bind map_res]. rewrite !boxcox_ok by lra. cbn [bind bc_threshold o_signals o_noise o_sat o_lambda combine]. rewrite !Rplus_0_r.
  destruct (ols _) as [u w]. cbn [bind]. eexists. split; reflexivity.
Qed.
Lemma line_linear c : flag_of c = true -> exists l, linear_fit opt2 (line_inputs c) = Ok l /\ l_obs l = [(1, bc 2 1); (2, bc 2 2); (3, bc 2 3)].
Proof.
  intros F. unfold linear_fit, computeLinearModel. cbn [linear_settings line_inputs c_det c_noise c_sat c_boxcox c_censored i_censored i_noise i_sat i_box pairs first_column i_rows i_signals map hd combine fst snd i_det]. rewrite F.
  unfold pod_run. rewrite line_shift. cbn [bind opt2 s_opt map_res]. rewrite !boxcox_ok by lra. cbn [bind o_signals o_detection o_lambda combine]. rewrite !Rplus_0_r. destruct (ols _) as [u w]. eexists. split; reflexivity.
Qed.
Lemma line_not_constant y1 y2 y3 : non_constant [(1, y1); (2, y2); (3, y3)].
Proof. exists (1, y1), (2, y2). cbn. repeat split; auto. lra. Qed.
(** The reported R2 is 1 although the regression the sizes come from does not fit. *)
Theorem C91_reported_R2_refuted : exists i a l, analyse line_calls i = Ok a /\ linear_fit opt2 i = Ok l /\ analysis_R2 a = [Some 1] /\ exists r, pod_R2 l = Some r /\ r < 1.
Proof.
  exists (line_inputs (Given 1)). destruct (line_analysis 1) as (a & HA & OA). destruct (line_linear (Given 1) eq_refl) as (l & HL & OL).
  exists a, l. split; [exact HA|]. split; [exact HL|]. rewrite !bc1 in OA by lra. rewrite !bc2 in OL by lra.
  destruct (C83_analysis line_calls (analysis_args (line_inputs (Given 1))) (pairs (line_inputs (Given 1))) a HA) as (T & obs & _ & _ & _ & Ho & _ & _ & [Hr _] & Eu & _ & _ & _ & D & _).
  assert (RS : r_resid (a_unc a) = residuals (r_a (a_unc a)) (r_b (a_unc a)) (a_obs a)) by (rewrite Hr, Ho; unfold residuals; rewrite map_map; reflexivity).
  assert (NA : non_constant (a_obs a)) by (rewrite OA; apply line_not_constant).
  destruct (C19_R2_range (a_obs a) _ _ NA Eu) as [RN RO]. rewrite <- RS in RN, RO.
  assert (S0 := ols_residuals_sum _ _ _ NA Eu). assert (S1 := ols_residuals_orth _ _ _ NA Eu).
  split.
  - unfold analysis_R2. destruct D as [(_ & _ & ->)|(NN & _)]; [|exfalso; apply NN; split; reflexivity]. f_equal.
    destruct (computeR2 (map snd (a_obs a)) (r_resid (a_unc a))) as [r|] eqn:ER.
    + f_equal. apply (RO r eq_refl). rewrite RS, OA. rewrite OA in S0, S1. unfold residuals in *. cbn [map fst snd] in *. rewrite !Rsum_cons, Rsum_nil in S0, S1. unfold linear in *.
      set (u := r_a (a_unc a)) in *. set (w := r_b (a_unc a)) in *. intros x [<-|[<-|[<-|[]]]]; lra.
    + exfalso. destruct RN as [RN _]. specialize (RN eq_refl (1, 1 - 1) (2, 2 - 1)). rewrite OA in RN. cbn in RN. specialize (RN ltac:(auto) ltac:(auto)). lra.
  - assert (NL : non_constant (l_obs l)) by (rewrite OL; apply line_not_constant).
    assert (EL : ols (l_obs l) = (l_a l, l_b l) /\ l_resid l = residuals (l_a l) (l_b l) (l_obs l)).
    { clear - HL. revert HL. unfold linear_fit, computeLinearModel. cbn [linear_settings c_censored line_inputs i_censored i_noise i_sat]. destruct (pod_run _ _ _ _ _ _ _) as [o|]; [|discriminate]. cbn [bind].
      destruct (combine _ (o_signals o)) as [|q qs] eqn:Eq; [discriminate|]. destruct (ols (q :: qs)) as [u w] eqn:Eu. intros [= <-]. cbn. split; [exact Eu|reflexivity]. }
    destruct EL as [EL ER]. destruct (C19_R2_range (l_obs l) _ _ NL EL) as [LN LO]. rewrite <- ER in LN, LO. unfold pod_R2. destruct (computeR2 (map snd (l_obs l)) (l_resid l)) as [r|] eqn:E2.
    + exists r. split; [reflexivity|]. destruct (LO r eq_refl) as [[_ R1] RQ]. destruct (Req_dec r 1) as [E|]; [|lra]. exfalso. assert (Z := proj1 RQ E). rewrite ER, OL in Z. unfold residuals, linear in Z. cbn [map fst snd] in Z.
      assert (Z1 := Z _ (or_introl eq_refl)). assert (Z2 := Z _ (or_intror (or_introl eq_refl))). assert (Z3 := Z _ (or_intror (or_intror (or_introl eq_refl)))). lra.
    + exfalso. destruct LN as [LN _]. specialize (LN eq_refl (1, (1 * 1 - 1) / 2) (2, (2 * 2 - 1) / 2)). rewrite OL in LN. cbn in LN. specialize (LN ltac:(auto) ltac:(auto)). lra.
Qed.
Print Assumptions C91_same_data.
Print Assumptions C91_report.
Print Assumptions C91_given_lambda.
Print Assumptions C91_reported_R2_refuted.
(** Cases: two columns with censoring, where the fit exists and a row is dropped; a report with a flag; a given parameter. *)
Example C91_data_case : let i := {| i_rows := [[1; 7]; [2; 8]; [3; 9]]; i_signals := [1; 2; 3]; i_det := 2; i_noise := Some 1; i_sat := None; i_box := Flag false |} in
  used i = [([2; 8], 2); ([3; 9], 3)] /\ exists l, linear_fit opt2 i = Ok l /\ l_obs l = [(2, 2); (3, 3)].
Proof.
  cbn zeta. assert (T1 : Rltb 1 1 = false) by (apply Rltb_false; lra). assert (T2 : Rltb 1 2 = true) by (apply Rltb_true; lra). assert (T3 : Rltb 1 3 = true) by (apply Rltb_true; lra). split.
  - unfold used, inside. cbn [i_noise i_sat i_rows i_signals combine filter snd]. now rewrite T1, T2, T3.
  - unfold linear_fit, computeLinearModel, inside. cbn [linear_settings c_det c_noise c_sat c_boxcox c_censored i_censored i_noise i_sat i_box pairs first_column i_rows i_signals i_det map hd combine filter fst snd flag_of]. rewrite T1, T2, T3.
    cbn [andb map fst snd pod_run bind o_signals o_noise o_sat o_detection o_lambda combine]. destruct (ols _) as [u w]. cbn [opt2 s_fit bind]. eexists. split; reflexivity.
Qed.
Example C91_report_case : exists a l, analyse line_calls (line_inputs (Flag false)) = Ok a /\ linear_fit (e_solver line_calls) (line_inputs (Flag false)) = Ok l.
Proof.
  unfold analyse, run, linear_fit, computeLinearModel, analysis_run, pod_run. cbn -[ols stderr]. match goal with |- context [ols ?x] => destruct (ols x) as [u w] end. do 2 eexists. split; reflexivity.
Qed.
Example C91_given_case : exists a l, analyse line_calls (line_inputs (Given 1)) = Ok a /\ linear_fit (e_solver line_calls) (line_inputs (Given 1)) = Ok l.
Proof. destruct (line_analysis 1) as (a & HA & _). destruct (line_linear (Given 1) eq_refl) as (l & HL & _). exists a, l. split; [exact HA|exact HL]. Qed.
