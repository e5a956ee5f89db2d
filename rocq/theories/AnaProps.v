(** C83: UnivariateLinearModelAnalysis from the data to its results, samples and graphs. *)
From Coq Require Import Reals Lra String.
From Verif Require Import RealBase RegModel RegProofs RegProps LinPodModel LinPodProps BoxCoxModel BoxCoxProps QuantileModel LinObjModel LinObjProps AnaModel.
Local Open Scope R_scope.
Local Open Scope list_scope.

(** An observation is used when its signal is strictly between the thresholds that are given. *)
Definition kept (g : arguments) (y : R) : Prop := (forall t, g_noise g = Some t -> t < y) /\ (forall t, g_sat g = Some t -> y < t).
Definition keptb (g : arguments) (y : R) : bool := inside (g_noise g) (g_sat g) y.
Lemma keptb_spec g y : keptb g y = true <-> kept g y.
Proof.
  unfold keptb, kept, inside. rewrite andb_true_iff. split.
  - intros [A B]. split; intros t E; [rewrite E in A|rewrite E in B]; now apply Rltb_true.
  - intros [A B]. split.
    + destruct (g_noise g); [|reflexivity]. apply Rltb_true. auto.
    + destruct (g_sat g); [|reflexivity]. apply Rltb_true. auto.
Qed.
Lemma kept_filter g d : (if censored g then filter (fun p => inside (g_noise g) (g_sat g) (snd p)) d else d) = filter (fun p : R * R => keptb g (snd p)) d.
Proof.
  unfold keptb, censored. destruct (g_noise g), (g_sat g); try reflexivity. induction d as [|p d IH]; [reflexivity|]. cbn in *. now rewrite <- IH.
Qed.
Lemma match_ne {A B} (l : list A) (x y : B) : l <> [] -> match l with [] => x | _ => y end = y.
Proof. destruct l; [contradiction|reflexivity]. Qed.
Lemma analysis_stage opt sig no sa bx lam0 o : analysis_run opt sig no sa bx lam0 = Ok o ->
  exists T : R -> R, o_signals o = map T sig /\ (bx = false -> (forall y, T y = y) /\ o_lambda o = lam0) /\
    (forall y y', In y sig -> In y' sig -> (T y < T y' <-> y < y')) /\ o_noise o = option_map T no /\ o_sat o = option_map T sa /\
    (bx = true -> exists lam shift, o_lambda o = Some lam /\ auto_shift sig = Ok shift /\ (forall y, In y sig -> 0 < y + shift) /\
       (forall l0, lam0 = Some l0 -> lam = l0) /\ (lam0 = None -> opt sig shift = Ok lam) /\ forall y, T y = bc lam (y + shift)).
Proof.
  unfold analysis_run. destruct bx.
  - destruct (auto_shift sig) as [shift|] eqn:E1; [|discriminate]. cbn [bind]. destruct (match lam0 with None => _ | _ => _ end) as [lam|] eqn:E2; [|discriminate]. cbn [bind].
    destruct (map_res _ sig) as [sg|] eqn:E3; [|discriminate]. cbn [bind]. destruct (bc_threshold lam shift no) as [n1|] eqn:E5; [|discriminate]. cbn [bind].
    destruct (bc_threshold lam shift sa) as [n2|] eqn:E6; [|discriminate]. cbn [bind]. intros [= <-]. cbn. apply map_res_inv in E3.
    assert (Q : sg = map (fun y => bc lam (y + shift)) sig /\ forall y, In y sig -> 0 < y + shift).
    { clear -E3. induction E3 as [|x y l ys H _ [-> IH]]; [split; [reflexivity|intros ? []]|]. apply boxcox_inv in H. destruct H as [H ->].
      split; [reflexivity|]. intros z [<-|Hz]; auto. }
    destruct Q as [-> G]. exists (fun y => bc lam (y + shift)). split; [reflexivity|]. split; [discriminate|].
    split; [intros y y' Hy Hy'; rewrite bc_lt_iff by auto; split; lra|].
    assert (TH : forall t n, bc_threshold lam shift t = Ok n -> n = option_map (fun y => bc lam (y + shift)) t).
    { intros [t|] m; cbn; [|congruence]. destruct (boxcox lam (t + shift)) eqn:E; [|discriminate]. apply boxcox_inv in E. destruct E as [_ ->]. cbn. congruence. }
    split; [now apply TH|]. split; [now apply TH|]. intros _. exists lam, shift. repeat split; auto; intros; subst; congruence.
  - intros [= <-]. cbn. exists (fun y => y). rewrite map_id. repeat split; auto; [now destruct no|now destruct sa|discriminate].
Qed.

Section Analysis.
Context {Dist Tests : Type}.
Notation calls := (calls Dist Tests). Notation analysis := (analysis Dist Tests). Notation results := (results Dist Tests).
(** What one results object holds for the observations [obs] transformed by T. *)
Definition holds (obs : data) (T : R -> R) (r : results) : Prop :=
  r_resid r = map (fun p => T (snd p) - (r_a r + r_b r * fst p)) obs /\ r_fitted r = map (fun p => r_a r + r_b r * fst p) obs.

(** The results are those of the observations used, in order, with their signals changed by one increasing function; the uncensored line is the
    least squares line, the censored one what the likelihood gives started from it; the samples and thresholds are returned as given. *)
Theorem C83_analysis (e : calls) g d (a : analysis) :
  run e g d = Ok a ->
  exists (T : R -> R) (obs : data), obs = filter (fun p : R * R => keptb g (snd p)) d /\ obs <> [] /\
    (forall p, In p obs <-> In p d /\ kept g (snd p)) /\ a_obs a = map (fun p => (fst p, T (snd p))) obs /\
    (g_boxcox g = false -> forall y, T y = y) /\ (forall y y', In y (map snd obs) -> In y' (map snd obs) -> (T y < T y' <-> y < y')) /\
    holds obs T (a_unc a) /\ ols (a_obs a) = (r_a (a_unc a), r_b (a_unc a)) /\ r_se (a_unc a) = stderr (a_obs a) /\
    e_build e 0%nat (r_resid (a_unc a)) = Ok (r_dist (a_unc a)) /\
    e_tests e 0%nat (map fst obs) (map (fun p => T (snd p)) obs) (r_resid (a_unc a)) (r_dist (a_unc a)) = Ok (r_tests (a_unc a)) /\
    ((g_noise g = None /\ g_sat g = None /\ a_cens a = None) \/
     (~ (g_noise g = None /\ g_sat g = None) /\ exists c xn xs, a_cens a = Some c /\ holds obs T c /\
        xn = map fst (filter (fun p : R * R => match g_noise g with Some t => Rleb (snd p) t | None => false end) d) /\
        xs = map fst (filter (fun p : R * R => match g_sat g with Some t => Rleb t (snd p) | None => false end) d) /\
        s_fit (e_solver e) (r_a (a_unc a), r_b (a_unc a), r_se (a_unc a)) (a_obs a) xn xs (option_map T (g_noise g)) (option_map T (g_sat g)) = Ok (r_a c, r_b c, r_se c) /\
        e_build e 1%nat (r_resid c) = Ok (r_dist c) /\
        e_tests e 1%nat (map fst obs) (map (fun p => T (snd p)) obs) (r_resid c) (r_dist c) = Ok (r_tests c))) /\
    getInputSample a = map fst d /\ getOutputSample a = map snd d /\ getNoiseThreshold a = g_noise g /\ getSaturationThreshold a = g_sat g.
Proof.
  unfold run. rewrite kept_filter. set (obs := filter (fun p : R * R => keptb g (snd p)) d).
  destruct (analysis_run _ _ _ _ _ _) as [o|] eqn:E; [|discriminate]. cbn [bind]. apply analysis_stage in E. destruct E as (T & E1 & E2 & E3 & E4 & E5 & _).
  rewrite E1, map_map, combine_map. destruct (map (fun x : R * R => (fst x, T (snd x))) obs) as [|q0 qs] eqn:Eo; [discriminate|]. rewrite <- Eo.
  assert (HR : forall u w, residuals u w (map (fun x : R * R => (fst x, T (snd x))) obs) = map (fun p => T (snd p) - (u + w * fst p)) obs) by (intros; unfold residuals; rewrite map_map; reflexivity).
  assert (HF : forall u w, map (linear u w) (map fst (map (fun x : R * R => (fst x, T (snd x))) obs)) = map (fun p => u + w * fst p) obs) by (intros; rewrite !map_map; reflexivity).
  assert (H1 : map fst (map (fun x : R * R => (fst x, T (snd x))) obs) = map fst obs) by (rewrite map_map; reflexivity).
  assert (H2 : map snd (map (fun x : R * R => (fst x, T (snd x))) obs) = map (fun p => T (snd p)) obs) by (rewrite map_map; reflexivity).
  destruct (ols _) as [u w] eqn:Eu. intros H. exists T, obs.
  split; [reflexivity|]. split; [intros F; rewrite F in Eo; discriminate|]. split; [intros p; unfold obs; rewrite filter_In, keptb_spec; reflexivity|].
  destruct (if censored g then _ else _) as [p|] eqn:Ep; [|discriminate]. cbn [bind] in H. destruct (e_build e 0%nat _) as [du|] eqn:Eb; [|discriminate]. cbn [bind] in H.
  destruct (match p with None => _ | _ => _ end) as [c1|] eqn:Ec1 in H; [|discriminate]. cbn [bind] in H.
  destruct (e_tests e 0%nat _ _ _ _) as [tu|] eqn:Et; [|discriminate]. cbn [bind] in H.
  destruct (match c1 with None => _ | _ => _ end) as [c2|] eqn:Ec2 in H; [|discriminate]. cbn [bind] in H. injection H as <-. cbn.
  rewrite H1, H2 in Et. split; [reflexivity|]. split; [intros B; apply E2; exact B|]. split; [exact E3|].
  split; [split; [apply HR|apply HF]|]. split; [exact Eu|]. split; [reflexivity|]. split; [exact Eb|]. split; [exact Et|]. split; [|repeat split].
  unfold censored in Ep. assert (CE : (g_noise g = None /\ g_sat g = None) \/ ~ (g_noise g = None /\ g_sat g = None)) by (destruct (g_noise g), (g_sat g); [right|right|right|left]; try (intros [? ?]; discriminate); auto).
  destruct CE as [[N1 N2]|NN].
  - left. split; [exact N1|]. split; [exact N2|]. rewrite N1, N2 in Ep. injection Ep as <-. cbn in Ec1. injection Ec1 as <-. cbn in Ec2. now injection Ec2 as <-.
  - right. split; [exact NN|].
    assert (Ep' : (do p <- s_fit (e_solver e) (u, w, stderr (map (fun x : R * R => (fst x, T (snd x))) obs)) (map (fun x : R * R => (fst x, T (snd x))) obs)
        (map fst (filter (fun p => under_noise (g_noise g) (snd p)) d)) (map fst (filter (fun p => over_sat (g_sat g) (snd p)) d)) (o_noise o) (o_sat o); Ok (Some p)) = Ok p).
    { destruct (g_noise g), (g_sat g); try exact Ep. exfalso. apply NN. split; reflexivity. }
    clear Ep. destruct (s_fit _ _ _ _ _ _ _) as [[[a' b'] se']|] eqn:Ef; [|discriminate]. cbn [bind] in Ep'. injection Ep' as <-. cbn [bind] in Ec1.
    destruct (e_build e 1%nat _) as [dc|] eqn:Eb1; [|discriminate]. cbn [bind] in Ec1. injection Ec1 as <-.
    destruct (e_tests e 1%nat _ _ _ _) as [tc|] eqn:Et1; [|discriminate]. cbn [bind] in Ec2. injection Ec2 as <-. rewrite H1, H2 in Et1.
    eexists _, _, _. split; [reflexivity|]. cbn. split; [split; [apply HR|apply HF]|]. split; [reflexivity|]. split; [reflexivity|]. rewrite E4, E5 in Ef. split; [exact Ef|]. split; [exact Eb1|exact Et1].
Qed.

(** getResiduals: one row for each observation used, one column for each model, named; every row says signal = line + residual. The first
    column sums to zero and is orthogonal to the sizes; the columns differ by a linear function of the size. *)
Theorem C83_residuals (e : calls) g d (a : analysis) :
  run e g d = Ok a ->
  exists col0 rest, getResiduals a = Ok (("Residuals for uncensored case"%string, col0) :: rest) /\ List.length col0 = List.length (a_obs a) /\
    (forall i, (i < List.length (a_obs a))%nat -> snd (nth i (a_obs a) (0, 0)) = r_a (a_unc a) + r_b (a_unc a) * fst (nth i (a_obs a) (0, 0)) + nth i col0 0) /\
    ((exists p q, In p (a_obs a) /\ In q (a_obs a) /\ fst p <> fst q) -> Rsum col0 = 0 /\ Rsum (map (fun xr => fst xr * snd xr) (combine (map fst (a_obs a)) col0)) = 0) /\
    (rest = [] <-> g_noise g = None /\ g_sat g = None) /\
    (rest <> [] -> exists c col1, a_cens a = Some c /\ rest = [("Residuals for censored case"%string, col1)] /\ List.length col1 = List.length col0 /\
       forall i, (i < List.length (a_obs a))%nat ->
         snd (nth i (a_obs a) (0, 0)) = r_a c + r_b c * fst (nth i (a_obs a) (0, 0)) + nth i col1 0 /\
         nth i col1 0 - nth i col0 0 = (r_a (a_unc a) - r_a c) + (r_b (a_unc a) - r_b c) * fst (nth i (a_obs a) (0, 0))).
Proof.
  intros H. destruct (C83_analysis e g d a H) as (T & obs & _ & Hne & _ & Ho & _ & _ & [Hr _] & Eu & _ & _ & _ & D & _ & _ & N1 & N2).
  assert (EA : a_args a = g).
  { revert H. unfold run. clear. destruct (analysis_run _ _ _ _ _ _); [|discriminate]. cbn [bind]. match goal with |- context [combine ?u ?w] => destruct (combine u w) as [|q0 qs] eqn:Eq end; [discriminate|]. rewrite <- Eq. clear Eq. match goal with |- context [ols ?u] => destruct (ols u) end.
    repeat match goal with |- context [do _ <- ?x; _] => destruct x; [|discriminate]; cbn [bind] end. now intros [= <-]. }
  assert (NTH : forall (r : results) i, r_resid r = map (fun p => T (snd p) - (r_a r + r_b r * fst p)) obs -> (i < List.length (a_obs a))%nat ->
    snd (nth i (a_obs a) (0, 0)) = r_a r + r_b r * fst (nth i (a_obs a) (0, 0)) + nth i (r_resid r) 0).
  { intros r i E Hi. rewrite E, Ho. rewrite Ho, map_length in Hi. rewrite !(nth_indep _ (0, 0) (fst (0, 0), T (snd (0, 0)))) by (now rewrite map_length).
    rewrite (map_nth (fun p => (fst p, T (snd p)))). rewrite (nth_indep _ 0 (T (snd (0, 0)) - (r_a r + r_b r * fst (0, 0)))) by (now rewrite map_length).
    rewrite (map_nth (fun p => T (snd p) - (r_a r + r_b r * fst p))). cbn [fst snd]. ring. }
  assert (LEN : forall r : results, r_resid r = map (fun p => T (snd p) - (r_a r + r_b r * fst p)) obs -> List.length (r_resid r) = List.length (a_obs a)) by (intros r ->; now rewrite Ho, !map_length).
  assert (RS : r_resid (a_unc a) = residuals (r_a (a_unc a)) (r_b (a_unc a)) (a_obs a)) by (rewrite Hr, Ho; unfold residuals; rewrite map_map; reflexivity).
  exists (r_resid (a_unc a)), (match a_cens a with None => [] | Some c => [("Residuals for censored case"%string, r_resid c)] end).
  split; [|split; [|split; [|split; [|split]]]].
  - unfold getResiduals, censored. rewrite EA. destruct D as [(M1 & M2 & M3)|(NN & c & xn & xs & -> & _)]; [now rewrite M1, M2, M3|].
    destruct (g_noise g), (g_sat g); try reflexivity. exfalso. apply NN. auto.
  - now apply LEN.
  - intros i Hi. now apply NTH.
  - intros Hn. rewrite RS. split; [exact (ols_residuals_sum _ _ _ Hn Eu)|]. unfold residuals. rewrite combine_map, map_map. cbn [fst snd]. exact (ols_residuals_orth _ _ _ Hn Eu).
  - destruct D as [(M1 & M2 & M3)|(NN & c & xn & xs & M & _)].
    + rewrite M3. split; auto.
    + rewrite M. split; [discriminate|]. intros F. contradiction.
  - destruct D as [(M1 & M2 & M3)|(NN & c & xn & xs & M & [Hc _] & _)]; [rewrite M3; contradiction|]. rewrite M. intros _. exists c, (r_resid c).
    split; [reflexivity|]. split; [reflexivity|]. split; [now rewrite !LEN|]. intros i Hi. assert (K1 := NTH c i Hc Hi). assert (K0 := NTH (a_unc a) i Hr Hi). split; [exact K1|]. lra.
Qed.

(** The fit of UnivariateLinearModelPOD on the same data and arguments, and when it exists. *)
Lemma stage_same opt sig no sa bx o det ce : (ce = false -> no = None /\ sa = None) -> analysis_run opt sig no sa bx None = Ok o ->
  pod_run opt sig det no sa bx ce =
    (if bx then do dt <- boxcox (match o_lambda o with Some l => l | None => 0 end) (det + o_shift o);
       Ok {| o_signals := o_signals o; o_shift := o_shift o; o_detection := dt; o_noise := o_noise o; o_sat := o_sat o; o_lambda := o_lambda o |}
     else Ok {| o_signals := o_signals o; o_shift := o_shift o; o_detection := det; o_noise := o_noise o; o_sat := o_sat o; o_lambda := o_lambda o |}) /\
  (bx = true -> auto_shift sig = Ok (o_shift o)).
Proof.
  intros HC. unfold analysis_run, pod_run. destruct bx.
  - destruct (auto_shift sig) as [shift|]; [|discriminate]. cbn [bind]. destruct (opt sig shift) as [lam|]; [|discriminate]. cbn [bind].
    destruct (map_res _ sig) as [sg|]; [|discriminate]. cbn [bind]. destruct ce.
    + destruct (bc_threshold lam shift no) as [n1|]; [|discriminate]. cbn [bind]. destruct (bc_threshold lam shift sa) as [n2|]; [|discriminate]. cbn [bind].
      intros [= <-]. cbn. destruct (boxcox lam (det + shift)); auto.
    + destruct (HC eq_refl) as [-> ->]. cbn. intros [= <-]. cbn. destruct (boxcox lam (det + shift)); auto.
  - intros [= <-]. cbn. split; [reflexivity|discriminate].
Qed.
Definition shift_of (sig : list R) : R := if Rltb (Rlmin sig) 0 then 100 - Rlmin sig else 0.
Theorem C83_same_as_POD (e : calls) g (c : settings) d (a : analysis) :
  run e g d = Ok a -> g_lambda g = None -> c_noise c = g_noise g -> c_sat c = g_sat g -> c_boxcox c = g_boxcox g ->
  (c_censored c = false <-> g_noise g = None /\ g_sat g = None) ->
  (forall l, computeLinearModel (e_solver e) c d = Ok l ->
     let r := match a_cens a with Some r => r | None => a_unc a end in
     l_obs l = a_obs a /\ l_lambda l = a_lambda a /\ l_a l = r_a r /\ l_b l = r_b r /\ l_stderr l = r_se r /\ l_resid l = r_resid r) /\
  ((exists l, computeLinearModel (e_solver e) c d = Ok l) <->
   (g_boxcox g = true -> 0 < c_det c + shift_of (map snd (filter (fun p : R * R => keptb g (snd p)) d)))).
Proof.
  intros H HL Hn Hs Hb Hc. assert (CC : c_censored c = censored g).
  { unfold censored. destruct (c_censored c); [|now destruct (proj1 Hc eq_refl) as [-> ->]]. destruct (g_noise g), (g_sat g); try reflexivity. exfalso. assert (F := proj2 Hc (conj eq_refl eq_refl)). discriminate. }
  unfold computeLinearModel. unfold run in H. rewrite CC, Hn, Hs, Hb. rewrite kept_filter in *. set (obs := filter (fun p : R * R => keptb g (snd p)) d) in *.
  rewrite HL in H. destruct (analysis_run _ _ _ _ _ _) as [o|] eqn:E in H; [|discriminate]. cbn [bind] in H.
  assert (CF : censored g = false -> g_noise g = None /\ g_sat g = None) by (unfold censored; destruct (g_noise g), (g_sat g); try discriminate; auto).
  destruct (stage_same _ _ _ _ _ o (c_det c) (censored g) CF E) as [-> SH].
  destruct (combine (map fst obs) (o_signals o)) as [|q0 qs] eqn:Eo; [discriminate|]. rewrite <- Eo in H.
  set (obs' := combine (map fst obs) (o_signals o)) in *. destruct (ols obs') as [u w] eqn:Eu.
  destruct (if censored g then _ else _) as [p|] eqn:Ep in H; [|discriminate]. cbn [bind] in H.
  destruct (e_build e 0%nat _) as [du|]; [|discriminate]. cbn [bind] in H.
  destruct (match p with None => _ | _ => _ end) as [c1|] eqn:Ec1 in H; [|discriminate]. cbn [bind] in H.
  destruct (e_tests e 0%nat _ _ _ _) as [tu|]; [|discriminate]. cbn [bind] in H.
  destruct (match c1 with None => _ | _ => _ end) as [c2|] eqn:Ec2 in H; [|discriminate]. cbn [bind] in H. injection H as <-. cbn zeta. cbn [a_cens a_unc a_obs a_lambda].
  assert (FIT : forall det, exists l, (match obs' with [] => Raise ValueError | _ => let (a, b) := ols obs' in let se := stderr obs' in
      if censored g then do p <- s_fit (e_solver e) (a, b, se) obs' (map fst (filter (fun p => under_noise (g_noise g) (snd p)) d)) (map fst (filter (fun p => over_sat (g_sat g) (snd p)) d)) (o_noise o) (o_sat o);
        let '(a', b', se') := p in
        Ok {| l_obs := obs'; l_a := a'; l_b := b'; l_stderr := se'; l_resid := residuals a' b' obs'; l_det := det; l_lambda := o_lambda o |}
      else Ok {| l_obs := obs'; l_a := a; l_b := b; l_stderr := se; l_resid := residuals a b obs'; l_det := det; l_lambda := o_lambda o |} end) = Ok l /\
      l_obs l = obs' /\ l_lambda l = o_lambda o /\
      let r := match c2 with Some r => r | None => {| r_a := u; r_b := w; r_se := stderr obs'; r_fitted := map (linear u w) (map fst obs'); r_resid := residuals u w obs'; r_dist := du; r_tests := tu |} end in
      l_a l = r_a r /\ l_b l = r_b r /\ l_stderr l = r_se r /\ l_resid l = r_resid r).
  { intros det. rewrite match_ne by (rewrite Eo; discriminate). rewrite Eu. destruct (censored g).
    - destruct (s_fit _ _ _ _ _ _ _) as [[[a' b'] se']|] eqn:Ef in Ep; [|discriminate]. cbn [bind] in Ep. injection Ep as <-.
      cbn zeta. rewrite Ef. cbn [bind]. destruct (e_build e 1%nat _) as [dc|]; [|discriminate]. cbn [bind] in Ec1. injection Ec1 as <-.
      destruct (e_tests e 1%nat _ _ _ _) as [tc|]; [|discriminate]. cbn [bind] in Ec2. injection Ec2 as <-. eexists. split; [reflexivity|]. cbn. repeat split.
    - injection Ep as <-. injection Ec1 as <-. injection Ec2 as <-. eexists. split; [reflexivity|]. cbn. repeat split. }
  assert (SV : g_boxcox g = true -> o_shift o = shift_of (map snd obs)).
  { intros B. specialize (SH B). unfold auto_shift in SH. destruct (map snd obs) as [|y ys]; [discriminate|]. injection SH as SH. rewrite <- SH. unfold shift_of. cbn [Rlmin]. destruct (Rltb _ 0); lra. }
  destruct (g_boxcox g).
  - specialize (SV eq_refl). destruct (Rlt_dec 0 (c_det c + o_shift o)) as [P|P].
    + rewrite boxcox_ok by exact P. cbn [bind o_signals o_noise o_sat o_detection o_lambda]. fold obs'. destruct (FIT (bc (match o_lambda o with Some l => l | None => 0 end) (c_det c + o_shift o))) as (l & El & F).
      split; [|split; [intros _ _; rewrite <- SV; exact P|intros _; exists l; exact El]]. intros l0 E0. assert (E00 : Ok l = Ok l0) by (rewrite <- El; exact E0). injection E00 as <-. exact (conj (proj1 F) (conj (proj1 (proj2 F)) (proj2 (proj2 F)))).
    + assert (BR : is_ok (boxcox (match o_lambda o with Some l => l | None => 0 end) (c_det c + o_shift o)) = false) by (rewrite boxcox_raise; [reflexivity|lra]).
      destruct (boxcox _ (c_det c + o_shift o)); [discriminate|]. cbn [bind]. split; [discriminate|]. split; [intros (l & F); discriminate|]. intros F. specialize (F eq_refl). rewrite <- SV in F. contradiction.
  - cbn [bind o_signals o_noise o_sat o_detection o_lambda]. fold obs'. destruct (FIT (c_det c)) as (l & El & F). split; [|split; [discriminate|intros _; exists l; exact El]].
    intros l0 E0. assert (E00 : Ok l = Ok l0) by (rewrite <- El; exact E0). injection E00 as <-. exact (conj (proj1 F) (conj (proj1 (proj2 F)) (proj2 (proj2 F)))).
Qed.

(** Thresholds that censor nothing do not change the uncensored results. *)
Theorem C83_idle_thresholds (e : calls) g g' d (a a' : analysis) :
  run e g d = Ok a -> run e g' d = Ok a' -> g_boxcox g = g_boxcox g' -> g_lambda g = g_lambda g' ->
  (forall p, In p d -> kept g (snd p)) -> (forall p, In p d -> kept g' (snd p)) ->
  a_obs a = a_obs a' /\ a_lambda a = a_lambda a' /\ a_unc a = a_unc a'.
Proof.
  intros H H' Hb Hl K K'. assert (KF : forall g, (forall p : R * R, In p d -> kept g (snd p)) -> filter (fun p : R * R => keptb g (snd p)) d = d).
  { clear. intros g K. induction d as [|p d IH]; [reflexivity|]. cbn. assert (B := proj2 (keptb_spec g (snd p)) (K p (or_introl eq_refl))). rewrite B. f_equal. apply IH. intros q Hq. apply K. now right. }
  unfold run in H, H'. rewrite kept_filter in H, H'. rewrite KF in H, H' by assumption. rewrite <- Hb, <- Hl in H'.
  destruct (analysis_run _ _ (g_noise g) _ _ _) as [o|] eqn:E in H; [|discriminate]. cbn [bind] in H.
  destruct (analysis_run _ _ (g_noise g') _ _ _) as [o'|] eqn:E' in H'; [|discriminate]. cbn [bind] in H'.
  assert (SG : o_signals o = o_signals o' /\ o_lambda o = o_lambda o').
  { revert E E'. unfold analysis_run. destruct (g_boxcox g); [|intros [= <-] [= <-]; auto]. destruct (auto_shift _) as [sh|]; [|discriminate]. cbn [bind].
    destruct (match g_lambda g with None => _ | _ => _ end) as [lam|]; [|discriminate]. cbn [bind]. destruct (map_res _ _) as [sg|]; [|discriminate]. cbn [bind].
    repeat match goal with |- context [do _ <- bc_threshold ?l ?s ?t; _] => destruct (bc_threshold l s t); [|discriminate]; cbn [bind] end. intros [= <-] [= <-]. auto. }
  destruct SG as [SG SL]. rewrite <- SG in H'. destruct (combine (map fst d) (o_signals o)) as [|q0 qs]; [discriminate|]. set (obs' := q0 :: qs) in *.
  destruct (ols obs') as [u w].
  destruct (if censored g then _ else _) as [p|] eqn:Ep in H; [|discriminate]. cbn [bind] in H. destruct (if censored g' then _ else _) as [p'|] eqn:Ep' in H'; [|discriminate]. cbn [bind] in H'.
  destruct (e_build e 0%nat _) as [du|]; [|discriminate]. cbn [bind] in H, H'.
  destruct (match p with None => _ | _ => _ end) as [c1|] in H; [|discriminate]. cbn [bind] in H. destruct (match p' with None => _ | _ => _ end) as [c1'|] in H'; [|discriminate]. cbn [bind] in H'.
  destruct (e_tests e 0%nat _ _ _ _) as [tu|]; [|discriminate]. cbn [bind] in H, H'.
  destruct (match c1 with None => _ | _ => _ end) as [c2|] in H; [|discriminate]. cbn [bind] in H. destruct (match c1' with None => _ | _ => _ end) as [c2'|] in H'; [|discriminate]. cbn [bind] in H'.
  injection H as <-. injection H' as <-. cbn. auto.
Qed.

Lemma run_args (e : calls) g d (a : analysis) : run e g d = Ok a -> a_args a = g.
Proof.
  unfold run. destruct (analysis_run _ _ _ _ _ _); [|discriminate]. cbn [bind]. match goal with |- context [combine ?u ?w] => destruct (combine u w) as [|q0 qs] eqn:Eq end; [discriminate|].
  rewrite <- Eq. clear Eq. match goal with |- context [ols ?u] => destruct (ols u) end.
  repeat match goal with |- context [do _ <- ?x; _] => destruct x; [|discriminate]; cbn [bind] end. now intros [= <-].
Qed.
(** The results a graph is asked for: those of the model named, if it exists. *)
Definition asked (a : analysis) (model : string) : option results :=
  if String.eqb model "uncensored" then Some (a_unc a) else if String.eqb model "censored" then a_cens a else None.
(** The graphs: NameError iff the model asked for does not exist. Otherwise the marked points are the observations used (with their signal, or
    their residual), in order, and the line is that of the results: the points of the fitted line at the same sizes, or the level 0 from the
    smallest to the largest size. *)
Theorem C83_graphs (e : calls) g d (a : analysis) model :
  run e g d = Ok a ->
  (asked a model = None -> drawLinearModel a model = Raise NameError /\ drawResiduals a model = Raise NameError) /\
  (forall r, asked a model = Some r -> exists f h,
     drawLinearModel a model = Ok f /\ f_points f = a_obs a /\ f_line f = map (fun p => (fst p, r_a r + r_b r * fst p)) (a_obs a) /\
     drawResiduals a model = Ok h /\ f_points h = map (fun p => (fst p, snd p - (r_a r + r_b r * fst p))) (a_obs a) /\
     (exists lo hi, f_line h = [(lo, 0); (hi, 0)] /\ In lo (map fst (a_obs a)) /\ In hi (map fst (a_obs a)) /\ forall p, In p (a_obs a) -> lo <= fst p <= hi)).
Proof.
  intros H. assert (EA := run_args _ _ _ _ H). destruct (C83_analysis e g d a H) as (T & obs & _ & Hne & _ & Ho & _ & _ & Hu & _ & _ & _ & _ & D & _).
  assert (CE : censored g = match a_cens a with Some _ => true | None => false end).
  { unfold censored. destruct D as [(M1 & M2 & M3)|(NN & c & xn & xs & M & _)]; [now rewrite M1, M2, M3|]. rewrite M. destruct (g_noise g), (g_sat g); try reflexivity. exfalso. apply NN. auto. }
  unfold drawLinearModel, drawResiduals, asked. rewrite EA, CE. destruct (String.eqb_spec model "uncensored") as [->|N1].
  - split; [discriminate|]. intros r [= <-]. cbn [String.eqb Ascii.eqb Bool.eqb andb bind]. eexists _, _. split; [reflexivity|]. cbn [f_points f_line].
    rewrite Ho. destruct Hu as [R1 R2]. rewrite R1, R2. rewrite !map_map. cbn [fst snd]. split; [now rewrite combine_map|]. split; [now rewrite combine_map|].
    split; [reflexivity|]. cbn [f_points f_line]. split; [now rewrite combine_map|]. eexists _, _. split; [reflexivity|].
    assert (NE : map (fun x : R * R => fst x) obs <> []) by (destruct obs; [contradiction|discriminate]).
    split; [now apply Rlmin_in|]. split; [now apply Rlmax_in|]. intros p Hp. apply in_map_iff in Hp. destruct Hp as (q & <- & Hq). cbn [fst].
    assert (I : In (fst q) (map (fun x : R * R => fst x) obs)) by (now apply (in_map (fun x : R * R => fst x))). split; [now apply Rlmin_le|now apply Rlmax_ge].
  - destruct (String.eqb_spec model "censored") as [->|N2]; [|split; [split; reflexivity|discriminate]]. cbn [andb].
    destruct (a_cens a) as [c|]; cbn [negb]; [|split; [split; reflexivity|discriminate]].
    split; [discriminate|]. intros r [= <-]. destruct D as [(_ & _ & M)|(_ & c' & xn & xs & [= <-] & Hc & _)]; [discriminate|]. cbn [bind]. eexists _, _. split; [reflexivity|]. cbn [f_points f_line].
    rewrite Ho. destruct Hc as [R1 R2]. rewrite R1, R2. rewrite !map_map. cbn [fst snd]. split; [now rewrite combine_map|]. split; [now rewrite combine_map|].
    split; [reflexivity|]. cbn [f_points f_line]. split; [now rewrite combine_map|]. eexists _, _. split; [reflexivity|].
    assert (NE : map (fun x : R * R => fst x) obs <> []) by (destruct obs; [contradiction|discriminate]).
    split; [now apply Rlmin_in|]. split; [now apply Rlmax_in|]. intros p Hp. apply in_map_iff in Hp. destruct Hp as (q & <- & Hq). cbn [fst].
    assert (I : In (fst q) (map (fun x : R * R => fst x) obs)) by (now apply (in_map (fun x : R * R => fst x))). split; [now apply Rlmin_le|now apply Rlmax_ge].
Qed.
(** getResidualsDistribution: the law of each model, in the order of the columns of getResiduals. *)
Theorem C83_distributions (e : calls) g d (a : analysis) :
  run e g d = Ok a ->
  exists laws cols, getResidualsDistribution a = Ok laws /\ getResiduals a = Ok cols /\ List.length laws = List.length cols /\
    forall i law col name, nth_error laws i = Some law -> nth_error cols i = Some (name, col) -> e_build e i col = Ok law.
Proof.
  intros H. assert (EA := run_args _ _ _ _ H). destruct (C83_analysis e g d a H) as (T & obs & _ & _ & _ & _ & _ & _ & _ & _ & _ & B0 & _ & D & _).
  unfold getResidualsDistribution, getResiduals, censored. rewrite EA. destruct D as [(M1 & M2 & M3)|(NN & c & xn & xs & M & _ & _ & _ & _ & B1 & _)].
  - rewrite M1, M2. eexists _, _. split; [reflexivity|]. split; [reflexivity|]. split; [reflexivity|]. intros [|[|i]] law col name; cbn; try discriminate. intros [= <-] [= _ <-]. exact B0.
  - assert (Q : exists laws cols, Ok [r_dist (a_unc a); r_dist c] = Ok laws /\ Ok [("Residuals for uncensored case"%string, r_resid (a_unc a)); ("Residuals for censored case"%string, r_resid c)] = Ok cols /\
      List.length laws = List.length cols /\ forall i law col name, nth_error laws i = Some law -> nth_error cols i = Some (name, col) -> e_build e i col = Ok law).
    { eexists _, _. split; [reflexivity|]. split; [reflexivity|]. split; [reflexivity|]. intros [|[|[|i]]] law col name; cbn; try discriminate; intros [= <-] [= _ <-]; assumption. }
    rewrite M. destruct (g_noise g), (g_sat g); try exact Q. exfalso. apply NN. auto.
Qed.
(** The label of the vertical axis depends on the model asked for only, not on the transformation of the signals drawn. *)
Theorem C83_ylabel (a : analysis) model f :
  drawLinearModel a model = Ok f -> f_ylabel f = if String.eqb model "uncensored" then "Signals"%string else "Box Cox (signals)"%string.
Proof.
  unfold drawLinearModel. destruct (_ && _); [discriminate|]. destruct (if String.eqb model "uncensored" then _ else _); [|discriminate]. cbn [bind]. now intros [= <-].
Qed.
End Analysis.

(** *** Cases *)
(** Four observations, a noise threshold which censors the first. The external calls: the optimiser gives 1, the likelihood moves the line. *)
Definition ana_solver : solver := {| s_opt := fun _ _ => Ok 1; s_fit := fun p _ _ _ _ _ => let '(a, b, s) := p in Ok (a - 1, b, s) |}.
Definition ana_calls : calls nat unit := {| e_solver := ana_solver; e_build := fun k _ => Ok k; e_tests := fun _ _ _ _ _ => Ok tt |}.
Definition ana_data : data := [(0, 0); (1, 1); (2, 3); (3, 2)].
Definition plain_args : arguments := {| g_noise := Some (1 / 2); g_sat := None; g_boxcox := false; g_lambda := None |}.
Definition bc_args : arguments := {| g_noise := Some (1 / 2); g_sat := None; g_boxcox := true; g_lambda := Some 1 |}.
Lemma ana_filter g : g_noise g = Some (1 / 2) -> g_sat g = None -> filter (fun p : R * R => keptb g (snd p)) ana_data = [(1, 1); (2, 3); (3, 2)].
Proof.
  intros E1 E2. unfold keptb, inside. rewrite E1, E2. unfold ana_data. cbn [filter snd]. rewrite !andb_true_r.
  repeat match goal with |- context [Rltb ?a ?b] => first [rewrite (proj2 (Rltb_true a b)) by lra | rewrite (proj2 (Rltb_false a b)) by lra] end. reflexivity.
Qed.
Lemma ana_shift : auto_shift [1; 3; 2] = Ok 0.
Proof.
  unfold auto_shift. replace (Rltb (Rlmin [1; 3; 2]) 0) with false; [reflexivity|]. symmetry. apply Rltb_false. cbn. unfold Rmin. repeat destruct (Rle_dec _ _); lra.
Qed.
Lemma ana_run g : g_noise g = Some (1 / 2) -> g_sat g = None -> (g_boxcox g = true -> g_lambda g = Some 1) -> exists a, run ana_calls g ana_data = Ok a.
Proof.
  intros E1 E2 E3. unfold run. rewrite kept_filter, ana_filter by assumption. unfold analysis_run. cbn [map snd fst ana_calls e_solver e_build e_tests]. destruct (g_boxcox g).
  - rewrite (E3 eq_refl), ana_shift.
    cbn [bind map_res]. rewrite !boxcox_ok by lra. cbn [bind]. rewrite E1, E2. unfold bc_threshold. rewrite boxcox_ok by lra. cbn [bind o_signals o_noise o_sat combine]. unfold censored. rewrite E1.
      match goal with |- context [ols ?u] => destruct (ols u) end. cbn. eexists. reflexivity.
  - cbn [bind o_signals o_noise o_sat combine]. unfold censored. rewrite E1. match goal with |- context [ols ?u] => destruct (ols u) end. cbn. eexists. reflexivity.
Qed.
(** Without Box-Cox the censored graph is labelled as if the signals were transformed; with it the uncensored graph, of transformed signals, is
    labelled as if they were not. *)
Theorem C83_ylabel_refuted :
  (exists (a : analysis nat unit) f, run ana_calls plain_args ana_data = Ok a /\ drawLinearModel a "censored" = Ok f /\
     f_points f = [(1, 1); (2, 3); (3, 2)] /\ f_ylabel f = "Box Cox (signals)"%string) /\
  (exists (a : analysis nat unit) f, run ana_calls bc_args ana_data = Ok a /\ drawLinearModel a "uncensored" = Ok f /\
     f_points f = [(1, 0); (2, 2); (3, 1)] /\ f_ylabel f = "Signals"%string).
Proof.
  split.
  - destruct (ana_run plain_args eq_refl eq_refl ltac:(discriminate)) as [a H]. destruct (C83_graphs _ _ _ a "censored" H) as [G0 G].
    destruct (C83_analysis _ _ _ a H) as (T & obs & Eo & _ & _ & Ho & ET & _ & _ & _ & _ & _ & _ & D & _).
    destruct D as [(F & _)|(_ & c & xn & xs & M & _)]; [discriminate|]. destruct (G c) as (f & h & F1 & F2 & _); [unfold asked; cbn; exact M|]. exists a, f. split; [exact H|]. split; [exact F1|].
    split; [|exact (C83_ylabel _ _ _ F1)]. rewrite F2, Ho, Eo, (ana_filter plain_args) by reflexivity. specialize (ET eq_refl). cbn [map fst snd]. rewrite !ET. reflexivity.
  - destruct (ana_run bc_args eq_refl eq_refl ltac:(reflexivity)) as [a H]. destruct (C83_graphs _ _ _ a "uncensored" H) as [G0 G].
    destruct (G (a_unc a) eq_refl) as (f & h & F1 & F2 & _). exists a, f. split; [exact H|]. split; [exact F1|]. split; [|exact (C83_ylabel _ _ _ F1)]. rewrite F2.
    revert H. unfold run. rewrite kept_filter, (ana_filter bc_args) by reflexivity. destruct (analysis_run _ _ _ _ _ _) as [o|] eqn:E; [|discriminate]. cbn [bind].
    apply analysis_stage in E. destruct E as (T & E1 & _ & _ & _ & _ & E6). destruct (E6 eq_refl) as (lam & shift & _ & Es & _ & El & _ & ET). specialize (El 1 eq_refl). subst lam.
    assert (SH : shift = 0) by (cbn [map snd] in Es; rewrite ana_shift in Es; congruence).
    assert (B : forall y, 0 < y -> T y = y - 1). { intros y Hy. rewrite ET, SH, Rplus_0_r. unfold bc. destruct (Reqb_spec 1 0); [lra|]. rewrite Rpower_1 by assumption. field. }
    rewrite E1. cbn [map fst snd combine]. rewrite !B by lra. match goal with |- context [ols ?u] => destruct (ols u) end.
    repeat match goal with |- context [do _ <- ?x; _] => destruct x; [|discriminate]; cbn [bind] end. intros [= <-]. cbn [a_obs]. repeat f_equal; lra.
Qed.
(** The hypotheses of C83 on the case: an analysis exists, the graphs exist, and the POD fit exists for a threshold and fails for another. *)
Example C83_case : exists a, run ana_calls bc_args ana_data = Ok a /\ non_constant (a_obs a) /\ asked a "other" = None /\ asked a "censored" <> None.
Proof.
  destruct (ana_run bc_args eq_refl eq_refl ltac:(reflexivity)) as [a H]. exists a. split; [exact H|].
  destruct (C83_analysis _ _ _ a H) as (T & obs & Eo & _ & _ & Ho & _ & _ & _ & _ & _ & _ & _ & D & _). split; [|split; [reflexivity|]].
  - rewrite Ho, Eo, (ana_filter bc_args) by reflexivity. exists (1, T 1), (2, T 3). cbn. split; [auto|]. split; [auto|]. lra.
  - destruct D as [(F & _)|(_ & c & xn & xs & M & _)]; [discriminate|]. unfold asked. cbn. now rewrite M.
Qed.
Example C83_pod_case : let g := {| g_noise := Some (1 / 2); g_sat := None; g_boxcox := false; g_lambda := None |} in
  exists a l, run ana_calls g ana_data = Ok a /\ computeLinearModel ana_solver {| c_det := 2; c_noise := Some (1 / 2); c_sat := None; c_boxcox := false; c_censored := true |} ana_data = Ok l.
Proof.
  intros g. destruct (ana_run g eq_refl eq_refl ltac:(discriminate)) as [a H]. exists a.
  destruct (proj2 (proj2 (C83_same_as_POD ana_calls g {| c_det := 2; c_noise := Some (1 / 2); c_sat := None; c_boxcox := false; c_censored := true |} ana_data a H eq_refl eq_refl eq_refl eq_refl
    ltac:(split; [discriminate|intros [F _]; discriminate])))) as [l Hl]; [discriminate|]. exists l. split; [exact H|exact Hl].
Qed.
Print Assumptions C83_analysis.
Print Assumptions C83_residuals.
Print Assumptions C83_same_as_POD.
Print Assumptions C83_idle_thresholds.
Print Assumptions C83_graphs.
Print Assumptions C83_distributions.
Print Assumptions C83_ylabel.
Print Assumptions C83_ylabel_refuted.
