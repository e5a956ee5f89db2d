(** C03, C04, C05: the Box-Cox stage. *)
From Verif Require Import RealBase BoxCoxModel.
Local Open Scope R_scope.

(** *** Analysis of the transformation *)
Definition bc (lam x : R) : R := if Reqb lam 0 then ln x else (Rpower x lam - 1) / lam.
Lemma boxcox_ok lam x : 0 < x -> boxcox lam x = Ok (bc lam x).
Proof. intros H. unfold boxcox, bc. now rewrite (proj2 (Rltb_true 0 x) H). Qed.
Lemma boxcox_raise lam x : x <= 0 -> boxcox lam x = Raise GenericException.
Proof. intros H. unfold boxcox. now rewrite (proj2 (Rltb_false 0 x) H). Qed.
Lemma boxcox_inv lam x v : boxcox lam x = Ok v -> 0 < x /\ v = bc lam x.
Proof.
  unfold boxcox, bc. destruct (Rltb_spec 0 x) as [L|L]; [|discriminate]. intros H. injection H as <-. auto.
Qed.
Lemma Rpower_lt_neg x y lam : 0 < x -> x < y -> lam < 0 -> Rpower y lam < Rpower x lam.
Proof.
  intros Hx Hy Hl. unfold Rpower. apply exp_increasing.
  assert (ln x < ln y) by (now apply ln_increasing). nra.
Qed.
Lemma Rpower_lt_pos x y lam : 0 < x -> x < y -> 0 < lam -> Rpower x lam < Rpower y lam.
Proof.
  intros Hx Hy Hl. unfold Rpower. apply exp_increasing.
  assert (ln x < ln y) by (now apply ln_increasing). nra.
Qed.
Lemma bc_lt lam x y : 0 < x -> x < y -> bc lam x < bc lam y.
Proof.
  intros Hx Hy. unfold bc. destruct (Reqb_spec lam 0) as [E|E]; [now apply ln_increasing|].
  destruct (Rlt_dec 0 lam) as [P|P].
  - assert (G := Rpower_lt_pos x y lam Hx Hy P). unfold Rdiv. apply Rmult_lt_compat_r; [now apply Rinv_0_lt_compat|lra].
  - assert (N : lam < 0) by lra. assert (G := Rpower_lt_neg x y lam Hx Hy N).
    unfold Rdiv. assert (I := Rinv_lt_0_compat _ N). nra.
Qed.
Lemma bc_lt_iff lam x y : 0 < x -> 0 < y -> (bc lam x < bc lam y <-> x < y).
Proof.
  intros Hx Hy. split; [|now apply bc_lt]. intros H. destruct (Rlt_dec x y) as [|N]; [assumption|]. exfalso.
  destruct (Req_dec x y) as [->|D]; [lra|]. assert (G := bc_lt lam y x Hy ltac:(lra)). lra.
Qed.
Lemma bc_le_iff lam x y : 0 < x -> 0 < y -> (bc lam x <= bc lam y <-> x <= y).
Proof.
  intros Hx Hy. assert (G := bc_lt_iff lam y x Hy Hx). split; intros H.
  - destruct (Rle_dec x y); [assumption|]. assert (bc lam y < bc lam x) by (apply G; lra). lra.
  - destruct (Rle_dec (bc lam x) (bc lam y)); [assumption|]. assert (y < x) by (apply G; lra). lra.
Qed.

Lemma map_res_ok {A B} (f : A -> res B) (g : A -> B) l :
  (forall x, In x l -> f x = Ok (g x)) -> map_res f l = Ok (map g l).
Proof.
  induction l as [|x l IH]; cbn; intros H; [reflexivity|]. rewrite (H x) by now left. cbn.
  rewrite IH by (intros; apply H; now right). reflexivity.
Qed.
Lemma map_res_inv {A B} (f : A -> res B) l ys : map_res f l = Ok ys -> Forall2 (fun x y => f x = Ok y) l ys.
Proof.
  revert ys. induction l as [|x l IH]; cbn; intros ys H; [injection H as <-; constructor|].
  destruct (f x) eqn:E; [|discriminate]. cbn in H. destruct (map_res f l); [|discriminate].
  cbn in H. injection H as <-. constructor; auto.
Qed.
Lemma map_res_raise {A B} (f : A -> res B) l : (exists x, In x l /\ is_ok (f x) = false) -> is_ok (map_res f l) = false.
Proof.
  intros [x [Hx Hf]]. induction l as [|y l IH]; [destruct Hx|]. cbn. destruct (f y) eqn:E; [|reflexivity]. cbn.
  destruct Hx as [<-|Hx]; [rewrite E in Hf; discriminate|]. assert (G := IH Hx).
  destruct (map_res f l); [discriminate|reflexivity].
Qed.

(** *** C03 *)
(** The comparison of two transformed shifted values is the comparison of the raw values. *)
Theorem C03_comparisons_preserved :
  forall lam shift s t u v : R, boxcox lam (s + shift) = Ok u -> boxcox lam (t + shift) = Ok v ->
    (t < s <-> v < u) /\ (s <= t <-> u <= v) /\ (s = t <-> u = v).
Proof.
  intros lam shift s t u v Hs Ht. apply boxcox_inv in Hs. apply boxcox_inv in Ht.
  destruct Hs as [Ps ->]. destruct Ht as [Pt ->].
  assert (A := bc_lt_iff lam _ _ Pt Ps). assert (B := bc_le_iff lam _ _ Ps Pt). assert (C := bc_le_iff lam _ _ Pt Ps).
  split; [|split]; split; intros H.
  - apply A; lra.
  - apply A in H; lra.
  - apply B; lra.
  - apply B in H; lra.
  - now rewrite H.
  - assert (s + shift <= t + shift) by (apply B; lra). assert (t + shift <= s + shift) by (apply C; lra). lra.
Qed.
Print Assumptions C03_comparisons_preserved.
(** A value is transformed successfully exactly when its shifted value is positive. *)
Theorem C03_domain : forall lam shift s : R, (exists u, boxcox lam (s + shift) = Ok u) <-> 0 < s + shift.
Proof.
  intros lam shift s. split.
  - intros [u H]. now apply boxcox_inv in H.
  - intros H. exists (bc lam (s + shift)). now apply boxcox_ok.
Qed.
Print Assumptions C03_domain.
Example C03_example : (exists u, boxcox (-2) (3 + 1) = Ok u) /\ (exists v, boxcox (-2) (1 + 1) = Ok v) /\ 1 < 3.
Proof. split; [|split]; [apply C03_domain; lra|apply C03_domain; lra|lra]. Qed.

Definition thr_map (f : R -> R) (t : option R) := match t with None => None | Some t => Some (f t) end.
Lemma bc_threshold_inv lam shift t o : bc_threshold lam shift t = Ok o ->
  o = thr_map (fun t => bc lam (t + shift)) t /\ (forall x, t = Some x -> 0 < x + shift).
Proof.
  destruct t as [t|]; cbn; intros H.
  - destruct (boxcox lam (t + shift)) eqn:E; [|discriminate]. cbn in H. injection H as <-.
    apply boxcox_inv in E. destruct E as [P ->]. split; [reflexivity|]. intros x Hx. now injection Hx as <-.
  - injection H as <-. split; [reflexivity|discriminate].
Qed.
Lemma map_boxcox_inv lam shift l sig : map_res (fun s => boxcox lam (s + shift)) l = Ok sig ->
  sig = map (fun s => bc lam (s + shift)) l /\ (forall s, In s l -> 0 < s + shift).
Proof.
  intros H. apply map_res_inv in H. induction H as [|x y l ys Hxy HF IH]; cbn.
  - split; [reflexivity|]. intros s [].
  - apply boxcox_inv in Hxy. destruct Hxy as [P ->]. destruct IH as [-> IH]. split; [reflexivity|].
    intros s [<-|Hs]; auto.
Qed.
(** What a successful stage returned. *)
Lemma pod_run_inv opt signals detection noise sat censored o :
  pod_run opt signals detection noise sat true censored = Ok o ->
  exists lam, auto_shift signals = Ok (o_shift o) /\ opt signals (o_shift o) = Ok lam /\ o_lambda o = Some lam /\
    o_signals o = map (fun s => bc lam (s + o_shift o)) signals /\
    (forall s, In s signals -> 0 < s + o_shift o) /\
    o_detection o = bc lam (detection + o_shift o) /\ 0 < detection + o_shift o /\
    (if censored then bc_threshold lam (o_shift o) noise else Ok noise) = Ok (o_noise o) /\
    (if censored then bc_threshold lam (o_shift o) sat else Ok sat) = Ok (o_sat o).
Proof.
  unfold pod_run. destruct (auto_shift signals) as [sh|]; [|discriminate]. cbn [bind].
  destruct (opt signals sh) as [lam|] eqn:EO; [|discriminate]. cbn [bind].
  destruct (map_res _ signals) as [sig|] eqn:ES; [|discriminate]. cbn [bind].
  destruct (if censored then bc_threshold lam sh noise else Ok noise) as [no|] eqn:EN; [|discriminate]. cbn [bind].
  destruct (if censored then bc_threshold lam sh sat else Ok sat) as [sa|] eqn:EA; [|discriminate]. cbn [bind].
  destruct (boxcox lam (detection + sh)) as [d|] eqn:ED; [|discriminate]. cbn [bind]. intros H. injection H as <-. cbn.
  apply map_boxcox_inv in ES. destruct ES as [-> P]. apply boxcox_inv in ED. destruct ED as [PD ->].
  exists lam. repeat split; auto.
Qed.
(** The whole stage: the i-th transformed signal is above the transformed detection threshold iff the i-th raw
    signal is above the raw one; also for the thresholds of the censored likelihood. *)
Theorem C03_decisions_unchanged :
  forall opt signals detection noise sat (boxCox censored : bool) o,
    pod_run opt signals detection noise sat boxCox censored = Ok o ->
    length (o_signals o) = length signals /\
    forall i, (i < length signals)%nat ->
      (o_detection o < nth i (o_signals o) 0 <-> detection < nth i signals 0) /\
      (censored = true -> forall t t', noise = Some t -> o_noise o = Some t' ->
         (nth i (o_signals o) 0 <= t' <-> nth i signals 0 <= t)) /\
      (censored = true -> forall t t', sat = Some t -> o_sat o = Some t' ->
         (t' <= nth i (o_signals o) 0 <-> t <= nth i signals 0)).
Proof.
  intros opt signals detection noise sat boxCox censored o H. destruct boxCox.
  2:{ cbn in H. injection H as <-. cbn. split; [reflexivity|]. intros i Hi. split; [reflexivity|].
      split; intros _ t t' E1 E2; rewrite E1 in E2; injection E2 as <-; reflexivity. }
  apply pod_run_inv in H. destruct H as [lam [_ [_ [_ [-> [P [-> [PD [HN HS]]]]]]]]]. rewrite map_length.
  split; [reflexivity|]. intros i Hi.
  set (f := fun s => bc lam (s + o_shift o)).
  assert (HI : In (nth i signals 0) signals) by (now apply nth_In).
  assert (Hn : nth i (map f signals) 0 = f (nth i signals 0)).
  { rewrite (nth_indep _ 0 (f 0)) by (now rewrite map_length). apply map_nth. }
  rewrite Hn. unfold f. assert (PI := P _ HI). split; [|split].
  - rewrite bc_lt_iff by assumption. lra.
  - intros -> t t' -> HE. apply bc_threshold_inv in HN. destruct HN as [HN PN]. cbn in HN.
    rewrite HN in HE. injection HE as <-. rewrite bc_le_iff by auto. lra.
  - intros -> t t' -> HE. apply bc_threshold_inv in HS. destruct HS as [HS PS]. cbn in HS.
    rewrite HS in HE. injection HE as <-. rewrite bc_le_iff by auto. lra.
Qed.
Print Assumptions C03_decisions_unchanged.
(** The same for the analysis. *)
Lemma analysis_run_inv opt signals noise sat lambda o :
  analysis_run opt signals noise sat true lambda = Ok o ->
  exists lam, auto_shift signals = Ok (o_shift o) /\ o_lambda o = Some lam /\
    o_signals o = map (fun s => bc lam (s + o_shift o)) signals /\
    (forall s, In s signals -> 0 < s + o_shift o) /\
    bc_threshold lam (o_shift o) noise = Ok (o_noise o) /\ bc_threshold lam (o_shift o) sat = Ok (o_sat o).
Proof.
  unfold analysis_run. destruct (auto_shift signals) as [sh|]; [|discriminate]. cbn [bind].
  destruct (match lambda with None => opt signals sh | Some l => Ok l end) as [lam|]; [|discriminate]. cbn [bind].
  destruct (map_res _ signals) as [sig|] eqn:ES; [|discriminate]. cbn [bind].
  destruct (bc_threshold lam sh noise) as [no|] eqn:EN; [|discriminate]. cbn [bind].
  destruct (bc_threshold lam sh sat) as [sa|] eqn:EA; [|discriminate]. cbn [bind]. intros H. injection H as <-. cbn.
  apply map_boxcox_inv in ES. destruct ES as [-> P]. exists lam. repeat split; auto.
Qed.
Theorem C03_analysis_thresholds :
  forall opt signals noise sat lambda o, analysis_run opt signals noise sat true lambda = Ok o ->
    length (o_signals o) = length signals /\
    (noise = None <-> o_noise o = None) /\ (sat = None <-> o_sat o = None) /\
    forall i, (i < length signals)%nat ->
      (forall t t', noise = Some t -> o_noise o = Some t' -> (nth i (o_signals o) 0 <= t' <-> nth i signals 0 <= t)) /\
      (forall t t', sat = Some t -> o_sat o = Some t' -> (t' <= nth i (o_signals o) 0 <-> t <= nth i signals 0)).
Proof.
  intros opt signals noise sat lambda o H.
  apply analysis_run_inv in H. destruct H as [lam [_ [_ [-> [P [HN HS]]]]]]. rewrite map_length.
  apply bc_threshold_inv in HN. apply bc_threshold_inv in HS. destruct HN as [HN PN]. destruct HS as [HS PS].
  split; [reflexivity|]. split; [|split].
  - rewrite HN. destruct noise; cbn; split; congruence.
  - rewrite HS. destruct sat; cbn; split; congruence.
  - intros i Hi. set (f := fun s => bc lam (s + o_shift o)).
    assert (HI : In (nth i signals 0) signals) by (now apply nth_In).
    assert (Hn : nth i (map f signals) 0 = f (nth i signals 0)).
    { rewrite (nth_indep _ 0 (f 0)) by (now rewrite map_length). apply map_nth. }
    rewrite Hn. unfold f. assert (PI := P _ HI). split; intros t t' -> HE; cbn in HN, HS.
    + rewrite HN in HE. injection HE as <-. rewrite bc_le_iff by auto. lra.
    + rewrite HS in HE. injection HE as <-. rewrite bc_le_iff by auto. lra.
Qed.
Print Assumptions C03_analysis_thresholds.

(** *** C04 *)
Theorem C04_shift :
  forall signals, signals <> [] -> exists shift, auto_shift signals = Ok shift /\
    ((exists s, In s signals /\ s < 0) ->
        0 < shift /\ (forall s, In s signals -> 100 <= s + shift) /\ (exists s, In s signals /\ s + shift = 100)) /\
    ((forall s, In s signals -> 0 <= s) -> shift = 0).
Proof.
  intros signals Hn. destruct signals as [|x l] eqn:E; [congruence|]. rewrite <- E in *. clear E x l.
  exists (if Rltb (Rlmin signals) 0 then - Rlmin signals + 100 else 0).
  split; [unfold auto_shift; destruct signals; [congruence|reflexivity]|]. split.
  - intros [s [Hs Ns]]. assert (G := Rlmin_le _ _ Hs). destruct (Rltb_spec (Rlmin signals) 0) as [L|L]; [|lra].
    split; [lra|]. split.
    + intros y Hy. assert (G' := Rlmin_le _ _ Hy). lra.
    + exists (Rlmin signals). split; [now apply Rlmin_in|lra].
  - intros H. assert (G := H _ (Rlmin_in _ Hn)). destruct (Rltb_spec (Rlmin signals) 0) as [L|L]; [lra|reflexivity].
Qed.
Print Assumptions C04_shift.
(** The transformation of the signals succeeds exactly when the smallest signal is not 0 (finding). *)
Theorem C04_transformation_succeeds_iff :
  forall (opt : list R -> R -> res R) signals detection,
    signals <> [] -> (forall sh, is_ok (opt signals sh) = true) ->
    (exists shift, auto_shift signals = Ok shift /\
      (is_ok (pod_run opt signals detection None None true false) = true <->
        ((exists s, In s signals /\ s < 0) \/ ~ In 0 signals) /\ - shift < detection)).
Proof.
  intros opt signals detection Hn Hopt. destruct (C04_shift signals Hn) as [sh [Esh [H1 H2]]]. exists sh. split; [assumption|].
  unfold pod_run. rewrite Esh. cbn [bind]. specialize (Hopt sh). destruct (opt signals sh) as [lam|]; [|discriminate].
  cbn [bind]. clear Hopt.
  assert (D : (exists s, In s signals /\ s < 0) \/ (forall s, In s signals -> 0 <= s)).
  { destruct (Rlt_dec (Rlmin signals) 0) as [L|L].
    - left. exists (Rlmin signals). split; [now apply Rlmin_in|assumption].
    - right. intros s Hs. assert (G := Rlmin_le _ _ Hs). lra. }
  assert (S : (exists s, In s signals /\ s < 0) \/ ~ In 0 signals <-> forall s, In s signals -> 0 < s + sh).
  { split.
    - intros HH. destruct D as [D|D].
      + destruct (H1 D) as [_ [G _]]. intros s Hs. assert (K := G s Hs). lra.
      + rewrite (H2 D). intros s Hs. assert (K := D s Hs). destruct HH as [[y [Hy Ny]]|HH]; [assert (K' := D y Hy); lra|].
        assert (s <> 0) by (intros ->; contradiction). lra.
    - intros HH. destruct D as [D|D]; [now left|]. right. intros H0. specialize (HH 0 H0). rewrite (H2 D) in HH. lra. }
  rewrite S. destruct (map_res (fun s => boxcox lam (s + sh)) signals) as [sig|] eqn:ES.
  - cbn [bind]. apply map_boxcox_inv in ES. destruct ES as [_ P].
    destruct (Rlt_dec 0 (detection + sh)) as [L|L].
    + rewrite boxcox_ok by assumption. cbn. split; [|reflexivity]. intros _. split; [assumption|lra].
    + rewrite boxcox_raise by lra. cbn. split; [discriminate|]. intros [_ G]. lra.
  - cbn. split; [discriminate|]. intros [G _].
    rewrite (map_res_ok _ (fun s => bc lam (s + sh))) in ES; [discriminate|]. intros s Hs. apply boxcox_ok. auto.
Qed.
Print Assumptions C04_transformation_succeeds_iff.
(** Finding: a smallest signal of exactly 0 is not shifted and makes the transformation fail. *)
Theorem C04_zero_minimum_refuted :
  exists signals, (forall s, In s signals -> 0 <= s) /\ signals <> [] /\
    forall opt detection noise sat censored, is_ok (pod_run opt signals detection noise sat true censored) = false.
Proof.
  exists [0; 1]. split; [intros s [<-|[<-|[]]]; lra|]. split; [discriminate|]. intros opt detection noise sat censored.
  unfold pod_run. assert (E : auto_shift [0; 1] = Ok 0).
  { unfold auto_shift. destruct (Rltb_spec (Rlmin [0; 1]) 0) as [L|L]; [|reflexivity].
    cbn in L. unfold Rmin in L. destruct (Rle_dec 1 0); lra. }
  rewrite E. cbn [bind]. destruct (opt [0; 1] 0) as [lam|]; [|reflexivity]. cbn [bind].
  assert (G : is_ok (map_res (fun s => boxcox lam (s + 0)) [0; 1]) = false).
  { apply map_res_raise. exists 0. split; [now left|]. rewrite boxcox_raise by lra. reflexivity. }
  destruct (map_res _ [0; 1]); [discriminate|reflexivity].
Qed.
Print Assumptions C04_zero_minimum_refuted.
(** Once a shift took place, a threshold not below the smallest signal is positive. *)
Theorem C04_threshold_above_minimum :
  forall signals shift t, auto_shift signals = Ok shift -> (exists s, In s signals /\ s < 0) ->
    (exists s, In s signals /\ s <= t) -> 0 < t + shift.
Proof.
  intros signals shift t E H [s [Hs Ht]]. assert (Hn : signals <> []) by (intros ->; destruct Hs).
  destruct (C04_shift signals Hn) as [sh [Esh [H1 _]]]. rewrite Esh in E. injection E as ->.
  destruct (H1 H) as [_ [G _]]. assert (K := G s Hs). lra.
Qed.
Print Assumptions C04_threshold_above_minimum.
(** Censored data: the noise threshold is below every signal.  Finding: a noise threshold that is 0 or negative while
    the remaining signals are positive makes the run fail, as does one that is 100 or more below a negative smallest
    signal; otherwise the noise threshold can be transformed. *)
Theorem C04_noise_threshold :
  forall lam signals shift t, auto_shift signals = Ok shift -> (forall s, In s signals -> t < s) ->
    (is_ok (bc_threshold lam shift (Some t)) = true <->
       ((forall s, In s signals -> 0 <= s) /\ 0 < t) \/ (exists s, In s signals /\ s < 0 /\ s < t + 100)).
Proof.
  intros lam signals shift t E Ht. assert (Hn : signals <> []) by (intros ->; discriminate).
  destruct (C04_shift signals Hn) as [sh [Esh [H1 H2]]]. rewrite Esh in E. injection E as ->.
  assert (B : is_ok (bc_threshold lam shift (Some t)) = true <-> 0 < t + shift).
  { cbn. destruct (Rlt_dec 0 (t + shift)) as [L|L].
    - rewrite boxcox_ok by assumption. cbn. tauto.
    - rewrite boxcox_raise by lra. cbn. split; [discriminate|contradiction]. }
  rewrite B. clear B.
  destruct (Rlt_dec (Rlmin signals) 0) as [L|L].
  - assert (X : exists s, In s signals /\ s < 0) by (exists (Rlmin signals); split; [now apply Rlmin_in|assumption]).
    destruct (H1 X) as [_ [G [y [Hy Ey]]]]. split.
    + intros P. right. exists y. split; [assumption|]. split; [|lra].
      destruct X as [z [Hz Nz]]. assert (K := G z Hz). lra.
    + intros [[Hp _]|[s [Hs [Ns Ls]]]].
      * destruct X as [z [Hz Nz]]. assert (K := Hp z Hz). lra.
      * assert (K := G s Hs). lra.
  - assert (X : forall s, In s signals -> 0 <= s) by (intros s Hs; assert (K := Rlmin_le _ _ Hs); lra).
    rewrite (H2 X). split.
    + intros P. left. split; [assumption|lra].
    + intros [[_ P]|[s [Hs [Ns _]]]]; [lra|]. assert (K := X s Hs). lra.
Qed.
Print Assumptions C04_noise_threshold.
Example C04_example : [3; -2; 5] <> [] /\ (exists s, In s [3; -2; 5] /\ s < 0) /\ (exists s, In s [3; -2; 5] /\ s <= 4) /\
  (forall s, In s [3; 5] -> 0 < s) /\ is_ok (bc_threshold 1 0 (Some 0)) = false.
Proof.
  split; [discriminate|]. split; [exists (-2); cbn; intuition lra|]. split; [exists 3; cbn; intuition lra|].
  split; [intros s [<-|[<-|[]]]; lra|]. cbn. rewrite boxcox_raise by lra. reflexivity.
Qed.

(** *** C05 *)
Lemma inv_bc lam x : 0 < x -> inv_boxcox lam (bc lam x) = Ok x.
Proof.
  intros H. unfold inv_boxcox, bc. destruct (Reqb_spec lam 0) as [E|E]; [now rewrite exp_ln|].
  replace (lam * ((Rpower x lam - 1) / lam) + 1) with (Rpower x lam) by (field; assumption).
  assert (P : 0 < Rpower x lam) by (unfold Rpower; apply exp_pos). rewrite (proj2 (Rltb_true _ _) P).
  rewrite Rpower_mult. rewrite Rinv_r by assumption. now rewrite Rpower_1.
Qed.
Lemma doe_adds_lambda d values d' : doe_adds d values = Ok d' ->
  d_lambda d' = d_lambda d /\ d_shift d' = d_shift d /\
  match d_lambda d with
  | Some lam => d_signals d' = d_signals d ++ map (fun v => bc lam (v + d_shift d)) values /\
                (forall v, In v values -> 0 < v + d_shift d)
  | None => d_signals d' = d_signals d ++ values
  end.
Proof.
  revert d. induction values as [|v values IH]; cbn; intros d H.
  - injection H as <-. split; [reflexivity|]. split; [reflexivity|].
    destruct (d_lambda d); rewrite app_nil_r; [|reflexivity]. split; [reflexivity|]. intros v [].
  - unfold doe_add in H at 1. destruct (d_lambda d) as [lam|] eqn:EL.
    + destruct (boxcox lam (v + d_shift d)) as [u|] eqn:EU; [|discriminate]. cbn [bind] in H.
      apply boxcox_inv in EU. destruct EU as [P ->]. apply IH in H. cbn in H.
      destruct H as [HL [HS [HV HP]]]. split; [congruence|]. split; [congruence|]. split.
      * rewrite HV, <- app_assoc. reflexivity.
      * intros w [<-|Hw]; auto.
    + cbn [bind] in H. apply IH in H. cbn in H. destruct H as [HL [HS HV]]. split; [congruence|]. split; [congruence|].
      rewrite HV, <- app_assoc. reflexivity.
Qed.
(** Whatever was computed internally, the output DOE is in the original unit. *)
Theorem C05_output_doe_round_trip :
  forall opt signals detection noise sat boxCox censored values d d',
    doe_new opt signals detection noise sat boxCox censored = Ok d -> doe_adds d values = Ok d' ->
    getOutputDOE d' = Ok (signals ++ values).
Proof.
  intros opt signals detection noise sat boxCox censored values d d' HN HA. unfold doe_new in HN.
  destruct (pod_run opt signals detection noise sat boxCox censored) as [o|] eqn:E; [|discriminate]. cbn in HN. injection HN as <-.
  destruct (doe_adds_lambda _ _ _ HA) as [HL [HS HV]]. cbn in *. unfold getOutputDOE. rewrite HL. destruct boxCox.
  - apply pod_run_inv in E. destruct E as [lam [_ [_ [EL [ES [P _]]]]]]. rewrite EL in *. destruct HV as [HV PV].
    rewrite HV, ES, HS, <- map_app.
    rewrite (map_res_ok _ (fun y => match inv_boxcox lam y with Ok x => x | Raise _ => 0 end)).
    + cbn [bind]. f_equal. rewrite !map_map. rewrite (map_ext_in _ (fun s => s)); [apply map_id|].
      intros s Hs. rewrite inv_bc; [lra|]. apply in_app_or in Hs. destruct Hs; auto.
    + intros y Hy. apply in_map_iff in Hy. destruct Hy as [s [<- Hs]].
      rewrite inv_bc; [reflexivity|]. apply in_app_or in Hs. destruct Hs; auto.
  - cbn in E. injection E as <-. cbn in *. now rewrite HV.
Qed.
Print Assumptions C05_output_doe_round_trip.
(** The additions fail exactly when an added value is not above minus the shift. *)
Theorem C05_additions_succeed_iff :
  forall opt signals detection noise sat censored values d,
    doe_new opt signals detection noise sat true censored = Ok d ->
    (is_ok (doe_adds d values) = true <-> forall v, In v values -> - d_shift d < v).
Proof.
  intros opt signals detection noise sat censored values d HN. unfold doe_new in HN.
  destruct (pod_run opt signals detection noise sat true censored) as [o|] eqn:E; [|discriminate]. cbn in HN. injection HN as <-.
  apply pod_run_inv in E. destruct E as [lam [_ [_ [EL _]]]]. rewrite EL. cbn. generalize (o_signals o) as acc.
  induction values as [|v values IH]; intros acc; cbn.
  - split; [intros _ v []|reflexivity].
  - destruct (Rlt_dec 0 (v + o_shift o)) as [L|L].
    + rewrite boxcox_ok by assumption. cbn. rewrite IH. split.
      * intros H w [<-|Hw]; [lra|auto].
      * intros H w Hw. apply H. now right.
    + rewrite boxcox_raise by lra. cbn. split; [discriminate|]. intros H. specialize (H v (or_introl eq_refl)). lra.
Qed.
Print Assumptions C05_additions_succeed_iff.
Example C05_example : exists d d', doe_new (fun _ _ => Ok (/2)) [3; -2; 5] 1 None None true false = Ok d /\
  doe_adds d [7; -1] = Ok d' /\ getOutputDOE d' = Ok [3; -2; 5; 7; -1].
Proof.
  assert (Hn : [3; -2; 5] <> []) by discriminate.
  assert (X : exists s, In s [3; -2; 5] /\ s < 0) by (exists (-2); cbn; intuition lra).
  destruct (C04_shift _ Hn) as [sh [Esh [H1 _]]].
  destruct (H1 X) as [Psh [G _]].
  assert (E : sh = 102).
  { cbn in Esh. unfold Rmin in Esh. injection Esh as <-.
    destruct (Rle_dec 5 3); [lra|]. destruct (Rle_dec (-2) 3); [|lra]. destruct (Rltb_spec (-2) 0); lra. }
  destruct (doe_new (fun _ _ => Ok (/2)) [3; -2; 5] 1 None None true false) as [d|e] eqn:ED.
  - exists d. destruct (doe_adds d [7; -1]) as [d'|e] eqn:EA.
    + exists d'. split; [reflexivity|]. split; [reflexivity|].
      apply (C05_output_doe_round_trip _ _ _ _ _ _ _ _ _ _ ED EA).
    + exfalso. assert (K := proj2 (C05_additions_succeed_iff _ _ _ _ _ _ [7; -1] d ED)).
      rewrite EA in K. cbn in K. enough (false = true) by discriminate. apply K.
      unfold doe_new in ED. destruct (pod_run _ _ _ _ _ _ _) as [o|] eqn:EP; [|discriminate]. cbn in ED. injection ED as <-.
      apply pod_run_inv in EP. destruct EP as [lam [ES _]]. rewrite Esh in ES. injection ES as ES. cbn. rewrite <- ES.
      intros v [<-|[<-|[]]]; lra.
  - exfalso. destruct (C04_transformation_succeeds_iff (fun _ _ => Ok (/2)) [3; -2; 5] 1 Hn (fun _ => eq_refl)) as [sh' [Esh' K]].
    rewrite Esh in Esh'. injection Esh' as <-. unfold doe_new in ED.
    assert (K' : is_ok (pod_run (fun _ _ => Ok (/2)) [3; -2; 5] 1 None None true false) = true).
    { apply K. split; [now left|lra]. }
    destruct (pod_run _ _ _ _ _ _ _); discriminate.
Qed.
