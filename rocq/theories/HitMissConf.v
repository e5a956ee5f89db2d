(** Lemmas on the confusion matrix and the corrected classifier, in binary64 and in real arithmetic. *)
From Coq Require Import SpecFloat Reals Lra.
From Verif Require Import Base Float64 SettersModel HitMissModel HitMissSpec HitMissProofs.

(** *** NaN propagation (binary64) *)
Lemma fadd_nan a c : is_nan a = true \/ is_nan c = true -> is_nan (fadd a c) = true.
Proof. intros [H|H]; destruct a, c; cbn in *; try discriminate; reflexivity. Qed.
Lemma fsub_nan a c : is_nan a = true \/ is_nan c = true -> is_nan (fsub a c) = true.
Proof. intros [H|H]; destruct a, c; cbn in *; try discriminate; reflexivity. Qed.
Lemma fmul_nan a c : is_nan a = true \/ is_nan c = true -> is_nan (fmul a c) = true.
Proof. intros [H|H]; destruct a, c; cbn in *; try discriminate; reflexivity. Qed.
Lemma fdiv_nan a c : is_nan a = true \/ is_nan c = true -> is_nan (fdiv a c) = true.
Proof. intros [H|H]; destruct a, c; cbn in *; try discriminate; reflexivity. Qed.

Lemma agg64_range p11 p10 raw :
  let p := agg num64 p11 p10 raw in
  is_nan p = true \/ (fleb fzero p = true /\ fleb p fone = true).
Proof.
  cbv zeta. unfold agg. set (q := n_mul num64 _ _). unfold np_min2, np_max2. cbn [num64 n_nan n_lt n_ofZ].
  change (of_int 0) with fzero. change (of_int 1) with fone.
  destruct (is_nan q) eqn:Eq; [left; now rewrite Eq|].
  change (is_nan fzero) with false. change (is_nan fone) with false. cbv iota.
  destruct (fltb q fzero) eqn:E1.
  - right. change (is_nan fzero) with false. cbv iota. split; reflexivity.
  - rewrite Eq. right. destruct (fltb fone q) eqn:E2.
    + split; reflexivity.
    + rewrite !fleb_negb_fltb by (assumption || reflexivity). now rewrite E1, E2.
Qed.
Lemma agg64_nan p11 p10 raw :
  is_nan p11 = true \/ is_nan p10 = true -> is_nan (agg num64 p11 p10 raw) = true.
Proof.
  intros H. unfold agg.
  assert (Hq : is_nan (n_mul num64 (n_div num64 (n_ofZ num64 1) (n_sub num64 p11 p10)) (n_sub num64 raw p10)) = true).
  { cbn [num64 n_mul n_div n_sub]. apply fmul_nan. left. apply fdiv_nan. right. now apply fsub_nan. }
  unfold np_min2, np_max2. cbn [num64 n_nan] in *. rewrite Hq, Hq. exact Hq.
Qed.

Lemma all_same_both c l : both_classes l -> all_same c l = false.
Proof.
  intros [Ht Hf]. unfold all_same. apply not_true_iff_false. intros H. rewrite forallb_forall in H.
  specialize (H (negb c)). destruct c; cbn in H; [specialize (H Hf)|specialize (H Ht)]; discriminate.
Qed.
Lemma count_never c t truth pred : ~ In c pred -> count t c truth pred = 0%Z.
Proof.
  intros H. unfold count.
  replace (filter _ (combine truth pred)) with (@nil (bool * bool)); [reflexivity|].
  symmetry. revert truth. induction pred as [|p pred IH]; intros truth; [now destruct truth|].
  destruct truth as [|t' truth]; cbn; [reflexivity|].
  destruct (Bool.eqb_spec p c) as [->|Hne]; [exfalso; apply H; now left|].
  rewrite andb_false_r. apply IH. intros Hin. apply H. now right.
Qed.
Lemma conf_temp_nan truth pred : both_classes truth ->
  (~ In true pred -> is_nan (m11 (conf_temp num64 truth pred)) = true) /\
  (~ In false pred -> is_nan (m10 (conf_temp num64 truth pred)) = true).
Proof.
  intros Hb. unfold conf_temp. rewrite (all_same_both true truth Hb), (all_same_both false truth Hb). cbn [andb orb m11 m10].
  split; intros H; rewrite !(count_never _ _ _ _ H); reflexivity.
Qed.
Lemma fold_m11_nan truth : forall preds acc,
  (is_nan (m11 acc) = true \/ exists p, In p preds /\ is_nan (m11 (conf_temp num64 truth p)) = true) ->
  is_nan (m11 (fold_left (fun acc pred => cm_add num64 (conf_temp num64 truth pred) acc) preds acc)) = true.
Proof.
  induction preds as [|p preds IH]; intros acc H; cbn [fold_left].
  - destruct H as [H|[p [[] _]]]. exact H.
  - apply IH. destruct H as [H|[q [[<-|Hq] H]]].
    + left. cbn. apply fadd_nan. now right.
    + left. cbn. apply fadd_nan. now left.
    + right. now exists q.
Qed.
Lemma fold_m10_nan truth : forall preds acc,
  (is_nan (m10 acc) = true \/ exists p, In p preds /\ is_nan (m10 (conf_temp num64 truth p)) = true) ->
  is_nan (m10 (fold_left (fun acc pred => cm_add num64 (conf_temp num64 truth pred) acc) preds acc)) = true.
Proof.
  induction preds as [|p preds IH]; intros acc H; cbn [fold_left].
  - destruct H as [H|[p [[] _]]]. exact H.
  - apply IH. destruct H as [H|[q [[<-|Hq] H]]].
    + left. cbn. apply fadd_nan. now right.
    + left. cbn. apply fadd_nan. now left.
    + right. now exists q.
Qed.
Lemma confMat_nan truth preds p : both_classes truth -> In p preds -> ~ both_classes p ->
  let c := confMat num64 truth preds in is_nan (m11 c) = true \/ is_nan (m10 c) = true.
Proof.
  intros Ht Hp Hn. cbv zeta. destruct (conf_temp_nan truth p Ht) as [H1 H2].
  destruct (in_dec Bool.bool_dec true p) as [HT|HT], (in_dec Bool.bool_dec false p) as [HF|HF].
  - exfalso. apply Hn. now split.
  - right. unfold confMat, cm_scale. cbn [m10]. apply fdiv_nan. left. apply fold_m10_nan. right. eauto.
  - left. unfold confMat, cm_scale. cbn [m11]. apply fdiv_nan. left. apply fold_m11_nan. right. eauto.
  - left. unfold confMat, cm_scale. cbn [m11]. apply fdiv_nan. left. apply fold_m11_nan. right. eauto.
Qed.

(** A classifier of the list that predicts a single class makes the next iteration fail. *)
Lemma single_class_stops {X} argsort fit phys (candidates : list X) b nMore n_ini s s' c :
  argsort_spec argsort ->
  hm_step argsort fit phys candidates b nMore n_ini s = (s', Ok tt) ->
  both_classes (h_labels s') -> In c (h_list s) ->
  ~ both_classes (predict (eval_clf s c) (h_input s')) ->
  (is_nan (h_p11 s') = true \/ is_nan (h_p10 s') = true) /\
  (forall x, is_nan (eval_clf s' (h_cur s') x) = true) /\
  hm_step argsort fit phys candidates b nMore n_ini s' = (s', Raise IndexError).
Proof.
  intros Has H Hlab Hc Hp.
  assert (Hn : (is_nan (h_p11 s') = true \/ is_nan (h_p10 s') = true) /\ h_cur s' = CAgg).
  { unfold hm_step in H. destruct (do i <- _; fancy candidates i) as [xs|e]; [|discriminate].
    injection H as <-. cbn [h_p11 h_p10 h_input h_labels h_cur] in *. split; [|reflexivity].
    eapply confMat_nan; [exact Hlab| |exact Hp]. now apply (in_map (fun c0 => predict (eval_clf s c0) _)). }
  destruct Hn as [Hn Hcur].
  assert (He : forall x, is_nan (eval_clf s' (h_cur s') x) = true).
  { intros x. rewrite Hcur. cbn. now apply agg64_nan. }
  split; [exact Hn|]. split; [exact He|].
  unfold hm_step.
  destruct (step_select argsort candidates b Has s') as [_ H2]. rewrite H2; [reflexivity|].
  intros [x [_ [Hx _]]]. apply fleb_not_nan in Hx as [_ Hx]. rewrite He in Hx. discriminate.
Qed.

(** *** Real arithmetic *)
Definition numR : num R :=
  {| n_add := Rplus; n_sub := Rminus; n_mul := Rmult; n_div := Rdiv;
     n_lt := fun a c => if Rlt_dec a c then true else false; n_nan := fun _ => false; n_ofZ := IZR |}.

Local Open Scope R_scope.
Lemma aggR_clip p11 p10 raw :
  agg numR p11 p10 raw = Rmin (Rmax ((raw - p10) / (p11 - p10)) 0) 1.
Proof.
  unfold agg, np_min2, np_max2. cbn [numR n_nan n_lt n_ofZ n_sub n_mul n_div].
  replace (1 / (p11 - p10) * (raw - p10)) with ((raw - p10) / (p11 - p10)) by (unfold Rdiv; ring).
  generalize ((raw - p10) / (p11 - p10)). intros q. unfold Rmin, Rmax.
  destruct (Rlt_dec q 0), (Rle_dec q 0); cbv iota; try lra;
    repeat (match goal with |- context [Rlt_dec ?a ?c] => destruct (Rlt_dec a c)
                          | |- context [Rle_dec ?a ?c] => destruct (Rle_dec a c) end; cbv iota); lra.
Qed.
Lemma aggR_range p11 p10 raw : 0 <= agg numR p11 p10 raw <= 1.
Proof.
  rewrite aggR_clip. generalize ((raw - p10) / (p11 - p10)). intros q. unfold Rmin, Rmax. repeat (destruct (Rle_dec _ _)); lra.
Qed.
Lemma clip_mono a c : a <= c -> Rmin (Rmax a 0) 1 <= Rmin (Rmax c 0) 1.
Proof. intros. unfold Rmin, Rmax. repeat (destruct (Rle_dec _ _)); lra. Qed.
Lemma aggR_monotone p11 p10 : 0 <= p11 <= 1 -> 0 <= p10 <= 1 -> p11 <> p10 ->
  ((forall r r', 0 <= r <= 1 -> 0 <= r' <= 1 -> r <= r' -> agg numR p11 p10 r <= agg numR p11 p10 r')
   <-> p10 < p11).
Proof.
  intros H1 H2 Hne. split.
  - intros H. destruct (Rtotal_order p10 p11) as [|[E|Hgt]]; [assumption|congruence|exfalso].
    assert (Hc := H p11 p10 H1 H2 ltac:(lra)). rewrite !aggR_clip in Hc.
    replace ((p11 - p10) / (p11 - p10)) with 1 in Hc by (field; lra).
    replace ((p10 - p10) / (p11 - p10)) with 0 in Hc by (field; lra).
    rewrite (Rmax_left 1 0), (Rmin_left 1 1), (Rmax_left 0 0), (Rmin_left 0 1) in Hc by lra. lra.
  - intros Hlt r r' _ _ Hr. rewrite !aggR_clip. apply clip_mono.
    apply Rmult_le_compat_r; [|lra]. left. apply Rinv_0_lt_compat. lra.
Qed.

Lemma count_nonneg t p truth pred : (0 <= count t p truth pred)%Z.
Proof. unfold count. lia. Qed.
Lemma count_column c truth pred : length truth = length pred -> In c pred ->
  (0 < count false c truth pred + count true c truth pred)%Z.
Proof.
  unfold count. revert truth. induction pred as [|p pred IH]; intros truth Hl Hin; [destruct Hin|].
  destruct truth as [|t truth]; [discriminate|]. cbn [combine filter fst snd].
  destruct Hin as [->|Hin].
  - rewrite Bool.eqb_reflx, !andb_true_r. destruct t; cbn [eqb length]; lia.
  - assert (H := IH truth ltac:(cbn in Hl; lia) Hin).
    destruct (eqb t false && eqb p c), (eqb t true && eqb p c); cbn [length]; lia.
Qed.
Definition stochastic (c : cm (T := R)) : Prop :=
  0 <= m00 c /\ 0 <= m01 c /\ 0 <= m10 c /\ 0 <= m11 c /\ m00 c + m10 c = 1 /\ m01 c + m11 c = 1.
Lemma conf_temp_stochastic truth pred : length truth = length pred -> both_classes pred ->
  stochastic (conf_temp numR truth pred).
Proof.
  intros Hl Hb. unfold conf_temp. rewrite !(all_same_both _ pred) by assumption. rewrite !andb_false_r. cbn [orb].
  assert (H0 := count_column false truth pred Hl (proj2 Hb)).
  assert (H1 := count_column true truth pred Hl (proj1 Hb)).
  assert (Hn00 := count_nonneg false false truth pred). assert (Hn10 := count_nonneg true false truth pred).
  assert (Hn01 := count_nonneg false true truth pred). assert (Hn11 := count_nonneg true true truth pred).
  unfold stochastic. cbn [m00 m01 m10 m11 numR n_add n_div n_ofZ].
  rewrite <- !plus_IZR. apply IZR_lt in H0, H1. apply IZR_le in Hn00, Hn10, Hn01, Hn11.
  assert (I0 := Rinv_0_lt_compat _ H0). assert (I1 := Rinv_0_lt_compat _ H1).
  repeat split; try (apply Rmult_le_pos; lra).
  - unfold Rdiv. rewrite <- Rmult_plus_distr_r, <- plus_IZR. apply Rinv_r. lra.
  - unfold Rdiv. rewrite <- Rmult_plus_distr_r, <- plus_IZR. apply Rinv_r. lra.
Qed.
Lemma fold_conf truth : forall preds acc, Forall (fun p => length truth = length p /\ both_classes p) preds ->
  forall k, 0 <= m00 acc /\ 0 <= m01 acc /\ 0 <= m10 acc /\ 0 <= m11 acc /\
            m00 acc + m10 acc = k /\ m01 acc + m11 acc = k ->
  let c := fold_left (fun acc pred => cm_add numR (conf_temp numR truth pred) acc) preds acc in
  0 <= m00 c /\ 0 <= m01 c /\ 0 <= m10 c /\ 0 <= m11 c /\
  m00 c + m10 c = k + INR (length preds) /\ m01 c + m11 c = k + INR (length preds).
Proof.
  induction preds as [|p preds IH]; intros acc HF k Hk; cbv zeta; cbn [fold_left length].
  - cbn. lra.
  - inversion HF as [|? ? [Hl Hb] HF']; subst.
    rewrite S_INR. replace (k + (INR (length preds) + 1)) with ((k + 1) + INR (length preds)) by ring.
    apply IH; [assumption|]. destruct (conf_temp_stochastic truth p Hl Hb) as [? [? [? [? [? ?]]]]].
    cbn [cm_add m00 m01 m10 m11 numR n_add]. lra.
Qed.
Lemma confMat_stochastic truth preds : preds <> [] ->
  Forall (fun p => length truth = length p /\ both_classes p) preds -> stochastic (confMat numR truth preds).
Proof.
  intros Hne HF. unfold confMat.
  assert (H := fold_conf truth preds (cm_zero numR) HF 0). cbv zeta in H.
  destruct H as [? [? [? [? [Ha Hb]]]]]; [cbn; lra|].
  set (c := fold_left _ preds (cm_zero numR)) in *.
  assert (Hp : 0 < INR (length preds)) by (apply lt_0_INR; destruct preds; [congruence|cbn; lia]).
  unfold stochastic, cm_scale. cbn [m00 m01 m10 m11 numR n_div n_ofZ]. rewrite <- INR_IZR_INZ.
  assert (I := Rinv_0_lt_compat _ Hp).
  repeat split; try (apply Rmult_le_pos; lra).
  - unfold Rdiv. rewrite <- Rmult_plus_distr_r, Ha, Rplus_0_l. apply Rinv_r. lra.
  - unfold Rdiv. rewrite <- Rmult_plus_distr_r, Hb, Rplus_0_l. apply Rinv_r. lra.
Qed.
Lemma aggR_row_lemma (p11 p10 : R) : 0 <= p11 <= 1 -> 0 <= p10 <= 1 -> p11 <> p10 ->
    (forall r, (0 <= fst (agg_row numR p11 p10 r) <= 1) /\ (0 <= snd (agg_row numR p11 p10 r) <= 1) /\
               (fst (agg_row numR p11 p10 r) + snd (agg_row numR p11 p10 r) = 1)) /\
    ((forall r r', 0 <= r <= 1 -> 0 <= r' <= 1 -> r <= r' ->
        snd (agg_row numR p11 p10 r) <= snd (agg_row numR p11 p10 r')) <-> p10 < p11).
Proof.
  intros H1 H2 Hne. split; [|now apply aggR_monotone].
  intros r. assert (H := aggR_range p11 p10 r). unfold agg_row. cbn [fst snd numR n_sub n_ofZ].
  set (q := agg numR p11 p10 r) in *. lra.
Qed.
