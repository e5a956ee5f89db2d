(** C29, C30, C33: normalisation of the kriging, conditional realisations and POD sample at one defect size. *)
From Verif Require Import RealBase MatBase KrigSimModel.
Local Open Scope R_scope.

(** *** C29 *)
(** Specification: the fraction of the values of a realisation that exceed the threshold (a missing value exceeds nothing). *)
Definition is_detected_fraction (detection : R) (row : list (option R)) (p : R) : Prop :=
  exists k, p = INR k / INR (length row) /\
    Permutation row (filter (fun y => match y with Some v => Rltb detection v | None => false end) row ++
                     filter (fun y => negb match y with Some v => Rltb detection v | None => false end) row) /\
    k = length (filter (fun y => match y with Some v => Rltb detection v | None => false end) row).

Lemma sum_indicator {A} (f : A -> bool) l : Rsum (map (fun y => if f y then 1 else 0) l) = INR (countb f l).
Proof.
  induction l as [|x l IH]; [reflexivity|]. cbn [map]. rewrite Rsum_cons, IH, countb_cons.
  destruct (f x); [change (1 + countb f l)%nat with (S (countb f l)); rewrite S_INR; lra|cbn; lra].
Qed.
Lemma pod_of_row_count d row : pod_of_row d row = INR (countb (exceeds d) row) / INR (length row).
Proof. unfold pod_of_row, Rmean. now rewrite sum_indicator, map_length. Qed.
Lemma frac_range k n : (k <= n)%nat -> (0 < n)%nat -> 0 <= INR k / INR n <= 1.
Proof.
  intros Hk Hn. assert (P := INR_pos n Hn). assert (0 <= INR k) by apply pos_INR. apply le_INR in Hk.
  split; [apply Rmult_le_pos; [lra|]; left; now apply Rinv_0_lt_compat|].
  apply (Rmult_le_reg_r (INR n)); [lra|]. unfold Rdiv. rewrite Rmult_assoc, Rinv_l by lra. lra.
Qed.
Lemma pod_of_row_range d row : row <> [] -> 0 <= pod_of_row d row <= 1.
Proof.
  intros H. rewrite pod_of_row_count. apply frac_range; [apply countb_le|]. destruct row; [congruence|cbn; lia].
Qed.
Lemma var_tcl_pos N p : (0 < N)%nat -> 0 <= p <= 1 -> (0 < var_tcl N p <-> 0 < p < 1).
Proof.
  intros HN Hp. assert (P := INR_pos N HN). unfold var_tcl. split; intros H.
  - destruct (Req_dec p 0) as [->|]; [unfold Rdiv in H; rewrite !Rmult_0_l in H; lra|].
    destruct (Req_dec p 1) as [->|]; [unfold Rdiv in H; replace (1 * (1 - 1)) with 0 in H by ring; rewrite Rmult_0_l in H; lra|]. lra.
  - apply Rmult_lt_0_compat; [nra|]. now apply Rinv_0_lt_compat.
Qed.

(** One component per realisation, in order, determined by the fraction of detections of that realisation. *)
Theorem C29_components :
  forall detection Y, (forall row, In row Y -> row <> []) ->
  length (mixture detection Y) = length Y /\
  forall m row, nth_error Y m = Some row ->
  exists p, is_detected_fraction detection row p /\ 0 <= p <= 1 /\
    (0 < p < 1 -> nth_error (mixture detection Y) m = Some (Normal p (sqrt (p * (1 - p) / INR (length row)))) /\
                  0 < p * (1 - p) / INR (length row)) /\
    (p = 0 -> nth_error (mixture detection Y) m = Some (Dirac 0)) /\
    (p = 1 -> nth_error (mixture detection Y) m = Some (Dirac 1)).
Proof.
  intros d Y HY. unfold mixture. split; [apply map_length|]. intros m row Hm.
  assert (Hr : row <> []) by (apply HY; eapply nth_error_In; eauto).
  assert (Hl : (0 < length row)%nat) by (destruct row; [congruence|cbn; lia]).
  exists (pod_of_row d row). assert (R := pod_of_row_range d row Hr). split.
  { exists (countb (exceeds d) row). split; [apply pod_of_row_count|]. split; [|reflexivity].
    clear. induction row as [|x row IH]; [constructor|]. cbn. destruct (match x with Some v => Rltb d v | None => false end); cbn.
    - now constructor.
    - apply Permutation_cons_app. exact IH. }
  split; [exact R|]. rewrite nth_error_map, Hm. cbn [option_map]. unfold component_of.
  assert (V := var_tcl_pos (length row) _ Hl R).
  split; [|split].
  - intros H. apply V in H. destruct (Rltb_spec 0 (var_tcl (length row) (pod_of_row d row))) as [L|L]; [|lra].
    split; [reflexivity|exact H].
  - intros H. destruct (Rltb_spec 0 (var_tcl (length row) (pod_of_row d row))) as [L|L]; [apply V in L; lra|].
    destruct (Rltb_spec (pod_of_row d row) 1); [reflexivity|lra].
  - intros H. destruct (Rltb_spec 0 (var_tcl (length row) (pod_of_row d row))) as [L|L]; [apply V in L; lra|].
    destruct (Rltb_spec (pod_of_row d row) 1); [lra|reflexivity].
Qed.

(** Expectation and variance of a component. *)
Definition component_mean (c : component) : R := match c with Normal mu _ => mu | Dirac x => x end.
Definition component_var (c : component) : R := match c with Normal _ s => s * s | Dirac _ => 0 end.
Lemma component_of_mean N p : (0 < N)%nat -> 0 <= p <= 1 -> component_mean (component_of N p) = p.
Proof.
  intros HN Hp. unfold component_of. assert (V := var_tcl_pos N p HN Hp).
  destruct (Rltb_spec 0 (var_tcl N p)); [reflexivity|]. destruct (Rltb_spec p 1); cbn; lra.
Qed.
(** The variance of each component is that of the average of N independent copies of a uniformly chosen indicator of the
    realisation, and its expectation is the fraction itself: no realisation is biased. *)
Theorem C29_component_moments :
  forall detection Y m row c, row <> [] -> nth_error Y m = Some row -> nth_error (mixture detection Y) m = Some c ->
  let ind := map (fun y => if exceeds detection y then 1 else 0) row in
  component_mean c = Rmean ind /\
  component_var c = Rmean (map (fun b => (b - Rmean ind) * (b - Rmean ind)) ind) / INR (length row).
Proof.
  intros d Y m row c Hr Hm Hc ind. unfold mixture in Hc. rewrite nth_error_map, Hm in Hc. injection Hc as <-.
  assert (Hl : (0 < length row)%nat) by (destruct row; [congruence|cbn; lia]).
  assert (R := pod_of_row_range d row Hr). fold (pod_of_row d row) in *.
  change (Rmean ind) with (pod_of_row d row).
  split; [now apply component_of_mean|].
  assert (E : Rmean (map (fun b => (b - pod_of_row d row) * (b - pod_of_row d row)) ind) = pod_of_row d row * (1 - pod_of_row d row)).
  { unfold Rmean. rewrite map_length. unfold ind. rewrite map_map, map_length.
    set (p := pod_of_row d row) in *.
    rewrite (Rsum_ext _ (fun y => (1 - 2 * p) * (if exceeds d y then 1 else 0) + p * p)).
    2:{ intros y _. destruct (exceeds d y); ring. }
    rewrite Rsum_plus, Rsum_scal, Rsum_const.
    assert (S : Rsum (map (fun y => if exceeds d y then 1 else 0) row) = p * INR (length row)).
    { unfold p. rewrite pod_of_row_count, sum_indicator. field. assert (P := INR_pos _ Hl). lra. }
    rewrite S. field. assert (P := INR_pos _ Hl). lra. }
  rewrite E. unfold component_of. assert (V := var_tcl_pos (length row) _ Hl R).
  destruct (Rltb_spec 0 (var_tcl (length row) (pod_of_row d row))) as [L|L].
  - cbn. rewrite sqrt_sqrt by lra. reflexivity.
  - assert (pod_of_row d row * (1 - pod_of_row d row) = 0) as ->.
    { destruct (Req_dec (pod_of_row d row) 0) as [->|]; [ring|]. destruct (Req_dec (pod_of_row d row) 1) as [->|]; [ring|].
      exfalso. apply L, V. lra. }
    destruct (Rltb (pod_of_row d row) 1); cbn; unfold Rdiv; ring.
Qed.
(** A higher threshold lowers the expectation of every component. *)
Theorem C29_decreasing_in_threshold :
  forall d d' Y m row c c', d <= d' -> row <> [] -> nth_error Y m = Some row ->
  nth_error (mixture d Y) m = Some c -> nth_error (mixture d' Y) m = Some c' -> component_mean c' <= component_mean c.
Proof.
  intros d d' Y m row c c' Hd Hr Hm Hc Hc'. unfold mixture in *. rewrite nth_error_map, Hm in Hc, Hc'.
  injection Hc as <-. injection Hc' as <-. assert (Hl : (0 < length row)%nat) by (destruct row; [congruence|cbn; lia]).
  rewrite !component_of_mean by (auto; now apply pod_of_row_range). rewrite !pod_of_row_count.
  apply Rmult_le_compat_r; [left; apply Rinv_0_lt_compat; now apply INR_pos|]. apply le_INR, countb_mono.
  intros [v|] _; cbn; [|discriminate]. rewrite !Rltb_true. lra.
Qed.
(** The expectation of the mixture, i.e. the POD aimed at, is a probability. *)
Theorem C29_expected_pod_in_unit_interval :
  forall detection Y, Y <> [] -> (forall row, In row Y -> row <> []) ->
  0 <= Rmean (map component_mean (mixture detection Y)) <= 1.
Proof.
  intros d Y HY Hr. unfold mixture. rewrite map_map. unfold Rmean. rewrite map_length.
  assert (B : forall row, In row Y -> 0 <= component_mean (component_of (length row) (pod_of_row d row)) <= 1).
  { intros row Hrow. assert (N := Hr _ Hrow). rewrite component_of_mean; [|destruct row; [congruence|cbn; lia]|]; now apply pod_of_row_range. }
  assert (P := length_pos Y HY). set (f := fun row => component_mean (component_of (length row) (pod_of_row d row))) in *.
  assert (0 <= Rsum (map f Y)) by (apply Rsum_nonneg; intros x Hx; apply in_map_iff in Hx; destruct Hx as (r & <- & Hi); now apply B).
  assert (Rsum (map f Y) <= INR (length Y)).
  { replace (INR (length Y)) with (Rsum (map (fun _ : list (option R) => 1) Y)) by (rewrite Rsum_const; ring).
    apply Rsum_le. intros r Hi. now apply B. }
  split; [apply Rmult_le_pos; [lra|]; left; now apply Rinv_0_lt_compat|].
  apply (Rmult_le_reg_r (INR (length Y))); [lra|]. unfold Rdiv. rewrite Rmult_assoc, Rinv_l by lra. lra.
Qed.
(** Simulated values: those of a Dirac are 0 or 1, those of a normal component are unbounded on both sides: every real number
    is reached by some draw as soon as one realisation is neither always detected nor never detected. *)
Theorem C29_simulated_values :
  forall detection Y m row, row <> [] -> nth_error Y m = Some row ->
  let p := pod_of_row detection row in
  (p = 0 \/ p = 1 -> forall z, mixture_sample (mixture detection Y) [(m, z)] = [p]) /\
  (0 < p < 1 -> forall x, exists z, mixture_sample (mixture detection Y) [(m, z)] = [x]).
Proof.
  intros d Y m row Hr Hm p. assert (Hl : (0 < length row)%nat) by (destruct row; [congruence|cbn; lia]).
  assert (E : nth m (mixture d Y) (Dirac 0) = component_of (length row) p).
  { apply nth_error_nth. unfold mixture. now rewrite nth_error_map, Hm. }
  assert (V := var_tcl_pos (length row) p Hl (pod_of_row_range d row Hr)).
  unfold mixture_sample. cbn [map fst snd]. rewrite E. unfold component_of.
  destruct (Rltb_spec 0 (var_tcl (length row) p)) as [L|L].
  - split; [intros H z; apply V in L; lra|]. intros _ x. assert (S := sqrt_lt_R0 _ L).
    exists ((x - p) / sqrt (var_tcl (length row) p)). cbn [draw]. f_equal. field. lra.
  - split; [|intros H; apply V in H; lra]. intros H z. destruct (Rltb_spec p 1); cbn [draw]; f_equal; lra.
Qed.
(** Finding: the simulated POD values, and even their average, are not confined to [0, 1]. *)
Theorem C29_values_in_unit_interval_refuted :
  exists detection draws preds vars rnd,
    (forall v, In v vars -> 0 < v) /\ 1 < Rmean (pod_sample detection draws preds vars rnd).
Proof.
  exists 0, [0], [1; -1], [1; 1], [(O, 2)]. split; [intros v [<-|[<-|[]]]; lra|].
  set (Y := randomVector [0] [1; -1] [1; 1]).
  assert (EY : Y = [[Some 1; Some (-1)]]).
  { unfold Y, randomVector, realisation. cbn. destruct (Rltb_spec 1 0); [lra|]. rewrite !Rmult_0_l, !Rplus_0_l. reflexivity. }
  unfold pod_sample. fold Y. rewrite EY. unfold mixture, mixture_sample. cbn [map length nth fst snd].
  assert (Ep : pod_of_row 0 [Some 1; Some (-1)] = 1 / 2).
  { rewrite pod_of_row_count. unfold countb. cbn [filter exceeds]. destruct (Rltb_spec 0 1); [|lra]. destruct (Rltb_spec 0 (-1)); [lra|].
    cbn. lra. }
  rewrite Ep. unfold component_of, var_tcl. cbn [INR]. destruct (Rltb_spec 0 (1 / 2 * (1 - 1 / 2) / (1 + 1))) as [L|L]; [|lra].
  cbn [draw]. unfold Rmean. rewrite Rsum_cons, Rsum_nil. cbn [length INR].
  assert (1 / 4 < sqrt (1 / 2 * (1 - 1 / 2) / (1 + 1))); [|lra].
  rewrite <- (sqrt_square (1 / 4)) by lra. apply sqrt_lt_1; lra.
Qed.
Example C29_example :
  mixture 5 [[Some 6; Some 4]; [Some 6; Some 7]; [None; Some 5]] = [Normal (1 / 2) (sqrt (1 / 8)); Dirac 1; Dirac 0].
Proof.
  unfold mixture, component_of, var_tcl. cbn [map length]. rewrite !pod_of_row_count. unfold countb. cbn [filter exceeds].
  destruct (Rltb_spec 5 6); [|lra]. destruct (Rltb_spec 5 4); [lra|]. destruct (Rltb_spec 5 7); [|lra].
  destruct (Rltb_spec 5 5); [lra|]. cbn [length INR].
  destruct (Rltb_spec 0 (1 / (1 + 1) * (1 - 1 / (1 + 1)) / (1 + 1))); [|lra].
  destruct (Rltb_spec 0 ((1 + 1) / (1 + 1) * (1 - (1 + 1) / (1 + 1)) / (1 + 1))); [lra|].
  destruct (Rltb_spec 0 (0 / (1 + 1) * (1 - 0 / (1 + 1)) / (1 + 1))); [lra|].
  destruct (Rltb_spec ((1 + 1) / (1 + 1)) 1); [lra|]. destruct (Rltb_spec (0 / (1 + 1)) 1); [|lra].
  replace (1 / (1 + 1) * (1 - 1 / (1 + 1)) / (1 + 1)) with (1 / 8) by field. now replace (1 / (1 + 1)) with (1 / 2) by field.
Qed.

(** *** C30 *)
(** Shape and entries: one row per draw, one column per point, the same draw for the whole row. *)
Theorem C30_entries :
  forall draws preds vars, length preds = length vars -> (forall v, In v vars -> 0 <= v) ->
  length (randomVector draws preds vars) = length draws /\
  forall i z, nth_error draws i = Some z ->
  exists row, nth_error (randomVector draws preds vars) i = Some row /\ length row = length preds /\
    forall j m v, nth_error preds j = Some m -> nth_error vars j = Some v -> nth_error row j = Some (Some (m + z * sqrt v)).
Proof.
  intros draws preds vars Hl Hv. unfold randomVector. split; [apply map_length|].
  intros i z Hi. rewrite nth_error_map, Hi. cbn [option_map]. eexists. split; [reflexivity|].
  split; [rewrite map_length, combine_length; lia|].
  clear Hi draws. revert vars Hl Hv. induction preds as [|m0 preds IH]; intros [|v0 vars] Hl Hv [|j] m v Hm Hvj; try discriminate.
  - injection Hm as ->. injection Hvj as ->. cbn. destruct (Rltb_spec v 0) as [L|L]; [|do 2 f_equal; ring].
    exfalso. assert (0 <= v) by (apply Hv; now left). lra.
  - cbn in *. apply (IH vars); auto.
Qed.
(** A larger draw gives larger values everywhere; the draw 0 gives the conditional mean. *)
Theorem C30_monotone_in_the_draw :
  forall preds vars z z', z <= z' ->
  forall j y y', (nth_error (map (realisation z) (combine preds vars)) j = Some (Some y) ->
    nth_error (map (realisation z') (combine preds vars)) j = Some (Some y') -> y <= y').
Proof.
  intros preds vars z z' Hz j y y'. rewrite !nth_error_map. destruct (nth_error (combine preds vars) j) as [[m v]|]; [|discriminate].
  cbn. destruct (Rltb v 0); [discriminate|]. intros [= <-] [= <-]. assert (S := sqrt_pos v). nra.
Qed.
Theorem C30_zero_draw_is_the_mean :
  forall preds vars, length preds = length vars -> (forall v, In v vars -> 0 <= v) ->
  randomVector [0] preds vars = [map Some preds].
Proof.
  intros preds vars Hl Hv. unfold randomVector. cbn [map]. f_equal. revert vars Hl Hv.
  induction preds as [|m preds IH]; intros [|v vars] Hl Hv; try discriminate; [reflexivity|]. cbn.
  destruct (Rltb_spec v 0) as [L|L]; [exfalso; assert (0 <= v) by (apply Hv; now left); lra|].
  f_equal; [f_equal; ring|]. apply IH; [now injection Hl|]. intros u Hu. apply Hv. now right.
Qed.
(** The POD of a realisation is non decreasing in its draw, for all means and variances (even negative ones, see below). *)
Theorem C30_pod_increases_with_the_draw :
  forall detection preds vars z z', z <= z' ->
  pod_of_row detection (map (realisation z) (combine preds vars)) <=
  pod_of_row detection (map (realisation z') (combine preds vars)).
Proof.
  intros d preds vars z z' Hz. rewrite !pod_of_row_count, !map_length, !countb_map.
  destruct (combine preds vars) as [|q l] eqn:E; [cbn; lra|]. rewrite <- E in *.
  apply Rmult_le_compat_r; [left; apply Rinv_0_lt_compat, length_pos; rewrite E; discriminate|].
  apply le_INR, countb_mono. intros [m v] _. cbn. destruct (Rltb v 0); [discriminate|]. cbn. rewrite !Rltb_true.
  assert (S := sqrt_pos v). nra.
Qed.
(** Because one draw serves the whole row, two realisations never cross: one of them is below the other at every point.  (A
    realisation of the conditional process itself would not have this property.) *)
Theorem C30_realisations_never_cross :
  forall draws preds vars i i' row row',
  nth_error (randomVector draws preds vars) i = Some row -> nth_error (randomVector draws preds vars) i' = Some row' ->
  (forall j y y', nth_error row j = Some (Some y) -> nth_error row' j = Some (Some y') -> y <= y') \/
  (forall j y y', nth_error row j = Some (Some y) -> nth_error row' j = Some (Some y') -> y' <= y).
Proof.
  intros draws preds vars i i' row row' H H'. unfold randomVector in *. rewrite nth_error_map in H, H'.
  destruct (nth_error draws i) as [z|]; [|discriminate]. destruct (nth_error draws i') as [z'|]; [|discriminate].
  injection H as <-. injection H' as <-. destruct (Rle_lt_dec z z') as [L|L].
  - left. intros j y y'. now apply C30_monotone_in_the_draw.
  - right. intros j y y' Hy Hy'. eapply C30_monotone_in_the_draw; [|exact Hy'|exact Hy]. lra.
Qed.
(** With positive variances, extreme draws give POD 1 and POD 0 whatever the threshold. *)
Theorem C30_extreme_draws :
  forall detection preds vars, preds <> [] -> length preds = length vars -> (forall v, In v vars -> 0 < v) ->
  exists zlow zhigh,
    (forall z, z <= zlow -> pod_of_row detection (map (realisation z) (combine preds vars)) = 0) /\
    (forall z, zhigh <= z -> pod_of_row detection (map (realisation z) (combine preds vars)) = 1).
Proof.
  intros d preds vars Hp Hl Hv.
  assert (E : exists zl zh, forall m v, In (m, v) (combine preds vars) ->
            (forall z, z <= zl -> z * sqrt v + m <= d) /\ (forall z, zh <= z -> d < z * sqrt v + m)).
  { assert (Hc : forall m v, In (m, v) (combine preds vars) -> 0 < v) by (intros m v Hi; apply Hv; eapply in_combine_r; eauto).
    revert Hc. generalize (combine preds vars). clear. induction l as [|[m v] l IH]; intros Hc; [exists 0, 0; intros ? ? []|].
    destruct IH as (zl & zh & IH); [intros; eapply Hc; right; eauto|].
    assert (Hs : 0 < sqrt v) by (apply sqrt_lt_R0; apply (Hc m); now left).
    exists (Rmin zl ((d - m) / sqrt v)), (Rmax zh ((d - m) / sqrt v + 1)). intros m' v' [[= <- <-]|Hi].
    - split; intros z Hz.
      + assert (z <= (d - m) / sqrt v) by (eapply Rle_trans; [exact Hz|apply Rmin_r]).
        assert (z * sqrt v <= (d - m) / sqrt v * sqrt v) by (apply Rmult_le_compat_r; lra).
        replace ((d - m) / sqrt v * sqrt v) with (d - m) in * by (field; lra). lra.
      + assert ((d - m) / sqrt v + 1 <= z) by (eapply Rle_trans; [apply Rmax_r|exact Hz]).
        assert (((d - m) / sqrt v + 1) * sqrt v <= z * sqrt v) by (apply Rmult_le_compat_r; lra).
        replace (((d - m) / sqrt v + 1) * sqrt v) with (d - m + sqrt v) in * by (field; lra). lra.
    - destruct (IH m' v' Hi) as [I1 I2]. split; intros z Hz.
      + apply I1. eapply Rle_trans; [exact Hz|apply Rmin_l].
      + apply I2. eapply Rle_trans; [apply Rmax_l|exact Hz]. }
  destruct E as (zl & zh & E). exists zl, zh.
  assert (Hn : combine preds vars <> []) by (destruct preds, vars; try discriminate; congruence).
  assert (P := length_pos _ Hn).
  split; intros z Hz; rewrite pod_of_row_count, map_length, countb_map.
  - rewrite countb_none; [cbn; unfold Rdiv; ring|]. intros [m v] Hi. cbn. destruct (Rltb_spec v 0) as [|L]; [reflexivity|].
    cbn. destruct (E m v Hi) as [E1 _]. apply Rltb_false. now apply E1.
  - rewrite countb_all; [field; lra|]. intros [m v] Hi. cbn.
    assert (0 < v) by (apply Hv; eapply in_combine_r; eauto). destruct (Rltb_spec v 0); [lra|]. cbn.
    apply Rltb_true. now apply (E m v Hi).
Qed.
(** A conditional variance that rounding made negative turns its point into a missed detection in every realisation. *)
Theorem C30_negative_variance_never_detected :
  forall draws preds vars i row j v, nth_error (randomVector draws preds vars) i = Some row ->
  nth_error vars j = Some v -> v < 0 ->
  forall y, nth_error row j = Some y -> forall detection, exceeds detection y = false.
Proof.
  intros draws preds vars i row j v H Hj Hv y Hy d. unfold randomVector in H. rewrite nth_error_map in H.
  destruct (nth_error draws i) as [z|]; [|discriminate]. injection H as <-. rewrite nth_error_map in Hy.
  destruct (nth_error (combine preds vars) j) as [[m v']|] eqn:E; [|discriminate]. injection Hy as <-.
  assert (v' = v) as ->.
  { clear - E Hj. revert vars j E Hj. induction preds as [|m0 preds IH]; intros [|v0 vars] [|j] E Hj; try discriminate; cbn in *.
    - congruence.
    - eauto. }
  cbn. destruct (Rltb_spec v 0); [reflexivity|lra].
Qed.
Example C30_example :
  randomVector [-1; 2] [10; 20] [4; 9] = [[Some 8; Some 17]; [Some 14; Some 26]].
Proof.
  unfold randomVector, realisation. cbn. destruct (Rltb_spec 4 0); [lra|]. destruct (Rltb_spec 9 0); [lra|].
  replace 4 with (2 * 2) by ring. rewrite sqrt_square by lra. replace 9 with (3 * 3) by ring. rewrite sqrt_square by lra.
  replace (-1 * 2 + 10) with 8 by ring. replace (-1 * 3 + 20) with 17 by ring. replace (2 * 2 + 10) with 14 by ring.
  now replace (2 * 3 + 20) with 26 by ring.
Qed.

(** *** C33 *)
Lemma nth_map_seq0 (f : nat -> R) n j : (j < n)%nat -> nth j (map f (seq 0 n)) 0 = f j.
Proof. intros H. rewrite (nth_indep _ 0 (f O)) by now rewrite map_length, seq_length. rewrite map_nth, seq_nth by lia. reflexivity. Qed.
Definition scale (j : nat) (sample : list (list R)) : R :=
  if Rltb tiny (Rabs (col_stddev j sample)) then 1 / col_stddev j sample else 1.
Lemma transformation_nth dim sample x j : (j < dim)%nat ->
  nth j (transformation dim sample x) 0 = scale j sample * (nth j x 0 - col_mean j sample).
Proof.
  intros H. unfold transformation, linear_function. rewrite nth_map_seq0 by assumption.
  rewrite (bigsum_one dim j); [|assumption|].
  - unfold linear. rewrite Nat.eqb_refl. unfold scale. ring.
  - intros l _ Hl. unfold linear. destruct (Nat.eqb_spec j l); [congruence|ring].
Qed.
Lemma scale_pos j sample : 0 < scale j sample.
Proof.
  unfold scale. destruct (Rltb_spec tiny (Rabs (col_stddev j sample))) as [L|L]; [|lra].
  assert (0 <= col_stddev j sample) by apply sqrt_pos. assert (0 < tiny) by (unfold tiny; lra).
  rewrite Rabs_right in L by lra. unfold Rdiv. rewrite Rmult_1_l. apply Rinv_0_lt_compat. lra.
Qed.
Lemma transformation_length dim sample x : length (transformation dim sample x) = dim.
Proof. unfold transformation, linear_function. now rewrite map_length, seq_length. Qed.
Lemma column_transformed dim sample j : (j < dim)%nat ->
  column j (map (transformation dim sample) sample) = map (fun x => scale j sample * (x - col_mean j sample)) (column j sample).
Proof.
  intros H. unfold column. rewrite !map_map. apply map_ext. intros p. now apply transformation_nth.
Qed.
Lemma mean_centred c l : l <> [] -> Rmean (map (fun x => c * (x - Rmean l)) l) = 0.
Proof.
  intros H. assert (P := length_pos l H). unfold Rmean. rewrite map_length, Rsum_scal, Rsum_minus, Rsum_const, map_id. field. lra.
Qed.
Lemma sumsq_centred c l : l <> [] ->
  Rsum (map (fun y => (y - Rmean (map (fun x => c * (x - Rmean l)) l)) * (y - Rmean (map (fun x => c * (x - Rmean l)) l)))
            (map (fun x => c * (x - Rmean l)) l)) = c * c * Rsum (map (fun x => (x - Rmean l) * (x - Rmean l)) l).
Proof.
  intros H. rewrite mean_centred by assumption. rewrite map_map, <- Rsum_scal. apply Rsum_ext. intros x _. ring.
Qed.
Lemma stddev_scaled c l : l <> [] -> 0 <= c -> stddev (map (fun x => c * (x - Rmean l)) l) = c * stddev l.
Proof.
  intros H Hc. unfold stddev. rewrite sumsq_centred by assumption. rewrite map_length.
  replace (c * c * Rsum (map (fun x => (x - Rmean l) * (x - Rmean l)) l) / (INR (length l) - 1))
    with ((c * c) * (Rsum (map (fun x => (x - Rmean l) * (x - Rmean l)) l) / (INR (length l) - 1))) by (unfold Rdiv; ring).
  rewrite sqrt_mult_alt by nra. rewrite sqrt_square by assumption. reflexivity.
Qed.
(** Specification of the empirical moments of column j (denominator n - 1 for the variance), through their defining equations. *)
Definition is_mean (l : list R) (m : R) : Prop := Rsum (map (fun x => x - m) l) = 0.
Definition is_stddev (l : list R) (s : R) : Prop :=
  0 <= s /\ forall m, is_mean l m -> (INR (length l) - 1) * (s * s) = Rsum (map (fun x => (x - m) * (x - m)) l).
Lemma is_mean_Rmean l : l <> [] -> is_mean l (Rmean l).
Proof.
  intros H. assert (P := length_pos l H). unfold is_mean, Rmean. rewrite Rsum_minus, Rsum_const, map_id. field. lra.
Qed.
Lemma is_mean_unique l m : l <> [] -> is_mean l m -> m = Rmean l.
Proof.
  intros H. assert (P := length_pos l H). unfold is_mean, Rmean. rewrite Rsum_minus, Rsum_const, map_id. intros E.
  apply (Rmult_eq_reg_r (INR (length l))); [|lra]. unfold Rdiv. rewrite Rmult_assoc, Rinv_l by lra. lra.
Qed.
Lemma is_stddev_stddev l : (2 <= length l)%nat -> is_stddev l (stddev l).
Proof.
  intros H. assert (N : l <> []) by (destruct l; [cbn in H; lia|discriminate]).
  assert (2 <= INR (length l)) by (apply le_INR in H; exact H).
  split; [apply sqrt_pos|]. intros m Hm. apply is_mean_unique in Hm; [|assumption]. subst m.
  unfold stddev. rewrite sqrt_sqrt; [field; lra|].
  apply Rmult_le_pos; [apply (Rsum_sqr_nonneg (fun x => x - Rmean l))|]. left. apply Rinv_0_lt_compat. lra.
Qed.
Lemma is_stddev_unique l s : (2 <= length l)%nat -> is_stddev l s -> s = stddev l.
Proof.
  intros H [H0 H1]. assert (N : l <> []) by (destruct l; [cbn in H; lia|discriminate]).
  destruct (is_stddev_stddev l H) as [G0 G1]. assert (2 <= INR (length l)) by (apply le_INR in H; exact H).
  assert (E1 := H1 _ (is_mean_Rmean l N)). assert (E2 := G1 _ (is_mean_Rmean l N)).
  assert (s * s = stddev l * stddev l) by (apply (Rmult_eq_reg_l (INR (length l) - 1)); lra). nra.
Qed.
Lemma tiny_value : tiny = / 10 ^ 12.
Proof. unfold tiny. field. Qed.
(** The learning sample is mapped to columns of mean 0, and of standard deviation 1 when that of the column exceeds 1e-12. *)
Theorem C33_normalised_columns :
  forall dim sample j s, (2 <= length sample)%nat -> (j < dim)%nat -> is_stddev (column j sample) s ->
  let normalised := column j (map (transformation dim sample) sample) in
  length normalised = length sample /\ is_mean normalised 0 /\
  (/ 10 ^ 12 < s -> is_stddev normalised 1) /\ (s <= / 10 ^ 12 -> is_stddev normalised s) /\
  (s = 0 -> forall x, In x normalised -> x = 0).
Proof.
  rewrite <- tiny_value. intros dim sample j s Hn Hj Hs normalised.
  assert (Hl : length (column j sample) = length sample) by apply map_length.
  assert (Hne : column j sample <> []) by (intros E; rewrite E in Hl; cbn in Hl; lia).
  apply is_stddev_unique in Hs; [|lia].
  assert (E : normalised = map (fun x => scale j sample * (x - col_mean j sample)) (column j sample)) by now apply column_transformed.
  assert (Hc := scale_pos j sample).
  assert (Hs0 : 0 <= s) by (subst s; apply sqrt_pos).
  assert (Ln : length normalised = length sample) by (rewrite E, map_length; exact Hl).
  assert (D : stddev normalised = scale j sample * s) by (rewrite E; unfold col_mean; rewrite stddev_scaled by (auto; lra); now subst s).
  assert (I : is_stddev normalised (scale j sample * s)) by (rewrite <- D; apply is_stddev_stddev; lia).
  assert (Esc : scale j sample = if Rltb tiny s then 1 / s else 1).
  { unfold scale, col_stddev. rewrite <- Hs. now rewrite Rabs_right by lra. }
  split; [exact Ln|]. split.
  { assert (M : Rmean normalised = 0) by (rewrite E; now apply mean_centred).
    rewrite <- M. apply is_mean_Rmean. intros Z. rewrite Z in Ln. cbn in Ln. lia. }
  split; [|split].
  - intros L. replace 1 with (scale j sample * s); [exact I|]. rewrite Esc. destruct (Rltb_spec tiny s); [|lra]. field. unfold tiny in *. lra.
  - intros L. replace s with (scale j sample * s) at 1; [exact I|]. rewrite Esc. destruct (Rltb_spec tiny s); [lra|ring].
  - intros Z x Hx. rewrite E in Hx. apply in_map_iff in Hx. destruct Hx as (y & <- & Hy).
    assert (S0 : Rsum (map (fun x => (x - Rmean (column j sample)) * (x - Rmean (column j sample))) (column j sample)) = 0).
    { destruct (is_stddev_stddev (column j sample) ltac:(lia)) as [_ G]. rewrite <- Hs, Z in G. rewrite <- (G _ (is_mean_Rmean _ Hne)). ring. }
    assert (Y0 := Rsum_sqr_zero (fun x => x - Rmean (column j sample)) _ S0 y Hy). cbn in Y0. unfold col_mean. rewrite Y0. ring.
Qed.
(** The transformation is injective, and even strictly increasing in every coordinate. *)
Theorem C33_order_preserved :
  forall dim sample x x' j, (j < dim)%nat ->
  (nth j (transformation dim sample x) 0 < nth j (transformation dim sample x') 0 <-> nth j x 0 < nth j x' 0).
Proof.
  intros dim sample x x' j Hj. rewrite !transformation_nth by assumption. assert (P := scale_pos j sample). split; intros H; nra.
Qed.
Theorem C33_injective :
  forall dim sample x x', length x = dim -> length x' = dim -> transformation dim sample x = transformation dim sample x' -> x = x'.
Proof.
  intros dim sample x x' Hx Hx' H. apply (nth_ext _ _ 0 0); [congruence|]. intros j Hj.
  assert (E := f_equal (fun l => nth j l 0) H). cbn in E. rewrite !transformation_nth in E by lia.
  assert (P := scale_pos j sample). apply Rmult_eq_reg_l in E; lra.
Qed.
(** Units do not matter: expressing every coordinate j in another unit (multiplication by a positive a j, shift by b j) leaves
    the normalised sample unchanged, as long as no standard deviation is below 1e-12 in either unit. *)
Definition change_units (a b : nat -> R) (x : list R) : list R :=
  map (fun j => a j * nth j x 0 + b j) (seq 0 (length x)).
Lemma column_change a b dim sample j : (forall x, In x sample -> length x = dim) -> (j < dim)%nat ->
  column j (map (change_units a b) sample) = map (fun v => a j * v + b j) (column j sample).
Proof.
  intros Hd Hj. unfold column. rewrite !map_map. apply map_ext_in. intros x Hx. unfold change_units.
  rewrite nth_map_seq0; [reflexivity|]. now rewrite (Hd x Hx).
Qed.
Lemma mean_affine c d l : l <> [] -> Rmean (map (fun v => c * v + d) l) = c * Rmean l + d.
Proof.
  intros H. assert (P := length_pos l H). unfold Rmean. rewrite map_length, Rsum_plus, Rsum_scal, Rsum_const, map_id. field. lra.
Qed.
Lemma stddev_affine c d l : l <> [] -> 0 <= c -> stddev (map (fun v => c * v + d) l) = c * stddev l.
Proof.
  intros H Hc. rewrite <- stddev_scaled by assumption. unfold stddev. rewrite !map_length. do 3 f_equal.
  rewrite mean_affine, mean_centred, !map_map by assumption. apply map_ext. intros x. ring.
Qed.
Theorem C33_units_do_not_matter :
  forall dim sample a b, sample <> [] -> (forall x, In x sample -> length x = dim) -> (forall j, (j < dim)%nat -> 0 < a j) ->
  (forall j, (j < dim)%nat -> / 10 ^ 12 < col_stddev j sample /\ / 10 ^ 12 < a j * col_stddev j sample) ->
  let sample' := map (change_units a b) sample in
  map (transformation dim sample') sample' = map (transformation dim sample) sample.
Proof.
  rewrite <- tiny_value. intros dim sample a b Hn Hd Ha Hs sample'. unfold sample' at 2. rewrite map_map. apply map_ext_in. intros x Hx.
  apply (nth_ext _ _ 0 0); [now rewrite !transformation_length|]. rewrite transformation_length. intros j Hj.
  rewrite !transformation_nth by assumption.
  assert (Hne : column j sample <> []) by (destruct sample; [congruence|discriminate]).
  assert (E1 : col_mean j sample' = a j * col_mean j sample + b j).
  { unfold col_mean, sample'. rewrite (column_change a b dim) by assumption. now apply mean_affine. }
  assert (Haj := Ha j Hj). destruct (Hs j Hj) as [S1 S2].
  assert (E2 : col_stddev j sample' = a j * col_stddev j sample).
  { unfold col_stddev, sample'. rewrite (column_change a b dim) by assumption. apply stddev_affine; [assumption|lra]. }
  assert (T : 0 < tiny) by (unfold tiny; lra).
  unfold scale. rewrite E1, E2. rewrite !Rabs_right by lra.
  destruct (Rltb_spec tiny (a j * col_stddev j sample)); [|lra]. destruct (Rltb_spec tiny (col_stddev j sample)); [|lra].
  assert (nth j (change_units a b x) 0 = a j * nth j x 0 + b j) as ->.
  { unfold change_units. rewrite nth_map_seq0; [reflexivity|]. now rewrite (Hd x Hx). }
  field. split; lra.
Qed.
Example C33_example :
  map (transformation 2 [[1; 5]; [3; 5]; [5; 5]]) [[1; 5]; [3; 5]; [5; 5]] = [[-1; 0]; [0; 0]; [1; 0]].
Proof.
  assert (S0 : col_stddev 0 [[1; 5]; [3; 5]; [5; 5]] = 2).
  { unfold col_stddev, stddev, column, Rmean. cbn. replace 2 with (sqrt (2 * 2)) by (apply sqrt_square; lra). f_equal. field. }
  assert (S1 : col_stddev 1 [[1; 5]; [3; 5]; [5; 5]] = 0).
  { unfold col_stddev, stddev, column, Rmean. cbn. transitivity (sqrt 0); [f_equal; field|apply sqrt_0]. }
  assert (M0 : col_mean 0 [[1; 5]; [3; 5]; [5; 5]] = 3) by (unfold col_mean, column, Rmean; cbn; field).
  assert (M1 : col_mean 1 [[1; 5]; [3; 5]; [5; 5]] = 5) by (unfold col_mean, column, Rmean; cbn; field).
  assert (A : forall u v, transformation 2 [[1; 5]; [3; 5]; [5; 5]] [u; v] = [(u - 3) / 2; v - 5]).
  { intros u v. unfold transformation, linear_function. cbn [seq map bigsum nth]. rewrite M0, M1. unfold linear. cbn [Nat.eqb].
    rewrite S0, S1, Rabs_R0. rewrite Rabs_right by lra. destruct (Rltb_spec tiny 2) as [L|L]; [|unfold tiny in L; lra].
    destruct (Rltb_spec tiny 0) as [L2|L2]; [unfold tiny in L2; lra|]. f_equal; [field|f_equal; field]. }
  cbn [map]. rewrite !A. replace (5 - 5) with 0 by ring. replace ((1 - 3) / 2) with (-1) by field. replace ((3 - 3) / 2) with 0 by field.
  now replace ((5 - 3) / 2) with 1 by field.
Qed.
Print Assumptions C29_components.
Print Assumptions C29_component_moments.
Print Assumptions C29_decreasing_in_threshold.
Print Assumptions C29_expected_pod_in_unit_interval.
Print Assumptions C29_simulated_values.
Print Assumptions C29_values_in_unit_interval_refuted.
Print Assumptions C30_entries.
Print Assumptions C30_monotone_in_the_draw.
Print Assumptions C30_zero_draw_is_the_mean.
Print Assumptions C30_pod_increases_with_the_draw.
Print Assumptions C30_realisations_never_cross.
Print Assumptions C30_extreme_draws.
Print Assumptions C30_negative_variance_never_detected.
Print Assumptions C33_normalised_columns.
Print Assumptions C33_order_preserved.
Print Assumptions C33_injective.
Print Assumptions C33_units_do_not_matter.
