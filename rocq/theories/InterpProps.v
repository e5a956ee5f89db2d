(** C25, C28, C61, C65: interpolated curves. *)
From Verif Require Import RealBase Solver QuantileModel QuantileProofs InterpModel InterpProofs QuantileProps.
Local Open Scope R_scope.

(** *** C28 *)
(** The curve through the points (x_i, y_i), x_0 < ... < x_n. *)
Theorem C28_affine_between_neighbours :
  forall (xs ys : list R) (i : nat) (t : R),
    length xs = length ys -> strictly_increasing xs -> (S i < length xs)%nat ->
    nth i xs 0 <= t <= nth (S i) xs 0 ->
    exists w, 0 <= w <= 1 /\ t = (1 - w) * nth i xs 0 + w * nth (S i) xs 0 /\
      interp1d xs ys t = Ok ((1 - w) * nth i ys 0 + w * nth (S i) ys 0).
Proof.
  intros xs ys i t HL Hs Hi Ht. rewrite interp1d_sorted by assumption.
  assert (Hc := combine_increasing xs ys HL Hs).
  assert (HLc : length (combine xs ys) = length xs) by (rewrite combine_length; lia).
  assert (Hsplit : exists l1 l2, combine xs ys =
            l1 ++ (nth i xs 0, nth i ys 0) :: (nth (S i) xs 0, nth (S i) ys 0) :: l2).
  { exists (firstn i (combine xs ys)), (skipn (S (S i)) (combine xs ys)).
    rewrite <- (firstn_skipn i (combine xs ys)) at 1. f_equal.
    assert (Hsk : forall (l : list (R * R)) j, (j < length l)%nat -> skipn j l = nth j l (0, 0) :: skipn (S j) l).
    { induction l as [|p l IHl]; intros j Hj; [cbn in Hj; lia|]. destruct j; [reflexivity|].
      cbn [skipn nth]. apply IHl. cbn in Hj. lia. }
    rewrite (Hsk _ i) by lia. rewrite (Hsk _ (S i)) by lia.
    now rewrite !combine_nth by lia. }
  destruct Hsplit as [l1 [l2 E]]. rewrite E in *.
  assert (Hlt : nth i xs 0 < nth (S i) xs 0).
  { clear -Hc. induction l1 as [|p l1 IH]; cbn [app] in *; [apply (increasing_head _ _ _ Hc)|].
    apply IH. now apply increasing_tail in Hc. }
  exists ((t - nth i xs 0) / (nth (S i) xs 0 - nth i xs 0)).
  split; [apply ratio_unit; lra|]. split; [field; lra|].
  rewrite interp_between by assumption. f_equal. ring.
Qed.
Print Assumptions C28_affine_between_neighbours.
Theorem C28_exact_at_defect_sizes :
  forall (xs ys : list R) (i : nat),
    length xs = length ys -> strictly_increasing xs -> (i < length xs)%nat ->
    interp1d xs ys (nth i xs 0) = Ok (nth i ys 0).
Proof.
  intros xs ys i HL Hs Hi. rewrite interp1d_sorted by assumption. apply interp_node; [now apply combine_increasing|].
  rewrite <- combine_nth by assumption. apply nth_In. rewrite combine_length. lia.
Qed.
Print Assumptions C28_exact_at_defect_sizes.
Theorem C28_domain :
  forall (xs ys : list R) (t : R),
    length xs = length ys -> strictly_increasing xs -> xs <> [] ->
    (nth 0 xs 0 <= t <= last xs 0 -> exists v, interp1d xs ys t = Ok v) /\
    (~ nth 0 xs 0 <= t <= last xs 0 -> interp1d xs ys t = Raise ValueError).
Proof.
  intros xs ys t HL Hs Hn. rewrite interp1d_sorted by assumption.
  assert (Hc := combine_increasing xs ys HL Hs).
  rewrite <- (first_x_combine xs ys HL), <- (last_x_combine xs ys HL).
  apply interp_domain; [|exact Hc]. destruct xs, ys; try discriminate; congruence.
Qed.
Print Assumptions C28_domain.
Theorem C28_monotone :
  forall (xs ys : list R) (t1 t2 v1 v2 : R),
    length xs = length ys -> strictly_increasing xs -> StronglySorted Rle ys ->
    t1 <= t2 -> interp1d xs ys t1 = Ok v1 -> interp1d xs ys t2 = Ok v2 -> v1 <= v2.
Proof.
  intros xs ys t1 t2 v1 v2 HL Hs Hy Ht. rewrite !interp1d_sorted by assumption.
  apply interp_mono; auto; [now apply combine_increasing|now apply combine_nondecreasing].
Qed.
Print Assumptions C28_monotone.
Theorem C28_range :
  forall (xs ys : list R) (t v lo hi : R),
    (forall y, In y ys -> lo <= y <= hi) -> interp1d xs ys t = Ok v -> lo <= v <= hi.
Proof.
  intros xs ys t v lo hi Hall. unfold interp1d. destruct (Nat.eqb _ _); [|discriminate]. intros Hv.
  apply (interp_range_any _ _ _ lo hi Hv). intros [a y] Hp.
  apply (Permutation_in _ (node_sort_perm _)) in Hp. apply in_combine_r in Hp. now apply Hall.
Qed.
Print Assumptions C28_range.
(** A mean POD curve of simulated values in [0,1], and its confidence curves, are in [0,1]. *)
Theorem C28_curves_in_unit_interval :
  forall (simulate : list R -> list (list R)) (sizes : list R) (t c v : R),
    (forall s r p, In r (simulate s) -> In p r -> 0 <= p <= 1) -> simulate sizes <> [] ->
    (meta_evalPOD (meta_run simulate col_means (meta_new sizes)) t = Ok v -> 0 <= v <= 1) /\
    (meta_evalCL (meta_run simulate col_means (meta_new sizes)) c t = Ok v -> 0 <= v <= 1).
Proof.
  intros simulate sizes t c v H Hn. cbn [meta_run meta_new meta_evalPOD meta_evalCL mo_curve mo_rows mo_sizes].
  assert (Hcol : forall j w, In w (column (simulate sizes) j) -> 0 <= w <= 1).
  { intros j w Hw. apply in_map_iff in Hw. destruct Hw as [r [<- Hr]].
    destruct (Nat.lt_ge_cases j (length r)) as [L|L].
    - apply (H sizes r); [exact Hr|]. now apply nth_In.
    - rewrite nth_overflow by lia. lra. }
  split.
  - apply C28_range. intros y Hy. apply in_map_iff in Hy. destruct Hy as [j [<- _]].
    unfold Rmean. assert (HL : 0 < INR (length (column (simulate sizes) j))).
    { apply length_pos. intros E. apply Hn. now apply map_eq_nil in E. }
    assert (B : 0 <= Rsum (column (simulate sizes) j) <= INR (length (column (simulate sizes) j)) * 1).
    { split; [apply Rsum_nonneg; intros x Hx; apply (Hcol j); exact Hx|].
      rewrite <- Rsum_const. rewrite <- (map_id (column (simulate sizes) j)) at 1.
      apply Rsum_le. intros x Hx. apply (Hcol j). exact Hx. }
    split.
    + apply Rmult_le_pos; [lra|]. apply Rlt_le, Rinv_0_lt_compat, HL.
    + apply (Rmult_le_reg_r (INR (length (column (simulate sizes) j)))); [exact HL|].
      unfold Rdiv. rewrite Rmult_assoc, Rinv_l by lra. lra.
  - destruct (C15_per_defect_values (simulate sizes) (length sizes) c) as [_ HC].
    destruct (HC Hn) as [vs [-> [_ [_ [HR _]]]]]. cbn [bind]. apply C28_range. apply HR. intros r p. apply (H sizes).
Qed.
Print Assumptions C28_curves_in_unit_interval.
(** At the i-th defect size the POD curve is the mean of the simulated values of that size, and the confidence curve their
    empirical quantile. *)
Theorem C28_values_at_the_defect_sizes :
  forall (simulate : list R -> list (list R)) (sizes : list R) (i : nat) (c : R),
    strictly_increasing sizes -> (i < length sizes)%nat -> simulate sizes <> [] ->
    let o := meta_run simulate col_means (meta_new sizes) in
    let values := map (fun row => nth i row 0) (simulate sizes) in
    meta_evalPOD o (nth i sizes 0) = Ok (Rsum values / INR (length (simulate sizes))) /\
    meta_evalCL o c (nth i sizes 0) = Ok (quantile values (1 - c)).
Proof.
  intros simulate sizes i c Hs Hi Hn o values.
  assert (Hm : forall f : nat -> R, nth i (map f (seq 0 (length sizes))) 0 = f i).
  { intros f. rewrite (nth_indep _ 0 (f 0%nat)) by (now rewrite map_length, seq_length). rewrite map_nth, seq_nth by exact Hi. reflexivity. }
  unfold o. cbn [meta_run meta_new meta_evalPOD meta_evalCL mo_curve mo_rows mo_sizes]. split.
  - rewrite C28_exact_at_defect_sizes; [|unfold col_means; now rewrite map_length, seq_length|exact Hs|exact Hi].
    unfold col_means. rewrite Hm. unfold Rmean, column, values. now rewrite map_length.
  - unfold pod_cl_values, quantile_per_component. destruct (simulate sizes) as [|r rs] eqn:E; [now destruct Hn|]. rewrite <- E in *.
    cbn [bind]. rewrite C28_exact_at_defect_sizes; [|now rewrite map_length, seq_length|exact Hs|exact Hi]. rewrite (Hm (fun j => quantile (column (simulate sizes) j) (1 - c))). unfold values, column. now rewrite E.
Qed.
Print Assumptions C28_values_at_the_defect_sizes.
(** The confidence curves decrease with the confidence level at every point of the interval. *)
Lemma interp_le_pointwise xs : forall ys zs t v w, length xs = length ys -> length xs = length zs ->
  (forall j, (j < length xs)%nat -> nth j ys 0 <= nth j zs 0) ->
  interp (combine xs ys) t = Ok v -> interp (combine xs zs) t = Ok w -> v <= w.
Proof.
  induction xs as [|a xs IH]; intros [|y ys] [|z zs] t v w H1 H2 Hle Hv Hw; try discriminate.
  destruct xs as [|b xs], ys as [|y' ys], zs as [|z' zs]; try discriminate.
  - cbn in Hv, Hw. destruct (Rltb t a), (Rltb a t); try discriminate. injection Hv as <-. injection Hw as <-.
    apply (Hle 0%nat). cbn. lia.
  - cbn [combine] in Hv, Hw. rewrite interp_cons2 in Hv, Hw.
    destruct (Rltb_spec t a) as [La|La]; [discriminate|]. destruct (Rltb_spec t b) as [Lb|Lb].
    + injection Hv as <-. injection Hw as <-.
      assert (L0 := Hle 0%nat ltac:(cbn; lia)). assert (L1 := Hle 1%nat ltac:(cbn; lia)). cbn in L0, L1.
      set (r := (t - a) / (b - a)). assert (Hr : 0 <= r <= 1) by (apply ratio_unit; lra).
      replace (y + (y' - y) / (b - a) * (t - a)) with ((1 - r) * y + r * y') by (unfold r; field; lra).
      replace (z + (z' - z) / (b - a) * (t - a)) with ((1 - r) * z + r * z') by (unfold r; field; lra).
      assert ((1 - r) * y <= (1 - r) * z) by (apply Rmult_le_compat_l; lra).
      assert (r * y' <= r * z') by (apply Rmult_le_compat_l; lra). lra.
    + apply (IH (y' :: ys) (z' :: zs) t v w); cbn in *; try lia; auto.
      intros j Hj. apply (Hle (S j)). lia.
Qed.
Theorem C28_confidence_curves_ordered :
  forall simulate pod_values (sizes : list R) (c1 c2 t v1 v2 : R),
    strictly_increasing sizes -> c1 <= c2 ->
    let o := meta_run simulate pod_values (meta_new sizes) in
    meta_evalCL o c1 t = Ok v1 -> meta_evalCL o c2 t = Ok v2 -> v2 <= v1.
Proof.
  intros simulate pod_values sizes c1 c2 t v1 v2 Hs Hc o.
  unfold o. cbn [meta_run meta_new meta_evalCL mo_rows mo_sizes].
  destruct (C15_per_defect_values (simulate sizes) (length sizes) c1) as [H0 H1].
  destruct (C15_per_defect_values (simulate sizes) (length sizes) c2) as [_ H2].
  destruct (simulate sizes) as [|r0 rs] eqn:E; [rewrite (H0 eq_refl); discriminate|].
  rewrite <- E in *. assert (Hn : simulate sizes <> []) by (rewrite E; discriminate).
  destruct (H1 Hn) as [vs1 [E1 [L1 [_ [_ M1]]]]]. destruct (H2 Hn) as [vs2 [E2 [L2 _]]].
  rewrite E1, E2. cbn [bind]. rewrite !interp1d_sorted by (auto; lia). intros V1 V2.
  apply (interp_le_pointwise sizes vs2 vs1 t v2 v1); auto. intros j Hj. now apply (M1 c2 vs2).
Qed.
Print Assumptions C28_confidence_curves_ordered.
Example C28_example : let xs := [1; 2; 4] in let ys := [0; /2; 1] in
  length xs = length ys /\ strictly_increasing xs /\ StronglySorted Rle ys /\
  interp1d xs ys 3 = Ok (3/4) /\ interp1d xs ys 5 = Raise ValueError.
Proof.
  intros xs ys.
  assert (Hs : strictly_increasing xs).
  { unfold xs, strictly_increasing. repeat constructor; lra. }
  split; [reflexivity|]. split; [exact Hs|]. split; [unfold ys; repeat constructor; lra|]. split.
  - destruct (C28_affine_between_neighbours xs ys 1 3 eq_refl Hs) as [w [Hw [E ->]]].
    + cbn; lia.
    + cbn; lra.
    + cbn in *. f_equal. lra.
  - destruct (C28_domain xs ys 5 eq_refl Hs ltac:(discriminate)) as [_ ->]; [reflexivity|]. cbn. lra.
Qed.

(** *** C65: sizes changed between run and the curves *)
Theorem C65_pod_curve_keeps_the_sizes_of_the_run :
  forall simulate pod_values (s1 s2 : list R) (t : R),
    meta_evalPOD (meta_setSizes (meta_run simulate pod_values (meta_new s1)) s2) t
    = meta_evalPOD (meta_run simulate pod_values (meta_new s1)) t.
Proof. reflexivity. Qed.
Print Assumptions C65_pod_curve_keeps_the_sizes_of_the_run.
(** The confidence curve pairs the new sizes with the values computed for the old ones, and raises when the numbers differ. *)
Theorem C65_confidence_curve_mixes_sizes :
  forall simulate pod_values (s1 s2 : list R) (c t : R), simulate s1 <> [] ->
    let o := meta_setSizes (meta_run simulate pod_values (meta_new s1)) s2 in
    (length s2 <> length s1 -> meta_evalCL o c t = Raise ValueError) /\
    (length s2 = length s1 -> strictly_increasing s2 -> strictly_increasing s1 ->
     forall j, (j < length s1)%nat ->
       meta_evalCL o c (nth j s2 0) = meta_evalCL (meta_run simulate pod_values (meta_new s1)) c (nth j s1 0)).
Proof.
  intros simulate pod_values s1 s2 c t Hn o.
  unfold o. cbn [meta_run meta_new meta_setSizes meta_evalCL mo_rows mo_sizes].
  destruct (C15_per_defect_values (simulate s1) (length s1) c) as [_ H1].
  destruct (H1 Hn) as [vs [E [L _]]]. rewrite E. cbn [bind]. split.
  - intros Hne. unfold interp1d. rewrite L. apply Nat.eqb_neq in Hne. now rewrite Hne.
  - intros HL Hs2 Hs1 j Hj. rewrite !C28_exact_at_defect_sizes by (auto; lia). reflexivity.
Qed.
Print Assumptions C65_confidence_curve_mixes_sizes.
(** Finding: the confidence curve can then be above every simulated POD at that size: with one simulation of the curve
    POD(x) = x/10 on sizes 0..10, moving the sizes to 0, 1, 10 reports 0.5 at size 1 instead of 0.1. *)
Theorem C65_lower_bound_refuted :
  exists simulate s1 s2 c v w,
    let o := meta_setSizes (meta_run simulate col_means (meta_new s1)) s2 in
    strictly_increasing s1 /\ strictly_increasing s2 /\
    meta_evalCL (meta_run simulate col_means (meta_new s2)) c 1 = Ok w /\
    meta_evalCL o c 1 = Ok v /\ meta_evalPOD o 1 = Ok w /\ w < v.
Proof.
  exists (fun s => [map (fun x => x / 10) s]), [0; 5; 10], [0; 1; 10], (/2), (5/10), (1/10).
  intros o.
  assert (S1 : strictly_increasing [0; 5; 10]) by (repeat constructor; lra).
  assert (S2 : strictly_increasing [0; 1; 10]) by (repeat constructor; lra).
  assert (Q : forall a p, quantile [a] p = a).
  { intros a p. assert (B := quantile_bounds [a] p ltac:(discriminate)). cbn in B. lra. }
  split; [exact S1|]. split; [exact S2|].
  split; [|split; [|split; [|lra]]]; unfold o;
    cbn [meta_run meta_new meta_setSizes meta_evalCL meta_evalPOD mo_rows mo_sizes mo_curve];
    unfold pod_cl_values, quantile_per_component, column, col_means; cbn [map seq length nth bind];
    rewrite ?Q; unfold Rmean; cbn [Rsum map fold_right length INR nth].
  - exact (C28_exact_at_defect_sizes [0; 1; 10] [0/10; 1/10; 10/10] 1 eq_refl S2 ltac:(cbn; lia)).
  - exact (C28_exact_at_defect_sizes [0; 1; 10] [0/10; 5/10; 10/10] 1 eq_refl S2 ltac:(cbn; lia)).
  - destruct (C28_affine_between_neighbours [0; 5; 10] [(0/10+0)/1; (5/10+0)/1; (10/10+0)/1] 0 1 eq_refl S1 ltac:(cbn; lia) ltac:(cbn; lra))
      as [w [Hw [E HH]]]. cbn [nth] in *.
    unfold column. cbn [map nth]. unfold Rsum; cbn [fold_right length INR]. rewrite HH. f_equal. lra.
Qed.
Print Assumptions C65_lower_bound_refuted.

(** *** C25 *)
Theorem C25_nodes_on_the_curve :
  forall (levels sizes : list R) (dmax : R),
    length sizes = length levels -> levels <> [] -> NoDup (qr_xs sizes dmax) ->
    qr_curve levels sizes dmax 0 = Ok 0 /\
    (forall i, (i < length levels)%nat -> qr_curve levels sizes dmax (nth i sizes 0) = Ok (nth i levels 0)) /\
    (exists q, In q levels /\ (forall q', In q' levels -> q' <= q) /\ qr_curve levels sizes dmax dmax = Ok q).
Proof.
  intros levels sizes dmax HL Hne Hnd.
  assert (HLL : length (qr_xs sizes dmax) = length (qr_ys levels)).
  { unfold qr_xs, qr_ys. cbn. rewrite !app_length. cbn. lia. }
  assert (Hn : forall a y, In (a, y) (combine (qr_xs sizes dmax) (qr_ys levels)) ->
            qr_curve levels sizes dmax a = Ok y).
  { intros a y Hin. unfold qr_curve, interp1d. rewrite HLL, Nat.eqb_refl. apply interp_node.
    - apply node_sort_increasing. now rewrite map_fst_combine'.
    - eapply Permutation_in; [apply Permutation_sym, node_sort_perm|exact Hin]. }
  split; [apply Hn; now left|]. split.
  - intros i Hi. apply Hn. right.
    assert (E : (nth i sizes 0, nth i levels 0) = nth i (combine (sizes ++ [dmax]) (levels ++ [Rlmax levels])) (0, 0)).
    { rewrite combine_nth by (rewrite !app_length; cbn; lia). now rewrite !app_nth1 by lia. }
    rewrite E. apply nth_In. rewrite combine_length, !app_length. cbn. lia.
  - exists (Rlmax levels). split; [now apply Rlmax_in|]. split; [intros q' Hq; now apply Rlmax_ge|].
    apply Hn. right.
    assert (E : (dmax, Rlmax levels) = nth (length sizes) (combine (sizes ++ [dmax]) (levels ++ [Rlmax levels])) (0, 0)).
    { rewrite combine_nth by (rewrite !app_length; cbn; lia).
      rewrite app_nth2 by lia. rewrite app_nth2 by lia. rewrite HL, Nat.sub_diag. reflexivity. }
    rewrite E. apply nth_In. rewrite combine_length, !app_length. cbn. lia.
Qed.
Print Assumptions C25_nodes_on_the_curve.
Theorem C25_range :
  forall (levels sizes : list R) (dmax t v : R),
    (forall q, In q levels -> 0 < q < 1) -> levels <> [] -> qr_curve levels sizes dmax t = Ok v ->
    0 <= v < 1 /\ exists q, In q levels /\ v <= q.
Proof.
  intros levels sizes dmax t v Hq Hne Hv. assert (Hm := Hq _ (Rlmax_in levels Hne)).
  assert (B : 0 <= v <= Rlmax levels).
  { apply (C28_range (qr_xs sizes dmax) (qr_ys levels) t); [|exact Hv].
    intros y [<-|Hy]; [lra|]. apply in_app_or in Hy. destruct Hy as [Hy|[<-|[]]]; [|lra].
    assert (G := Hq y Hy). assert (G' := Rlmax_ge _ _ Hy). lra. }
  split; [lra|]. exists (Rlmax levels). split; [now apply Rlmax_in|lra].
Qed.
Print Assumptions C25_range.
(** When the sizes are in the interval given to the root solver, the curve is defined exactly on [0, largest defect]. *)
Theorem C25_domain :
  forall (levels sizes : list R) (dmax t : R),
    length sizes = length levels -> 0 <= dmax -> (forall a, In a sizes -> 0 <= a <= dmax) ->
    (0 <= t <= dmax -> exists v, qr_curve levels sizes dmax t = Ok v) /\
    (~ 0 <= t <= dmax -> qr_curve levels sizes dmax t = Raise ValueError).
Proof.
  intros levels sizes dmax t HL Hd Hs. unfold qr_curve, interp1d.
  assert (HLL : length (qr_xs sizes dmax) = length (qr_ys levels)).
  { unfold qr_xs, qr_ys. cbn. rewrite !app_length. cbn. lia. }
  rewrite HLL, Nat.eqb_refl. set (ns := node_sort (combine (qr_xs sizes dmax) (qr_ys levels))).
  assert (Hin : forall a, In a (qr_xs sizes dmax) -> exists y, In (a, y) ns).
  { intros a Ha. rewrite <- (map_fst_combine' _ _ HLL) in Ha. apply in_map_iff in Ha. destruct Ha as [[a' y] [E Hp]].
    cbn in E. subst a'. exists y. eapply Permutation_in; [apply Permutation_sym, node_sort_perm|exact Hp]. }
  assert (Hin' : forall p, In p ns -> 0 <= fst p <= dmax).
  { intros [a y] Hp. apply (Permutation_in _ (node_sort_perm _)) in Hp. apply in_combine_l in Hp. cbn [fst].
    destruct Hp as [<-|Hp]; [lra|]. apply in_app_or in Hp. destruct Hp as [Hp|[<-|[]]]; [now apply Hs|lra]. }
  destruct (Hin 0) as [y0 H0]; [now left|]. destruct (Hin dmax) as [y1 H1]; [right; apply in_or_app; right; now left|].
  assert (Hne : ns <> []) by (intros E; rewrite E in H0; destruct H0).
  assert (Hw : weakly_increasing ns) by apply node_sort_weak.
  assert (F : first_x ns = 0).
  { apply Rle_antisym; [exact (weak_first_le ns _ Hw H0)|].
    destruct (first_x_in ns Hne) as [y Hy]. apply (Hin' _ Hy). }
  assert (L : last_x ns = dmax).
  { apply Rle_antisym; [|exact (weak_last_ge ns _ Hw H1)].
    destruct (last_x_in ns Hne) as [y Hy]. apply (Hin' _ Hy). }
  destruct (interp_domain_weak ns t Hne Hw) as [D1 D2]. rewrite F, L in *. split; assumption.
Qed.
Print Assumptions C25_domain.
(** Sizes non decreasing with the level (levels are sorted by setQuantile): the POD curve is non decreasing. *)
Theorem C25_monotone :
  forall (levels sizes : list R) (dmax t1 t2 v1 v2 : R),
    length sizes = length levels -> Rsorted levels -> Rsorted sizes ->
    0 <= dmax -> (forall a, In a sizes -> 0 <= a <= dmax) -> (forall q, In q levels -> 0 < q) ->
    t1 <= t2 -> qr_curve levels sizes dmax t1 = Ok v1 -> qr_curve levels sizes dmax t2 = Ok v2 -> v1 <= v2.
Proof.
  intros levels sizes dmax t1 t2 v1 v2 HL Hl Hs Hd Hr Hq Ht. unfold qr_curve, interp1d.
  assert (HLL : length (qr_xs sizes dmax) = length (qr_ys levels)).
  { unfold qr_xs, qr_ys. cbn. rewrite !app_length. cbn. lia. }
  assert (Happ : forall (l : list R) m, Rsorted l -> (forall x, In x l -> x <= m) -> Rsorted (l ++ [m])).
  { induction l as [|x l IH]; intros m HS Hm; cbn; [repeat constructor|].
    inversion HS as [|? ? HS' Hall]; subst. constructor.
    - apply IH; [exact HS'|]. intros y Hy. apply Hm. now right.
    - apply Forall_app. split; [exact Hall|]. constructor; [apply Hm; now left|constructor]. }
  assert (Sx : Rsorted (qr_xs sizes dmax)).
  { unfold qr_xs. constructor; [apply Happ; [exact Hs|intros x Hx; now apply Hr]|].
    apply Forall_app. split; [rewrite Forall_forall; intros x Hx; now apply Hr|constructor; [lra|constructor]]. }
  assert (Sy : Rsorted (qr_ys levels)).
  { unfold qr_ys. constructor; [apply Happ; [exact Hl|intros x Hx; now apply Rlmax_ge]|].
    apply Forall_app. split; [rewrite Forall_forall; intros x Hx; apply Rlt_le; now apply Hq|].
    constructor; [|constructor]. destruct levels as [|q levels]; [cbn; lra|].
    apply Rlt_le, Hq. apply Rlmax_in. discriminate. }
  rewrite HLL, Nat.eqb_refl. unfold node_sort.
  rewrite isort_id.
  - apply interp_mono_any; [now apply combine_nondecreasing|exact Ht].
  - clear -HLL Sx. apply weakly_sorted.
    revert HLL Sx. generalize (qr_xs sizes dmax), (qr_ys levels).
    induction l as [|x xs IH]; intros [|y ys] HLL Sx; try discriminate; [constructor|].
    inversion Sx as [|? ? S' Hall]; subst. constructor; [apply IH; cbn in *; auto; lia|].
    rewrite Forall_forall in *. intros [a b] Hp. apply in_combine_l in Hp. cbn. now apply Hall.
Qed.
Print Assumptions C25_monotone.
(** run: with a root solver that meets its contract the sizes are roots of the regression lines in [0, largest defect]. *)
Theorem C25_sizes_are_the_crossings :
  forall (solve : solver) (line : R -> R -> R) (threshold dmax : R) (levels : list R),
    solver_spec solve -> 0 <= dmax -> (forall q, cont_on (line q) 0 dmax) ->
    ((exists sizes, qr_run solve line threshold dmax levels = Ok sizes) <->
     (forall q, In q levels -> (line q 0 - threshold) * (line q dmax - threshold) <= 0)) /\
    (forall sizes, qr_run solve line threshold dmax levels = Ok sizes ->
       length sizes = length levels /\
       forall i, (i < length levels)%nat ->
         0 <= nth i sizes 0 <= dmax /\ line (nth i levels 0) (nth i sizes 0) = threshold).
Proof.
  intros solve line threshold dmax levels Hsol Hd Hc. unfold qr_run.
  induction levels as [|q levels [IH1 IH2]]; cbn [qr_sizes].
  - split; [split; [intros _ q []|eauto]|]. intros sizes [= <-]. split; [reflexivity|]. cbn. lia.
  - destruct (Hsol (line q) threshold 0 dmax Hd (Hc q)) as [S1 S2].
    destruct (Rle_dec ((line q 0 - threshold) * (line q dmax - threshold)) 0) as [Hb|Hb].
    + destruct (S1 Hb) as [a [Ea [Ha Hroot]]]. rewrite Ea. cbn [bind].
      destruct (qr_sizes solve line threshold 0 dmax levels) as [sizes|e] eqn:E; cbn [bind].
      * split.
        -- split; [|eauto]. intros _ q' [<-|Hq]; [exact Hb|]. apply (proj1 IH1); eauto.
        -- intros sizes' [= <-]. destruct (IH2 sizes eq_refl) as [L H]. split; [cbn; lia|].
           intros i Hi. destruct i; cbn; [auto|]. apply H. cbn in Hi. lia.
      * split; [|discriminate]. split; [intros [s Hs]; discriminate|]. intros H. exfalso.
        destruct (proj2 IH1) as [s Hs]; [intros q' Hq; apply H; now right|]. discriminate.
    + destruct (S2 ltac:(lra)) as [e Ee]. rewrite Ee. cbn [bind]. split; [|discriminate].
      split; [intros [s Hs]; discriminate|]. intros H. exfalso. apply Hb. apply H. now left.
Qed.
Print Assumptions C25_sizes_are_the_crossings.
(** Such a solver exists (Solver.bisection_spec), and a concrete curve satisfies the hypotheses above. *)
Example C25_example : let levels := [/10; /2; 9/10] in let sizes := [1; 2; 4] in
  length sizes = length levels /\ levels <> [] /\ NoDup (qr_xs sizes 5) /\ Rsorted levels /\ Rsorted sizes /\
  (forall q, In q levels -> 0 < q < 1) /\ (forall a, In a sizes -> 0 <= a <= 5) /\
  qr_curve levels sizes 5 2 = Ok (/2).
Proof.
  intros levels sizes.
  assert (Hnd : NoDup (qr_xs sizes 5)).
  { unfold qr_xs, sizes. cbn. repeat constructor; cbn; intros H; repeat destruct H as [H|H]; try lra; destruct H. }
  split; [reflexivity|]. split; [discriminate|]. split; [exact Hnd|].
  split; [unfold levels; repeat constructor; lra|]. split; [unfold sizes; repeat constructor; lra|].
  split; [intros q [<-|[<-|[<-|[]]]]; lra|]. split; [intros a [<-|[<-|[<-|[]]]]; lra|].
  destruct (C25_nodes_on_the_curve levels sizes 5 eq_refl ltac:(discriminate) Hnd) as [_ [H _]].
  apply (H 1%nat). cbn. lia.
Qed.
(** Finding: when the sizes are not ordered as the levels (crossing regression lines) the POD curve decreases somewhere. *)
Theorem C25_crossing_lines_refuted :
  exists levels sizes dmax t1 t2 v1 v2,
    Rsorted levels /\ (forall a, In a sizes -> 0 <= a <= dmax) /\ t1 < t2 /\
    qr_curve levels sizes dmax t1 = Ok v1 /\ qr_curve levels sizes dmax t2 = Ok v2 /\ v2 < v1.
Proof.
  exists [/2; 9/10], [3; 2], 5, 2, 3, (9/10), (/2).
  assert (Hnd : NoDup (qr_xs [3; 2] 5)).
  { unfold qr_xs. cbn. repeat constructor; cbn; intros H; repeat destruct H as [H|H]; try lra; destruct H. }
  destruct (C25_nodes_on_the_curve [/2; 9/10] [3; 2] 5 eq_refl ltac:(discriminate) Hnd) as [_ [H _]].
  split; [repeat constructor; lra|]. split; [intros a [<-|[<-|[]]]; lra|]. split; [lra|].
  split; [apply (H 1%nat); cbn; lia|]. split; [apply (H 0%nat); cbn; lia|lra].
Qed.
Print Assumptions C25_crossing_lines_refuted.

(** *** C61 *)
Theorem C61_accepted_intervals :
  forall (lo hi : R) (dmin dmax : option R), lo <= hi ->
    (forall a b, draw_interval lo hi dmin dmax = Ok (a, b) ->
       lo <= a <= hi /\ lo <= b <= hi /\
       a = match dmin with Some x => x | None => lo end /\ b = match dmax with Some x => x | None => hi end) /\
    ((exists ab, draw_interval lo hi dmin dmax = Ok ab) <->
     (forall x, dmin = Some x \/ dmax = Some x -> lo <= x <= hi)) /\
    ((exists x, (dmin = Some x \/ dmax = Some x) /\ ~ lo <= x <= hi) ->
     draw_interval lo hi dmin dmax = Raise ValueError).
Proof.
  intros lo hi dmin dmax Hlh. unfold draw_interval.
  destruct dmin as [x|]; [destruct (Rltb_spec x lo); [|destruct (Rltb_spec hi x)]|]; cbn [bind];
    (destruct dmax as [y|]; [destruct (Rltb_spec hi y); [|destruct (Rltb_spec y lo)]|]); cbn [bind];
    (split; [intros a b E; try discriminate; injection E as <- <-; repeat split; lra|]);
    (split; [split; [intros [ab E]; try discriminate; intros z [Hz|Hz]; try discriminate; injection Hz as <-; lra
                    |intros H; try (eexists; reflexivity); exfalso]
            |intros [z [[Hz|Hz] Hnot]]; try discriminate; try reflexivity; injection Hz as <-; lra]);
    first [assert (G := H x (or_introl eq_refl)); lra | assert (G := H y (or_intror eq_refl)); lra].
Qed.
Print Assumptions C61_accepted_intervals.
(** Drawing an accepted interval evaluates the curve only where it is defined: it never raises. *)
Lemma draw_points_in a b lo hi n x : lo <= a <= hi -> lo <= b <= hi -> (2 <= n)%nat -> In x (draw_points a b n) -> lo <= x <= hi.
Proof.
  intros Ha Hb Hn Hx. apply in_map_iff in Hx. destruct Hx as [i [<- Hi]]. apply in_seq in Hi.
  assert (Hm : 0 < INR (n - 1)) by (apply INR_pos; lia).
  assert (Hw : 0 <= INR i / INR (n - 1) <= 1).
  { split.
    - apply Rmult_le_pos; [apply pos_INR|]. apply Rlt_le, Rinv_0_lt_compat, Hm.
    - apply (Rmult_le_reg_r (INR (n - 1))); [exact Hm|]. unfold Rdiv. rewrite Rmult_assoc, Rinv_l by lra.
      rewrite Rmult_1_r, Rmult_1_l. apply le_INR. lia. }
  replace (a + INR i * (b - a) / INR (n - 1)) with (a + (b - a) * (INR i / INR (n - 1))) by (field; lra).
  assert (C := convex_between a b _ Hw). unfold Rmin, Rmax in C. destruct (Rle_dec a b); lra.
Qed.
Theorem C61_metamodel_drawing_never_leaves_the_domain :
  forall (sizes ys : list R) (dmin dmax : option R) (a b : R) (nbPt : nat),
    length sizes = length ys -> strictly_increasing sizes -> sizes <> [] -> (2 <= nbPt)%nat ->
    draw_interval (Rlmin sizes) (Rlmax sizes) dmin dmax = Ok (a, b) ->
    forall x, In x (draw_points a b nbPt) -> exists v, interp1d sizes ys x = Ok v.
Proof.
  intros sizes ys dmin dmax a b nbPt HL Hs Hn Hp Hd x Hx.
  destruct (C61_accepted_intervals (Rlmin sizes) (Rlmax sizes) dmin dmax (Rlmin_le_max sizes)) as [H _].
  destruct (H a b Hd) as [Ha [Hb _]].
  destruct (C28_domain sizes ys x HL Hs Hn) as [D _]. apply D.
  assert (HR : Rsorted sizes).
  { clear -Hs. induction Hs as [|y l Hs IH Hall]; constructor; auto.
    eapply Forall_impl; [|exact Hall]. intros z. lra. }
  destruct (Rsorted_bounds sizes HR Hn) as [E0 E1].
  assert (El : last sizes 0 = Rlmax sizes).
  { rewrite <- E1. clear. induction sizes as [|y l IH]; [reflexivity|]. destruct l as [|z l]; [reflexivity|].
    cbn [last length]. cbn [last length] in IH. rewrite IH. replace (S (length l) - 1)%nat with (length l) by lia.
    replace (S (S (length l)) - 1)%nat with (S (length l)) by lia. reflexivity. }
  rewrite E0, El. now apply (draw_points_in a b _ _ nbPt).
Qed.
Print Assumptions C61_metamodel_drawing_never_leaves_the_domain.
(** Quantile regression: the same for non negative defects, the curve being defined on [0, largest defect]. *)
Theorem C61_quantile_drawing_never_leaves_the_domain :
  forall (defects levels sizes : list R) (dmin dmax : option R) (a b : R) (nbPt : nat),
    length sizes = length levels -> defects <> [] -> (forall d, In d defects -> 0 <= d) ->
    (forall s, In s sizes -> 0 <= s <= Rlmax defects) -> (2 <= nbPt)%nat ->
    draw_interval (Rlmin defects) (Rlmax defects) dmin dmax = Ok (a, b) ->
    forall x, In x (draw_points a b nbPt) -> exists v, qr_curve levels sizes (Rlmax defects) x = Ok v.
Proof.
  intros defects levels sizes dmin dmax a b nbPt HL Hn Hpos Hs Hp Hd x Hx.
  destruct (C61_accepted_intervals (Rlmin defects) (Rlmax defects) dmin dmax (Rlmin_le_max defects)) as [H _].
  destruct (H a b Hd) as [Ha [Hb _]].
  assert (H0 := Hpos _ (Rlmin_in defects Hn)). assert (H1 := Rlmin_le_max defects).
  destruct (C25_domain levels sizes (Rlmax defects) x HL ltac:(lra) Hs) as [D _]. apply D.
  assert (G := draw_points_in a b _ _ nbPt x Ha Hb Hp Hx). lra.
Qed.
Print Assumptions C61_quantile_drawing_never_leaves_the_domain.
(** Finding: with a negative smallest defect the default interval is outside the domain of the curve. *)
Theorem C61_negative_defects_refuted :
  exists defects levels sizes a b x,
    length sizes = length levels /\ (forall s, In s sizes -> 0 <= s <= Rlmax defects) /\
    draw_interval (Rlmin defects) (Rlmax defects) None None = Ok (a, b) /\
    In x (draw_points a b 100) /\ qr_curve levels sizes (Rlmax defects) x = Raise ValueError.
Proof.
  exists [-1; 5], [/2], [2], (-1), 5, (-1).
  assert (Em : Rlmin [-1; 5] = -1).
  { cbn. unfold Rmin. destruct (Rle_dec 5 (-1)); lra. }
  assert (EM : Rlmax [-1; 5] = 5).
  { cbn. unfold Rmax. destruct (Rle_dec 5 (-1)); lra. }
  rewrite Em, EM. split; [reflexivity|]. split; [intros s [<-|[]]; lra|]. split; [reflexivity|]. split.
  - unfold draw_points. change (seq 0 100) with (0%nat :: seq 1 99). cbn [map]. left.
    change (INR 0) with 0. unfold Rdiv. rewrite !Rmult_0_l. lra.
  - apply (C25_domain [/2] [2] 5 (-1)); [reflexivity|lra| |lra]. intros s [<-|[]]; lra.
Qed.
Print Assumptions C61_negative_defects_refuted.
Example C61_example : draw_interval 1 4 (Some 2) None = Ok (2, 4).
Proof. unfold draw_interval. destruct (Rltb_spec 2 1); [lra|]. destruct (Rltb_spec 4 2); [lra|]. reflexivity. Qed.
