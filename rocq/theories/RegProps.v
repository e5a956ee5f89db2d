(** C11, C19, C20, C66: least squares and residual statistics. *)
From Verif Require Import RealBase RegModel RegProofs QuantileProofs.
Local Open Scope R_scope.

Ltac case_eqb := match goal with |- context [Reqb ?x ?y] => destruct (Reqb_spec x y) end.

(** *** C11 *)
Theorem C11_least_squares_minimum :
  forall d a b, (exists p q, In p d /\ In q d /\ fst p <> fst q) -> ols d = (a, b) ->
    forall a' b',
      Rsum (map (fun p => (snd p - (a + b * fst p)) ^ 2) d) <= Rsum (map (fun p => (snd p - (a' + b' * fst p)) ^ 2) d) /\
      (Rsum (map (fun p => (snd p - (a' + b' * fst p)) ^ 2) d) <= Rsum (map (fun p => (snd p - (a + b * fst p)) ^ 2) d) ->
         a' = a /\ b' = b).
Proof.
  intros d a b Hc H a' b'.
  assert (E : forall a b, Rsum (map (fun p => (snd p - (a + b * fst p)) ^ 2) d) = ssq (residuals a b d)).
  { intros u v. unfold ssq, residuals. rewrite map_map. apply Rsum_ext. intros p _. unfold linear. ring. }
  rewrite !E, (ols_decomposition d a b a' b' Hc H).
  assert (P := num_pos d (non_constant_nil d Hc)). assert (S := proj1 (Sxx_pos d) Hc).
  set (u := a' - a + (b' - b) * xbar d) in *. set (v := b' - b) in *.
  assert (Hu : 0 <= num d * u * u) by (rewrite Rmult_assoc; apply Rmult_le_pos; [lra|apply Rle_0_sqr]).
  assert (Hv : 0 <= v * v * Sxx d) by (apply Rmult_le_pos; [apply Rle_0_sqr|lra]).
  split; [lra|]. intros HE.
  assert (E1 : num d * u * u = 0) by lra. assert (E2 : v * v * Sxx d = 0) by lra.
  assert (V : v = 0).
  { apply Rmult_integral in E2. destruct E2 as [E2|E2]; [|lra]. now apply Rmult_integral in E2; destruct E2. }
  assert (U : u = 0).
  { rewrite Rmult_assoc in E1. apply Rmult_integral in E1. destruct E1 as [E1|E1]; [lra|].
    now apply Rmult_integral in E1; destruct E1. }
  unfold u in U. unfold v in *. rewrite V in U. split; lra.
Qed.
Print Assumptions C11_least_squares_minimum.
Theorem C11_residuals_centred_and_orthogonal :
  forall d a b, (exists p q, In p d /\ In q d /\ fst p <> fst q) -> ols d = (a, b) ->
    length (residuals a b d) = length d /\
    Rsum (residuals a b d) = 0 /\
    Rsum (map (fun p => fst p * snd p) (combine (map fst d) (residuals a b d))) = 0.
Proof.
  intros d a b Hc H. split; [apply residuals_length|]. split; [now apply ols_residuals_sum|].
  rewrite <- (ols_residuals_orth d a b Hc H). f_equal. unfold residuals. clear.
  induction d as [|p d IH]; cbn; [reflexivity|]. now rewrite IH.
Qed.
Print Assumptions C11_residuals_centred_and_orthogonal.
(** The residual standard deviation of the linear model uses n - 2. *)
Theorem C11_stderr :
  forall d a b, (exists p q, In p d /\ In q d /\ fst p <> fst q) -> (3 <= length d)%nat -> ols d = (a, b) ->
    0 <= stderr d /\ stderr d * stderr d * (num d - 2) = Rsum (map (fun r => r ^ 2) (residuals a b d)).
Proof.
  intros d a b Hc Hl H. unfold stderr. rewrite H.
  assert (N : 0 < num d - 2) by (unfold num; apply le_INR in Hl; change (INR 3) with (1 + 1 + 1) in Hl; lra).
  assert (Q : 0 <= ssq (residuals a b d) / (num d - 2)).
  { apply Rmult_le_pos; [apply ssq_nonneg|]. left. now apply Rinv_0_lt_compat. }
  split; [apply sqrt_pos|]. rewrite sqrt_sqrt by assumption.
  replace (ssq (residuals a b d) / (num d - 2) * (num d - 2)) with (ssq (residuals a b d)) by (field; lra).
  unfold ssq. apply Rsum_ext. intros; ring.
Qed.
Print Assumptions C11_stderr.
Example C11_example : exists d a b, ols d = (a, b) /\ (exists p q, In p d /\ In q d /\ fst p <> fst q) /\
  (3 <= length d)%nat /\ a = -1 / 3 /\ b = 3 / 2 /\ residuals a b d = [-1/6; 1/3; -1/6].
Proof.
  exists [(1, 1); (2, 3); (3, 4)], (-1/3), (3/2).
  split; [|split; [|split; [|split; [|split]]]].
  - unfold ols, Sxy, Sxx, xbar, ybar, Rmean. cbn. f_equal; field_simplify; lra.
  - exists (1, 1), (2, 3). cbn. split; [auto|]. split; [auto|lra].
  - cbn. lia.
  - reflexivity.
  - reflexivity.
  - unfold residuals, linear. cbn. repeat (apply f_equal2; [lra|]). reflexivity.
Qed.

(** *** C19 *)
Lemma mean_centred l : l <> [] -> Rmean (map (fun s => s - Rmean l) l) = 0.
Proof.
  intros H. assert (P := num_pos l H). unfold Rmean at 1. rewrite map_length.
  rewrite (Rsum_minus (fun s => s) (fun _ => Rmean l)), map_id, Rsum_const. unfold Rmean, num in *. field. lra.
Qed.
Lemma variance_centred l : l <> [] -> variance (map (fun s => s - Rmean l) l) = variance l.
Proof.
  intros H. unfold variance. rewrite mean_centred by assumption. rewrite map_map, num_map. f_equal.
  apply Rsum_ext. intros; ring.
Qed.
Lemma non_constant_length d : non_constant d -> (2 <= length d)%nat.
Proof.
  intros [p [q [Hp [Hq Hne]]]]. destruct d as [|u [|v d]]; cbn; [destruct Hp| |lia].
  destruct Hp as [<-|[]]. destruct Hq as [<-|[]]. congruence.
Qed.
Lemma num_ge2 {A} (l : list A) : (2 <= length l)%nat -> 2 <= num l.
Proof. intros H. unfold num. apply le_INR in H. change (INR 2) with (1 + 1) in H. lra. Qed.
Lemma css_zero_iff l : l <> [] -> (Rsum (map (fun x => (x - Rmean l) * (x - Rmean l)) l) = 0 <->
  forall x y, In x l -> In y l -> x = y).
Proof.
  intros Hn. split.
  - intros H x y Hx Hy. assert (G := Rsum_sqr_zero (fun x => x - Rmean l) l H).
    assert (G1 := G x Hx). assert (G2 := G y Hy). cbn in G1, G2. lra.
  - intros H. destruct l as [|z l]; [congruence|]. 
    assert (M : Rmean (z :: l) = z).
    { unfold Rmean. assert (P := num_pos (z :: l) Hn). unfold num in P.
      replace (Rsum (z :: l)) with (INR (length (z :: l)) * z); [field; lra|].
      rewrite <- (map_id (z :: l)) at 2. rewrite (Rsum_ext (fun x => x) (fun _ => z)); [now rewrite Rsum_const|].
      intros x Hx. apply H; [assumption|now left]. }
    rewrite M. rewrite (Rsum_ext _ (fun _ => 0)); [rewrite Rsum_const; ring|].
    intros x Hx. rewrite (H x z); [ring|assumption|now left].
Qed.
(** R2 of a least squares fit: defined unless all signals are equal. *)
Theorem C19_R2_range :
  forall d a b, (exists p q, In p d /\ In q d /\ fst p <> fst q) -> ols d = (a, b) ->
    (computeR2 (map snd d) (residuals a b d) = None <-> (forall p q, In p d -> In q d -> snd p = snd q)) /\
    forall r, computeR2 (map snd d) (residuals a b d) = Some r ->
      0 <= r <= 1 /\ (r = 1 <-> forall e, In e (residuals a b d) -> e = 0).
Proof.
  intros d a b Hc H. assert (Hn := non_constant_nil d Hc). assert (L := num_ge2 d (non_constant_length d Hc)).
  assert (Hs : map snd d <> []) by (destruct d; [congruence|discriminate]).
  set (V := Rsum (map (fun x => (x - Rmean (map snd d)) * (x - Rmean (map snd d))) (map snd d))).
  assert (VS : variance (map (fun s => s - Rmean (map snd d)) (map snd d)) = V / (num d - 1)).
  { rewrite variance_centred by assumption. unfold variance. now rewrite num_map. }
  assert (Z : V = 0 <-> forall p q, In p d -> In q d -> snd p = snd q).
  { unfold V. rewrite css_zero_iff by assumption. split.
    - intros G p q Hp Hq. apply G; now apply in_map.
    - intros G x y Hx Hy. apply in_map_iff in Hx. apply in_map_iff in Hy.
      destruct Hx as [p [<- Hp]]. destruct Hy as [q [<- Hq]]. auto. }
  assert (Z' : V / (num d - 1) = 0 <-> V = 0).
  { split; intros G; [|rewrite G; unfold Rdiv; ring]. unfold Rdiv in G. apply Rmult_integral in G.
    destruct G as [G|G]; [assumption|]. exfalso. revert G. apply Rinv_neq_0_compat. lra. }
  unfold computeR2. rewrite VS. split.
  - rewrite <- Z, <- Z'. unfold div. destruct (Reqb_spec (V / (num d - 1)) 0); cbn; split; congruence.
  - intros r Hr. destruct (div _ _) as [q|] eqn:E; [|discriminate]. cbn in Hr. injection Hr as <-.
    apply div_some in E. destruct E as [NV ->]. rewrite Z' in NV.
    assert (RM : Rmean (residuals a b d) = 0).
    { unfold Rmean. rewrite (ols_residuals_sum d a b Hc H). unfold Rdiv. ring. }
    assert (RV : variance (residuals a b d) = ssq (residuals a b d) / (num d - 1)).
    { unfold variance. rewrite RM. unfold num at 1. rewrite residuals_length. f_equal.
      unfold ssq. apply Rsum_ext. intros; ring. }
    rewrite RV. replace (ssq (residuals a b d) / (num d - 1) / (V / (num d - 1))) with (ssq (residuals a b d) / V) by (field; lra).
    assert (LE : ssq (residuals a b d) <= V).
    { assert (EV : V = ssq (residuals (ybar d) 0 d)).
      { unfold V, ssq, residuals. rewrite !map_map. apply Rsum_ext. intros p _. unfold linear, ybar. ring. }
      rewrite EV, (ols_decomposition d a b (ybar d) 0 Hc H).
      assert (P := num_pos d Hn). assert (S := Sxx_nonneg d).
      set (u := ybar d - a + (0 - b) * xbar d).
      assert (0 <= num d * u * u) by (rewrite Rmult_assoc; apply Rmult_le_pos; [lra|apply Rle_0_sqr]).
      assert (0 <= (0 - b) * (0 - b) * Sxx d) by (apply Rmult_le_pos; [apply Rle_0_sqr|lra]). lra. }
    assert (N := ssq_nonneg (residuals a b d)). assert (PV : 0 < V) by lra.
    assert (I := Rinv_0_lt_compat V PV).
    assert (Q0 : 0 <= ssq (residuals a b d) / V) by (apply Rmult_le_pos; lra).
    assert (Q1 : ssq (residuals a b d) / V <= 1).
    { apply (Rmult_le_reg_r V); [assumption|]. unfold Rdiv. rewrite Rmult_assoc, Rinv_l by lra. lra. }
    split; [lra|]. rewrite <- ssq_zero. split.
    + intros E. assert (E' : ssq (residuals a b d) / V = 0) by lra.
      unfold Rdiv in E'. apply Rmult_integral in E'. destruct E' as [E'|E']; [assumption|lra].
    + intros ->. unfold Rdiv. ring.
Qed.
Print Assumptions C19_R2_range.
(** Changing the unit of the signals does not change R2. *)
Theorem C19_R2_affine_invariant :
  forall d a b k c, (exists p q, In p d /\ In q d /\ fst p <> fst q) -> k <> 0 -> ols d = (a, b) ->
    let d' := map (fun p => (fst p, k * snd p + c)) d in
    ols d' = (k * a + c, k * b) /\
    computeR2 (map snd d') (residuals (k * a + c) (k * b) d') = computeR2 (map snd d) (residuals a b d).
Proof.
  intros d a b k c Hc Hk H d'. assert (Hn := non_constant_nil d Hc). assert (P := num_pos d Hn).
  assert (L := num_ge2 d (non_constant_length d Hc)).
  assert (Ex : xbar d' = xbar d) by (unfold xbar, d'; now rewrite map_map).
  assert (Ey : ybar d' = k * ybar d + c).
  { unfold ybar, d'. rewrite map_map. cbn [snd]. unfold Rmean. rewrite !map_length.
    rewrite (Rsum_plus (fun p => k * snd p) (fun _ => c)), (Rsum_scal k), Rsum_const. unfold num in P. field. lra. }
  assert (Exx : Sxx d' = Sxx d).
  { unfold Sxx. rewrite Ex. unfold d'. rewrite map_map. reflexivity. }
  assert (Exy : Sxy d' = k * Sxy d).
  { unfold Sxy. rewrite Ex, Ey. unfold d'. rewrite map_map. cbn [fst snd]. rewrite <- (Rsum_scal k). apply Rsum_ext. intros; ring. }
  assert (S := proj1 (Sxx_pos d) Hc).
  split.
  - unfold ols in H |- *. injection H as <- <-. rewrite Exx, Exy, Ex, Ey. f_equal; field; lra.
  - assert (R' : residuals (k * a + c) (k * b) d' = map (fun r => k * r) (residuals a b d)).
    { unfold residuals, d'. rewrite !map_map. apply map_ext. intros p. unfold linear. cbn. ring. }
    assert (Y' : map snd d' = map (fun y => k * y + c) (map snd d)) by (unfold d'; now rewrite !map_map).
    rewrite R', Y'. clear R' Y' Ex Ey Exx Exy. clearbody d'. 
    assert (AV : forall l k c, l <> [] -> variance (map (fun y => k * y + c) l) = k * k * variance l).
    { intros l k0 c0 Hl. assert (Pl := num_pos l Hl). unfold variance. rewrite num_map.
      assert (M : Rmean (map (fun y => k0 * y + c0) l) = k0 * Rmean l + c0).
      { unfold Rmean. rewrite map_length. rewrite (Rsum_plus (fun y => k0 * y) (fun _ => c0)), (Rsum_scal k0), Rsum_const, map_id.
        unfold num in Pl. field. lra. }
      rewrite M, map_map. unfold Rdiv. rewrite <- Rmult_assoc. f_equal. rewrite <- (Rsum_scal (k0 * k0)). apply Rsum_ext. intros; ring. }
    assert (Hs : map snd d <> []) by (destruct d; [congruence|discriminate]).
    assert (Hr : residuals a b d <> []) by (destruct d; [congruence|discriminate]).
    unfold computeR2. rewrite !variance_centred by (destruct (map snd d); [congruence|discriminate]).
    rewrite (AV _ k c Hs).
    assert (E0 : variance (map (fun r => k * r) (residuals a b d)) = k * k * variance (residuals a b d)).
    { rewrite <- (AV _ k 0 Hr). f_equal. apply map_ext. intros; ring. }
    rewrite E0. set (u := variance (residuals a b d)). set (v := variance (map snd d)).
    assert (KK : k * k <> 0) by (intros E; apply Rmult_integral in E; tauto).
    unfold div. destruct (Reqb_spec v 0) as [->|N].
    + rewrite Rmult_0_r, Reqb_refl. reflexivity.
    + destruct (Reqb_spec (k * k * v) 0) as [E|_]; [apply Rmult_integral in E; tauto|].
      cbn. f_equal. field. split; assumption.
Qed.
Print Assumptions C19_R2_affine_invariant.
(** Finding: for residuals that are not those of the least squares line (censored data) R2 can be negative. *)
Theorem C19_R2_negative_for_other_lines_refuted :
  exists d a b r, (exists p q, In p d /\ In q d /\ fst p <> fst q) /\
    computeR2 (map snd d) (residuals a b d) = Some r /\ r < 0.
Proof.
  exists [(0, 0); (1, 1)], 0, 3, (-3). split; [|split; [|lra]].
  - exists (0, 0), (1, 1). cbn. split; [auto|]. split; [auto|lra].
  - unfold computeR2. rewrite variance_centred by discriminate. unfold residuals, variance, linear, Rmean, num. cbn.
    unfold div. case_eqb; [exfalso; lra|]. cbn. f_equal. field.
Qed.
Print Assumptions C19_R2_negative_for_other_lines_refuted.
Lemma dw_bound x l : ssq (diffs (x :: l)) <= 4 * ssq (x :: l) - 2 * (x * x).
Proof.
  revert x. induction l as [|y l IH]; intros x.
  - cbn. unfold ssq. cbn. assert (G := Rle_0_sqr x). unfold Rsqr in G. lra.
  - change (diffs (x :: y :: l)) with ((y - x) :: diffs (y :: l)). rewrite ssq_cons, (ssq_cons x). specialize (IH y).
    assert (G := Rle_0_sqr (x + y)). unfold Rsqr in G. lra.
Qed.
Theorem C19_durbin_watson_range :
  forall l, (dw_stat l = None <-> forall r, In r l -> r = 0) /\ (forall s, dw_stat l = Some s -> 0 <= s <= 4).
Proof.
  intros l. unfold dw_stat. split.
  - rewrite <- ssq_zero. unfold div. destruct (Reqb_spec (ssq l) 0); split; congruence.
  - intros s H. apply div_some in H. destruct H as [N ->].
    assert (P : 0 < ssq l) by (assert (G := ssq_nonneg l); lra). assert (I := Rinv_0_lt_compat _ P).
    assert (B : ssq (diffs l) <= 4 * ssq l).
    { destruct l as [|x l]; [cbn; unfold ssq; cbn; lra|]. assert (G := dw_bound x l).
      assert (G' := Rle_0_sqr x). unfold Rsqr in G'. lra. }
    split; [apply Rmult_le_pos; [apply ssq_nonneg|lra]|].
    apply (Rmult_le_reg_r (ssq l)); [assumption|]. unfold Rdiv. rewrite Rmult_assoc, Rinv_l by lra. lra.
Qed.
Print Assumptions C19_durbin_watson_range.
Lemma firstn_ssq_mono (l : list R) i j : (i <= j)%nat -> ssq (firstn i l) <= ssq (firstn j l).
Proof.
  revert i j. induction l as [|x l IH]; intros i j H; [rewrite !firstn_nil; lra|].
  destruct i as [|i]; [cbn; apply ssq_nonneg|]. destruct j as [|j]; [lia|]. cbn [firstn]. rewrite !ssq_cons.
  assert (G := IH i j ltac:(lia)). lra.
Qed.
Lemma break_point_mono r1 r2 n : 0 <= r1 <= r2 -> (break_point r1 n <= break_point r2 n)%nat.
Proof.
  intros H. unfold break_point. assert (P := pos_INR n).
  assert (H1 : 0 <= r1 * INR n) by (apply Rmult_le_pos; lra).
  assert (H2 : r1 * INR n <= r2 * INR n) by (apply Rmult_le_compat_r; lra).
  assert (F1 := floor_nat _ H1). assert (F2 := floor_nat (r2 * INR n) ltac:(lra)).
  apply Nat.lt_succ_r, INR_lt. rewrite S_INR. lra.
Qed.
Theorem C19_harrison_mccabe_range :
  forall bp l s, hmc_stat bp l = Some s -> 0 <= s <= 1.
Proof.
  intros bp l s H. apply div_some in H. destruct H as [N ->].
  assert (P : 0 < ssq l) by (assert (G := ssq_nonneg l); lra). assert (I := Rinv_0_lt_compat _ P).
  assert (B := firstn_ssq_mono l bp (bp + length l) ltac:(lia)). rewrite (firstn_all2 l (n := bp + length l)) in B by lia.
  split; [apply Rmult_le_pos; [apply ssq_nonneg|lra]|].
  apply (Rmult_le_reg_r (ssq l)); [assumption|]. unfold Rdiv. rewrite Rmult_assoc, Rinv_l by lra. lra.
Qed.
Print Assumptions C19_harrison_mccabe_range.
Theorem C19_harrison_mccabe_break_ratio :
  forall r1 r2 l s1 s2, 0 <= r1 <= r2 -> hmc_stat (break_point r1 (length l)) l = Some s1 ->
    hmc_stat (break_point r2 (length l)) l = Some s2 -> s1 <= s2 /\ (r2 = 1 -> s2 = 1).
Proof.
  intros r1 r2 l s1 s2 Hr H1 H2. apply div_some in H1. apply div_some in H2.
  destruct H1 as [N ->]. destruct H2 as [_ ->].
  assert (P : 0 < ssq l) by (assert (G := ssq_nonneg l); lra). assert (I := Rinv_0_lt_compat _ P).
  assert (B := firstn_ssq_mono l _ _ (break_point_mono r1 r2 (length l) Hr)). split.
  - unfold Rdiv. apply Rmult_le_compat_r; lra.
  - intros ->. assert (E : break_point 1 (length l) = length l).
    { unfold break_point. rewrite Rmult_1_l. assert (F := floor_nat (INR (length l)) (pos_INR _)).
      set (k := Z.to_nat _) in *. apply Nat.le_antisymm.
      - apply INR_le. lra.
      - apply Nat.lt_succ_r, INR_lt. rewrite S_INR. lra. }
    rewrite E, firstn_all. field. lra.
Qed.
Print Assumptions C19_harrison_mccabe_break_ratio.
Theorem C19_harrison_mccabe_pvalue :
  forall stats h1 h2, stats <> [] -> h1 <= h2 ->
    0 <= hmc_pvalue stats h1 /\ hmc_pvalue stats h1 <= hmc_pvalue stats h2 /\ hmc_pvalue stats h2 <= 1 /\
    ((forall s, In s stats -> 0 <= s <= 1) -> hmc_pvalue stats 1 = 1).
Proof.
  intros stats h1 h2 Hn Hh. assert (P := num_pos stats Hn). assert (I := Rinv_0_lt_compat _ P).
  assert (C : (countb (fun s => Rleb s h1) stats <= countb (fun s => Rleb s h2) stats)%nat).
  { apply countb_mono. intros x _ G. apply Rleb_true in G. apply Rleb_true. lra. }
  apply le_INR in C. assert (C' := le_INR _ _ (countb_le (fun s => Rleb s h2) stats)).
  unfold hmc_pvalue, Rdiv. split; [|split; [|split]].
  - apply Rmult_le_pos; [apply pos_INR|lra].
  - apply Rmult_le_compat_r; lra.
  - apply (Rmult_le_reg_r (num stats)); [assumption|]. rewrite Rmult_assoc, Rinv_l by lra. unfold num. lra.
  - intros G. rewrite (countb_all (fun s => Rleb s 1)).
    + unfold num. apply Rinv_r. unfold num in P. lra.
    + intros s Hs. apply Rleb_true. now apply G.
Qed.
Print Assumptions C19_harrison_mccabe_pvalue.
(** The whole test: the part of the simulated statistics that do not exceed the part of the sum of squares held by the residuals before the break
    point, the largest whole number of residuals not above ratio * n. *)
Theorem C19_harrison_mccabe :
  forall ratio stats resid p, 0 <= ratio -> stats <> [] -> computeHarrisonMcCabeTest ratio stats resid = Some p ->
    exists k h, INR k <= ratio * INR (length resid) < INR k + 1 /\ h * Rsum (map (fun r => r * r) resid) = Rsum (map (fun r => r * r) (firstn k resid)) /\
      Rsum (map (fun r => r * r) resid) <> 0 /\ p * INR (length stats) = INR (length (filter (fun s => Rleb s h) stats)).
Proof.
  intros ratio stats resid p Hr Hn. unfold computeHarrisonMcCabeTest. destruct (hmc_stat _ resid) as [h|] eqn:E; [|discriminate]. cbn [option_map]. intros [= <-].
  apply div_some in E. destruct E as [N ->]. exists (break_point ratio (length resid)), (ssq (firstn (break_point ratio (length resid)) resid) / ssq resid). split; [|split; [|split; [exact N|]]].
  - apply floor_nat. apply Rmult_le_pos; [exact Hr|apply pos_INR].
  - change (Rsum (map (fun r => r * r) resid)) with (ssq resid). unfold Rdiv. rewrite Rmult_assoc, Rinv_l by exact N. apply Rmult_1_r.
  - unfold hmc_pvalue, Rdiv, num. rewrite Rmult_assoc, Rinv_l; [apply Rmult_1_r|]. apply not_0_INR. destruct stats; [contradiction|discriminate].
Qed.
Print Assumptions C19_harrison_mccabe.
Example C19_harrison_mccabe_case : exists p, computeHarrisonMcCabeTest (1 / 2) [0; 1] [1; -1; 1; -1] = Some p.
Proof. unfold computeHarrisonMcCabeTest, hmc_stat, div, ssq. cbn [map]. destruct (Reqb_spec (Rsum [1 * 1; -1 * -1; 1 * 1; -1 * -1]) 0) as [E|E]; [exfalso; rewrite !Rsum_cons in E; unfold Rsum in E; cbn in E; lra|]. eexists. reflexivity. Qed.
Lemma residuals_00 xs w : length xs = length w -> residuals 0 0 (combine xs w) = w.
Proof.
  revert w. induction xs as [|x xs IH]; destruct w as [|y w]; cbn; try discriminate; [reflexivity|].
  intros H. injection H as H. unfold residuals in *. cbn. rewrite IH by assumption. unfold linear. f_equal. ring.
Qed.
Lemma map_fst_combine {A B} (xs : list A) (w : list B) : length xs = length w -> map fst (combine xs w) = xs.
Proof.
  revert w. induction xs as [|x xs IH]; destruct w as [|y w]; cbn; try discriminate; [reflexivity|].
  intros H. injection H as H. now rewrite IH.
Qed.
Lemma non_constant_combine xs w : length xs = length w -> (exists x y, In x xs /\ In y xs /\ x <> y) ->
  non_constant (combine xs w).
Proof.
  intros HL [x [y [Hx [Hy Hne]]]]. rewrite <- (map_fst_combine xs w HL) in Hx, Hy.
  apply in_map_iff in Hx. apply in_map_iff in Hy. destruct Hx as [p [<- Hp]]. destruct Hy as [q [<- Hq]].
  exists p, q. auto.
Qed.
(** Breusch-Pagan: n times the R2 of the squared residuals. *)
Theorem C19_breusch_pagan_range :
  forall xs resid, length xs = length resid -> (exists x y, In x xs /\ In y xs /\ x <> y) ->
    (bp_stat xs resid = None <-> forall r r', In r resid -> In r' resid -> r * r = r' * r') /\
    forall s, bp_stat xs resid = Some s -> 0 <= s <= INR (length xs).
Proof.
  intros xs resid HL Hc. set (w := bp_w resid).
  assert (HLw : length xs = length w) by (unfold w, bp_w; now rewrite map_length).
  assert (Hr : resid <> []).
  { destruct resid; [|discriminate]. destruct xs; [|discriminate]. destruct Hc as [x [y [[] _]]]. }
  assert (Hd := non_constant_combine xs w HLw Hc). unfold bp_stat. fold w.
  destruct (ols (combine xs w)) as [a b] eqn:EO. split.
  - unfold div. assert (Z : ssq w = 0 <-> forall r r', In r resid -> In r' resid -> r * r = r' * r').
    { rewrite ssq_zero. unfold w, bp_w. split.
      - intros G r r' H1 H2. assert (G1 := G _ (in_map (fun r => r * r - ssq resid / num resid) _ _ H1)).
        assert (G2 := G _ (in_map (fun r => r * r - ssq resid / num resid) _ _ H2)). cbn in G1, G2. lra.
      - intros G x Hx. apply in_map_iff in Hx. destruct Hx as [r [<- H1]].
        unfold ssq. rewrite (Rsum_ext _ (fun _ => r * r)) by (intros; auto). rewrite Rsum_const.
        assert (P := num_pos resid Hr). unfold num in *. field. lra. }
    rewrite <- Z. destruct (Reqb_spec (ssq w) 0); split; congruence.
  - intros s H. apply div_some in H. destruct H as [N ->].
    assert (P : 0 < ssq w) by (assert (G := ssq_nonneg w); lra). assert (I := Rinv_0_lt_compat _ P).
    assert (B : ssq (map (linear a b) xs) <= ssq w).
    { assert (D := ols_decomposition _ a b 0 0 Hd EO). rewrite residuals_00 in D by assumption.
      assert (E : ssq (map (linear a b) xs) = num (combine xs w) * (0 - a + (0 - b) * xbar (combine xs w))
                   * (0 - a + (0 - b) * xbar (combine xs w)) + (0 - b) * (0 - b) * Sxx (combine xs w)).
      { assert (NN := num_pos _ (non_constant_nil _ Hd)).
        rewrite xbar_def, (Sxx_def _ (non_constant_nil _ Hd)).
        assert (E' : ssq (map (linear a b) xs) = Rsum (map (fun p => (0 * snd p + (a + b * fst p)) * (0 * snd p + (a + b * fst p))) (combine xs w))).
        { unfold ssq. rewrite <- (map_fst_combine xs w HLw) at 1. rewrite !map_map. apply Rsum_ext. intros p _. unfold linear. ring. }
        rewrite E', quad_sum. field. lra. }
      assert (G := ssq_nonneg (residuals a b (combine xs w))). lra. }
    assert (NX : 0 <= num xs) by apply num_nonneg. split.
    + unfold Rdiv. apply Rmult_le_pos; [|lra]. apply Rmult_le_pos; [assumption|apply ssq_nonneg].
    + change (INR (length xs)) with (num xs). apply (Rmult_le_reg_r (ssq w)); [assumption|].
      unfold Rdiv. rewrite Rmult_assoc, Rinv_l by lra. rewrite Rmult_1_r. apply Rmult_le_compat_l; assumption.
Qed.
Print Assumptions C19_breusch_pagan_range.
(** The value returned: for every distribution function it is a probability, 1 when the squared residuals do not depend on the defects,
    and the larger the share of their variance explained by the defects the smaller it is. *)
Theorem C19_breusch_pagan_pvalue :
  forall pChi2, (forall t, 0 <= t -> 0 <= pChi2 t <= 1) -> pChi2 0 = 0 -> (forall t u, t <= u -> pChi2 t <= pChi2 u) ->
  forall xs resid, length xs = length resid -> (exists x y, In x xs /\ In y xs /\ x <> y) ->
    (forall v, computeBreuschPaganTest pChi2 xs resid = Some v -> 0 <= v <= 1) /\
    (computeBreuschPaganTest pChi2 xs resid = None <-> forall r r', In r resid -> In r' resid -> r * r = r' * r') /\
    (forall s, bp_stat xs resid = Some s -> exists v, computeBreuschPaganTest pChi2 xs resid = Some v /\ (s = 0 -> v = 1) /\
       forall xs' resid' s' v', bp_stat xs' resid' = Some s' -> computeBreuschPaganTest pChi2 xs' resid' = Some v' -> s <= s' -> v' <= v).
Proof.
  intros pChi2 H01 H0 Hm xs resid HL Hc. destruct (C19_breusch_pagan_range xs resid HL Hc) as [A B]. unfold computeBreuschPaganTest.
  destruct (bp_stat xs resid) as [s|]; cbn [option_map].
  - split; [|split].
    + intros v E. injection E as <-. destruct (B s eq_refl) as [B1 _]. specialize (H01 s B1). lra.
    + split; [discriminate|]. intros X. apply A in X. discriminate.
    + intros t E. injection E as <-. exists (1 - pChi2 s). split; [reflexivity|]. split; [intros ->; lra|].
      intros xs' resid' s' v' E1 E2 L. rewrite E1 in E2. injection E2 as <-. specialize (Hm s s' L). lra.
  - split; [discriminate|]. split; [|discriminate]. split; [intros _; now apply A|reflexivity].
Qed.
Print Assumptions C19_breusch_pagan_pvalue.
Example C19_example :
  (exists x y, In x [1; 2; 3] /\ In y [1; 2; 3] /\ x <> y) /\ dw_stat [1; -1] = Some 2 /\
  hmc_stat 1 [1; -1] = Some (/2) /\ hmc_pvalue [/4; /2; 1] (/2) = 2 / 3.
Proof.
  split; [exists 1, 2; cbn; split; [auto|]; split; [auto|lra]|]. split; [|split].
  - unfold dw_stat, div, ssq. cbn. case_eqb; [exfalso; lra|]. f_equal. field.
  - unfold hmc_stat, div, ssq. cbn. case_eqb; [exfalso; lra|]. f_equal. field.
  - unfold hmc_pvalue, num. rewrite !countb_cons.
    rewrite (proj2 (Rleb_true (/4) (/2))), (proj2 (Rleb_true (/2) (/2))), (proj2 (Rleb_false 1 (/2))) by lra.
    cbn. field.
Qed.

(** *** C20 *)
(** A distribution function in complementary form that is symmetric and non increasing, as that of the normal law. *)
Definition symmetric_ccdf (ccdf : R -> R) : Prop :=
  (forall t, 0 <= ccdf t <= 1) /\ (forall s t, s <= t -> ccdf t <= ccdf s) /\ (forall t, ccdf (- t) = 1 - ccdf t).
Lemma symmetric_half ccdf : symmetric_ccdf ccdf -> ccdf 0 = /2.
Proof. intros [_ [_ S]]. assert (G := S 0). rewrite Ropp_0 in G. lra. Qed.
Theorem C20_two_sided :
  forall ccdf dw dw' dmean dvar, symmetric_ccdf ccdf -> 0 < dvar ->
    0 <= dw_pvalue ccdf dw dmean dvar Equal <= 1 /\
    dw_pvalue ccdf dmean dmean dvar Equal = 1 /\
    (Rabs (dw - dmean) <= Rabs (dw' - dmean) -> dw_pvalue ccdf dw' dmean dvar Equal <= dw_pvalue ccdf dw dmean dvar Equal).
Proof.
  intros ccdf dw dw' dmean dvar HC HV. assert (H0 := symmetric_half ccdf HC). destruct HC as [R1 [M S]].
  assert (Q := sqrt_lt_R0 dvar HV). assert (I := Rinv_0_lt_compat _ Q). unfold dw_pvalue. split; [|split].
  - assert (G : ccdf (Rabs (dw - dmean) / sqrt dvar) <= ccdf 0).
    { apply M. apply Rmult_le_pos; [apply Rabs_pos|lra]. }
    assert (G' := R1 (Rabs (dw - dmean) / sqrt dvar)). lra.
  - replace (dmean - dmean) with 0 by ring. rewrite Rabs_R0. unfold Rdiv. rewrite Rmult_0_l, H0. lra.
  - intros H. assert (G : ccdf (Rabs (dw' - dmean) / sqrt dvar) <= ccdf (Rabs (dw - dmean) / sqrt dvar)).
    { apply M. apply Rmult_le_compat_r; lra. }
    lra.
Qed.
Print Assumptions C20_two_sided.
(** The upper tail P(D >= d) and lower tail P(D <= d) of the approximating law. *)
Definition upper_tail (ccdf : R -> R) (d dmean dvar : R) : R := ccdf ((d - dmean) / sqrt dvar).
Definition lower_tail (ccdf : R -> R) (d dmean dvar : R) : R := 1 - ccdf ((d - dmean) / sqrt dvar).
(** Finding: "Less" is the larger of both tails and "Greater" the smaller, whatever the side of the statistic. *)
Theorem C20_one_sided :
  forall ccdf dw dmean dvar, symmetric_ccdf ccdf -> 0 < dvar ->
    dw_pvalue ccdf dw dmean dvar Less = Rmax (upper_tail ccdf dw dmean dvar) (lower_tail ccdf dw dmean dvar) /\
    dw_pvalue ccdf dw dmean dvar Greater = Rmin (upper_tail ccdf dw dmean dvar) (lower_tail ccdf dw dmean dvar) /\
    dw_pvalue ccdf dw dmean dvar Less + dw_pvalue ccdf dw dmean dvar Greater = 1 /\
    /2 <= dw_pvalue ccdf dw dmean dvar Less /\ dw_pvalue ccdf dw dmean dvar Greater <= /2.
Proof.
  intros ccdf dw dmean dvar HC HV. assert (H0 := symmetric_half ccdf HC). destruct HC as [R1 [M S]].
  assert (Q := sqrt_lt_R0 dvar HV). assert (I := Rinv_0_lt_compat _ Q). unfold dw_pvalue, upper_tail, lower_tail.
  set (z := (dw - dmean) / sqrt dvar).
  assert (E : Rabs (dw - dmean) / sqrt dvar = Rabs z).
  { unfold z, Rdiv. rewrite Rabs_mult. f_equal. symmetry. apply Rabs_right. lra. }
  rewrite E. destruct (Rle_dec 0 z) as [L|L].
  - rewrite Rabs_right by lra. assert (G := M 0 z L). rewrite H0 in G.
    rewrite Rmax_right by lra. rewrite Rmin_left by lra. lra.
  - rewrite Rabs_left by lra. rewrite S. assert (G := M z 0 ltac:(lra)). rewrite H0 in G.
    rewrite Rmax_left by lra. rewrite Rmin_right by lra. lra.
Qed.
Print Assumptions C20_one_sided.
(** So neither of the two possible meanings of "Less" holds. *)
Theorem C20_one_sided_refuted :
  forall ccdf dmean dvar, symmetric_ccdf ccdf -> 0 < dvar -> (forall t, 0 < t -> ccdf t < /2) ->
    (forall dw, dw < dmean -> dw_pvalue ccdf dw dmean dvar Less <> lower_tail ccdf dw dmean dvar) /\
    (forall dw, dmean < dw -> dw_pvalue ccdf dw dmean dvar Less <> upper_tail ccdf dw dmean dvar).
Proof.
  intros ccdf dmean dvar HC HV Hs. 
  assert (Q := sqrt_lt_R0 dvar HV). assert (I := Rinv_0_lt_compat _ Q). split; intros dw Hd E.
  - destruct (C20_one_sided ccdf dw dmean dvar HC HV) as [_ [_ [_ [G _]]]]. rewrite E in G. unfold lower_tail in G.
    destruct HC as [_ [_ S]]. assert (N : 0 < - ((dw - dmean) / sqrt dvar)).
    { unfold Rdiv. rewrite <- Ropp_mult_distr_l_reverse. apply Rmult_lt_0_compat; lra. }
    assert (K := Hs _ N). rewrite S in K. lra.
  - destruct (C20_one_sided ccdf dw dmean dvar HC HV) as [_ [_ [_ [G _]]]]. rewrite E in G. unfold upper_tail in G.
    assert (N : 0 < (dw - dmean) / sqrt dvar) by (apply Rmult_lt_0_compat; lra).
    assert (K := Hs _ N). lra.
Qed.
Print Assumptions C20_one_sided_refuted.
(** The logistic law is one instance of the hypotheses. *)
Definition logistic_ccdf (t : R) : R := / (1 + exp t).
Lemma logistic_symmetric : symmetric_ccdf logistic_ccdf /\ (forall t, 0 < t -> logistic_ccdf t < /2).
Proof.
  unfold logistic_ccdf. split; [split; [|split]|].
  - intros t. assert (E := exp_pos t). split; [left; apply Rinv_0_lt_compat; lra|].
    rewrite <- Rinv_1. apply Rinv_le_contravar; lra.
  - intros s t H. assert (E := exp_pos s). assert (exp s <= exp t).
    { destruct (Req_dec s t) as [->|]; [lra|]. left. apply exp_increasing. lra. }
    apply Rinv_le_contravar; lra.
  - intros t. rewrite exp_Ropp. assert (E := exp_pos t). field. lra.
  - intros t H. assert (E := exp_increasing 0 t H). rewrite exp_0 in E. apply Rinv_lt_contravar; lra.
Qed.
Example C20_example : symmetric_ccdf logistic_ccdf /\ (forall t, 0 < t -> logistic_ccdf t < /2) /\ 0 < 4.
Proof. split; [apply logistic_symmetric|]. split; [apply logistic_symmetric|lra]. Qed.

(** *** C66: the zero mean test of the residuals *)
(** On least squares residuals the statistic is 0 and the test never rejects, whatever the data. *)
Theorem C66_zero_mean_test_vacuous :
  forall pStudent d a b, (exists p q, In p d /\ In q d /\ fst p <> fst q) -> ols d = (a, b) ->
    (forall nu, pStudent nu 0 = /2) ->
    computeZeroMeanTest pStudent (residuals a b d) = None \/ computeZeroMeanTest pStudent (residuals a b d) = Some 1.
Proof.
  intros pStudent d a b Hc H HS. unfold computeZeroMeanTest.
  assert (M : Rmean (residuals a b d) = 0).
  { unfold Rmean. rewrite (ols_residuals_sum d a b Hc H). unfold Rdiv. ring. }
  rewrite M. unfold div. destruct (Reqb _ 0); [now left|]. right. cbn. unfold Rdiv. rewrite Rmult_0_l, Rabs_R0, Ropp_0, HS.
  f_equal. lra.
Qed.
Print Assumptions C66_zero_mean_test_vacuous.
(** In general: p-value in [0,1], 1 when the mean is 0, and it depends on the mean through its absolute value only. *)
Theorem C66_zero_mean_test :
  forall pStudent resid p, (forall nu t, 0 <= pStudent nu t <= 1) -> (forall nu t, t <= 0 -> pStudent nu t <= /2) ->
    computeZeroMeanTest pStudent resid = Some p ->
    0 <= p <= 1 /\ computeZeroMeanTest pStudent (map Ropp resid) = Some p.
Proof.
  intros pStudent resid p HR HS H. unfold computeZeroMeanTest in H. destruct (div _ _) as [t|] eqn:E; [|discriminate].
  cbn in H. injection H as <-. apply div_some in E. destruct E as [N ->]. split.
  - set (z := - Rabs _). assert (G := HR (num resid - 1) z). 
    assert (Z : z <= 0) by (unfold z; assert (K := Rabs_pos (Rmean resid / sqrt (variance resid / num resid))); lra).
    assert (G' := HS (num resid - 1) z Z). lra.
  - assert (M : Rmean (map Ropp resid) = - Rmean resid).
    { unfold Rmean. rewrite map_length. rewrite (Rsum_ext _ (fun x => (-1) * x)) by (intros; ring).
      rewrite (Rsum_scal (-1)), map_id. unfold Rdiv. ring. }
    assert (V : variance (map Ropp resid) = variance resid).
    { unfold variance. rewrite num_map, M, map_map. f_equal. apply Rsum_ext. intros; ring. }
    unfold computeZeroMeanTest. rewrite M, V, num_map. unfold div. destruct (Reqb_spec (sqrt (variance resid / num resid)) 0); [contradiction|].
    cbn. do 3 f_equal. f_equal. unfold Rdiv. rewrite <- Ropp_mult_distr_l. apply Rabs_Ropp.
Qed.
Print Assumptions C66_zero_mean_test.
Example C66_example : let pS := fun _ t : R => 1 - logistic_ccdf t in
  (exists p q : R * R, In p [(1, 1); (2, 3)] /\ In q [(1, 1); (2, 3)] /\ fst p <> fst q) /\ (forall nu, pS nu 0 = /2) /\
  (forall nu t, 0 <= pS nu t <= 1) /\ (forall nu t, t <= 0 -> pS nu t <= /2).
Proof.
  destruct logistic_symmetric as [LS _]. assert (H0 := symmetric_half _ LS). destruct LS as [R1 [M S]].
  cbv zeta. split; [exists (1, 1), (2, 3); cbn; split; [auto|]; split; [auto|lra]|]. split; [|split].
  - intros _. lra.
  - intros _ t. assert (G := R1 t). lra.
  - intros _ t H. assert (G := M t 0 H). lra.
Qed.
