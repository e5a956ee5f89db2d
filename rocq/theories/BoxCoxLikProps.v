(** C82: the reduced likelihood of the Box-Cox transformation with a linear trend. *)
From Coq Require Import Reals Lra.
From Verif Require Import RealBase RegModel RegProofs RegProps BoxCoxModel BoxCoxProps LinObjModel LinObjProps BoxCoxLikModel.
Local Open Scope R_scope.

(** The logarithm of the density of the signals when the transformed signals are normal around a line: sum over the observations of the log of
    the normal density at the transformed signal times the derivative y^(lambda - 1) of the transformation. *)
Definition density (lam sigma b0 b1 x y : R) : R :=
  1 / (sigma * sqrt (2 * PI)) * exp (- (bc lam y - (b0 + b1 * x)) ^ 2 / (2 * sigma ^ 2)) * Rpower y (lam - 1).
Definition log_likelihood (d : data) (lam sigma b0 b1 : R) : R := Rsum (map (fun p => ln (density lam sigma b0 b1 (fst p) (snd p))) d).
(** The constant between the two, which depends on the number of observations only. *)
Definition constant (n : nat) : R := INR n / 2 * (ln (2 * PI) + 1 + ln ((INR n - 2) / INR n)).
Definition positive (d : data) : Prop := forall p, In p d -> 0 < snd p.
Definition transformed (lam : R) (d : data) : data := map (fun p => (fst p, bc lam (snd p))) d.

Lemma ln_density lam sigma b0 b1 x y : 0 < sigma ->
  ln (density lam sigma b0 b1 x y) = - ln sigma - 1 / 2 * ln (2 * PI) - (bc lam y - (b0 + b1 * x)) ^ 2 / (2 * sigma ^ 2) + (lam - 1) * ln y.
Proof.
  intros Hs. unfold density, Rpower. assert (HP := PI_RGT_0). assert (P2 : 0 < 2 * PI) by lra. assert (Q := sqrt_lt_R0 _ P2).
  assert (SP : 0 < sigma * sqrt (2 * PI)) by (now apply Rmult_lt_0_compat). assert (I := Rinv_0_lt_compat _ SP).
  rewrite ln_mult; [|apply Rmult_lt_0_compat; [unfold Rdiv; lra|apply exp_pos]|apply exp_pos]. rewrite ln_exp.
  rewrite ln_mult; [|unfold Rdiv; lra|apply exp_pos]. rewrite ln_exp. unfold Rdiv at 1. rewrite Rmult_1_l, ln_Rinv, ln_mult by assumption.
  assert (LS : ln (sqrt (2 * PI)) = 1 / 2 * ln (2 * PI)).
  { assert (E : ln (2 * PI) = ln (sqrt (2 * PI)) + ln (sqrt (2 * PI))) by (rewrite <- ln_mult, sqrt_sqrt by lra; reflexivity). lra. }
  rewrite LS. field. lra.
Qed.
Lemma ll_value d lam sigma b0 b1 : 0 < sigma -> d <> [] ->
  log_likelihood d lam sigma b0 b1 = - num d * ln sigma - num d / 2 * ln (2 * PI) - ssq (residuals b0 b1 (transformed lam d)) / (2 * sigma ^ 2) + (lam - 1) * sumLogY (map snd d).
Proof.
  intros Hs Hd. assert (P := num_pos d Hd). unfold log_likelihood, sumLogY, Rmean. rewrite !map_length. rewrite num_map. change (INR (length d)) with (num d).
  replace (Rsum (map ln (map snd d)) / num d * num d) with (Rsum (map ln (map snd d))) by (field; lra). rewrite map_map.
  unfold ssq, residuals, transformed. rewrite !map_map.
  rewrite (Rsum_ext _ (fun p => (- ln sigma - 1 / 2 * ln (2 * PI)) + (- / (2 * sigma ^ 2) * ((bc lam (snd p) - linear b0 b1 (fst p)) * (bc lam (snd p) - linear b0 b1 (fst p))) + (lam - 1) * ln (snd p)))).
  - rewrite (Rsum_plus (fun _ => _)), Rsum_const, Rsum_plus, !Rsum_scal. cbn [fst snd]. change (INR (length d)) with (num d). field. lra.
  - intros p _. rewrite ln_density by assumption. unfold linear. field. lra.
Qed.
Lemma transform_ok lam d : positive d -> map_res (boxcox lam) (map snd d) = Ok (map (fun p => bc lam (snd p)) d).
Proof.
  intros H. rewrite (map_res_ok _ (bc lam)); [now rewrite map_map|]. intros y Hy. apply in_map_iff in Hy. destruct Hy as (p & <- & Hp). apply boxcox_ok. auto.
Qed.
Lemma transformed_nc lam d : non_constant d -> non_constant (transformed lam d).
Proof.
  intros (p & q & Hp & Hq & Hne). exists (fst p, bc lam (snd p)), (fst q, bc lam (snd q)).
  split; [now apply (in_map (fun p => (fst p, bc lam (snd p))))|]. split; [now apply (in_map (fun p => (fst p, bc lam (snd p))))|exact Hne].
Qed.
(** The variance of the code is the residual sum of squares over N - 2. *)
Lemma sigma2_value d a b : non_constant d -> (3 <= length d)%nat -> ols d = (a, b) -> sigma2 d = ssq (residuals a b d) / (num d - 2).
Proof.
  intros Hn L E. unfold sigma2. rewrite E. unfold variance. assert (Hr : residuals a b d <> []) by (unfold residuals; destruct d; [cbn in L; lia|discriminate]).
  rewrite css_def, (ols_residuals_sum d a b Hn E) by assumption. unfold residuals at 2 3. rewrite !num_map. apply le_INR in L. change (INR 3) with (1 + 1 + 1) in L.
  change (INR (length d)) with (num d) in L. field. lra.
Qed.
Lemma reduced_value d lam a b : positive d -> non_constant d -> (3 <= length d)%nat -> ols (transformed lam d) = (a, b) ->
  reducedLL d lam = let S := ssq (residuals a b (transformed lam d)) in
    if Rleb S 0 then Raise ValueError else Ok (- (1 / 2) * num d * ln (S / (num d - 2)) + (lam - 1) * sumLogY (map snd d)).
Proof.
  intros Hp Hn L E. unfold reducedLL. rewrite transform_ok by assumption. cbn [bind]. rewrite combine_map. fold (transformed lam d).
  destruct (Nat.eqb_spec (length d) 2); [lia|]. assert (N : num (transformed lam d) = num d) by apply num_map.
  rewrite (sigma2_value _ a b (transformed_nc lam d Hn) ltac:(unfold transformed; now rewrite map_length) E), N. cbn zeta.
  assert (K : 0 < num d - 2) by (apply le_INR in L; change (INR 3) with (1 + 1 + 1) in L; unfold num; lra). assert (I := Rinv_0_lt_compat _ K).
  destruct (Rleb_spec (ssq (residuals a b (transformed lam d))) 0) as [Z|Z]; destruct (Rleb_spec (ssq (residuals a b (transformed lam d)) / (num d - 2)) 0) as [Y|Y]; try reflexivity; exfalso; unfold Rdiv in Y; nra.
Qed.
(** ln u <= u - 1. *)
Lemma ln_le_minus u : 0 < u -> ln u <= u - 1.
Proof. intros H. generalize (exp_ineq1_le (ln u)). rewrite exp_ln by assumption. lra. Qed.
(** The value of the code is the maximum of the likelihood over the line and the deviation, up to the constant. *)
Theorem C82_profile d lam v :
  positive d -> non_constant d -> (3 <= length d)%nat -> reducedLL d lam = Ok v ->
  (forall sigma b0 b1, 0 < sigma -> log_likelihood d lam sigma b0 b1 + constant (length d) <= v) /\
  (exists sigma b0 b1, 0 < sigma /\ log_likelihood d lam sigma b0 b1 + constant (length d) = v).
Proof.
  intros Hp Hn L. destruct (ols (transformed lam d)) as [a b] eqn:E. rewrite (reduced_value d lam a b Hp Hn L E). cbn zeta.
  set (S := ssq (residuals a b (transformed lam d))). destruct (Rleb_spec S 0) as [Z|Z]; [discriminate|]. intros [= <-].
  assert (Hd := non_constant_nil d Hn). assert (N3 := le_INR _ _ L). change (INR 3) with (1 + 1 + 1) in N3. change (INR (length d)) with (num d) in N3.
  assert (SP : 0 < S) by lra. assert (P1 : 0 < num d) by lra. assert (P2 : 0 < num d - 2) by lra.
  assert (G : forall sigma, 0 < sigma -> - num d * ln sigma - S / (2 * sigma ^ 2) = - (1 / 2) * num d * (ln (S / num d) + 1) + num d / 2 * (ln (S / num d / sigma ^ 2) - (S / num d / sigma ^ 2 - 1))).
  { intros sigma Hs. assert (S2 : 0 < sigma ^ 2) by (apply pow_lt; lra). unfold Rdiv at 5. rewrite ln_mult; [|apply Rdiv_lt_0_compat; lra|now apply Rinv_0_lt_compat].
    rewrite ln_Rinv by assumption. replace (ln (sigma ^ 2)) with (2 * ln sigma) by (cbn [pow]; rewrite Rmult_1_r, ln_mult by lra; ring). field. lra. }
  assert (C : constant (length d) = num d / 2 * (ln (2 * PI) + 1 + (ln (num d - 2) - ln (num d)))).
  { unfold constant. change (INR (length d)) with (num d). replace (ln ((num d - 2) / num d)) with (ln (num d - 2) - ln (num d)); [reflexivity|].
    unfold Rdiv. rewrite ln_mult, ln_Rinv by (try assumption; now apply Rinv_0_lt_compat). reflexivity. }
  assert (V : ln (S / (num d - 2)) = ln S - ln (num d - 2)) by (unfold Rdiv; rewrite ln_mult, ln_Rinv by (try assumption; now apply Rinv_0_lt_compat); reflexivity).
  assert (W : ln (S / num d) = ln S - ln (num d)) by (unfold Rdiv; rewrite ln_mult, ln_Rinv by (try assumption; now apply Rinv_0_lt_compat); reflexivity).
  split.
  - intros sigma b0 b1 Hs. rewrite ll_value by assumption. specialize (G sigma Hs). assert (S2 : 0 < sigma ^ 2) by (apply pow_lt; lra).
    assert (M : S <= ssq (residuals b0 b1 (transformed lam d))).
    { destruct (C11_least_squares_minimum _ a b (transformed_nc lam d Hn) E b0 b1) as [M _].
      assert (Q : forall u w, Rsum (map (fun p => (snd p - (u + w * fst p)) ^ 2) (transformed lam d)) = ssq (residuals u w (transformed lam d))).
      { intros u w. unfold ssq, residuals. rewrite map_map. apply Rsum_ext. intros p _. unfold linear. ring. }
      rewrite !Q in M. exact M. }
    assert (M' : S / (2 * sigma ^ 2) <= ssq (residuals b0 b1 (transformed lam d)) / (2 * sigma ^ 2)).
    { unfold Rdiv. apply Rmult_le_compat_r; [|exact M]. left. apply Rinv_0_lt_compat. lra. }
    assert (K : ln (S / num d / sigma ^ 2) <= S / num d / sigma ^ 2 - 1) by (apply ln_le_minus; apply Rdiv_lt_0_compat; [apply Rdiv_lt_0_compat; lra|lra]).
    rewrite V, C. rewrite W in G. assert (0 <= num d / 2 * (S / num d / sigma ^ 2 - 1 - ln (S / num d / sigma ^ 2))) by (apply Rmult_le_pos; lra). nra.
  - exists (sqrt (S / num d)), a, b. assert (Q : 0 < S / num d) by (apply Rdiv_lt_0_compat; lra). assert (Hs := sqrt_lt_R0 _ Q). split; [exact Hs|].
    rewrite ll_value by assumption. fold S. specialize (G _ Hs). assert (E2 : sqrt (S / num d) ^ 2 = S / num d) by (cbn [pow]; rewrite Rmult_1_r; apply sqrt_sqrt; lra).
    rewrite E2 in *. replace (S / num d / (S / num d)) with 1 in G by (field; lra). rewrite ln_1 in G. rewrite V, C. rewrite W in G. lra.
Qed.
(** Consequence: of two parameters, the one with the larger value has the larger maximum of the likelihood. *)
Theorem C82_choice d lam1 lam2 v1 v2 :
  positive d -> non_constant d -> (3 <= length d)%nat -> reducedLL d lam1 = Ok v1 -> reducedLL d lam2 = Ok v2 ->
  (v1 <= v2 <-> forall s b0 b1, 0 < s -> exists s' b0' b1', 0 < s' /\ log_likelihood d lam1 s b0 b1 <= log_likelihood d lam2 s' b0' b1').
Proof.
  intros Hp Hn L E1 E2. destruct (C82_profile d lam1 v1 Hp Hn L E1) as [A1 (s1 & a1 & b1 & P1 & B1)]. destruct (C82_profile d lam2 v2 Hp Hn L E2) as [A2 (s2 & a2 & b2 & P2 & B2)]. split.
  - intros H s u w Hs. exists s2, a2, b2. split; [exact P2|]. specialize (A1 s u w Hs). lra.
  - intros H. destruct (H s1 a1 b1 P1) as (s & u & w & Hs & K). specialize (A2 s u w Hs). lra.
Qed.
(** Units: multiplying the signals by c and changing the unit and origin of the sizes changes every value by the same amount. *)
Lemma bc_scale lam c y : 0 < c -> 0 < y -> bc lam (c * y) = Rpower c lam * bc lam y + bc lam c.
Proof.
  intros Hc Hy. unfold bc. destruct (Reqb_spec lam 0) as [->|Z].
  - rewrite Rpower_O, ln_mult by assumption. ring.
  - rewrite <- Rpower_mult_distr by assumption. field. exact Z.
Qed.
Theorem C82_units d lam v c cx kx :
  positive d -> non_constant d -> (3 <= length d)%nat -> 0 < c -> cx <> 0 -> reducedLL d lam = Ok v ->
  reducedLL (affine cx kx c 0 d) lam = Ok (v - num d * ln c).
Proof.
  intros Hp Hn L Hc Hx. destruct (ols (transformed lam d)) as [a b] eqn:E. rewrite (reduced_value d lam a b Hp Hn L E). cbn zeta.
  set (S := ssq (residuals a b (transformed lam d))). destruct (Rleb_spec S 0) as [Z|Z]; [discriminate|]. intros [= <-].
  assert (Hd := non_constant_nil d Hn). assert (N3 := le_INR _ _ L). change (INR 3) with (1 + 1 + 1) in N3. change (INR (length d)) with (num d) in N3.
  set (e := Rpower c lam). assert (He : 0 < e) by apply exp_pos.
  assert (T : transformed lam (affine cx kx c 0 d) = affine cx kx e (bc lam c) (transformed lam d)).
  { unfold transformed, affine. rewrite !map_map. apply map_ext_in. intros p Hp'. cbn [fst snd]. rewrite Rplus_0_r, bc_scale by auto. reflexivity. }
  assert (Hp2 : positive (affine cx kx c 0 d)).
  { intros q Hq. unfold affine in Hq. apply in_map_iff in Hq. destruct Hq as (p & <- & Hq). cbn [snd]. rewrite Rplus_0_r. apply Rmult_lt_0_compat; auto. }
  assert (Hn2 : non_constant (affine cx kx c 0 d)).
  { destruct Hn as (p & q & H1 & H2 & Hne). exists (cx * fst p + kx, c * snd p + 0), (cx * fst q + kx, c * snd q + 0).
    split; [now apply (in_map (fun p => (cx * fst p + kx, c * snd p + 0)))|]. split; [now apply (in_map (fun p => (cx * fst p + kx, c * snd p + 0)))|]. cbn.
    intros F. apply Hne. apply (Rmult_eq_reg_l cx); [lra|exact Hx]. }
  assert (L2 : (3 <= length (affine cx kx c 0 d))%nat) by (unfold affine; now rewrite map_length).
  assert (E2 := ols_affine cx kx e (bc lam c) _ a b Hx (transformed_nc lam d Hn) E). rewrite <- T in E2.
  rewrite (reduced_value _ lam _ _ Hp2 Hn2 L2 E2). cbn zeta. rewrite T, residuals_affine, ssq_scale by assumption. fold S.
  assert (SP : 0 < S) by lra. destruct (Rleb_spec (e * e * S) 0) as [Y|Y]; [exfalso; assert (0 < e * e * S) by (repeat apply Rmult_lt_0_compat; assumption); lra|].
  f_equal. assert (Nn : num (affine cx kx c 0 d) = num d) by apply num_map. rewrite Nn.
  assert (I : 0 < / (num d - 2)) by (apply Rinv_0_lt_compat; lra).
  assert (V : ln (e * e * S / (num d - 2)) = 2 * ln e + ln (S / (num d - 2))).
  { unfold Rdiv. rewrite !Rmult_assoc. rewrite (ln_mult e (e * (S * / (num d - 2)))), (ln_mult e (S * / (num d - 2))); [ring|..]; repeat apply Rmult_lt_0_compat; assumption. }
  assert (LE : ln e = lam * ln c) by (unfold e, Rpower; apply ln_exp).
  assert (SL : sumLogY (map snd (affine cx kx c 0 d)) = sumLogY (map snd d) + num d * ln c).
  { unfold sumLogY, Rmean. rewrite !num_map, !map_length, Nn. assert (LL : length (affine cx kx c 0 d) = length d) by (unfold affine; apply map_length). rewrite LL.
    change (INR (length d)) with (num d). unfold affine. rewrite !map_map. cbn [snd].
    rewrite (Rsum_ext _ (fun p => ln (snd p) + ln c)) by (intros p Hp'; rewrite Rplus_0_r, ln_mult by auto; ring).
    rewrite (Rsum_plus (fun p : R * R => ln (snd p)) (fun _ => ln c)), Rsum_const. change (INR (length d)) with (num d). field. lra. }
  rewrite V, LE, SL. field.
Qed.
(** When it fails: a signal that is not positive, two observations, or transformed signals exactly on a line. *)
Theorem C82_fails d lam :
  non_constant d -> (2 <= length d)%nat ->
  ((exists e, reducedLL d lam = Raise e) <->
   (exists p, In p d /\ snd p <= 0) \/ length d = 2%nat \/ (exists a b, forall p, In p d -> bc lam (snd p) = a + b * fst p)).
Proof.
  intros Hn L. assert (D : positive d \/ exists p, In p d /\ snd p <= 0).
  { clear. induction d as [|p d IH]; [left; intros ? []|]. destruct (Rlt_dec 0 (snd p)) as [P|P]; [|right; exists p; split; [now left|lra]].
    destruct IH as [IH|(q & Hq & Hs)]; [left; intros q [<-|Hq]; auto|right; exists q; split; [now right|exact Hs]]. }
  destruct D as [Hp|(p & Hp & Hs)].
  - destruct (Nat.eq_dec (length d) 2) as [E2|E2].
    + split; [auto|]. intros _. exists ZeroDivisionError. unfold reducedLL. rewrite transform_ok by assumption. cbn [bind]. now rewrite E2.
    + assert (L3 : (3 <= length d)%nat) by lia. destruct (ols (transformed lam d)) as [a b] eqn:E. rewrite (reduced_value d lam a b Hp Hn L3 E). cbn zeta.
      set (S := ssq (residuals a b (transformed lam d))). destruct (Rleb_spec S 0) as [Z|Z].
      * split; [|intros _; eexists; reflexivity]. intros _. right. right. exists a, b. assert (S0 : S = 0) by (assert (G := ssq_nonneg (residuals a b (transformed lam d))); fold S in G; lra).
        unfold S in S0. rewrite ssq_zero in S0. intros q Hq. specialize (S0 (bc lam (snd q) - linear a b (fst q))). unfold linear in S0.
        assert (I : In (bc lam (snd q) - (a + b * fst q)) (residuals a b (transformed lam d))).
        { unfold residuals, transformed. rewrite map_map. apply in_map_iff. exists q. split; [reflexivity|exact Hq]. }
        specialize (S0 I). lra.
      * split; [intros (e & He); discriminate|]. intros [(q & Hq & Hs)|[F|(a' & b' & F)]]; [specialize (Hp q Hq); lra|contradiction|]. exfalso.
        destruct (C11_least_squares_minimum _ a b (transformed_nc lam d Hn) E a' b') as [M _].
        assert (Q : forall u w, Rsum (map (fun p => (snd p - (u + w * fst p)) ^ 2) (transformed lam d)) = ssq (residuals u w (transformed lam d))).
        { intros u w. unfold ssq, residuals. rewrite map_map. apply Rsum_ext. intros p _. unfold linear. ring. }
        rewrite !Q in M. fold S in M. assert (Z0 : ssq (residuals a' b' (transformed lam d)) = 0).
        { apply ssq_zero. intros r Hr. unfold residuals, transformed in Hr. rewrite map_map in Hr. apply in_map_iff in Hr. destruct Hr as (q & <- & Hq). unfold linear. cbn [fst snd]. rewrite (F q Hq). ring. }
        lra.
  - split; [intros _; left; eauto|]. intros _. unfold reducedLL. assert (G : is_ok (map_res (boxcox lam) (map snd d)) = false).
    { apply map_res_raise. exists (snd p). split; [now apply in_map|]. now rewrite boxcox_raise. }
    destruct (map_res _ _) as [?|e]; [discriminate|]. exists e. reflexivity.
Qed.

(** *** The starting point *)
Lemma argmax_from_spec : forall l best at_ i pre, nth at_ pre 0 = best -> (at_ < length pre)%nat -> length pre = i -> (forall j, (j < i)%nat -> nth j pre 0 <= best) ->
  let k := argmax_from best at_ i l in (k < length (pre ++ l))%nat /\ forall j, (j < length (pre ++ l))%nat -> nth j (pre ++ l) 0 <= nth k (pre ++ l) 0.
Proof.
  induction l as [|v l IH]; intros best at_ i pre Hb Ha Hl Hm; cbn zeta; cbn [argmax_from].
  - rewrite app_nil_r. split; [exact Ha|]. intros j Hj. rewrite Hb. apply Hm. lia.
  - assert (A : pre ++ v :: l = (pre ++ [v]) ++ l) by (now rewrite <- app_assoc). rewrite A. destruct (Rltb_spec best v) as [H|H].
    + apply IH; [rewrite <- Hl; apply nth_middle|rewrite app_length; cbn; lia|rewrite app_length; cbn; lia|]. intros j Hj.
      destruct (Nat.eq_dec j i) as [->|Ne]; [rewrite <- Hl, nth_middle; lra|]. rewrite app_nth1 by lia. specialize (Hm j ltac:(lia)). lra.
    + apply IH; [now rewrite app_nth1 by lia|rewrite app_length; cbn; lia|rewrite app_length; cbn; lia|]. intros j Hj.
      destruct (Nat.eq_dec j i) as [->|Ne]; [rewrite <- Hl, nth_middle; lra|]. rewrite app_nth1 by lia. apply Hm. lia.
Qed.
Lemma argmax_spec l k : argmax l = Ok k -> (k < length l)%nat /\ forall j, (j < length l)%nat -> nth j l 0 <= nth k l 0.
Proof.
  destruct l as [|v l]; [discriminate|]. intros [= <-]. apply (argmax_from_spec l v 0 1 [v]); cbn; auto. intros j Hj. replace j with 0%nat by lia. lra.
Qed.
(** The optimiser starts inside the bounds, at a point of the grid where the likelihood is the largest of the grid. *)
Theorem C82_start d lo hi n s :
  lo <= hi -> (2 <= n)%nat -> starting_point d lo hi n = Ok s ->
  lo <= s <= hi /\ In s (grid lo hi n) /\ In lo (grid lo hi n) /\ In hi (grid lo hi n) /\
  exists v, reducedLL d s = Ok v /\ forall g, In g (grid lo hi n) -> exists u, reducedLL d g = Ok u /\ u <= v.
Proof.
  intros Hb Hn. unfold starting_point. destruct (map_res (reducedLL d) (grid lo hi n)) as [vs|] eqn:E; [|discriminate]. cbn [bind].
  destruct (argmax vs) as [k|] eqn:Ek; [|discriminate]. cbn [bind]. intros [= <-]. apply map_res_inv in E. destruct (argmax_spec _ _ Ek) as [K1 K2].
  assert (Ln : length (grid lo hi n) = n) by (unfold grid; now rewrite map_length, seq_length).
  assert (F : forall j, (j < n)%nat -> reducedLL d (nth j (grid lo hi n) 0) = Ok (nth j vs 0) /\ (j < length vs)%nat).
  { intros j Hj. rewrite <- Ln in Hj at 1. revert j Hj. clear -E. generalize dependent (grid lo hi n). intros g E. induction E as [|x y l ys H _ IH]; [cbn; intros; lia|]. intros [|j] Hj; [cbn; split; [exact H|lia]|]. cbn in *. destruct (IH j ltac:(lia)). split; [assumption|lia]. }
  assert (Lv : length vs = n) by (rewrite <- Ln at 1; clear -E; generalize dependent (grid lo hi n); intros g E; induction E; cbn; auto).
  assert (V : forall j, (j < n)%nat -> nth j (grid lo hi n) 0 = lo + INR j * ((hi - lo) / INR (n - 1))).
  { intros j Hj. unfold grid. rewrite (nth_indep _ 0 (lo + INR 0 * ((hi - lo) / INR (n - 1)))) by (now rewrite map_length, seq_length).
    rewrite (map_nth (fun i => lo + INR i * ((hi - lo) / INR (n - 1)))). now rewrite seq_nth. }
  assert (P : 0 < INR (n - 1)) by (apply lt_0_INR; lia). assert (Q : 0 <= (hi - lo) / INR (n - 1)) by (apply Rmult_le_pos; [lra|left; now apply Rinv_0_lt_compat]).
  assert (Kn : (k < n)%nat) by lia. split; [|split; [|split; [|split]]].
  - rewrite V by exact Kn. assert (B : 0 <= INR k <= INR (n - 1)) by (split; [apply pos_INR|apply le_INR; lia]).
    assert (T : INR (n - 1) * ((hi - lo) / INR (n - 1)) = hi - lo) by (field; lra). nra.
  - apply nth_In. lia.
  - replace lo with (nth 0 (grid lo hi n) 0) at 1; [apply nth_In; lia|]. rewrite V by lia. cbn. ring.
  - replace hi with (nth (n - 1) (grid lo hi n) 0) at 1; [apply nth_In; lia|]. rewrite V by lia. field. lra.
  - exists (nth k vs 0). split; [apply F; exact Kn|]. intros g Hg. destruct (In_nth _ _ 0 Hg) as (j & Hj & <-). rewrite Ln in Hj. exists (nth j vs 0). split; [apply F; exact Hj|]. apply K2. lia.
Qed.

(** *** The versions of the library *)
(** The library asked to build a transformation from signals: what its factory offers is one of three interfaces. *)
Definition offers {T G} (l : library T G) (r : list R -> R -> res (T * option G)) : Prop :=
  match l with
  | WithGraph f => forall ys s, r ys s = match f ys s with Ok (t, g) => Ok (t, Some g) | Raise e => Raise e end
  | PairBuild f => forall ys s, r ys s = match f ys s with Ok (t, g) => Ok (t, Some g) | Raise e => Raise e end
  | PlainBuild f => forall ys s, r ys s = match f ys s with Ok t => Ok (t, None) | Raise e => Raise e end
  end.
(** Whatever the version, the parameter is that of the transformation built from the signals and the shift; the graph is empty for the version
    that gives none; the sizes of the defects have no influence. *)
Theorem C82_versions {T G} (lam : T -> R) (empty : G) l r :
  offers l r ->
  forall xs ys s, computeBoxCox lam empty l xs ys s =
    match r ys s with Ok (t, Some g) => Ok (lam t, g) | Ok (t, None) => Ok (lam t, empty) | Raise e => Raise e end.
Proof.
  intros H xs ys s. unfold computeBoxCox. destruct l as [f|f|f]; cbn in H; rewrite H.
  - destruct (f ys s) as [[t g]|e]; reflexivity.
  - destruct (f ys s) as [[t g]|e] eqn:E; [reflexivity|]. destruct e; reflexivity.
  - destruct (f ys s) as [t|e]; [reflexivity|]. destruct e; reflexivity.
Qed.

Example C82_case :
  let d := [(0, 1); (1, 2); (2, 1)] in
  positive d /\ non_constant d /\ (3 <= length d)%nat /\ (exists v, reducedLL d 1 = Ok v) /\ (exists v, reducedLL d 0 = Ok v) /\ (exists s, starting_point d 0 1 2 = Ok s).
Proof.
  cbn zeta. set (d := [(0, 1); (1, 2); (2, 1)]).
  assert (Hp : positive d) by (intros p [<-|[<-|[<-|[]]]]; cbn; lra).
  assert (Hn : non_constant d) by (exists (0, 1), (1, 2); cbn; repeat split; auto; lra).
  assert (K : forall lam, bc lam 1 < bc lam 2 -> exists v, reducedLL d lam = Ok v).
  { intros lam Hl. destruct (reducedLL d lam) as [v|e] eqn:E; [now exists v|]. exfalso.
    destruct (proj1 (C82_fails d lam Hn ltac:(cbn; lia)) (ex_intro _ e E)) as [(p & Hp' & Hs)|[F|(a & b & F)]]; [specialize (Hp p Hp'); lra|discriminate|].
    assert (F1 := F (0, 1) ltac:(cbn; auto)). assert (F2 := F (1, 2) ltac:(cbn; auto)). assert (F3 := F (2, 1) ltac:(cbn; auto)). cbn in F1, F2, F3. lra. }
  assert (K' : forall lam, exists v, reducedLL d lam = Ok v) by (intros lam; apply K; apply bc_lt_iff; lra).
  split; [exact Hp|]. split; [exact Hn|]. split; [cbn; lia|]. split; [apply K'|]. split; [apply K'|]. unfold starting_point, grid. cbn [seq map map_res].
  destruct (K' (0 + INR 0 * ((1 - 0) / INR (2 - 1)))) as [v0 ->]. destruct (K' (0 + INR 1 * ((1 - 0) / INR (2 - 1)))) as [v1 ->]. cbn [bind argmax]. eexists. reflexivity.
Qed.
(** The failures: one signal at zero; three transformed signals on a line. *)
Example C82_failures : (exists e, reducedLL [(0, 0); (1, 2); (2, 1)] 1 = Raise e) /\ exists e, reducedLL [(0, 1); (1, 2); (2, 3)] 1 = Raise e.
Proof.
  split; apply C82_fails; try (cbn; lia).
  - exists (0, 0), (1, 2). cbn. repeat split; auto; lra.
  - left. exists (0, 0). cbn. split; [auto|lra].
  - exists (0, 1), (1, 2). cbn. repeat split; auto; lra.
  - right. right. exists 0, 1. assert (B : forall y, 0 < y -> bc 1 y = y - 1) by (intros y Hy; unfold bc; destruct (Reqb_spec 1 0); [lra|]; rewrite Rpower_1 by assumption; field).
    intros p [<-|[<-|[<-|[]]]]; cbn [fst snd]; rewrite B by lra; lra.
Qed.
Print Assumptions C82_profile.
Print Assumptions C82_choice.
Print Assumptions C82_units.
Print Assumptions C82_fails.
Print Assumptions C82_start.
Print Assumptions C82_versions.
