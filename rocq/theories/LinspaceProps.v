(** C60: the default defect sizes. *)
From Coq Require Import SpecFloat Reals Lra.
From Flocq Require Import Core Relative Plus_error BinarySingleNaN.
From Verif Require Import Base Float64 FloatBridge SettersModel SettersProofs LinspaceModel.
Local Open Scope R_scope.

Local Instance prec53 : Prec_gt_0 53 := eq_refl.
(** Half the relative spacing of doubles. *)
Definition U : R := bpow radix2 (-53).
Lemma U_pos : 0 < U. Proof. apply bpow_gt_0. Qed.
Lemma U_val : U = / 9007199254740992.
Proof. unfold U. cbn. lra. Qed.
Lemma U_small : U <= / 1024. Proof. rewrite U_val. lra. Qed.

Lemma rnd_rel x : bpow radix2 (-1022) <= Rabs x -> exists e, Rabs e <= U /\ rnd x = x * (1 + e).
Proof.
  intros H. destruct (relative_error_N_FLT_ex radix2 (-1074) 53 eq_refl (fun z => negb (Z.even z)) x H) as (e & He & E).
  exists e. split; [|exact E]. apply (Rle_trans _ _ _ He). unfold U. change (-53 + 1)%Z with (-52)%Z. cbn. lra.
Qed.
Lemma fin_format f : fin f -> generic_format radix2 (FLT_exp (-1074) 53) (fR f).
Proof. intros H. destruct (fin_B f H) as [b [-> [_ _]]]. rewrite fR_B. exact (generic_format_B2R 53 1024 b). Qed.
Lemma rnd_plus_rel x y : generic_format radix2 (FLT_exp (-1074) 53) x -> generic_format radix2 (FLT_exp (-1074) 53) y ->
  exists e, Rabs e <= U /\ rnd (x + y) = (x + y) * (1 + e).
Proof.
  intros Hx Hy. destruct (FLT_plus_error_N_ex radix2 (-1074) 53 (fun z => negb (Z.even z)) x y Hx Hy) as (e & He & E).
  exists e. split; [|exact E]. apply (Rle_trans _ _ _ He). assert (Hu : u_ro radix2 53 = U) by (unfold u_ro, U; cbn; lra). rewrite Hu.
  assert (P := U_pos). apply Rmult_le_reg_r with (1 + U); [lra|]. unfold Rdiv. rewrite Rmult_assoc, Rinv_l by lra. nra.
Qed.
Lemma rnd_format x : generic_format radix2 (FLT_exp (-1074) 53) (rnd x).
Proof. apply generic_format_round; [exact fexp_valid|apply valid_rnd_round_mode]. Qed.
Lemma rnd_0 : rnd 0 = 0. Proof. apply round_0. apply valid_rnd_round_mode. Qed.
Lemma rnd_bpow e : (-1074 <= e)%Z -> rnd (bpow radix2 e) = bpow radix2 e.
Proof.
  intros H. apply round_generic; [apply valid_rnd_round_mode|]. apply generic_format_bpow.
  change (SpecFloat.fexp 53 1024 (e + 1)) with (Z.max (e + 1 - 53) (-1074)). lia.
Qed.
Lemma chain a e x : Rabs (a - 1) <= x -> Rabs e <= U -> Rabs (a * (1 + e) - 1) <= x + U * (1 + x).
Proof.
  intros Ha He. replace (a * (1 + e) - 1) with ((a - 1) + e * (1 + (a - 1))) by ring.
  apply (Rle_trans _ _ _ (Rabs_triang _ _)). apply Rplus_le_compat; [exact Ha|]. rewrite Rabs_mult.
  apply Rmult_le_compat; [apply Rabs_pos|apply Rabs_pos|exact He|]. apply (Rle_trans _ _ _ (Rabs_triang _ _)). rewrite Rabs_R1. lra.
Qed.
Lemma chain3 e0 e1 e2 : Rabs e0 <= U -> Rabs e1 <= U -> Rabs e2 <= U -> Rabs ((1 + e0) * (1 + e1) - 1) <= 4 * U /\ Rabs ((1 + e0) * (1 + e1) * (1 + e2) - 1) <= 4 * U.
Proof.
  intros H0 H1 H2. assert (P := U_pos). assert (Q := U_small).
  assert (A : Rabs ((1 + e0) - 1) <= U) by (now replace (1 + e0 - 1) with e0 by ring).
  assert (B := chain _ _ _ A H1). assert (D := chain _ _ _ B H2). split; [apply (Rle_trans _ _ _ B)|apply (Rle_trans _ _ _ D)]; nra.
Qed.

Section Points.
Variables start stop : float.
Variable n : nat.
Hypothesis Hs : fin start.
Hypothesis Ht : fin stop.
Hypothesis Hn : (2 <= n)%nat.
Hypothesis Hn2 : (Z.of_nat n <= 2 ^ 50)%Z.
Let lo := fR start.
Let hi := fR stop.
Let d := IZR (Z.of_nat (n - 1)).
Hypothesis Hlo : Rabs lo <= bpow radix2 1021.
Hypothesis Hhi : Rabs hi <= bpow radix2 1021.

Lemma d_bounds : 1 <= d <= bpow radix2 50.
Proof.
  unfold d. split; [apply IZR_le; lia|]. change (bpow radix2 50) with (IZR (2 ^ 50)). apply IZR_le. lia.
Qed.
Lemma range_bound : Rabs (hi - lo) <= bpow radix2 1022.
Proof.
  replace (bpow radix2 1022) with (bpow radix2 1021 + bpow radix2 1021) by (change 1022%Z with (1021 + 1)%Z; rewrite bpow_plus; cbn [bpow radix_val Z.pow_pos Pos.iter radix2]; cbn; lra).
  unfold Rminus. apply (Rle_trans _ _ _ (Rabs_triang _ _)). rewrite Rabs_Ropp. now apply Rplus_le_compat.
Qed.
Lemma small_big e : (e <= 1023)%Z -> bpow radix2 e <= bpow radix2 1023. Proof. apply bpow_le. Qed.
Lemma int_fin i : (i < n)%nat -> fin (of_int (Z.of_nat i)) /\ fR (of_int (Z.of_nat i)) = IZR (Z.of_nat i).
Proof. intros Hi. apply of_int_R. lia. Qed.
Lemma delta_spec : fin (fsub stop start) /\ fR (fsub stop start) = rnd (hi - lo).
Proof. apply fsub_R; auto. apply (Rle_trans _ _ _ range_bound). apply small_big. lia. Qed.

(** Equal bounds. *)
Lemma point_flat i : lo = hi -> (i < n - 1)%nat -> fin (linspace_point start stop n i) /\ fR (linspace_point start stop n i) = lo.
Proof.
  intros E Hi. destruct delta_spec as [F1 E1]. rewrite E, Rminus_eq_0, rnd_0 in E1.
  destruct (int_fin (n - 1) ltac:(lia)) as [F2 E2]. fold d in E2. assert (D := d_bounds).
  assert (P := bpow_gt_0 radix2 1023).
  destruct (fdiv_R _ _ F1 F2) as [F3 E3]; [rewrite E2; lra|rewrite E1; unfold Rdiv; rewrite Rmult_0_l, Rabs_R0; lra|].
  rewrite E1 in E3. unfold Rdiv in E3. rewrite Rmult_0_l, rnd_0 in E3.
  assert (Fz : fin fzero /\ fR fzero = 0) by (split; [split; reflexivity|reflexivity]). destruct Fz as [Fz Ez].
  unfold linspace_point. cbv zeta.
  rewrite (proj2 (fleb_R _ _ F3 Fz) ltac:(rewrite E3, Ez; lra)), (proj2 (fleb_R _ _ Fz F3) ltac:(rewrite E3, Ez; lra)). cbn [andb].
  destruct (int_fin i ltac:(lia)) as [F4 E4].
  assert (Hi01 : 0 <= IZR (Z.of_nat i) / d <= 1).
  { assert (0 <= IZR (Z.of_nat i) <= d) by (unfold d; split; apply IZR_le; lia). split.
    - apply Rmult_le_pos; [lra|]. apply Rlt_le, Rinv_0_lt_compat. lra.
    - apply Rmult_le_reg_r with d; [lra|]. unfold Rdiv. rewrite Rmult_assoc, Rinv_l by lra. lra. }
  assert (B1 : 1 <= bpow radix2 1023) by (change 1 with (bpow radix2 0); apply bpow_le; lia).
  destruct (fdiv_R _ _ F4 F2) as [F5 E5]; [rewrite E2; lra|rewrite E4, E2, Rabs_pos_eq by lra; lra|].
  destruct (fmul_R _ _ F5 F1) as [F6 E6]; [rewrite E1, Rmult_0_r, Rabs_R0; lra|]. rewrite E1, Rmult_0_r, rnd_0 in E6.
  destruct (fadd_R _ _ F6 Hs) as [F7 E7]; [rewrite E6, Rplus_0_l; apply (Rle_trans _ _ _ Hlo); apply small_big; lia|].
  split; [exact F7|]. rewrite E7, E6, Rplus_0_l. apply rnd_fin. exact Hs.
Qed.

Section Wide.
Hypothesis Hw : d * bpow radix2 (-1021) <= hi - lo.
Let D := rnd (hi - lo).
Let s := rnd (D / d).
Lemma tiny_pos : 0 < bpow radix2 (-1022). Proof. apply bpow_gt_0. Qed.
Lemma tiny2 : bpow radix2 (-1021) = 2 * bpow radix2 (-1022).
Proof. change (-1021)%Z with (1 + (-1022))%Z. rewrite bpow_plus. reflexivity. Qed.
Lemma G_pos : 0 < hi - lo.
Proof. assert (T := tiny_pos). assert (B := d_bounds). rewrite tiny2 in Hw. nra. Qed.
Lemma D_rel : exists e0, Rabs e0 <= U /\ D = (hi - lo) * (1 + e0).
Proof.
  unfold D. destruct (rnd_plus_rel hi (- lo)) as (e & H1 & H2); [apply fin_format; exact Ht|apply generic_format_opp; apply fin_format; exact Hs|].
  exists e. split; [exact H1|exact H2].
Qed.
Lemma Rabs_1e e : Rabs e <= U -> 1023 / 1024 <= 1 + e <= 1025 / 1024.
Proof. intros H. apply Rabs_le_inv in H. assert (Q := U_small). lra. Qed.
Lemma s_rel : exists e0 e1, Rabs e0 <= U /\ Rabs e1 <= U /\ s = (hi - lo) / d * ((1 + e0) * (1 + e1)) /\ bpow radix2 (-1022) <= s.
Proof.
  destruct D_rel as (e0 & H0 & E0). assert (B := d_bounds). assert (T := tiny_pos). assert (K := Rabs_1e _ H0). assert (G := G_pos).
  assert (L : bpow radix2 (-1022) <= D / d).
  { apply Rle_div_r'; [lra|]. rewrite E0. rewrite tiny2 in Hw. nra. }
  destruct (rnd_rel (D / d)) as (e1 & H1 & E1); [rewrite Rabs_pos_eq by lra; exact L|].
  exists e0, e1. split; [exact H0|]. split; [exact H1|]. split.
  - unfold s. rewrite E1, E0. field. lra.
  - unfold s. rewrite <- (rnd_bpow (-1022)) by lia. apply rnd_le. exact L.
Qed.
Definition p (i : nat) : R := rnd (IZR (Z.of_nat i) * s).
Lemma s_pos : 0 < s. Proof. destruct s_rel as (_ & _ & _ & _ & _ & H). assert (T := tiny_pos). lra. Qed.
Lemma p_mono i j : (i <= j)%nat -> p i <= p j.
Proof. intros H. apply rnd_le. assert (S := s_pos). apply Rmult_le_compat_r; [lra|]. apply IZR_le. lia. Qed.
Lemma p_rel i : (i < n)%nat -> exists q, Rabs (q - 1) <= 4 * U /\ p i = IZR (Z.of_nat i) * ((hi - lo) / d) * q.
Proof.
  intros Hi. destruct s_rel as (e0 & e1 & H0 & H1 & E & L). destruct i as [|i].
  - exists 1. split; [rewrite Rminus_eq_0, Rabs_R0; assert (P := U_pos); lra|]. unfold p. cbn [Z.of_nat]. now rewrite !Rmult_0_l, rnd_0.
  - assert (I1 : 1 <= IZR (Z.of_nat (S i))) by (apply IZR_le; lia). assert (S0 := s_pos).
    destruct (rnd_rel (IZR (Z.of_nat (S i)) * s)) as (e2 & H2 & E2); [rewrite Rabs_pos_eq by nra; nra|].
    exists ((1 + e0) * (1 + e1) * (1 + e2)). split; [now apply chain3|]. unfold p. rewrite E2, E. ring.
Qed.
Lemma p_bounds i : (i < n - 1)%nat -> 0 <= p i <= hi - lo.
Proof.
  intros Hi. split; [rewrite <- rnd_0; apply rnd_le; apply Rmult_le_pos; [apply IZR_le; lia|assert (S := s_pos); lra]|].
  destruct (p_rel i ltac:(lia)) as (q & Hq & ->). assert (B := d_bounds). assert (G := G_pos).
  assert (Hi1 : 0 <= IZR (Z.of_nat i) <= d - 1) by (unfold d; split; [apply IZR_le; lia|]; rewrite <- minus_IZR; apply IZR_le; lia).
  apply Rabs_le_inv in Hq. assert (Q := U_small). assert (P := U_pos).
  assert (Hd : (d - 1) * (4 * U) <= 1).
  { apply Rle_trans with (bpow radix2 50 * (4 * U)); [nra|]. rewrite U_val. cbn. lra. }
  assert (Hk : IZR (Z.of_nat i) * q <= d) by nra.
  replace (IZR (Z.of_nat i) * ((hi - lo) / d) * q) with (IZR (Z.of_nat i) * q * ((hi - lo) / d)) by ring.
  apply Rle_trans with (d * ((hi - lo) / d)); [|right; field; lra].
  apply Rmult_le_compat_r; [|exact Hk]. apply Rmult_le_pos; [lra|]. apply Rlt_le, Rinv_0_lt_compat. lra.
Qed.
Lemma is_bound i : (i < n)%nat -> Rabs (IZR (Z.of_nat i) * s) <= bpow radix2 1023.
Proof.
  intros Hi. destruct s_rel as (e0 & e1 & H0 & H1 & E & L). assert (S0 := s_pos). assert (B := d_bounds). assert (G := G_pos).
  assert (Hi1 : 0 <= IZR (Z.of_nat i) <= d) by (unfold d; split; apply IZR_le; lia).
  rewrite Rabs_pos_eq by nra. apply Rle_trans with (d * s); [nra|]. rewrite E.
  replace (d * ((hi - lo) / d * ((1 + e0) * (1 + e1)))) with ((hi - lo) * ((1 + e0) * (1 + e1))) by (field; lra).
  assert (K0 := Rabs_1e _ H0). assert (K1 := Rabs_1e _ H1).
  assert (R := range_bound). rewrite Rabs_pos_eq in R by lra.
  assert (E2 : bpow radix2 1023 = 2 * bpow radix2 1022) by (change 1023%Z with (1 + 1022)%Z; rewrite bpow_plus; reflexivity).
  rewrite E2. assert ((1 + e0) * (1 + e1) <= 2) by nra. nra.
Qed.
Lemma point_wide i : (i < n - 1)%nat -> fin (linspace_point start stop n i) /\ fR (linspace_point start stop n i) = rnd (p i + lo).
Proof.
  intros Hi. destruct delta_spec as [F1 E1]. destruct (int_fin (n - 1) ltac:(lia)) as [F2 E2]. fold d in E2. fold D in E1.
  assert (B := d_bounds). assert (G := G_pos). destruct D_rel as (e0 & H0 & E0). assert (K := Rabs_1e _ H0).
  assert (P := bpow_gt_0 radix2 1022). assert (E3 : bpow radix2 1023 = 2 * bpow radix2 1022) by (change 1023%Z with (1 + 1022)%Z; rewrite bpow_plus; reflexivity).
  assert (R := range_bound). rewrite Rabs_pos_eq in R by lra.
  assert (Dp : 0 <= D) by (rewrite E0; nra). assert (Db : D <= bpow radix2 1023) by (rewrite E0, E3; nra).
  assert (Dd : 0 <= D / d <= D).
  { split; [apply Rmult_le_pos; [lra|apply Rlt_le, Rinv_0_lt_compat; lra]|]. apply Rmult_le_reg_r with d; [lra|]. unfold Rdiv. rewrite Rmult_assoc, Rinv_l by lra. nra. }
  destruct (fdiv_R _ _ F1 F2) as [F4 E4]; [rewrite E2; lra|rewrite E1, E2, Rabs_pos_eq by lra; lra|]. rewrite E1, E2 in E4. fold s in E4.
  assert (Fz : fin fzero /\ fR fzero = 0) by (split; [split; reflexivity|reflexivity]). destruct Fz as [Fz Ez].
  unfold linspace_point. cbv zeta. assert (S0 := s_pos).
  destruct (fleb (fdiv (fsub stop start) (of_int (Z.of_nat (n - 1)))) fzero) eqn:Ef; [apply (fleb_R _ _ F4 Fz) in Ef; rewrite E4, Ez in Ef; lra|]. cbn [andb].
  destruct (int_fin i ltac:(lia)) as [F5 E5]. destruct (fmul_R _ _ F5 F4) as [F6 E6]; [rewrite E5, E4; apply is_bound; lia|]. rewrite E5, E4 in E6. fold (p i) in E6.
  assert (Pb := p_bounds i Hi). assert (HL := Rabs_le_inv _ _ Hlo). assert (HH := Rabs_le_inv _ _ Hhi).
  destruct (fadd_R _ _ F6 Hs) as [F7 E7].
  - fold lo. rewrite E6. apply Rle_trans with (bpow radix2 1021); [apply Rabs_le; lra|apply small_big; lia].
  - split; [exact F7|]. now rewrite E7, E6.
Qed.
End Wide.

(** What every point is. *)
Hypothesis Hrange : lo = hi \/ d * bpow radix2 (-1021) <= hi - lo.
Lemma range_le : lo <= hi. Proof. destruct Hrange as [->|H]; [lra|assert (G := G_pos H); lra]. Qed.
Lemma points : 
  (forall i, (i < n - 1)%nat -> fin (linspace_point start stop n i) /\ lo <= fR (linspace_point start stop n i) <= hi /\
     Rabs (fR (linspace_point start stop n i) - (lo + IZR (Z.of_nat i) * ((hi - lo) / d))) <= bpow radix2 (-49) * Rmax (Rabs lo) (Rabs hi)) /\
  (forall i j, (i <= j < n - 1)%nat -> fR (linspace_point start stop n i) <= fR (linspace_point start stop n j)) /\
  fR (linspace_point start stop n 0) = lo.
Proof.
  assert (RE := rnd_fin _ Hs : rnd lo = lo). assert (RF := rnd_fin _ Ht : rnd hi = hi).
  assert (M1 := Rmax_l (Rabs lo) (Rabs hi)). assert (M2 := Rmax_r (Rabs lo) (Rabs hi)). assert (A1 := Rabs_pos lo). assert (A2 := Rabs_pos hi).
  destruct Hrange as [E|W].
  - split; [|split].
    + intros i Hi. destruct (point_flat i E Hi) as [F1 E1]. rewrite E1. split; [exact F1|]. split; [lra|]. rewrite <- E, Rminus_eq_0.
      unfold Rdiv. rewrite Rmult_0_l, Rmult_0_r, Rplus_0_r, Rminus_eq_0, Rabs_R0. apply Rmult_le_pos; [apply bpow_ge_0|apply (Rle_trans _ (Rabs lo)); [exact A1|apply Rmax_l]].
    + intros i j [H1 H2]. rewrite (proj2 (point_flat i E ltac:(lia))), (proj2 (point_flat j E H2)). lra.
    + apply (point_flat 0 E). lia.
  - split; [|split].
    + intros i Hi. destruct (point_wide W i Hi) as [F1 E1]. rewrite E1. split; [exact F1|]. assert (Pb := p_bounds W i Hi). split; [split|].
      * rewrite <- RE at 1. apply rnd_le. lra.
      * rewrite <- RF at 1. apply rnd_le. lra.
      * destruct (p_rel W i ltac:(lia)) as (q & Hq & Ep). destruct (rnd_plus_rel (p i) lo (rnd_format _) (fin_format _ Hs)) as (e & He & Ee).
        rewrite Ee. set (x := IZR (Z.of_nat i) * ((hi - lo) / d)) in *.
        assert (G := G_pos W). assert (B := d_bounds).
        assert (Hx : 0 <= x <= hi - lo).
        { assert (Hi1 : 0 <= IZR (Z.of_nat i) <= d) by (unfold d; split; apply IZR_le; lia). unfold x. split.
          - apply Rmult_le_pos; [lra|]. apply Rmult_le_pos; [lra|]. apply Rlt_le, Rinv_0_lt_compat. lra.
          - apply Rle_trans with (d * ((hi - lo) / d)); [|right; field; lra]. apply Rmult_le_compat_r; [|apply Hi1].
            apply Rmult_le_pos; [lra|]. apply Rlt_le, Rinv_0_lt_compat. lra. }
        replace ((p i + lo) * (1 + e) - (lo + x)) with (x * (q - 1) + (p i + lo) * e) by (rewrite Ep; ring).
        set (M := Rmax (Rabs lo) (Rabs hi)) in *.
        assert (L1 := Rabs_le_inv _ _ M1). assert (L2 := Rabs_le_inv _ _ M2).
        assert (HG : hi - lo <= 2 * M) by lra.
        assert (Hm : Rabs (p i + lo) <= M) by (apply Rabs_le; lra).
        apply (Rle_trans _ _ _ (Rabs_triang _ _)). rewrite !Rabs_mult. rewrite (Rabs_pos_eq x) by lra.
        assert (T1 : x * Rabs (q - 1) <= 2 * M * (4 * U)) by (apply Rmult_le_compat; [lra|apply Rabs_pos|lra|exact Hq]).
        assert (T2 : Rabs (p i + lo) * Rabs e <= M * U) by (apply Rmult_le_compat; [apply Rabs_pos|apply Rabs_pos|exact Hm|exact He]).
        assert (V : bpow radix2 (-49) = 16 * U) by (rewrite U_val; cbn; lra). rewrite V. assert (P := U_pos). nra.
    + intros i j [H1 H2]. rewrite (proj2 (point_wide W i ltac:(lia))), (proj2 (point_wide W j H2)). apply rnd_le.
      assert (Q := p_mono W i j H1). lra.
    + rewrite (proj2 (point_wide W 0 ltac:(lia))). unfold p. cbn [Z.of_nat]. rewrite Rmult_0_l, rnd_0, Rplus_0_l. exact RE.
Qed.
End Points.

Lemma sorted_map {A} (leb : A -> A -> bool) (f : nat -> A) : forall k a,
  (forall i j, (a <= i)%nat -> (i < j < a + k)%nat -> leb (f i) (f j) = true) -> Sorted_by leb (map f (seq a k)).
Proof.
  induction k as [|k IH]; intros a H; cbn [seq map]; [constructor|]. constructor.
  - apply IH. intros i j H1 H2. apply H; lia.
  - apply Forall_forall. intros y Hy. apply in_map_iff in Hy as (j & <- & Hj). apply in_seq in Hj. apply H; lia.
Qed.
Lemma sorted_snoc {A} (leb : A -> A -> bool) l x : Sorted_by leb l -> (forall y, In y l -> leb y x = true) -> Sorted_by leb (l ++ [x]).
Proof.
  induction 1 as [|y l Hl IH Hy]; intros H; cbn [app]; [repeat constructor|]. constructor.
  - apply IH. intros z Hz. apply H. now right.
  - apply Forall_app. split; [exact Hy|]. constructor; [apply H; now left|constructor].
Qed.
Lemma linspace_eq lo hi n : (2 <= n)%nat -> linspace lo hi n = map (linspace_point lo hi n) (seq 0 (n - 1)) ++ [hi].
Proof. destruct n as [|[|n]]; [lia|lia|reflexivity]. Qed.

(** C60: equally spaced points up to rounding. [lo], [hi] are finite doubles of magnitude at most 2^1021, the range is 0 or at least
    (n-1) * 2^-1021. *)
Definition usual_range (lo hi : float) (n : nat) : Prop :=
  fin lo /\ fin hi /\ Rabs (fR lo) <= bpow radix2 1021 /\ Rabs (fR hi) <= bpow radix2 1021 /\
  (fR lo = fR hi \/ INR (n - 1) * bpow radix2 (-1021) <= fR hi - fR lo).
Theorem C60_linspace :
  forall (lo hi : float) (n : nat), (2 <= n)%nat -> (Z.of_nat n <= 2 ^ 50)%Z -> usual_range lo hi n ->
    let l := linspace lo hi n in
    List.length l = n /\ (forall x, In x l -> fin x /\ fleb lo x = true /\ fleb x hi = true) /\ Sorted_by np_leb l /\
    fR (hd fzero l) = fR lo /\ last l fzero = hi /\
    (forall i, (i < n)%nat -> Rabs (fR (nth i l fzero) - (fR lo + INR i * ((fR hi - fR lo) / INR (n - 1)))) <= bpow radix2 (-49) * Rmax (Rabs (fR lo)) (Rabs (fR hi))).
Proof.
  intros lo hi n Hn Hn2 (Hlo & Hhi & Bl & Bh & Hr) l.
  rewrite !INR_IZR_INZ in Hr.
  assert (P := points lo hi n Hlo Hhi Hn Hn2 Bl Bh Hr). assert (RL := range_le lo hi n Hn Hn2 Bl Hr). destruct P as (P1 & P2 & P3).
  assert (El : l = map (linspace_point lo hi n) (seq 0 (n - 1)) ++ [hi]) by (apply linspace_eq; exact Hn).
  assert (Hin : forall x, In x l -> fin x /\ fR lo <= fR x <= fR hi).
  { intros x Hx. rewrite El in Hx. apply in_app_or in Hx as [Hx|[<-|[]]].
    - apply in_map_iff in Hx as (i & <- & Hi). apply in_seq in Hi. destruct (P1 i ltac:(lia)) as (F & B & _). auto.
    - split; [exact Hhi|lra]. }
  split; [rewrite El, app_length, map_length, seq_length; cbn; lia|].
  split; [intros x Hx; destruct (Hin x Hx) as [F B]; split; [exact F|]; split; apply fleb_R; auto; lra|].
  split.
  - rewrite El. apply sorted_snoc.
    + apply sorted_map. intros i j _ Hj. unfold np_leb. apply orb_true_iff. right. destruct (P1 i ltac:(lia)) as (Fi & _). destruct (P1 j ltac:(lia)) as (Fj & _).
      apply fleb_R; auto. apply P2. lia.
    + intros y Hy. unfold np_leb. apply orb_true_iff. right. assert (Hy' : In y l) by (rewrite El; apply in_or_app; now left).
      destruct (Hin y Hy') as [F B]. apply fleb_R; auto. lra.
  - split; [|split].
    + rewrite El. destruct (n - 1)%nat as [|k] eqn:Ek; [lia|]. cbn [seq map app hd]. exact P3.
    + rewrite El. apply last_last.
    + intros i Hi. rewrite !INR_IZR_INZ. rewrite El. destruct (Nat.eq_dec i (n - 1)) as [->|Hne].
      * rewrite app_nth2 by (rewrite map_length, seq_length; lia). rewrite map_length, seq_length, Nat.sub_diag. cbn [nth].
        assert (D := d_bounds n Hn Hn2). cbv zeta in D.
        replace (fR hi - (fR lo + IZR (Z.of_nat (n - 1)) * ((fR hi - fR lo) / IZR (Z.of_nat (n - 1))))) with 0 by (field; lra).
        rewrite Rabs_R0. apply Rmult_le_pos; [apply bpow_ge_0|]. apply (Rle_trans _ (Rabs (fR lo))); [apply Rabs_pos|apply Rmax_l].
      * rewrite app_nth1 by (rewrite map_length, seq_length; lia).
        rewrite (nth_indep _ fzero (linspace_point lo hi n 0)) by (rewrite map_length, seq_length; lia). rewrite map_nth, seq_nth by lia. cbn [plus].
        apply P1. lia.
Qed.
Print Assumptions C60_linspace.
(** C60: the default sizes are 10 for the adaptive signal class and 20 for the others; they are accepted by setDefectSizes, which leaves them unchanged. *)
Theorem C60_default_sizes_accepted :
  forall (c : sized_class) (lo hi : float) (st : sizes_state), usual_range lo hi (default_number c) ->
    List.length (st_sizes (default_sizes c lo hi)) = (match c with SAdaptiveSignal => 10 | SKriging => 20 | SHitMiss => 20 | SChaos => 20 end)%nat /\
    sizes_inv lo hi (default_sizes c lo hi) /\
    setDefectSizes lo hi st (st_sizes (default_sizes c lo hi)) = (default_sizes c lo hi, Ok tt).
Proof.
  intros c lo hi st H. assert (Hn : (2 <= default_number c)%nat) by (destruct c; cbn; lia).
  assert (Hn2 : (Z.of_nat (default_number c) <= 2 ^ 50)%Z) by (destruct c; cbn; lia).
  destruct (C60_linspace lo hi _ Hn Hn2 H) as (L1 & L2 & L3 & _). unfold default_sizes. cbn [st_sizes st_number].
  set (l := linspace lo hi (default_number c)) in *. split; [rewrite L1; now destruct c|]. split.
  - split; [cbn [st_sizes st_number]; now rewrite L1|]. split; [exact L3|]. apply Forall_forall. intros x Hx. destruct (L2 x Hx) as (_ & A & B). now split.
  - unfold setDefectSizes. unfold fsort. rewrite (isort_id np_leb l L3). destruct l as [|y ys] eqn:El; [cbn in L1; lia|].
    assert (M1 := np_max_in ys y). assert (M2 := np_min_in ys y). destruct (L2 _ M1) as (F1 & _ & B1). destruct (L2 _ M2) as (F2 & B2 & _).
    destruct H as (Hlo & Hhi & _). unfold fgtb. fold (fltb hi (np_max y ys)).
    rewrite (fleb_negb_fltb _ _ (fin_not_nan _ F1) (fin_not_nan _ Hhi)) in B1. rewrite (fleb_negb_fltb _ _ (fin_not_nan _ Hlo) (fin_not_nan _ F2)) in B2.
    apply negb_true_iff in B1, B2. change (SFltb hi (np_max y ys)) with (fltb hi (np_max y ys)). rewrite B1, B2. cbn [orb st_sizes]. now rewrite L1.
Qed.
Print Assumptions C60_default_sizes_accepted.
(** Finding: on a range of a few times the smallest positive double the default sizes are not sorted, leave the range, and are refused. *)
Definition eta (k : Z) : float := fofZ k (-1074).
Theorem C60_tiny_range_refuted :
  exists lo hi, fltb lo hi = true /\ fin lo /\ fin hi /\
    exists x, In x (st_sizes (default_sizes SKriging lo hi)) /\ fltb hi x = true /\
    snd (setDefectSizes lo hi (default_sizes SKriging lo hi) (st_sizes (default_sizes SKriging lo hi))) = Raise ValueError.
Proof.
  exists (eta 0), (eta 10). split; [vm_compute; reflexivity|]. split; [split; vm_compute; reflexivity|]. split; [split; vm_compute; reflexivity|].
  exists (eta 11). split; [|split; vm_compute; reflexivity]. vm_compute. tauto.
Qed.
Print Assumptions C60_tiny_range_refuted.
(** The hypotheses hold for the range [0.1, 0.7]. *)
Example C60_example : usual_range (of_ratio 1 10) (of_ratio 7 10) 20 /\
  map (fun x => fleb (of_ratio 1 10) x) (firstn 3 (linspace (of_ratio 1 10) (of_ratio 7 10) 20)) = [true; true; true].
Proof.
  split; [|vm_compute; reflexivity]. split; [split; vm_compute; reflexivity|]. split; [split; vm_compute; reflexivity|].
  assert (E1 : of_ratio 1 10 = S754_finite false 7205759403792794 (-56)) by (vm_compute; reflexivity).
  assert (E2 : of_ratio 7 10 = S754_finite false 6305039478318694 (-53)) by (vm_compute; reflexivity).
  rewrite E1, E2. unfold fR. cbn [SF2R cond_Zopp]. unfold F2R. cbn [Fnum Fexp].
  assert (B : 1 <= bpow radix2 1021) by (change 1 with (bpow radix2 0); apply bpow_le; lia).
  assert (V1 : bpow radix2 (-56) = / 72057594037927936) by (cbn; lra). assert (V2 : bpow radix2 (-53) = / 9007199254740992) by (cbn; lra). rewrite V1, V2.
  assert (S : bpow radix2 (-1021) <= / 1024) by (apply Rle_trans with (bpow radix2 (-10)); [apply bpow_le; lia|cbn; lra]).
  split; [rewrite Rabs_pos_eq by lra; lra|]. split; [rewrite Rabs_pos_eq by lra; lra|]. right. rewrite INR_IZR_INZ. cbn [Z.of_nat Nat.sub Pos.of_succ_nat Pos.succ]. nra.
Qed.
