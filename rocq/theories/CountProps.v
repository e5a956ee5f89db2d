(** C75: the number of detections that the binomial confidence curve uses. *)
From Coq Require Import SpecFloat Reals Lra.
From Flocq Require Import Core BinarySingleNaN.
From Verif Require Import Base Float64 FloatBridge CountModel.
Local Open Scope R_scope.

Lemma rnd_half m : (Z.abs m <= 2 ^ 52)%Z -> rnd (IZR m / 2) = IZR m / 2.
Proof.
  intros H. apply round_generic; [apply valid_rnd_round_mode|]. change (SpecFloat.fexp 53 1024) with (FLT_exp (-1074) 53).
  apply generic_format_FLT. exists (Float radix2 m (-1)); [unfold F2R; cbn; lra|cbn; lia|cbn; lia].
Qed.
(** C75: the number used is the number of detections or one less; it is right as soon as the double is not below the proportion. *)
Theorem C75_number_of_detections :
  forall (n k : nat) (ccdf : float), (0 < n)%nat -> (k <= n)%nat -> (Z.of_nat n <= 2 ^ 40)%Z ->
    fin ccdf -> 0 <= fR ccdf -> Rabs (fR ccdf - INR k / INR n) <= bpow radix2 (-50) ->
    exists z, nb_detections n ccdf = Ok z /\ (z = Z.of_nat k \/ z = Z.of_nat k - 1)%Z /\ (0 <= z)%Z /\
              (INR k / INR n <= fR ccdf -> z = Z.of_nat k).
Proof.
  intros n k c Hn Hk Hn2 Fc Pc Hc. rewrite !INR_IZR_INZ in *.
  destruct (of_int_R (Z.of_nat n) ltac:(lia)) as [Fn En].
  set (N := IZR (Z.of_nat n)) in *. set (K := IZR (Z.of_nat k)) in *.
  assert (N1 : 1 <= N) by (apply IZR_le; lia). assert (N2 : N <= bpow radix2 40) by (change (bpow radix2 40) with (IZR (2 ^ 40)); apply IZR_le; lia).
  assert (K0 : 0 <= K <= N) by (split; apply IZR_le; lia).
  assert (T : bpow radix2 40 * bpow radix2 (-50) <= / 4).
  { rewrite <- bpow_plus. change (40 + -50)%Z with (-10)%Z. cbn. lra. }
  assert (T0 := bpow_gt_0 radix2 (-50)).
  apply Rabs_le_inv in Hc. assert (E : K / N * N = K) by (field; lra).
  assert (L1 : K - / 4 <= N * fR c) by nra. assert (L2 : N * fR c <= K + / 4) by nra. assert (L0 : 0 <= N * fR c) by nra.
  assert (B : N * fR c <= bpow radix2 1023).
  { apply Rle_trans with (bpow radix2 41); [|apply bpow_le; lia]. change (bpow radix2 41) with (bpow radix2 (40 + 1)). rewrite bpow_plus.
    change (bpow radix2 1) with 2. assert (1 <= bpow radix2 40) by (change 1 with (bpow radix2 0); apply bpow_le; lia). lra. }
  destruct (fmul_R _ _ Fn Fc) as [Fm Em]; [rewrite En, Rabs_pos_eq by lra; exact B|]. rewrite En in Em.
  assert (R0 : rnd 0 = 0) by (apply round_0, valid_rnd_round_mode).
  assert (P : 0 <= fR (fmul (of_int (Z.of_nat n)) c)) by (rewrite Em, <- R0; now apply rnd_le).
  unfold nb_detections. rewrite ftrunc_floor by assumption. rewrite Em. set (x := rnd (N * fR c)) in *.
  assert (U : x <= K + / 2).
  { replace (K + / 2) with (IZR (2 * Z.of_nat k + 1) / 2) by (rewrite plus_IZR, mult_IZR; fold K; lra).
    rewrite <- rnd_half by lia. apply rnd_le. rewrite plus_IZR, mult_IZR. fold K. lra. }
  assert (Lw : K - / 2 <= x).
  { replace (K - / 2) with (IZR (2 * Z.of_nat k - 1) / 2) by (rewrite minus_IZR, mult_IZR; fold K; lra).
    rewrite <- rnd_half by lia. apply rnd_le. rewrite minus_IZR, mult_IZR. fold K. lra. }
  assert (F1 := Zfloor_lb x). assert (F2 := Zfloor_ub x). rewrite Em in P. fold x in P.
  exists (Zfloor x). split; [reflexivity|].
  assert (Z0 : (0 <= Zfloor x)%Z) by (apply le_IZR; apply IZR_le; apply Zfloor_lub; exact P).
  assert (Z1 : (Zfloor x < Z.of_nat k + 1)%Z) by (apply lt_IZR; rewrite plus_IZR; fold K; lra).
  assert (Z2 : (Z.of_nat k - 2 < Zfloor x)%Z) by (apply lt_IZR; rewrite minus_IZR; fold K; lra).
  split; [lia|]. split; [exact Z0|]. intros Hge.
  assert (X : K <= x).
  { unfold x. assert (RK : rnd K = K) by (apply rnd_IZR; lia). rewrite <- RK. apply rnd_le. nra. }
  assert ((Z.of_nat k <= Zfloor x)%Z) by (apply Zfloor_lub; exact X). lia.
Qed.
Print Assumptions C75_number_of_detections.
(** Finding: even with the double closest to the proportion, one detection is lost: 1 out of 49 counts as 0. *)
Theorem C75_detection_lost_refuted :
  exists n k, (0 < k <= n)%nat /\ nb_detections n (of_ratio (Z.of_nat k) (Z.of_nat n)) = Ok (Z.of_nat k - 1)%Z.
Proof. exists 49%nat, 1%nat. split; [lia|]. vm_compute. reflexivity. Qed.
Print Assumptions C75_detection_lost_refuted.
(** All detected is recognised when the double is 1. *)
Theorem C75_all_detected : forall n, (0 < n)%nat -> (Z.of_nat n <= 2 ^ 40)%Z -> nb_detections n fone = Ok (Z.of_nat n).
Proof.
  intros n Hn Hn2. destruct (of_int_R 1 ltac:(lia)) as [F1 E1].
  assert (P : 0 < INR n) by (apply lt_0_INR; lia).
  destruct (C75_number_of_detections n n fone Hn (le_n n) Hn2 F1) as (z & -> & _ & _ & H).
  - unfold fone. rewrite E1. lra.
  - unfold fone. rewrite E1. replace (1 - INR n / INR n) with 0 by (field; lra). rewrite Rabs_R0. apply bpow_ge_0.
  - rewrite H; [reflexivity|]. unfold fone. rewrite E1. right. field. lra.
Qed.
Print Assumptions C75_all_detected.
(** The hypotheses hold for the double closest to 1/49. *)
Example C75_example : let c := of_ratio 1 49 in fin c /\ 0 <= fR c /\ Rabs (fR c - INR 1 / INR 49) <= bpow radix2 (-50).
Proof.
  intros c. assert (E : c = S754_finite false 5882252574524729 (-58)) by (vm_compute; reflexivity). rewrite E.
  split; [split; vm_compute; reflexivity|]. unfold fR. cbn [SF2R cond_Zopp]. unfold F2R. cbn [Fnum Fexp].
  assert (V1 : bpow radix2 (-58) = / 288230376151711744) by (cbn; lra). assert (V2 : bpow radix2 (-50) = / 1125899906842624) by (cbn; lra). rewrite V1, V2.
  rewrite !INR_IZR_INZ. cbn [Z.of_nat Pos.of_succ_nat Pos.succ]. split; [lra|]. apply Rabs_le. lra.
Qed.
