(** The thresholds the loops and the tables compare with, as real numbers (C36, C38, C41, C42). *)
From Coq Require Import Reals Lra SpecFloat.
From Flocq Require Import Core BinarySingleNaN.
From Verif Require Import Base Float64 FloatBridge AdaptiveModel HitMissModel.
Local Open Scope R_scope.

(** A double within half a unit in the last place, 2^e, of the decimal literal of the source. *)
Definition literal (f : float) (x : R) (e : Z) : Prop := fin f /\ Rabs (fR f - x) <= bpow radix2 e.
(** tempMin = 1e9 (C36): the criterion must be below exactly one billion. *)
Theorem C36_initial_minimum : fin f1e9 /\ fR f1e9 = 1000000000.
Proof.
  split; [split; vm_compute; reflexivity|]. replace f1e9 with (of_int 1000000000) by reflexivity.
  now destruct (of_int_R 1000000000 ltac:(cbn; lia)) as [_ ->].
Qed.
Print Assumptions C36_initial_minimum.

(** The four other thresholds: the double nearest to the literal (half a unit in the last place away at most). *)
Lemma literal_of m ex (e : Z) x (bm be : R) : fin (S754_finite false m ex) -> bpow radix2 ex = bm -> bpow radix2 e = be ->
  - be <= IZR (Zpos m) * bm - x <= be -> literal (S754_finite false m ex) x e.
Proof.
  intros F E1 E2 H. split; [exact F|]. unfold fR. cbn [SF2R cond_Zopp]. unfold F2R. cbn [Fnum Fexp]. rewrite E1, E2. now apply Rabs_le.
Qed.
(** Q2 < 0.95 (C38). *)
Theorem C38_quality_threshold : literal f095 (95 / 100) (-54).
Proof.
  replace f095 with (S754_finite false 8556839292003942 (-53)) by (vm_compute; reflexivity).
  apply (literal_of _ _ _ _ (/ 9007199254740992) (/ 18014398509481984)); [split; vm_compute; reflexivity|cbn; lra|cbn; lra|lra].
Qed.
Print Assumptions C38_quality_threshold.
(** The widened band, probs < 0.1 and probs >= 0.8 (C41). *)
Theorem C41_widened_band_values : literal f01 (1 / 10) (-57) /\ literal f08 (8 / 10) (-54).
Proof.
  replace f01 with (S754_finite false 7205759403792794 (-56)) by (vm_compute; reflexivity).
  replace f08 with (S754_finite false 7205759403792794 (-53)) by (vm_compute; reflexivity).
  split.
  - apply (literal_of _ _ _ _ (/ 72057594037927936) (/ 144115188075855872)); [split; vm_compute; reflexivity|cbn; lra|cbn; lra|lra].
  - apply (literal_of _ _ _ _ (/ 9007199254740992) (/ 18014398509481984)); [split; vm_compute; reflexivity|cbn; lra|cbn; lra|lra].
Qed.
Print Assumptions C41_widened_band_values.
(** A point is predicted detected when its probability is at least one half (C42, C43). *)
Theorem C43_prediction_threshold : fin half /\ fR half = 1 / 2.
Proof.
  split; [split; vm_compute; reflexivity|].
  replace half with (S754_finite false 4503599627370496 (-53)) by (vm_compute; reflexivity).
  unfold fR. cbn [SF2R cond_Zopp]. unfold F2R. cbn [Fnum Fexp]. replace (bpow radix2 (-53)) with (/ 9007199254740992) by (cbn; lra). lra.
Qed.
Print Assumptions C43_prediction_threshold.
