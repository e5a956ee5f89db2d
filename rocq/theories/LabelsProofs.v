(** Lemmas on detection size labels. *)
From Coq Require Import String DecimalString DecimalZ SpecFloat Reals Lra.
From Flocq Require Import Core.
From Verif Require Import Base Float64 FloatBridge LabelsModel.

(** The level k/100 as a double. *)
Definition hundredth (k : Z) : float := of_ratio k 100.
(** What the label shows for it. *)
Definition shown (k : Z) : Z := if existsb (Z.eqb k) [29; 57; 58]%Z then (k - 1)%Z else k.

Lemma percent_sweep :
  forallb (fun n => match percent (hundredth (Z.of_nat n)) with
                    | Ok z => Z.eqb z (shown (Z.of_nat n)) | Raise _ => false end) (seq 0 101) = true.
Proof. vm_compute. reflexivity. Qed.
Lemma percent_hundredth k : (0 <= k <= 100)%Z -> percent (hundredth k) = Ok (shown k).
Proof.
  intros H. assert (S := percent_sweep). rewrite forallb_forall in S.
  specialize (S (Z.to_nat k)). rewrite Z2Nat.id in S by lia.
  assert (I : In (Z.to_nat k) (seq 0 101)) by (apply in_seq; lia). specialize (S I).
  destruct (percent (hundredth k)); [|discriminate]. apply Z.eqb_eq in S. now subst.
Qed.

Lemma dec_inj a b : dec a = dec b -> a = b.
Proof.
  unfold dec. intros H.
  assert (E : Z.to_int a = Z.to_int b).
  { assert (Ha := NilEmpty.isi (Z.to_int a)). assert (Hb := NilEmpty.isi (Z.to_int b)).
    rewrite H in Ha. rewrite Ha in Hb. congruence. }
  apply (f_equal Z.of_int) in E. now rewrite !DecimalZ.of_to in E.
Qed.

Local Open Scope R_scope.
Lemma percent_range p : fin p -> 0 <= fR p <= 1 ->
  exists z, percent p = Ok z /\ (0 <= z <= 100)%Z /\
    (Zfloor (100 * fR p) <= z <= Zceil (100 * fR p))%Z /\ z = Zfloor (rnd (fR p * 100)).
Proof.
  intros Hp Hr. destruct (of_int_R 100 ltac:(lia)) as [F100 E100].
  assert (Hb : Rabs (fR p * fR (of_int 100)) <= bpow radix2 1023).
  { rewrite E100. rewrite Rabs_pos_eq by lra. apply Rle_trans with (bpow radix2 7); [|apply bpow_le; lia].
    cbn. lra. }
  destruct (fmul_R p (of_int 100) Hp F100 Hb) as [Fm Em]. rewrite E100 in Em.
  assert (L : 0 <= rnd (fR p * 100)).
  { apply Rle_trans with (rnd 0); [rewrite (rnd_IZR 0) by lia; lra|]. apply rnd_le. lra. }
  assert (U : rnd (fR p * 100) <= 100).
  { apply Rle_trans with (rnd 100); [apply rnd_le; lra|]. rewrite (rnd_IZR 100) by lia. lra. }
  exists (Zfloor (rnd (fR p * 100))). unfold percent.
  rewrite ftrunc_floor; [|assumption|now rewrite Em]. rewrite Em.
  assert (F0 : (0 <= Zfloor (100 * fR p))%Z) by (apply Zfloor_lub; lra).
  assert (F1 : (Zfloor (100 * fR p) <= 100)%Z).
  { apply le_IZR. apply Rle_trans with (100 * fR p); [apply Zfloor_lb|lra]. }
  assert (C0 : (Zceil (100 * fR p) <= 100)%Z) by (apply Zceil_glb; lra).
  assert (C1 : (0 <= Zceil (100 * fR p))%Z).
  { apply le_IZR. apply Rle_trans with (100 * fR p); [lra|apply Zceil_ub]. }
  split; [reflexivity|]. split; [split|split; [split|reflexivity]].
  - apply Zfloor_lub. exact L.
  - apply le_IZR. apply Rle_trans with (rnd (fR p * 100)); [apply Zfloor_lb|exact U].
  - apply Zfloor_lub. rewrite <- (rnd_IZR (Zfloor (100 * fR p))) by lia. apply rnd_le.
    rewrite Rmult_comm. apply Zfloor_lb.
  - apply le_IZR. apply Rle_trans with (rnd (fR p * 100)); [apply Zfloor_lb|].
    rewrite <- (rnd_IZR (Zceil (100 * fR p))) by lia. apply rnd_le.
    rewrite Rmult_comm. apply Zceil_ub.
Qed.
Lemma percent_monotone p q a b : fin p -> fin q -> 0 <= fR p -> fR p <= fR q -> fR q <= 1 ->
  percent p = Ok a -> percent q = Ok b -> (a <= b)%Z.
Proof.
  intros Hp Hq H0 H1 H2 Ea Eb.
  destruct (percent_range p Hp ltac:(lra)) as [z [E [_ [_ Hz]]]].
  destruct (percent_range q Hq ltac:(lra)) as [z' [E' [_ [_ Hz']]]].
  rewrite E in Ea. rewrite E' in Eb. injection Ea as <-. injection Eb as <-. subst.
  apply Zfloor_le. apply rnd_le. lra.
Qed.
