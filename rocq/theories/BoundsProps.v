(** C97: the bounds named when defect sizes are refused. *)
From Coq Require Import Reals Lra SpecFloat.
From Flocq Require Import Core IEEE754.BinarySingleNaN.
From Verif Require Import Base Float64 FloatBridge SettersModel SettersProofs SettersProps LinspaceProps CountProps BoundsModel.
Local Open Scope R_scope.

Lemma ffloorZ_R f : fin f -> ffloorZ f = Some (Zfloor (fR f)).
Proof.
  intros [_ Hf]. destruct f as [s|s| |s m e]; try discriminate; cbn [ffloorZ].
  - change (fR (S754_zero s)) with 0. now rewrite (Zfloor_IZR 0).
  - f_equal. replace (fR (S754_finite s m e)) with (F2R (Float radix2 (if s then Zneg m else Zpos m) e)) by (destruct s; reflexivity).
    set (z := if s then Zneg m else Zpos m). destruct (Z.leb_spec 0 e) as [He|He].
    + unfold F2R. cbn [Fnum Fexp]. rewrite <- (IZR_Zpower radix2) by lia. rewrite <- mult_IZR. now rewrite Zfloor_IZR.
    + unfold F2R. cbn [Fnum Fexp]. symmetry. apply Zfloor_imp.
      assert (Hb : bpow radix2 e = / IZR (2 ^ (- e))).
      { rewrite <- (Z.opp_involutive e) at 1. rewrite bpow_opp. f_equal. now rewrite <- (IZR_Zpower radix2) by lia. }
      assert (Hp : (0 < 2 ^ (- e))%Z) by (apply Z.pow_pos_nonneg; lia). assert (HpR : 0 < IZR (2 ^ (- e))) by now apply IZR_lt.
      rewrite Hb. change (IZR z * / IZR (2 ^ - e)) with (IZR z / IZR (2 ^ - e)). split.
      * apply Rle_div_r'; [assumption|]. rewrite <- mult_IZR. apply IZR_le. rewrite Z.mul_comm. now apply Z.mul_div_le.
      * apply Rdiv_lt_l'; [assumption|]. rewrite <- mult_IZR. apply IZR_lt. rewrite Z.mul_comm. rewrite Z.add_1_r. now apply Z.mul_succ_div_gt.
Qed.
Lemma fin_opp f : fin f -> fin (SFopp f) /\ fR (SFopp f) = - fR f.
Proof.
  intros [V F]. destruct f as [s|s| |s m e]; try discriminate.
  - split; [split; [destruct s; reflexivity|reflexivity]|]. change (fR (SFopp (S754_zero s))) with 0. change (fR (S754_zero s)) with 0. ring.
  - split; [split; [destruct s; exact V|reflexivity]|]. unfold fR. cbn [SFopp SF2R]. rewrite <- F2R_Zopp. destruct s; reflexivity.
Qed.
Lemma fceilZ_R f : fin f -> fceilZ f = Some (Zceil (fR f)).
Proof. intros H. destruct (fin_opp f H) as [H1 H2]. unfold fceilZ. rewrite (ffloorZ_R _ H1), H2. reflexivity. Qed.

(** *** The numbers in the text *)
Definition moderate (f : float) : Prop := fin f /\ Rabs (fR f) <= IZR (2 ^ 30).
Lemma ten4 : fin (of_int 10000) /\ fR (of_int 10000) = 10000.
Proof. apply of_int_R. lia. Qed.
Lemma big x : Rabs x <= IZR (2 ^ 60) -> Rabs x <= bpow radix2 1023.
Proof. intros H. apply Rle_trans with (1 := H). change (IZR (2 ^ 60)) with (IZR (Zpower radix2 60)). rewrite IZR_Zpower by lia. apply bpow_le. lia. Qed.
Lemma product f : moderate f -> fin (fmul f (of_int 10000)) /\ fR (fmul f (of_int 10000)) = rnd (fR f * 10000) /\ Rabs (fR f * 10000) <= IZR (2 ^ 44).
Proof.
  intros [H M]. destruct ten4 as [T1 T2]. assert (B : Rabs (fR f * 10000) <= IZR (2 ^ 44)).
  { rewrite Rabs_mult, (Rabs_pos_eq 10000) by lra. change (2 ^ 44)%Z with (2 ^ 30 * 2 ^ 14)%Z. rewrite mult_IZR. change (2 ^ 14)%Z with 16384%Z. assert (0 <= Rabs (fR f)) by apply Rabs_pos. nra. }
  destruct (fmul_R f (of_int 10000) H T1) as [A C]; [rewrite T2; apply big; apply Rle_trans with (1 := B); apply IZR_le; lia|]. rewrite T2 in C. auto.
Qed.
Lemma quotient k : (Z.abs k <= 2 ^ 46)%Z -> fin (fdiv (of_int k) (of_int 10000)) /\ fR (fdiv (of_int k) (of_int 10000)) = rnd (IZR k / 10000) /\
  Rabs (rnd (IZR k / 10000) - IZR k / 10000) < 1 / 20000.
Proof.
  intros K. destruct ten4 as [T1 T2]. destruct (of_int_R k ltac:(lia)) as [K1 K2].
  assert (B : Rabs (IZR k / 10000) <= IZR (2 ^ 33)).
  { unfold Rdiv. rewrite Rabs_mult, (Rabs_pos_eq (/ 10000)) by lra. rewrite <- abs_IZR. apply IZR_le in K. change (2 ^ 46)%Z with (2 ^ 33 * 2 ^ 13)%Z in K. rewrite mult_IZR in K. change (IZR (2 ^ 13)) with 8192 in K.
    assert (0 < IZR (2 ^ 33)) by (apply IZR_lt; lia). lra. }
  destruct (fdiv_R (of_int k) (of_int 10000) K1 T1) as [A C]; [rewrite T2; lra|rewrite K2, T2; apply big; apply Rle_trans with (1 := B); apply IZR_le; lia|].
  rewrite K2, T2 in C. split; [exact A|]. split; [exact C|].
  destruct (Z.eq_dec k 0) as [->|N]; [unfold Rdiv; rewrite Rmult_0_l, rnd_0, Rminus_eq_0, Rabs_R0; lra|].
  assert (L : bpow radix2 (-1022) <= Rabs (IZR k / 10000)).
  { unfold Rdiv. rewrite Rabs_mult, (Rabs_pos_eq (/ 10000)), <- abs_IZR by lra. assert (1 <= IZR (Z.abs k)) by (apply IZR_le; lia).
    apply Rle_trans with (bpow radix2 (-14)); [apply bpow_le; lia|]. change (bpow radix2 (-14)) with (/ 16384). lra. }
  destruct (rnd_rel _ L) as (e & He & ->). replace (IZR k / 10000 * (1 + e) - IZR k / 10000) with (IZR k / 10000 * e) by ring. rewrite Rabs_mult.
  assert (UV : U <= / IZR (2 ^ 50)). { unfold U. change (IZR (2 ^ 50)) with (IZR (Zpower radix2 50)). rewrite IZR_Zpower, <- bpow_opp by lia. apply bpow_le. lia. }
  assert (Q : IZR (2 ^ 33) * / IZR (2 ^ 50) = / IZR (2 ^ 17)).
  { change (2 ^ 50)%Z with (2 ^ 33 * 2 ^ 17)%Z. rewrite mult_IZR. field. split; apply IZR_neq; lia. }
  apply Rle_lt_trans with (IZR (2 ^ 33) * / IZR (2 ^ 50)); [apply Rmult_le_compat; try apply Rabs_pos; lra|]. rewrite Q. change (IZR (2 ^ 17)) with 131072. lra.
Qed.
(** Rounding does not jump over an integer. *)
Lemma between x : Rabs x <= IZR (2 ^ 44) -> IZR (Zfloor x) <= rnd x <= IZR (Zceil x) /\ (Z.abs (Zfloor x) <= 2 ^ 44)%Z /\ (Z.abs (Zceil x) <= 2 ^ 44)%Z.
Proof.
  intros H. apply Rabs_le_inv in H. rewrite <- opp_IZR in H.
  assert (A : (- 2 ^ 44 <= Zfloor x)%Z) by (apply Zfloor_lub; lra). assert (B : (Zfloor x <= 2 ^ 44)%Z) by (apply le_IZR; assert (X := Zfloor_lb x); lra).
  assert (C : (Zceil x <= 2 ^ 44)%Z) by (apply Zceil_glb; lra). assert (D : (- 2 ^ 44 <= Zceil x)%Z) by (apply le_IZR; assert (X := Zceil_ub x); lra).
  split; [|lia]. split.
  - rewrite <- (rnd_IZR (Zfloor x)) at 1 by lia. apply rnd_le, Zfloor_lb.
  - rewrite <- (rnd_IZR (Zceil x)) by lia. apply rnd_le, Zceil_ub.
Qed.

(** The number [v] written with four decimals is k / 10000, and so is read back as [v]. *)
Definition written (v : float) (k : Z) : Prop := fR v = rnd (IZR k / 10000) /\ Rabs (fR v - IZR k / 10000) < 1 / 20000.
(** Below the bound named: the smallest defect is less than one unit of the fourth decimal away from it; it is accepted, unless ten thousand times
    the smallest defect is just above an integer and rounded down to it. *)
Theorem C97_lower lo :
  moderate lo ->
  exists k, fin (named_lower lo) /\ written (named_lower lo) k /\ Rabs (IZR k / 10000 - fR lo) < 1 / 10000 /\
    (fleb lo (named_lower lo) = true \/ (IZR k < fR lo * 10000 /\ rnd (fR lo * 10000) = IZR k)).
Proof.
  intros H. destruct (product lo H) as (P1 & P2 & P3). set (x := fR lo * 10000) in *. destruct (between x P3) as ([B1 B2] & B3 & B4).
  unfold named_lower. rewrite (fceilZ_R _ P1), P2. set (k := Zceil (rnd x)).
  assert (K1 : (Zfloor x <= k)%Z) by (apply le_IZR; apply Rle_trans with (1 := B1); apply Zceil_ub).
  assert (K2 : (k <= Zceil x)%Z) by (apply Zceil_glb; exact B2).
  destruct (quotient k ltac:(lia)) as (Q1 & Q2 & Q3). exists k. split; [exact Q1|]. split; [split; [exact Q2|rewrite Q2; exact Q3]|].
  assert (F1 := Zfloor_ub x). assert (F2 := Zceil_lb x). apply IZR_le in K1, K2. split.
  - unfold x in *. apply Rabs_lt. lra.
  - destruct (Rle_lt_dec x (IZR k)) as [G|G].
    + left. apply fleb_R; [apply H|exact Q1|]. rewrite Q2, <- (rnd_fin lo) by apply H. apply rnd_le. unfold x in G. lra.
    + right. split; [exact G|]. assert (R1 : rnd x <= IZR k) by apply Zceil_ub. apply Rle_antisym; [exact R1|].
      assert (KZ : (Z.abs k <= 2 ^ 53)%Z) by (apply le_IZR in K1, K2; lia). rewrite <- (rnd_IZR k) by exact KZ. apply rnd_le. lra.
Qed.
Theorem C97_upper hi :
  moderate hi ->
  exists k, fin (named_upper hi) /\ written (named_upper hi) k /\ Rabs (IZR k / 10000 - fR hi) < 1 / 10000 /\
    (fleb (named_upper hi) hi = true \/ (fR hi * 10000 < IZR k /\ rnd (fR hi * 10000) = IZR k)).
Proof.
  intros H. destruct (product hi H) as (P1 & P2 & P3). set (x := fR hi * 10000) in *. destruct (between x P3) as ([B1 B2] & B3 & B4).
  unfold named_upper. rewrite (ffloorZ_R _ P1), P2. set (k := Zfloor (rnd x)).
  assert (K1 : (Zfloor x <= k)%Z) by (apply Zfloor_lub; exact B1).
  assert (K2 : (k <= Zceil x)%Z) by (apply le_IZR; apply Rle_trans with (2 := B2); apply Zfloor_lb).
  destruct (quotient k ltac:(lia)) as (Q1 & Q2 & Q3). exists k. split; [exact Q1|]. split; [split; [exact Q2|rewrite Q2; exact Q3]|].
  assert (F1 := Zfloor_ub x). assert (F2 := Zceil_lb x). apply IZR_le in K1, K2. split.
  - unfold x in *. apply Rabs_lt. lra.
  - destruct (Rle_lt_dec (IZR k) x) as [G|G].
    + left. apply fleb_R; [exact Q1|apply H|]. rewrite Q2, <- (rnd_fin hi) by apply H. apply rnd_le. unfold x in G. lra.
    + right. split; [exact G|]. assert (R1 : IZR k <= rnd x) by apply Zfloor_lb. apply Rle_antisym; [|exact R1].
      assert (KZ : (Z.abs k <= 2 ^ 53)%Z) by (apply le_IZR in K1, K2; lia). rewrite <- (rnd_IZR k) by exact KZ. apply rnd_le. lra.
Qed.

(** Defects written with at most four decimals: both bounds named are accepted, and each is the extreme defect or its neighbour inside. *)
Lemma four_decimals f j : moderate f -> fR f = rnd (IZR j / 10000) -> Rabs (fR f * 10000 - IZR j) <= 1 / 2 /\ (Z.abs j <= 2 ^ 45)%Z.
Proof.
  intros [H M] E. destruct (Z.eq_dec j 0) as [->|N].
  { unfold Rdiv in E. rewrite Rmult_0_l, rnd_0 in E. rewrite E, Rmult_0_l, Rminus_eq_0, Rabs_R0. split; [lra|lia]. }
  assert (L : bpow radix2 (-1022) <= Rabs (IZR j / 10000)).
  { unfold Rdiv. rewrite Rabs_mult, (Rabs_pos_eq (/ 10000)), <- abs_IZR by lra. assert (1 <= IZR (Z.abs j)) by (apply IZR_le; lia).
    apply Rle_trans with (bpow radix2 (-14)); [apply bpow_le; lia|]. change (bpow radix2 (-14)) with (/ 16384). lra. }
  destruct (rnd_rel _ L) as (e & He & R). rewrite R in E.
  assert (UV : U <= / IZR (2 ^ 50)). { unfold U. change (IZR (2 ^ 50)) with (IZR (Zpower radix2 50)). rewrite IZR_Zpower, <- bpow_opp by lia. apply bpow_le. lia. }
  assert (UH : / IZR (2 ^ 50) <= 1 / 2). { change (2 ^ 50)%Z with (2 * 2 ^ 49)%Z. rewrite mult_IZR. assert (1 <= IZR (2 ^ 49)) by (apply IZR_le; lia). rewrite Rinv_mult. assert (/ IZR (2 ^ 49) <= / 1) by (apply Rinv_le; lra). rewrite Rinv_1 in *. assert (0 < / IZR (2 ^ 49)) by (apply Rinv_0_lt_compat; lra). lra. }
  assert (JB : Rabs (IZR j) <= IZR (2 ^ 45)).
  { assert (E1 : / 2 <= Rabs (1 + e)) by (apply Rabs_le_inv in He; rewrite Rabs_pos_eq; lra). rewrite E in M. unfold Rdiv in M. rewrite !Rabs_mult, (Rabs_pos_eq (/ 10000)) in M by lra.
    change (2 ^ 45)%Z with (2 ^ 30 * 2 ^ 15)%Z. rewrite mult_IZR. change (IZR (2 ^ 15)) with 32768. assert (0 <= Rabs (IZR j)) by apply Rabs_pos.
    assert (Rabs (IZR j) * / 10000 * / 2 <= IZR (2 ^ 30)) by (apply Rle_trans with (2 := M); apply Rmult_le_compat_l; [nra|exact E1]). lra. }
  split.
  - rewrite E. replace (IZR j / 10000 * (1 + e) * 10000 - IZR j) with (IZR j * e) by field. rewrite Rabs_mult.
    apply Rle_trans with (IZR (2 ^ 45) * / IZR (2 ^ 50)); [apply Rmult_le_compat; try apply Rabs_pos; lra|].
    change (2 ^ 50)%Z with (2 ^ 45 * 2 ^ 5)%Z. rewrite mult_IZR. change (IZR (2 ^ 5)) with 32. assert (0 < IZR (2 ^ 45)) by (apply IZR_lt; lia). rewrite Rinv_mult. rewrite <- Rmult_assoc, Rinv_r by lra. lra.
  - apply le_IZR. now rewrite abs_IZR.
Qed.
Theorem C97_four_decimals lo hi jl jh st arg :
  moderate lo -> moderate hi -> fR lo = rnd (IZR jl / 10000) -> fR hi = rnd (IZR jh / 10000) ->
  forall l u, complaint lo hi st arg = Some (l, u) ->
  fleb lo l = true /\ fleb u hi = true /\ (written l jl \/ written l (jl + 1)) /\ (written u jh \/ written u (jh - 1)).
Proof.
  intros Hl Hh El Eh l u C. assert (X : l = named_lower lo /\ u = named_upper hi).
  { unfold complaint in C. destruct arg as [|y arg']; [discriminate|]. destruct (snd (setDefectSizes lo hi st (y :: arg'))); [discriminate|]. now injection C as <- <-. }
  destruct X as [-> ->]. clear C.
  destruct (four_decimals lo jl Hl El) as [Dl Jl]. destruct (four_decimals hi jh Hh Eh) as [Dh Jh]. apply Rabs_le_inv in Dl, Dh.
  assert (G1 : exists k, fin (named_lower lo) /\ written (named_lower lo) k /\ (k = jl \/ k = jl + 1)%Z).
  { destruct (product lo Hl) as (P1 & P2 & P3). set (x := fR lo * 10000) in *.
    unfold named_lower. rewrite (fceilZ_R _ P1), P2. set (k := Zceil (rnd x)).
    assert (K1 : (jl <= k)%Z).
    { assert (HH : IZR (2 * jl - 1) / 2 <= rnd x).
      { rewrite <- (rnd_half (2 * jl - 1)) by lia. apply rnd_le. rewrite minus_IZR, mult_IZR. lra. }
      rewrite minus_IZR, mult_IZR in HH. assert (U1 := Zceil_ub (rnd x)). fold k in U1. assert (jl - 1 < k)%Z; [|lia]. apply lt_IZR. rewrite minus_IZR. lra. }
    assert (K2 : (k <= jl + 1)%Z) by (apply Zceil_glb; rewrite <- (rnd_IZR (jl + 1)) by lia; apply rnd_le; rewrite plus_IZR; lra).
    destruct (quotient k ltac:(lia)) as (Q1 & Q2 & Q3). exists k. split; [exact Q1|]. split; [split; [exact Q2|rewrite Q2; exact Q3]|lia]. }
  assert (G2 : exists k, fin (named_upper hi) /\ written (named_upper hi) k /\ (k = jh \/ k = jh - 1)%Z).
  { destruct (product hi Hh) as (P1 & P2 & P3). set (x := fR hi * 10000) in *.
    unfold named_upper. rewrite (ffloorZ_R _ P1), P2. set (k := Zfloor (rnd x)).
    assert (K1 : (k <= jh)%Z).
    { assert (HH : rnd x <= IZR (2 * jh + 1) / 2).
      { rewrite <- (rnd_half (2 * jh + 1)) by lia. apply rnd_le. rewrite plus_IZR, mult_IZR. lra. }
      rewrite plus_IZR, mult_IZR in HH. assert (U1 := Zfloor_lb (rnd x)). fold k in U1. assert (k < jh + 1)%Z; [|lia]. apply lt_IZR. rewrite plus_IZR. lra. }
    assert (K2 : (jh - 1 <= k)%Z) by (apply Zfloor_lub; rewrite <- (rnd_IZR (jh - 1)) by lia; apply rnd_le; rewrite minus_IZR; lra).
    destruct (quotient k ltac:(lia)) as (Q1 & Q2 & Q3). exists k. split; [exact Q1|]. split; [split; [exact Q2|rewrite Q2; exact Q3]|lia]. }
  destruct G1 as (k & F1 & W1 & K1). destruct G2 as (k' & F2 & W2 & K2). split; [|split; [|split]].
  - apply fleb_R; [apply Hl|exact F1|]. rewrite (proj1 W1), El. apply rnd_le. apply Rmult_le_compat_r; [lra|]. apply IZR_le. lia.
  - apply fleb_R; [exact F2|apply Hh|]. rewrite (proj1 W2), Eh. apply rnd_le. apply Rmult_le_compat_r; [lra|]. apply IZR_le. lia.
  - destruct K1 as [<-| <-]; auto.
  - destruct K2 as [<-| <-]; auto.
Qed.

(** So a user who follows the text succeeds: with such defects all sizes between the bounds named are accepted at the next call. *)
Theorem C97_sizes_between lo hi jl jh st st' arg arg' l u :
  moderate lo -> moderate hi -> fR lo = rnd (IZR jl / 10000) -> fR hi = rnd (IZR jh / 10000) ->
  complaint lo hi st arg = Some (l, u) ->
  arg' <> [] -> (forall x, In x arg' -> fleb l x = true /\ fleb x u = true) -> snd (setDefectSizes lo hi st' arg') = Ok tt.
Proof.
  intros Ml Mh El Eh C N H. destruct (C97_four_decimals lo hi jl jh st arg Ml Mh El Eh l u C) as (Hl & Hu & _).
  assert (NN : forall f, moderate f -> is_nan f = false) by (intros f [[_ F] _]; destruct f; [reflexivity|reflexivity|discriminate|reflexivity]).
  destruct (setDefectSizes lo hi st' arg') as [s r] eqn:E. cbn [snd].
  destruct (C27_setDefectSizes_effect lo hi st' arg' s r (NN _ Ml) (NN _ Mh) E) as (_ & A & B & _).
  destruct (existsb is_nan arg') eqn:Ex; [now apply B|]. apply (A N eq_refl). apply Forall_forall. intros x Hx. destruct (H x Hx) as [H1 H2].
  split; eapply fleb_trans; eassumption.
Qed.
(** The text appears exactly when a size is outside the range. *)
Theorem C97_complaint lo hi st arg :
  is_nan lo = false -> is_nan hi = false -> existsb is_nan arg = false ->
  (complaint lo hi st arg = None <-> Forall (within lo hi) arg).
Proof.
  intros Nl Nh Na. unfold complaint. destruct arg as [|y l]; [split; [constructor|reflexivity]|].
  destruct (setDefectSizes lo hi st (y :: l)) as [s r] eqn:E. cbn [snd].
  destruct (C27_setDefectSizes_effect lo hi st (y :: l) s r Nl Nh E) as (_ & A & _). destruct (A ltac:(discriminate) Na) as [A1 A2].
  destruct r as [[]|e]; [split; [intros _; now apply A1|reflexivity]|]. split; [discriminate|]. intros F. apply A1 in F. discriminate.
Qed.

(** Findings. The bound named is itself refused: smallest defect 15.113100000000001, bound named 15.1131. *)
Theorem C97_refused_refuted :
  exists lo hi, moderate lo /\ moderate hi /\ fleb lo hi = true /\ forall st st', exists l u, complaint lo hi st [fzero] = Some (l, u) /\
    fltb l u = true /\ snd (setDefectSizes lo hi st' [l]) = Raise ValueError.
Proof.
  exists (S754_finite false 8507918941051631 (-49)), (of_int 20).
  assert (F : fin (S754_finite false 8507918941051631 (-49))) by (split; reflexivity). destruct (of_int_R 20 ltac:(lia)) as [F2 E2].
  split; [|split; [|split; [vm_compute; reflexivity|intros st st'; eexists _, _; split; [vm_compute; reflexivity|split; vm_compute; reflexivity]]]].
  - split; [exact F|]. assert (P := proj1 (fleb_R _ _ F F2) ltac:(vm_compute; reflexivity)).
    assert (Z : fin fzero) by (split; reflexivity). assert (P0 := proj1 (fleb_R _ _ Z F) ltac:(vm_compute; reflexivity)). change (fR fzero) with 0 in P0.
    rewrite Rabs_pos_eq by exact P0. rewrite E2 in P. change (2 ^ 30)%Z with 1073741824%Z. lra.
  - split; [exact F2|]. rewrite E2, Rabs_pos_eq by lra. change (2 ^ 30)%Z with 1073741824%Z. lra.
Qed.
(** The bounds named can be tighter than what is accepted even for defects of four decimals: 0.0051 gives 0.0052, and 0.0003 gives 0.0002. *)
Theorem C97_tight_refuted :
  written (named_lower (of_ratio 51 10000)) 52 /\ written (named_upper (of_ratio 3 10000)) 2 /\
  forall st, snd (setDefectSizes (of_ratio 51 10000) (of_int 1) st [of_ratio 51 10000]) = Ok tt /\ snd (setDefectSizes fzero (of_ratio 3 10000) st [of_ratio 3 10000]) = Ok tt.
Proof.
  assert (E1 : named_lower (of_ratio 51 10000) = fdiv (of_int 52) (of_int 10000)) by (vm_compute; reflexivity).
  assert (E2 : named_upper (of_ratio 3 10000) = fdiv (of_int 2) (of_int 10000)) by (vm_compute; reflexivity).
  rewrite E1, E2. destruct (quotient 52 ltac:(lia)) as (_ & A1 & A2). destruct (quotient 2 ltac:(lia)) as (_ & B1 & B2).
  split; [split; [exact A1|rewrite A1; exact A2]|]. split; [split; [exact B1|rewrite B1; exact B2]|]. intros st. split; vm_compute; reflexivity.
Qed.
(** Defects between 0.00012 and 0.00018: the text says between 0.0002 and 0.0001, and both are refused. *)
Theorem C97_reversed_refuted :
  let lo := of_ratio 12 100000 in let hi := of_ratio 18 100000 in
  written (named_lower lo) 2 /\ written (named_upper hi) 1 /\
  forall st, complaint lo hi st [fzero] = Some (named_lower lo, named_upper hi) /\
    snd (setDefectSizes lo hi st [named_lower lo]) = Raise ValueError /\ snd (setDefectSizes lo hi st [named_upper hi]) = Raise ValueError.
Proof.
  cbn zeta. assert (E1 : named_lower (of_ratio 12 100000) = fdiv (of_int 2) (of_int 10000)) by (vm_compute; reflexivity).
  assert (E2 : named_upper (of_ratio 18 100000) = fdiv (of_int 1) (of_int 10000)) by (vm_compute; reflexivity).
  rewrite E1, E2. destruct (quotient 2 ltac:(lia)) as (_ & A1 & A2). destruct (quotient 1 ltac:(lia)) as (_ & B1 & B2).
  split; [split; [exact A1|rewrite A1; exact A2]|]. split; [split; [exact B1|rewrite B1; exact B2]|]. intros st. split; [|split]; vm_compute; reflexivity.
Qed.
(** The hypotheses on four decimals: defects from 0.0051 to 1.25. *)
Example C97_case : moderate (of_ratio 51 10000) /\ moderate (of_ratio 12500 10000) /\ fR (of_ratio 51 10000) = rnd (IZR 51 / 10000) /\ fR (of_ratio 12500 10000) = rnd (IZR 12500 / 10000) /\
  forall st, exists l u, complaint (of_ratio 51 10000) (of_ratio 12500 10000) st [fone; of_int 2] = Some (l, u) /\ fltb l u = true.
Proof.
  destruct (quotient 51 ltac:(lia)) as (A1 & A2 & A3). destruct (quotient 12500 ltac:(lia)) as (B1 & B2 & B3).
  assert (M : forall k, Rabs (rnd (IZR k / 10000) - IZR k / 10000) < 1 / 20000 -> 0 <= IZR k <= 20000 -> Rabs (rnd (IZR k / 10000)) <= IZR (2 ^ 30)).
  { intros k H1 H2. apply Rabs_lt_inv in H1. change (2 ^ 30)%Z with 1073741824%Z. apply Rabs_le. lra. }
  unfold of_ratio. split; [split; [exact A1|rewrite A2; apply M; [exact A3|lra]]|]. split; [split; [exact B1|rewrite B2; apply M; [exact B3|lra]]|].
  split; [exact A2|]. split; [exact B2|]. intros st. eexists _, _. split; vm_compute; reflexivity.
Qed.
Print Assumptions C97_lower.
Print Assumptions C97_upper.
Print Assumptions C97_four_decimals.
Print Assumptions C97_sizes_between.
Print Assumptions C97_complaint.
Print Assumptions C97_refused_refuted.
Print Assumptions C97_tight_refuted.
Print Assumptions C97_reversed_refuted.
