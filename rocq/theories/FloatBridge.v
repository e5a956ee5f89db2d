(** Real number meaning of the binary64 operations of Float64.v, through Flocq's verified IEEE 754 library.
    The first lemmas identify the standard library's [SpecFloat] operations with Flocq's (proofs follow
    Flocq.IEEE754.PrimFloat, without the primitive floats). *)
From Coq Require Import SpecFloat Reals Lra.
From Flocq Require Import Core BinarySingleNaN.
From Verif Require Import Base Float64.

Local Instance Hprec : FLX.Prec_gt_0 53 := eq_refl _.
Local Instance Hmax : Prec_lt_emax 53 1024 := eq_refl _.
Local Notation bf := (binary_float 53 1024).

Lemma round_nearest_even_equiv s m l : round_nearest_even m l = choice_mode mode_NE s m l.
Proof.
  destruct l as [|c]; [reflexivity|]. destruct c; [|reflexivity..].
  cbn. unfold Round.cond_incr. now destruct (Z.even m).
Qed.
Lemma binary_round_aux_equiv sx mx ex lx :
  SpecFloat.binary_round_aux 53 1024 sx mx ex lx = BinarySingleNaN.binary_round_aux 53 1024 mode_NE sx mx ex lx.
Proof.
  unfold SpecFloat.binary_round_aux, BinarySingleNaN.binary_round_aux.
  set (mrse' := shr_fexp _ _ _). destruct mrse' as [mrs' e']. cbn.
  now rewrite (round_nearest_even_equiv sx).
Qed.
Lemma binary_round_equiv s m e :
  SpecFloat.binary_round 53 1024 s m e = BinarySingleNaN.binary_round 53 1024 mode_NE s m e.
Proof.
  unfold SpecFloat.binary_round, BinarySingleNaN.binary_round, shl_align_fexp.
  set (mez := shl_align _ _ _). destruct mez as [mz ez]. apply binary_round_aux_equiv.
Qed.
Lemma binary_normalize_equiv m e szero :
  SpecFloat.binary_normalize 53 1024 m e szero
  = B2SF (BinarySingleNaN.binary_normalize 53 1024 Hprec Hmax mode_NE m e szero).
Proof.
  destruct m as [|p|p].
  - reflexivity.
  - simpl; rewrite B2SF_SF2B; apply binary_round_equiv.
  - simpl; rewrite B2SF_SF2B; apply binary_round_equiv.
Qed.
Lemma fmul_equiv (x y : bf) : fmul (B2SF x) (B2SF y) = B2SF (Bmult mode_NE x y).
Proof.
  destruct x as [sx|sx| |sx mx ex Bx], y as [sy|sy| |sy my ey By]; try reflexivity.
  simpl. rewrite B2SF_SF2B. apply binary_round_aux_equiv.
Qed.
Lemma fadd_equiv (x y : bf) : fadd (B2SF x) (B2SF y) = B2SF (Bplus mode_NE x y).
Proof.
  destruct x as [sx|sx| |sx mx ex Bx], y as [sy|sy| |sy my ey By];
    try reflexivity; try (simpl; now destruct (Bool.eqb _ _)).
  apply binary_normalize_equiv.
Qed.
Lemma fsub_equiv (x y : bf) : fsub (B2SF x) (B2SF y) = B2SF (Bminus mode_NE x y).
Proof.
  destruct x as [sx|sx| |sx mx ex Bx], y as [sy|sy| |sy my ey By];
    try reflexivity; try (simpl; now destruct (Bool.eqb _ _)).
  simpl. unfold Zminus. rewrite <- cond_Zopp_negb. apply binary_normalize_equiv.
Qed.
Lemma fdiv_equiv (x y : bf) : fdiv (B2SF x) (B2SF y) = B2SF (Bdiv mode_NE x y).
Proof.
  destruct x as [sx|sx| |sx mx ex Bx], y as [sy|sy| |sy my ey By];
    try reflexivity; try (simpl; now destruct (Bool.eqb _ _)).
  simpl. rewrite B2SF_SF2B.
  set (melz := SFdiv_core_binary _ _ _ _ _ _). destruct melz as [[mz ez] lz]. apply binary_round_aux_equiv.
Qed.

(** *** Interface *)
Definition fvalid (f : float) : Prop := SpecFloat.valid_binary 53 1024 f = true.
Definition ffinite (f : float) : bool := is_finite_SF f.
Definition fR (f : float) : R := SF2R radix2 f.
(** A finite double. *)
Definition fin (f : float) : Prop := fvalid f /\ ffinite f = true.
Definition rnd (x : R) : R := round radix2 (SpecFloat.fexp 53 1024) (round_mode mode_NE) x.

Local Open Scope R_scope.
Lemma fin_B f : fin f -> exists b : bf, f = B2SF b /\ is_finite b = true /\ B2R b = fR f.
Proof.
  intros [Hv Hf]. exists (SF2B f Hv). rewrite B2SF_SF2B, B2R_SF2B. split; [reflexivity|].
  split; [|reflexivity]. now destruct f.
Qed.
Lemma B_fin (b : bf) : is_finite b = true -> fin (B2SF b).
Proof. intros H. split; [apply valid_binary_B2SF|]. now destruct b. Qed.
Lemma fR_B (b : bf) : fR (B2SF b) = B2R b.
Proof. apply SF2R_B2SF. Qed.
Lemma fin_not_nan f : fin f -> is_nan f = false.
Proof. intros [_ H]. now destruct f. Qed.

#[local] Instance fexp_valid : Valid_exp (SpecFloat.fexp 53 1024) := @fexp_correct 53 1024 Hprec.
Lemma rnd_le x y : x <= y -> rnd x <= rnd y.
Proof. apply round_le; [exact fexp_valid|apply valid_rnd_round_mode]. Qed.
Lemma rnd_fin f : fin f -> rnd (fR f) = fR f.
Proof.
  intros H. destruct (fin_B f H) as [b [-> [_ _]]]. rewrite fR_B. unfold rnd.
  apply round_generic; [apply valid_rnd_round_mode|apply generic_format_B2R].
Qed.
(** Integers up to 2^53 are representable. *)
Lemma generic_IZR n : (Z.abs n <= 2 ^ 53)%Z -> generic_format radix2 (SpecFloat.fexp 53 1024) (IZR n).
Proof.
  intros H. change (SpecFloat.fexp 53 1024) with (FLT_exp (-1074) 53).
  apply generic_format_FLT.
  destruct (Z.eq_dec (Z.abs n) (2 ^ 53)) as [E|Hne].
  - assert (n = 2 ^ 53 \/ n = - 2 ^ 53)%Z as [->| ->] by lia.
    + exists (Float radix2 1 53); cbn; [unfold F2R; cbn; lra|lia|lia].
    + exists (Float radix2 (-1) 53); cbn; [unfold F2R; cbn; lra|lia|lia].
  - exists (Float radix2 n 0); [unfold F2R; cbn; lra|cbn; lia|cbn; lia].
Qed.
Lemma rnd_IZR n : (Z.abs n <= 2 ^ 53)%Z -> rnd (IZR n) = IZR n.
Proof. intros H. apply round_generic; [apply valid_rnd_round_mode|now apply generic_IZR]. Qed.

(** No overflow below 2^1023. *)
Lemma no_overflow x : Rabs x <= bpow radix2 1023 -> Rlt_bool (Rabs (rnd x)) (bpow radix2 1024) = true.
Proof.
  intros H. apply Rlt_bool_true.
  apply Rle_lt_trans with (bpow radix2 1023); [|apply bpow_lt; lia].
  unfold rnd. apply abs_round_le_generic; try assumption.
  - exact fexp_valid.
  - apply valid_rnd_round_mode.
  - apply generic_format_bpow. unfold SpecFloat.fexp, emin. lia.
Qed.

Lemma fmul_R a b : fin a -> fin b -> Rabs (fR a * fR b) <= bpow radix2 1023 ->
  fin (fmul a b) /\ fR (fmul a b) = rnd (fR a * fR b).
Proof.
  intros Ha Hb H. destruct (fin_B a Ha) as [x [-> [Fx Ex]]], (fin_B b Hb) as [y [-> [Fy Ey]]].
  rewrite fmul_equiv. rewrite <- Ex, <- Ey in *.
  assert (C := Bmult_correct 53 1024 Hprec Hmax mode_NE x y).
  assert (N := no_overflow _ H). unfold rnd in N. rewrite N in C. destruct C as [C1 [C2 _]].
  split; [apply B_fin; rewrite C2, Fx, Fy; reflexivity|]. now rewrite fR_B.
Qed.
Lemma fadd_R a b : fin a -> fin b -> Rabs (fR a + fR b) <= bpow radix2 1023 ->
  fin (fadd a b) /\ fR (fadd a b) = rnd (fR a + fR b).
Proof.
  intros Ha Hb H. destruct (fin_B a Ha) as [x [-> [Fx Ex]]], (fin_B b Hb) as [y [-> [Fy Ey]]].
  rewrite fadd_equiv. rewrite <- Ex, <- Ey in *.
  assert (C := Bplus_correct 53 1024 Hprec Hmax mode_NE x y Fx Fy).
  assert (N := no_overflow _ H). unfold rnd in N. rewrite N in C. destruct C as [C1 [C2 _]].
  split; [apply B_fin; exact C2|]. now rewrite fR_B.
Qed.
Lemma fsub_R a b : fin a -> fin b -> Rabs (fR a - fR b) <= bpow radix2 1023 ->
  fin (fsub a b) /\ fR (fsub a b) = rnd (fR a - fR b).
Proof.
  intros Ha Hb H. destruct (fin_B a Ha) as [x [-> [Fx Ex]]], (fin_B b Hb) as [y [-> [Fy Ey]]].
  rewrite fsub_equiv. rewrite <- Ex, <- Ey in *.
  assert (C := Bminus_correct 53 1024 Hprec Hmax mode_NE x y Fx Fy).
  assert (N := no_overflow _ H). unfold rnd in N. rewrite N in C. destruct C as [C1 [C2 _]].
  split; [apply B_fin; exact C2|]. now rewrite fR_B.
Qed.
Lemma fdiv_R a b : fin a -> fin b -> fR b <> 0 -> Rabs (fR a / fR b) <= bpow radix2 1023 ->
  fin (fdiv a b) /\ fR (fdiv a b) = rnd (fR a / fR b).
Proof.
  intros Ha Hb Hn H. destruct (fin_B a Ha) as [x [-> [Fx Ex]]], (fin_B b Hb) as [y [-> [Fy Ey]]].
  rewrite fdiv_equiv. rewrite <- Ex, <- Ey in *.
  assert (C := Bdiv_correct 53 1024 Hprec Hmax mode_NE x y Hn).
  assert (N := no_overflow _ H). unfold rnd in N. rewrite N in C. destruct C as [C1 [C2 _]].
  split; [apply B_fin; rewrite C2; exact Fx|]. now rewrite fR_B.
Qed.
Lemma fleb_R a b : fin a -> fin b -> (fleb a b = true <-> fR a <= fR b).
Proof.
  intros Ha Hb. destruct (fin_B a Ha) as [x [-> [Fx Ex]]], (fin_B b Hb) as [y [-> [Fy Ey]]].
  change (fleb (B2SF x) (B2SF y)) with (Bleb x y). rewrite Bleb_correct by assumption. rewrite <- Ex, <- Ey.
  split; [intros H|intros H; now apply Rle_bool_true].
  destruct (Rle_bool_spec (B2R x) (B2R y)); [assumption|discriminate].
Qed.
Lemma fltb_R a b : fin a -> fin b -> (fltb a b = true <-> fR a < fR b).
Proof.
  intros Ha Hb. destruct (fin_B a Ha) as [x [-> [Fx Ex]]], (fin_B b Hb) as [y [-> [Fy Ey]]].
  change (fltb (B2SF x) (B2SF y)) with (Bltb x y). rewrite Bltb_correct by assumption. rewrite <- Ex, <- Ey.
  split; [intros H|intros H; now apply Rlt_bool_true].
  destruct (Rlt_bool_spec (B2R x) (B2R y)); [assumption|discriminate].
Qed.
Lemma of_int_R n : (Z.abs n <= 2 ^ 53)%Z -> fin (of_int n) /\ fR (of_int n) = IZR n.
Proof.
  intros H. unfold of_int, fofZ. rewrite binary_normalize_equiv.
  assert (C := binary_normalize_correct 53 1024 Hprec Hmax mode_NE n 0 false). cbv zeta in C.
  assert (E : F2R (Float radix2 n 0) = IZR n) by (unfold F2R; cbn; lra).
  rewrite E in C.
  assert (N : Rlt_bool (Rabs (rnd (IZR n))) (bpow radix2 1024) = true).
  { apply no_overflow. rewrite <- abs_IZR. apply Rle_trans with (IZR (2 ^ 53)); [now apply IZR_le|].
    change (IZR (2 ^ 53)) with (bpow radix2 53). apply bpow_le. lia. }
  unfold rnd in N. rewrite N in C. destruct C as [C1 [C2 _]].
  split; [now apply B_fin|]. rewrite fR_B, C1. now apply rnd_IZR.
Qed.

Lemma Rle_div_r' a b c : 0 < c -> a * c <= b -> a <= b / c.
Proof.
  intros Hc H. apply Rmult_le_reg_r with c; [assumption|]. unfold Rdiv.
  rewrite Rmult_assoc, Rinv_l by lra. lra.
Qed.
Lemma Rdiv_lt_l' a b c : 0 < c -> a < b * c -> a / c < b.
Proof.
  intros Hc H. apply Rmult_lt_reg_r with c; [assumption|]. unfold Rdiv.
  rewrite Rmult_assoc, Rinv_l by lra. lra.
Qed.

(** A float between two finite ones is finite. *)
Lemma fleb_fin a f b : fvalid f -> fin a -> fin b -> fleb a f = true -> fleb f b = true -> fin f.
Proof.
  intros Hv Ha Hb H1 H2. split; [exact Hv|].
  destruct f as [s|s| |s m e]; try reflexivity; cbn in *; try discriminate.
  - exfalso. destruct s.
    + destruct Ha as [_ Ha]. now destruct a as [s'|s'| |[] m' e'].
    + destruct Hb as [_ Hb]. now destruct b as [s'|s'| |[] m' e'].
Qed.

(** [int] on a non-negative finite double is the floor. *)
Lemma ftrunc_floor f : fin f -> 0 <= fR f -> ftrunc f = Some (Zfloor (fR f)).
Proof.
  intros [_ Hf] H. destruct f as [s|s| |s m e]; try discriminate; cbn [ftrunc].
  - change (fR (S754_zero s)) with 0. now rewrite (Zfloor_IZR 0).
  - assert (Hs : s = false).
    { destruct s; [|reflexivity]. exfalso. unfold fR, SF2R in H. cbn in H.
      assert (F2R (Float radix2 (Zneg m) e) < 0) by (apply F2R_lt_0; cbn; lia). lra. }
    subst s. f_equal. unfold fR, SF2R. cbn [cond_Zopp].
    destruct (Z.leb_spec 0 e) as [He|He].
    + unfold F2R. cbn [Fnum Fexp]. rewrite <- (IZR_Zpower radix2) by lia. rewrite <- mult_IZR.
      now rewrite Zfloor_IZR.
    + unfold F2R. cbn [Fnum Fexp]. symmetry. apply Zfloor_imp.
      assert (Hb : bpow radix2 e = / IZR (2 ^ (- e))).
      { rewrite <- (Z.opp_involutive e) at 1. rewrite bpow_opp. f_equal. now rewrite <- (IZR_Zpower radix2) by lia. }
      assert (Hp : (0 < 2 ^ (- e))%Z) by (apply Z.pow_pos_nonneg; lia).
      assert (HpR : 0 < IZR (2 ^ (- e))) by now apply IZR_lt.
      rewrite Hb. change (IZR (Z.pos m) * / IZR (2 ^ - e)) with (IZR (Z.pos m) / IZR (2 ^ - e)).
      split.
      * apply Rle_div_r'; [assumption|]. rewrite <- mult_IZR. apply IZR_le.
        rewrite Z.mul_comm. now apply Z.mul_div_le.
      * apply Rdiv_lt_l'; [assumption|]. rewrite <- mult_IZR. apply IZR_lt.
        rewrite Z.mul_comm. rewrite Z.add_1_r. now apply Z.mul_succ_div_gt.
Qed.
