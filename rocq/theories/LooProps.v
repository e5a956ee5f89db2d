(** C31, C32: the leave-one-out shortcuts are exact. *)
From Verif Require Import RealBase MatBase LooModel.
Local Open Scope R_scope.

(** *** Specification of the kriging predictor *)
(** Dual form: alpha and beta are the coefficients of the kriging of the observations y with covariance matrix K and trend
    matrix F; the prediction at a point with covariances k and trend values f follows. *)
Definition is_kriging (n p : nat) (K F : mat) (y alpha beta : nat -> R) : Prop :=
  (forall i, (i < n)%nat -> bigsum n (fun j => K i j * alpha j) + bigsum p (fun a => F i a * beta a) = y i) /\
  (forall a, (a < p)%nat -> bigsum n (fun j => F j a * alpha j) = 0).
Definition predict (n p : nat) (k f alpha beta : nat -> R) : R := bigsum n (fun j => k j * alpha j) + bigsum p (fun a => f a * beta a).
(** The same thing as generalised least squares: with the inverse of K, beta solves F' K^-1 (y - F beta) = 0 and
    alpha = K^-1 (y - F beta). *)
Lemma kriging_is_gls n p K F Ki y alpha beta : is_inverse n K Ki ->
  (is_kriging n p K F y alpha beta <->
   (forall j, (j < n)%nat -> alpha j = bigsum n (fun i => Ki j i * (y i - bigsum p (fun a => F i a * beta a)))) /\
   (forall a, (a < p)%nat -> bigsum n (fun j => F j a * bigsum n (fun i => Ki j i * (y i - bigsum p (fun a => F i a * beta a)))) = 0)).
Proof.
  intros [I1 I2]. set (r := fun i => y i - bigsum p (fun a => F i a * beta a)).
  assert (A : (forall i, (i < n)%nat -> bigsum n (fun j => K i j * alpha j) = r i) <->
              (forall j, (j < n)%nat -> alpha j = bigsum n (fun i => Ki j i * r i))).
  { split; intros H j Hj.
    - rewrite (bigsum_ext n _ (fun i => Ki j i * bigsum n (fun l => K i l * alpha l))) by (intros i Hi; now rewrite <- H).
      rewrite (bigsum_ext n _ (fun i => bigsum n (fun l => Ki j i * K i l * alpha l))) by (intros i _; rewrite <- bigsum_scal; apply bigsum_ext; intros; ring).
      rewrite bigsum_swap. rewrite (bigsum_ext n _ (fun l => mmul n Ki K j l * alpha l)) by (intros l _; unfold mmul; now rewrite bigsum_scal_r).
      rewrite (bigsum_one n j); [rewrite (I1 j j Hj Hj); unfold mid; rewrite Nat.eqb_refl; ring|assumption|].
      intros l Hl Hlj. rewrite (I1 j l Hj Hl). unfold mid. destruct (Nat.eqb_spec j l); [congruence|ring].
    - rewrite (bigsum_ext n _ (fun i => K j i * bigsum n (fun l => Ki i l * r l))) by (intros i Hi; now rewrite <- H).
      rewrite (bigsum_ext n _ (fun i => bigsum n (fun l => K j i * Ki i l * r l))) by (intros i _; rewrite <- bigsum_scal; apply bigsum_ext; intros; ring).
      rewrite bigsum_swap. rewrite (bigsum_ext n _ (fun l => mmul n K Ki j l * r l)) by (intros l _; unfold mmul; now rewrite bigsum_scal_r).
      rewrite (bigsum_one n j); [rewrite (I2 j j Hj Hj); unfold mid; rewrite Nat.eqb_refl; ring|assumption|].
      intros l Hl Hlj. rewrite (I2 j l Hj Hl). unfold mid. destruct (Nat.eqb_spec j l); [congruence|ring]. }
  unfold is_kriging. split.
  - intros [H1 H2]. assert (G : forall j, (j < n)%nat -> alpha j = bigsum n (fun i => Ki j i * r i)) by
      (apply A; intros i Hi; unfold r; rewrite <- (H1 i Hi); ring).
    split; [exact G|]. intros a Ha. rewrite <- (H2 a Ha). apply bigsum_ext. intros j Hj. now rewrite (G j Hj).
  - intros [G1 G2]. assert (H := proj2 A G1). split.
    + intros i Hi. rewrite (H i Hi). unfold r. ring.
    + intros a Ha. rewrite <- (G2 a Ha). apply bigsum_ext. intros j Hj. now rewrite (G1 j Hj).
Qed.
(** Removing observation i. *)
Definition without (i : nat) (y : nat -> R) : nat -> R := fun j => y (skip i j).
Definition without2 (i : nat) (K : mat) : mat := fun j l => K (skip i j) (skip i l).
Definition without_row (i : nat) (F : mat) : mat := fun j a => F (skip i j) a.

Lemma skip_neq i j : skip i j <> i.
Proof. unfold skip. destruct (Nat.ltb_spec j i); lia. Qed.
Lemma skip_lt n i j : (i < S n)%nat -> (j < n)%nat -> (skip i j < S n)%nat.
Proof. unfold skip. destruct (Nat.ltb_spec j i); lia. Qed.
Lemma skip_surj n i k : (k < S n)%nat -> (i < S n)%nat -> k <> i -> exists j, (j < n)%nat /\ skip i j = k.
Proof.
  intros Hk Hi H. destruct (Nat.ltb_spec k i).
  - exists k. split; [lia|]. unfold skip. now rewrite (proj2 (Nat.ltb_lt k i)).
  - exists (k - 1)%nat. split; [lia|]. unfold skip. rewrite (proj2 (Nat.ltb_ge (k - 1) i)) by lia. lia.
Qed.
Lemma block_KK n K F i j : (i < n)%nat -> (j < n)%nat -> block_matrix n K F i j = K i j.
Proof. intros Hi Hj. unfold block_matrix. now rewrite (proj2 (Nat.ltb_lt i n) Hi), (proj2 (Nat.ltb_lt j n) Hj). Qed.
Lemma block_KF n K F i a : (i < n)%nat -> block_matrix n K F i (n + a)%nat = F i a.
Proof.
  intros Hi. unfold block_matrix. rewrite (proj2 (Nat.ltb_lt i n) Hi), (proj2 (Nat.ltb_ge (n + a) n)) by lia. f_equal. lia.
Qed.
Lemma block_FK n K F a j : (j < n)%nat -> block_matrix n K F (n + a)%nat j = F j a.
Proof.
  intros Hj. unfold block_matrix. rewrite (proj2 (Nat.ltb_lt j n) Hj), (proj2 (Nat.ltb_ge (n + a) n)) by lia. f_equal. lia.
Qed.
Lemma block_FF n K F a b : block_matrix n K F (n + a)%nat (n + b)%nat = 0.
Proof. unfold block_matrix. now rewrite !(proj2 (Nat.ltb_ge _ n)) by lia. Qed.

Section Loo.
  Variables (m p : nat) (K F M : mat).
  Notation n := (S m).
  Hypothesis HM : is_inverse (n + p) (block_matrix n K F) M.
  Variable y : nat -> R.
  Variable i : nat.
  Hypothesis Hi : (i < n)%nat.

  (** Row i of M S = I, split by blocks. *)
  Lemma row_K c : (c < n)%nat -> bigsum n (fun r => M i r * K r c) + bigsum p (fun b => M i (n + b)%nat * F c b) = mid i c.
  Proof.
    intros Hc. destruct HM as [H _]. rewrite <- (H i c) by lia. unfold mmul. rewrite bigsum_app. f_equal; apply bigsum_ext; intros r Hr.
    - now rewrite block_KK.
    - now rewrite block_FK.
  Qed.
  Lemma row_F a : (a < p)%nat -> bigsum n (fun r => M i r * F r a) = 0.
  Proof.
    intros Ha. destruct HM as [H _]. assert (E := H i (n + a)%nat ltac:(lia) ltac:(lia)). unfold mmul in E. rewrite bigsum_app in E.
    rewrite (bigsum_ext n _ (fun r => M i r * F r a)) in E by (intros r Hr; now rewrite block_KF).
    rewrite (bigsum_zero p) in E by (intros b _; rewrite block_FF; ring). unfold mid in E.
    destruct (Nat.eqb_spec i (n + a)); [lia|]. lra.
  Qed.
  Definition loo_predict (alpha beta : nat -> R) : R := predict m p (fun j => K i (skip i j)) (F i) alpha beta.
  Lemma loo_key alpha beta y' : is_kriging m p (without2 i K) (without_row i F) y' alpha beta ->
    M i i * loo_predict alpha beta + bigsum m (fun q => M i (skip i q) * y' q) = 0.
  Proof.
    intros [H1 H2].
    set (br := fun r => bigsum m (fun j => K r (skip i j) * alpha j) + bigsum p (fun a => F r a * beta a)).
    assert (E : bigsum n (fun r => M i r * br r) + bigsum p (fun b => M i (n + b)%nat * bigsum m (fun j => F (skip i j) b * alpha j)) = 0).
    { assert (E1 : bigsum m (fun j => (bigsum n (fun r => M i r * K r (skip i j)) + bigsum p (fun b => M i (n + b)%nat * F (skip i j) b)) * alpha j) = 0).
      { apply bigsum_zero. intros j Hj. rewrite row_K by now apply skip_lt. unfold mid. destruct (Nat.eqb_spec i (skip i j)) as [e|_]; [|ring].
        exfalso. now apply (skip_neq i j). }
      assert (E2 : bigsum p (fun a => bigsum n (fun r => M i r * F r a) * beta a) = 0).
      { apply bigsum_zero. intros a Ha. rewrite row_F by assumption. ring. }
      unfold br.
      rewrite (bigsum_ext n _ (fun r => bigsum m (fun j => M i r * K r (skip i j) * alpha j) + bigsum p (fun a => M i r * F r a * beta a))).
      2:{ intros r _. rewrite Rmult_plus_distr_l, <- !bigsum_scal. f_equal; apply bigsum_ext; intros; ring. }
      rewrite bigsum_plus.
      rewrite (bigsum_swap n m), (bigsum_swap n p).
      rewrite (bigsum_ext p (fun b => M i (n + b)%nat * _) (fun b => bigsum m (fun j => M i (n + b)%nat * F (skip i j) b * alpha j))).
      2:{ intros b _. rewrite <- bigsum_scal. apply bigsum_ext; intros; ring. }
      rewrite (bigsum_swap p m).
      rewrite (bigsum_ext p (fun j => bigsum n _) (fun a => bigsum n (fun r => M i r * F r a) * beta a)) by (intros a _; now rewrite bigsum_scal_r).
      rewrite E2. rewrite <- E1 at 2.
      rewrite Rplus_0_r, <- bigsum_plus. apply bigsum_ext. intros j _. rewrite !bigsum_scal_r. ring. }
    rewrite (bigsum_zero p) in E.
    2:{ intros b Hb. unfold without_row in H2. rewrite (H2 b Hb). ring. }
    rewrite (bigsum_skip m i) in E by lia. unfold loo_predict, predict. fold (br i).
    rewrite (bigsum_ext m (fun q => M i (skip i q) * y' q) (fun q => M i (skip i q) * br (skip i q))); [lra|].
    intros q Hq. f_equal. symmetry. apply (H1 q Hq).
  Qed.
  Lemma loo_formula : bigsum n (fun k => M i k * (1 - mid i k) / M i i * y k) = bigsum m (fun q => M i (skip i q) * y (skip i q)) / M i i.
  Proof.
    rewrite (bigsum_skip m i) by lia. unfold mid at 1. rewrite Nat.eqb_refl.
    replace (M i i * (1 - 1) / M i i * y i) with 0 by (unfold Rdiv; ring). rewrite Rplus_0_l. unfold Rdiv. rewrite <- bigsum_scal_r.
    apply bigsum_ext. intros q _. unfold mid. destruct (Nat.eqb_spec i (skip i q)) as [e|_]; [|ring]. exfalso. now apply (skip_neq i q).
  Qed.
  (** Extension of the coefficients without observation i to all the observations. *)
  Lemma col_i r : (r < n + p)%nat -> bigsum n (fun c => block_matrix n K F r c * M c i) + bigsum p (fun b => block_matrix n K F r (n + b)%nat * M (n + b)%nat i) = mid r i.
  Proof. intros Hr. destruct HM as [_ H]. rewrite <- (H r i Hr ltac:(lia)). unfold mmul. now rewrite bigsum_app. Qed.
End Loo.

(** The prediction used for Q2 is the prediction at observation i of the kriging of the other observations (with the same
    covariance and the same trend). *)
Theorem C31_loo_is_exact :
  forall m p K F M y i v, is_inverse (S m + p) (block_matrix (S m) K F) M -> (i < S m)%nat ->
  y_loo (S m) M y i = Some v ->
  forall alpha beta, is_kriging m p (without2 i K) (without_row i F) (without i y) alpha beta ->
  predict m p (fun j => K i (skip i j)) (F i) alpha beta = v.
Proof.
  intros m p K F M y i v HM Hi Hv alpha beta Hk. unfold y_loo in Hv. destruct (Reqb_spec (M i i) 0) as [|Hd]; [discriminate|].
  rewrite (loo_formula m M y i Hi) in Hv. injection Hv as <-. assert (E := loo_key m p K F M HM i Hi alpha beta _ Hk).
  unfold loo_predict in E. unfold without in E. apply (Rmult_eq_reg_l (M i i)); [|assumption].
  replace (M i i * - (bigsum m (fun q => M i (skip i q) * y (skip i q)) / M i i)) with (- bigsum m (fun q => M i (skip i q) * y (skip i q))) by (field; assumption).
  lra.
Qed.
(** It is a number exactly when the kriging of the other observations is well posed: then that kriging exists, and otherwise it is
    not determined (its homogeneous system has a solution that is not zero). *)
Theorem C31_loo_defined :
  forall m p K F M y i, is_inverse (S m + p) (block_matrix (S m) K F) M -> (i < S m)%nat ->
  (y_loo (S m) M y i <> None ->
     exists alpha beta, is_kriging m p (without2 i K) (without_row i F) (without i y) alpha beta) /\
  (y_loo (S m) M y i = None ->
     exists alpha beta, is_kriging m p (without2 i K) (without_row i F) (fun _ => 0) alpha beta /\
       predict m p (fun j => K i (skip i j)) (F i) alpha beta = 1).
Proof.
  intros m p K F M y i HM Hi.
  (* w = M (y, 0) - t M e_i, seen on the reduced system *)
  assert (G : forall (u : nat -> R) t, (forall a, (a < p)%nat -> u (S m + a)%nat = 0) ->
    let w c := bigsum (S m + p) (fun k => M c k * u k) - t * M c i in
    w i = 0 -> is_kriging m p (without2 i K) (without_row i F) (without i u) (fun j => w (skip i j)) (fun a => w (S m + a)%nat) /\
    predict m p (fun j => K i (skip i j)) (F i) (fun j => w (skip i j)) (fun a => w (S m + a)%nat) = u i - t).
  { intros u t Hu w Hw.
    assert (Sw : forall r, (r < S m + p)%nat -> bigsum (S m + p) (fun c => block_matrix (S m) K F r c * w c) = u r - t * mid r i).
    { intros r Hr. unfold w. rewrite (bigsum_ext _ _ (fun c => bigsum (S m + p) (fun k => block_matrix (S m) K F r c * M c k * u k) - t * (block_matrix (S m) K F r c * M c i))).
      2:{ intros c _. rewrite Rmult_minus_distr_l, <- bigsum_scal. f_equal; [apply bigsum_ext; intros; ring|ring]. }
      rewrite bigsum_minus, bigsum_scal, bigsum_swap. destruct HM as [_ H]. f_equal.
      - rewrite (bigsum_ext _ _ (fun k => mmul (S m + p) (block_matrix (S m) K F) M r k * u k)) by (intros k _; unfold mmul; now rewrite bigsum_scal_r).
        rewrite (bigsum_one _ r); [rewrite (H r r Hr Hr); unfold mid; rewrite Nat.eqb_refl; ring|assumption|].
        intros l Hl Hlr. rewrite (H r l Hr Hl). unfold mid. destruct (Nat.eqb_spec r l); [congruence|ring].
      - f_equal. apply (H r i Hr). lia. }
    assert (Split : forall r, bigsum (S m + p) (fun c => block_matrix (S m) K F r c * w c) =
              bigsum m (fun j => block_matrix (S m) K F r (skip i j) * w (skip i j)) + bigsum p (fun a => block_matrix (S m) K F r (S m + a)%nat * w (S m + a)%nat)).
    { intros r. rewrite bigsum_app, (bigsum_skip m i) by lia. rewrite Hw. ring. }
    assert (Top : forall r, (r < S m)%nat -> bigsum m (fun j => K r (skip i j) * w (skip i j)) + bigsum p (fun a => F r a * w (S m + a)%nat) = u r - t * mid r i).
    { intros r Hr. rewrite <- Sw by lia. rewrite Split. f_equal; apply bigsum_ext; intros j Hj.
      - rewrite block_KK; [reflexivity|assumption|]. apply skip_lt; lia.
      - now rewrite block_KF. }
    split; [split|].
    - intros q Hq. assert (Hs : (skip i q < S m)%nat) by (apply skip_lt; lia). unfold without2, without_row, without. rewrite (Top _ Hs).
      unfold mid. destruct (Nat.eqb_spec (skip i q) i) as [e|_]; [now apply skip_neq in e|ring].
    - intros a Ha. unfold without_row. assert (E := Sw (S m + a)%nat ltac:(lia)). rewrite Split in E.
      rewrite (bigsum_zero p) in E by (intros b _; rewrite block_FF; ring).
      rewrite (bigsum_ext m _ (fun j => F (skip i j) a * w (skip i j))) in E by (intros j Hj; rewrite block_FK; [reflexivity|apply skip_lt; lia]).
      rewrite (Hu a Ha) in E. unfold mid in E. destruct (Nat.eqb_spec (S m + a) i); [lia|]. lra.
    - unfold predict. rewrite (Top i Hi). unfold mid. rewrite Nat.eqb_refl. ring. }
  unfold y_loo. destruct (Reqb_spec (M i i) 0) as [Hz|Hd].
  - split; [congruence|]. intros _.
    assert (W := G (fun _ => 0) (-1) ltac:(reflexivity)). cbv zeta in W.
    assert (Z : forall c, bigsum (S m + p) (fun k => M c k * 0) = 0) by (intros c; apply bigsum_zero; intros; ring).
    destruct W as [W1 W2]; [rewrite Z, Hz; ring|]. eexists. eexists. split; [exact W1|]. rewrite W2. ring.
  - split; [|discriminate]. intros _. set (u := fun k => if Nat.ltb k (S m) then y k else 0).
    set (t := bigsum (S m + p) (fun k => M i k * u k) / M i i).
    assert (W := G u t). cbv zeta in W. destruct W as [W1 _].
    + intros a Ha. unfold u. now rewrite (proj2 (Nat.ltb_ge (S m + a) (S m))) by lia.
    + unfold t. field. assumption.
    + destruct W1 as [V1 V2]. eexists. eexists. split; [|exact V2]. intros q Hq. etransitivity; [apply (V1 q Hq)|]. unfold without, u.
      now rewrite (proj2 (Nat.ltb_lt (skip i q) (S m))) by (apply skip_lt; lia).
Qed.

(** *** Q2 *)
Lemma Some_inj {A} (a b : A) : Some a = Some b -> a = b.
Proof. now intros [= ->]. Qed.
Lemma vss_nonneg n y : 0 <= vss n y.
Proof. apply bigsum_nonneg. intros i _. apply Rle_0_sqr. Qed.
Lemma bigsum_sqr_zero n (f : nat -> R) : bigsum n (fun i => f i * f i) = 0 -> forall i, (i < n)%nat -> f i = 0.
Proof.
  induction n; [intros _ i Hi; lia|]. cbn [bigsum]. intros H i Hi.
  assert (0 <= bigsum n (fun i => f i * f i)) by (apply bigsum_nonneg; intros ? _; apply Rle_0_sqr).
  assert (f n * f n = 0) by nra. destruct (Nat.eq_dec i n) as [->|]; [nra|]. apply IHn; [nra|lia].
Qed.
Lemma vss_zero n y : (0 < n)%nat -> (vss n y = 0 <-> forall i j, (i < n)%nat -> (j < n)%nat -> y i = y j).
Proof.
  intros Hn. split.
  - intros H i j Hi Hj. assert (Z := bigsum_sqr_zero n (fun i => y i - vmean n y) H). assert (Zi := Z i Hi). assert (Zj := Z j Hj). cbn in *. lra.
  - intros H. apply bigsum_zero. intros i Hi. assert (vmean n y = y i) as ->; [|ring].
    unfold vmean. rewrite (bigsum_ext n y (fun _ => y i)) by (intros j Hj; now apply H). rewrite bigsum_const. field.
    assert (P := INR_pos n Hn). lra.
Qed.
(** Q2 of the kriging is 1 - PRESS / total sum of squares with the exact leave-one-out errors; it is a number unless all the
    outputs are equal, at most 1, and 1 only for perfect leave-one-out predictions. *)
Theorem C31_q2 :
  forall m p K F M y loo, is_inverse (S m + p) (block_matrix (S m) K F) M ->
  (forall i, (i < S m)%nat -> y_loo (S m) M y i = Some (loo i)) ->
  (kriging_q2 (S m) y loo = None <-> (forall i j, (i < S m)%nat -> (j < S m)%nat -> y i = y j)) /\
  forall q, kriging_q2 (S m) y loo = Some q ->
  (forall pred : nat -> R,
    (forall i, (i < S m)%nat -> exists alpha beta, is_kriging m p (without2 i K) (without_row i F) (without i y) alpha beta /\
        pred i = predict m p (fun j => K i (skip i j)) (F i) alpha beta) ->
    (1 - q) * vss (S m) y = bigsum (S m) (fun i => (y i - pred i) * (y i - pred i))) /\
  q <= 1 /\ (q = 1 <-> forall i, (i < S m)%nat -> loo i = y i).
Proof.
  intros m p K F M y loo HM HL. assert (P := INR_pos (S m) ltac:(lia)). assert (V := vss_nonneg (S m) y).
  assert (Z := vss_zero (S m) y ltac:(lia)).
  assert (ZD : vss (S m) y / INR (S m) = 0 <-> vss (S m) y = 0).
  { split; [|intros ->; unfold Rdiv; ring]. intros E. apply (f_equal (fun x => x * INR (S m))) in E. unfold Rdiv in E.
    rewrite Rmult_assoc, Rinv_l in E by lra. lra. }
  unfold kriging_q2, qdiv. destruct (Reqb_spec (vss (S m) y / INR (S m)) 0) as [E|E].
  - split; [split; [intros _; now apply Z, ZD|reflexivity]|discriminate].
  - split; [split; [discriminate|]; intros H; exfalso; apply E, ZD, Z, H|].
    intros q Hq0. cbn [option_map] in Hq0. apply Some_inj in Hq0. subst q. assert (VP : 0 < vss (S m) y) by (destruct (Req_dec (vss (S m) y) 0); [exfalso; tauto|lra]).
    set (pr := bigsum (S m) (fun i => (y i - loo i) * (y i - loo i))).
    assert (PR : 0 <= pr) by (apply bigsum_nonneg; intros ? _; apply Rle_0_sqr).
    assert (Q : 1 - pr / INR (S m) / (vss (S m) y / INR (S m)) = 1 - pr / vss (S m) y) by (field; lra).
    rewrite Q. split; [|split].
    + intros pred Hp. replace ((1 - (1 - pr / vss (S m) y)) * vss (S m) y) with pr by (field; lra). apply bigsum_ext. intros i Hi.
      destruct (Hp i Hi) as (al & be & Hk & ->). now rewrite (C31_loo_is_exact m p K F M y i (loo i) HM Hi (HL i Hi) al be Hk).
    + assert (0 <= pr / vss (S m) y) by (apply Rmult_le_pos; [lra|]; left; now apply Rinv_0_lt_compat). lra.
    + split.
      * intros H. assert (pr = 0). { assert (H0 : pr / vss (S m) y = 0) by lra. apply (f_equal (fun x => x * vss (S m) y)) in H0.
          unfold Rdiv in H0. rewrite Rmult_assoc, Rinv_l in H0 by lra. lra. }
        intros i Hi. assert (B := bigsum_sqr_zero (S m) (fun i => y i - loo i) H0 i Hi). cbn in B. lra.
      * intros H. assert (pr = 0) as -> by (apply bigsum_zero; intros i Hi; rewrite (H i Hi); ring). unfold Rdiv. ring.
Qed.
(** Two observations, identity covariance, constant trend: the prediction at one observation is the other observation. *)
Definition ex_K : mat := mid.
Definition ex_F : mat := fun _ _ => 1.
Definition ex_M : mat := fun i j => match i, j with
  | O, O => 1/2 | O, S O => -1/2 | O, _ => 1/2 | S O, O => -1/2 | S O, S O => 1/2 | S O, _ => 1/2 | _, S (S _) => -1/2 | _, _ => 1/2 end.
Example C31_example :
  is_inverse 3 (block_matrix 2 ex_K ex_F) ex_M /\
  (forall y, y_loo 2 ex_M y 0 = Some (y 1%nat)) /\
  is_kriging 1 1 (without2 0 ex_K) (without_row 0 ex_F) (without 0 (fun i => INR i)) (fun _ => 0) (fun _ => 1) /\
  kriging_q2 2 (fun i => INR i) (fun i => 1 - INR i) = Some (-3).
Proof.
  split; [|split; [|split]].
  - split; intros [|[|[|i]]] [|[|[|j]]] Hi Hj; try lia; unfold mmul, block_matrix, ex_K, ex_F, ex_M, mid; cbn; lra.
  - intros y. unfold y_loo, ex_M. destruct (Reqb_spec (1/2) 0); [lra|]. f_equal. unfold mid. cbn. field.
  - split; intros [|i] Hi; try lia; unfold without2, without_row, without, ex_K, ex_F, mid, skip; cbn; ring.
  - unfold kriging_q2, qdiv, vss, vmean. cbn. match goal with |- context[Reqb ?a 0] => destruct (Reqb_spec a 0) as [E|E] end; [lra|]. cbn. f_equal. field.
Qed.
Print Assumptions C31_loo_is_exact.
Print Assumptions C31_loo_defined.
Print Assumptions C31_q2.

(** *** C32 *)
(** Least squares on the basis matrix X (p functions): the coefficients minimise the sum of the squared errors. *)
Definition sse (n p : nat) (X : mat) (y beta : nat -> R) : R :=
  bigsum n (fun i => (y i - bigsum p (fun a => X i a * beta a)) * (y i - bigsum p (fun a => X i a * beta a))).
Definition least_squares (n p : nat) (X : mat) (y beta : nat -> R) : Prop := forall b, sse n p X y beta <= sse n p X y b.
Lemma fit_perturb p (X : mat) b d t i : bigsum p (fun a => X i a * (b a + t * d a)) = bigsum p (fun a => X i a * b a) + t * bigsum p (fun a => X i a * d a).
Proof. rewrite <- bigsum_scal, <- bigsum_plus. apply bigsum_ext. intros; ring. Qed.
Lemma sse_expand n p X y b d t :
  sse n p X y (fun a => b a + t * d a) = sse n p X y b
    - 2 * t * bigsum n (fun i => (y i - bigsum p (fun a => X i a * b a)) * bigsum p (fun a => X i a * d a))
    + t * t * bigsum n (fun i => bigsum p (fun a => X i a * d a) * bigsum p (fun a => X i a * d a)).
Proof.
  unfold sse. rewrite <- bigsum_scal, <- bigsum_scal, <- bigsum_minus, <- bigsum_plus. apply bigsum_ext. intros i _. rewrite fit_perturb. ring.
Qed.
Lemma normal_equations n p X y b : least_squares n p X y b <->
  forall a, (a < p)%nat -> bigsum n (fun i => X i a * (y i - bigsum p (fun c => X i c * b c))) = 0.
Proof.
  split.
  - intros H a Ha. set (d := fun c => if Nat.eqb c a then 1 else 0).
    set (g := bigsum n (fun i => X i a * (y i - bigsum p (fun c => X i c * b c)))).
    assert (Ed : forall i, bigsum p (fun c => X i c * d c) = X i a).
    { intros i. rewrite (bigsum_one p a); [unfold d; rewrite Nat.eqb_refl; ring|assumption|]. intros l _ Hl. unfold d.
      destruct (Nat.eqb_spec l a); [congruence|ring]. }
    set (q := bigsum n (fun i => X i a * X i a)). assert (Q : 0 <= q) by (apply bigsum_nonneg; intros ? _; apply Rle_0_sqr).
    assert (E : forall t, 0 <= - 2 * t * g + t * t * q).
    { intros t. assert (L := H (fun c => b c + t * d c)). rewrite sse_expand in L.
      rewrite (bigsum_ext n _ (fun i => X i a * (y i - bigsum p (fun c => X i c * b c)))) in L by (intros i _; rewrite Ed; ring).
      rewrite (bigsum_ext n (fun i => bigsum p _ * bigsum p _) (fun i => X i a * X i a)) in L by (intros i _; now rewrite Ed).
      fold g q in L. lra. }
    assert (E1 := E (g / (q + 1))). replace (-2 * (g / (q + 1)) * g + g / (q + 1) * (g / (q + 1)) * q)
      with (- (g * g * (q + 2)) / ((q + 1) * (q + 1))) in E1 by (field; lra).
    assert (D : 0 < (q + 1) * (q + 1)) by nra. apply (Rmult_le_compat_r ((q + 1) * (q + 1))) in E1; [|lra].
    unfold Rdiv in E1. rewrite Rmult_assoc, Rinv_l in E1 by lra. nra.
  - intros H b'. set (d := fun a => b' a - b a).
    assert (L := sse_expand n p X y b d 1).
    replace (sse n p X y (fun a => b a + 1 * d a)) with (sse n p X y b') in L.
    2:{ unfold sse. apply bigsum_ext. intros i _. rewrite (bigsum_ext p (fun a => X i a * (b a + 1 * d a)) (fun a => X i a * b' a)); [reflexivity|].
        intros a _. unfold d. ring. }
    assert (C : bigsum n (fun i => (y i - bigsum p (fun a => X i a * b a)) * bigsum p (fun a => X i a * d a)) = 0).
    { rewrite (bigsum_ext n _ (fun i => bigsum p (fun a => X i a * (y i - bigsum p (fun c => X i c * b c)) * d a))).
      2:{ intros i _. rewrite <- bigsum_scal. apply bigsum_ext. intros; ring. }
      rewrite bigsum_swap. apply bigsum_zero. intros a Ha. rewrite bigsum_scal_r, H by assumption. ring. }
    rewrite C in L. assert (0 <= bigsum n (fun i => bigsum p (fun a => X i a * d a) * bigsum p (fun a => X i a * d a))) by (apply bigsum_nonneg; intros ? _; apply Rle_0_sqr).
    lra.
Qed.
(** solveLinearSystem: Z is a solution of gram Z = X^T. *)
Definition solves (n p : nat) (X Z : mat) : Prop := meq p n (mmul p (gram n X) Z) (mtr X).
Lemma hat_row n p X Z : solves n p X Z -> forall i a, (i < n)%nat -> (a < p)%nat -> bigsum n (fun k => X k a * hat p X Z k i) = X i a.
Proof.
  intros HZ i a Hi Ha. rewrite <- (HZ a i Ha Hi : _ = X i a). unfold mmul at 1, gram, hat, mmul, mtr.
  rewrite (bigsum_ext n _ (fun k => bigsum p (fun l => X k a * X k l * Z l i))) by (intros k _; rewrite <- bigsum_scal; apply bigsum_ext; intros; ring).
  rewrite bigsum_swap. apply bigsum_ext. intros l _. now rewrite bigsum_scal_r.
Qed.
Lemma hat_square n p X Z : solves n p X Z -> forall i, (i < n)%nat -> hat p X Z i i = bigsum n (fun k => hat p X Z k i * hat p X Z k i).
Proof.
  intros HZ i Hi. unfold hat at 1, mmul.
  rewrite (bigsum_ext p _ (fun a => bigsum n (fun k => X k a * hat p X Z k i) * Z a i)) by (intros a Ha; now rewrite (hat_row n)).
  rewrite (bigsum_ext p _ (fun a => bigsum n (fun k => X k a * hat p X Z k i * Z a i))) by (intros a _; now rewrite bigsum_scal_r).
  rewrite bigsum_swap. apply bigsum_ext. intros k _. unfold hat at 2. unfold mmul. rewrite <- bigsum_scal_r. apply bigsum_ext. intros; ring.
Qed.
Lemma leverage_range n p X Z : solves n p X Z -> forall i, (i < n)%nat -> 0 <= hat p X Z i i <= 1.
Proof.
  intros HZ i Hi. assert (E := hat_square n p X Z HZ i Hi). set (h := hat p X Z i i) in *.
  assert (h * h <= bigsum n (fun k => hat p X Z k i * hat p X Z k i)).
  { destruct n as [|m]; [lia|]. rewrite (bigsum_skip m i) by lia. fold h.
    assert (0 <= bigsum m (fun j => hat p X Z (skip i j) i * hat p X Z (skip i j) i)) by (apply bigsum_nonneg; intros ? _; apply Rle_0_sqr). lra. }
  nra.
Qed.
Lemma press_key m p X Z y beta beta' i : solves (S m) p X Z -> (i < S m)%nat ->
  least_squares (S m) p X y beta -> least_squares m p (without_row i X) (without i y) beta' ->
  (y i - fitted p X beta' i) * (1 - hat p X Z i i) = y i - fitted p X beta i.
Proof.
  intros HZ Hi H1 H2. rewrite normal_equations in H1, H2.
  assert (A : bigsum (S m) (fun k => hat p X Z k i * (y k - fitted p X beta k)) = 0).
  { unfold hat, mmul. rewrite (bigsum_ext (S m) _ (fun k => bigsum p (fun a => X k a * (y k - fitted p X beta k) * Z a i))).
    2:{ intros k _. rewrite <- bigsum_scal_r. apply bigsum_ext. intros; ring. }
    rewrite bigsum_swap. apply bigsum_zero. intros a Ha. rewrite bigsum_scal_r. unfold fitted. rewrite H1 by assumption. ring. }
  assert (B : bigsum m (fun q => hat p X Z (skip i q) i * (y (skip i q) - fitted p X beta' (skip i q))) = 0).
  { unfold hat, mmul. rewrite (bigsum_ext m _ (fun k => bigsum p (fun a => X (skip i k) a * (y (skip i k) - fitted p X beta' (skip i k)) * Z a i))).
    2:{ intros k _. rewrite <- bigsum_scal_r. apply bigsum_ext. intros; ring. }
    rewrite bigsum_swap. apply bigsum_zero. intros a Ha. rewrite bigsum_scal_r. unfold without_row, without in H2. unfold fitted. rewrite H2 by assumption. ring. }
  assert (Fh : forall b, bigsum (S m) (fun k => hat p X Z k i * fitted p X b k) = fitted p X b i).
  { intros b. unfold fitted. rewrite (bigsum_ext (S m) _ (fun k => bigsum p (fun a => X k a * hat p X Z k i * b a))).
    2:{ intros k _. rewrite <- bigsum_scal. apply bigsum_ext. intros; ring. }
    rewrite bigsum_swap. apply bigsum_ext. intros a Ha. now rewrite bigsum_scal_r, (hat_row (S m)). }
  assert (A2 : bigsum (S m) (fun k => hat p X Z k i * y k) = fitted p X beta i).
  { rewrite <- (Fh beta). rewrite <- (Rplus_0_r (bigsum _ (fun k => hat p X Z k i * fitted p X beta k))), <- A, <- bigsum_plus. apply bigsum_ext. intros; ring. }
  assert (B2 : bigsum (S m) (fun k => hat p X Z k i * (y k - fitted p X beta' k)) = hat p X Z i i * (y i - fitted p X beta' i)).
  { rewrite (bigsum_skip m i) by lia. rewrite B. ring. }
  assert (B3 : bigsum (S m) (fun k => hat p X Z k i * (y k - fitted p X beta' k)) = fitted p X beta i - fitted p X beta' i).
  { rewrite <- A2, <- (Fh beta'), <- bigsum_minus. apply bigsum_ext. intros; ring. }
  lra.
Qed.
(** The value used for Q2 is the error at observation i of the least squares fit of the other observations on the same basis. *)
Theorem C32_loo_is_exact :
  forall m p X Z y beta i v, solves (S m) p X Z -> (i < S m)%nat -> least_squares (S m) p X y beta ->
  chaos_delta p X Z beta y i = Some v ->
  forall beta', least_squares m p (without_row i X) (without i y) beta' ->
  v = y i - bigsum p (fun a => X i a * beta' a).
Proof.
  intros m p X Z y beta i v HZ Hi Hb Hv beta' Hb'. unfold chaos_delta, qdiv in Hv.
  destruct (Reqb_spec (1 - hat p X Z i i) 0) as [|Hd]; [discriminate|]. injection Hv as <-.
  rewrite <- (press_key m p X Z y beta beta' i HZ Hi Hb Hb'). unfold fitted. field. assumption.
Qed.
(** It is a number exactly when the leverage h_i (between 0 and 1) is not 1, and then the fit of the other observations exists; at
    leverage 1 the observation is interpolated, so that the code divides 0 by 0. *)
Theorem C32_loo_defined :
  forall m p X Z y beta i, solves (S m) p X Z -> (i < S m)%nat -> least_squares (S m) p X y beta ->
  0 <= hat p X Z i i <= 1 /\
  (chaos_delta p X Z beta y i <> None -> exists beta', least_squares m p (without_row i X) (without i y) beta') /\
  (chaos_delta p X Z beta y i = None -> y i - bigsum p (fun a => X i a * beta a) = 0).
Proof.
  intros m p X Z y beta i HZ Hi Hb. split; [now apply (leverage_range (S m))|].
  rewrite normal_equations in Hb. unfold chaos_delta, qdiv. destruct (Reqb_spec (1 - hat p X Z i i) 0) as [E|E].
  - split; [congruence|]. intros _.
    assert (Hs := hat_square (S m) p X Z HZ i Hi). rewrite (bigsum_skip m i) in Hs by lia.
    replace (hat p X Z i i) with 1 in Hs by lra.
    assert (Z0 : bigsum m (fun j => hat p X Z (skip i j) i * hat p X Z (skip i j) i) = 0) by lra.
    assert (Zj := bigsum_sqr_zero m (fun j => hat p X Z (skip i j) i) Z0).
    assert (A : bigsum (S m) (fun k => hat p X Z k i * (y k - fitted p X beta k)) = 0).
    { unfold hat, mmul. rewrite (bigsum_ext (S m) _ (fun k => bigsum p (fun a => X k a * (y k - fitted p X beta k) * Z a i))).
      2:{ intros k _. rewrite <- bigsum_scal_r. apply bigsum_ext. intros; ring. }
      rewrite bigsum_swap. apply bigsum_zero. intros a Ha. rewrite bigsum_scal_r. unfold fitted. rewrite Hb by assumption. ring. }
    rewrite (bigsum_skip m i) in A by lia. rewrite (bigsum_zero m) in A by (intros j Hj; rewrite (Zj j Hj); ring).
    fold (fitted p X beta i). nra.
  - split; [|discriminate]. intros _.
    set (r := (y i - fitted p X beta i) / (1 - hat p X Z i i)).
    exists (fun a => beta a + - r * Z a i). apply normal_equations. intros a Ha. unfold without_row, without.
    assert (G : forall k, bigsum p (fun c => X k c * (beta c + - r * Z c i)) = fitted p X beta k - r * hat p X Z k i).
    { intros k. rewrite fit_perturb. unfold fitted, hat, mmul. ring. }
    assert (T : bigsum (S m) (fun k => X k a * (y k - (fitted p X beta k - r * hat p X Z k i))) = r * X i a).
    { rewrite <- (hat_row (S m) p X Z HZ i a Hi Ha), <- bigsum_scal.
      rewrite (bigsum_ext (S m) _ (fun k => X k a * (y k - bigsum p (fun c => X k c * beta c)) + r * (X k a * hat p X Z k i))) by (intros k _; unfold fitted; ring).
      rewrite bigsum_plus, Hb by assumption. ring. }
    rewrite (bigsum_skip m i) in T by lia.
    rewrite (bigsum_ext m _ (fun j => X (skip i j) a * (y (skip i j) - (fitted p X beta (skip i j) - r * hat p X Z (skip i j) i)))) by (intros j _; now rewrite G).
    assert (W : y i - (fitted p X beta i - r * hat p X Z i i) = r) by (unfold r; field; assumption). rewrite W in T. lra.
Qed.
(** Q2 of the chaos, from the exact leave-one-out errors; it uses the n - 1 variance, so it is larger than the Q2 the kriging
    classes would report for the same errors, by exactly a factor (n - 1) / n on 1 - Q2. *)
Theorem C32_q2 :
  forall n y delta, (2 <= n)%nat ->
  (chaos_q2 n y delta = None <-> (forall i j, (i < n)%nat -> (j < n)%nat -> y i = y j)) /\
  forall q, chaos_q2 n y delta = Some q ->
  q <= 1 /\ (q = 1 <-> forall i, (i < n)%nat -> delta i = 0) /\
  exists q', kriging_q2 n y (fun i => y i - delta i) = Some q' /\ INR n * (1 - q) = (INR n - 1) * (1 - q') /\ q' <= q.
Proof.
  intros n y delta Hn. assert (P : 2 <= INR n) by (apply le_INR in Hn; exact Hn). assert (V := vss_nonneg n y).
  assert (Z := vss_zero n y ltac:(lia)).
  assert (ZD : forall c, 0 < c -> (vss n y / c = 0 <-> vss n y = 0)).
  { intros c Hc. split; [|intros ->; unfold Rdiv; ring]. intros E. apply (f_equal (fun x => x * c)) in E. unfold Rdiv in E.
    rewrite Rmult_assoc, Rinv_l in E by lra. lra. }
  assert (Z1 := ZD (INR n) ltac:(lra)). assert (Z2 := ZD (INR n - 1) ltac:(lra)).
  unfold chaos_q2, kriging_q2, qdiv. destruct (Reqb_spec (vss n y / (INR n - 1)) 0) as [E|E].
  - split; [split; [intros _; now apply Z, Z2|reflexivity]|discriminate].
  - split; [split; [discriminate|]; intros H; exfalso; apply E, Z2, Z, H|].
    intros q Hq0. cbn [option_map] in Hq0. apply Some_inj in Hq0. subst q. assert (VP : 0 < vss n y) by (destruct (Req_dec (vss n y) 0); [exfalso; tauto|lra]).
    destruct (Reqb_spec (vss n y / INR n) 0) as [E'|E']; [exfalso; apply Z1 in E'; lra|]. cbn [option_map].
    set (pr := bigsum n (fun i => delta i * delta i)). assert (PR : 0 <= pr) by (apply bigsum_nonneg; intros ? _; apply Rle_0_sqr).
    rewrite (bigsum_ext n (fun i => (y i - (y i - delta i)) * (y i - (y i - delta i))) (fun i => delta i * delta i)) by (intros; ring).
    fold pr.
    assert (Q : 1 - pr / INR n / (vss n y / (INR n - 1)) = 1 - pr / vss n y * ((INR n - 1) / INR n)) by (field; lra).
    assert (Q' : 1 - pr / INR n / (vss n y / INR n) = 1 - pr / vss n y) by (field; lra). rewrite Q.
    assert (T : 0 <= pr / vss n y) by (apply Rmult_le_pos; [lra|]; left; now apply Rinv_0_lt_compat).
    assert (C : 0 < (INR n - 1) / INR n) by (apply Rmult_lt_0_compat; [lra|]; apply Rinv_0_lt_compat; lra).
    assert (C1 : (INR n - 1) / INR n <= 1) by (apply (Rmult_le_reg_r (INR n)); [lra|]; unfold Rdiv; rewrite Rmult_assoc, Rinv_l by lra; lra).
    split; [nra|]. split; [split|].
    + intros H. assert (H0 : pr / vss n y = 0) by nra. assert (pr = 0).
      { apply (f_equal (fun x => x * vss n y)) in H0. unfold Rdiv in H0. rewrite Rmult_assoc, Rinv_l in H0 by lra. lra. }
      now apply bigsum_sqr_zero.
    + intros H. assert (pr = 0) as -> by (apply bigsum_zero; intros i Hi; rewrite (H i Hi); ring). unfold Rdiv. ring.
    + eexists. split; [reflexivity|]. rewrite Q'. split; [field; lra|nra].
Qed.
(** Q2 of the chaos cannot exceed R2 when the constant function is a combination of the basis functions (then every leverage is at
    least 1 / n and the residuals have mean 0). *)
Lemma leverage_ge n p X Z (c : nat -> R) : solves n p X Z -> (forall i, (i < n)%nat -> bigsum p (fun a => X i a * c a) = 1) ->
  forall i, (i < n)%nat -> 1 / INR n <= hat p X Z i i.
Proof.
  intros HZ Hc i Hi. assert (P := INR_pos n ltac:(lia)).
  assert (S1 : bigsum n (fun k => hat p X Z k i) = 1).
  { rewrite <- (Hc i Hi). rewrite (bigsum_ext n _ (fun k => bigsum p (fun a => X k a * hat p X Z k i * c a))).
    - rewrite bigsum_swap. apply bigsum_ext. intros a Ha. now rewrite bigsum_scal_r, (hat_row n).
    - intros k Hk. rewrite <- (Rmult_1_l (hat p X Z k i)), <- (Hc k Hk), <- bigsum_scal_r at 1. apply bigsum_ext. intros; ring. }
  assert (S2 := hat_square n p X Z HZ i Hi). set (h := hat p X Z i i) in *.
  assert (C : 0 <= bigsum n (fun k => (hat p X Z k i - 1 / INR n) * (hat p X Z k i - 1 / INR n))) by (apply bigsum_nonneg; intros ? _; apply Rle_0_sqr).
  rewrite (bigsum_ext n _ (fun k => hat p X Z k i * hat p X Z k i - 2 / INR n * hat p X Z k i + 1 / INR n * (1 / INR n))) in C by (intros; field; lra).
  rewrite bigsum_plus, bigsum_minus, bigsum_scal, bigsum_const, S1, <- S2 in C.
  replace (INR n * (1 / INR n * (1 / INR n))) with (1 / INR n) in C by (field; lra). unfold Rdiv in *. lra.
Qed.
Theorem C32_q2_at_most_r2 :
  forall n p X Z y beta delta c q r, (2 <= n)%nat -> solves n p X Z -> least_squares n p X y beta ->
  (forall i, (i < n)%nat -> bigsum p (fun a => X i a * c a) = 1) ->
  (forall i, (i < n)%nat -> chaos_delta p X Z beta y i = Some (delta i)) ->
  chaos_q2 n y delta = Some q -> chaos_r2 n y (fun i => y i - fitted p X beta i) = Some r -> q <= r.
Proof.
  intros n p X Z y beta delta c q r Hn HZ Hb Hc Hd Hq Hr. assert (P : 2 <= INR n) by (apply le_INR in Hn; exact Hn).
  assert (HB := proj1 (normal_equations n p X y beta) Hb).
  set (e := fun i => y i - fitted p X beta i) in *.
  assert (M0 : vmean n e = 0).
  { unfold vmean. assert (bigsum n e = 0) as ->; [|unfold Rdiv; ring].
    rewrite (bigsum_ext n e (fun i => bigsum p (fun a => X i a * (y i - bigsum p (fun c => X i c * beta c)) * c a))).
    - rewrite bigsum_swap. apply bigsum_zero. intros a Ha. rewrite bigsum_scal_r, HB by assumption. ring.
    - intros i Hi. rewrite (bigsum_ext p _ (fun a => e i * (X i a * c a))) by (intros; unfold e, fitted; ring). rewrite bigsum_scal, (Hc i Hi). ring. }
  unfold chaos_q2, qdiv in Hq. unfold chaos_r2, qdiv in Hr.
  destruct (Reqb_spec (vss n y / (INR n - 1)) 0) as [|E]; [discriminate|]. cbn [option_map] in Hq, Hr. apply Some_inj in Hq. apply Some_inj in Hr. subst q r.
  assert (VP : 0 < vss n y). { assert (V := vss_nonneg n y). destruct (Req_dec (vss n y) 0) as [Z0|]; [|lra]. exfalso. apply E. rewrite Z0. unfold Rdiv. ring. }
  assert (D : forall i, (i < n)%nat -> (INR n / (INR n - 1)) * (INR n / (INR n - 1)) * (e i * e i) <= delta i * delta i).
  { intros i Hi. assert (Hdi := Hd i Hi). unfold chaos_delta, qdiv in Hdi. destruct (Reqb_spec (1 - hat p X Z i i) 0) as [|Hh]; [discriminate|].
    injection Hdi as Hdi. fold (e i) in Hdi. assert (L := leverage_ge n p X Z c HZ Hc i Hi). assert (L2 := leverage_range n p X Z HZ i Hi).
    set (h := hat p X Z i i) in *. assert (H1 : 0 < 1 - h) by lra.
    assert (EI : e i = delta i * (1 - h)) by (rewrite <- Hdi; field; lra). rewrite EI.
    assert (A : INR n / (INR n - 1) * (1 - h) <= 1).
    { apply (Rmult_le_reg_r (INR n - 1)); [lra|]. replace (INR n / (INR n - 1) * (1 - h) * (INR n - 1)) with (INR n - INR n * h) by (field; lra).
      assert (INR n * (1 / INR n) <= INR n * h) by (apply Rmult_le_compat_l; lra).
      replace (INR n * (1 / INR n)) with 1 in * by (field; lra). lra. }
    assert (A0 : 0 <= INR n / (INR n - 1) * (1 - h)) by (apply Rmult_le_pos; [apply Rmult_le_pos; [lra|left; apply Rinv_0_lt_compat; lra]|lra]).
    replace (INR n / (INR n - 1) * (INR n / (INR n - 1)) * (delta i * (1 - h) * (delta i * (1 - h))))
      with ((INR n / (INR n - 1) * (1 - h)) * (INR n / (INR n - 1) * (1 - h)) * (delta i * delta i)) by ring.
    assert (0 <= delta i * delta i) by nra. set (w := INR n / (INR n - 1) * (1 - h)) in *. assert (w * w <= 1) by nra. nra. }
  apply bigsum_le in D. rewrite bigsum_scal in D.
  assert (VE : vss n e = bigsum n (fun i => e i * e i)) by (unfold vss; rewrite M0; apply bigsum_ext; intros; ring).
  rewrite VE. set (s := bigsum n (fun i => e i * e i)) in *. set (pr := bigsum n (fun i => delta i * delta i)) in *.
  assert (0 <= s) by (apply bigsum_nonneg; intros ? _; apply Rle_0_sqr).
  replace (pr / INR n / (vss n y / (INR n - 1))) with (pr * ((INR n - 1) / INR n) / vss n y) by (field; lra).
  replace (s / (INR n - 1) / (vss n y / (INR n - 1))) with (s / vss n y) by (field; lra).
  assert (s <= pr * ((INR n - 1) / INR n)).
  { assert (B : INR n / (INR n - 1) * (INR n / (INR n - 1)) * s * ((INR n - 1) / INR n) <= pr * ((INR n - 1) / INR n)).
    { apply Rmult_le_compat_r; [apply Rmult_le_pos; [lra|left; apply Rinv_0_lt_compat; lra]|exact D]. }
    replace (INR n / (INR n - 1) * (INR n / (INR n - 1)) * s * ((INR n - 1) / INR n)) with (s * (1 + 1 / (INR n - 1))) in B by (field; lra).
    assert (0 <= 1 / (INR n - 1)) by (apply Rmult_le_pos; [lra|left; apply Rinv_0_lt_compat; lra]). nra. }
  assert (s / vss n y <= pr * ((INR n - 1) / INR n) / vss n y) by (apply Rmult_le_compat_r; [left; now apply Rinv_0_lt_compat|assumption]). lra.
Qed.
(** Without the constant function it can: four observations, one basis function with values 0, 0, 1, 1, outputs 1, -1, 5, 5. *)
Definition ex_X : mat := fun i _ => match i with O => 0 | S O => 0 | _ => 1 end.
Definition ex_Z : mat := fun _ i => match i with O => 0 | S O => 0 | _ => 1/2 end.
Definition ex_y (i : nat) : R := match i with O => 1 | S O => -1 | _ => 5 end.
Definition ex_delta (i : nat) : R := match i with O => 1 | S O => -1 | _ => 0 end.
Lemma ex_ls : solves 4 1 ex_X ex_Z /\ least_squares 4 1 ex_X ex_y (fun _ => 5).
Proof.
  split.
  - intros [|a] i Ha Hi; [|lia]. destruct i as [|[|[|[|i]]]]; [| | | |lia]; unfold mmul, gram, mmul, mtr, ex_X, ex_Z; cbn; lra.
  - apply normal_equations. intros [|a] Ha; [|lia]. unfold ex_X, ex_y. cbn. ring.
Qed.
Lemma ex_deltas i : (i < 4)%nat -> chaos_delta 1 ex_X ex_Z (fun _ => 5) ex_y i = Some (ex_delta i).
Proof.
  intros Hi. destruct i as [|[|[|[|i]]]]; [| | | |lia]; unfold chaos_delta, qdiv, hat, mmul, fitted, ex_X, ex_Z, ex_y, ex_delta; cbn;
    (match goal with |- context[Reqb ?a 0] => destruct (Reqb_spec a 0) end; [lra|]; f_equal; field).
Qed.
Theorem C32_q2_above_r2_refuted :
  exists n p X Z y beta delta q r, solves n p X Z /\ least_squares n p X y beta /\
  (forall i, (i < n)%nat -> chaos_delta p X Z beta y i = Some (delta i)) /\
  chaos_q2 n y delta = Some q /\ chaos_r2 n y (fun i => y i - fitted p X beta i) = Some r /\ r < q.
Proof.
  exists 4%nat, 1%nat, ex_X, ex_Z, ex_y, (fun _ => 5), ex_delta, (1 - 3 / 54), (1 - 2 / 27).
  destruct ex_ls as [L1 L2]. split; [exact L1|]. split; [exact L2|]. split; [exact ex_deltas|].
  unfold chaos_q2, chaos_r2, qdiv, vss, vmean, fitted, ex_X, ex_y, ex_delta. cbn.
  match goal with |- context[Reqb ?a 0] => destruct (Reqb_spec a 0) end; [lra|]. cbn. split; [f_equal; field|]. split; [f_equal; field|lra].
Qed.
Example C32_example :
  solves 4 1 ex_X ex_Z /\ least_squares 4 1 ex_X ex_y (fun _ => 5) /\ chaos_delta 1 ex_X ex_Z (fun _ => 5) ex_y 2 = Some 0 /\
  least_squares 3 1 (without_row 2 ex_X) (without 2 ex_y) (fun _ => 5).
Proof.
  destruct ex_ls as [L1 L2]. split; [exact L1|]. split; [exact L2|]. split; [apply (ex_deltas 2); lia|].
  apply normal_equations. intros [|a] Ha; [|lia]. unfold without_row, without, skip. cbn. ring.
Qed.
Print Assumptions C32_loo_is_exact.
Print Assumptions C32_loo_defined.
Print Assumptions C32_q2.
Print Assumptions C32_q2_at_most_r2.
Print Assumptions C32_q2_above_r2_refuted.
