(** C54, C68: densities of the mean and variance perturbations. *)
From Verif Require Import RealBase LooModel PliDensityModel PliDensityProofs.
From Coquelicot Require Import Coquelicot.
Local Open Scope R_scope.

(** *** Normal parameters *)
Lemma sqrt2pi_pos : 0 < sqrt (2 * PI).
Proof. apply sqrt_lt_R0. assert (H := PI_RGT_0). lra. Qed.
Lemma code_normal_is m s x : 0 < s -> code_normal m s x = normal_pdf m s x.
Proof.
  intros H. assert (P := sqrt2pi_pos). unfold code_normal, normal_pdf.
  replace (- (1 / 2) * ((x - m) / s * ((x - m) / s))) with (- ((x - m) * (x - m)) / (2 * (s * s))) by (field; lra). field. lra.
Qed.
Lemma normal_pos m s x : 0 < s -> 0 < normal_pdf m s x.
Proof.
  intros H. unfold normal_pdf. assert (P := sqrt2pi_pos). apply Rmult_lt_0_compat; [apply exp_pos|apply Rinv_0_lt_compat; nra].
Qed.
Lemma normal_derive m s x : 0 < s -> is_derive (normal_pdf m s) x (- ((x - m) / (s * s)) * normal_pdf m s x).
Proof.
  intros H. assert (P := sqrt2pi_pos). unfold normal_pdf. auto_derive.
  - trivial.
  - set (e := exp _). field. lra.
Qed.
Lemma normal_symmetric m s c : normal_pdf m s (m + c) = normal_pdf m s (m - c).
Proof. unfold normal_pdf. f_equal. f_equal. f_equal. ring. Qed.

(** The mean perturbation of a normal parameter is its density moved by the change of mean. *)
Theorem C54_normal_is_a_shift :
  forall solve mu s delta x, 0 < s ->
  mean_perturbed solve (MNormal mu s) delta x = Ok (Some (dist_pdf (MNormal mu s) (x - (delta - mu)))).
Proof.
  intros solve mu s delta x H. unfold mean_perturbed. cbn [dist_mean dist_pdf].
  assert (E : normal_pdf mu s (x - (delta - mu)) = normal_pdf delta s x) by (unfold normal_pdf; do 3 f_equal; ring).
  rewrite E. destruct (Reqb_spec delta mu) as [->|N]; [reflexivity|]. now rewrite code_normal_is.
Qed.
(** Same mass on moved intervals; mean equal to the requested one (first centred moment 0 on every interval centred on it). *)
Theorem C54_normal_moments :
  forall solve mu s delta, 0 < s ->
  exists f, (forall x, mean_perturbed solve (MNormal mu s) delta x = Ok (Some (f x))) /\
  (forall x, 0 < f x) /\
  (forall u v, RInt f (u + (delta - mu)) (v + (delta - mu)) = RInt (dist_pdf (MNormal mu s)) u v) /\
  (forall c, is_RInt (fun x => (x - delta) * f x) (delta - c) (delta + c) 0).
Proof.
  intros solve mu s delta H. exists (normal_pdf delta s).
  assert (S : forall x, dist_pdf (MNormal mu s) (x - (delta - mu)) = normal_pdf delta s x) by (intros x; cbn; unfold normal_pdf; do 3 f_equal; ring).
  split; [intros x; rewrite C54_normal_is_a_shift by assumption; now rewrite S|]. split; [intros x; now apply normal_pos|].
  assert (C : forall x, continuous (normal_pdf delta s) x).
  { intros x. apply (ex_derive_continuous (normal_pdf delta s)). eexists. now apply normal_derive. }
  split.
  - intros u v. symmetry. assert (I : is_RInt (normal_pdf delta s) (1 * u + (delta - mu)) (1 * v + (delta - mu)) (RInt (normal_pdf delta s) (1 * u + (delta - mu)) (1 * v + (delta - mu)))).
    { apply (RInt_correct (V := R_CompleteNormedModule)). apply (ex_RInt_continuous (V := R_CompleteNormedModule)). intros; apply C. }
    apply is_RInt_comp_lin in I. rewrite !Rmult_1_l in I. apply is_RInt_unique. eapply is_RInt_ext; [|exact I].
    intros x _. cbn beta. rewrite <- S. unfold scal; cbn; unfold mult; cbn. rewrite Rmult_1_l. f_equal. ring.
  - intros c. assert (D : is_RInt (fun x => (x - delta) * normal_pdf delta s x) (delta - c) (delta + c)
                          (minus (- (s * s) * normal_pdf delta s (delta + c)) (- (s * s) * normal_pdf delta s (delta - c)))).
    { apply (is_RInt_derive (fun x => - (s * s) * normal_pdf delta s x)).
      - intros x _. evar_last; [apply is_derive_scal; now apply normal_derive|]. field. lra.
      - intros x _. apply (continuous_mult (fun x => x - delta) (normal_pdf delta s)); [|apply C].
        apply (ex_derive_continuous (fun x => x - delta)). auto_derive. trivial. }
    eapply is_RInt_eq; [exact D|]. rewrite normal_symmetric. unfold minus, plus, opp; cbn. ring.
Qed.

(** *** Uniform parameters: exponential tilt *)
(** For every tilt parameter that is not 0 the density used is positive on [a, b], 0 elsewhere, of mass 1, and its mean m, which
    lies strictly between a and b, satisfies: the function given to the root solver is m - delta. *)
Theorem C54_tilt :
  forall a b lamb, a < b -> lamb <> 0 ->
  exists f m, (forall x, tilted lamb a b x = Some (f x)) /\
  (forall x, a <= x <= b -> 0 < f x) /\ (forall x, x < a \/ b < x -> f x = 0) /\
  is_RInt f a b 1 /\ is_RInt (fun x => x * f x) a b m /\ a < m < b /\
  forall delta, MprimeOverM lamb a b delta = Some (m - delta).
Proof.
  intros a b l H Hl. assert (N := exp_neq l a b H Hl). set (K := l / (exp (l * b) - exp (l * a))).
  assert (Kp : 0 < K).
  { unfold K. destruct (Rdichotomy _ _ Hl) as [L|L].
    - assert (exp (l * b) < exp (l * a)) by (apply exp_increasing; nra).
      replace (l / (exp (l * b) - exp (l * a))) with ((- l) / (exp (l * a) - exp (l * b))) by (field; lra).
      apply Rmult_lt_0_compat; [lra|apply Rinv_0_lt_compat; lra].
    - assert (exp (l * a) < exp (l * b)) by (apply exp_increasing; nra). apply Rmult_lt_0_compat; [lra|apply Rinv_0_lt_compat; lra]. }
  set (f := fun x => K * exp (l * x) * (if Rleb x b && Rleb a x then 1 else 0)).
  destruct (em_tilt_closed a b l Hl) as [Z0 Z1]. assert (KZ : K * em a b 0 l 0 = 1) by (rewrite Z0; unfold K; field; split; assumption).
  assert (Fin : forall x, a <= x <= b -> f x = K * ew 0 l 0 x).
  { intros x Hx. unfold f, ew. destruct (Rleb_spec x b), (Rleb_spec a x); try lra. cbn. rewrite Rmult_1_l, Rmult_1_r. do 2 f_equal. ring. }
  exists f, (tmean a b l). split.
  { intros x. unfold tilted, qdiv. destruct (Reqb_spec (exp (l * b) - exp (l * a)) 0); [contradiction|]. reflexivity. }
  split; [intros x Hx; rewrite Fin by assumption; assert (P := ew_pos l 0 x); nra|]. split.
  { intros x Hx. unfold f. destruct (Rleb_spec x b), (Rleb_spec a x); cbn; lra. }
  split; [|split; [|split; [now apply tmean_range|intros delta; now apply MprimeOverM_spec]]].
  - apply (is_RInt_ext (fun x => K * ew 0 l 0 x)).
    { rewrite Rmin_left, Rmax_right by lra. intros x Hx. symmetry. apply Fin. lra. }
    rewrite <- KZ. apply (is_RInt_scal (V := R_NormedModule)). apply em_is.
  - apply (is_RInt_ext (fun x => K * ew 1 l 0 x)).
    { rewrite Rmin_left, Rmax_right by lra. intros x Hx. change (K * ew 1 l 0 x = x * f x). rewrite Fin, ew_1 by lra. ring. }
    assert (E : tmean a b l = K * em a b 1 l 0).
    { assert (P := em0_pos a b l 0 H). assert (EK : K = / em a b 0 l 0) by (apply (Rmult_eq_reg_r (em a b 0 l 0)); [rewrite KZ, Rinv_l; lra|lra]).
      rewrite EK. unfold tmean. field. lra. }
    rewrite E. apply (is_RInt_scal (V := R_NormedModule)). apply em_is.
Qed.
(** The equation given to the root solver has a solution, and only one, exactly when the requested mean is strictly between the
    bounds.  Finding: for another requested mean (not rejected) the density used never has it, whatever the solver returns. *)
Theorem C54_tilt_exists_iff_mean_inside :
  forall a b delta, a < b ->
  (a < delta < b <-> exists lamb, MprimeOverM lamb a b delta = Some 0) /\
  (forall l l', MprimeOverM l a b delta = Some 0 -> MprimeOverM l' a b delta = Some 0 -> l = l').
Proof.
  intros a b delta H. assert (E : forall l, MprimeOverM l a b delta = Some 0 <-> tmean a b l = delta).
  { intros l. rewrite MprimeOverM_spec by assumption. split; [intros [= X]; lra|intros ->; f_equal; ring]. }
  split.
  - split.
    + intros Hd. destruct (tmean_onto a b delta Hd) as [l Hl]. exists l. now apply E.
    + intros [l Hl]. apply E in Hl. rewrite <- Hl. now apply tmean_range.
  - intros l l' Hl Hl'. apply E in Hl. apply E in Hl'. destruct (Rtotal_order l l') as [L|[L|L]]; [|assumption|].
    + assert (X := tmean_increasing a b l l' H L). lra.
    + assert (X := tmean_increasing a b l' l H L). lra.
Qed.
(** With an exact solver the mean perturbation of a uniform parameter has mass 1 and the requested mean. *)
Theorem C54_uniform_requested_mean :
  forall solve a b delta, a < b -> a < delta < b ->
  (MprimeOverM (solve (fun l => MprimeOverM l a b delta)) a b delta = Some 0) ->
  exists f, (forall x, a < x < b -> mean_perturbed solve (MUniform a b) delta x = Ok (Some (f x))) /\
  is_RInt f a b 1 /\ is_RInt (fun x => x * f x) a b delta.
Proof.
  intros solve a b delta H Hd Hs. set (l := solve _) in Hs. unfold mean_perturbed. cbn [dist_mean dist_pdf].
  destruct (Reqb_spec delta ((a + b) / 2)) as [->|N].
  - exists (fun _ => / (b - a)). split.
    { intros x Hx. unfold uniform_pdf. destruct (Rleb_spec a x), (Rleb_spec x b); try lra. reflexivity. }
    split.
    + eapply is_RInt_eq; [apply (is_RInt_const (V := R_NormedModule))|]. unfold scal; cbn; unfold mult; cbn. field. lra.
    + eapply is_RInt_eq; [apply (is_RInt_derive (fun x => x * x * / (b - a) / 2) (fun x => x * / (b - a)))|].
      * intros x _. auto_derive; [trivial|]. field. lra.
      * intros x _. apply (ex_derive_continuous (fun x => x * / (b - a))). auto_derive. trivial.
      * unfold minus, plus, opp; cbn. field. lra.
  - destruct (Req_dec l 0) as [Z|Z].
    { exfalso. rewrite Z in Hs. unfold MprimeOverM in Hs. rewrite Reqb_refl in Hs. injection Hs as Hs. lra. }
    destruct (C54_tilt a b l H Z) as (f & m & F1 & _ & _ & F4 & F5 & _ & F7). exists f. split; [intros x _; fold l; now rewrite F1|].
    rewrite F7 in Hs. injection Hs as Hs. replace delta with m by lra. split; assumption.
Qed.
(** Sigma-scaled deltas d of a uniform parameter (new mean = mean + d sigma) are reachable iff |d| < sqrt 3. *)
Theorem C54_scaled_uniform_reachable :
  forall a b d, a < b ->
  ((exists lamb, MprimeOverM lamb a b (dist_mean (MUniform a b) + d * sqrt (dist_variance (MUniform a b))) = Some 0) <-> Rabs d < sqrt 3).
Proof.
  intros a b d H. destruct (C54_tilt_exists_iff_mean_inside a b (dist_mean (MUniform a b) + d * sqrt (dist_variance (MUniform a b))) H) as [<- _].
  cbn [dist_mean dist_variance].
  assert (S3 : sqrt 3 * sqrt 3 = 3) by (apply sqrt_sqrt; lra). assert (P3 : 0 < sqrt 3) by (apply sqrt_lt_R0; lra).
  assert (E : sqrt ((b - a) * (b - a) / 12) = (b - a) / 2 / sqrt 3).
  { replace ((b - a) * (b - a) / 12) with (((b - a) / 2 / sqrt 3) * ((b - a) / 2 / sqrt 3)).
    - apply sqrt_square. apply Rmult_le_pos; [lra|left; now apply Rinv_0_lt_compat].
    - replace 12 with (4 * (sqrt 3 * sqrt 3)) by (rewrite S3; ring). field. lra. }
  rewrite E. set (w := (b - a) / 2). assert (Pw : 0 < w) by (unfold w; lra).
  replace (a < (a + b) / 2 + d * (w / sqrt 3) < b) with (a < (a + b) / 2 + (d / sqrt 3) * w < b) by (f_equal; f_equal; [f_equal|]; field; lra).
  set (q := d / sqrt 3). assert (Eq : d = q * sqrt 3) by (unfold q; field; lra).
  split.
  - intros [A B]. assert (-1 < q < 1) by (unfold w in *; nra). rewrite Eq. apply Rabs_def1; nra.
  - intros A. apply Rabs_def2 in A. assert (-1 < q < 1) by nra. unfold w in *. nra.
Qed.
Example C54_example : exists l, MprimeOverM l 0 1 (3 / 4) = Some 0 /\ l <> 0.
Proof.
  destruct (proj1 (proj1 (C54_tilt_exists_iff_mean_inside 0 1 (3 / 4) ltac:(lra))) ltac:(lra)) as [l Hl]. exists l. split; [exact Hl|].
  intros ->. unfold MprimeOverM in Hl. rewrite Reqb_refl in Hl. injection Hl as Hl. lra.
Qed.

(** *** C68: variance perturbation *)
(** Normal parameters: the perturbed density has the same mean; its variance is the requested one: the integral of
    ((x - mu)^2 - delta) f over intervals centred on mu vanishes as they grow. *)
Theorem C68_normal :
  forall optimize mu s delta, 0 < s -> 0 < delta ->
  exists f, (forall x, variance_perturbed optimize (MNormal mu s) delta x = Ok (f x)) /\ (forall x, 0 < f x) /\
  (forall x, f x = s / sqrt delta * dist_pdf (MNormal mu s) (mu + (x - mu) * s / sqrt delta)) /\
  (forall c, is_RInt (fun x => (x - mu) * f x) (mu - c) (mu + c) 0) /\
  (forall eps, 0 < eps -> exists M, forall c, M < c ->
     Rabs (RInt (fun x => ((x - mu) * (x - mu) - delta) * f x) (mu - c) (mu + c)) < eps).
Proof.
  intros optimize mu s delta Hs Hd. set (t := sqrt delta). assert (Ht : 0 < t) by now apply sqrt_lt_R0.
  assert (Tt : t * t = delta) by (apply sqrt_sqrt; lra). assert (P := sqrt2pi_pos).
  assert (C : forall x, continuous (normal_pdf mu t) x).
  { intros x. apply (ex_derive_continuous (normal_pdf mu t)). eexists. now apply normal_derive. }
  exists (normal_pdf mu t). split.
  { intros x. unfold variance_perturbed. cbn [dist_variance dist_pdf]. destruct (Reqb_spec delta (s * s)) as [E|N].
    - assert (t = s) as -> by (unfold t; rewrite E; apply sqrt_square; lra). reflexivity.
    - fold t. now rewrite code_normal_is. }
  split; [intros x; now apply normal_pos|]. split.
  { intros x. cbn. unfold normal_pdf. replace (- ((mu + (x - mu) * s / t - mu) * (mu + (x - mu) * s / t - mu)) / (2 * (s * s))) with (- ((x - mu) * (x - mu)) / (2 * (t * t))) by (field; lra). field. lra. }
  split.
  - intros c. assert (D : is_RInt (fun x => (x - mu) * normal_pdf mu t x) (mu - c) (mu + c)
                          (minus (- (t * t) * normal_pdf mu t (mu + c)) (- (t * t) * normal_pdf mu t (mu - c)))).
    { apply (is_RInt_derive (fun x => - (t * t) * normal_pdf mu t x)).
      - intros x _. evar_last; [apply is_derive_scal; now apply normal_derive|]. field. lra.
      - intros x _. apply (continuous_mult (fun x => x - mu) (normal_pdf mu t)); [|apply C].
        apply (ex_derive_continuous (fun x => x - mu)). auto_derive. trivial. }
    eapply is_RInt_eq; [exact D|]. rewrite normal_symmetric. unfold minus, plus, opp; cbn. ring.
  - assert (D : forall c, is_RInt (fun x => ((x - mu) * (x - mu) - delta) * normal_pdf mu t x) (mu - c) (mu + c) (- (2 * c * delta * normal_pdf mu t (mu + c)))).
    { intros c. eapply is_RInt_eq; [apply (is_RInt_derive (fun x => - (t * t) * ((x - mu) * normal_pdf mu t x)) (fun x => ((x - mu) * (x - mu) - delta) * normal_pdf mu t x))|].
      - intros x _. evar_last.
        + apply is_derive_scal. apply (is_derive_mult (fun x => x - mu) (normal_pdf mu t)).
          * auto_derive; [trivial|reflexivity].
          * now apply normal_derive.
          * intros; apply Rmult_comm.
        + unfold plus, mult; cbn. rewrite <- Tt. field. lra.
      - intros x _. apply (continuous_mult (fun x => (x - mu) * (x - mu) - delta) (normal_pdf mu t)); [|apply C].
        apply (ex_derive_continuous (fun x => (x - mu) * (x - mu) - delta)). auto_derive. trivial.
      - unfold minus, plus, opp; cbn. rewrite <- (normal_symmetric mu t c), Tt. ring. }
    intros eps He. set (K := 4 * delta * delta / (t * sqrt (2 * PI))).
    assert (PK : 0 < K) by (unfold K; apply Rmult_lt_0_compat; [nra|apply Rinv_0_lt_compat; nra]).
    exists (K / eps). intros c Hc. rewrite (is_RInt_unique _ _ _ _ (D c)).
    assert (Pc : 0 < c). { assert (0 < K / eps) by (apply Rmult_lt_0_compat; [assumption|now apply Rinv_0_lt_compat]). lra. }
    assert (NP := normal_pos mu t (mu + c) Ht). rewrite Rabs_Ropp, Rabs_right by (assert (0 < 2 * c * delta) by nra; nra).
    assert (B : normal_pdf mu t (mu + c) <= 2 * delta / (c * c) / (t * sqrt (2 * PI))).
    { unfold normal_pdf. apply Rmult_le_compat_r; [left; apply Rinv_0_lt_compat; nra|].
      replace (- ((mu + c - mu) * (mu + c - mu)) / (2 * (t * t))) with (- (c * c / (2 * delta))) by (rewrite <- Tt; field; lra).
      rewrite exp_Ropp. set (u := c * c / (2 * delta)). assert (Pu : 0 < u) by (unfold u; apply Rmult_lt_0_compat; [nra|apply Rinv_0_lt_compat; lra]).
      replace (2 * delta / (c * c)) with (/ u) by (unfold u; field; lra). apply Rinv_le_contravar; [assumption|]. assert (X := exp_ineq1 u ltac:(lra)). lra. }
    apply Rle_lt_trans with (K / c).
    + apply Rle_trans with (2 * c * delta * (2 * delta / (c * c) / (t * sqrt (2 * PI)))).
      * apply Rmult_le_compat_l; [nra|exact B].
      * right. unfold K. field. lra.
    + apply (Rmult_lt_reg_r c); [assumption|]. replace (K / c * c) with K by (field; lra).
      assert (E : K = K / eps * eps) by (field; lra). rewrite E. nra.
Qed.

(** Uniform parameters. *)
Lemma computeIntegral_em a b l0 l1 k : a < b -> computeIntegral a b l0 l1 k = em a b k l0 l1 / (b - a).
Proof.
  intros H. unfold computeIntegral. apply is_RInt_unique. apply (is_RInt_ext (fun x => / (b - a) * ew k l0 l1 x)).
  - rewrite Rmin_left, Rmax_right by lra. intros x Hx. unfold pdfExp, ew, uniform_pdf. destruct (Rleb_spec a x), (Rleb_spec x b); try lra. cbn. ring.
  - eapply is_RInt_eq; [apply is_RInt_scalR; apply em_is|]. field. lra.
Qed.
(** The density used: positive on [a, b], 0 elsewhere, mass 1, and the gradient given to the optimiser is the difference
    between its two first moments and the requested ones. *)
Theorem C68_uniform_density :
  forall a b l0 l1, a < b ->
  exists m1 m2, (forall x, a <= x <= b -> 0 < variance_tilted a b l0 l1 x) /\ (forall x, x < a \/ b < x -> variance_tilted a b l0 l1 x = 0) /\
  is_RInt (variance_tilted a b l0 l1) a b 1 /\
  is_RInt (fun x => x * variance_tilted a b l0 l1 x) a b m1 /\ is_RInt (fun x => x ^ 2 * variance_tilted a b l0 l1 x) a b m2 /\
  forall rhs0 rhs1, gradH a b rhs0 rhs1 l0 l1 = Some (m1 - rhs0, m2 - rhs1).
Proof.
  intros a b l0 l1 H. assert (Z := em0_pos a b l0 l1 H).
  set (e := computeIntegral a b l0 l1 0). assert (Ee : e = em a b 0 l0 l1 / (b - a)) by now apply computeIntegral_em.
  assert (Pe : 0 < e) by (rewrite Ee; apply Rmult_lt_0_compat; [assumption|apply Rinv_0_lt_compat; lra]).
  assert (F : forall x, a <= x <= b -> variance_tilted a b l0 l1 x = / em a b 0 l0 l1 * ew 0 l0 l1 x).
  { intros x Hx. unfold variance_tilted, uniform_pdf, ew. fold e. destruct (Rleb_spec a x), (Rleb_spec x b); try lra. cbn [andb].
    unfold Rminus at 1. rewrite exp_plus, exp_Ropp, exp_ln by assumption. rewrite Ee. cbn [pow]. field. lra. }
  assert (M : forall k, is_RInt (fun x => x ^ k * variance_tilted a b l0 l1 x) a b (em a b k l0 l1 / em a b 0 l0 l1)).
  { intros k. apply (is_RInt_ext (fun x => / em a b 0 l0 l1 * ew k l0 l1 x)).
    - rewrite Rmin_left, Rmax_right by lra. intros x Hx. change (/ em a b 0 l0 l1 * ew k l0 l1 x = x ^ k * variance_tilted a b l0 l1 x). rewrite F, (ew_k k) by lra. ring.
    - eapply is_RInt_eq; [apply is_RInt_scalR; apply em_is|]. field. lra. }
  exists (em a b 1 l0 l1 / em a b 0 l0 l1), (em a b 2 l0 l1 / em a b 0 l0 l1). split.
  { intros x Hx. rewrite F by assumption. assert (P := ew_pos l0 l1 x). apply Rmult_lt_0_compat; [now apply Rinv_0_lt_compat|assumption]. }
  split. { intros x Hx. unfold variance_tilted, uniform_pdf. destruct (Rleb_spec a x), (Rleb_spec x b); cbn; lra. }
  split. { eapply is_RInt_eq; [eapply is_RInt_ext; [|apply (M O)]; intros x _; cbn; ring|]. field. lra. }
  split. { eapply is_RInt_ext; [|apply (M 1%nat)]. intros x _. cbn. ring. }
  split; [apply (M 2%nat)|]. intros rhs0 rhs1. unfold gradH. fold e. destruct (Reqb_spec e 0); [lra|]. rewrite !computeIntegral_em by assumption.
  f_equal. rewrite Ee. f_equal; field; lra.
Qed.
Lemma three_roots u v c x1 x2 x3 : x1 < x2 < x3 -> u * x1 + v * (x1 * x1) = c -> u * x2 + v * (x2 * x2) = c -> u * x3 + v * (x3 * x3) = c -> u = 0 /\ v = 0.
Proof.
  intros H E1 E2 E3.
  assert (A : u + v * (x1 + x2) = 0) by (apply (Rmult_eq_reg_r (x2 - x1)); [|lra]; replace ((u + v * (x1 + x2)) * (x2 - x1)) with ((u * x2 + v * (x2 * x2)) - (u * x1 + v * (x1 * x1))) by ring; lra).
  assert (B : u + v * (x2 + x3) = 0) by (apply (Rmult_eq_reg_r (x3 - x2)); [|lra]; replace ((u + v * (x2 + x3)) * (x3 - x2)) with ((u * x3 + v * (x3 * x3)) - (u * x2 + v * (x2 * x2))) by ring; lra).
  assert (v = 0) by (apply (Rmult_eq_reg_r (x3 - x1)); [|lra]; lra). subst v. lra.
Qed.
Lemma quadratic_point a b u v c : a < b -> u <> 0 \/ v <> 0 -> exists x, a < x < b /\ u * x + v * (x * x) <> c.
Proof.
  intros H N. set (w := (b - a) / 4).
  destruct (Req_dec (u * (a + w) + v * ((a + w) * (a + w))) c) as [E1|]; [|exists (a + w); split; [unfold w; lra|assumption]].
  destruct (Req_dec (u * (a + 2 * w) + v * ((a + 2 * w) * (a + 2 * w))) c) as [E2|]; [|exists (a + 2 * w); split; [unfold w; lra|assumption]].
  destruct (Req_dec (u * (a + 3 * w) + v * ((a + 3 * w) * (a + 3 * w))) c) as [E3|]; [|exists (a + 3 * w); split; [unfold w; lra|assumption]].
  destruct (three_roots u v c (a + w) (a + 2 * w) (a + 3 * w)); auto; [unfold w; lra|tauto].
Qed.
(** gradH is the gradient of H and hessianH its Hessian matrix, which is positive definite. *)
Theorem C68_derivatives :
  forall a b rhs0 rhs1, a < b ->
  exists g0 g1 h11 h12 h22 : R -> R -> R,
  (forall l0 l1, gradH a b rhs0 rhs1 l0 l1 = Some (g0 l0 l1, g1 l0 l1)) /\
  (forall l0 l1, hessianH a b l0 l1 = Some (h11 l0 l1, h12 l0 l1, h22 l0 l1)) /\
  forall l0 l1,
  is_derive (fun l => lagrange a b rhs0 rhs1 l l1) l0 (g0 l0 l1) /\ is_derive (fun l => lagrange a b rhs0 rhs1 l0 l) l1 (g1 l0 l1) /\
  is_derive (fun l => g0 l l1) l0 (h11 l0 l1) /\ is_derive (fun l => g0 l0 l) l1 (h12 l0 l1) /\
  is_derive (fun l => g1 l l1) l0 (h12 l0 l1) /\ is_derive (fun l => g1 l0 l) l1 (h22 l0 l1) /\
  forall u v, u <> 0 \/ v <> 0 -> 0 < u * u * h11 l0 l1 + 2 * u * v * h12 l0 l1 + v * v * h22 l0 l1.
Proof.
  intros a b rhs0 rhs1 H. set (z := fun l0 l1 => em a b 0 l0 l1). set (m := fun k l0 l1 => em a b k l0 l1).
  assert (Z : forall l0 l1, 0 < z l0 l1) by (intros; now apply em0_pos).
  assert (CI : forall l0 l1 k, computeIntegral a b l0 l1 k = m k l0 l1 / (b - a)) by (intros; now apply computeIntegral_em).
  assert (C0 : forall l0 l1, computeIntegral a b l0 l1 0 = z l0 l1 / (b - a)) by (intros; now apply computeIntegral_em).
  assert (D0 : forall k l0 l1, is_derive (fun l => m k l l1) l0 (m (S k) l0 l1)) by (intros; apply em_derive0).
  assert (D1 : forall k l0 l1, is_derive (fun l => m k l0 l) l1 (m (S (S k)) l0 l1)) by (intros; apply em_derive1).
  exists (fun l0 l1 => m 1%nat l0 l1 / z l0 l1 - rhs0), (fun l0 l1 => m 2%nat l0 l1 / z l0 l1 - rhs1),
    (fun l0 l1 => m 2%nat l0 l1 / z l0 l1 - m 1%nat l0 l1 ^ 2 / z l0 l1 ^ 2),
    (fun l0 l1 => m 3%nat l0 l1 / z l0 l1 - m 1%nat l0 l1 * m 2%nat l0 l1 / z l0 l1 ^ 2),
    (fun l0 l1 => m 4%nat l0 l1 / z l0 l1 - m 2%nat l0 l1 ^ 2 / z l0 l1 ^ 2).
  assert (E0 : forall l0 l1, z l0 l1 / (b - a) <> 0).
  { intros l0 l1. specialize (Z l0 l1). assert (0 < z l0 l1 / (b - a)); [|lra]. apply Rmult_lt_0_compat; [assumption|apply Rinv_0_lt_compat; lra]. }
  split. { intros l0 l1. unfold gradH. rewrite C0, !CI. destruct (Reqb_spec (z l0 l1 / (b - a)) 0) as [X|_]; [now apply E0 in X|].
           specialize (Z l0 l1). f_equal. f_equal; field; lra. }
  split. { intros l0 l1. unfold hessianH. rewrite C0, !CI. destruct (Reqb_spec (z l0 l1 / (b - a)) 0) as [X|_]; [now apply E0 in X|].
           specialize (Z l0 l1). f_equal. f_equal; [f_equal|]; field; lra. }
  intros l0 l1.
  assert (L : forall (f : R -> R) x d c r, is_derive f x d -> 0 < f x ->
              is_derive (fun l => ln (f l / (b - a)) - (l * c + r)) x (d / f x - c)).
  { intros f x d c r Hf Hp. assert (Q : 0 < f x / (b - a)) by (apply Rmult_lt_0_compat; [assumption|apply Rinv_0_lt_compat; lra]).
    assert (Lin : is_derive (fun l : R => l * c + r) x c) by (auto_derive; [trivial|ring]).
    evar_last.
    - apply (is_derive_minus (fun l => ln (f l / (b - a))) (fun l => l * c + r)).
      + apply (is_derive_comp ln (fun l => f l / (b - a))).
        * apply is_derive_Reals. now apply derivable_pt_lim_ln.
        * unfold Rdiv. apply (is_derive_extR (fun l => / (b - a) * f l)); [intros; apply Rmult_comm|]. apply is_derive_scal. exact Hf.
      + exact Lin.
    - unfold minus, plus, opp, scal; cbn; unfold mult; cbn. field. lra. }
  assert (Dv : forall (f g : R -> R) x df dg, is_derive f x df -> is_derive g x dg -> 0 < g x ->
               forall c, is_derive (fun l => f l / g l - c) x ((df * g x - f x * dg) / (g x) ^ 2)).
  { intros f g x df dg Hf Hg Hp c. evar_last.
    - apply (is_derive_minus (fun l => f l / g l) (fun _ => c)); [apply is_derive_div; [exact Hf|exact Hg|lra]|apply is_derive_const].
    - unfold minus, plus, opp; cbn. unfold zero; cbn. field. lra. }
  split.
  { apply (is_derive_extR (fun l => ln (z l l1 / (b - a)) - (l * rhs0 + l1 * rhs1))); [intros l; unfold lagrange; now rewrite C0|].
    apply (L (fun l => z l l1)); [apply (D0 O)|apply Z]. }
  split.
  { apply (is_derive_extR (fun l => ln (z l0 l / (b - a)) - (l * rhs1 + l0 * rhs0))); [intros l; unfold lagrange; rewrite C0; ring|].
    apply (L (fun l => z l0 l)); [apply (D1 O)|apply Z]. }
  assert (Zl := Z l0 l1).
  split. { evar_last; [apply (Dv (fun l => m 1%nat l l1) (fun l => z l l1) l0); [apply D0|apply (D0 O)|apply Z]|]. fold (m 1%nat l0 l1). field. lra. }
  split. { evar_last; [apply (Dv (fun l => m 1%nat l0 l) (fun l => z l0 l) l1); [apply D1|apply (D1 O)|apply Z]|]. field. lra. }
  split. { evar_last; [apply (Dv (fun l => m 2%nat l l1) (fun l => z l l1) l0); [apply D0|apply (D0 O)|apply Z]|]. field. lra. }
  split. { evar_last; [apply (Dv (fun l => m 2%nat l0 l) (fun l => z l0 l) l1); [apply D1|apply (D1 O)|apply Z]|]. field. lra. }
  intros u v N. set (c := (u * m 1%nat l0 l1 + v * m 2%nat l0 l1) / z l0 l1).
  set (g := fun x => 1 * (1 * (u * u * ew 2 l0 l1 x + 2 * u * v * ew 3 l0 l1 x) + v * v * ew 4 l0 l1 x) +
                     1 * ((- 2 * c * u) * ew 1 l0 l1 x + 1 * ((- 2 * c * v) * ew 2 l0 l1 x + c * c * ew 0 l0 l1 x))).
  assert (G : is_RInt g a b (1 * (1 * (u * u * m 2%nat l0 l1 + 2 * u * v * m 3%nat l0 l1) + v * v * m 4%nat l0 l1) +
                     1 * ((- 2 * c * u) * m 1%nat l0 l1 + 1 * ((- 2 * c * v) * m 2%nat l0 l1 + c * c * z l0 l1)))).
  { unfold g, m, z.
    apply (is_RInt_lin (fun x => 1 * (u * u * ew 2 l0 l1 x + 2 * u * v * ew 3 l0 l1 x) + v * v * ew 4 l0 l1 x)
                       (fun x => (- 2 * c * u) * ew 1 l0 l1 x + 1 * ((- 2 * c * v) * ew 2 l0 l1 x + c * c * ew 0 l0 l1 x))).
    - apply (is_RInt_lin (fun x => u * u * ew 2 l0 l1 x + 2 * u * v * ew 3 l0 l1 x) (ew 4 l0 l1)); [|apply em_is]. apply is_RInt_lin; apply em_is.
    - apply (is_RInt_lin (ew 1 l0 l1) (fun x => (- 2 * c * v) * ew 2 l0 l1 x + c * c * ew 0 l0 l1 x)); [apply em_is|]. apply is_RInt_lin; apply em_is. }
  assert (F : forall x, g x = ((u * x + v * (x * x) - c) * (u * x + v * (x * x) - c)) * ew 0 l0 l1 x).
  { intros x. unfold g. rewrite !(ew_k 1), !(ew_k 2), !(ew_k 3), !(ew_k 4). ring. }
  assert (P : 0 < RInt g a b).
  { destruct (quadratic_point a b u v c H N) as (x0 & Hx0 & Hne). apply (RInt_pos_point g a b x0).
    - intros x. apply (ex_derive_continuous g). unfold g, ew. auto_derive. trivial.
    - intros x _. rewrite F. apply Rmult_le_pos; [apply Rle_0_sqr|left; apply ew_pos].
    - assumption.
    - rewrite F. apply Rmult_lt_0_compat; [|apply ew_pos]. apply Rlt_0_sqr. lra. }
  rewrite (is_RInt_unique _ _ _ _ G) in P.
  match goal with |- 0 < ?q => replace q with (/ z l0 l1 * (1 * (1 * (u * u * m 2%nat l0 l1 + 2 * u * v * m 3%nat l0 l1) + v * v * m 4%nat l0 l1) +
                     1 * ((- 2 * c * u) * m 1%nat l0 l1 + 1 * ((- 2 * c * v) * m 2%nat l0 l1 + c * c * z l0 l1)))) by (unfold c; field; lra) end.
  apply Rmult_lt_0_compat; [now apply Rinv_0_lt_compat|exact P].
Qed.
Lemma moments_of_zero a b r0 r1 p q : a < b -> gradH a b r0 r1 p q = Some (0, 0) -> em a b 1 p q = r0 * em a b 0 p q /\ em a b 2 p q = r1 * em a b 0 p q.
Proof.
  intros H Hg. assert (Zp := em0_pos a b p q H). unfold gradH in Hg. rewrite !computeIntegral_em in Hg by assumption.
  destruct (Reqb_spec (em a b 0 p q / (b - a)) 0) as [X|X]; [discriminate|]. injection Hg as Ha Hb.
  set (z := em a b 0 p q) in *. set (y1 := em a b 1 p q) in *. set (y2 := em a b 2 p q) in *.
  replace (y1 / (b - a) / (z / (b - a))) with (y1 / z) in Ha by (field; lra).
  replace (y2 / (b - a) / (z / (b - a))) with (y2 / z) in Hb by (field; lra).
  split; [replace r0 with (y1 / z) by lra|replace r1 with (y2 / z) by lra]; field; lra.
Qed.
Lemma quad_integral a b u v c p q :
  is_RInt (fun x => (u * x + v * (x * x) - c) * ew 0 p q x) a b (u * em a b 1 p q + (v * em a b 2 p q - c * em a b 0 p q)).
Proof.
  assert (A : is_RInt (fun x => v * ew 2 p q x + (- c) * ew 0 p q x) a b (v * em a b 2 p q + (- c) * em a b 0 p q)) by (apply is_RInt_lin; apply em_is).
  assert (B := is_RInt_lin _ _ a b _ _ u 1 (em_is 1 p q a b) A).
  apply (is_RInt_ext _ (fun x => (u * x + v * (x * x) - c) * ew 0 p q x)) in B.
  - eapply is_RInt_eq; [exact B|]. ring.
  - intros x _. change (u * ew 1 p q x + 1 * (v * ew 2 p q x + - c * ew 0 p q x) = (u * x + v * (x * x) - c) * ew 0 p q x).
    rewrite (ew_k 1), (ew_k 2). ring.
Qed.
(** The gradient vanishes at one point at most. *)
Theorem C68_at_most_one_lambda :
  forall a b rhs0 rhs1 l0 l1 l0' l1', a < b ->
  gradH a b rhs0 rhs1 l0 l1 = Some (0, 0) -> gradH a b rhs0 rhs1 l0' l1' = Some (0, 0) -> l0 = l0' /\ l1 = l1'.
Proof.
  intros a b r0 r1 l0 l1 l0' l1' H G G'.
  assert (D : (l0' - l0 = 0 /\ l1' - l1 = 0) \/ (l0' - l0 <> 0 \/ l1' - l1 <> 0)).
  { destruct (Req_dec (l0' - l0) 0), (Req_dec (l1' - l1) 0); tauto. }
  destruct D as [D|N]; [lra|]. exfalso.
  assert (Z := em0_pos a b l0 l1 H). assert (Z' := em0_pos a b l0' l1' H).
  destruct (moments_of_zero _ _ _ _ _ _ H G) as [M1 M2]. destruct (moments_of_zero _ _ _ _ _ _ H G') as [M1' M2'].
  set (u := l0' - l0) in *. set (v := l1' - l1) in *.
  set (c := ln (em a b 0 l0' l1') - ln (em a b 0 l0 l1)).
  assert (I := is_RInt_lin _ _ a b _ _ (/ em a b 0 l0' l1') (- / em a b 0 l0 l1) (quad_integral a b u v c l0' l1') (quad_integral a b u v c l0 l1)).
  rewrite M1, M2, M1', M2' in I. set (z := em a b 0 l0 l1) in *. set (z' := em a b 0 l0' l1') in *.
  match type of I with is_RInt ?g0 _ _ ?l => set (g := g0) in I; assert (I0 : l = 0) by (field; lra) end.
  rewrite I0 in I.
  assert (F : forall x, g x = (u * x + v * (x * x) - c) * (exp (u * x + v * (x * x) - c) - 1) * (/ z * ew 0 l0 l1 x)).
  { intros x. unfold g.
    assert (E : ew 0 l0' l1' x = exp (u * x + v * (x * x) - c) * (z' / z) * ew 0 l0 l1 x).
    { unfold ew. cbn [pow]. rewrite !Rmult_1_l. replace (u * x + v * (x * x) - c) with ((u * x + v * (x * x)) + (ln z + - ln z')) by (unfold c; ring).
      rewrite (exp_plus (u * x + v * (x * x))), (exp_plus (ln z)), exp_Ropp, !exp_ln by assumption.
      replace (l0' * x + l1' * (x * x)) with ((u * x + v * (x * x)) + (l0 * x + l1 * (x * x))) by (unfold u, v; ring).
      rewrite (exp_plus (u * x + v * (x * x)) (l0 * x + l1 * (x * x))).
      set (A := exp (u * x + v * (x * x))). set (B := exp (l0 * x + l1 * (x * x))). field. lra. }
    rewrite E. set (A := exp _). set (B := ew 0 l0 l1 x). field. lra. }
  assert (Sg : forall y, y <> 0 -> 0 < y * (exp y - 1)).
  { intros y Hy. destruct (Rdichotomy _ _ Hy) as [L|L].
    - assert (X : exp y < exp 0) by now apply exp_increasing. rewrite exp_0 in X. nra.
    - assert (X : exp 0 < exp y) by now apply exp_increasing. rewrite exp_0 in X. nra. }
  assert (W : forall x, 0 < / z * ew 0 l0 l1 x) by (intros x; apply Rmult_lt_0_compat; [now apply Rinv_0_lt_compat|apply ew_pos]).
  destruct (quadratic_point a b u v c H N) as (x0 & Hx0 & Hne).
  assert (P : 0 < RInt g a b); [|rewrite (is_RInt_unique _ _ _ _ I) in P; lra].
  apply (RInt_pos_point g a b x0); [| |assumption|].
  - intros x. apply (ex_derive_continuous g). unfold g, ew. auto_derive. trivial.
  - intros x _. rewrite F. destruct (Req_dec (u * x + v * (x * x) - c) 0) as [E|Ne]; [rewrite E; lra|].
    left. apply Rmult_lt_0_compat; [apply Sg; assumption|apply W].
  - rewrite F. apply Rmult_lt_0_compat; [apply Sg; lra|apply W].
Qed.
(** The gradient for the right hand side of the code vanishes iff the density has the original mean and the requested variance;
    this is impossible (finding: not rejected) for a variance of at least (b-a)^2/4, three times the original one. *)
Theorem C68_requested_variance :
  forall a b delta l0 l1, a < b ->
  let rhs := variance_rhs (MUniform a b) delta in
  let mean := dist_mean (MUniform a b) in
  (gradH a b (fst rhs) (snd rhs) l0 l1 = Some (0, 0) <->
   is_RInt (fun x => x * variance_tilted a b l0 l1 x) a b mean /\
   is_RInt (fun x => (x - mean) * (x - mean) * variance_tilted a b l0 l1 x) a b delta) /\
  (gradH a b (fst rhs) (snd rhs) l0 l1 = Some (0, 0) -> 0 < delta < 3 * dist_variance (MUniform a b)).
Proof.
  intros a b delta l0 l1 H rhs mean. destruct (C68_uniform_density a b l0 l1 H) as (m1 & m2 & P & _ & I0 & I1 & I2 & G).
  set (t := variance_tilted a b l0 l1) in *.
  assert (V : is_RInt (fun x => (x - mean) * (x - mean) * t x) a b (m2 - 2 * mean * m1 + mean * mean)).
  { apply (is_RInt_ext (fun x => 1 * (1 * (x ^ 2 * t x) + (- (2 * mean)) * (x * t x)) + mean * mean * t x)); [intros x _; cbn; ring|].
    eapply is_RInt_eq; [apply (is_RInt_lin (fun x => 1 * (x ^ 2 * t x) + - (2 * mean) * (x * t x)) t); [apply (is_RInt_lin (fun x => x ^ 2 * t x) (fun x => x * t x)); eassumption|exact I0]|]. ring. }
  assert (Eg : gradH a b (fst rhs) (snd rhs) l0 l1 = Some (0, 0) <-> m1 = mean /\ m2 = delta + mean ^ 2).
  { rewrite G. unfold rhs, variance_rhs. cbn [fst snd]. fold mean. split; [intros [= A B]; lra|intros [-> ->]; f_equal; f_equal; ring]. }
  split.
  - rewrite Eg. split.
    + intros [-> ->]. split; [exact I1|]. eapply is_RInt_eq; [exact V|]. cbn. ring.
    + intros [A B]. assert (A' := is_RInt_unique _ _ _ _ A). rewrite (is_RInt_unique _ _ _ _ I1) in A'. assert (B' := is_RInt_unique _ _ _ _ B). rewrite (is_RInt_unique _ _ _ _ V) in B'.
      split; [exact A'|]. rewrite A' in B'. cbn [pow]. lra.
  - rewrite Eg. intros [A B]. rewrite A, B in V. clear Eg. cbn [dist_variance].
    replace (delta + mean ^ 2 - 2 * mean * mean + mean * mean) with delta in V by (cbn; ring).
    assert (Zp := em0_pos a b l0 l1 H). set (K := / em a b 0 l0 l1). assert (PK : 0 < K) by now apply Rinv_0_lt_compat.
    assert (F : forall x, a < x < b -> t x = K * ew 0 l0 l1 x).
    { intros x Hx. unfold t, variance_tilted, uniform_pdf, ew. destruct (Rleb_spec a x), (Rleb_spec x b); try lra. cbn [andb].
      assert (Pe : 0 < computeIntegral a b l0 l1 0) by (rewrite computeIntegral_em by assumption; apply Rmult_lt_0_compat; [assumption|apply Rinv_0_lt_compat; lra]).
      unfold Rminus at 1. rewrite exp_plus, exp_Ropp, exp_ln by assumption. rewrite computeIntegral_em by assumption. unfold K. cbn [pow]. field. lra. }
    assert (Mid : mean = (a + b) / 2) by reflexivity.
    assert (C : forall g : R -> R, (forall x, continuous g x) -> forall x, continuous (fun x => g x * (K * ew 0 l0 l1 x)) x).
    { intros g Cg x. apply (continuous_mult g (fun x => K * ew 0 l0 l1 x)); [apply Cg|]. apply (ex_derive_continuous (fun x => K * ew 0 l0 l1 x)). unfold ew. auto_derive. trivial. }
    split.
    + rewrite <- (is_RInt_unique _ _ _ _ V). rewrite (RInt_ext _ (fun x => (x - mean) * (x - mean) * (K * ew 0 l0 l1 x))).
      2: { rewrite Rmin_left, Rmax_right by lra. intros x Hx. now rewrite F. }
      apply (RInt_pos_point _ a b ((a + mean) / 2)).
      * apply (C (fun x => (x - mean) * (x - mean))). intros x. apply (ex_derive_continuous (fun x => (x - mean) * (x - mean))). auto_derive. trivial.
      * intros x _. apply Rmult_le_pos; [apply Rle_0_sqr|]. assert (W := ew_pos l0 l1 x). nra.
      * rewrite Mid. lra.
      * apply Rmult_lt_0_compat; [apply Rlt_0_sqr; rewrite Mid; lra|]. assert (W := ew_pos l0 l1 ((a + mean) / 2)). nra.
    + set (h := (b - a) / 2). replace (3 * ((b - a) * (b - a) / 12)) with (h * h) by (unfold h; field).
      assert (D : is_RInt (fun x => (h * h) * t x + (-1) * ((x - mean) * (x - mean) * t x)) a b ((h * h) * 1 + (-1) * delta)) by (apply is_RInt_lin; assumption).
      assert (Pp : 0 < RInt (fun x => (h * h) * t x + (-1) * ((x - mean) * (x - mean) * t x)) a b).
      { rewrite (RInt_ext _ (fun x => (h * h - (x - mean) * (x - mean)) * (K * ew 0 l0 l1 x))).
        2: { rewrite Rmin_left, Rmax_right by lra. intros x Hx. cbn beta. rewrite F by assumption. change (h * h * (K * ew 0 l0 l1 x) + -1 * ((x - mean) * (x - mean) * (K * ew 0 l0 l1 x)) = (h * h - (x - mean) * (x - mean)) * (K * ew 0 l0 l1 x)). ring. }
        apply RInt_gt_0; [assumption| |].
        - intros x Hx. assert (W := ew_pos l0 l1 x). apply Rmult_lt_0_compat; [|nra]. unfold h. rewrite Mid. nra.
        - intros x _. apply (C (fun x => h * h - (x - mean) * (x - mean))). intros y. apply (ex_derive_continuous (fun x => h * h - (x - mean) * (x - mean))). auto_derive. trivial. }
      rewrite (is_RInt_unique _ _ _ _ D) in Pp. lra.
Qed.
(** The density the object evaluates for a uniform marginal: when the optimiser finds a zero of the gradient, it is a density on the same
    interval with the original mean and the requested variance; no optimisation is made for the original variance. *)
Theorem C68_uniform_requested :
  forall optimize a b delta, a < b ->
  let rhs := variance_rhs (MUniform a b) delta in let l := optimize rhs in let mean := dist_mean (MUniform a b) in
  delta = dist_variance (MUniform a b) \/ gradH a b (fst rhs) (snd rhs) (fst l) (snd l) = Some (0, 0) ->
  exists f, (forall x, variance_perturbed optimize (MUniform a b) delta x = Ok (f x)) /\
  (forall x, a <= x <= b -> 0 < f x) /\ (forall x, x < a \/ b < x -> f x = 0) /\
  is_RInt f a b 1 /\ is_RInt (fun x => x * f x) a b mean /\ is_RInt (fun x => (x - mean) * (x - mean) * f x) a b delta.
Proof.
  intros optimize a b delta H rhs l mean Hg. unfold variance_perturbed. fold rhs. fold l.
  destruct (Reqb_spec delta (dist_variance (MUniform a b))) as [->|N].
  - exists (uniform_pdf a b). split; [reflexivity|].
    assert (E : forall x, a <= x <= b -> uniform_pdf a b x = / (b - a)).
    { intros x Hx. unfold uniform_pdf. destruct (Rleb_spec a x), (Rleb_spec x b); try lra. reflexivity. }
    split; [intros x Hx; rewrite E by assumption; apply Rinv_0_lt_compat; lra|].
    split; [intros x Hx; unfold uniform_pdf; destruct (Rleb_spec a x), (Rleb_spec x b); try lra; reflexivity|].
    assert (X : forall (g : R -> R) (G : R -> R) v, (forall x, is_derive G x (g x * / (b - a))) -> (forall x, continuous (fun x => g x * / (b - a)) x) -> G b - G a = v ->
      is_RInt (fun x => g x * uniform_pdf a b x) a b v).
    { intros g G v D C V. apply (is_RInt_ext (fun x => g x * / (b - a))).
      - rewrite Rmin_left, Rmax_right by lra. intros x Hx. rewrite E by lra. reflexivity.
      - eapply is_RInt_eq; [apply (is_RInt_derive G (fun x => g x * / (b - a))); intros x _; [apply D|apply C]|exact V]. }
    split; [|split].
    + apply (is_RInt_ext (fun x => 1 * uniform_pdf a b x)); [intros; apply Rmult_1_l|].
      apply (X (fun _ => 1) (fun x => x / (b - a))); [intros x; auto_derive; [lra|field; lra]| |field; lra].
      intros x. apply (ex_derive_continuous (fun _ => 1 * / (b - a))). auto_derive. trivial.
    + apply (X (fun x => x) (fun x => x * x / (2 * (b - a)))); [intros x; auto_derive; [lra|field; lra]| |unfold mean; cbn [dist_mean]; field; lra].
      intros x. apply (ex_derive_continuous (fun x => x * / (b - a))). auto_derive. trivial.
    + apply (X (fun x => (x - mean) * (x - mean)) (fun x => (x - mean) * (x - mean) * (x - mean) / (3 * (b - a)))); [intros x; auto_derive; [lra|field; lra]| |].
      * intros x. apply (ex_derive_continuous (fun x => (x - mean) * (x - mean) * / (b - a))). auto_derive. trivial.
      * unfold mean. cbn [dist_mean dist_variance]. field. lra.
  - destruct Hg as [Hg|Hg]; [contradiction|]. destruct (C68_uniform_density a b (fst l) (snd l) H) as (m1 & m2 & P & Z & I0 & _).
    destruct (proj1 (proj1 (C68_requested_variance a b delta (fst l) (snd l) H)) Hg) as [I1 I2].
    exists (variance_tilted a b (fst l) (snd l)). split; [reflexivity|]. auto.
Qed.
(** The other laws can only keep their variance. *)
Theorem C68_other_law :
  forall optimize mean variance pdf delta x,
  (delta = variance -> variance_perturbed optimize (MOther mean variance pdf) delta x = Ok (pdf x)) /\
  (delta <> variance -> variance_perturbed optimize (MOther mean variance pdf) delta x = Raise GenericException).
Proof.
  intros optimize mean variance pdf delta x. unfold variance_perturbed. cbn [dist_variance dist_pdf]. split; [intros ->; now rewrite Reqb_refl|].
  intros N. now destruct (Reqb_spec delta variance).
Qed.
(** The hypotheses are met: the untouched parameters give the original density, which solves the problem for the original variance. *)
Example C68_example : gradH 0 1 (fst (variance_rhs (MUniform 0 1) (1 / 12))) (snd (variance_rhs (MUniform 0 1) (1 / 12))) 0 0 = Some (0, 0).
Proof.
  assert (T : forall x, 0 < x < 1 -> variance_tilted 0 1 0 0 x = 1).
  { intros x Hx. unfold variance_tilted, uniform_pdf. rewrite computeIntegral_em by lra. destruct (em_tilt_zero 0 1) as [-> _].
    destruct (Rleb_spec 0 x), (Rleb_spec x 1); try lra. cbn [andb].
    replace (0 * x + 0 * (x * x) - ln ((1 - 0) / (1 - 0))) with (- ln 1) by (replace ((1 - 0) / (1 - 0)) with 1 by field; ring).
    rewrite ln_1, Ropp_0, exp_0. field. }
  apply (C68_requested_variance 0 1 (1 / 12) 0 0 ltac:(lra)). cbn [dist_mean]. split.
  - apply (is_RInt_ext (fun x => x * 1)); [rewrite Rmin_left, Rmax_right by lra; intros x Hx; rewrite T by lra; reflexivity|].
    eapply is_RInt_eq; [apply (is_RInt_derive (fun x => x * x / 2) (fun x => x * 1))|].
    + intros x _. auto_derive; [trivial|]. field.
    + intros x _. apply (ex_derive_continuous (fun x => x * 1)). auto_derive. trivial.
    + unfold minus, plus, opp; cbn. field.
  - apply (is_RInt_ext (fun x => (x - (0 + 1) / 2) * (x - (0 + 1) / 2) * 1)); [rewrite Rmin_left, Rmax_right by lra; intros x Hx; rewrite T by lra; reflexivity|].
    eapply is_RInt_eq; [apply (is_RInt_derive (fun x => (x - (0 + 1) / 2) * (x - (0 + 1) / 2) * (x - (0 + 1) / 2) / 3) (fun x => (x - (0 + 1) / 2) * (x - (0 + 1) / 2) * 1))|].
    + intros x _. auto_derive; [trivial|]. field.
    + intros x _. apply (ex_derive_continuous (fun x => (x - (0 + 1) / 2) * (x - (0 + 1) / 2) * 1)). auto_derive. trivial.
    + unfold minus, plus, opp; cbn. field.
Qed.
(** The hypotheses of C68_uniform_requested are met by a variance other than the original one: on [-1, 1] the tilt (0, 1) keeps the mean. *)
Example C68_example_requested :
  exists delta, delta <> dist_variance (MUniform (-1) 1) /\
  gradH (-1) 1 (fst (variance_rhs (MUniform (-1) 1) delta)) (snd (variance_rhs (MUniform (-1) 1) delta)) 0 1 = Some (0, 0).
Proof.
  destruct (C68_uniform_density (-1) 1 0 1 ltac:(lra)) as (m1 & m2 & _ & _ & _ & I1 & _ & G).
  assert (M : m1 = 0).
  { assert (J := is_RInt_comp_opp (fun x => x * variance_tilted (-1) 1 0 1 x) 1 (-1) m1). cbn beta in J. unfold opp in J; cbn in J.
    replace (- -1) with 1 in J by ring. specialize (J I1). apply is_RInt_swap in J.
    assert (J' : is_RInt (fun x => x * variance_tilted (-1) 1 0 1 x) (-1) 1 (opp m1)).
    { eapply is_RInt_ext; [|exact J]. rewrite Rmin_left, Rmax_right by lra. intros x Hx. cbn beta.
      assert (E : variance_tilted (-1) 1 0 1 (- x) = variance_tilted (-1) 1 0 1 x).
      { unfold variance_tilted, uniform_pdf. destruct (Rleb_spec (-1) x), (Rleb_spec x 1), (Rleb_spec (-1) (- x)), (Rleb_spec (- x) 1); try lra. cbn [andb].
        f_equal. f_equal. ring. }
      rewrite E. match goal with |- ?u = ?v => change (@eq R u v) end. ring. }
    assert (A := is_RInt_unique _ _ _ _ I1). assert (B := is_RInt_unique _ _ _ _ J'). rewrite A in B. unfold opp in B; cbn in B. lra. }
  exists m2. assert (E : gradH (-1) 1 (fst (variance_rhs (MUniform (-1) 1) m2)) (snd (variance_rhs (MUniform (-1) 1) m2)) 0 1 = Some (0, 0)).
  { rewrite G, M. unfold variance_rhs. cbn [dist_mean fst snd]. f_equal. f_equal; field. }
  split; [|exact E]. intros N. rewrite N in E.
  destruct (C68_uniform_requested (fun _ => (0, 0)) (-1) 1 (dist_variance (MUniform (-1) 1)) ltac:(lra) (or_introl eq_refl)) as (f & Hf & _ & _ & _ & J1 & J2).
  assert (F : forall x, -1 < x < 1 -> f x = variance_tilted (-1) 1 0 0 x).
  { intros x Hx. specialize (Hf x). unfold variance_perturbed in Hf. rewrite Reqb_refl in Hf. injection Hf as <-. cbn [dist_pdf]. unfold variance_tilted, uniform_pdf.
    rewrite computeIntegral_em by lra. destruct (em_tilt_zero (-1) 1) as [-> _].
    destruct (Rleb_spec (-1) x), (Rleb_spec x 1); try lra. cbn [andb].
    replace (0 * x + 0 * (x * x) - ln ((1 - -1) / (1 - -1))) with (- ln 1) by (replace ((1 - -1) / (1 - -1)) with 1 by field; ring).
    rewrite ln_1, Ropp_0, exp_0. field. }
  assert (E0 : gradH (-1) 1 (fst (variance_rhs (MUniform (-1) 1) (dist_variance (MUniform (-1) 1)))) (snd (variance_rhs (MUniform (-1) 1) (dist_variance (MUniform (-1) 1)))) 0 0 = Some (0, 0)).
  { apply (C68_requested_variance (-1) 1 (dist_variance (MUniform (-1) 1)) 0 0 ltac:(lra)). split.
    - eapply is_RInt_ext; [|exact J1]. rewrite Rmin_left, Rmax_right by lra. intros x Hx. cbn beta. now rewrite F.
    - eapply is_RInt_ext; [|exact J2]. rewrite Rmin_left, Rmax_right by lra. intros x Hx. cbn beta. now rewrite F. }
  destruct (C68_at_most_one_lambda (-1) 1 _ _ 0 1 0 0 ltac:(lra) E E0) as [_ C]. lra.
Qed.

(** *** C67: the Hellinger abscissas *)
(** For two densities of mass 1 the value is the integral of the squared difference of the square roots (the square of the
    Hellinger distance up to the constant 2, not the distance itself): between 0 and 2, symmetric, 0 without perturbation. *)
Theorem C67_hellinger_value :
  forall f g a b, a < b -> (forall x, 0 <= f x) -> (forall x, 0 <= g x) -> is_RInt f a b 1 -> is_RInt g a b 1 ->
  ex_RInt (fun x => sqrt (f x * g x)) a b ->
  is_RInt (fun x => (sqrt (f x) - sqrt (g x)) * (sqrt (f x) - sqrt (g x))) a b (hellinger_value f g a b) /\
  0 <= hellinger_value f g a b <= 2 /\ hellinger_value f g a b = hellinger_value g f a b /\ hellinger_value f f a b = 0.
Proof.
  intros f g a b H Pf Pg If Ig Es. assert (Is := RInt_correct _ _ _ Es). set (r := RInt (fun x => sqrt (f x * g x)) a b) in *.
  assert (V : hellinger_value f g a b = 2 - 2 * r) by reflexivity.
  assert (I : is_RInt (fun x => (sqrt (f x) - sqrt (g x)) * (sqrt (f x) - sqrt (g x))) a b (hellinger_value f g a b)).
  { assert (A := is_RInt_lin _ _ a b _ _ 1 1 If Ig). assert (B := is_RInt_lin _ _ a b _ _ 1 (-2) A Is).
    apply (is_RInt_ext _ (fun x => (sqrt (f x) - sqrt (g x)) * (sqrt (f x) - sqrt (g x)))) in B.
    - eapply is_RInt_eq; [exact B|]. rewrite V. ring.
    - intros x _. change (1 * (1 * f x + 1 * g x) + -2 * sqrt (f x * g x) = (sqrt (f x) - sqrt (g x)) * (sqrt (f x) - sqrt (g x))).
      rewrite sqrt_mult by auto. assert (S1 := sqrt_sqrt (f x) (Pf x)). assert (S2 := sqrt_sqrt (g x) (Pg x)). nra. }
  split; [exact I|]. split.
  - split.
    + rewrite <- (is_RInt_unique _ _ _ _ I). apply RInt_ge_0; [lra|eexists; exact I|]. intros x _. apply Rle_0_sqr.
    + rewrite V. assert (0 <= r); [|lra]. apply RInt_ge_0; [lra|exact Es|]. intros x _. apply sqrt_pos.
  - split.
    + unfold hellinger_value. do 2 f_equal. apply RInt_ext. intros x _. now rewrite Rmult_comm.
    + unfold hellinger_value. rewrite (RInt_ext _ f) by (intros x _; apply sqrt_square, Pf). rewrite (is_RInt_unique _ _ _ _ If). ring.
Qed.
Example C67_hellinger_example : hellinger_value (fun _ => 1) (fun _ => 1) 0 1 = 0.
Proof. unfold hellinger_value. rewrite Rmult_1_l, sqrt_1, RInt_const. unfold scal; cbn; unfold mult; cbn. ring. Qed.
Print Assumptions C67_hellinger_value.
Print Assumptions C54_normal_is_a_shift.
Print Assumptions C54_normal_moments.
Print Assumptions C54_tilt.
Print Assumptions C54_tilt_exists_iff_mean_inside.
Print Assumptions C54_uniform_requested_mean.
Print Assumptions C54_scaled_uniform_reachable.
Print Assumptions C68_normal.
Print Assumptions C68_uniform_density.
Print Assumptions C68_derivatives.
Print Assumptions C68_at_most_one_lambda.
Print Assumptions C68_requested_variance.
Print Assumptions C68_uniform_requested.
Print Assumptions C68_other_law.
