(** Integrals of the tilted densities. *)
From Verif Require Import RealBase LooModel PliDensityModel.
From Coquelicot Require Import Coquelicot.
Local Open Scope R_scope.

Definition ew (k : nat) (l0 l1 x : R) : R := x ^ k * exp (l0 * x + l1 * (x * x)).
Definition em (a b : R) (k : nat) (l0 l1 : R) : R := RInt (ew k l0 l1) a b.

Lemma ew_continuous k l0 l1 x : continuous (ew k l0 l1) x.
Proof. apply (ex_derive_continuous (ew k l0 l1)). unfold ew. auto_derive. trivial. Qed.
Lemma ew_integrable k l0 l1 a b : ex_RInt (ew k l0 l1) a b.
Proof. apply (ex_RInt_continuous (V := R_CompleteNormedModule)). intros; apply ew_continuous. Qed.
Lemma em_is k l0 l1 a b : is_RInt (ew k l0 l1) a b (em a b k l0 l1).
Proof. apply (RInt_correct (V := R_CompleteNormedModule)), ew_integrable. Qed.
Lemma em0_pos a b l0 l1 : a < b -> 0 < em a b 0 l0 l1.
Proof.
  intros H. apply RInt_gt_0; [assumption| |intros; apply ew_continuous]. intros x _. unfold ew. cbn. rewrite Rmult_1_l. apply exp_pos.
Qed.
Lemma derive0 k l1 t u : is_derive (fun z => ew k z l1 t) u (ew (S k) u l1 t).
Proof. unfold ew. auto_derive; [trivial|]. cbn. ring. Qed.
Lemma derive1 k l0 t u : is_derive (fun z => ew k l0 z t) u (ew (S (S k)) l0 u t).
Proof. unfold ew. auto_derive; [trivial|]. cbn. ring. Qed.
Lemma continuity_2d_pow k x t : continuity_2d_pt (fun _ v => v ^ k) x t.
Proof.
  induction k as [|k IH]; cbn; [apply continuity_2d_pt_const|]. apply continuity_2d_pt_mult; [apply continuity_2d_pt_id2|exact IH].
Qed.
Lemma cexp x : continuity_pt exp x.
Proof. apply derivable_continuous_pt, derivable_pt_exp. Qed.
Lemma em_derive0 a b k l0 l1 : is_derive (fun u => em a b k u l1) l0 (em a b (S k) l0 l1).
Proof.
  unfold em. assert (E : RInt (ew (S k) l0 l1) a b = RInt (fun t => Derive (fun u => ew k u l1 t) l0) a b).
  { apply RInt_ext. intros t _. symmetry. apply is_derive_unique, derive0. }
  rewrite E. apply (is_derive_RInt_param (fun u t => ew k u l1 t)).
  - exists (mkposreal 1 Rlt_0_1). intros y _ t _. eexists. apply derive0.
  - intros t _. apply (continuity_2d_pt_ext (fun u v => ew (S k) u l1 v)).
    + intros u v. symmetry. apply is_derive_unique, derive0.
    + unfold ew. apply continuity_2d_pt_mult; [apply continuity_2d_pow|]. apply continuity_1d_2d_pt_comp; [apply cexp|].
      apply continuity_2d_pt_plus; apply continuity_2d_pt_mult;
        auto using continuity_2d_pt_id1, continuity_2d_pt_id2, continuity_2d_pt_const, continuity_2d_pt_mult.
  - exists (mkposreal 1 Rlt_0_1). intros y _. apply ew_integrable.
Qed.
Lemma em_derive1 a b k l0 l1 : is_derive (fun u => em a b k l0 u) l1 (em a b (S (S k)) l0 l1).
Proof.
  unfold em. assert (E : RInt (ew (S (S k)) l0 l1) a b = RInt (fun t => Derive (fun u => ew k l0 u t) l1) a b).
  { apply RInt_ext. intros t _. symmetry. apply is_derive_unique, derive1. }
  rewrite E. apply (is_derive_RInt_param (fun u t => ew k l0 u t)).
  - exists (mkposreal 1 Rlt_0_1). intros y _ t _. eexists. apply derive1.
  - intros t _. apply (continuity_2d_pt_ext (fun u v => ew (S (S k)) l0 u v)).
    + intros u v. symmetry. apply is_derive_unique, derive1.
    + unfold ew. apply continuity_2d_pt_mult; [apply continuity_2d_pow|]. apply continuity_1d_2d_pt_comp; [apply cexp|].
      apply continuity_2d_pt_plus; apply continuity_2d_pt_mult;
        auto using continuity_2d_pt_id1, continuity_2d_pt_id2, continuity_2d_pt_const, continuity_2d_pt_mult.
  - exists (mkposreal 1 Rlt_0_1). intros y _. apply ew_integrable.
Qed.

(** A continuous non negative function with a positive value has a positive integral. *)
Lemma RInt_pos_point (g : R -> R) a b x0 : (forall x, continuous g x) -> (forall x, a <= x <= b -> 0 <= g x) -> a < x0 < b -> 0 < g x0 -> 0 < RInt g a b.
Proof.
  intros C P [H1 H2] G.
  assert (I : forall u v, ex_RInt g u v) by (intros u v; apply (ex_RInt_continuous (V := R_CompleteNormedModule)); intros; apply C).
  destruct (C x0 (fun y => 0 < y)) as [eps He].
  { exists (mkposreal _ G). intros y Hy. unfold ball in Hy. cbn in Hy. unfold AbsRing_ball, abs, minus, plus, opp in Hy. cbn in Hy.
    apply Rabs_def2 in Hy. lra. }
  assert (Hn : forall x, Rabs (x - x0) < eps -> 0 < g x) by (intros x Hx; apply He; exact Hx).
  set (u := Rmax a (x0 - eps / 2)). set (v := Rmin b (x0 + eps / 2)). assert (Pe := cond_pos eps).
  assert (Hu : a <= u < x0) by (unfold u; split; [apply Rmax_l|apply Rmax_lub_lt; lra]).
  assert (Hv : x0 < v <= b) by (unfold v; split; [apply Rmin_glb_lt; lra|apply Rmin_l]).
  assert (Hu2 : x0 - eps / 2 <= u) by apply Rmax_r. assert (Hv2 : v <= x0 + eps / 2) by apply Rmin_r.
  assert (E : RInt g a b = RInt g a u + (RInt g u v + RInt g v b)).
  { rewrite <- (RInt_Chasles g a u b) by apply I. rewrite <- (RInt_Chasles g u v b) by apply I. reflexivity. }
  assert (A1 : 0 <= RInt g a u) by (apply RInt_ge_0; [lra|apply I|intros x Hx; apply P; lra]).
  assert (A2 : 0 < RInt g u v). { apply RInt_gt_0; [lra| |intros; apply C]. intros x Hx. apply Hn. apply Rabs_def1; lra. }
  assert (A3 : 0 <= RInt g v b) by (apply RInt_ge_0; [lra|apply I|intros x Hx; apply P; lra]). rewrite E. lra.
Qed.

Lemma is_RInt_eq (f : R -> R) (a b l l' : R) : is_RInt f a b l -> l = l' -> is_RInt f a b l'.
Proof. intros H <-. exact H. Qed.
Lemma is_RInt_scalR (f : R -> R) (a b l c : R) : is_RInt f a b l -> is_RInt (fun x => c * f x) a b (c * l).
Proof. intros H. apply (is_RInt_scal (V := R_NormedModule)), H. Qed.
Lemma is_derive_extR (f g : R -> R) (x l : R) : (forall t : R, f t = g t) -> is_derive f x l -> is_derive g x l.
Proof. intros H. apply (is_derive_ext (V := R_NormedModule)), H. Qed.
(** Moments of the weight, as combinations of integrals. *)
Lemma is_RInt_lin (f g : R -> R) (a b lf lg c d : R) : is_RInt f a b lf -> is_RInt g a b lg -> is_RInt (fun x => c * f x + d * g x) a b (c * lf + d * lg).
Proof. intros Hf Hg. apply (is_RInt_plus (V := R_NormedModule)); apply (is_RInt_scal (V := R_NormedModule)); assumption. Qed.
(** *** Mean of the exponential tilt *)
Definition tmean (a b l : R) : R := em a b 1 l 0 / em a b 0 l 0.
Lemma em_tilt_closed a b l : l <> 0 ->
  em a b 0 l 0 = (exp (l * b) - exp (l * a)) / l /\
  em a b 1 l 0 = (exp (l * b) * (l * b - 1) - exp (l * a) * (l * a - 1)) / (l * l).
Proof.
  intros Hl. split; apply is_RInt_unique.
  - apply (is_RInt_ext (fun x => exp (l * x))); [intros x _; unfold ew; cbn; rewrite !Rmult_1_l; f_equal; ring|].
    replace ((exp (l * b) - exp (l * a)) / l) with (minus (exp (l * b) / l) (exp (l * a) / l)) by (unfold minus, plus, opp; cbn; field; assumption).
    apply (is_RInt_derive (fun x => exp (l * x) / l)).
    + intros x _. auto_derive; [trivial|]. field. assumption.
    + intros x _. apply (ex_derive_continuous (fun x => exp (l * x))). auto_derive. trivial.
  - apply (is_RInt_ext (fun x => x * exp (l * x))); [intros x _; unfold ew; cbn; rewrite !Rmult_1_r; f_equal; f_equal; ring|].
    replace (_ / (l * l)) with (minus (exp (l * b) * (l * b - 1) / (l * l)) (exp (l * a) * (l * a - 1) / (l * l))) by (unfold minus, plus, opp; cbn; field; assumption).
    apply (is_RInt_derive (fun x => exp (l * x) * (l * x - 1) / (l * l))).
    + intros x _. auto_derive; [trivial|]. field. assumption.
    + intros x _. apply (ex_derive_continuous (fun x => x * exp (l * x))). auto_derive. trivial.
Qed.
Lemma em_tilt_zero a b : em a b 0 0 0 = b - a /\ em a b 1 0 0 = (b * b - a * a) / 2.
Proof.
  split; apply is_RInt_unique.
  - apply (is_RInt_ext (fun x => 1)); [intros x _; unfold ew; cbn; rewrite !Rmult_1_l, !Rmult_0_l, Rplus_0_l, exp_0; reflexivity|].
    replace (b - a) with (scal (b - a) 1) by (unfold scal; cbn; unfold mult; cbn; ring). apply (is_RInt_const (V := R_NormedModule)).
  - apply (is_RInt_ext (fun x => x)); [intros x _; unfold ew; cbn; rewrite !Rmult_1_r, !Rmult_0_l, Rplus_0_l, exp_0; ring|].
    replace ((b * b - a * a) / 2) with (minus (b * b / 2) (a * a / 2)) by (unfold minus, plus, opp; cbn; field).
    apply (is_RInt_derive (fun x => x * x / 2)).
    + intros x _. auto_derive; [trivial|]. field.
    + intros x _. apply continuous_id.
Qed.
Lemma exp_neq l a b : a < b -> l <> 0 -> exp (l * b) - exp (l * a) <> 0.
Proof.
  intros H Hl E. assert (X : exp (l * b) = exp (l * a)) by lra. apply exp_inv in X. assert (l * (b - a) = 0) by lra.
  apply Rmult_integral in H0. lra.
Qed.
Lemma MprimeOverM_spec a b l delta : a < b -> MprimeOverM l a b delta = Some (tmean a b l - delta).
Proof.
  intros H. unfold MprimeOverM. destruct (Reqb_spec l 0) as [->|Hl].
  - f_equal. unfold tmean. destruct (em_tilt_zero a b) as [-> ->]. field. lra.
  - assert (N := exp_neq l a b H Hl). unfold qdiv. destruct (Reqb_spec (l * (exp (l * b) - exp (l * a))) 0) as [Z|Z].
    { apply Rmult_integral in Z. tauto. }
    cbn [option_map]. f_equal. f_equal. unfold tmean. destruct (em_tilt_closed a b l Hl) as [-> ->]. field. split; assumption.
Qed.
Lemma ew_pos l0 l1 x : 0 < ew 0 l0 l1 x.
Proof. unfold ew. cbn. rewrite Rmult_1_l. apply exp_pos. Qed.
Lemma ew_1 l0 l1 x : ew 1 l0 l1 x = x * ew 0 l0 l1 x.
Proof. unfold ew. cbn. ring. Qed.
Lemma ew_k k l0 l1 x : ew k l0 l1 x = x ^ k * ew 0 l0 l1 x.
Proof. unfold ew. cbn. ring. Qed.
Lemma tmean_range a b l : a < b -> a < tmean a b l < b.
Proof.
  intros H. assert (Z := em0_pos a b l 0 H). unfold tmean. set (z := em a b 0 l 0) in *.
  assert (A : 0 < em a b 1 l 0 - a * z).
  { replace (em a b 1 l 0 - a * z) with (1 * em a b 1 l 0 + (- a) * z) by ring.
    unfold z. rewrite <- (is_RInt_unique _ _ _ _ (is_RInt_lin _ _ a b _ _ 1 (- a) (em_is 1 l 0 a b) (em_is 0 l 0 a b))).
    apply RInt_gt_0; [assumption| |].
    - intros x Hx. rewrite ew_1. assert (P := ew_pos l 0 x). nra.
    - intros x _. apply (ex_derive_continuous (fun x => 1 * ew 1 l 0 x + - a * ew 0 l 0 x)). unfold ew. auto_derive. trivial. }
  assert (B : 0 < b * z - em a b 1 l 0).
  { replace (b * z - em a b 1 l 0) with ((-1) * em a b 1 l 0 + b * z) by ring.
    unfold z. rewrite <- (is_RInt_unique _ _ _ _ (is_RInt_lin _ _ a b _ _ (-1) b (em_is 1 l 0 a b) (em_is 0 l 0 a b))).
    apply RInt_gt_0; [assumption| |].
    - intros x Hx. rewrite ew_1. assert (P := ew_pos l 0 x). nra.
    - intros x _. apply (ex_derive_continuous (fun x => -1 * ew 1 l 0 x + b * ew 0 l 0 x)). unfold ew. auto_derive. trivial. }
  split; apply (Rmult_lt_reg_r z); try assumption; unfold Rdiv; try rewrite Rmult_assoc, Rinv_l by lra; lra.
Qed.
Lemma tmean_increasing a b l l' : a < b -> l < l' -> tmean a b l < tmean a b l'.
Proof.
  intros H Hl. assert (Z := em0_pos a b l 0 H). assert (Z' := em0_pos a b l' 0 H). assert (R := tmean_range a b l H). set (m := tmean a b l) in *.
  assert (Em : em a b 1 l 0 = m * em a b 0 l 0) by (unfold m, tmean; field; lra).
  set (c := l' - l). set (K := exp (c * m)).
  (* g x = (x - m) (e^{l' x} - K e^{l x}) *)
  set (g := fun x => (1 * (1 * ew 1 l' 0 x + (- m) * ew 0 l' 0 x) + (- K) * (1 * ew 1 l 0 x + (- m) * ew 0 l 0 x))).
  assert (G : is_RInt g a b (1 * (1 * em a b 1 l' 0 + (- m) * em a b 0 l' 0) + (- K) * (1 * em a b 1 l 0 + (- m) * em a b 0 l 0))).
  { unfold g. apply (is_RInt_lin (fun x => 1 * ew 1 l' 0 x + - m * ew 0 l' 0 x) (fun x => 1 * ew 1 l 0 x + - m * ew 0 l 0 x)); apply is_RInt_lin; apply em_is. }
  assert (P : 0 < RInt g a b).
  { assert (F : forall x, g x = (x - m) * (exp (c * x) - K) * exp (l * x)).
    { intros x. unfold g. rewrite !ew_1. assert (E' : ew 0 l' 0 x = exp (c * x) * exp (l * x)).
      { unfold ew. cbn. rewrite Rmult_1_l, <- exp_plus. f_equal. unfold c. ring. }
      assert (E : ew 0 l 0 x = exp (l * x)) by (unfold ew; cbn; rewrite Rmult_1_l; f_equal; ring). rewrite E, E'. ring. }
    assert (Q : forall x, x <> m -> 0 < g x).
    { intros x Hx. rewrite F. apply Rmult_lt_0_compat; [|apply exp_pos]. unfold K. destruct (Rdichotomy _ _ Hx) as [L|L].
      - assert (exp (c * x) < exp (c * m)) by (apply exp_increasing; unfold c; nra). nra.
      - assert (exp (c * m) < exp (c * x)) by (apply exp_increasing; unfold c; nra). nra. }
    apply (RInt_pos_point g a b ((a + m) / 2)).
    - intros x. apply (ex_derive_continuous g). unfold g, ew. auto_derive. trivial.
    - intros x _. destruct (Req_dec x m) as [->|N]; [rewrite F, Rminus_diag_eq by reflexivity; lra|left; now apply Q].
    - lra.
    - apply Q. lra. }
  rewrite (is_RInt_unique _ _ _ _ G), Em in P.
  assert (P2 : 0 < em a b 1 l' 0 - m * em a b 0 l' 0) by lra.
  apply (Rmult_lt_reg_r (em a b 0 l' 0)); [assumption|]. unfold tmean at 1. unfold Rdiv. rewrite Rmult_assoc, Rinv_l by lra. lra.
Qed.
Lemma tmean_continuity a b : a < b -> Ranalysis1.continuity (tmean a b).
Proof.
  intros H l. apply continuity_pt_filterlim. apply (ex_derive_continuous (tmean a b)). unfold tmean. apply ex_derive_div.
  - eexists. apply em_derive0.
  - eexists. apply em_derive0.
  - assert (P := em0_pos a b l 0 H). lra.
Qed.
Lemma tmean_large a b l : a < b -> 0 < l -> b - 1 / l < tmean a b l.
Proof.
  intros H Hl. unfold tmean. destruct (em_tilt_closed a b l ltac:(lra)) as [-> ->]. set (A := exp (l * a)). set (B := exp (l * b)).
  assert (AB : A < B) by (apply exp_increasing; nra). assert (PA : 0 < A) by apply exp_pos.
  replace ((B * (l * b - 1) - A * (l * a - 1)) / (l * l) / ((B - A) / l)) with (b - 1 / l + A * (b - a) / (B - A)) by (field; lra).
  assert (0 < A * (b - a) / (B - A)); [|lra]. apply Rmult_lt_0_compat; [nra|apply Rinv_0_lt_compat; lra].
Qed.
Lemma tmean_small a b l : a < b -> l < 0 -> tmean a b l < a - 1 / l.
Proof.
  intros H Hl. unfold tmean. destruct (em_tilt_closed a b l ltac:(lra)) as [-> ->]. set (A := exp (l * a)). set (B := exp (l * b)).
  assert (AB : B < A) by (apply exp_increasing; nra). assert (PB : 0 < B) by apply exp_pos.
  replace ((B * (l * b - 1) - A * (l * a - 1)) / (l * l) / ((B - A) / l)) with (a - 1 / l - B * (b - a) / (A - B)) by (field; lra).
  assert (0 < B * (b - a) / (A - B)); [|lra]. apply Rmult_lt_0_compat; [nra|apply Rinv_0_lt_compat; lra].
Qed.
Lemma tmean_onto a b delta : a < delta < b -> exists l, tmean a b l = delta.
Proof.
  intros [Ha Hb]. assert (H : a < b) by lra. set (lp := 1 / (b - delta)). set (ln := - (1 / (delta - a))).
  assert (Pp : 0 < lp) by (apply Rmult_lt_0_compat; [lra|apply Rinv_0_lt_compat; lra]).
  assert (Pn : ln < 0). { assert (0 < 1 / (delta - a)) by (apply Rmult_lt_0_compat; [lra|apply Rinv_0_lt_compat; lra]). unfold ln. lra. }
  assert (A1 := tmean_large a b lp H Pp). assert (A2 := tmean_small a b ln H Pn).
  replace (b - 1 / lp) with delta in A1 by (unfold lp; field; lra). replace (a - 1 / ln) with delta in A2 by (unfold ln; field; lra).
  destruct (IVT_gen (tmean a b) ln lp delta (tmean_continuity a b H)) as (l & _ & E).
  { rewrite Rmin_left, Rmax_right by lra. lra. }
  exists l. exact E.
Qed.
