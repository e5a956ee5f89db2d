(** Facts on least squares. *)
From Verif Require Import RealBase RegModel.
Local Open Scope R_scope.

(** Moments. *)
Definition sx (d : data) := Rsum (map fst d).
Definition sy (d : data) := Rsum (map snd d).
Definition sxx (d : data) := Rsum (map (fun p => fst p * fst p) d).
Definition sxy (d : data) := Rsum (map (fun p => fst p * snd p) d).
Definition syy (d : data) := Rsum (map (fun p => snd p * snd p) d).
Lemma num_cons {A} (x : A) l : num (x :: l) = 1 + num l.
Proof. unfold num. cbn [length]. rewrite S_INR. lra. Qed.
Lemma num_map {A B} (f : A -> B) l : num (map f l) = num l.
Proof. unfold num. now rewrite map_length. Qed.
Lemma num_pos {A} (l : list A) : l <> [] -> 0 < num l.
Proof. apply length_pos. Qed.
Lemma num_nonneg {A} (l : list A) : 0 <= num l.
Proof. apply pos_INR. Qed.
(** A quadratic expression is a combination of the moments. *)
Lemma quad_sum a b c (d : data) :
  Rsum (map (fun p => (c * snd p + (a + b * fst p)) * (c * snd p + (a + b * fst p))) d)
  = c * c * syy d + a * a * num d + b * b * sxx d + 2 * a * b * sx d + 2 * c * a * sy d + 2 * c * b * sxy d.
Proof.
  induction d as [|p d IH]; [cbn; unfold num; cbn; ring|].
  unfold syy, sxx, sx, sy, sxy in *. cbn [map]. rewrite !Rsum_cons, num_cons, IH. ring.
Qed.
Lemma lin_sum a b c (d : data) :
  Rsum (map (fun p => c * snd p + (a + b * fst p)) d) = c * sy d + a * num d + b * sx d.
Proof.
  induction d as [|p d IH]; [cbn; unfold num; cbn; ring|].
  unfold sx, sy in *. cbn [map]. rewrite !Rsum_cons, num_cons, IH. ring.
Qed.
Lemma linx_sum a b c (d : data) :
  Rsum (map (fun p => fst p * (c * snd p + (a + b * fst p))) d) = c * sxy d + a * sx d + b * sxx d.
Proof.
  induction d as [|p d IH]; [cbn; ring|].
  unfold sx, sxx, sxy in *. cbn [map]. rewrite !Rsum_cons, IH. ring.
Qed.
Lemma cross_sum a b (d : data) :
  Rsum (map (fun p => (fst p - a) * (snd p - b)) d) = sxy d - a * sy d - b * sx d + a * b * num d.
Proof.
  induction d as [|p d IH]; [cbn; unfold num; cbn; ring|].
  unfold sx, sy, sxy in *. cbn [map]. rewrite !Rsum_cons, num_cons, IH. ring.
Qed.
Lemma xbar_def d : xbar d = sx d / num d.
Proof. unfold xbar, Rmean, sx, num. now rewrite map_length. Qed.
Lemma ybar_def d : ybar d = sy d / num d.
Proof. unfold ybar, Rmean, sy, num. now rewrite map_length. Qed.
Lemma Sxx_def d : d <> [] -> Sxx d = sxx d - sx d * sx d / num d.
Proof.
  intros H. unfold Sxx.
  rewrite (Rsum_ext _ (fun p => (0 * snd p + (- xbar d + 1 * fst p)) * (0 * snd p + (- xbar d + 1 * fst p)))) by (intros; ring).
  rewrite quad_sum, xbar_def. assert (G := num_pos d H). field. lra.
Qed.
Lemma Sxy_def d : d <> [] -> Sxy d = sxy d - sx d * sy d / num d.
Proof.
  intros H. unfold Sxy. rewrite cross_sum, xbar_def, ybar_def. assert (G := num_pos d H). field. lra.
Qed.
(** Two distinct defect sizes. *)
Definition non_constant (d : data) : Prop := exists p q, In p d /\ In q d /\ fst p <> fst q.
Lemma non_constant_nil d : non_constant d -> d <> [].
Proof. intros [p [q [H _]]] ->. destruct H. Qed.
Lemma Sxx_nonneg d : 0 <= Sxx d.
Proof. apply Rsum_sqr_nonneg. Qed.
Lemma Sxx_pos d : non_constant d <-> 0 < Sxx d.
Proof.
  split.
  - intros [p [q [Hp [Hq Hne]]]]. destruct (Rle_lt_or_eq_dec _ _ (Sxx_nonneg d)) as [|E]; [assumption|].
    exfalso. apply Hne. symmetry in E. unfold Sxx in E.
    assert (G := Rsum_sqr_zero (fun p => fst p - xbar d) d E).
    assert (G1 := G p Hp). assert (G2 := G q Hq). cbn in G1, G2. lra.
  - intros H. destruct d as [|p d]; [cbn in H; lra|].
    destruct (Forall_dec (fun q : R * R => fst q = fst p) (fun q => Req_EM_T (fst q) (fst p)) d) as [F|F].
    + exfalso. assert (E : forall q, In q (p :: d) -> fst q = fst p).
      { rewrite Forall_forall in F. intros q [<-|Hq]; auto. }
      assert (N := num_pos (p :: d) ltac:(discriminate)).
      assert (X : sx (p :: d) = num (p :: d) * fst p).
      { unfold sx. rewrite (Rsum_ext _ (fun _ => fst p)) by (intros; auto). apply Rsum_const. }
      assert (XX : sxx (p :: d) = num (p :: d) * (fst p * fst p)).
      { unfold sxx. rewrite (Rsum_ext _ (fun _ => fst p * fst p)).
        - apply Rsum_const.
        - intros q Hq. now rewrite (E q Hq). }
      rewrite Sxx_def in H by discriminate. rewrite X, XX in H.
      replace (num (p :: d) * (fst p * fst p) - num (p :: d) * fst p * (num (p :: d) * fst p) / num (p :: d))
        with 0 in H by (field; lra). lra.
    + apply neg_Forall_Exists_neg in F; [|intros q; apply Req_EM_T].
      apply Exists_exists in F. destruct F as [q [Hq Hne]]. exists p, q. split; [now left|]. split; [now right|congruence].
Qed.
(** Normal equations of the closed form. *)
Lemma ols_normal d a b : non_constant d -> ols d = (a, b) ->
  sy d = a * num d + b * sx d /\ sxy d = a * sx d + b * sxx d.
Proof.
  intros Hc H. assert (Hn := non_constant_nil d Hc). assert (P := num_pos d Hn).
  assert (S := proj1 (Sxx_pos d) Hc). unfold ols in H. injection H as <- <-. rewrite xbar_def, ybar_def.
  rewrite (Sxx_def d Hn) in *. rewrite (Sxy_def d Hn).
  assert (S' : num d * sxx d - sx d * sx d <> 0).
  { intros E. assert (K : sxx d - sx d * sx d / num d = (num d * sxx d - sx d * sx d) / num d) by (field; lra).
    rewrite K, E in S. unfold Rdiv in S. lra. }
  split; field; lra.
Qed.
Lemma ssq_residuals a b d : ssq (residuals a b d)
  = syy d + a * a * num d + b * b * sxx d + 2 * a * b * sx d - 2 * a * sy d - 2 * b * sxy d.
Proof.
  unfold ssq, residuals. rewrite map_map.
  rewrite (Rsum_ext _ (fun p => (-1 * snd p + (a + b * fst p)) * (-1 * snd p + (a + b * fst p)))).
  - rewrite quad_sum. ring.
  - intros p _. unfold linear. ring.
Qed.
(** Pythagoras around the least squares line. *)
Lemma ols_decomposition d a b a' b' : non_constant d -> ols d = (a, b) ->
  ssq (residuals a' b' d) = ssq (residuals a b d)
    + num d * ((a' - a) + (b' - b) * xbar d) * ((a' - a) + (b' - b) * xbar d) + (b' - b) * (b' - b) * Sxx d.
Proof.
  intros Hc H. assert (Hn := non_constant_nil d Hc). assert (P := num_pos d Hn).
  destruct (ols_normal d a b Hc H) as [N1 N2]. rewrite !ssq_residuals, xbar_def, (Sxx_def d Hn), N1, N2. field. lra.
Qed.
Lemma Rsum_residuals a b d : Rsum (residuals a b d) = sy d - a * num d - b * sx d.
Proof.
  unfold residuals. rewrite (Rsum_ext _ (fun p => 1 * snd p + (- a + - b * fst p))).
  - rewrite lin_sum. ring.
  - intros p _. unfold linear. ring.
Qed.
Lemma ols_residuals_sum d a b : non_constant d -> ols d = (a, b) -> Rsum (residuals a b d) = 0.
Proof. intros Hc H. destruct (ols_normal d a b Hc H) as [N1 _]. rewrite Rsum_residuals, N1. ring. Qed.
Lemma ols_residuals_orth d a b : non_constant d -> ols d = (a, b) ->
  Rsum (map (fun p => fst p * (snd p - linear a b (fst p))) d) = 0.
Proof.
  intros Hc H. destruct (ols_normal d a b Hc H) as [_ N2].
  rewrite (Rsum_ext _ (fun p => fst p * (1 * snd p + (- a + - b * fst p)))).
  - rewrite linx_sum, N2. ring.
  - intros p _. unfold linear. ring.
Qed.
Lemma residuals_length a b d : length (residuals a b d) = length d.
Proof. unfold residuals. apply map_length. Qed.
Lemma ssq_nonneg l : 0 <= ssq l.
Proof. unfold ssq. apply (Rsum_sqr_nonneg (fun x => x)). Qed.
Lemma ssq_zero l : ssq l = 0 <-> forall r, In r l -> r = 0.
Proof.
  split.
  - intros H r Hr. exact (Rsum_sqr_zero (fun x => x) l H r Hr).
  - intros H. unfold ssq. rewrite (Rsum_ext _ (fun _ => 0)).
    + rewrite Rsum_const. ring.
    + intros r Hr. rewrite (H r Hr). ring.
Qed.
Lemma ssq_cons x l : ssq (x :: l) = x * x + ssq l.
Proof. reflexivity. Qed.
Lemma ssq_app l1 l2 : ssq (l1 ++ l2) = ssq l1 + ssq l2.
Proof. unfold ssq. rewrite map_app. apply Rsum_app. Qed.
(** Centred sum of squares. *)
Lemma css_def l : l <> [] -> Rsum (map (fun x => (x - Rmean l) * (x - Rmean l)) l) = ssq l - Rsum l * Rsum l / num l.
Proof.
  intros H. assert (P := num_pos l H).
  assert (G : forall m, Rsum (map (fun x => (x - m) * (x - m)) l) = ssq l - 2 * m * Rsum l + m * m * num l).
  { intros m. clear. induction l as [|x l IH]; [cbn; unfold ssq, num; cbn; ring|].
    cbn [map]. rewrite !Rsum_cons, ssq_cons, num_cons, IH. ring. }
  rewrite G. unfold Rmean. change (INR (length l)) with (num l). field. lra.
Qed.
Lemma variance_nonneg l : (2 <= length l)%nat -> 0 <= variance l.
Proof.
  intros H. unfold variance. apply Rmult_le_pos; [apply (Rsum_sqr_nonneg (fun x => x - Rmean l))|].
  left. apply Rinv_0_lt_compat. unfold num. apply le_INR in H. change (INR 2) with (1 + 1) in H. lra.
Qed.
Lemma div_some x y z : div x y = Some z <-> y <> 0 /\ z = x / y.
Proof.
  unfold div. destruct (Reqb_spec y 0) as [E|E]; split; try discriminate; try tauto.
  - intros H. injection H as <-. auto.
  - intros [_ ->]. reflexivity.
Qed.
