(** C105: the kriging and chaos PODs do not depend on unit and origin of the signals. *)
From Coq Require Import Reals Lra.
From Verif Require Import RealBase MatBase LooModel LooProps KrigSimModel LawModel CoefModel.
Local Open Scope R_scope.

(** *** Vocabulary *)
(** The signals in another unit and from another origin. *)
Definition moved (c d : R) (y : nat -> R) : nat -> R := fun i => c * y i + d.
(** The constant function is in the span of the basis, with weights [w]: at the observations, and at a point with values [f]. *)
Definition spans_one (n p : nat) (F : mat) (w : nat -> R) : Prop := forall i, (i < n)%nat -> bigsum p (fun a => F i a * w a) = 1.
Definition one_at (p : nat) (f w : nat -> R) : Prop := bigsum p (fun a => f a * w a) = 1.
(** Covariances multiplied by [s] (the amplitude; s = c * c when it follows the unit). *)
Definition scaled (s : R) (K : mat) : mat := fun i j => s * K i j.
(** Conditional variance at a point: covariances [k] with the observations, [k0] with itself, trend values [f]; the weights solve the kriging system. *)
Definition is_weights (n p : nat) (K F : mat) (k f lam mu : nat -> R) : Prop :=
  (forall i, (i < n)%nat -> bigsum n (fun j => K i j * lam j) + bigsum p (fun a => F i a * mu a) = k i) /\
  (forall a, (a < p)%nat -> bigsum n (fun j => F j a * lam j) = f a).
Definition variance (n p : nat) (k0 : R) (k f lam mu : nat -> R) : R := k0 - bigsum n (fun j => k j * lam j) - bigsum p (fun a => f a * mu a).

(** *** Well posed systems *)
Lemma kernel N (S M : mat) (v : nat -> R) : meq N N (mmul N M S) mid -> (forall i, (i < N)%nat -> bigsum N (fun j => S i j * v j) = 0) -> forall i, (i < N)%nat -> v i = 0.
Proof.
  intros H Hv i Hi. transitivity (bigsum N (fun j => mid i j * v j)).
  - rewrite (bigsum_one N i); [unfold mid; rewrite Nat.eqb_refl; ring|assumption|]. intros l _ Hl. unfold mid. destruct (Nat.eqb_spec i l); [congruence|ring].
  - rewrite (bigsum_ext N _ (fun j => bigsum N (fun l => M i l * S l j * v j))) by (intros j Hj; rewrite <- (H i j Hi Hj); unfold mmul; now rewrite bigsum_scal_r).
    rewrite bigsum_swap. apply bigsum_zero. intros l Hl. rewrite (bigsum_ext N _ (fun j => M i l * (S l j * v j))) by (intros; ring). rewrite bigsum_scal, (Hv l Hl). ring.
Qed.
Lemma homogeneous n p K F M a b : is_inverse (n + p) (block_matrix n K F) M ->
  (forall i, (i < n)%nat -> bigsum n (fun j => K i j * a j) + bigsum p (fun l => F i l * b l) = 0) ->
  (forall l, (l < p)%nat -> bigsum n (fun j => F j l * a j) = 0) ->
  (forall j, (j < n)%nat -> a j = 0) /\ (forall l, (l < p)%nat -> b l = 0).
Proof.
  intros [H _] H1 H2. set (v := fun i => if Nat.ltb i n then a i else b (i - n)%nat).
  assert (V1 : forall j, (j < n)%nat -> v j = a j) by (intros j Hj; unfold v; destruct (Nat.ltb_spec j n); [reflexivity|lia]).
  assert (V2 : forall l, v (n + l)%nat = b l) by (intros l; unfold v; destruct (Nat.ltb_spec (n + l) n); [lia|f_equal; lia]).
  assert (Z := kernel (n + p) (block_matrix n K F) M v H).
  assert (Zv : forall i, (i < n + p)%nat -> bigsum (n + p) (fun j => block_matrix n K F i j * v j) = 0).
  { intros i Hi. rewrite bigsum_app. destruct (Nat.lt_ge_cases i n) as [L|L].
    - rewrite <- (H1 i L). f_equal; apply bigsum_ext; intros j Hj; [rewrite block_KK, V1 by assumption; ring|rewrite block_KF, V2 by assumption; ring].
    - replace i with (n + (i - n))%nat by lia. rewrite <- (H2 (i - n)%nat ltac:(lia)).
      rewrite (bigsum_zero p) by (intros j Hj; rewrite block_FF; ring). rewrite Rplus_0_r. apply bigsum_ext. intros j Hj. rewrite block_FK, V1 by assumption. reflexivity. }
  split; [intros j Hj; rewrite <- V1 by assumption; apply Z; [exact Zv|lia]|intros l Hl; rewrite <- V2; apply Z; [exact Zv|lia]].
Qed.
Lemma bigsum_lin n (f g : nat -> R) u v : bigsum n (fun i => u * f i + v * g i) = u * bigsum n f + v * bigsum n g.
Proof. now rewrite bigsum_plus, !bigsum_scal. Qed.

(** *** Kriging *)
(** With a constant in the trend, the kriging of the moved signals predicts the moved values, whatever the amplitude of the covariance ... *)
Theorem C105_kriging_prediction : forall n p K F M y k f w s c d alpha beta alpha' beta',
  is_inverse (n + p) (block_matrix n K F) M -> spans_one n p F w -> one_at p f w -> s <> 0 ->
  is_kriging n p K F y alpha beta -> is_kriging n p (scaled s K) F (moved c d y) alpha' beta' ->
  predict n p (fun j => s * k j) f alpha' beta' = c * predict n p k f alpha beta + d.
Proof.
  intros n p K F M y k f w s c d alpha beta alpha' beta' HM Hw Hf Hs [A1 A2] [B1 B2].
  destruct (homogeneous n p K F M (fun j => s * alpha' j + - c * alpha j) (fun a => 1 * beta' a + (- c * beta a + - d * w a)) HM) as [Z1 Z2].
  - intros i Hi. specialize (A1 i Hi). specialize (B1 i Hi). specialize (Hw i Hi). unfold scaled, moved in B1.
    rewrite (bigsum_ext n _ (fun j => 1 * (s * K i j * alpha' j) + - c * (K i j * alpha j))) by (intros; ring).
    rewrite (bigsum_ext p _ (fun a => 1 * (F i a * beta' a) + 1 * (- c * (F i a * beta a) + - d * (F i a * w a)))) by (intros; ring).
    rewrite !bigsum_lin. rewrite Hw, <- A1 in *. lra.
  - intros l Hl. rewrite (bigsum_ext n _ (fun j => s * (F j l * alpha' j) + - c * (F j l * alpha j))) by (intros; ring).
    rewrite bigsum_lin, (A2 l Hl), (B2 l Hl). ring.
  - unfold predict. unfold one_at in Hf.
    rewrite (bigsum_ext n (fun j => s * k j * alpha' j) (fun j => c * (k j * alpha j))) by (intros j Hj; specialize (Z1 j Hj); replace (s * k j * alpha' j) with (k j * (s * alpha' j)) by ring; replace (s * alpha' j) with (c * alpha j) by lra; ring).
    rewrite (bigsum_ext p (fun a => f a * beta' a) (fun a => c * (f a * beta a) + d * (f a * w a))) by (intros a Ha; specialize (Z2 a Ha); replace (beta' a) with (c * beta a + d * w a) by lra; ring).
    rewrite bigsum_lin, bigsum_scal, Hf. ring.
Qed.
(** ... and the conditional variance is multiplied by the amplitude. *)
Theorem C105_kriging_variance : forall n p K F M k0 k f s lam mu lam' mu',
  is_inverse (n + p) (block_matrix n K F) M -> s <> 0 ->
  is_weights n p K F k f lam mu -> is_weights n p (scaled s K) F (fun j => s * k j) f lam' mu' ->
  variance n p (s * k0) (fun j => s * k j) f lam' mu' = s * variance n p k0 k f lam mu.
Proof.
  intros n p K F M k0 k f s lam mu lam' mu' HM Hs [A1 A2] [B1 B2].
  destruct (homogeneous n p K F M (fun j => s * lam' j + - s * lam j) (fun a => 1 * mu' a + - s * mu a) HM) as [Z1 Z2].
  - intros i Hi. specialize (A1 i Hi). specialize (B1 i Hi). unfold scaled in B1.
    rewrite (bigsum_ext n _ (fun j => 1 * (s * K i j * lam' j) + - s * (K i j * lam j))) by (intros; ring).
    rewrite (bigsum_ext p _ (fun a => 1 * (F i a * mu' a) + - s * (F i a * mu a))) by (intros; ring).
    rewrite !bigsum_lin. nra.
  - intros l Hl. rewrite (bigsum_ext n _ (fun j => s * (F j l * lam' j) + - s * (F j l * lam j))) by (intros; ring).
    rewrite bigsum_lin, (A2 l Hl), (B2 l Hl). ring.
  - unfold variance.
    rewrite (bigsum_ext n (fun j => s * k j * lam' j) (fun j => s * (k j * lam j))) by (intros j Hj; specialize (Z1 j Hj); replace (s * k j * lam' j) with (k j * (s * lam' j)) by ring; replace (s * lam' j) with (s * lam j) by lra; ring).
    rewrite (bigsum_ext p (fun a => f a * mu' a) (fun a => s * (f a * mu a))) by (intros a Ha; specialize (Z2 a Ha); replace (mu' a) with (s * mu a) by lra; ring).
    rewrite !bigsum_scal. ring.
Qed.
(** The leave-one-out predictions follow too, with the inverse found for the new amplitude. *)
Lemma block_scaled m p K F M M' s : is_inverse (S m + p) (block_matrix (S m) K F) M -> is_inverse (S m + p) (block_matrix (S m) (scaled s K) F) M' ->
  forall i k, (i < S m)%nat -> (k < S m)%nat -> s * M' i k = M i k.
Proof.
  intros HM HM' i k Hi Hk.
  destruct (homogeneous (S m) p K F M (fun j => s * M' j k + -1 * M j k) (fun a => 1 * M' (S m + a)%nat k + -1 * M (S m + a)%nat k) HM) as [Z _].
  - intros r Hr. assert (C1 := col_i m p K F M HM k Hk r ltac:(lia)). assert (C2 := col_i m p (scaled s K) F M' HM' k Hk r ltac:(lia)).
    rewrite (bigsum_ext (S m) _ (fun j => 1 * (block_matrix (S m) (scaled s K) F r j * M' j k) + -1 * (block_matrix (S m) K F r j * M j k)))
      by (intros j Hj; rewrite !block_KK by assumption; unfold scaled; ring).
    rewrite (bigsum_ext p _ (fun b => 1 * (block_matrix (S m) (scaled s K) F r (S m + b)%nat * M' (S m + b)%nat k) + -1 * (block_matrix (S m) K F r (S m + b)%nat * M (S m + b)%nat k)))
      by (intros b Hb; rewrite !block_KF by assumption; ring).
    rewrite !bigsum_lin. lra.
  - intros l Hl. assert (C1 := col_i m p K F M HM k Hk (S m + l)%nat ltac:(lia)). assert (C2 := col_i m p (scaled s K) F M' HM' k Hk (S m + l)%nat ltac:(lia)).
    rewrite (bigsum_zero p) in C1 by (intros b Hb; rewrite block_FF; ring). rewrite (bigsum_zero p) in C2 by (intros b Hb; rewrite block_FF; ring).
    rewrite (bigsum_ext (S m) _ (fun j => F j l * M j k)) in C1 by (intros j Hj; now rewrite block_FK).
    rewrite (bigsum_ext (S m) _ (fun j => F j l * M' j k)) in C2 by (intros j Hj; now rewrite block_FK).
    assert (N : mid (S m + l)%nat k = 0) by (unfold mid; destruct (Nat.eqb_spec (S m + l) k); [lia|reflexivity]).
    rewrite N, Rplus_0_r in *. rewrite (bigsum_ext (S m) _ (fun j => s * (F j l * M' j k) + -1 * (F j l * M j k))) by (intros; ring). rewrite bigsum_lin, C1, C2. ring.
  - specialize (Z i Hi). cbn beta in Z. lra.
Qed.
Theorem C105_loo : forall m p K F M M' y w s c d i,
  is_inverse (S m + p) (block_matrix (S m) K F) M -> is_inverse (S m + p) (block_matrix (S m) (scaled s K) F) M' ->
  spans_one (S m) p F w -> s <> 0 -> (i < S m)%nat ->
  y_loo (S m) M' (moved c d y) i = option_map (fun v => c * v + d) (y_loo (S m) M y i).
Proof.
  intros m p K F M M' y w s c d i HM HM' Hw Hs Hi. assert (E := fun k => block_scaled m p K F M M' s HM HM' i k Hi).
  assert (Z : bigsum (S m) (fun k => M i k) = 0).
  { rewrite (bigsum_ext (S m) _ (fun k => bigsum p (fun a => M i k * F k a * w a))).
    - rewrite bigsum_swap. apply bigsum_zero. intros a Ha. rewrite bigsum_scal_r, (row_F m p K F M HM i Hi a Ha). ring.
    - intros k Hk. rewrite (bigsum_ext p _ (fun a => M i k * (F k a * w a))) by (intros; ring). rewrite bigsum_scal, (Hw k Hk). ring. }
  unfold y_loo. assert (Ei := E i Hi). destruct (Reqb_spec (M i i) 0) as [D|D], (Reqb_spec (M' i i) 0) as [D'|D'].
  - reflexivity.
  - exfalso. rewrite D in Ei. apply Rmult_integral in Ei as [?|?]; contradiction.
  - exfalso. apply D. rewrite <- Ei, D'. ring.
  - cbn [option_map]. f_equal.
    rewrite (bigsum_ext (S m) _ (fun k => c * (M i k * (1 - mid i k) / M i i * y k) + d / M i i * (M i k * (1 - mid i k)))).
    2: { intros k Hk. rewrite <- (E k Hk), <- Ei. unfold moved. field. auto. }
    rewrite bigsum_lin. replace (bigsum (S m) (fun k => M i k * (1 - mid i k))) with (- M i i); [field; exact D|].
    transitivity (bigsum (S m) (fun k => M i k) - bigsum (S m) (fun k => M i k * mid i k)).
    + rewrite Z, (bigsum_one (S m) i (fun k => M i k * mid i k)); [unfold mid; rewrite Nat.eqb_refl; ring|assumption|].
      intros l _ Hl. unfold mid. destruct (Nat.eqb_spec i l); [congruence|ring].
    + rewrite <- bigsum_minus. apply bigsum_ext. intros; ring.
Qed.
(** Hence the same Q2. *)
Lemma vss_moved n y c d : (0 < n)%nat -> vss n (moved c d y) = c * c * vss n y.
Proof.
  intros Hn. assert (P := INR_pos n Hn). assert (V : vmean n (moved c d y) = c * vmean n y + d).
  { unfold vmean, moved. rewrite bigsum_plus, bigsum_scal, bigsum_const. field. lra. }
  unfold vss. rewrite V, <- bigsum_scal. apply bigsum_ext. intros i _. unfold moved. ring.
Qed.
Lemma qdiv_scaled a b t : t <> 0 -> qdiv (t * a) (t * b) = qdiv a b.
Proof.
  intros H. unfold qdiv. destruct (Reqb_spec (t * b) 0) as [E|E], (Reqb_spec b 0) as [D|D].
  - reflexivity.
  - exfalso. apply Rmult_integral in E as [?|?]; contradiction.
  - exfalso. apply E. rewrite D. ring.
  - f_equal. field. auto.
Qed.
Lemma qdiv_eq A B a b t : t <> 0 -> A = t * a -> B = t * b -> qdiv A B = qdiv a b.
Proof. intros H -> ->. now apply qdiv_scaled. Qed.
Theorem C105_Q2 : forall n y loo delta e c d, (0 < n)%nat -> c <> 0 ->
  kriging_q2 n (moved c d y) (moved c d loo) = kriging_q2 n y loo /\
  chaos_q2 n (moved c d y) (fun i => c * delta i) = chaos_q2 n y delta /\
  chaos_r2 n (moved c d y) (fun i => c * e i) = chaos_r2 n y e.
Proof.
  intros n y loo delta e c d Hn Hc. assert (C : c * c <> 0) by (intros H; apply Rmult_integral in H as [?|?]; contradiction).
  assert (Ve : vss n (fun i => c * e i) = c * c * vss n e).
  { rewrite <- (vss_moved n e c 0 Hn). unfold moved, vss, vmean.
    rewrite (bigsum_ext n (fun i => c * e i + 0) (fun i => c * e i)) by (intros; ring). apply bigsum_ext. intros i _. ring. }
  unfold kriging_q2, chaos_q2, chaos_r2. rewrite vss_moved, Ve by assumption.
  repeat split; f_equal; apply (qdiv_eq _ _ _ _ (c * c) C); unfold Rdiv; try ring; rewrite <- Rmult_assoc, <- bigsum_scal; f_equal; apply bigsum_ext; intros i _; unfold moved; ring.
Qed.
(** The POD samples of one defect size: same draws, same values, hence the same curves. *)
Lemma realisation_moved z m v c d : 0 < c -> realisation z (c * m + d, c * c * v) = option_map (fun x => c * x + d) (realisation z (m, v)).
Proof.
  intros Hc. unfold realisation. assert (0 < c * c) by nra. destruct (Rltb_spec (c * c * v) 0), (Rltb_spec v 0); [reflexivity|exfalso; nra|exfalso; nra|].
  cbn [option_map]. f_equal. rewrite sqrt_mult_alt by lra. rewrite sqrt_square by lra. ring.
Qed.
Lemma exceeds_moved t y c d : 0 < c -> exceeds (c * t + d) (option_map (fun x => c * x + d) y) = exceeds t y.
Proof. intros Hc. destruct y as [v|]; [|reflexivity]. cbn. destruct (Rltb_spec (c * t + d) (c * v + d)), (Rltb_spec t v); auto; exfalso; nra. Qed.
Theorem C105_kriging_pod : forall t m v xs draws rnd c d, 0 < c ->
  pod_sample (c * t + d) draws (map (fun x => c * m x + d) xs) (map (fun x => c * c * v x) xs) rnd = pod_sample t draws (map m xs) (map v xs) rnd /\
  kriging_node (c * t + d) (fun x => c * m x + d) (fun x => c * c * v x) xs draws rnd = kriging_node t m v xs draws rnd.
Proof.
  intros t m v xs draws rnd c d Hc.
  assert (E : pod_sample (c * t + d) draws (map (fun x => c * m x + d) xs) (map (fun x => c * c * v x) xs) rnd = pod_sample t draws (map m xs) (map v xs) rnd).
  { unfold pod_sample. f_equal. unfold mixture, randomVector. rewrite !map_map. apply map_ext. intros z.
    assert (R : map (realisation z) (combine (map (fun x => c * m x + d) xs) (map (fun x => c * c * v x) xs)) = map (option_map (fun x => c * x + d)) (map (realisation z) (combine (map m xs) (map v xs)))).
    { induction xs as [|x xs IH]; cbn [map combine]; [reflexivity|]. rewrite IH. now rewrite realisation_moved. }
    rewrite R, map_length. f_equal. unfold pod_of_row. rewrite map_map. f_equal. apply map_ext. intros y. now rewrite exceeds_moved. }
  split; [exact E|]. unfold kriging_node. now rewrite E.
Qed.

(** *** Polynomial chaos *)
(** With the constant in the basis, every fit of the moved signals has the moved values at the observations, and when the basis is free the moved
    coefficients. *)
Theorem C105_chaos_fit : forall n p X y w c d beta beta',
  spans_one n p X w -> least_squares n p X y beta -> least_squares n p X (moved c d y) beta' ->
  (forall i, (i < n)%nat -> fitted p X beta' i = c * fitted p X beta i + d) /\
  ((forall b, (forall i, (i < n)%nat -> bigsum p (fun a => X i a * b a) = 0) -> forall a, (a < p)%nat -> b a = 0) ->
    forall a, (a < p)%nat -> beta' a = c * beta a + d * w a).
Proof.
  intros n p X y w c d beta beta' Hw Hb Hb'. rewrite normal_equations in Hb, Hb'.
  set (g := fun a => 1 * beta' a + 1 * (- c * beta a + - d * w a)).
  assert (Gi : forall i, (i < n)%nat -> bigsum p (fun a => X i a * g a) = fitted p X beta' i - c * fitted p X beta i - d).
  { intros i Hi. unfold g, fitted. rewrite (bigsum_ext p _ (fun a => 1 * (X i a * beta' a) + 1 * (- c * (X i a * beta a) + - d * (X i a * w a)))) by (intros; ring).
    rewrite !bigsum_lin, (Hw i Hi). ring. }
  assert (O : forall a, (a < p)%nat -> bigsum n (fun i => X i a * bigsum p (fun b => X i b * g b)) = 0).
  { intros a Ha. rewrite (bigsum_ext n _ (fun i => c * (X i a * (y i - bigsum p (fun b => X i b * beta b))) + -1 * (X i a * (moved c d y i - bigsum p (fun b => X i b * beta' b))))).
    - rewrite bigsum_lin, (Hb a Ha), (Hb' a Ha). ring.
    - intros i Hi. rewrite (Gi i Hi). unfold fitted, moved. ring. }
  assert (Q : bigsum n (fun i => bigsum p (fun b => X i b * g b) * bigsum p (fun b => X i b * g b)) = 0).
  { rewrite (bigsum_ext n _ (fun i => bigsum p (fun a => X i a * bigsum p (fun b => X i b * g b) * g a))) by (intros i _; rewrite <- bigsum_scal_r; apply bigsum_ext; intros; ring).
    rewrite bigsum_swap. apply bigsum_zero. intros a Ha. rewrite bigsum_scal_r, (O a Ha). ring. }
  assert (Z := bigsum_sqr_zero n _ Q). split.
  - intros i Hi. specialize (Z i Hi). cbn beta in Z. rewrite (Gi i Hi) in Z. lra.
  - intros Fr a Ha. assert (G := Fr g Z a Ha). unfold g in G. lra.
Qed.
(** So residuals, leave-one-out errors and standard error are multiplied by the unit ... *)
Theorem C105_chaos_errors : forall n p X Z y w c d beta beta',
  spans_one n p X w -> least_squares n p X y beta -> least_squares n p X (moved c d y) beta' ->
  (forall i, (i < n)%nat -> moved c d y i - fitted p X beta' i = c * (y i - fitted p X beta i)) /\
  (forall i, (i < n)%nat -> chaos_delta p X Z beta' (moved c d y) i = option_map (Rmult c) (chaos_delta p X Z beta y i)).
Proof.
  intros n p X Z y w c d beta beta' Hw Hb Hb'. destruct (C105_chaos_fit n p X y w c d beta beta' Hw Hb Hb') as [Hf _].
  assert (E : forall i, (i < n)%nat -> moved c d y i - fitted p X beta' i = c * (y i - fitted p X beta i)) by (intros i Hi; rewrite (Hf i Hi); unfold moved; ring).
  split; [exact E|]. intros i Hi. unfold chaos_delta, qdiv. rewrite (E i Hi). destruct (Reqb_spec (1 - hat p X Z i i) 0); [reflexivity|]. cbn [option_map]. f_equal. field. assumption.
Qed.
Theorem C105_chaos_stderr : forall n p e c, 0 < c -> chaos_stderr n p (fun i => c * e i) = option_map (Rmult c) (chaos_stderr n p e).
Proof.
  intros n p e c Hc. unfold chaos_stderr, qdiv. assert (C : 0 < c * c) by nra.
  destruct (Reqb_spec (IZR (dof n p)) 0) as [|D]; [reflexivity|]. set (S2 := bigsum n (fun i => e i * e i)).
  replace (bigsum n (fun i => c * e i * (c * e i)) / IZR (dof n p)) with (c * c * (S2 / IZR (dof n p))).
  - destruct (Rltb_spec (c * c * (S2 / IZR (dof n p))) 0), (Rltb_spec (S2 / IZR (dof n p)) 0); [reflexivity|exfalso; nra|exfalso; nra|].
    cbn [option_map]. f_equal. rewrite sqrt_mult_alt by lra. now rewrite sqrt_square by lra.
  - unfold S2, Rdiv. rewrite <- Rmult_assoc, <- bigsum_scal. f_equal. apply bigsum_ext. intros; ring.
Qed.
(** ... and the POD at a size is the same. *)
Theorem C105_chaos_pod : forall t chaos se xs eps c d, 0 < c ->
  chaos_node (c * t + d) (fun x => c * chaos x + d) (c * se) xs eps = chaos_node t chaos se xs eps.
Proof.
  intros t chaos se xs eps c d Hc. unfold chaos_node. f_equal. apply map_ext. intros [x e]. cbn [fst snd].
  destruct (Rltb_spec (c * t + d) (c * chaos x + d + e * (c * se))), (Rltb_spec t (chaos x + e * se)); auto; exfalso; nra.
Qed.

(** *** Without a constant in the basis *)
(** Finding: a sparse basis without the constant; the origin of the signals then counts: the fit of the signals moved by 1 is not the fit moved by 1, and the POD
    at a size changes from 1 to 0. *)
Definition slope : mat := fun i _ => match i with O => 1 | _ => -1 end.
Lemma slope_fit (y : nat -> R) b : 2 * b = y 0%nat - y 1%nat -> least_squares 2 1 slope y (fun _ => b).
Proof. intros H. apply normal_equations. intros a Ha. unfold slope. cbn. lra. Qed.
Theorem C105_origin_refuted :
  exists n p X y beta beta' x se eps t d,
    least_squares n p X y beta /\ least_squares n p X (moved 1 d y) beta' /\
    chaos_node t (fun u => bigsum p (fun a => nth a u 0 * beta a)) se [x] eps = 1 /\
    chaos_node (1 * t + d) (fun u => bigsum p (fun a => nth a u 0 * beta' a)) se [x] eps = 0.
Proof.
  exists 2%nat, 1%nat, slope, (fun i => match i with O => 1 | _ => -1 end), (fun _ => 1), (fun _ => 1), [1], 0, [0], (/ 2), 1.
  split; [apply slope_fit; lra|]. split; [apply slope_fit; unfold moved; lra|].
  unfold chaos_node. cbn. destruct (Rltb_spec (/ 2) (0 + 1 * 1 + 0 * 0)), (Rltb_spec (1 * / 2 + 1) (0 + 1 * 1 + 0 * 0)); try lra. unfold Rmean. cbn. split; field.
Qed.

(** *** The hypotheses are met *)
(** Two observations, covariance 1 on the diagonal, constant trend. *)
Definition two_M : mat := fun i j => match i, j with
  | O, O => / 2 | O, S O => - / 2 | S O, O => - / 2 | S O, S O => / 2
  | O, _ => / 2 | S O, _ => / 2 | _, O => / 2 | _, S O => / 2 | _, _ => - / 2 end.
Definition two_M' (s : R) : mat := fun i j => match i, j with
  | O, O => / (2 * s) | O, S O => - / (2 * s) | S O, O => - / (2 * s) | S O, S O => / (2 * s)
  | O, _ => / 2 | S O, _ => / 2 | _, O => / 2 | _, S O => / 2 | _, _ => - s / 2 end.
Lemma two_inverse s : s <> 0 -> is_inverse 3 (block_matrix 2 (scaled s mid) (fun _ _ => 1)) (two_M' s).
Proof.
  intros Hs. split; intros i j Hi Hj; destruct i as [|[|[|i]]]; try lia; destruct j as [|[|[|j]]]; try lia;
    unfold mmul, block_matrix, scaled, mid; cbn; field; assumption.
Qed.
Example C105_kriging_case :
  is_inverse 3 (block_matrix 2 mid (fun _ _ => 1)) two_M /\ is_inverse 3 (block_matrix 2 (scaled 4 mid) (fun _ _ => 1)) (two_M' 4) /\
  spans_one 2 1 (fun _ _ => 1) (fun _ => 1) /\ one_at 1 (fun _ => 1) (fun _ => 1) /\
  is_kriging 2 1 mid (fun _ _ => 1) (fun i => match i with O => 1 | _ => 3 end) (fun i => match i with O => -1 | _ => 1 end) (fun _ => 2) /\
  is_kriging 2 1 (scaled 4 mid) (fun _ _ => 1) (moved 2 5 (fun i => match i with O => 1 | _ => 3 end)) (fun i => match i with O => - / 2 | _ => / 2 end) (fun _ => 9) /\
  is_weights 2 1 mid (fun _ _ => 1) (fun _ => / 2) (fun _ => 1) (fun _ => / 2) (fun _ => 0) /\
  is_weights 2 1 (scaled 4 mid) (fun _ _ => 1) (fun _ => 4 * / 2) (fun _ => 1) (fun _ => / 2) (fun _ => 0).
Proof.
  split; [split; intros i j Hi Hj; destruct i as [|[|[|i]]]; try lia; destruct j as [|[|[|j]]]; try lia; unfold mmul, block_matrix, mid; cbn; field|].
  split; [apply two_inverse; lra|]. split; [intros i Hi; cbn; ring|]. split; [unfold one_at; cbn; ring|].
  unfold is_kriging, is_weights, scaled, moved, mid.
  repeat split; intros i Hi; try (destruct i as [|[|i]]; try lia); cbn; field.
Qed.
(** Three observations, basis 1 and x. *)
Definition line_X : mat := fun i a => match a with O => 1 | _ => INR i end.
Example C105_chaos_case :
  spans_one 3 2 line_X (fun a => match a with O => 1 | _ => 0 end) /\
  (forall b, (forall i, (i < 3)%nat -> bigsum 2 (fun a => line_X i a * b a) = 0) -> forall a, (a < 2)%nat -> b a = 0) /\
  least_squares 3 2 line_X (fun i => match i with O => 0 | S O => 3 | _ => 0 end) (fun a => match a with O => 1 | _ => 0 end) /\
  least_squares 3 2 line_X (moved 2 5 (fun i => match i with O => 0 | S O => 3 | _ => 0 end)) (fun a => match a with O => 7 | _ => 0 end).
Proof.
  split; [intros i Hi; destruct i as [|[|[|i]]]; try lia; cbn; ring|]. split.
  - intros b H a Ha. assert (H0 := H 0%nat ltac:(lia)). assert (H1 := H 1%nat ltac:(lia)). cbn in H0, H1. destruct a as [|[|a]]; try lia; lra.
  - split; apply normal_equations; intros a Ha; destruct a as [|[|a]]; try lia; unfold moved, line_X; cbn; lra.
Qed.

Print Assumptions C105_kriging_prediction.
Print Assumptions C105_kriging_variance.
Print Assumptions C105_loo.
Print Assumptions C105_Q2.
Print Assumptions C105_kriging_pod.
Print Assumptions C105_chaos_fit.
Print Assumptions C105_chaos_errors.
Print Assumptions C105_chaos_stderr.
Print Assumptions C105_chaos_pod.
Print Assumptions C105_origin_refuted.
