(** C89: the law of the coefficients of the polynomial chaos. *)
From Coq Require Import Reals Lra.
From Verif Require Import RealBase MatBase LooModel LooProps CoefModel.
Local Open Scope R_scope.

(** *** Specification *)
(** v^T C v. *)
Definition quad (p : nat) (C : mat) (v : nat -> R) : R := bigsum p (fun a => bigsum p (fun b => v a * C a b * v b)).
Definition positive_definite (p : nat) (C : mat) : Prop := forall v, (exists a, (a < p)%nat /\ v a <> 0) -> 0 < quad p C v.
Definition symmetric (p : nat) (C : mat) : Prop := forall a b, (a < p)%nat -> (b < p)%nat -> C a b = C b a.
(** The test of ot.Normal. *)
Definition pd_spec (pd : nat -> mat -> bool) : Prop := forall p C, symmetric p C -> (pd p C = true <-> positive_definite p C).
(** solveLinearSystem with the identity. *)
Definition gram_inverse (n p : nat) (X M : mat) : Prop := meq p p (mmul p (gram n X) M) mid.
(** A finite probability space: equally likely outcomes. *)
Definition mean_over {A} (l : list A) (f : A -> R) : R := Rmean (map f l).
(** White noise on n observations: centred, uncorrelated, variance s2. *)
Definition white (n : nat) (s2 : R) (l : list (nat -> R)) : Prop :=
  l <> [] /\ (forall i, (i < n)%nat -> mean_over l (fun e => e i) = 0) /\
  forall i j, (i < n)%nat -> (j < n)%nat -> mean_over l (fun e => e i * e j) = if Nat.eqb i j then s2 else 0.

(** *** Means *)
Lemma mean_ext {A} (l : list A) f g : (forall x, In x l -> f x = g x) -> mean_over l f = mean_over l g.
Proof. intros H. unfold mean_over. f_equal. now apply map_ext_in. Qed.
Lemma mean_plus {A} (l : list A) f g : mean_over l (fun x => f x + g x) = mean_over l f + mean_over l g.
Proof.
  unfold mean_over, Rmean. rewrite !map_length. replace (Rsum (map (fun x => f x + g x) l)) with (Rsum (map f l) + Rsum (map g l)); [unfold Rdiv; ring|].
  induction l as [|x l IH]; [cbn; ring|]. cbn [map]. rewrite !Rsum_cons, <- IH. ring.
Qed.
Lemma mean_scal {A} (l : list A) c f : mean_over l (fun x => c * f x) = c * mean_over l f.
Proof.
  unfold mean_over, Rmean. rewrite !map_length. replace (Rsum (map (fun x => c * f x) l)) with (c * Rsum (map f l)); [unfold Rdiv; ring|].
  induction l as [|x l IH]; [cbn; ring|]. cbn [map]. rewrite !Rsum_cons, <- IH. ring.
Qed.
Lemma mean_const {A} (l : list A) c : l <> [] -> mean_over l (fun _ => c) = c.
Proof.
  intros H. unfold mean_over, Rmean. rewrite map_length. assert (0 < INR (length l)) by (apply lt_0_INR; destruct l; [congruence|cbn; lia]).
  replace (Rsum (map (fun _ => c) l)) with (INR (length l) * c); [field; lra|]. clear.
  induction l as [|x l IH]; [cbn; ring|]. cbn [map length]. rewrite Rsum_cons, <- IH, S_INR. ring.
Qed.
Lemma mean_zero {A} (l : list A) : mean_over l (fun _ => 0) = 0.
Proof. rewrite (mean_ext l _ (fun _ => 0 * 0)) by (intros; ring). rewrite (mean_scal l 0 (fun _ => 0)). ring. Qed.
Lemma mean_bigsum {A} (l : list A) n f : mean_over l (fun x => bigsum n (fun i => f x i)) = bigsum n (fun i => mean_over l (fun x => f x i)).
Proof. induction n as [|n IH]; cbn [bigsum]; [apply mean_zero|]. now rewrite mean_plus, IH. Qed.
(** Two linear forms of a white noise. *)
Lemma white_forms n s2 l a b : white n s2 l ->
  mean_over l (fun e => bigsum n (fun i => a i * e i) * bigsum n (fun j => b j * e j)) = s2 * bigsum n (fun i => a i * b i).
Proof.
  intros (_ & _ & W). rewrite (mean_ext l _ (fun e => bigsum n (fun i => bigsum n (fun j => a i * b j * (e i * e j))))).
  - rewrite mean_bigsum, <- bigsum_scal. apply bigsum_ext. intros i Hi. rewrite mean_bigsum. rewrite (bigsum_one n i).
    + rewrite mean_scal, W, Nat.eqb_refl by assumption. ring.
    + assumption.
    + intros j Hj Hn. rewrite mean_scal, W by assumption. destruct (Nat.eqb_spec i j); [congruence|ring].
  - intros e _. rewrite <- bigsum_scal_r. apply bigsum_ext. intros i _. rewrite <- bigsum_scal. apply bigsum_ext. intros; ring.
Qed.
Lemma white_form n s2 l a : white n s2 l -> mean_over l (fun e => bigsum n (fun i => a i * e i)) = 0.
Proof. intros (_ & W & _). rewrite mean_bigsum. apply bigsum_zero. intros i Hi. rewrite mean_scal, W by assumption. ring. Qed.

(** *** Inverse of the Gram matrix *)
Lemma gram_sym n X a b : gram n X a b = gram n X b a.
Proof. unfold gram, mmul, mtr. apply bigsum_ext. intros; ring. Qed.
Lemma inverse_sym n p X M : gram_inverse n p X M -> symmetric p M.
Proof.
  intros H a b Ha Hb.
  (* M^T = M^T (G M) = (M^T G) M = (G M)^T M = M *)
  assert (E : mmul p (mmul p (mtr M) (gram n X)) M a b = mmul p (mtr M) (mmul p (gram n X) M) a b) by apply mmul_assoc.
  rewrite (mmul_ext p (mmul p (mtr M) (gram n X)) mid M M a b) in E.
  - rewrite mmul_id_l in E by assumption. rewrite E. rewrite (mmul_ext p (mtr M) (mtr M) (mmul p (gram n X) M) mid a b).
    + rewrite mmul_id_r by assumption. reflexivity.
    + reflexivity.
    + intros l Hl. now apply H.
  - intros l Hl. replace (mid a l) with (mid l a) by (unfold mid; now rewrite Nat.eqb_sym).
    rewrite <- (H l a Hl Ha). unfold mmul, mtr. apply bigsum_ext. intros c _. rewrite (gram_sym n X c l). ring.
  - reflexivity.
Qed.
Lemma inverse_left n p X M : gram_inverse n p X M -> meq p p (mmul p M (gram n X)) mid.
Proof.
  intros H a b Ha Hb. unfold mid. rewrite Nat.eqb_sym. fold (mid b a). rewrite <- (H b a Hb Ha). unfold mmul. apply bigsum_ext. intros c Hc.
  rewrite (inverse_sym n p X M H a c Ha Hc), (gram_sym n X c b). ring.
Qed.
(** M v, and v^T M v = |X M v|^2. *)
Lemma quad_square n p X M v : gram_inverse n p X M ->
  quad p M v = bigsum n (fun i => bigsum p (fun a => X i a * bigsum p (fun b => M a b * v b)) * bigsum p (fun a => X i a * bigsum p (fun b => M a b * v b))).
Proof.
  intros H. set (w := fun a => bigsum p (fun b => M a b * v b)).
  assert (G : forall a, (a < p)%nat -> bigsum p (fun b => gram n X a b * w b) = v a).
  { intros a Ha. unfold w. rewrite (bigsum_ext p _ (fun b => bigsum p (fun c => gram n X a b * M b c * v c))).
    - rewrite bigsum_swap. rewrite (bigsum_one p a).
      + rewrite bigsum_scal_r. change (mmul p (gram n X) M a a * v a = v a). rewrite (H a a Ha Ha). unfold mid. rewrite Nat.eqb_refl. ring.
      + assumption.
      + intros c Hc Hn. rewrite bigsum_scal_r. change (mmul p (gram n X) M a c * v c = 0). rewrite (H a c Ha Hc). unfold mid.
        destruct (Nat.eqb_spec a c); [congruence|ring].
    - intros b _. rewrite <- bigsum_scal. apply bigsum_ext. intros; ring. }
  transitivity (bigsum p (fun a => v a * w a)).
  - unfold quad, w. apply bigsum_ext. intros a _. rewrite <- bigsum_scal. apply bigsum_ext. intros; ring.
  - rewrite (bigsum_ext p _ (fun a => bigsum p (fun b => bigsum n (fun i => X i a * X i b * w a * w b)))).
    + symmetry. rewrite (bigsum_ext n _ (fun i => bigsum p (fun a => bigsum p (fun b => X i a * X i b * w a * w b)))).
      * rewrite bigsum_swap. apply bigsum_ext. intros a _. now rewrite bigsum_swap.
      * intros i _. fold (w 0%nat). change (fun a => X i a * bigsum p (fun b => M a b * v b)) with (fun a => X i a * w a). rewrite <- bigsum_scal_r. apply bigsum_ext. intros a _.
        rewrite <- bigsum_scal. apply bigsum_ext. intros; ring.
    + intros a Ha. rewrite <- (G a Ha) at 1. rewrite <- bigsum_scal_r. apply bigsum_ext. intros b _. unfold gram, mmul, mtr.
      rewrite <- bigsum_scal_r, <- bigsum_scal_r. apply bigsum_ext. intros; ring.
Qed.
Lemma inverse_pd n p X M : gram_inverse n p X M -> positive_definite p M.
Proof.
  intros H v (a & Ha & Hv). rewrite (quad_square n p X M v H). set (u := fun i => bigsum p (fun a => X i a * bigsum p (fun b => M a b * v b))).
  change (0 < bigsum n (fun i => u i * u i)).
  destruct (Rle_lt_or_eq_dec 0 (bigsum n (fun i => u i * u i))) as [L|L]; [apply bigsum_nonneg; intros; apply Rle_0_sqr|exact L|exfalso]. symmetry in L.
  assert (Z := bigsum_sqr_zero n u L). apply Hv.
  (* v = G M v = X^T X M v = 0 *)
  transitivity (bigsum n (fun i => X i a * u i)).
  - unfold u. rewrite (bigsum_ext n _ (fun i => bigsum p (fun c => X i a * X i c * bigsum p (fun b => M c b * v b)))) by (intros i _; rewrite <- bigsum_scal; apply bigsum_ext; intros; ring).
    rewrite bigsum_swap. rewrite (bigsum_ext p _ (fun c => bigsum p (fun b => gram n X a c * M c b * v b))).
    + rewrite bigsum_swap. rewrite (bigsum_one p a).
      * rewrite bigsum_scal_r. change (v a = mmul p (gram n X) M a a * v a). rewrite (H a a Ha Ha). unfold mid. rewrite Nat.eqb_refl. ring.
      * assumption.
      * intros b Hb Hn. rewrite bigsum_scal_r. change (mmul p (gram n X) M a b * v b = 0). rewrite (H a b Ha Hb). unfold mid. destruct (Nat.eqb_spec a b); [congruence|ring].
    + intros c _. rewrite bigsum_scal_r. change (gram n X a c * bigsum p (fun b => M c b * v b) = bigsum p (fun b => gram n X a c * M c b * v b)). rewrite <- bigsum_scal. apply bigsum_ext. intros; ring.
  - apply bigsum_zero. intros i Hi. rewrite (Z i Hi). ring.
Qed.
Lemma inverse_solves n p X M : gram_inverse n p X M -> solves n p X (mmul p M (mtr X)).
Proof.
  intros H a i Ha Hi. rewrite <- mmul_assoc. rewrite (mmul_ext p _ mid _ (mtr X) a i); [now rewrite mmul_id_l|intros l Hl; now apply H|reflexivity].
Qed.
Lemma quad_scal p C c v : quad p (fun a b => C a b * c) v = c * quad p C v.
Proof. unfold quad. rewrite <- bigsum_scal. apply bigsum_ext. intros a _. rewrite <- bigsum_scal. apply bigsum_ext. intros; ring. Qed.

(** *** The law *)
(** When a law is found: more observations than basis functions plus one, and residuals that are not all null. It is then centred at the coefficients
    with covariance (sum of squares / x) times the inverse of the Gram matrix, symmetric positive definite, with one realisation x for all the
    simulations of the run. *)
Theorem C89_law pd n p X M e beta x : pd_spec pd -> gram_inverse n p X M -> (0 < p)%nat -> 0 < x ->
  ((p + 1 < n)%nat /\ (exists i, (i < n)%nat /\ e i <> 0) ->
     exists L, coefs_law pd n p e beta M x = Ok L /\ l_mean L = beta /\
       (forall a b, l_cov L a b = bigsum n (fun i => e i * e i) / x * M a b) /\ symmetric p (l_cov L) /\ positive_definite p (l_cov L)) /\
  (~ ((p + 1 < n)%nat /\ (exists i, (i < n)%nat /\ e i <> 0)) -> coefs_law pd n p e beta M x = Raise GenericException).
Proof.
  intros Hpd HM Hp Hx. set (ss := bigsum n (fun i => e i * e i)). assert (S0 : 0 <= ss) by (apply bigsum_nonneg; intros; apply Rle_0_sqr).
  assert (V : (p + 1 < n)%nat -> varEpsilon n p (chaos_stderr n p e) x = Ok (ss / x)).
  { intros Hn. assert (D : (0 < dof n p)%Z) by (unfold dof; lia). assert (DR : 0 < IZR (dof n p)) by (now apply IZR_lt).
    unfold varEpsilon, chaos_stderr, qdiv. fold ss. destruct (Z.leb_spec (dof n p) 0); [lia|]. destruct (Reqb_spec (IZR (dof n p)) 0); [lra|].
    assert (0 <= ss / IZR (dof n p)) by (apply Rmult_le_pos; [exact S0|left; now apply Rinv_0_lt_compat]).
    destruct (Rltb_spec (ss / IZR (dof n p)) 0); [lra|]. f_equal. rewrite sqrt_sqrt by assumption. field. lra. }
  assert (Sy : forall c, symmetric p (fun a b => M a b * c)) by (intros c a b Ha Hb; now rewrite (inverse_sym n p X M HM a b Ha Hb)).
  split.
  - intros (Hn & i & Hi & He). unfold coefs_law. rewrite (V Hn). cbn [bind].
    assert (0 < ss). { destruct S0 as [S0|S0]; [exact S0|]. exfalso. apply He. symmetry in S0. exact (bigsum_sqr_zero n e S0 i Hi). }
    assert (0 < ss / x) by (apply Rmult_lt_0_compat; [assumption|now apply Rinv_0_lt_compat]).
    assert (P : positive_definite p (fun a b => M a b * (ss / x))). { intros v Hv. rewrite quad_scal. apply Rmult_lt_0_compat; [assumption|]. now apply (inverse_pd n p X M). }
    rewrite (proj2 (Hpd p _ (Sy (ss / x))) P). eexists. split; [reflexivity|]. cbn. split; [reflexivity|]. split; [intros; ring|]. split; [apply Sy|exact P].
  - intros Hno. unfold coefs_law. destruct (Nat.lt_ge_cases (p + 1) n) as [Hn|Hn].
    + rewrite (V Hn). cbn [bind]. assert (Z : ss = 0). { apply bigsum_zero. intros i Hi. destruct (Req_dec (e i) 0) as [E|E]; [rewrite E; ring|]. exfalso. apply Hno. eauto. }
      rewrite Z. destruct (pd p (fun a b => M a b * (0 / x))) eqn:E; [|reflexivity]. exfalso. apply (Hpd p _ (Sy (0 / x))) in E.
      specialize (E (fun _ => 1)). rewrite quad_scal in E. assert (0 < 0 / x * quad p M (fun _ => 1)) by (apply E; exists 0%nat; split; [exact Hp|lra]).
      unfold Rdiv in *. rewrite !Rmult_0_l in *. lra.
    + unfold varEpsilon. destruct (Z.leb_spec (dof n p) 0) as [_|L]; [reflexivity|unfold dof in L; lia].
Qed.
(** *** What the law is good for *)
(** Simulated values: for coefficients drawn with that mean and covariance, the chaos value at a point has the prediction as mean and variance
    phi^T C phi; at an observation the variance is the leverage times sum of squares / x, at most sum of squares / x. *)
Theorem C89_values n p X M beta v (draws : list (nat -> R)) : gram_inverse n p X M -> 0 < v -> draws <> [] ->
  (forall a, (a < p)%nat -> mean_over draws (fun c => c a) = beta a) ->
  (forall a b, (a < p)%nat -> (b < p)%nat -> mean_over draws (fun c => (c a - beta a) * (c b - beta b)) = v * M a b) ->
  forall phi,
    mean_over draws (fun c => chaos_value p phi c) = chaos_value p phi beta /\
    mean_over draws (fun c => (chaos_value p phi c - chaos_value p phi beta) * (chaos_value p phi c - chaos_value p phi beta)) = v * quad p M phi /\
    (forall i, (i < n)%nat -> (forall a, (a < p)%nat -> phi a = X i a) -> quad p M phi = hat p X (mmul p M (mtr X)) i i /\ 0 <= quad p M phi <= 1).
Proof.
  intros HM Hv Hd Hm Hc phi. split; [|split].
  - unfold chaos_value. rewrite mean_bigsum. apply bigsum_ext. intros a Ha. now rewrite mean_scal, Hm.
  - rewrite (mean_ext draws _ (fun c => bigsum p (fun a => bigsum p (fun b => phi a * phi b * ((c a - beta a) * (c b - beta b)))))).
    + rewrite mean_bigsum. unfold quad. rewrite <- bigsum_scal. apply bigsum_ext. intros a Ha. rewrite mean_bigsum, <- bigsum_scal. apply bigsum_ext. intros b Hb.
      rewrite mean_scal, Hc by assumption. ring.
    + intros c _. unfold chaos_value. rewrite <- bigsum_minus, <- bigsum_scal_r. apply bigsum_ext. intros a _. rewrite <- bigsum_scal. apply bigsum_ext. intros; ring.
  - intros i Hi Hphi. assert (E : quad p M phi = hat p X (mmul p M (mtr X)) i i).
    { unfold quad, hat, mmul, mtr. apply bigsum_ext. intros a Ha. rewrite <- bigsum_scal. apply bigsum_ext. intros b Hb. rewrite !Hphi by assumption. ring. }
    split; [exact E|]. rewrite E. apply (leverage_range n p). now apply inverse_solves. exact Hi.
Qed.

(** *** The model behind it: signals X b0 plus a white noise of variance s2, coefficients by least squares *)
Section WhiteNoise.
  Variables (n p : nat) (X M : mat) (b0 : nat -> R) (s2 : R) (noises : list (nat -> R)) (fit : (nat -> R) -> nat -> R).
  Hypothesis HM : gram_inverse n p X M.
  Hypothesis HW : white n s2 noises.
  Definition observed (e : nat -> R) (i : nat) : R := bigsum p (fun a => X i a * b0 a) + e i.
  Hypothesis Hfit : forall e, least_squares n p X (observed e) (fit e).
  Definition Z_ : mat := mmul p M (mtr X).
  Lemma fit_error e a : (a < p)%nat -> fit e a - b0 a = bigsum n (fun i => Z_ a i * e i).
  Proof.
    intros Ha. assert (N := proj1 (normal_equations n p X (observed e) (fit e)) (Hfit e)). set (d := fun c => fit e c - b0 c).
    assert (G : forall c, (c < p)%nat -> bigsum p (fun b => gram n X c b * d b) = bigsum n (fun i => X i c * e i)).
    { intros c Hc. specialize (N c Hc). unfold observed in N.
      rewrite (bigsum_ext n _ (fun i => X i c * e i - bigsum p (fun b => X i c * X i b * d b))) in N.
      - rewrite bigsum_minus in N. rewrite (bigsum_swap n p) in N. rewrite (bigsum_ext p (fun j => bigsum n _) (fun b => gram n X c b * d b)) in N; [lra|].
        intros b _. rewrite bigsum_scal_r. reflexivity.
      - intros i _. rewrite (bigsum_ext p (fun b => X i c * X i b * d b) (fun b => X i c * (X i b * fit e b) - X i c * (X i b * b0 b))) by (intros; unfold d; ring).
        rewrite bigsum_minus, !bigsum_scal. ring. }
    change (d a = bigsum n (fun i => Z_ a i * e i)). transitivity (bigsum p (fun c => M a c * bigsum p (fun b => gram n X c b * d b))).
    - rewrite (bigsum_ext p _ (fun c => bigsum p (fun b => M a c * gram n X c b * d b))) by (intros c _; rewrite <- bigsum_scal; apply bigsum_ext; intros; ring).
      rewrite bigsum_swap. rewrite (bigsum_one p a).
      + rewrite bigsum_scal_r. change (d a = mmul p M (gram n X) a a * d a). rewrite (inverse_left n p X M HM a a Ha Ha). unfold mid. rewrite Nat.eqb_refl. ring.
      + exact Ha.
      + intros b Hb Hn. rewrite bigsum_scal_r. change (mmul p M (gram n X) a b * d b = 0). rewrite (inverse_left n p X M HM a b Ha Hb). unfold mid. destruct (Nat.eqb_spec a b); [congruence|ring].
    - rewrite (bigsum_ext p _ (fun c => bigsum n (fun i => M a c * X i c * e i))) by (intros c Hc; rewrite G by exact Hc; rewrite <- bigsum_scal; apply bigsum_ext; intros; ring).
      rewrite bigsum_swap. apply bigsum_ext. intros i _. unfold Z_, mmul, mtr. rewrite <- bigsum_scal_r. reflexivity.
  Qed.
  (** The coefficients have the true ones as mean and s2 times the inverse of the Gram matrix as covariance: the covariance of the law, but for the
      factor, is that of the estimator. *)
  Theorem C89_estimator :
    (forall a, (a < p)%nat -> mean_over noises (fun e => fit e a) = b0 a) /\
    (forall a b, (a < p)%nat -> (b < p)%nat -> mean_over noises (fun e => (fit e a - b0 a) * (fit e b - b0 b)) = s2 * M a b).
  Proof.
    split.
    - intros a Ha. rewrite (mean_ext noises _ (fun e => bigsum n (fun i => Z_ a i * e i) + b0 a)) by (intros e _; rewrite <- fit_error by exact Ha; ring).
      rewrite mean_plus, (white_form n s2) by exact HW. rewrite mean_const by apply HW. ring.
    - intros a b Ha Hb. rewrite (mean_ext noises _ (fun e => bigsum n (fun i => Z_ a i * e i) * bigsum n (fun i => Z_ b i * e i))) by (intros e _; now rewrite !fit_error).
      rewrite (white_forms n s2) by exact HW. f_equal.
      transitivity (mmul p M (mmul p (gram n X) M) a b).
      + unfold Z_. transitivity (bigsum n (fun i => bigsum p (fun c => bigsum p (fun d => M a c * X i c * X i d * M d b)))).
        * apply bigsum_ext. intros i _. unfold mmul, mtr. rewrite <- bigsum_scal_r. apply bigsum_ext. intros c _. rewrite <- bigsum_scal. apply bigsum_ext. intros d Hd.
          rewrite (inverse_sym n p X M HM b d Hb Hd). ring.
        * rewrite bigsum_swap. unfold mmul. apply bigsum_ext. intros c _. rewrite bigsum_swap, <- bigsum_scal. apply bigsum_ext. intros d _. unfold gram, mmul, mtr.
          rewrite <- bigsum_scal_r, <- bigsum_scal. apply bigsum_ext. intros; ring.
      + rewrite (mmul_ext p M M (mmul p (gram n X) M) mid a b); [now rewrite mmul_id_r|reflexivity|intros l Hl; now apply HM].
  Qed.
  (** Mean of the sum of the squared residuals: n - p times the variance. *)
  Lemma residual_form e i : (i < n)%nat -> observed e i - bigsum p (fun a => X i a * fit e a) = bigsum n (fun j => (mid i j - hat p X Z_ i j) * e j).
  Proof.
    intros Hi. rewrite (bigsum_ext n _ (fun j => mid i j * e j - hat p X Z_ i j * e j)) by (intros; ring). rewrite bigsum_minus. rewrite (bigsum_one n i).
    - unfold mid at 1. rewrite Nat.eqb_refl. unfold hat, mmul at 1. rewrite (bigsum_ext n _ (fun j => bigsum p (fun a => X i a * Z_ a j * e j))) by (intros; now rewrite bigsum_scal_r).
      rewrite bigsum_swap. unfold observed. rewrite (bigsum_ext p (fun j => bigsum n _) (fun a => X i a * fit e a - X i a * b0 a)).
      + rewrite bigsum_minus. ring.
      + intros a Ha. rewrite (bigsum_ext n _ (fun j => X i a * (Z_ a j * e j))) by (intros; ring). rewrite bigsum_scal, <- fit_error by exact Ha. ring.
    - exact Hi.
    - intros j _ Hj. unfold mid. destruct (Nat.eqb_spec i j); [congruence|ring].
  Qed.
  Lemma hat_sym i j : (i < n)%nat -> (j < n)%nat -> hat p X Z_ i j = hat p X Z_ j i.
  Proof.
    intros _ _. unfold hat, Z_, mmul, mtr. rewrite (bigsum_ext p _ (fun a => bigsum p (fun b => X i a * M a b * X j b))) by (intros; rewrite <- bigsum_scal; apply bigsum_ext; intros; ring).
    rewrite bigsum_swap. apply bigsum_ext. intros a Ha. rewrite <- bigsum_scal. apply bigsum_ext. intros b Hb. rewrite (inverse_sym n p X M HM b a Hb Ha). ring.
  Qed.
  Lemma hat_trace : mtrace n (hat p X Z_) = INR p.
  Proof.
    unfold hat. rewrite mtrace_comm. unfold Z_. rewrite (mtrace_ext p _ mid).
    - unfold mtrace, mid. rewrite (bigsum_ext p _ (fun _ => 1)) by (intros; now rewrite Nat.eqb_refl). rewrite bigsum_const. ring.
    - intros a Ha. rewrite mmul_assoc. rewrite <- (inverse_left n p X M HM a a Ha Ha). reflexivity.
  Qed.
  Theorem C89_residuals :
    mean_over noises (fun e => sse n p X (observed e) (fit e)) = s2 * (INR n - INR p).
  Proof.
    unfold sse. rewrite mean_bigsum. rewrite (bigsum_ext n _ (fun i => s2 * (1 - hat p X Z_ i i))).
    - rewrite bigsum_scal, bigsum_minus, bigsum_const. change (bigsum n (fun i => hat p X Z_ i i)) with (mtrace n (hat p X Z_)). rewrite hat_trace. ring.
    - intros i Hi. rewrite (mean_ext noises _ (fun e => bigsum n (fun j => (mid i j - hat p X Z_ i j) * e j) * bigsum n (fun j => (mid i j - hat p X Z_ i j) * e j))) by (intros; now rewrite residual_form).
      rewrite (white_forms n s2) by exact HW. f_equal.
      rewrite (bigsum_ext n _ (fun j => mid i j * (1 - 2 * hat p X Z_ i j) + hat p X Z_ j i * hat p X Z_ j i)).
      + rewrite bigsum_plus. rewrite <- (hat_square n p X Z_ (inverse_solves n p X M HM) i Hi). rewrite (bigsum_one n i).
        * unfold mid. rewrite Nat.eqb_refl. ring.
        * exact Hi.
        * intros j _ Hj. unfold mid. destruct (Nat.eqb_spec i j); [congruence|ring].
      + intros j Hj. rewrite (hat_sym j i Hj Hi). unfold mid. destruct (Nat.eqb_spec i j); ring.
  Qed.
  (** Finding: with n - p - 1 as denominator, whether or not the constant is one of the p functions, the square of the standard error is on average
      larger than the variance of the noise, by the factor (n - p) / (n - p - 1). *)
  Theorem C89_stderr_overestimates : (p + 1 < n)%nat -> 0 < s2 ->
    mean_over noises (fun e => match chaos_stderr n p (fun i => observed e i - bigsum p (fun a => X i a * fit e a)) with Some s => s * s | None => 0 end)
      = s2 * ((INR n - INR p) / (INR n - INR p - 1)) /\
    s2 < s2 * ((INR n - INR p) / (INR n - INR p - 1)).
  Proof.
    intros Hn Hs. assert (DE : IZR (dof n p) = INR n - INR p - 1) by (unfold dof; rewrite !minus_IZR, <- !INR_IZR_INZ; reflexivity).
    assert (D : 0 < INR n - INR p - 1). { rewrite <- DE. apply (IZR_lt 0). unfold dof. lia. } split.
    - rewrite (mean_ext noises _ (fun e => / (INR n - INR p - 1) * sse n p X (observed e) (fit e))).
      + rewrite mean_scal, C89_residuals. field. lra.
      + intros e _. unfold chaos_stderr, qdiv. fold (sse n p X (observed e) (fit e)). rewrite DE. destruct (Reqb_spec (INR n - INR p - 1) 0); [lra|].
        assert (0 <= sse n p X (observed e) (fit e) / (INR n - INR p - 1)) by (apply Rmult_le_pos; [apply bigsum_nonneg; intros; apply Rle_0_sqr|left; now apply Rinv_0_lt_compat]).
        destruct (Rltb_spec (sse n p X (observed e) (fit e) / (INR n - INR p - 1)) 0); [lra|]. rewrite sqrt_sqrt by assumption. unfold Rdiv. ring.
    - replace ((INR n - INR p) / (INR n - INR p - 1)) with (1 + / (INR n - INR p - 1)) by (field; lra). assert (0 < / (INR n - INR p - 1)) by (now apply Rinv_0_lt_compat). nra.
  Qed.
End WhiteNoise.
Print Assumptions C89_law.
Print Assumptions C89_values.
Print Assumptions C89_estimator.
Print Assumptions C89_residuals.
Print Assumptions C89_stderr_overestimates.

(** *** Cases *)
(** A test of positive definiteness exists. *)
Example C89_test_case : exists pd, pd_spec pd.
Proof.
  exists (fun p C => if ClassicalDedekindReals.sig_not_dec (positive_definite p C) then true else false). intros p C _.
  destruct (ClassicalDedekindReals.sig_not_dec (positive_definite p C)) as [H|H]; split; [|tauto|discriminate|tauto]. intros _ v Hv.
  destruct (Rlt_dec 0 (quad p C v)) as [L|L]; [exact L|]. exfalso. apply H. intros P. exact (L (P v Hv)).
Qed.
(** Three observations, the constant as only function; noises plus or minus 1 on one observation. *)
Definition one_X : mat := fun _ _ => 1.
Definition third : mat := fun _ _ => 1 / 3.
Definition bump (k : nat) (s : R) : nat -> R := fun i => if Nat.eqb i k then s else 0.
Definition bumps : list (nat -> R) := [bump 0 1; bump 0 (-1); bump 1 1; bump 1 (-1); bump 2 1; bump 2 (-1)].
Example C89_inverse_case : gram_inverse 3 1 one_X third.
Proof. intros [|a] [|b] Ha Hb; try lia. unfold mmul, gram, mmul, mtr, one_X, third, mid. cbn. lra. Qed.
Example C89_white_case : white 3 (1 / 3) bumps.
Proof.
  split; [discriminate|]. split.
  - intros [|[|[|i]]] Hi; try lia; unfold mean_over, Rmean, bumps, bump; cbn; lra.
  - intros [|[|[|i]]] [|[|[|j]]] Hi Hj; try lia; unfold mean_over, Rmean, bumps, bump; cbn; lra.
Qed.
Definition average (e : nat -> R) : nat -> R := fun _ => 5 + (e 0%nat + e 1%nat + e 2%nat) / 3.
Example C89_fit_case : forall e, least_squares 3 1 one_X (observed 1 one_X (fun _ => 5) e) (average e).
Proof. intros e. apply normal_equations. intros [|a] Ha; [|lia]. unfold observed, one_X, average. cbn. lra. Qed.
Example C89_overestimates_case :
  mean_over bumps (fun e => match chaos_stderr 3 1 (fun i => observed 1 one_X (fun _ => 5) e i - bigsum 1 (fun a => one_X i a * average e a)) with Some s => s * s | None => 0 end) = 1 / 3 * 2.
Proof.
  destruct (C89_stderr_overestimates 3 1 one_X third (fun _ => 5) (1 / 3) bumps average C89_inverse_case C89_white_case C89_fit_case ltac:(lia) ltac:(lra)) as [E _]. rewrite E. cbn. field.
Qed.
