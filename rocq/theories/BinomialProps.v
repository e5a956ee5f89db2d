(** C13: the binomial confidence curve. *)
From Coquelicot Require Import Coquelicot.
From Verif Require Import RealBase RegModel RegProofs LinPodModel QuantileProofs.
Local Open Scope R_scope.

(** Specification: P(Binomial(n, p) <= k). *)
Definition bin_pmf (n : nat) (p : R) (i : nat) : R := Binomial.C n i * p ^ i * (1 - p) ^ (n - i).
Definition bin_cdf (n : nat) (p : R) (k : nat) : R := sum_f_R0 (bin_pmf n p) k.
(** Contract of ot.DistFunc.qBeta: the quantile of the Beta law of integer parameters r, s >= 1. *)
Definition beta_density (r s : nat) (t : R) : R := t ^ (r - 1) * (1 - t) ^ (s - 1).
Definition qBeta_spec (qBeta : R -> R -> R -> R) : Prop :=
  forall (r s : nat) g, (1 <= r)%nat -> (1 <= s)%nat -> 0 < g < 1 ->
    let q := qBeta (INR r) (INR s) g in
    0 < q < 1 /\ RInt (beta_density r s) 0 q = g * RInt (beta_density r s) 0 1.

(** *** The binomial distribution function as a function of p *)
Lemma C_pos n i : 0 < Binomial.C n i.
Proof.
  unfold Binomial.C. assert (A := INR_fact_lt_0 n). assert (B := INR_fact_lt_0 i). assert (D := INR_fact_lt_0 (n - i)).
  apply Rdiv_lt_0_compat; [assumption|]. now apply Rmult_lt_0_compat.
Qed.
Lemma C_0 n : Binomial.C n 0 = 1.
Proof. unfold Binomial.C. rewrite Nat.sub_0_r. cbn [fact]. assert (A := INR_fact_neq_0 n). change (INR 1) with 1. field. assumption. Qed.
Lemma C_n n : Binomial.C n n = 1.
Proof. rewrite pascal_step1 by lia. rewrite Nat.sub_diag. apply C_0. Qed.
Lemma C_step n i : (i < n)%nat -> INR (S i) * Binomial.C n (S i) = INR (n - i) * Binomial.C n i.
Proof. intros H. rewrite pascal_step3 by assumption. field. apply not_0_INR. lia. Qed.
Lemma bin_cdf_S n p k : bin_cdf n p (S k) = bin_cdf n p k + bin_pmf n p (S k).
Proof. reflexivity. Qed.
Lemma bin_cdf_derive n k (p : R) : (k < n)%nat ->
  is_derive (fun p : R => bin_cdf n p k) p (- (INR (n - k) * Binomial.C n k * p ^ k * (1 - p) ^ (n - k - 1))).
Proof.
  induction k as [|k IH]; intros H.
  - unfold bin_cdf, bin_pmf. cbn [sum_f_R0]. rewrite C_0, Nat.sub_0_r. auto_derive; [exact I|].
    rewrite Nat.sub_1_r. cbn [pow]. change (1 + - p) with (1 - p). set (u := (1 - p) ^ n). set (v := (1 - p) ^ Nat.pred n). ring.
  - apply (is_derive_ext (fun p => bin_cdf n p k + bin_pmf n p (S k))); [reflexivity|].
    assert (D := IH ltac:(lia)).
    assert (D2 : is_derive (fun p => bin_pmf n p (S k)) p
       (Binomial.C n (S k) * (INR (S k) * p ^ k * (1 - p) ^ (n - S k) - p ^ S k * (INR (n - S k) * (1 - p) ^ (n - S k - 1))))).
    { unfold bin_pmf. auto_derive; [exact I|]. rewrite <- Nat.sub_1_r. 
      match goal with |- context [match k with O => 1 | S _ => INR k + 1 end] => change (match k with O => 1 | S _ => INR k + 1 end) with (INR (S k)) end.
      change (1 + - p) with (1 - p). change (p ^ S k) with (p * p ^ k). set (u := (1 - p) ^ (n - S k)).
      set (v := (1 - p) ^ (n - S k - 1)). set (w := p ^ k). set (c := Binomial.C n (S k)). ring. }
    assert (E := is_derive_plus _ _ _ _ _ D D2).
    match type of E with is_derive _ _ ?v => replace (- (INR (n - S k) * Binomial.C n (S k) * p ^ S k * (1 - p) ^ (n - S k - 1))) with v end.
    + exact E.
    + match goal with |- plus ?a ?b = _ => change (a + b = - (INR (n - S k) * Binomial.C n (S k) * p ^ S k * (1 - p) ^ (n - S k - 1))) end. replace (n - k - 1)%nat with (n - S k)%nat by lia.
      assert (CS := C_step n k ltac:(lia)).
      transitivity ((INR (S k) * Binomial.C n (S k) - INR (n - k) * Binomial.C n k) * p ^ k * (1 - p) ^ (n - S k)
         - Binomial.C n (S k) * (p ^ S k * (INR (n - S k) * (1 - p) ^ (n - S k - 1)))); [cbn [pow]; ring|].
      rewrite CS. ring.
Qed.
Lemma bin_cdf_0 n k : bin_cdf n 0 k = 1.
Proof.
  unfold bin_cdf. induction k as [|k IH].
  - cbn. unfold bin_pmf. rewrite C_0, Rminus_0_r, pow1. cbn. ring.
  - cbn [sum_f_R0]. rewrite IH. unfold bin_pmf. cbn [pow]. ring.
Qed.
Lemma bin_cdf_1 n k : (k < n)%nat -> bin_cdf n 1 k = 0.
Proof.
  intros H. assert (Z : forall i, (i < n)%nat -> bin_pmf n 1 i = 0).
  { intros i Hi. unfold bin_pmf. replace (1 - 1) with 0 by ring. rewrite pow_i by lia. ring. }
  unfold bin_cdf. induction k as [|k IH]; cbn [sum_f_R0]; rewrite Z by lia; [reflexivity|]. rewrite IH by lia. ring.
Qed.
Lemma bin_cdf_decreasing n k p q : (k < n)%nat -> 0 <= p -> p < q -> q <= 1 -> bin_cdf n q k < bin_cdf n p k.
Proof.
  intros H H0 Hpq H1.
  destruct (MVT_cor2 (fun p => bin_cdf n p k) (fun p => - (INR (n - k) * Binomial.C n k * p ^ k * (1 - p) ^ (n - k - 1))) p q Hpq) as [c [E Hc]].
  { intros c _. apply is_derive_Reals. now apply bin_cdf_derive. }
  assert (P : 0 < INR (n - k) * Binomial.C n k * c ^ k * (1 - c) ^ (n - k - 1)).
  { apply Rmult_lt_0_compat; [apply Rmult_lt_0_compat; [apply Rmult_lt_0_compat; [apply lt_0_INR; lia|apply C_pos]|apply pow_lt; lra]|apply pow_lt; lra]. }
  assert (0 < INR (n - k) * Binomial.C n k * c ^ k * (1 - c) ^ (n - k - 1) * (q - p)) by (apply Rmult_lt_0_compat; lra). lra.
Qed.
Lemma bin_cdf_injective n k p q : (k < n)%nat -> 0 <= p <= 1 -> 0 <= q <= 1 -> bin_cdf n p k = bin_cdf n q k -> p = q.
Proof.
  intros H Hp Hq E. destruct (Rtotal_order p q) as [L|[L|L]]; [|assumption|].
  - assert (G := bin_cdf_decreasing n k p q H ltac:(lra) L ltac:(lra)). lra.
  - assert (G := bin_cdf_decreasing n k q p H ltac:(lra) L ltac:(lra)). lra.
Qed.
(** The Beta law of parameters n - k and k + 1. *)
Lemma beta_is_RInt n k q : (k < n)%nat ->
  is_RInt (fun t => INR (n - k) * Binomial.C n k * beta_density (n - k) (k + 1) t) 0 q (bin_cdf n (1 - q) k).
Proof.
  intros H. assert (E : bin_cdf n (1 - q) k = minus (bin_cdf n (1 - q) k) (bin_cdf n (1 - 0) k)).
  { rewrite Rminus_0_r, bin_cdf_1 by assumption. unfold minus, plus, opp; cbn. ring. }
  rewrite E. apply (is_RInt_derive (fun t => bin_cdf n (1 - t) k)).
  - intros x _.
    assert (D : is_derive (fun t => 1 - t) x (-1)) by (auto_derive; [exact I|ring]).
    assert (D' := is_derive_comp (fun p => bin_cdf n p k) (fun t => 1 - t) x _ _ (bin_cdf_derive n k (1 - x) H) D).
    match type of D' with is_derive _ _ ?v => replace (INR (n - k) * Binomial.C n k * beta_density (n - k) (k + 1) x) with v end; [exact D'|].
    unfold beta_density, scal; cbn. unfold mult; cbn. replace (k + 1 - 1)%nat with k by lia. replace (1 - (1 - x)) with x by ring. ring.
  - intros x _. apply (ex_derive_continuous (fun t => INR (n - k) * Binomial.C n k * beta_density (n - k) (k + 1) t)).
    unfold beta_density. auto_derive. exact I.
Qed.
Lemma beta_RInt n k q : (k < n)%nat ->
  INR (n - k) * Binomial.C n k * RInt (beta_density (n - k) (k + 1)) 0 q = bin_cdf n (1 - q) k.
Proof.
  intros H. rewrite <- (is_RInt_unique _ _ _ _ (beta_is_RInt n k q H)). symmetry.
  apply (RInt_scal (beta_density (n - k) (k + 1))).
  apply (ex_RInt_continuous (V := R_CompleteNormedModule)). intros x _.
  apply (ex_derive_continuous (beta_density (n - k) (k + 1))). unfold beta_density. auto_derive. exact I.
Qed.
Lemma qBeta_binomial qBeta n k g : qBeta_spec qBeta -> (k < n)%nat -> 0 < g < 1 ->
  let p := 1 - qBeta (INR (n - k)) (INR (k + 1)) g in 0 < p < 1 /\ bin_cdf n p k = g.
Proof.
  intros HS H Hg p. destruct (HS (n - k)%nat (k + 1)%nat g ltac:(lia) ltac:(lia) Hg) as [Hq E].
  set (q := qBeta (INR (n - k)) (INR (k + 1)) g) in *. split; [unfold p; lra|].
  unfold p. rewrite <- (beta_RInt n k q H), E. rewrite (Rmult_comm g), <- Rmult_assoc, (beta_RInt n k 1 H).
  replace (1 - 1) with 0 by ring. rewrite bin_cdf_0. ring.
Qed.

(** *** C13 *)
(** The number of detections recovered from the proportion is the count of exceeding residuals (exact arithmetic). *)
Theorem C13_count :
  forall qBeta resid a b detection gamma x, resid <> [] ->
    binomial_cl qBeta resid a b detection gamma x
      = binomial_cl_value qBeta (length resid) (length (filter (fun r => Rltb detection (a + b * x + r)) resid)) gamma.
Proof.
  intros qBeta resid a b detection gamma x Hn. unfold binomial_cl, empirical_ccdf. f_equal.
  assert (P := num_pos resid Hn). set (c := countb (fun r => Rltb (detection - linear a b x) r) resid).
  replace (INR (length resid) * (INR c / num resid)) with (INR c) by (unfold num in *; field; lra).
  assert (E : c = length (filter (fun r => Rltb detection (a + b * x + r)) resid)).
  { apply countb_ext. intros r _. unfold linear. destruct (Rltb_spec (detection - (a + b * x)) r), (Rltb_spec detection (a + b * x + r)); auto; lra. }
  rewrite <- E. assert (F := floor_nat (INR c) (pos_INR c)). set (j := Z.to_nat _) in *.
  apply Nat.le_antisymm; [apply INR_le; lra|]. apply Nat.lt_succ_r, INR_lt. rewrite S_INR. lra.
Qed.
Print Assumptions C13_count.
Theorem C13_defining_equation :
  forall qBeta n k gamma, qBeta_spec qBeta -> (k < n)%nat -> 0 < gamma < 1 ->
    let p := binomial_cl_value qBeta n k gamma in
    0 < p < 1 /\ bin_cdf n p k = gamma /\ (forall p', 0 <= p' <= 1 -> bin_cdf n p' k = gamma -> p' = p).
Proof.
  intros qBeta n k gamma HS H Hg p. unfold p, binomial_cl_value. rewrite (proj2 (Nat.eqb_neq k n)) by lia.
  destruct (qBeta_binomial qBeta n k gamma HS H Hg) as [P E]. split; [exact P|]. split; [exact E|].
  intros p' Hp' E'. apply (bin_cdf_injective n k); [assumption|assumption|lra|congruence].
Qed.
Print Assumptions C13_defining_equation.
Lemma bin_pmf_pos n p i : 0 < p < 1 -> 0 < bin_pmf n p i.
Proof.
  intros H. unfold bin_pmf. apply Rmult_lt_0_compat; [apply Rmult_lt_0_compat; [apply C_pos|apply pow_lt; lra]|apply pow_lt; lra].
Qed.
Lemma bin_cdf_increasing_k n p k k' : 0 < p < 1 -> (k < k')%nat -> bin_cdf n p k < bin_cdf n p k'.
Proof.
  intros Hp H. induction H as [|k' H IH]; rewrite bin_cdf_S; [assert (G := bin_pmf_pos n p (S k) Hp)|assert (G := bin_pmf_pos n p (S k') Hp)]; lra.
Qed.
Theorem C13_monotone :
  forall qBeta n k k' gamma gamma', qBeta_spec qBeta -> (k < n)%nat -> (k' < n)%nat -> 0 < gamma < 1 -> 0 < gamma' < 1 ->
    ((k < k')%nat -> binomial_cl_value qBeta n k gamma < binomial_cl_value qBeta n k' gamma) /\
    (gamma < gamma' -> binomial_cl_value qBeta n k gamma' < binomial_cl_value qBeta n k gamma).
Proof.
  intros qBeta n k k' gamma gamma' HS H H' Hg Hg'.
  destruct (C13_defining_equation qBeta n k gamma HS H Hg) as [P1 [E1 _]].
  destruct (C13_defining_equation qBeta n k' gamma HS H' Hg) as [P2 [E2 _]].
  destruct (C13_defining_equation qBeta n k gamma' HS H Hg') as [P3 [E3 _]].
  set (p1 := binomial_cl_value qBeta n k gamma) in *. set (p2 := binomial_cl_value qBeta n k' gamma) in *.
  set (p3 := binomial_cl_value qBeta n k gamma') in *. split.
  - intros L. assert (G := bin_cdf_increasing_k n p1 k k' P1 L).
    destruct (Rtotal_order p1 p2) as [T|[T|T]]; [assumption| |].
    + exfalso. rewrite T in *. lra.
    + exfalso. assert (K := bin_cdf_decreasing n k' p2 p1 H' ltac:(lra) T ltac:(lra)). lra.
  - intros L. destruct (Rtotal_order p3 p1) as [T|[T|T]]; [assumption| |].
    + exfalso. rewrite T in *. lra.
    + exfalso. assert (K := bin_cdf_decreasing n k p1 p3 H ltac:(lra) T ltac:(lra)). lra.
Qed.
Print Assumptions C13_monotone.
Lemma Rpower_root x n : 0 < x -> (0 < n)%nat -> Rpower x (1 / INR n) ^ n = x.
Proof.
  intros Hx Hn. rewrite <- Rpower_pow by (unfold Rpower; apply exp_pos). rewrite Rpower_mult.
  replace (1 / INR n * INR n) with 1 by (field; apply not_0_INR; lia). now apply Rpower_1.
Qed.
Lemma pow_lt_reg x y n : (0 < n)%nat -> 0 <= x -> 0 <= y -> x ^ n < y ^ n -> x < y.
Proof.
  intros Hn Hx Hy H. destruct (Rlt_dec x y) as [|L]; [assumption|]. assert (G := pow_incr y x n ltac:(lra)). lra.
Qed.
Lemma pow_strict x y n : (0 < n)%nat -> 0 <= x < y -> x ^ n < y ^ n.
Proof.
  intros Hn H. destruct n as [|n]; [lia|]. cbn [pow]. assert (G := pow_incr x y n ltac:(lra)).
  assert (P : 0 < y ^ n) by (apply pow_lt; lra). assert (x * x ^ n <= x * y ^ n) by (apply Rmult_le_compat_l; lra).
  assert (x * y ^ n < y * y ^ n) by (apply Rmult_lt_compat_r; lra). lra.
Qed.
Lemma bin_sum_full n p : bin_cdf n p n = 1.
Proof.
  unfold bin_cdf, bin_pmf. rewrite <- (binomial p (1 - p) n). replace (p + (1 - p)) with 1 by ring. apply pow1.
Qed.
(** Finding: when every observation exceeds the threshold the value is gamma^(1/n), which increases with gamma, and for
    gamma < 1/2 it is below the value for n - 1 detections. *)
Theorem C13_all_detected :
  forall qBeta n gamma gamma', qBeta_spec qBeta -> (1 <= n)%nat -> 0 < gamma < 1 -> 0 < gamma' < 1 ->
    binomial_cl_value qBeta n n gamma ^ n = gamma /\ 0 < binomial_cl_value qBeta n n gamma < 1 /\
    (gamma < gamma' -> binomial_cl_value qBeta n n gamma < binomial_cl_value qBeta n n gamma') /\
    (binomial_cl_value qBeta n n gamma < binomial_cl_value qBeta n (n - 1) gamma <-> gamma < /2).
Proof.
  intros qBeta n gamma gamma' HS Hn Hg Hg'.
  assert (E : forall g, binomial_cl_value qBeta n n g = Rpower g (1 / INR n)) by (intros g; unfold binomial_cl_value; now rewrite Nat.eqb_refl).
  rewrite !E. assert (PP : forall g, 0 < Rpower g (1 / INR n)) by (intros g; unfold Rpower; apply exp_pos).
  assert (R1 := Rpower_root gamma n ltac:(lra) ltac:(lia)). assert (R2 := Rpower_root gamma' n ltac:(lra) ltac:(lia)).
  assert (P1 := PP gamma). assert (P2 := PP gamma').
  split; [exact R1|]. split; [split; [exact P1|]|split].
  - apply (pow_lt_reg _ _ n); [lia|lra|lra|]. rewrite R1, pow1. lra.
  - intros L. apply (pow_lt_reg _ _ n); [lia|lra|lra|]. rewrite R1, R2. assumption.
  - destruct (C13_defining_equation qBeta n (n - 1) gamma HS ltac:(lia) Hg) as [P3 [E3 _]].
    set (p := binomial_cl_value qBeta n (n - 1) gamma) in *.
    assert (K : p ^ n = 1 - gamma).
    { assert (F := bin_sum_full n p). destruct n as [|m]; [lia|]. rewrite bin_cdf_S in F. cbn [Nat.sub] in E3. rewrite Nat.sub_0_r in E3.
      rewrite E3 in F. unfold bin_pmf in F. rewrite C_n, Nat.sub_diag in F. cbn [pow] in F |- *. lra. }
    split.
    + intros L. destruct (Rlt_dec gamma (/2)) as [|N]; [assumption|]. exfalso.
      assert (G := pow_incr (Rpower gamma (1 / INR n)) p n ltac:(lra)). rewrite R1, K in G.
      assert (G' := pow_strict (Rpower gamma (1 / INR n)) p n ltac:(lia) ltac:(lra)). rewrite R1, K in G'. lra.
    + intros L. apply (pow_lt_reg _ _ n); [lia|lra|lra|]. rewrite R1, K. lra.
Qed.
Print Assumptions C13_all_detected.
(** Finding: with no detection at all the value is 1 - gamma^(1/n) > 0, above the POD estimate 0. *)
Theorem C13_none_detected :
  forall qBeta n gamma, qBeta_spec qBeta -> (1 <= n)%nat -> 0 < gamma < 1 ->
    binomial_cl_value qBeta n 0 gamma = 1 - Rpower gamma (1 / INR n) /\ 0 < binomial_cl_value qBeta n 0 gamma.
Proof.
  intros qBeta n gamma HS Hn Hg. destruct (C13_defining_equation qBeta n 0 gamma HS ltac:(lia) Hg) as [P [E _]].
  set (p := binomial_cl_value qBeta n 0 gamma) in *. split; [|lra].
  unfold bin_cdf, bin_pmf in E. cbn [sum_f_R0] in E. rewrite C_0, Nat.sub_0_r in E. cbn [pow] in E.
  assert (E' : (1 - p) ^ n = gamma) by lra. assert (R1 := Rpower_root gamma n ltac:(lra) ltac:(lia)).
  assert (PP : 0 < Rpower gamma (1 / INR n)) by (unfold Rpower; apply exp_pos).
  destruct (Rtotal_order (1 - p) (Rpower gamma (1 / INR n))) as [T|[T|T]]; [|lra|].
  - assert (G := pow_strict (1 - p) (Rpower gamma (1 / INR n)) n ltac:(lia) ltac:(lra)). lra.
  - assert (G := pow_strict (Rpower gamma (1 / INR n)) (1 - p) n ltac:(lia) ltac:(lra)). lra.
Qed.
Print Assumptions C13_none_detected.
(** The confidence curve of the code is therefore not below the POD curve. *)
Theorem C13_lower_bound_refuted :
  forall qBeta, qBeta_spec qBeta -> exists resid a b detection x,
    resid <> [] /\ binomial_pod resid a b detection x = 0 /\
    forall gamma, 0 < gamma < 1 -> binomial_pod resid a b detection x < binomial_cl qBeta resid a b detection gamma x.
Proof.
  intros qBeta HS. exists [0; 0], 0, 1, 1, 0. split; [discriminate|].
  assert (C : length (filter (fun r => Rltb 1 (0 + 1 * 0 + r)) [0; 0]) = 0%nat).
  { cbn [filter]. rewrite (proj2 (Rltb_false 1 (0 + 1 * 0 + 0))) by lra. reflexivity. }
  assert (Z : binomial_pod [0; 0] 0 1 1 0 = 0).
  { unfold binomial_pod, empirical_ccdf. rewrite countb_none.
    - cbn. unfold Rdiv. ring.
    - intros r [<-|[<-|[]]]; apply Rltb_false; unfold linear; lra. }
  split; [exact Z|]. intros gamma Hg. rewrite Z, C13_count by discriminate. rewrite C.
  apply C13_none_detected; [exact HS|cbn; lia|exact Hg].
Qed.
Print Assumptions C13_lower_bound_refuted.

(** A function that meets the contract of qBeta. *)
Lemma beta_exists n k g : (k < n)%nat -> 0 < g < 1 -> { p : R | 0 <= p <= 1 /\ bin_cdf n p k - g = 0 }.
Proof.
  intros H Hg.
  destruct (IVT (fun p => g - bin_cdf n p k) 0 1) as [p [Hp E]].
  - intros p. apply derivable_continuous_pt. 
    exists (- - (INR (n - k) * Binomial.C n k * p ^ k * (1 - p) ^ (n - k - 1))).
    apply is_derive_Reals. assert (D := bin_cdf_derive n k p H).
    assert (D' := is_derive_minus (fun _ => g) (fun p => bin_cdf n p k) p _ _ (is_derive_const g p) D).
    match type of D' with is_derive _ _ ?v => replace v with (- - (INR (n - k) * Binomial.C n k * p ^ k * (1 - p) ^ (n - k - 1))) in D' end;
      [exact D'|]. unfold minus, plus, opp, zero; cbn. ring.
  - lra.
  - cbn. rewrite bin_cdf_0. lra.
  - cbn. rewrite bin_cdf_1 by assumption. lra.
  - exists p. split; [assumption|lra].
Defined.
Definition to_nat (x : R) : nat := Z.to_nat (Int_part x).
Lemma to_nat_INR n : to_nat (INR n) = n.
Proof.
  unfold to_nat. assert (F := floor_nat (INR n) (pos_INR n)). set (j := Z.to_nat _) in *.
  apply Nat.le_antisymm; [apply INR_le; lra|]. apply Nat.lt_succ_r, INR_lt. rewrite S_INR. lra.
Qed.
Definition beta_root (r s : nat) (g : R) : R :=
  match lt_dec (s - 1) (r + s - 1), Rlt_dec 0 g, Rlt_dec g 1 with
  | left H, left H0, left H1 => 1 - proj1_sig (beta_exists (r + s - 1) (s - 1) g H (conj H0 H1))
  | _, _, _ => 0
  end.
Definition qBeta_instance (a b g : R) : R := beta_root (to_nat a) (to_nat b) g.
Lemma qBeta_instance_spec : qBeta_spec qBeta_instance.
Proof.
  intros r s g Hr Hs Hg. unfold qBeta_instance. rewrite !to_nat_INR. cbv zeta. unfold beta_root.
  destruct (lt_dec (s - 1) (r + s - 1)) as [L|L]; [|lia].
  destruct (Rlt_dec 0 g) as [G0|G0]; [|lra]. destruct (Rlt_dec g 1) as [G1|G1]; [|lra].
  destruct (beta_exists (r + s - 1) (s - 1) g L (conj G0 G1)) as [p [Hp E]]. cbn [proj1_sig].
  set (n := (r + s - 1)%nat) in *. set (k := (s - 1)%nat) in *.
  assert (Er : (n - k)%nat = r) by (unfold n, k; lia). assert (Es : (k + 1)%nat = s) by (unfold k; lia).
  assert (P0 : p <> 0) by (intros ->; rewrite bin_cdf_0 in E; lra).
  assert (P1 : p <> 1) by (intros ->; rewrite bin_cdf_1 in E by exact L; lra).
  split; [lra|]. assert (A := beta_RInt n k (1 - p) L). assert (B := beta_RInt n k 1 L). rewrite Er, Es in A, B.
  replace (1 - 1) with 0 in B by ring. rewrite bin_cdf_0 in B. replace (1 - (1 - p)) with p in A by ring.
  assert (CP : INR r * Binomial.C n k <> 0).
  { assert (0 < INR r * Binomial.C n k); [|lra]. apply Rmult_lt_0_compat; [apply lt_0_INR; lia|apply C_pos]. }
  apply (Rmult_eq_reg_l (INR r * Binomial.C n k)); [|exact CP]. rewrite A, (Rmult_comm g), <- Rmult_assoc, B. lra.
Qed.
Example C13_example : qBeta_spec qBeta_instance /\ (2 < 5)%nat /\ 0 < 19/20 < 1.
Proof. split; [apply qBeta_instance_spec|]. split; [lia|lra]. Qed.
