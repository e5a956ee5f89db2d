(** C12, C14, C17, C18: POD curves of the linear regression and the censored likelihood. *)
From Coquelicot Require Import Coquelicot.
From Verif Require Import RealBase RegModel RegProofs RegProps LinPodModel.
Local Open Scope R_scope.

(** *** C12 *)
(** n POD(x) is the number of observations whose residual brings the line strictly above the threshold. *)
Theorem C12_proportion :
  forall resid a b detection x, resid <> [] ->
    binomial_pod resid a b detection x * INR (length resid)
      = INR (length (filter (fun r => Rltb detection (a + b * x + r)) resid)) /\
    0 <= binomial_pod resid a b detection x <= 1.
Proof.
  intros resid a b detection x Hn. assert (P := num_pos resid Hn).
  unfold binomial_pod, empirical_ccdf.
  assert (E : countb (fun r => Rltb (detection - linear a b x) r) resid = length (filter (fun r => Rltb detection (a + b * x + r)) resid)).
  { apply countb_ext. intros r _. unfold linear. destruct (Rltb_spec (detection - (a + b * x)) r), (Rltb_spec detection (a + b * x + r)); auto; lra. }
  rewrite E. assert (L : INR (length (filter (fun r => Rltb detection (a + b * x + r)) resid)) <= num resid).
  { apply le_INR. apply (countb_le (fun r => Rltb detection (a + b * x + r))). }
  assert (P0 := pos_INR (length (filter (fun r => Rltb detection (a + b * x + r)) resid))).
  change (INR (length resid)) with (num resid). assert (I := Rinv_0_lt_compat _ P).
  split; [field; lra|]. unfold Rdiv. split; [apply Rmult_le_pos; lra|].
  apply (Rmult_le_reg_r (num resid)); [assumption|]. rewrite Rmult_assoc, Rinv_l by lra. lra.
Qed.
Print Assumptions C12_proportion.
Lemma empirical_mono resid t1 t2 : t1 <= t2 -> empirical_ccdf resid t2 <= empirical_ccdf resid t1.
Proof.
  intros H. unfold empirical_ccdf. destruct resid as [|r l]; [cbn; lra|].
  assert (P := num_pos (r :: l) ltac:(discriminate)). assert (I := Rinv_0_lt_compat _ P).
  unfold Rdiv. apply Rmult_le_compat_r; [lra|]. apply le_INR, countb_mono. intros y _ G.
  apply Rltb_true in G. apply Rltb_true. lra.
Qed.
Theorem C12_monotone :
  forall resid a b det det' x y,
    (0 <= b -> x <= y -> binomial_pod resid a b det x <= binomial_pod resid a b det y) /\
    (b <= 0 -> x <= y -> binomial_pod resid a b det y <= binomial_pod resid a b det x) /\
    (det <= det' -> binomial_pod resid a b det' x <= binomial_pod resid a b det x).
Proof.
  intros resid a b det det' x y. unfold binomial_pod, linear. split; [|split].
  - intros Hb Hx. apply empirical_mono. assert (b * x <= b * y) by (apply Rmult_le_compat_l; lra). lra.
  - intros Hb Hx. apply empirical_mono. assert (0 <= - b * (y - x)) by (apply Rmult_le_pos; lra). lra.
  - intros Hd. apply empirical_mono. lra.
Qed.
Print Assumptions C12_monotone.
Theorem C12_limits :
  forall resid a b det, resid <> [] -> 0 < b ->
    (exists x1, forall x, x1 <= x -> binomial_pod resid a b det x = 1) /\
    (exists x0, forall x, x <= x0 -> binomial_pod resid a b det x = 0).
Proof.
  intros resid a b det Hn Hb. assert (P := num_pos resid Hn). split.
  - exists ((det - a - Rlmin resid + 1) / b). intros x Hx. unfold binomial_pod, empirical_ccdf.
    assert (G : det - a - Rlmin resid + 1 <= b * x).
    { apply (Rmult_le_compat_l b) in Hx; [|lra]. replace (b * ((det - a - Rlmin resid + 1) / b)) with (det - a - Rlmin resid + 1) in Hx by (field; lra). lra. }
    rewrite countb_all.
    + unfold num in *. field. lra.
    + intros r Hr. apply Rltb_true. unfold linear. assert (K := Rlmin_le _ _ Hr). lra.
  - exists ((det - a - Rlmax resid) / b). intros x Hx. unfold binomial_pod, empirical_ccdf.
    assert (G : b * x <= det - a - Rlmax resid).
    { apply (Rmult_le_compat_l b) in Hx; [|lra]. replace (b * ((det - a - Rlmax resid) / b)) with (det - a - Rlmax resid) in Hx by (field; lra). lra. }
    rewrite countb_none.
    + cbn. unfold Rdiv. ring.
    + intros r Hr. apply Rltb_false. unfold linear. assert (K := Rlmax_ge _ _ Hr). lra.
Qed.
Print Assumptions C12_limits.
Example C12_example : [-1; 0; 1] <> [] /\ binomial_pod [-1; 0; 1] 0 1 2 2 = 1 / 3 /\ 0 < 1.
Proof.
  split; [discriminate|]. split; [|lra]. unfold binomial_pod, empirical_ccdf, linear, num. rewrite !countb_cons.
  rewrite (proj2 (Rltb_false _ (-1))), (proj2 (Rltb_false _ 0)), (proj2 (Rltb_true _ 1)) by lra. cbn. field.
Qed.

(** *** C14 *)
Definition distinct_sizes (d : list R) : Prop := exists x y, In x d /\ In y d /\ x <> y.
Definition pairs (d : list R) : data := map (fun x => (x, 0)) d.
Lemma pairs_fst d : map fst (pairs d) = d.
Proof. unfold pairs. rewrite map_map. apply map_id. Qed.
Lemma pairs_nc d : distinct_sizes d -> non_constant (pairs d).
Proof.
  intros [x [y [Hx [Hy Hne]]]]. exists (x, 0), (y, 0). split; [|split; [|assumption]];
  [apply (in_map (fun x => (x, 0)) _ _ Hx)|apply (in_map (fun x => (x, 0)) _ _ Hy)].
Qed.
(** Sum of squared deviations of the sizes, and the mean size. *)
Definition devsq (d : list R) : R := Rsum (map (fun x => (x - Rmean d) ^ 2) d).
Lemma devsq_pairs d : devsq d = Sxx (pairs d).
Proof.
  unfold devsq, Sxx, xbar. rewrite pairs_fst. unfold pairs. rewrite map_map. cbn [fst]. apply Rsum_ext. intros; ring.
Qed.
Lemma devsq_pos d : distinct_sizes d -> 0 < devsq d.
Proof. intros H. rewrite devsq_pairs. apply Sxx_pos. now apply pairs_nc. Qed.
Lemma distinct_nil d : distinct_sizes d -> d <> [].
Proof. intros [x [y [H _]]] ->. destruct H. Qed.
Lemma gram_form_value d x : distinct_sizes d -> gram_form d x = 1 / INR (length d) + (x - Rmean d) ^ 2 / devsq d.
Proof.
  intros H. assert (Hn := distinct_nil d H). assert (P := num_pos d Hn). assert (S := devsq_pos d H).
  assert (E : devsq d = Rsum (map (fun v => v * v) d) - Rsum d * Rsum d / num d).
  { rewrite devsq_pairs, Sxx_def by (destruct d; [congruence|discriminate]).
    unfold sxx, sx, num. rewrite pairs_fst. unfold pairs. rewrite map_length. f_equal. rewrite map_map. reflexivity. }
  rewrite E in *. unfold gram_form, Rmean. change (INR (length d)) with (num d).
  set (s2 := Rsum (map (fun v => v * v) d)) in *. set (s1 := Rsum d) in *. set (n := num d) in *.
  assert (K : n * s2 - s1 * s1 <> 0).
  { intros Z. assert (K : s2 - s1 * s1 / n = (n * s2 - s1 * s1) / n) by (field; lra). rewrite K, Z in S. unfold Rdiv in S. lra. }
  field. split; lra.
Qed.
(** The POD is the probability that a normal prediction, with the variance of a new observation, exceeds the threshold:
    [normal_tail mean variance] in terms of the standard law. *)
Definition normal_tail (ccdf : R -> R) (mean var c : R) : R := ccdf ((c - mean) / sqrt var).
Theorem C14_prediction_law :
  forall ccdf d stderr a b detection x, distinct_sizes d ->
    gauss_pod ccdf d stderr a b detection x
      = normal_tail ccdf (a + b * x) (stderr ^ 2 * (1 + 1 / INR (length d) + (x - Rmean d) ^ 2 / devsq d)) detection.
Proof.
  intros ccdf d stderr a b detection x H. unfold gauss_pod, normal_tail, prediction_variance, linear.
  rewrite gram_form_value by assumption. do 3 f_equal. ring.
Qed.
Print Assumptions C14_prediction_law.
Definition strict_ccdf (ccdf : R -> R) : Prop :=
  (forall t, 0 <= ccdf t <= 1) /\ (forall s t, s < t -> ccdf t < ccdf s) /\ (forall t, ccdf (- t) = 1 - ccdf t).
Lemma strict_half ccdf : strict_ccdf ccdf -> ccdf 0 = /2.
Proof. intros [_ [_ S]]. assert (G := S 0). rewrite Ropp_0 in G. lra. Qed.
Lemma pv_pos d stderr x : distinct_sizes d -> 0 < stderr -> 0 < prediction_variance d stderr x.
Proof.
  intros H Hs. unfold prediction_variance. rewrite gram_form_value by assumption.
  assert (P := num_pos d (distinct_nil d H)). unfold num in P. assert (S := devsq_pos d H).
  assert (0 <= 1 / INR (length d)) by (left; apply Rdiv_lt_0_compat; lra).
  assert (0 <= (x - Rmean d) ^ 2 / devsq d) by (apply Rmult_le_pos; [apply pow2_ge_0|left; now apply Rinv_0_lt_compat]).
  apply Rmult_lt_0_compat; [now apply Rmult_lt_0_compat|lra].
Qed.
Theorem C14_half_at_the_threshold :
  forall ccdf d stderr a b detection x, strict_ccdf ccdf -> distinct_sizes d -> 0 < stderr ->
    0 <= gauss_pod ccdf d stderr a b detection x <= 1 /\
    (/2 <= gauss_pod ccdf d stderr a b detection x <-> detection <= a + b * x) /\
    (gauss_pod ccdf d stderr a b detection x = /2 <-> detection = a + b * x).
Proof.
  intros ccdf d stderr a b detection x HC Hd Hs. assert (H0 := strict_half ccdf HC). destruct HC as [R1 [M S]].
  unfold gauss_pod, linear. set (v := prediction_variance d stderr x).
  assert (V : 0 < v) by (now apply pv_pos). assert (Q := sqrt_lt_R0 v V). assert (I := Rinv_0_lt_compat _ Q).
  set (t := (detection - (a + b * x)) / sqrt v).
  assert (T1 : detection < a + b * x -> t < 0).
  { intros G. unfold t, Rdiv. assert (0 < (a + b * x - detection) * / sqrt v) by (apply Rmult_lt_0_compat; lra). lra. }
  assert (T2 : a + b * x < detection -> 0 < t).
  { intros G. unfold t, Rdiv. apply Rmult_lt_0_compat; lra. }
  assert (T3 : detection = a + b * x -> t = 0).
  { intros G. unfold t, Rdiv. rewrite G. ring. }
  split; [apply R1|].
  destruct (Rtotal_order detection (a + b * x)) as [G|[G|G]].
  - assert (K := M t 0 (T1 G)). rewrite H0 in K. split; split; intros; lra.
  - rewrite (T3 G), H0. split; split; intros; lra.
  - assert (K := M 0 t (T2 G)). rewrite H0 in K. split; split; intros; lra.
Qed.
Print Assumptions C14_half_at_the_threshold.
(** The standardised distance and its derivative. *)
Section Slope.
  Variables (c b k S : R).
  Hypotheses (Hk : 0 < k) (HS : 0 < S).
  Let q u := k + u * u / S.
  Let t u := (c - b * u) / sqrt (q u).
  Lemma q_pos u : 0 < q u.
  Proof.
    unfold q. assert (0 <= u * u / S) by (apply Rmult_le_pos; [apply Rle_0_sqr|left; now apply Rinv_0_lt_compat]). lra.
  Qed.
  Lemma t_derive u : is_derive t u ((- (b * k) - c * u / S) / (q u * sqrt (q u))).
  Proof.
    unfold t, q. assert (Q := q_pos u). unfold q in Q. assert (SQ := sqrt_lt_R0 _ Q). auto_derive.
    - split; [lra|]. split; [lra|auto].
    - set (w := k + u * u / S) in *. replace (k + u * u * / S) with w by (unfold w; field; lra).
      assert (E : sqrt w * sqrt w = w) by (apply sqrt_sqrt; lra).
      replace (w * sqrt w) with (sqrt w * sqrt w * sqrt w) by (rewrite E; ring).
      replace k with (sqrt w * sqrt w - u * u / S) by (rewrite E; unfold w; field; lra).
      set (z := sqrt w) in *. clearbody z. field. split; lra.
  Qed.
  Lemma t_monotone x y : x < y ->
    (- (b * k * S) < c * x -> - (b * k * S) < c * y -> t y < t x) /\
    (c * x < - (b * k * S) -> c * y < - (b * k * S) -> t x < t y).
  Proof.
    intros Hxy.
    destruct (MVT_cor2 t (fun u => (- (b * k) - c * u / S) / (q u * sqrt (q u))) x y Hxy) as [z [E Hz]].
    { intros u _. apply is_derive_Reals. apply t_derive. }
    assert (Q := q_pos z). assert (SQ := sqrt_lt_R0 _ Q).
    assert (D : 0 < q z * sqrt (q z)) by (now apply Rmult_lt_0_compat).
    assert (W : exists l, 0 < l < 1 /\ z = (1 - l) * x + l * y).
    { exists ((z - x) / (y - x)). split; [|field; lra]. split.
      - apply Rdiv_lt_0_compat; lra.
      - apply (Rmult_lt_reg_r (y - x)); [lra|]. unfold Rdiv. rewrite Rmult_assoc, Rinv_l by lra. lra. }
    destruct W as [l [Hl Ez]].
    assert (EN : - (b * k) - c * z / S = (- (b * k * S) - c * z) / S) by (field; lra).
    split; intros H1 H2.
    - assert (N : - (b * k * S) - c * z < 0).
      { rewrite Ez. assert (0 < (1 - l) * (c * x + b * k * S)) by (apply Rmult_lt_0_compat; lra).
        assert (0 < l * (c * y + b * k * S)) by (apply Rmult_lt_0_compat; lra). lra. }
      assert (F : (- (b * k) - c * z / S) / (q z * sqrt (q z)) < 0).
      { rewrite EN. unfold Rdiv. assert (0 < (c * z + b * k * S) * / S * / (q z * sqrt (q z))).
        { repeat apply Rmult_lt_0_compat; try apply Rinv_0_lt_compat; lra. }
        lra. }
      assert (0 < - ((- (b * k) - c * z / S) / (q z * sqrt (q z))) * (y - x)) by (apply Rmult_lt_0_compat; lra). lra.
    - assert (N : 0 < - (b * k * S) - c * z).
      { rewrite Ez. assert (0 < (1 - l) * (- (c * x) - b * k * S)) by (apply Rmult_lt_0_compat; lra).
        assert (0 < l * (- (c * y) - b * k * S)) by (apply Rmult_lt_0_compat; lra). lra. }
      assert (F : 0 < (- (b * k) - c * z / S) / (q z * sqrt (q z))).
      { rewrite EN. apply Rdiv_lt_0_compat; [|assumption]. apply Rdiv_lt_0_compat; lra. }
      assert (0 < (- (b * k) - c * z / S) / (q z * sqrt (q z)) * (y - x)) by (apply Rmult_lt_0_compat; lra). lra.
  Qed.
End Slope.
(** Where the Gaussian POD increases and where it decreases: with u = x - mean size, c = threshold - line at the mean
    size, the sign of c u + slope (1 + 1/n) Sxx decides (the set of increase is a half line). *)
Theorem C14_monotonicity :
  forall ccdf d stderr a b detection x y, strict_ccdf ccdf -> distinct_sizes d -> 0 < stderr -> x < y ->
    let c := detection - (a + b * Rmean d) in
    let lim := - (b * (1 + 1 / INR (length d)) * devsq d) in
    (lim < c * (x - Rmean d) -> lim < c * (y - Rmean d) ->
       gauss_pod ccdf d stderr a b detection x < gauss_pod ccdf d stderr a b detection y) /\
    (c * (x - Rmean d) < lim -> c * (y - Rmean d) < lim ->
       gauss_pod ccdf d stderr a b detection y < gauss_pod ccdf d stderr a b detection x).
Proof.
  intros ccdf d stderr a b detection x y HC Hd Hs Hxy c lim. destruct HC as [_ [M _]].
  assert (P := num_pos d (distinct_nil d Hd)). unfold num in P. assert (S := devsq_pos d Hd).
  set (k := 1 + 1 / INR (length d)) in *.
  assert (Hk : 0 < k) by (unfold k; assert (0 < 1 / INR (length d)) by (apply Rdiv_lt_0_compat; lra); lra).
  assert (E : forall x, gauss_pod ccdf d stderr a b detection x =
     ccdf ((c - b * (x - Rmean d)) / sqrt (k + (x - Rmean d) * (x - Rmean d) / devsq d) / stderr)).
  { intros z. rewrite C14_prediction_law by assumption. unfold normal_tail. f_equal.
    replace (z - Rmean d) with (z - Rmean d) by ring. unfold k.
    replace ((z - Rmean d) ^ 2) with ((z - Rmean d) * (z - Rmean d)) by ring.
    replace (stderr ^ 2) with (stderr * stderr) by ring.
    rewrite sqrt_mult; [|apply Rle_0_sqr|].
    - rewrite sqrt_square by lra. unfold c.
      assert (Q : 0 < 1 + 1 / INR (length d) + (z - Rmean d) * (z - Rmean d) / devsq d) by (apply (q_pos k (devsq d) Hk S)).
      assert (SQ := sqrt_lt_R0 _ Q). field. split; lra.
    - left. apply (q_pos k (devsq d) Hk S). }
  rewrite !E. destruct (t_monotone c b k (devsq d) Hk S (x - Rmean d) (y - Rmean d) ltac:(lra)) as [T1 T2].
  assert (I := Rinv_0_lt_compat _ Hs). split; intros H1 H2.
  - apply M. apply Rmult_lt_compat_r; [assumption|]. now apply T1.
  - apply M. apply Rmult_lt_compat_r; [assumption|]. now apply T2.
Qed.
Print Assumptions C14_monotonicity.
Lemma logistic_strict : strict_ccdf logistic_ccdf.
Proof.
  destruct logistic_symmetric as [[R1 [_ S]] _]. split; [exact R1|]. split; [|exact S].
  intros s t H. unfold logistic_ccdf. assert (E := exp_pos s). assert (G := exp_increasing s t H).
  apply Rinv_lt_contravar; [apply Rmult_lt_0_compat; lra|lra].
Qed.
Lemma sizes_101 : distinct_sizes [-1; 0; 1] /\ Rmean [-1; 0; 1] = 0 /\ devsq [-1; 0; 1] = 2.
Proof.
  split; [exists (-1), 0; cbn; split; [auto|]; split; [auto|lra]|].
  assert (M : Rmean [-1; 0; 1] = 0) by (unfold Rmean; cbn; field).
  split; [exact M|]. unfold devsq. rewrite M. cbn. ring.
Qed.
(** Finding: with a positive slope the Gaussian POD is not monotone; it decreases for large sizes. *)
Theorem C14_monotone_in_size_refuted :
  exists ccdf d stderr a b detection x y, strict_ccdf ccdf /\ distinct_sizes d /\ 0 < stderr /\ 0 < b /\ x < y /\
    gauss_pod ccdf d stderr a b detection y < gauss_pod ccdf d stderr a b detection x.
Proof.
  exists logistic_ccdf, [-1; 0; 1], 1, 1, 1, 0, 3, 10. destruct sizes_101 as [D [M S]].
  split; [apply logistic_strict|]. split; [exact D|]. split; [lra|]. split; [lra|]. split; [lra|].
  apply (C14_monotonicity logistic_ccdf [-1; 0; 1] 1 1 1 0 3 10 logistic_strict D ltac:(lra) ltac:(lra));
    rewrite M, S; cbn; lra.
Qed.
Print Assumptions C14_monotone_in_size_refuted.
(** One simulated curve of the confidence computation: monotone in the size with the sign of its simulated slope. *)
Theorem C14_simulated_curve :
  forall ccdf a b detection z0 z1 sigma x y, strict_ccdf ccdf -> 0 < sigma -> x < y ->
    0 <= gauss_simulated_pod ccdf a b detection z0 z1 sigma x <= 1 /\
    (0 < b + z1 * sigma -> gauss_simulated_pod ccdf a b detection z0 z1 sigma x < gauss_simulated_pod ccdf a b detection z0 z1 sigma y) /\
    (b + z1 * sigma < 0 -> gauss_simulated_pod ccdf a b detection z0 z1 sigma y < gauss_simulated_pod ccdf a b detection z0 z1 sigma x).
Proof.
  intros ccdf a b detection z0 z1 sigma x y [R1 [M _]] Hs Hxy. unfold gauss_simulated_pod, linear.
  assert (I := Rinv_0_lt_compat _ Hs). split; [apply R1|]. split; intros H; apply M; apply Rmult_lt_compat_r; try assumption.
  - assert (0 < (b + z1 * sigma) * (y - x)) by (apply Rmult_lt_0_compat; lra). lra.
  - assert (0 < - (b + z1 * sigma) * (y - x)) by (apply Rmult_lt_0_compat; lra). lra.
Qed.
Print Assumptions C14_simulated_curve.
Example C14_example : strict_ccdf logistic_ccdf /\ distinct_sizes [-1; 0; 1] /\ 0 < 1 /\ -1 < 0.
Proof. split; [apply logistic_strict|]. split; [apply sizes_101|lra]. Qed.

(** *** C17 *)
(** Points tried: the given start, then the draws. *)
Definition tried {P} (start : P) (draws : nat -> P) (i : nat) : P := match i with O => start | S j => draws j end.
Lemma start_loop_spec {P} (inf : P -> bool) draws fuel : forall i (cur : P), (fuel + i = 100)%nat ->
  exists j, start_loop inf draws fuel i cur = Some (j, match (j - i)%nat with O => cur | S _ => draws (j - 1)%nat end) /\
    (i <= j <= 100)%nat /\
    (forall m, (i <= m < j)%nat -> inf (match (m - i)%nat with O => cur | S _ => draws (m - 1)%nat end) = true) /\
    (j = 100%nat \/ inf (match (j - i)%nat with O => cur | S _ => draws (j - 1)%nat end) = false).
Proof.
  induction fuel as [|f IH]; intros i cur Hi.
  - assert (i = 100)%nat by lia. subst i. exists 100%nat. rewrite Nat.sub_diag.
    split; [unfold start_loop; rewrite Nat.ltb_irrefl, andb_false_r; reflexivity|].
    split; [lia|]. split; [intros m Hm; lia|now left].
  - cbn [start_loop]. destruct (inf cur) eqn:E; cbn [andb].
    + assert (L : (i < 100)%nat) by lia. rewrite (proj2 (Nat.ltb_lt i 100) L).
      destruct (IH (S i) (draws i) ltac:(lia)) as [j [EJ [HJ [HI HF]]]].
      exists j. assert (K : forall m, (S i <= m)%nat -> match (m - i)%nat with O => cur | S _ => draws (m - 1)%nat end
                    = match (m - S i)%nat with O => draws i | S _ => draws (m - 1)%nat end).
      { intros m Hm. destruct (m - i)%nat eqn:E1; [lia|]. destruct (m - S i)%nat eqn:E2; [|reflexivity]. f_equal. lia. }
      rewrite K by lia. split; [exact EJ|]. split; [lia|]. split.
      * intros m Hm. destruct (Nat.eq_dec m i) as [->|Hne]; [now rewrite Nat.sub_diag|].
        rewrite K by lia. apply HI. lia.
      * exact HF.
    + exists i. rewrite Nat.sub_diag. split; [reflexivity|]. split; [lia|]. split; [intros m Hm; lia|now right].
Qed.
(** Exact outcome of the search, for every likelihood and every stream of draws. *)
Theorem C17_start_search :
  forall (P : Type) (inf : P -> bool) (draws : nat -> P) (start : P),
    (exists p n, find_start inf draws start = Some (Ok (p, n)) /\ p = tried start draws n /\ inf p = false /\
        (n < 100)%nat /\ forall m, (m < n)%nat -> inf (tried start draws m) = true) \/
    (find_start inf draws start = Some (Raise GenericException) /\ forall m, (m < 100)%nat -> inf (tried start draws m) = true).
Proof.
  intros P inf draws start. unfold find_start. destruct (inf start) eqn:E.
  - destruct (start_loop_spec inf draws 100 0 start eq_refl) as [j [EJ [HJ [HI HF]]]].
    rewrite EJ. assert (K : forall m, match (m - 0)%nat with O => start | S _ => draws (m - 1)%nat end = tried start draws m).
    { intros m. rewrite Nat.sub_0_r. destruct m; cbn; [reflexivity|]. now rewrite Nat.sub_0_r. }
    rewrite K in HF. rewrite K. destruct (Nat.eqb_spec j 100) as [->|Hne].
    + right. split; [reflexivity|]. intros m Hm. rewrite <- K. apply HI. lia.
    + left. exists (tried start draws j), j. split; [reflexivity|]. split; [reflexivity|].
      split; [destruct HF as [HF|HF]; [contradiction|assumption]|]. split; [lia|].
      intros m Hm. rewrite <- K. apply HI. lia.
  - left. exists start, O. split; [reflexivity|]. split; [reflexivity|]. split; [assumption|]. split; [lia|]. intros m Hm. lia.
Qed.
Print Assumptions C17_start_search.
Theorem C17_raises_iff :
  forall (P : Type) (inf : P -> bool) (draws : nat -> P) (start : P),
    find_start inf draws start = Some (Raise GenericException) <-> (forall m, (m < 100)%nat -> inf (tried start draws m) = true).
Proof.
  intros P inf draws start. split.
  - intros H. destruct (C17_start_search P inf draws start) as [[p [n [E _]]]|[_ G]]; [congruence|exact G].
  - intros H. destruct (C17_start_search P inf draws start) as [[p [n [E [Ep [Hp [Hn _]]]]]]|[G _]]; [|exact G].
    rewrite Ep, (H n Hn) in Hp. discriminate.
Qed.
Print Assumptions C17_raises_iff.
(** Finding: the hundredth draw is made and its likelihood computed, but a good one is not used. *)
Theorem C17_hundredth_draw_refuted :
  exists (inf : nat -> bool) (draws : nat -> nat) (start : nat),
    inf (draws 99%nat) = false /\ find_start inf draws start = Some (Raise GenericException) /\
    start_loop inf draws 100 0 start = Some (100%nat, draws 99%nat).
Proof.
  exists (fun p => negb (Nat.eqb p 100)), S, O. split; [reflexivity|]. split; vm_compute; reflexivity.
Qed.
Print Assumptions C17_hundredth_draw_refuted.
Example C17_example : find_start (fun p => Nat.ltb p 3) S 0%nat = Some (Ok (3%nat, 3%nat)).
Proof. vm_compute. reflexivity. Qed.

(** *** C18 *)
(** Specification: the likelihood as a product of densities and probabilities. *)
Definition normal_density (s e : R) : R := exp (- (e * e) / (2 * (s * s))) / (s * sqrt (2 * PI)).
Definition Rprod (l : list R) : R := fold_right Rmult 1 l.
Definition likelihood (cdf : R -> R) (b0 b1 s : R) (d : data) (xnoise xsat : list R) (tn ts : R) : R :=
  Rprod (map (fun p => normal_density s (snd p - (b0 + b1 * fst p))) d)
  * Rprod (map (fun x => cdf ((tn - (b0 + b1 * x)) / s)) xnoise)
  * Rprod (map (fun x => 1 - cdf ((ts - (b0 + b1 * x)) / s)) xsat).
Lemma Rprod_cons x l : Rprod (x :: l) = x * Rprod l.
Proof. reflexivity. Qed.
Lemma Rprod_exp l : (forall x, In x l -> 0 < x) -> Rprod l = exp (Rsum (map ln l)).
Proof.
  induction l as [|x l IH]; intros H; [cbn; now rewrite exp_0|].
  cbn [map]. rewrite Rsum_cons, exp_plus, exp_ln by (apply H; now left). 
  rewrite Rprod_cons, IH by (intros; apply H; now right). reflexivity.
Qed.
Lemma Rprod_app l1 l2 : Rprod (l1 ++ l2) = Rprod l1 * Rprod l2.
Proof.
  induction l1 as [|x l IH]; [unfold Rprod; cbn; ring|]. cbn [app]. rewrite !Rprod_cons, IH. ring.
Qed.
Lemma Rprod_pos l : (forall x, In x l -> 0 < x) -> 0 < Rprod l.
Proof. intros H. rewrite Rprod_exp by assumption. apply exp_pos. Qed.
Lemma Rprod_zero l : In 0 l -> Rprod l = 0.
Proof.
  induction l as [|x l IH]; [intros []|]. rewrite Rprod_cons.
  intros [->|H]; [ring|]. rewrite IH by assumption. ring.
Qed.
Lemma sqrt2pi_pos : 0 < sqrt (2 * PI).
Proof. apply sqrt_lt_R0. assert (G := PI_RGT_0). lra. Qed.
Lemma normal_density_pos s e : 0 < s -> 0 < normal_density s e.
Proof.
  intros H. unfold normal_density. assert (G := sqrt2pi_pos). apply Rdiv_lt_0_compat; [apply exp_pos|].
  now apply Rmult_lt_0_compat.
Qed.
Lemma density_product s l : 0 < s ->
  Rprod (map (normal_density s) l) = exp (- (num l * ln (s * sqrt (2 * PI)) + 1 / (2 * (s * s)) * ssq l)).
Proof.
  intros Hs. assert (G := sqrt2pi_pos). assert (Q : 0 < s * sqrt (2 * PI)) by (now apply Rmult_lt_0_compat).
  induction l as [|e l IH].
  - unfold num, ssq. cbn. rewrite <- exp_0 at 1. f_equal. ring.
  - cbn [map]. rewrite Rprod_cons, IH, num_cons, ssq_cons. unfold normal_density.
    replace (- ((1 + num l) * ln (s * sqrt (2 * PI)) + 1 / (2 * (s * s)) * (e * e + ssq l)))
      with (- (e * e) / (2 * (s * s)) + (- ln (s * sqrt (2 * PI)) + - (num l * ln (s * sqrt (2 * PI)) + 1 / (2 * (s * s)) * ssq l)))
      by (field; lra).
    rewrite !exp_plus, (exp_Ropp (ln _)), exp_ln by assumption. unfold Rdiv. ring.
Qed.
(** The minimised value is minus the logarithm of the likelihood; infinite exactly when s <= 0 or the likelihood is 0. *)
Theorem C18_minus_log_likelihood :
  forall cdf b0 b1 s d xnoise xsat tn ts, (forall t, 0 <= cdf t <= 1) ->
    (s <= 0 -> MLE cdf (b0, b1, s) d xnoise xsat (Some tn) (Some ts) = Ok None) /\
    (0 < s -> likelihood cdf b0 b1 s d xnoise xsat tn ts = 0 -> MLE cdf (b0, b1, s) d xnoise xsat (Some tn) (Some ts) = Ok None) /\
    (0 < s -> likelihood cdf b0 b1 s d xnoise xsat tn ts <> 0 ->
       0 < likelihood cdf b0 b1 s d xnoise xsat tn ts /\
       MLE cdf (b0, b1, s) d xnoise xsat (Some tn) (Some ts) = Ok (Some (- ln (likelihood cdf b0 b1 s d xnoise xsat tn ts)))).
Proof.
  intros cdf b0 b1 s d xnoise xsat tn ts HC. unfold MLE. cbn [bind censored_arg].
  set (cn := map (fun x => cdf ((tn - linear b0 b1 x) / s)) xnoise).
  set (cs := map (fun x => 1 - cdf ((ts - linear b0 b1 x) / s)) xsat).
  split; [intros H; now rewrite (proj2 (Rleb_true s 0) H)|].
  assert (EL : 0 < s -> likelihood cdf b0 b1 s d xnoise xsat tn ts =
     exp (- (num d * ln (s * sqrt (2 * PI)) + 1 / (2 * (s * s)) * ssq (residuals b0 b1 d))) * Rprod (cn ++ cs)).
  { intros Hs. unfold likelihood. fold cn cs. rewrite Rprod_app, Rmult_assoc. f_equal.
    replace (map (fun p : R * R => normal_density s (snd p - (b0 + b1 * fst p))) d) with (map (normal_density s) (residuals b0 b1 d)).
    - rewrite density_product by assumption. unfold num. now rewrite residuals_length.
    - unfold residuals. rewrite map_map. reflexivity. }
  assert (N : forall c, In c (cn ++ cs) -> 0 <= c).
  { intros c Hc. apply in_app_or in Hc. destruct Hc as [Hc|Hc]; apply in_map_iff in Hc; destruct Hc as [x [<- _]].
    - apply HC.
    - assert (G := HC ((ts - linear b0 b1 x) / s)). lra. }
  assert (B : forallb (fun c => Rltb 0 c) (cn ++ cs) = true <-> ~ In 0 (cn ++ cs)).
  { rewrite forallb_forall. split.
    - intros H H0. specialize (H 0 H0). apply Rltb_true in H. lra.
    - intros H c Hc. apply Rltb_true. assert (G := N c Hc). destruct (Req_dec c 0) as [->|]; [contradiction|lra]. }
  split; intros Hs HL; rewrite (proj2 (Rleb_false s 0) Hs).
  - rewrite EL in HL by assumption. assert (E := exp_pos (- (num d * ln (s * sqrt (2 * PI)) + 1 / (2 * (s * s)) * ssq (residuals b0 b1 d)))).
    destruct (forallb (fun c => Rltb 0 c) (cn ++ cs)) eqn:F; [|reflexivity]. exfalso.
    rewrite forallb_forall in F. assert (K : 0 < Rprod (cn ++ cs)).
    { apply Rprod_pos. intros c Hc. apply Rltb_true. now apply F. }
    assert (G := Rmult_lt_0_compat _ _ E K). lra.
  - assert (F : forallb (fun c => Rltb 0 c) (cn ++ cs) = true).
    { apply B. intros H0. apply HL. rewrite EL by assumption. rewrite (Rprod_zero _ H0). ring. }
    rewrite F. rewrite EL by assumption. rewrite forallb_forall in F.
    assert (Pc : forall c, In c (cn ++ cs) -> 0 < c) by (intros c Hc; apply Rltb_true; now apply F).
    rewrite (Rprod_exp _ Pc), <- exp_plus. split; [apply exp_pos|]. rewrite ln_exp, map_app, Rsum_app. do 2 f_equal. ring.
Qed.
Print Assumptions C18_minus_log_likelihood.
(** A missing threshold is harmless when nothing is censored on its side, and a TypeError otherwise. *)
Theorem C18_missing_threshold :
  forall cdf par d xnoise xsat noise sat,
    (MLE cdf par d xnoise xsat noise sat = Raise TypeError <->
       (noise = None /\ xnoise <> []) \/ (sat = None /\ xsat <> [])) /\
    (forall t, MLE cdf par d [] xsat None sat = MLE cdf par d [] xsat (Some t) sat) /\
    (forall t, MLE cdf par d xnoise [] noise None = MLE cdf par d xnoise [] noise (Some t)).
Proof.
  intros cdf [[b0 b1] s] d xnoise xsat noise sat. split; [|split].
  - unfold MLE. destruct noise as [tn|].
    + cbn [censored_arg bind]. destruct sat as [ts|].
      * cbn [censored_arg bind]. destruct (Rleb s 0); [|destruct (forallb _ _)]; (split; [discriminate|]); intros [[E _]|[E _]]; discriminate.
      * destruct xsat as [|x xsat]; cbn [censored_arg bind].
        -- destruct (Rleb s 0); [|destruct (forallb _ _)]; (split; [discriminate|]); intros [[E _]|[_ E]]; [discriminate|congruence|discriminate|congruence|discriminate|congruence].
        -- split; [|reflexivity]. intros _. right. split; [reflexivity|discriminate].
    + destruct xnoise as [|x xnoise]; cbn [censored_arg bind].
      * destruct sat as [ts|].
        -- cbn [censored_arg bind]. destruct (Rleb s 0); [|destruct (forallb _ _)]; (split; [discriminate|]); intros [[_ E]|[E _]]; congruence.
        -- destruct xsat as [|y xsat]; cbn [censored_arg bind].
           ++ destruct (Rleb s 0); [|destruct (forallb _ _)]; (split; [discriminate|]); intros [[_ E]|[_ E]]; congruence.
           ++ split; [|reflexivity]. intros _. right. split; [reflexivity|discriminate].
      * split; [|reflexivity]. intros _. left. split; [reflexivity|discriminate].
  - intros t. unfold MLE. cbn [censored_arg bind map app]. reflexivity.
  - intros t. unfold MLE. cbn [censored_arg bind map app]. reflexivity.
Qed.
Print Assumptions C18_missing_threshold.
Lemma forallb_perm {A} (f : A -> bool) l1 l2 : Permutation l1 l2 -> forallb f l1 = forallb f l2.
Proof. induction 1; cbn; try congruence. destruct (f x), (f y); reflexivity. Qed.
Theorem C18_order_irrelevant :
  forall cdf par d d' xn xn' xs xs' noise sat, Permutation d d' -> Permutation xn xn' -> Permutation xs xs' ->
    MLE cdf par d xn xs noise sat = MLE cdf par d' xn' xs' noise sat.
Proof.
  intros cdf [[b0 b1] s] d d' xn xn' xs xs' noise sat Hd Hn Hs. unfold MLE.
  assert (A : forall t l l', Permutation l l' -> censored_arg t l = censored_arg t l').
  { intros t l l' H. destruct t as [t|]; [reflexivity|]. destruct l as [|x l].
    - apply Permutation_nil in H. now subst.
    - destruct l' as [|y l']; [symmetry in H; apply Permutation_nil in H; discriminate|reflexivity]. }
  rewrite (A _ _ _ Hn), (A _ _ _ Hs). destruct (censored_arg noise xn') as [tn|]; [|reflexivity]. cbn [bind].
  destruct (censored_arg sat xs') as [ts|]; [|reflexivity]. cbn [bind]. destruct (Rleb s 0); [reflexivity|].
  rewrite (forallb_perm _ _ _ (Permutation_app (Permutation_map _ Hn) (Permutation_map _ Hs))).
  destruct (forallb _ _); [|reflexivity]. do 2 f_equal.
  unfold ssq, residuals. rewrite (Rsum_perm _ _ (Permutation_map _ (Permutation_map _ Hn))).
  rewrite (Rsum_perm _ _ (Permutation_map ln (Permutation_map (fun x => 1 - cdf ((ts - linear b0 b1 x) / s)) Hs))).
  rewrite (Rsum_perm _ _ (Permutation_map (fun r => r * r) (Permutation_map (fun p => snd p - linear b0 b1 (fst p)) Hd))).
  unfold num. now rewrite (Permutation_length Hd).
Qed.
Print Assumptions C18_order_irrelevant.
Lemma ln_le_minus1 x : 0 < x -> ln x <= x - 1 /\ (ln x = x - 1 -> x = 1).
Proof.
  intros H. split.
  - assert (G := exp_ineq1_le (ln x)). rewrite exp_ln in G by assumption. lra.
  - intros E. destruct (Req_dec (ln x) 0) as [Z|Z]; [lra|]. assert (G := exp_ineq1 (ln x) Z). rewrite exp_ln in G by assumption. lra.
Qed.
(** Without censored observation the unique minimum is the least squares line with the deviation of denominator n. *)
Theorem C18_uncensored_minimum :
  forall cdf d a b sig, (exists p q, In p d /\ In q d /\ fst p <> fst q) -> ols d = (a, b) ->
    0 < sig -> sig * sig * INR (length d) = Rsum (map (fun r => r ^ 2) (residuals a b d)) ->
    exists v, MLE cdf (a, b, sig) d [] [] None None = Ok (Some v) /\
      forall b0 b1 s w, MLE cdf (b0, b1, s) d [] [] None None = Ok (Some w) ->
        v <= w /\ (w = v -> b0 = a /\ b1 = b /\ s = sig).
Proof.
  intros cdf d a b sig Hc H Hsig Evar. change (INR (length d)) with (num d) in Evar.
  assert (P := num_pos d (non_constant_nil d Hc)).
  assert (G2 := sqrt2pi_pos).
  assert (EV : ssq (residuals a b d) = sig * sig * num d).
  { rewrite Evar. unfold ssq. apply Rsum_ext. intros; ring. }
  assert (EM : forall b0 b1 s, 0 < s -> MLE cdf (b0, b1, s) d [] [] None None =
     Ok (Some (num d * ln (s * sqrt (2 * PI)) + 1 / (2 * (s * s)) * ssq (residuals b0 b1 d)))).
  { intros b0 b1 s Hs. unfold MLE. cbn [censored_arg bind map app forallb]. rewrite (proj2 (Rleb_false s 0) Hs).
    rewrite Rsum_nil. do 2 f_equal. ring. }
  rewrite (EM a b sig Hsig). eexists. split; [reflexivity|]. intros b0 b1 s w Hw.
  assert (Hs : 0 < s).
  { destruct (Rle_dec s 0) as [L|L]; [|lra]. unfold MLE in Hw. cbn [censored_arg bind map app forallb] in Hw.
    rewrite (proj2 (Rleb_true s 0) L) in Hw. discriminate. }
  rewrite (EM b0 b1 s Hs) in Hw. injection Hw as <-.
  rewrite EV, (ols_decomposition d a b b0 b1 Hc H), EV.
  set (u := b0 - a + (b1 - b) * xbar d). set (S := Sxx d). assert (SP : 0 < S) by (apply Sxx_pos; exact Hc).
  set (e := num d * u * u + (b1 - b) * (b1 - b) * S).
  assert (E1 : 0 <= num d * u * u) by (rewrite Rmult_assoc; apply Rmult_le_pos; [lra|apply Rle_0_sqr]).
  assert (E2 : 0 <= (b1 - b) * (b1 - b) * S) by (apply Rmult_le_pos; [apply Rle_0_sqr|lra]).
  set (t := sig / s). assert (T : 0 < t) by (apply Rdiv_lt_0_compat; assumption).
  assert (LN : ln (s * sqrt (2 * PI)) = ln (sig * sqrt (2 * PI)) - ln t).
  { unfold t. rewrite !ln_mult, ln_div by assumption. ring. }
  assert (Q : 1 / (2 * (s * s)) * (sig * sig * num d + num d * u * u + (b1 - b) * (b1 - b) * S)
              = num d / 2 * (t * t) + e / (2 * (s * s))).
  { unfold t, e. field. lra. }
  rewrite LN, Q.
  assert (Q' : 1 / (2 * (sig * sig)) * (sig * sig * num d) = num d / 2) by (field; lra). rewrite Q'.
  assert (L2 : ln (t * t) = 2 * ln t) by (rewrite ln_mult by assumption; ring).
  assert (TT : 0 < t * t) by (now apply Rmult_lt_0_compat).
  destruct (ln_le_minus1 (t * t) TT) as [I1 I2]. rewrite L2 in I1, I2.
  assert (EE : 0 <= e / (2 * (s * s))).
  { apply Rmult_le_pos; [unfold e; lra|]. left. apply Rinv_0_lt_compat. assert (0 < s * s) by (now apply Rmult_lt_0_compat). lra. }
  assert (I3 : 0 <= num d / 2 * (t * t - 1 - 2 * ln t)) by (apply Rmult_le_pos; lra).
  split; [lra|]. intros HE.
  assert (Z1 : num d / 2 * (t * t - 1 - 2 * ln t) = 0) by lra. assert (Z2 : e / (2 * (s * s)) = 0) by lra.
  assert (Z3 : e = 0).
  { unfold Rdiv in Z2. apply Rmult_integral in Z2. destruct Z2 as [Z2|Z2]; [assumption|]. exfalso. revert Z2.
    apply Rinv_neq_0_compat. assert (0 < s * s) by (now apply Rmult_lt_0_compat). lra. }
  assert (V : b1 - b = 0).
  { assert (Z : (b1 - b) * (b1 - b) * S = 0) by (unfold e in Z3; lra). apply Rmult_integral in Z. destruct Z as [Z|Z]; [|lra].
    now apply Rmult_integral in Z; destruct Z. }
  assert (U : u = 0).
  { assert (Z : num d * u * u = 0) by (unfold e in Z3; lra). rewrite Rmult_assoc in Z. apply Rmult_integral in Z.
    destruct Z as [Z|Z]; [lra|]. now apply Rmult_integral in Z; destruct Z. }
  unfold u in U. rewrite V in U.
  assert (T1 : t * t = 1).
  { apply I2. apply Rmult_integral in Z1. destruct Z1 as [Z1|Z1]; lra. }
  assert (T2 : t = 1) by nra.
  split; [lra|]. split; [lra|]. unfold t in T2. apply (Rmult_eq_compat_r s) in T2. unfold Rdiv in T2.
  rewrite Rmult_assoc, Rinv_l in T2 by lra. lra.
Qed.
Print Assumptions C18_uncensored_minimum.
(** So the deviation of the censored fit on uncensored data is not the one of the linear model (denominator n - 2). *)
Theorem C18_deviation_differs :
  forall d a b sig, (exists p q, In p d /\ In q d /\ fst p <> fst q) -> ols d = (a, b) -> (3 <= length d)%nat ->
    0 < sig -> sig * sig * INR (length d) = Rsum (map (fun r => r ^ 2) (residuals a b d)) -> sig < stderr d.
Proof.
  intros d a b sig Hc H Hl Hs E. destruct (C11_stderr d a b Hc Hl H) as [P0 ES]. rewrite <- E in ES.
  assert (N : 0 < num d - 2) by (unfold num; apply le_INR in Hl; change (INR 3) with (1 + 1 + 1) in Hl; lra).
  change (INR (length d)) with (num d) in ES.
  destruct (Rlt_dec sig (stderr d)) as [|L]; [assumption|]. exfalso.
  assert (Q : stderr d * stderr d <= sig * sig) by (apply Rmult_le_compat; lra).
  assert (Q' : 0 < sig * sig) by (now apply Rmult_lt_0_compat).
  assert (0 <= (sig * sig - stderr d * stderr d) * (num d - 2)) by (apply Rmult_le_pos; lra). lra.
Qed.
Print Assumptions C18_deviation_differs.
Example C18_example : exists d a b sig, (exists p q, In p d /\ In q d /\ fst p <> fst q) /\ ols d = (a, b) /\
  0 < sig /\ sig * sig * INR (length d) = Rsum (map (fun r => r ^ 2) (residuals a b d)).
Proof.
  destruct C11_example as [d [a [b [H [Hc [_ [_ [_ R]]]]]]]].
  exists d, a, b, (sqrt (Rsum (map (fun r => r ^ 2) (residuals a b d)) / INR (length d))).
  assert (P := num_pos d (non_constant_nil d Hc)). unfold num in P.
  assert (Q : 0 < Rsum (map (fun r => r ^ 2) (residuals a b d)) / INR (length d)).
  { apply Rdiv_lt_0_compat; [|assumption]. rewrite R. cbn. lra. }
  split; [assumption|]. split; [assumption|]. split; [now apply sqrt_lt_R0|].
  rewrite sqrt_sqrt by lra. field. lra.
Qed.
