(** C50, C51, C52, C53, C55, C67: perturbation law indices. *)
From Verif Require Import RealBase LooModel PliModel.
Local Open Scope R_scope.

(** *** C50 *)
(** The index is defined exactly when both probabilities are not 0; then 1 + |index| is the ratio of the larger probability to the
    smaller one and the sign of the index is that of the difference. *)
Theorem C50_shape :
  forall pf pfd, 0 <= pf -> 0 <= pfd ->
  (pl_index pf pfd = None <-> pf = 0 \/ pfd = 0) /\
  forall i, pl_index pf pfd = Some i ->
  (i = 0 <-> pfd = pf) /\ (i < 0 <-> pfd < pf) /\ (0 < i <-> pf < pfd) /\ (1 + Rabs i) * Rmin pf pfd = Rmax pf pfd.
Proof.
  intros pf pfd H1 H2. unfold pl_index, qdiv. destruct (Rltb_spec pfd pf) as [L|L].
  - destruct (Reqb_spec pfd 0) as [E|E].
    + split; [split; [intros _; now right|reflexivity]|discriminate].
    + split; [split; [discriminate|intros [?|?]; lra]|]. intros i Hi. injection Hi as <-.
      assert (P : 0 < pfd) by lra. assert (N : (pfd - pf) / pfd < 0).
      { apply (Rmult_lt_reg_r pfd); [assumption|]. unfold Rdiv. rewrite Rmult_assoc, Rinv_l by lra. lra. }
      repeat split; try lra. rewrite Rabs_left by assumption. rewrite Rmin_right, Rmax_left by lra. field. lra.
  - destruct (Reqb_spec pf 0) as [E|E].
    + split; [split; [intros _; now left|reflexivity]|discriminate].
    + split; [split; [discriminate|intros [?|?]; lra]|]. intros i Hi. injection Hi as <-.
      assert (P : 0 < pf) by lra.
      assert (Z : (pfd - pf) / pf * pf = pfd - pf) by (field; lra). set (i := (pfd - pf) / pf) in *.
      assert (N : 0 <= i) by nra.
      split; [split; intros; nra|]. split; [split; intros; nra|]. split; [split; intros; nra|].
      rewrite Rabs_right by lra. rewrite Rmin_left, Rmax_right by lra. nra.
Qed.
(** Exchanging the probabilities changes the sign. *)
Theorem C50_antisymmetric :
  forall pf pfd, 0 < pf -> 0 < pfd -> exists i, pl_index pf pfd = Some i /\ pl_index pfd pf = Some (- i).
Proof.
  intros pf pfd H1 H2. unfold pl_index, qdiv.
  destruct (Rltb_spec pfd pf), (Rltb_spec pf pfd), (Reqb_spec pf 0), (Reqb_spec pfd 0); try lra; eexists; (split; [reflexivity|]); f_equal; try (field; lra).
  assert (pf = pfd) by lra. subst. field. lra.
Qed.
(** It increases with the perturbed probability and decreases with the reference one. *)
Theorem C50_increasing :
  forall pf pfd pfd' i i', 0 < pf -> 0 < pfd -> pfd < pfd' -> pl_index pf pfd = Some i -> pl_index pf pfd' = Some i' -> i < i'.
Proof.
  intros pf pfd pfd' i i' H1 H2 H3 Hi Hi'.
  assert (E : forall q j, 0 < q -> pl_index pf q = Some j -> (q < pf -> j = 1 - pf / q) /\ (pf <= q -> j = q / pf - 1)).
  { intros q j Hq. unfold pl_index, qdiv. destruct (Rltb_spec q pf) as [L|L]; [destruct (Reqb_spec q 0) as [Z|Z]|destruct (Reqb_spec pf 0) as [Z|Z]]; try discriminate; intros Hj; injection Hj as <-.
    - split; [intros _; field; lra|lra].
    - split; [lra|intros _; field; lra]. }
  destruct (E pfd i ltac:(lra) Hi) as [A1 A2]. destruct (E pfd' i' ltac:(lra) Hi') as [B1 B2].
  destruct (Rlt_dec pfd pf) as [La|La].
  - rewrite (A1 La). destruct (Rlt_dec pfd' pf) as [Lb|Lb].
    + rewrite (B1 Lb). assert (pf / pfd' < pf / pfd); [|lra]. apply Rmult_lt_compat_l; [assumption|]. apply Rinv_lt_contravar; [nra|assumption].
    + rewrite (B2 ltac:(lra)). assert (1 < pf / pfd).
      { apply (Rmult_lt_reg_r pfd); [assumption|]. unfold Rdiv. rewrite Rmult_assoc, Rinv_l by lra. lra. }
      assert (1 <= pfd' / pf). { apply (Rmult_le_reg_r pf); [assumption|]. unfold Rdiv. rewrite Rmult_assoc, Rinv_l by lra. lra. } lra.
  - rewrite (A2 ltac:(lra)), (B2 ltac:(lra)). assert (pfd / pf < pfd' / pf); [|lra]. apply Rmult_lt_compat_r; [now apply Rinv_0_lt_compat|assumption].
Qed.
Theorem C50_decreasing_in_the_reference :
  forall pf pf' pfd i i', 0 < pf -> 0 < pfd -> pf < pf' -> pl_index pf pfd = Some i -> pl_index pf' pfd = Some i' -> i' < i.
Proof.
  intros pf pf' pfd i i' H1 H2 H3 Hi Hi'.
  destruct (C50_antisymmetric pf pfd H1 H2) as (j & J1 & J2). destruct (C50_antisymmetric pf' pfd ltac:(lra) H2) as (j' & J1' & J2').
  rewrite Hi in J1. rewrite Hi' in J1'. injection J1 as <-. injection J1' as <-.
  assert (X := C50_increasing pfd pf pf' (- i) (- i') H2 H1 H3 J2 J2'). lra.
Qed.
(** Every real number is the index of some pair of probabilities. *)
Theorem C50_unbounded : forall x, exists pf pfd, 0 < pf < 1 /\ 0 < pfd < 1 /\ pl_index pf pfd = Some x.
Proof.
  assert (P : forall x, 0 <= x -> exists pf pfd, 0 < pf < 1 /\ 0 < pfd < 1 /\ pl_index pf pfd = Some x).
  { intros x Hx. set (pf := 1 / (2 * (1 + x))).
    assert (F : pf * (2 * (1 + x)) = 1) by (unfold pf; field; lra). assert (P0 : 0 < pf) by nra. assert (P1 : pf <= 1 / 2) by nra.
    exists pf, (1 / 2). split; [lra|]. split; [lra|]. unfold pl_index, qdiv. destruct (Rltb_spec (1 / 2) pf); [lra|].
    destruct (Reqb_spec pf 0); [lra|]. f_equal. unfold pf. field. lra. }
  intros x. destruct (Rle_lt_dec 0 x) as [H|H]; [now apply P|]. destruct (P (- x) ltac:(lra)) as (p & q & Hp & Hq & E).
  exists q, p. split; [assumption|]. split; [assumption|]. destruct (C50_antisymmetric p q ltac:(lra) ltac:(lra)) as (i & E1 & E2).
  rewrite E in E1. injection E1 as <-. rewrite E2. f_equal. lra.
Qed.
Example C50_example : pl_index (1 / 4) (1 / 2) = Some 1 /\ pl_index (1 / 2) (1 / 4) = Some (-1) /\ pl_index (1 / 2) 0 = None.
Proof.
  unfold pl_index, qdiv. destruct (Rltb_spec (1 / 2) (1 / 4)); [lra|]. destruct (Rltb_spec (1 / 4) (1 / 2)); [|lra].
  destruct (Rltb_spec 0 (1 / 2)); [|lra]. destruct (Reqb_spec (1 / 4) 0); [lra|]. rewrite Reqb_refl. repeat split; f_equal; field.
Qed.

(** *** Failure sample *)
Lemma mask_map_count {A P} (f : A -> bool) (xs : list P) (l : list A) : length xs = length l -> length (mask (map f l) xs) = countb f l.
Proof.
  revert xs. induction l as [|y l IH]; intros [|x xs] H; try discriminate; [reflexivity|]. rewrite countb_cons. cbn in H |- *.
  destruct (f y); cbn; rewrite IH by lia; reflexivity.
Qed.
Definition strict (o : operator) (threshold y : R) : bool :=
  match o with Less | LessOrEqual => Rltb y threshold | Greater | GreaterOrEqual => Rltb threshold y | OtherOperator => false end.
Lemma failureSample_ok {P} o t (xs : list P) outs : o <> OtherOperator -> length xs = length outs ->
  failureSample o t xs outs = Ok (mask (map (strict o t) outs) xs).
Proof.
  intros Ho Hl. unfold failureSample, bool_index. rewrite map_length. destruct o; try congruence; cbn; rewrite ?map_length, Hl, Nat.eqb_refl; reflexivity.
Qed.
Lemma strict_implies o t y : strict o t y = true -> event_holds o t y = true.
Proof. destruct o; cbn; rewrite ?Rltb_true, ?Rleb_true; try lra; congruence. Qed.

(** *** C51 *)
Lemma product_replace_same pdfs m g x : (forall f v, nth_error pdfs m = Some f -> nth_error x m = Some v -> g v = f v) ->
  product_pdf (replace_nth m g pdfs) x = product_pdf pdfs x.
Proof.
  revert pdfs x. induction m as [|m IH]; intros [|f pdfs] [|v x] H; cbn; try reflexivity.
  - now rewrite (H f v eq_refl eq_refl).
  - now rewrite (IH pdfs x H).
Qed.
(** Without any perturbation (the perturbed density of the parameter is its own density at all the failure points) the perturbed
    probability is the reference one, the index is 0 and its estimator has the smallest standard deviation the code knows. *)
Theorem C51_no_perturbation :
  forall o threshold xs outs pdfs marginal perturbed,
  o = Less \/ o = Greater -> length xs = length outs ->
  (forall x, In x xs -> product_pdf pdfs x <> 0) ->
  (forall x f v, In x xs -> nth_error pdfs marginal = Some f -> nth_error x marginal = Some v -> perturbed v = f v) ->
  0 < mc_probability o threshold outs < 1 ->
  pli_run o threshold xs outs pdfs marginal perturbed =
    Ok {| c_pfdelta := mc_probability o threshold outs; c_index := 0; c_sigma := 1 / 10 ^ 30 |}.
Proof.
  intros o t xs outs pdfs m g Ho Hl Hp Hg Hpf. unfold pli_run. rewrite failureSample_ok by (auto; destruct Ho; congruence). cbn [bind].
  set (fail := mask (map (strict o t) outs) xs).
  assert (Hin : forall x, In x fail -> In x xs).
  { unfold fail. clear. revert xs. induction outs as [|y outs IH]; intros [|x xs] z Hz; cbn in *; try contradiction.
    destruct (strict o t y); [destruct Hz as [->|Hz]; [now left|]|]; right; now apply IH. }
  assert (R1 : map (likelihood_ratio pdfs m g) fail = map Some (map (fun _ => 1) fail)).
  { rewrite map_map. apply map_ext_in. intros x Hx. unfold likelihood_ratio, perturbedPDF. rewrite product_replace_same by (intros f v; apply Hg; auto).
    unfold qdiv. destruct (Reqb_spec (product_pdf pdfs x) 0) as [E|E]; [now apply Hp in E; auto|]. f_equal. field. assumption. }
  assert (A : forall l : list R, all_some (map Some l) = Some l) by (induction l as [|x l IH]; cbn; [reflexivity|now rewrite IH]).
  assert (Hlen : length fail = countb (event_holds o t) outs).
  { unfold fail. rewrite mask_map_count by assumption. apply countb_ext. intros y _. destruct Ho as [->| ->]; reflexivity. }
  assert (Hne : Nat.eqb (length fail) 0 = false).
  { rewrite Hlen. apply Nat.eqb_neq. intros Z. revert Hpf. unfold mc_probability. rewrite Z. cbn. unfold Rdiv. rewrite Rmult_0_l. lra. }
  rewrite Hne. unfold pli_one. rewrite R1, A.
  assert (HN : 0 < INR (length outs)).
  { destruct outs as [|y outs]; [|apply INR_pos; cbn; lia]. exfalso. revert Hpf. unfold mc_probability. cbn. unfold Rdiv. rewrite Rmult_0_l. lra. }
  set (N := length outs) in *. set (pf := mc_probability o t outs) in *.
  assert (S1 : Rsum (map (fun _ => 1) fail) = pf * INR N).
  { rewrite Rsum_const, Hlen. unfold pf, mc_probability. fold N. field. lra. }
  assert (S2 : Rsum (map (fun l => l * l) (map (fun _ : list R => 1) fail)) = pf * INR N).
  { rewrite <- S1, map_map. apply Rsum_ext. intros; ring. }
  assert (E1 : pfdelta N (map (fun _ => 1) fail) = pf) by (unfold pfdelta; rewrite S1; field; lra).
  assert (E2 : varPfdelta N (map (fun _ => 1) fail) = pf * (1 - pf)) by (unfold varPfdelta; rewrite E1, S2; field; lra).
  rewrite E1, E2. unfold estimator_var, pl_index, qdiv. destruct (Rltb_spec pf pf); [lra|]. destruct (Reqb_spec pf 0); [lra|].
  cbn [bind]. replace (_ + _) with 0 by (field; lra). unfold sigma_of. rewrite Reqb_refl, orb_true_r. cbn [bind].
  f_equal. f_equal. unfold Rdiv. ring.
Qed.
(** Finding: with LessOrEqual or GreaterOrEqual the points equal to the threshold are counted in the reference probability but not
    in the failure sample; the index is then negative, or the analysis fails, without any perturbation. *)
Theorem C51_non_strict_operator_refuted :
  exists o threshold xs outs pdfs marginal perturbed cell,
  (forall x, In x xs -> product_pdf pdfs x <> 0) /\ nth_error pdfs marginal = Some perturbed /\ length xs = length outs /\
  0 < mc_probability o threshold outs < 1 /\
  pli_run o threshold xs outs pdfs marginal perturbed = Ok cell /\ c_index cell < 0.
Proof.
  set (f := fun _ : R => 1). exists GreaterOrEqual, 5, [[0]; [1]; [2]], [6; 5; 4], [f], O, f.
  assert (PF : mc_probability GreaterOrEqual 5 [6; 5; 4] = 2 / 3).
  { unfold mc_probability, countb. cbn [filter event_holds length]. destruct (Rleb_spec 5 6); [|lra]. destruct (Rleb_spec 5 5); [|lra].
    destruct (Rleb_spec 5 4); [lra|]. cbn. field. }
  unfold pli_run. rewrite failureSample_ok by (try discriminate; reflexivity). cbn [map strict mask bind].
  destruct (Rltb_spec 5 6); [|lra]. destruct (Rltb_spec 5 5); [lra|]. destruct (Rltb_spec 5 4); [lra|]. cbn [mask bind map length Nat.eqb]. rewrite PF.
  unfold likelihood_ratio, perturbedPDF, qdiv. cbn [product_pdf replace_nth]. unfold f. destruct (Reqb_spec (1 * 1) 0); [lra|].
  unfold pli_one. cbn [all_some option_map].
  assert (E1 : pfdelta 3 [1 * 1 / (1 * 1)] = 1 / 3) by (unfold pfdelta; cbn; field).
  assert (E2 : varPfdelta 3 [1 * 1 / (1 * 1)] = 2 / 9) by (unfold varPfdelta; rewrite E1; cbn; field).
  rewrite E1, E2. unfold estimator_var, pl_index, qdiv. destruct (Rltb_spec (1 / 3) (2 / 3)); [|lra]. destruct (Reqb_spec (1 / 3) 0); [lra|].
  match goal with |- context[sigma_of 3 (Some ?v)] => replace v with 6 by field end.
  unfold sigma_of. destruct (Rltb_spec 6 0); [lra|]. destruct (Reqb_spec 6 0); [lra|]. rewrite andb_false_r. cbn [orb bind].
  eexists. split; [intros x [<-|[<-|[<-|[]]]]; cbn; lra|]. split; [reflexivity|]. split; [reflexivity|]. split; [lra|]. split; [reflexivity|].
  cbn. lra.
Qed.
Theorem C51_no_failure_point_left_refuted :
  exists o threshold xs outs pdfs marginal perturbed,
  (forall x, In x xs -> product_pdf pdfs x <> 0) /\ nth_error pdfs marginal = Some perturbed /\ length xs = length outs /\
  0 < mc_probability o threshold outs < 1 /\ pli_run o threshold xs outs pdfs marginal perturbed = Raise ValueError.
Proof.
  set (f := fun _ : R => 1). exists LessOrEqual, 5, [[0]; [1]], [6; 5], [f], O, f.
  assert (PF : mc_probability LessOrEqual 5 [6; 5] = 1 / 2).
  { unfold mc_probability, countb. cbn [filter event_holds length]. destruct (Rleb_spec 6 5); [lra|]. destruct (Rleb_spec 5 5); [|lra].
    cbn. field. }
  split; [intros x [<-|[<-|[]]]; cbn; unfold f; lra|]. split; [reflexivity|]. split; [reflexivity|]. split; [lra|].
  unfold pli_run. rewrite failureSample_ok by (try discriminate; reflexivity). cbn [map strict mask bind].
  destruct (Rltb_spec 6 5); [lra|]. destruct (Rltb_spec 5 5); [lra|]. reflexivity.
Qed.
(** In general the analysis fails, with ValueError, when no evaluation lies strictly beyond the threshold. *)
Theorem C51_no_failure_point :
  forall o threshold xs outs pdfs marginal perturbed,
  o <> OtherOperator -> length xs = length outs ->
  (forall y, In y outs -> match o with Less | LessOrEqual => threshold <= y | _ => y <= threshold end) ->
  pli_run o threshold xs outs pdfs marginal perturbed = Raise ValueError.
Proof.
  intros o t xs outs pdfs m g Ho Hl H. unfold pli_run. rewrite failureSample_ok by assumption. cbn [bind].
  rewrite (mask_map_count (strict o t) xs outs Hl). replace (countb (strict o t) outs) with O; [reflexivity|].
  clear Hl. induction outs as [|y outs IH]; [reflexivity|]. rewrite countb_cons, <- IH by (intros z Hz; apply H; now right).
  assert (Hy := H y (or_introl eq_refl)). destruct o; cbn; try congruence; destruct (Rltb_spec y t), (Rltb_spec t y); try lra; reflexivity.
Qed.

(** *** C52 *)
Lemma cauchy_schwarz l : Rsum l * Rsum l <= INR (length l) * Rsum (map (fun x => x * x) l).
Proof.
  destruct l as [|a l]; [cbn; lra|]. set (L := a :: l). assert (HL : L <> []) by discriminate. assert (P := length_pos L HL).
  set (m := Rsum L / INR (length L)).
  assert (H : 0 <= Rsum (map (fun x => (x - m) * (x - m)) L)) by apply (Rsum_sqr_nonneg (fun x => x - m)).
  rewrite (Rsum_ext _ (fun x => (x * x - (2 * m) * x) + m * m)) in H by (intros; ring).
  rewrite Rsum_plus, Rsum_minus, Rsum_scal, Rsum_const, map_id in H.
  assert (E : m * INR (length L) = Rsum L) by (unfold m; field; lra).
  assert (H2 : 0 <= INR (length L) * (Rsum (map (fun x => x * x) L) - 2 * m * Rsum L + INR (length L) * (m * m))) by (apply Rmult_le_pos; lra).
  replace (INR (length L) * (Rsum (map (fun x => x * x) L) - 2 * m * Rsum L + INR (length L) * (m * m)))
    with (INR (length L) * Rsum (map (fun x => x * x) L) - 2 * (m * INR (length L)) * Rsum L + (m * INR (length L)) * (m * INR (length L))) in H2 by ring.
  rewrite E in H2. lra.
Qed.
Lemma pfdelta_facts N pf l : (0 < N)%nat -> pf <= 1 -> INR (length l) <= INR N * pf ->
  0 <= pf * varPfdelta N l - pfdelta N l * pfdelta N l * (1 - pf) /\ 0 <= varPfdelta N l.
Proof.
  intros HN H1 Hk. assert (P := INR_pos N HN). assert (C := cauchy_schwarz l). set (S1 := Rsum l) in *. set (S2 := Rsum (map (fun x => x * x) l)) in *.
  assert (S2p : 0 <= S2) by apply (Rsum_sqr_nonneg (fun x => x)).
  assert (q : pfdelta N l = S1 / INR N) by (unfold pfdelta; fold S1; field; lra).
  assert (v : varPfdelta N l = S2 / INR N - S1 / INR N * (S1 / INR N)) by (unfold varPfdelta; rewrite q; fold S2; field; lra).
  rewrite v, q.
  assert (C2 : S1 * S1 <= INR N * pf * S2) by (eapply Rle_trans; [exact C|]; now apply Rmult_le_compat_r).
  assert (C3 : S1 / INR N * (S1 / INR N) <= pf * (S2 / INR N)).
  { replace (S1 / INR N * (S1 / INR N)) with (S1 * S1 * (/ INR N * / INR N)) by (field; lra).
    replace (pf * (S2 / INR N)) with (INR N * pf * S2 * (/ INR N * / INR N)) by (field; lra).
    apply Rmult_le_compat_r; [|assumption]. assert (Hi := Rinv_0_lt_compat _ P). nra. }
  assert (0 <= S2 / INR N) by (apply Rmult_le_pos; [assumption|left; now apply Rinv_0_lt_compat]).
  split; nra.
Qed.
(** The variance of the perturbed probability and that of the index estimator are never negative, whatever the likelihood ratios,
    as soon as the failure sample has at most N pf points. *)
Theorem C52_variances_nonnegative :
  forall N pf ratios, (0 < N)%nat -> 0 <= pf <= 1 -> INR (length ratios) <= INR N * pf ->
  0 <= varPfdelta N ratios /\
  forall v, estimator_var pf (pfdelta N ratios) (varPfdelta N ratios) = Some v -> 0 <= v.
Proof.
  intros N pf l HN Hpf Hk. destruct (pfdelta_facts N pf l HN ltac:(lra) Hk) as [F1 F2]. split; [exact F2|].
  set (q := pfdelta N l) in *. set (v := varPfdelta N l) in *.
  assert (Q : forall d0 d1, 0 < pf -> 0 <= d0 * (pf * (1 - pf) * d0 + q * (1 - pf) * d1) + d1 * (q * (1 - pf) * d0 + v * d1)).
  { intros d0 d1 Hp. set (w := _ + _).
    assert (E : pf * w = (1 - pf) * ((pf * d0 + q * d1) * (pf * d0 + q * d1)) + (pf * v - q * q * (1 - pf)) * (d1 * d1)) by (unfold w; ring).
    assert (0 <= (1 - pf) * ((pf * d0 + q * d1) * (pf * d0 + q * d1))) by (apply Rmult_le_pos; [lra|apply Rle_0_sqr]).
    assert (0 <= (pf * v - q * q * (1 - pf)) * (d1 * d1)) by (apply Rmult_le_pos; [lra|apply Rle_0_sqr]).
    assert (0 <= pf * w) by lra. nra. }
  intros u. unfold estimator_var. destruct (Rltb_spec q pf) as [L|L].
  - destruct (Reqb_spec q 0); [discriminate|]. intros Hu. injection Hu as <-. apply Q.
    destruct (Req_dec pf 0) as [Z|]; [|lra]. exfalso. subst pf.
    assert (length l = O) as Hl0. { assert (INR (length l) <= 0) by lra. destruct (length l) as [|k] eqn:Ek; [reflexivity|]. assert (H9 := INR_pos (S k) ltac:(lia)). lra. }
    apply length_zero_iff_nil in Hl0. subst l. unfold q, pfdelta in n. cbn in n. lra.
  - destruct (Reqb_spec pf 0); [discriminate|]. intros Hu. injection Hu as <-. apply Q. lra.
Qed.
Lemma all_some_spec {A} (l : list (option A)) r : all_some l = Some r <-> l = map Some r.
Proof.
  revert r. induction l as [|[x|] l IH]; intros r; cbn.
  - split; [intros [= <-]; reflexivity|]. destruct r; [reflexivity|discriminate].
  - destruct (all_some l) as [r'|] eqn:E; cbn.
    + split; [intros [= <-]; cbn; f_equal; now apply IH|]. destruct r as [|y r]; [discriminate|]. cbn. intros [= -> H]. f_equal. f_equal.
      apply IH in H. congruence.
    + split; [discriminate|]. destruct r as [|y r]; [discriminate|]. cbn. intros [= -> H]. apply IH in H. discriminate.
  - split; [discriminate|]. destruct r; discriminate.
Qed.
(** Whatever the operator, if there is a failure point and the densities are positive there, the analysis succeeds: the perturbed
    probability is positive and the estimator has a positive standard deviation. *)
Theorem C52_interval_exists :
  forall o threshold xs outs pdfs marginal perturbed,
  o <> OtherOperator -> length xs = length outs -> (exists y, In y outs /\ strict o threshold y = true) ->
  (forall x, In x xs -> 0 < product_pdf pdfs x /\ 0 < perturbedPDF pdfs marginal perturbed x) ->
  exists cell, pli_run o threshold xs outs pdfs marginal perturbed = Ok cell /\
    0 < c_pfdelta cell /\ 0 < c_sigma cell /\ pl_index (mc_probability o threshold outs) (c_pfdelta cell) = Some (c_index cell).
Proof.
  intros o t xs outs pdfs m g Ho Hl [y0 [Hy0 Hs0]] Hp. unfold pli_run. rewrite failureSample_ok by assumption. cbn [bind].
  set (fail := mask (map (strict o t) outs) xs).
  assert (Hin : forall x, In x fail -> In x xs).
  { unfold fail. clear. revert xs. induction outs as [|y outs IH]; intros [|x xs] z Hz; cbn in *; try contradiction.
    destruct (strict o t y); [destruct Hz as [->|Hz]; [now left|]|]; right; now apply IH. }
  assert (Hlen : length fail = countb (strict o t) outs) by (unfold fail; now apply mask_map_count).
  assert (Hpos : (0 < length fail)%nat).
  { rewrite Hlen. unfold countb. assert (In y0 (filter (strict o t) outs)) by (apply filter_In; auto). destruct (filter (strict o t) outs); [contradiction|cbn; lia]. }
  assert (Hne : Nat.eqb (length fail) 0 = false) by (apply Nat.eqb_neq; lia). rewrite Hne.
  set (r := fun x => perturbedPDF pdfs m g x / product_pdf pdfs x).
  assert (A : all_some (map (likelihood_ratio pdfs m g) fail) = Some (map r fail)).
  { apply all_some_spec. rewrite map_map. apply map_ext_in. intros x Hx. destruct (Hp x (Hin x Hx)) as [P1 P2]. unfold likelihood_ratio, qdiv.
    destruct (Reqb_spec (product_pdf pdfs x) 0); [lra|reflexivity]. }
  unfold pli_one. rewrite A. set (N := length outs). set (pf := mc_probability o t outs).
  assert (HN : (0 < N)%nat) by (unfold N; destruct outs; [contradiction|cbn; lia]). assert (PN := INR_pos N HN).
  assert (Hc : (countb (strict o t) outs <= countb (event_holds o t) outs)%nat) by (apply countb_mono; intros y _; apply strict_implies).
  assert (Hpf : INR N * pf = INR (countb (event_holds o t) outs)) by (unfold pf, mc_probability; fold N; field; lra).
  assert (Hle := countb_le (event_holds o t) outs). fold N in Hle. apply le_INR in Hle.
  assert (Hc1 : 0 < INR (countb (event_holds o t) outs)) by (apply INR_pos; lia).
  assert (Hpf1 : 0 < pf <= 1) by nra.
  assert (Hk : INR (length (map r fail)) <= INR N * pf) by (rewrite map_length, Hpf, Hlen; now apply le_INR).
  assert (HS : 0 < Rsum (map r fail)).
  { destruct fail as [|x l]; [cbn in Hpos; lia|]. assert (R0 : Rsum (map (fun _ : list R => 0) (x :: l)) = 0) by (rewrite Rsum_const; ring).
    rewrite <- R0. apply Rsum_lt; [discriminate|]. intros z Hz. destruct (Hp z (Hin z Hz)) as [P1 P2]. unfold r. apply Rmult_lt_0_compat; [assumption|now apply Rinv_0_lt_compat]. }
  assert (Hq : 0 < pfdelta N (map r fail)).
  { unfold pfdelta. apply Rmult_lt_0_compat; [|assumption]. unfold Rdiv. rewrite Rmult_1_l. now apply Rinv_0_lt_compat. }
  destruct (C52_variances_nonnegative N pf (map r fail) HN ltac:(lra) Hk) as [_ V].
  set (q := pfdelta N (map r fail)) in *. set (v := varPfdelta N (map r fail)) in *.
  assert (D : exists u, estimator_var pf q v = Some u).
  { unfold estimator_var. destruct (Rltb_spec q pf); [destruct (Reqb_spec q 0); [lra|eauto]|destruct (Reqb_spec pf 0); [lra|eauto]]. }
  destruct D as [u Hu]. assert (U := V u Hu). rewrite Hu.
  assert (Sg : exists s, sigma_of N (Some u) = Ok s /\ 0 < s).
  { unfold sigma_of. destruct (Rltb_spec u 0); [lra|]. rewrite andb_false_r. cbn [orb]. destruct (Reqb_spec u 0) as [Z|Z].
    - eexists. split; [reflexivity|]. apply Rmult_lt_0_compat; [lra|]. apply Rinv_0_lt_compat, pow_lt. lra.
    - eexists. split; [reflexivity|]. apply sqrt_lt_R0. apply Rmult_lt_0_compat; [lra|]. now apply Rinv_0_lt_compat. }
  destruct Sg as (s & Hs & Hsp). rewrite Hs. cbn [bind].
  destruct (C50_shape pf q ltac:(lra) ltac:(lra)) as [S0 _]. destruct (pl_index pf q) as [i|] eqn:Ei; [|destruct (proj1 S0 eq_refl); lra].
  eexists. split; [reflexivity|]. cbn. auto.
Qed.
(** In exact arithmetic the variance is never negative (C52_variances_nonnegative); what the code does with a rounded one: up to 1e-6 below
    zero it counts as zero, lower than that the analysis fails. *)
Theorem C52_rounded_variance :
  forall N v,
  (- (1 / 10 ^ 6) < v <= 0 -> sigma_of N (Some v) = Ok (1 / 10 ^ 30)) /\ (v <= - (1 / 10 ^ 6) -> sigma_of N (Some v) = Raise GenericException) /\
  (0 < v -> (0 < N)%nat -> exists s, sigma_of N (Some v) = Ok s /\ 0 < s /\ s * s * INR N = v).
Proof.
  intros N v. unfold sigma_of. assert (T : 10 ^ 6 = 1000000) by ring. rewrite T. split; [|split].
  - intros [H1 H2]. destruct (Reqb_spec v 0) as [->|Nz]; [now rewrite orb_true_r|]. destruct (Rltb_spec v 0); [|lra].
    rewrite Rabs_left by lra. destruct (Rltb_spec (- v) (1 / 1000000)); [reflexivity|lra].
  - intros H. destruct (Rltb_spec v 0); [|lra]. rewrite Rabs_left by lra. destruct (Rltb_spec (- v) (1 / 1000000)); [lra|].
    cbn [andb orb]. destruct (Reqb_spec v 0); [lra|reflexivity].
  - intros H HN. apply INR_pos in HN. destruct (Rltb_spec v 0); [lra|]. rewrite andb_false_r. cbn [orb]. destruct (Reqb_spec v 0); [lra|].
    assert (P : 0 < v / INR N) by (apply Rmult_lt_0_compat; [assumption|now apply Rinv_0_lt_compat]).
    eexists. split; [reflexivity|]. split; [now apply sqrt_lt_R0|]. rewrite sqrt_sqrt by lra. field. lra.
Qed.
Example C52_rounded_variance_example : - (1 / 10 ^ 6) < - (1 / 10 ^ 7) <= 0 /\ -1 <= - (1 / 10 ^ 6).
Proof. replace (10 ^ 6) with 1000000 by ring. replace (10 ^ 7) with 10000000 by ring. lra. Qed.
(** The interval contains the index and grows with the level (for any non negative, non decreasing half width of the standard
    normal intervals). *)
Theorem C52_interval_nested :
  forall zq cell, (forall a, 0 <= zq a) -> (forall a b, a <= b -> zq a <= zq b) -> 0 < c_sigma cell ->
  forall level level', level <= level' ->
  let '(lo, hi) := confidence_interval zq level cell in
  let '(lo', hi') := confidence_interval zq level' cell in
  lo <= c_index cell <= hi /\ lo' <= lo /\ hi <= hi' /\ hi - c_index cell = c_index cell - lo.
Proof.
  intros zq cell Hz Hm Hs a b Hab. cbn. assert (Z := Hz a). assert (M := Hm a b Hab). repeat split; nra.
Qed.
Example C52_example :
  exists cell, pli_run Greater 5 [[0]; [1]; [2]] [6; 5; 4] [(fun _ => 1)] 0 (fun v => v + 2) = Ok cell /\ c_pfdelta cell = 2 / 3 /\ c_index cell = 1.
Proof.
  assert (PF : mc_probability Greater 5 [6; 5; 4] = 1 / 3).
  { unfold mc_probability, countb. cbn [filter event_holds length]. destruct (Rltb_spec 5 6); [|lra]. destruct (Rltb_spec 5 5); [lra|].
    destruct (Rltb_spec 5 4); [lra|]. cbn. field. }
  unfold pli_run. rewrite failureSample_ok by (try discriminate; reflexivity). cbn [map strict mask bind].
  destruct (Rltb_spec 5 6); [|lra]. destruct (Rltb_spec 5 5); [lra|]. destruct (Rltb_spec 5 4); [lra|]. cbn [mask bind map length Nat.eqb]. rewrite PF.
  unfold likelihood_ratio, perturbedPDF, qdiv. cbn [product_pdf replace_nth]. destruct (Reqb_spec (1 * 1) 0); [lra|].
  unfold pli_one. cbn [all_some option_map].
  assert (E1 : pfdelta 3 [(0 + 2) * 1 / (1 * 1)] = 2 / 3) by (unfold pfdelta; cbn; field).
  assert (E2 : varPfdelta 3 [(0 + 2) * 1 / (1 * 1)] = 8 / 9) by (unfold varPfdelta; rewrite E1; cbn; field).
  rewrite E1, E2. unfold estimator_var, pl_index, qdiv. destruct (Rltb_spec (2 / 3) (1 / 3)); [lra|]. destruct (Reqb_spec (1 / 3) 0); [lra|].
  match goal with |- context[sigma_of 3 (Some ?v)] => replace v with 0 by field end.
  unfold sigma_of. rewrite Reqb_refl, orb_true_r. cbn [bind]. eexists. split; [reflexivity|]. cbn. split; field.
Qed.
Print Assumptions C50_shape.
Print Assumptions C50_antisymmetric.
Print Assumptions C50_increasing.
Print Assumptions C50_decreasing_in_the_reference.
Print Assumptions C50_unbounded.
Print Assumptions C51_no_perturbation.
Print Assumptions C51_non_strict_operator_refuted.
Print Assumptions C51_no_failure_point_left_refuted.
Print Assumptions C51_no_failure_point.
Print Assumptions C52_variances_nonnegative.
Print Assumptions C52_interval_exists.
Print Assumptions C52_rounded_variance.
Print Assumptions C52_interval_nested.
