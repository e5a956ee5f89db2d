(** C09, C26: detection sizes. *)
From Verif Require Import RealBase Solver QuantileModel QuantileProofs InterpModel InterpProofs InterpProps DetectionModel.
Local Open Scope R_scope.

Lemma guard_spec a p b : Rleb a p && Rleb p b = true <-> a <= p <= b.
Proof. rewrite andb_true_iff, !Rleb_true. tauto. Qed.
Lemma guard_product a p b : a <= p <= b -> (a - p) * (b - p) <= 0.
Proof. intros H. assert (0 <= (p - a) * (b - p)) by (apply Rmult_le_pos; lra). lra. Qed.

Lemma Ok_inj {A} (a b : A) : Ok a = Ok b -> a = b.
Proof. congruence. Qed.

(** *** C09 *)
(** Without confidence level. *)
Theorem C09_detection_size :
  forall (solve : solver) (model : R -> R) (p lo hi : R),
    solver_spec solve -> lo <= hi -> cont_on model lo hi ->
    (model lo <= p <= model hi ->
       exists a, computeDetectionSize solve model None p lo hi = Ok [a] /\ lo <= a <= hi /\ model a = p) /\
    (~ model lo <= p <= model hi -> computeDetectionSize solve model None p lo hi = Raise GenericException).
Proof.
  intros solve model p lo hi Hs Hle Hc. unfold computeDetectionSize. split.
  - intros Hb. rewrite (proj2 (guard_spec _ _ _) Hb).
    destruct (proj1 (Hs model p lo hi Hle Hc) (guard_product _ _ _ Hb)) as [a [-> [Ha Hr]]]. cbn [bind]. eauto.
  - intros Hb. destruct (Rleb (model lo) p && Rleb p (model hi)) eqn:E; [|reflexivity].
    apply guard_spec in E. contradiction.
Qed.
Print Assumptions C09_detection_size.
(** With a confidence level. *)
Theorem C09_detection_size_with_confidence :
  forall (solve : solver) (model cl : R -> R) (p lo hi : R),
    solver_spec solve -> lo <= hi -> cont_on model lo hi -> cont_on cl lo hi ->
    (model lo <= p <= model hi /\ cl lo <= p <= cl hi ->
       exists a b, computeDetectionSize solve model (Some cl) p lo hi = Ok [a; b] /\
         lo <= a <= hi /\ model a = p /\ lo <= b <= hi /\ cl b = p) /\
    (~ (model lo <= p <= model hi /\ cl lo <= p <= cl hi) ->
       computeDetectionSize solve model (Some cl) p lo hi = Raise GenericException).
Proof.
  intros solve model cl p lo hi Hs Hle Hc Hcl. unfold computeDetectionSize. split.
  - intros [Hb Hb']. rewrite (proj2 (guard_spec _ _ _) Hb), (proj2 (guard_spec _ _ _) Hb').
    destruct (proj1 (Hs model p lo hi Hle Hc) (guard_product _ _ _ Hb)) as [a [-> [Ha Hr]]].
    destruct (proj1 (Hs cl p lo hi Hle Hcl) (guard_product _ _ _ Hb')) as [b [-> [Hb1 Hr1]]]. cbn [bind].
    exists a, b. auto.
  - intros Hb. destruct (Rleb (model lo) p && Rleb p (model hi)) eqn:E; [|reflexivity].
    apply guard_spec in E.
    destruct (proj1 (Hs model p lo hi Hle Hc) (guard_product _ _ _ E)) as [a [-> _]]. cbn [bind].
    destruct (Rleb (cl lo) p && Rleb p (cl hi)) eqn:E'; [|reflexivity]. apply guard_spec in E'. tauto.
Qed.
Print Assumptions C09_detection_size_with_confidence.
(** The confidence detection size is not smaller. *)
Theorem C09_confidence_size_not_smaller :
  forall (solve : solver) (model cl : R -> R) (p lo hi a b : R),
    solver_spec solve -> lo <= hi -> cont_on model lo hi -> cont_on cl lo hi ->
    (forall x y, lo <= x < y -> y <= hi -> model x < model y) ->
    (forall x, lo <= x <= hi -> cl x <= model x) ->
    computeDetectionSize solve model (Some cl) p lo hi = Ok [a; b] -> a <= b.
Proof.
  intros solve model cl p lo hi a b Hs Hle Hc Hcl Hinc Hord HOk.
  destruct (C09_detection_size_with_confidence solve model cl p lo hi Hs Hle Hc Hcl) as [H1 H2].
  destruct (Rleb (model lo) p && Rleb p (model hi)) eqn:E.
  - destruct (Rleb (cl lo) p && Rleb p (cl hi)) eqn:E'.
    + apply guard_spec in E. apply guard_spec in E'. destruct (H1 (conj E E')) as [a' [b' [HOk' [Ha [Ea [Hb Eb]]]]]].
      rewrite HOk in HOk'. injection HOk' as <- <-.
      destruct (Rle_dec a b) as [|Hn]; [assumption|]. exfalso.
      assert (G := Hinc b a ltac:(lra) ltac:(lra)). assert (G' := Hord b Hb). lra.
    + rewrite H2 in HOk; [discriminate|]. intros [_ G]. apply guard_spec in G. congruence.
  - rewrite H2 in HOk; [discriminate|]. intros [G _]. apply guard_spec in G. congruence.
Qed.
Print Assumptions C09_confidence_size_not_smaller.
(** Higher probability levels give larger sizes on an increasing curve. *)
Theorem C09_monotone_in_level :
  forall (solve : solver) (model : R -> R) (p q lo hi a b : R),
    solver_spec solve -> lo <= hi -> cont_on model lo hi ->
    (forall x y, lo <= x <= y -> y <= hi -> model x <= model y) -> p < q ->
    computeDetectionSize solve model None p lo hi = Ok [a] ->
    computeDetectionSize solve model None q lo hi = Ok [b] -> a < b.
Proof.
  intros solve model p q lo hi a b Hs Hle Hc Hinc Hpq Ha Hb.
  assert (S : forall r c, computeDetectionSize solve model None r lo hi = Ok [c] -> lo <= c <= hi /\ model c = r).
  { intros r c Hr. destruct (C09_detection_size solve model r lo hi Hs Hle Hc) as [H1 H2].
    destruct (Rleb (model lo) r && Rleb r (model hi)) eqn:E.
    - apply guard_spec in E. destruct (H1 E) as [c' [E' HH]]. rewrite Hr in E'. injection E' as <-. exact HH.
    - rewrite H2 in Hr; [discriminate|]. intros G. apply guard_spec in G. congruence. }
  destruct (S _ _ Ha) as [Ra Ea]. destruct (S _ _ Hb) as [Rb Eb].
  destruct (Rlt_dec a b) as [|Hn]; [assumption|]. exfalso.
  assert (G := Hinc b a ltac:(lra) ltac:(lra)). lra.
Qed.
Print Assumptions C09_monotone_in_level.

(** The interpolated curves are continuous (so the theorems above apply to the meta-model classes). *)
Fixpoint lip (nodes : list (R * R)) : R :=
  match nodes with
  | (a, y) :: (((b, z) :: _) as rest) => Rabs ((z - y) / (b - a)) + lip rest
  | _ => 0
  end.
Lemma lip_cons2 a y b z rest : lip ((a, y) :: (b, z) :: rest) = Rabs ((z - y) / (b - a)) + lip ((b, z) :: rest).
Proof. reflexivity. Qed.
Lemma lip_nonneg nodes : 0 <= lip nodes.
Proof.
  induction nodes as [|[a y] nodes IH]; [cbn; lra|]. destruct nodes as [|[b z] rest]; [cbn; lra|].
  rewrite lip_cons2. assert (G := Rabs_pos ((z - y) / (b - a))). lra.
Qed.
Lemma interp_lipschitz nodes : increasing nodes -> forall t1 t2 v1 v2, t1 <= t2 ->
  interp nodes t1 = Ok v1 -> interp nodes t2 = Ok v2 -> Rabs (v2 - v1) <= lip nodes * (t2 - t1).
Proof.
  induction nodes as [|[a y] nodes IH]; intros Hs t1 t2 v1 v2 Ht H1 H2; [discriminate|].
  destruct nodes as [|[b z] rest].
  - cbn in H1, H2. destruct (Rltb t1 a), (Rltb t2 a), (Rltb a t1), (Rltb a t2); try discriminate.
    injection H1 as <-. injection H2 as <-. unfold Rminus at 1. rewrite Rplus_opp_r, Rabs_R0. cbn. lra.
  - assert (Hab := increasing_head _ _ _ Hs). cbn [fst] in Hab. rewrite lip_cons2.
    set (sl := (z - y) / (b - a)) in *. assert (Pl := lip_nonneg ((b, z) :: rest)). assert (Ps := Rabs_pos sl).
    assert (N : interp ((b, z) :: rest) b = Ok z).
    { apply interp_node; [now apply increasing_tail in Hs|now left]. }
    rewrite interp_cons2 in H1, H2.
    destruct (Rltb_spec t1 a); [discriminate|]. destruct (Rltb_spec t2 a); [discriminate|].
    destruct (Rltb_spec t1 b) as [L1|L1], (Rltb_spec t2 b) as [L2|L2]; try lra.
    + injection H1 as <-. injection H2 as <-. fold sl.
      replace (y + sl * (t2 - a) - (y + sl * (t1 - a))) with (sl * (t2 - t1)) by ring.
      rewrite Rabs_mult, (Rabs_right (t2 - t1)) by lra.
      assert (0 <= lip ((b, z) :: rest) * (t2 - t1)) by (apply Rmult_le_pos; lra). lra.
    + injection H1 as <-. fold sl.
      assert (G := IH (increasing_tail _ _ Hs) b t2 z v2 ltac:(lra) N H2).
      replace (v2 - (y + sl * (t1 - a))) with ((v2 - z) + sl * (b - t1))
        by (unfold sl; field; lra).
      eapply Rle_trans; [apply Rabs_triang|]. rewrite Rabs_mult, (Rabs_right (b - t1)) by lra.
      assert (lip ((b, z) :: rest) * (t2 - b) <= lip ((b, z) :: rest) * (t2 - t1)) by (apply Rmult_le_compat_l; lra).
      assert (Rabs sl * (b - t1) <= Rabs sl * (t2 - t1)) by (apply Rmult_le_compat_l; lra). lra.
    + assert (G := IH (increasing_tail _ _ Hs) t1 t2 v1 v2 Ht H1 H2).
      assert (0 <= Rabs sl * (t2 - t1)) by (apply Rmult_le_pos; lra). lra.
Qed.
Theorem C09_interpolated_curves_are_continuous :
  forall xs ys : list R, length xs = length ys -> strictly_increasing xs -> xs <> [] ->
    cont_on (total (interp1d xs ys)) (nth 0 xs 0) (last xs 0).
Proof.
  intros xs ys HL Hs Hn. apply lipschitz_cont_on with (lip (combine xs ys)).
  assert (Hc := combine_increasing xs ys HL Hs).
  assert (Main : forall x y, nth 0 xs 0 <= x <= last xs 0 -> nth 0 xs 0 <= y <= last xs 0 -> x <= y ->
            Rabs (total (interp1d xs ys) y - total (interp1d xs ys) x) <= lip (combine xs ys) * (y - x)).
  { intros x y Hx Hy Hxy. unfold total.
    destruct (proj1 (C28_domain xs ys x HL Hs Hn) Hx) as [v1 E1].
    destruct (proj1 (C28_domain xs ys y HL Hs Hn) Hy) as [v2 E2].
    rewrite E1, E2. rewrite interp1d_sorted in E1, E2 by assumption. now apply (interp_lipschitz _ Hc x y). }
  intros x y Hx Hy. destruct (Rle_dec x y).
  - rewrite (Rabs_right (y - x)) by lra. now apply Main.
  - rewrite Rabs_minus_sym. rewrite (Rabs_minus_sym y x). rewrite (Rabs_right (x - y)) by lra. apply Main; lra.
Qed.
Print Assumptions C09_interpolated_curves_are_continuous.
Example C09_example : let model := total (interp1d [1; 2; 4] [0; /2; 1]) in
  solver_spec bisection /\ cont_on model 1 4 /\ model 1 <= 3/4 <= model 4 /\
  (exists a, computeDetectionSize bisection model None (3/4) 1 4 = Ok [a] /\ model a = 3/4).
Proof.
  intros model.
  assert (Hs : strictly_increasing [1; 2; 4]) by (repeat constructor; lra).
  assert (Hc : cont_on model 1 4) by exact (C09_interpolated_curves_are_continuous [1; 2; 4] [0; /2; 1] eq_refl Hs ltac:(discriminate)).
  assert (N1 := C28_exact_at_defect_sizes [1; 2; 4] [0; /2; 1] 0 eq_refl Hs ltac:(cbn; lia)).
  assert (N4 := C28_exact_at_defect_sizes [1; 2; 4] [0; /2; 1] 2 eq_refl Hs ltac:(cbn; lia)). cbn [nth] in N1, N4.
  assert (E1 : model 1 = 0) by (unfold model, total; now rewrite N1).
  assert (E4 : model 4 = 1) by (unfold model, total; now rewrite N4).
  split; [apply bisection_spec|]. split; [exact Hc|]. split; [rewrite E1, E4; lra|].
  destruct (C09_detection_size bisection model (3/4) 1 4 bisection_spec ltac:(lra) Hc) as [H _].
  destruct H as [a [Ea [_ Er]]]; [rewrite E1, E4; lra|]. eauto.
Qed.

(** *** C26 *)
Theorem C26_detection_size :
  forall (solve : solver) (line : R -> R -> R) (threshold p lo hi : R),
    solver_spec solve -> lo <= hi -> cont_on (line p) lo hi ->
    ((line p lo - threshold) * (line p hi - threshold) <= 0 ->
       exists a, qr_detection solve line threshold None p lo hi = Ok [a] /\ lo <= a <= hi /\ line p a = threshold) /\
    (0 < (line p lo - threshold) * (line p hi - threshold) ->
       qr_detection solve line threshold None p lo hi = Raise GenericException).
Proof.
  intros solve line threshold p lo hi Hs Hle Hc. unfold qr_detection.
  destruct (Hs (line p) threshold lo hi Hle Hc) as [S1 S2]. split; intros H.
  - destruct (S1 H) as [a [-> [Ha Hr]]]. eauto.
  - destruct (S2 H) as [e ->]. reflexivity.
Qed.
Print Assumptions C26_detection_size.
(** The confidence size solves the confidence curve (nodes strictly increasing: 0 < s_1 < ... < s_n < largest defect). *)
Lemma qr_len levels sizes dmax : length sizes = length levels -> length (qr_xs sizes dmax) = length (qr_ys levels).
Proof. intros H. unfold qr_xs, qr_ys. cbn. rewrite !app_length. cbn. lia. Qed.
Lemma qr_last sizes dmax : last (qr_xs sizes dmax) 0 = dmax.
Proof. unfold qr_xs. rewrite app_comm_cons. apply last_last. Qed.
Theorem C26_detection_size_with_confidence :
  forall (solve : solver) (line : R -> R -> R) (threshold p lo hi : R) (levels sizes : list R),
    solver_spec solve -> 0 <= lo <= hi -> cont_on (line p) lo hi ->
    length sizes = length levels -> strictly_increasing (qr_xs sizes hi) ->
    let cl := qr_curve levels sizes hi in
    (forall l, qr_detection solve line threshold (Some cl) p lo hi = Ok l ->
       exists a b, l = [a; b] /\ lo <= a <= hi /\ line p a = threshold /\ lo <= b <= hi /\ cl b = Ok p) /\
    ((exists l, qr_detection solve line threshold (Some cl) p lo hi = Ok l) <->
     ((line p lo - threshold) * (line p hi - threshold) <= 0 /\
      exists v0 v1, cl lo = Ok v0 /\ cl hi = Ok v1 /\ v0 <= p <= v1)) /\
    (forall e, qr_detection solve line threshold (Some cl) p lo hi = Raise e -> e = GenericException).
Proof.
  intros solve line threshold p lo hi levels sizes Hs Hle Hc HL Hinc cl.
  assert (HLL := qr_len levels sizes hi HL).
  assert (Hne : qr_xs sizes hi <> []) by discriminate.
  assert (Hd : forall t, 0 <= t <= hi -> exists v, cl t = Ok v).
  { intros t Ht. apply (C28_domain (qr_xs sizes hi) (qr_ys levels) t HLL Hinc Hne). rewrite qr_last. exact Ht. }
  assert (Hcc : cont_on (total cl) lo hi).
  { assert (G := C09_interpolated_curves_are_continuous _ _ HLL Hinc Hne). rewrite qr_last in G.
    apply (cont_on_sub _ _ _ lo hi G); [apply Hle|lra]. }
  destruct (Hd lo ltac:(lra)) as [v0 E0]. destruct (Hd hi ltac:(lra)) as [v1 E1].
  destruct (Hs (line p) threshold lo hi ltac:(lra) Hc) as [S1 S2].
  destruct (Hs (total cl) p lo hi ltac:(lra) Hcc) as [T1 T2].
  assert (Et0 : total cl lo = v0) by (unfold total; now rewrite E0).
  assert (Et1 : total cl hi = v1) by (unfold total; now rewrite E1).
  unfold qr_detection.
  destruct (Rle_dec ((line p lo - threshold) * (line p hi - threshold)) 0) as [B|B].
  - destruct (S1 B) as [a [-> [Ha Hr]]]. rewrite E0. cbn [bind].
    destruct (Rleb_spec v0 p) as [L0|L0]; [rewrite E1; cbn [bind]; destruct (Rleb_spec p v1) as [L1|L1]|cbn [bind]].
    + destruct T1 as [b [-> [Hb Hbr]]]; [rewrite Et0, Et1; apply guard_product; lra|]. cbn [bind].
      split; [|split].
      * intros l [= <-]. exists a, b. repeat split; auto; try lra.
        destruct (Hd b ltac:(lra)) as [vb Eb]. unfold total in Hbr. rewrite Eb in *. now rewrite Hbr.
      * split; [intros _; split; [exact B|]; exists v0, v1; repeat split; auto|eauto].
      * discriminate.
    + split; [discriminate|]. split; [|intros e [= <-]; reflexivity].
      split; [intros [l Hl]; discriminate|]. intros [_ [w0 [w1 [F0 [F1 W]]]]].
      assert (w1 = v1) by congruence. lra.
    + split; [discriminate|]. split; [|intros e [= <-]; reflexivity].
      split; [intros [l Hl]; discriminate|]. intros [_ [w0 [w1 [F0 [F1 W]]]]].
      assert (w0 = v0) by congruence. lra.
  - destruct (S2 ltac:(lra)) as [e ->]. split; [discriminate|]. split; [|intros e' [= <-]; reflexivity].
    split; [intros [l Hl]; discriminate|]. intros [Hb _]. contradiction.
Qed.
Print Assumptions C26_detection_size_with_confidence.
(** For p one of the levels, the node (s_j, p) of the confidence curve is a solution, s_j being the confidence quantile of the
    bootstrap sizes of that level; it is the only one if the levels are strictly increasing and p is not the largest. *)
Theorem C26_size_at_a_quantile_level :
  forall (levels sizes : list R) (dmax : R) (j : nat) (b : R),
    length sizes = length levels -> strictly_increasing (qr_xs sizes dmax) ->
    strictly_increasing levels -> (forall q, In q levels -> 0 < q) ->
    (S j < length levels)%nat ->
    (qr_curve levels sizes dmax b = Ok (nth j levels 0) <-> b = nth j sizes 0).
Proof.
  intros levels sizes dmax j b HL Hx Hl Hpos Hj.
  assert (HLL := qr_len levels sizes dmax HL).
  assert (Hnode : forall i, (i < length levels)%nat -> qr_curve levels sizes dmax (nth i sizes 0) = Ok (nth i levels 0)).
  { intros i Hi. assert (G := C28_exact_at_defect_sizes (qr_xs sizes dmax) (qr_ys levels) (S i) HLL Hx).
    unfold qr_xs, qr_ys in *. cbn [nth length] in G. rewrite !app_nth1 in G by lia. apply G.
    rewrite app_length. cbn. lia. }
  split; [|intros ->; apply Hnode; lia].
  intros Hb.
  (* monotone on the whole curve, strictly below the last level *)
  assert (Sl : forall i k, (i < k < length levels)%nat -> nth i levels 0 < nth k levels 0).
  { clear -Hl. induction Hl as [|q l Hl IH Hall]; intros i k Hik; cbn in Hik; [lia|].
    destruct k as [|k]; [lia|]. destruct i as [|i]; cbn [nth]; [|apply IH; lia].
    rewrite Forall_forall in Hall. apply Hall, nth_In. lia. }
  assert (Wl : Rsorted (qr_ys levels)).
  { unfold qr_ys. assert (R : Rsorted (levels ++ [Rlmax levels])).
    { assert (Hm := fun x => Rlmax_ge levels x). revert Hm. generalize (Rlmax levels).
      clear -Hl. induction Hl as [|q l Hl IH Hall]; intros m Hm; cbn; [repeat constructor|]. constructor.
      - apply IH. intros x Hx. apply Hm. now right.
      - apply Forall_app. split; [eapply Forall_impl; [|exact Hall]; intros; lra|].
        constructor; [apply Hm; now left|constructor]. }
    constructor; [exact R|]. apply Forall_app. split.
    - rewrite Forall_forall. intros q Hq. apply Rlt_le, Hpos, Hq.
    - constructor; [|constructor]. apply Rlt_le, Hpos, Rlmax_in. intros E. rewrite E in Hj. cbn in Hj. lia. }
  assert (Hmono : forall t1 t2 v1 v2, t1 <= t2 -> qr_curve levels sizes dmax t1 = Ok v1 ->
            qr_curve levels sizes dmax t2 = Ok v2 -> v1 <= v2).
  { intros t1 t2 v1 v2. apply C28_monotone; auto. }
  (* b lies strictly left of s_{j+1}, hence on the strictly increasing part *)
  assert (Hb1 : b < nth (S j) sizes 0).
  { destruct (Rlt_dec b (nth (S j) sizes 0)) as [|Hn]; [assumption|]. exfalso.
    assert (G := Hmono _ _ _ _ (Rnot_lt_le _ _ Hn) (Hnode (S j) Hj) Hb).
    assert (G' := Sl j (S j) ltac:(lia)). lra. }
  (* restrict to the nodes 0 .. j+1 *)
  assert (Hxs : forall i k, (i < k < length (qr_xs sizes dmax))%nat -> nth i (qr_xs sizes dmax) 0 < nth k (qr_xs sizes dmax) 0).
  { clear -Hx. revert Hx. generalize (qr_xs sizes dmax). intros l Hx.
    induction Hx as [|q l Hl IH Hall]; intros i k Hik; cbn in Hik; [lia|].
    destruct k as [|k]; [lia|]. destruct i as [|i]; cbn [nth]; [|apply IH; lia].
    rewrite Forall_forall in Hall. apply Hall, nth_In. lia. }
  assert (Hsz : forall i, (i < length sizes)%nat -> nth (S i) (qr_xs sizes dmax) 0 = nth i sizes 0).
  { intros i Hi. unfold qr_xs. cbn [nth]. now rewrite app_nth1 by lia. }
  assert (Hlv : forall i, (i < length levels)%nat -> nth (S i) (qr_ys levels) 0 = nth i levels 0).
  { intros i Hi. unfold qr_ys. cbn [nth]. now rewrite app_nth1 by lia. }
  assert (Lx : length (qr_xs sizes dmax) = S (S (length sizes))).
  { unfold qr_xs. cbn. rewrite app_length. cbn. lia. }
  destruct (Rlt_dec b (nth j sizes 0)) as [Hlt|Hge].
  - (* left of s_j: the interval [x_j, x_{j+1}] or before *)
    exfalso.
    (* value at x_j of the node list, i.e. previous level or 0 *)
    destruct (Rle_dec b (nth j (qr_xs sizes dmax) 0)) as [Hp|Hp].
    + assert (N : qr_curve levels sizes dmax (nth j (qr_xs sizes dmax) 0) = Ok (nth j (qr_ys levels) 0)).
      { apply C28_exact_at_defect_sizes; auto. rewrite Lx. lia. }
      assert (G := Hmono _ _ _ _ Hp Hb N).
      destruct j as [|j'].
      * cbn in G. assert (P := Hpos (nth 0 levels 0) ltac:(apply nth_In; lia)). lra.
      * rewrite Hlv in G by lia. assert (P := Sl j' (S j') ltac:(lia)). lra.
    + destruct (C28_affine_between_neighbours (qr_xs sizes dmax) (qr_ys levels) j b HLL Hx ltac:(rewrite Lx; lia))
        as [w [Hw [Eb Ev]]].
      { rewrite Hsz by lia. lra. }
      unfold qr_curve in Hb. rewrite Hb in Ev. apply Ok_inj in Ev. rewrite Hlv in Ev by lia. rewrite Hsz in Eb by lia.
      assert (Hd : nth j (qr_ys levels) 0 < nth j levels 0).
      { destruct j as [|j']; [cbn; apply Hpos, nth_In; lia|]. rewrite Hlv by lia. apply Sl. lia. }
      assert (Hd' : (1 - w) * (nth j levels 0 - nth j (qr_ys levels) 0) = 0) by lra.
      assert (w = 1) by nra. subst w. lra.
  - destruct (Req_dec b (nth j sizes 0)) as [|Hne]; [assumption|]. exfalso.
    destruct (C28_affine_between_neighbours (qr_xs sizes dmax) (qr_ys levels) (S j) b HLL Hx ltac:(rewrite Lx; lia))
      as [w [Hw [Eb Ev]]].
    { rewrite !Hsz by lia. lra. }
    unfold qr_curve in Hb. rewrite Hb in Ev. apply Ok_inj in Ev. rewrite !Hlv in Ev by lia. rewrite !Hsz in Eb by lia.
    assert (Hd := Sl j (S j) ltac:(lia)).
    assert (Hd' : w * (nth (S j) levels 0 - nth j levels 0) = 0) by lra.
    assert (w = 0) by nra. subst w. lra.
Qed.
Print Assumptions C26_size_at_a_quantile_level.
(** Findings.  (1) At the largest level the confidence curve is flat up to the largest defect: every size there is a root.
    (2) No probability above the largest level can be reached.  (3) The detection size does not in general solve the POD
    curve (it is computed with a new regression line, the curve interpolates). *)
Theorem C26_flat_end :
  forall (levels sizes : list R) (dmax t : R),
    length sizes = length levels -> levels <> [] -> strictly_increasing (qr_xs sizes dmax) ->
    strictly_increasing levels ->
    last sizes 0 <= t <= dmax -> qr_curve levels sizes dmax t = Ok (Rlmax levels).
Proof.
  intros levels sizes dmax t HL Hne Hx Hl Ht.
  assert (HLL := qr_len levels sizes dmax HL).
  destruct (exists_last Hne) as [l0 [q El]].
  assert (Hsn : sizes <> []) by (intros ->; destruct levels; [congruence|discriminate]).
  destruct (exists_last Hsn) as [s0 [s Es]].
  assert (Elen : length l0 = length s0) by (subst; rewrite !app_length in HL; cbn in HL; lia).
  assert (Eq : q = Rlmax levels).
  { apply Rle_antisym.
    - apply Rlmax_ge. rewrite El. apply in_or_app. right. now left.
    - assert (G := Rlmax_in levels Hne). rewrite El in G at 2. apply in_app_or in G. destruct G as [G|[G|[]]]; [|lra].
      rewrite El in Hl. clear -Hl G. revert G. generalize (Rlmax levels). clear levels. intros m G.
      induction l0 as [|x l0 IH]; cbn in *; [destruct G|]. inversion Hl as [|? ? Hl' Hall]; subst.
      destruct G as [<-|G].
      + rewrite Forall_forall in Hall. apply Rlt_le, Hall, in_or_app. right. now left.
      + now apply IH. }
  rewrite Es, last_last in Ht.
  destruct (C28_affine_between_neighbours (qr_xs sizes dmax) (qr_ys levels) (length sizes) t HLL Hx) as [w [Hw [Eb Ev]]].
  - unfold qr_xs. cbn. rewrite app_length. cbn. lia.
  - unfold qr_xs. rewrite Es. rewrite !app_length. cbn [length]. rewrite Nat.add_1_r. cbn [nth].
    rewrite app_nth1 by (rewrite app_length; cbn; lia). rewrite app_nth2 by lia. rewrite Nat.sub_diag. cbn [nth].
    rewrite app_nth2 by (rewrite app_length; cbn; lia). rewrite app_length. cbn [length].
    replace (S (length s0) - (length s0 + 1))%nat with 0%nat by lia. cbn. exact Ht.
  - unfold qr_curve. rewrite Ev. f_equal. unfold qr_ys. rewrite HL. rewrite <- Eq. rewrite El at 1 2 3 4.
    rewrite !app_length. cbn [length]. rewrite Nat.add_1_r. cbn [nth].
    rewrite app_nth1 by (rewrite app_length; cbn; lia). rewrite app_nth2 by lia. rewrite Nat.sub_diag. cbn [nth].
    rewrite app_nth2 by (rewrite app_length; cbn; lia). rewrite app_length. cbn [length].
    replace (S (length l0) - (length l0 + 1))%nat with 0%nat by lia. cbn [nth]. ring.
Qed.
Print Assumptions C26_flat_end.
Theorem C26_above_the_largest_level :
  forall (solve : solver) line threshold p lo hi (levels sizes : list R) l,
    levels <> [] -> (forall q, In q levels -> 0 < q < p) ->
    qr_detection solve line threshold (Some (qr_curve levels sizes hi)) p lo hi <> Ok l.
Proof.
  intros solve line threshold p lo hi levels sizes l Hne Hq. unfold qr_detection.
  destruct (solve (line p) threshold lo hi) as [a|e]; [|discriminate].
  assert (B : forall t v, qr_curve levels sizes hi t = Ok v -> v < p).
  { intros t v Hv. assert (G := C28_range (qr_xs sizes hi) (qr_ys levels) t v 0 (Rlmax levels)).
    assert (Hm := Hq _ (Rlmax_in levels Hne)).
    assert (v <= Rlmax levels); [|lra]. apply G; [|exact Hv].
    intros y [<-|Hy]; [lra|]. apply in_app_or in Hy. destruct Hy as [Hy|[<-|[]]]; [|lra].
    assert (G1 := Hq y Hy). assert (G2 := Rlmax_ge _ _ Hy). lra. }
  destruct (qr_curve levels sizes hi lo) as [v0|e] eqn:E0; [|discriminate]. cbn [bind].
  destruct (Rleb v0 p); [|discriminate].
  destruct (qr_curve levels sizes hi hi) as [v1|e] eqn:E1; [|discriminate]. cbn [bind].
  destruct (Rleb_spec p v1) as [L|L]; [|discriminate]. assert (G := B _ _ E1). lra.
Qed.
Print Assumptions C26_above_the_largest_level.
Theorem C26_solves_the_curve_refuted :
  exists (line : R -> R -> R) (threshold p hi a : R) (levels sizes : list R) v,
    qr_run bisection line threshold hi levels = Ok sizes /\
    qr_detection bisection line threshold None p 0 hi = Ok [a] /\
    qr_curve levels sizes hi a = Ok v /\ v <> p.
Proof.
  (* lines x - 4 q^2 crossing 0 at 4 q^2: sizes 1/4 and 9/4 at q = 1/4, 3/4; p = 1/2 gives size 1 *)
  set (line := fun q x : R => x - 4 * (q * q)).
  assert (Hc : forall q lo hi, cont_on (line q) lo hi).
  { intros q lo hi. apply lipschitz_cont_on with 1. intros x y _ _. unfold line.
    replace (y - 4 * (q * q) - (x - 4 * (q * q))) with (y - x) by ring. lra. }
  destruct (C25_sizes_are_the_crossings bisection line 0 5 [/4; 3/4] bisection_spec ltac:(lra) (fun q => Hc q 0 5))
    as [H1 H2].
  destruct (proj2 H1) as [sizes Hs].
  { intros q [<-|[<-|[]]]; unfold line; lra. }
  destruct (H2 sizes Hs) as [HL Hr].
  destruct (C26_detection_size bisection line 0 (/2) 0 5 bisection_spec ltac:(lra) (Hc _ _ _)) as [H3 _].
  destruct H3 as [a [Ha [_ Hra]]]; [unfold line; lra|].
  destruct sizes as [|s0 [|s1 [|? ?]]]; try discriminate.
  assert (E0 := proj2 (Hr 0%nat ltac:(cbn; lia))). assert (E1 := proj2 (Hr 1%nat ltac:(cbn; lia))). cbn in E0, E1.
  unfold line in E0, E1, Hra. assert (s0 = /4) by lra. assert (s1 = 9/4) by lra. assert (a = 1) by lra. subst s0 s1 a.
  exists line, 0, (/2), 5, 1, [/4; 3/4], [/4; 9/4].
  assert (Sx : strictly_increasing (qr_xs [/4; 9/4] 5)) by (unfold qr_xs; cbn; repeat constructor; lra).
  destruct (C28_affine_between_neighbours (qr_xs [/4; 9/4] 5) (qr_ys [/4; 3/4]) 1 1 eq_refl Sx ltac:(cbn; lia) ltac:(cbn; lra))
    as [w [Hw [Eb Ev]]]. cbn [nth qr_xs qr_ys app] in Eb, Ev.
  eexists. split; [exact Hs|]. split; [exact Ha|]. split; [exact Ev|]. lra.
Qed.
Print Assumptions C26_solves_the_curve_refuted.
Example C26_example : let levels := [/4; 3/4] in let sizes := [1; 2] in
  length sizes = length levels /\ strictly_increasing (qr_xs sizes 5) /\ strictly_increasing levels /\
  (forall q, In q levels -> 0 < q) /\ qr_curve levels sizes 5 1 = Ok (/4).
Proof.
  intros levels sizes.
  assert (Sx : strictly_increasing (qr_xs sizes 5)) by (unfold qr_xs; cbn; repeat constructor; lra).
  assert (Sl : strictly_increasing levels) by (unfold levels; repeat constructor; lra).
  assert (P : forall q, In q levels -> 0 < q) by (intros q [<-|[<-|[]]]; lra).
  split; [reflexivity|]. split; [exact Sx|]. split; [exact Sl|]. split; [exact P|].
  apply (C26_size_at_a_quantile_level levels sizes 5 0 1 eq_refl Sx Sl P); [cbn; lia|reflexivity].
Qed.
