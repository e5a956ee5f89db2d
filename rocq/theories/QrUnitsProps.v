(** C106: units of the signals and of the defects in the quantile regression POD. *)
From Coq Require Import Reals Lra.
From Verif Require Import RealBase Solver QuantileModel InterpModel DetectionModel DrawProps QrR2Props QrRunModel QrRunProps.
Local Open Scope R_scope.

(** *** Vocabulary *)
(** Points (defect, signal) in other units and from other origins: defects g x + h, signals c y + d. *)
Definition rescaled (g h c d : R) (pts : list (R * R)) : list (R * R) := map (fun xy => (g * fst xy + h, c * snd xy + d)) pts.
(** [ab] = (intercept, slope) is a regression line of level [q]; it is the only one. *)
Definition best (q : R) (pts : list (R * R)) (ab : R * R) : Prop := forall a' b', loss q pts (fst ab) (snd ab) <= loss q pts a' b'.
Definition only_best (q : R) (pts : list (R * R)) (ab : R * R) : Prop := best q pts ab /\ forall ab', best q pts ab' -> ab' = ab.
(** The same line drawn in the other units. *)
Definition rescaled_line (g h c d : R) (ab : R * R) : R * R := (c * fst ab + d - c * snd ab * h / g, c * snd ab / g).

(** *** Helpers *)
Lemma loss_rescaled q g h c d pts a b : 0 < c -> g <> 0 ->
  loss q (rescaled g h c d pts) (c * a + d - c * b * h / g) (c * b / g) = c * loss q pts a b.
Proof.
  intros Hc Hg. unfold loss, rescaled. rewrite map_map. rewrite <- Rsum_scal. apply Rsum_ext. intros [x y] _. cbn [fst snd].
  replace (c * y + d - (c * a + d - c * b * h / g + c * b / g * (g * x + h))) with (c * (y - (a + b * x))) by (field; exact Hg).
  now apply tilted_scal.
Qed.
Lemma isort_map {A B} (leb : A -> A -> bool) (leb' : B -> B -> bool) (f : A -> B) l :
  (forall x y, leb' (f x) (f y) = leb x y) -> isort leb' (map f l) = map f (isort leb l).
Proof.
  intros H. induction l as [|x l IH]; cbn [map isort]; [reflexivity|]. rewrite IH. generalize (isort leb l). clear IH.
  induction l0 as [|y l0 IH]; cbn [map insert]; [reflexivity|]. rewrite H. destruct (leb x y); cbn [map]; [reflexivity|now rewrite IH].
Qed.
Lemma Rleb_scal g x y : 0 < g -> Rleb (g * x) (g * y) = Rleb x y.
Proof. intros Hg. destruct (Rleb_spec x y) as [H|H], (Rleb_spec (g * x) (g * y)) as [G|G]; try reflexivity; exfalso; nra. Qed.
Lemma Rltb_scal g x y : 0 < g -> Rltb (g * x) (g * y) = Rltb x y.
Proof. intros Hg. destruct (Rltb_spec x y) as [H|H], (Rltb_spec (g * x) (g * y)) as [G|G]; try reflexivity; exfalso; nra. Qed.
Lemma combine_map_l {A B C} (f : A -> C) (l : list A) : forall l' : list B, combine (map f l) l' = map (fun p => (f (fst p), snd p)) (combine l l').
Proof. induction l as [|x l IH]; intros [|y l']; cbn [map combine fst snd]; [reflexivity..|now rewrite IH]. Qed.
Lemma interp_scal g nodes t : 0 < g -> interp (map (fun p => (g * fst p, snd p)) nodes) (g * t) = interp nodes t.
Proof.
  intros Hg. induction nodes as [|[a y] rest IH]; [reflexivity|]. cbn [map fst snd interp] in *. rewrite Rltb_scal by exact Hg.
  destruct (Rltb_spec t a) as [H|H]; [reflexivity|]. destruct rest as [|[b z] rest]; cbn [map fst snd]; [now rewrite Rltb_scal|].
  rewrite Rltb_scal by exact Hg. destruct (Rltb_spec t b) as [G|G]; [|exact IH]. f_equal. f_equal. apply Rnot_lt_le in H.
  replace (g * b - g * a) with (g * (b - a)) by ring. field. split; lra.
Qed.
Lemma nth_scal g l j : nth j (map (Rmult g) l) 0 = g * nth j l 0.
Proof. rewrite <- (map_nth (Rmult g) l 0 j). f_equal. ring. Qed.
Lemma quantile_scal g l p : 0 < g -> quantile (map (Rmult g) l) p = g * quantile l p.
Proof.
  intros Hg. unfold quantile. replace (Rsort (map (Rmult g) l)) with (map (Rmult g) (Rsort l)).
  - rewrite map_length, !nth_scal. cbv zeta. destruct (Rleb _ _); [reflexivity|]. destruct (Rleb _ _); [reflexivity|]. ring.
  - symmetry. apply isort_map. intros x y. now apply Rleb_scal.
Qed.

(** *** Theorems *)
(** The regression lines of the new points are the old ones drawn in the new units. *)
Theorem C106_lines : forall q g h c d pts ab, 0 < c -> g <> 0 ->
  (best q (rescaled g h c d pts) (rescaled_line g h c d ab) <-> best q pts ab) /\
  (only_best q pts ab -> forall ab', best q (rescaled g h c d pts) ab' -> ab' = rescaled_line g h c d ab).
Proof.
  intros q g h c d pts ab Hc Hg.
  assert (B : forall ab0, best q (rescaled g h c d pts) (rescaled_line g h c d ab0) <-> best q pts ab0).
  { intros [a b]. unfold best, rescaled_line. cbn [fst snd]. rewrite loss_rescaled by assumption. split; intros H a' b'.
    - specialize (H (c * a' + d - c * b' * h / g) (c * b' / g)). rewrite loss_rescaled in H by assumption. now apply Rmult_le_reg_l in H.
    - specialize (H ((a' - d + b' * h) / c) (b' * g / c)).
      assert (E := loss_rescaled q g h c d pts ((a' - d + b' * h) / c) (b' * g / c) Hc Hg).
      replace (c * ((a' - d + b' * h) / c) + d - c * (b' * g / c) * h / g) with a' in E by (field; lra).
      replace (c * (b' * g / c) / g) with b' in E by (field; lra). rewrite E. apply Rmult_le_compat_l; lra. }
  split; [apply B|]. intros [_ U] [a' b'] H.
  assert (E : (a', b') = rescaled_line g h c d ((a' - d + b' * h) / c, b' * g / c)) by (unfold rescaled_line; cbn [fst snd]; f_equal; field; lra).
  rewrite E in H |- *. apply B in H. now rewrite (U _ H).
Qed.

Section Sizes.
Variables Prep Prep' : Type.
Variable fit : Prep -> R -> R * R.
Variable fit' : Prep' -> R -> R * R.

(** Signals and threshold in another unit and from another origin, defects in another unit: run finds the same sizes in the new
    unit, and raises in the same cases. *)
Theorem C106_run : forall solve solve' p p' pts g c d v dmax levels, solver_spec solve -> solver_spec solve' -> 0 < g -> 0 < c -> 0 <= dmax ->
  (forall q, In q levels -> only_best (1 - q) pts (fit p (1 - q)) /\ snd (fit p (1 - q)) <> 0 /\ best (1 - q) (rescaled g 0 c d pts) (fit' p' (1 - q))) ->
  match qr_run solve (level_line Prep fit p) v dmax levels with
  | Ok l => qr_run solve' (level_line Prep' fit' p') (c * v + d) (g * dmax) levels = Ok (map (Rmult g) l)
  | Raise _ => exists e, qr_run solve' (level_line Prep' fit' p') (c * v + d) (g * dmax) levels = Raise e
  end.
Proof.
  intros solve solve' p p' pts g c d v dmax levels Hs Hs' Hg Hc Hm. unfold qr_run.
  assert (Hm' : 0 <= g * dmax) by (apply Rmult_le_pos; lra).
  induction levels as [|q levels IH]; intros H; [reflexivity|]. cbn [qr_sizes].
  destruct (H q (or_introl eq_refl)) as (U & N & B). specialize (IH (fun q' Hq => H q' (or_intror Hq))).
  assert (E : fit' p' (1 - q) = rescaled_line g 0 c d (fit p (1 - q))) by (apply (C106_lines (1 - q) g 0 c d pts); auto; lra).
  destruct (solve_affine solve (fit p (1 - q)) v 0 dmax Hs Hm) as [S1 S2].
  destruct (solve_affine solve' (fit' p' (1 - q)) (c * v + d) 0 (g * dmax) Hs' Hm') as [T1 T2].
  change (solve (level_line Prep fit p q) v 0 dmax) with (solve (fun x => fst (fit p (1 - q)) + snd (fit p (1 - q)) * x) v 0 dmax).
  change (solve' (level_line Prep' fit' p' q) (c * v + d) 0 (g * dmax)) with (solve' (fun x => fst (fit' p' (1 - q)) + snd (fit' p' (1 - q)) * x) (c * v + d) 0 (g * dmax)).
  rewrite E in T1, T2 |- *. destruct (fit p (1 - q)) as [a b]. unfold rescaled_line in *. cbn [fst snd] in *.
  assert (M : meets (c * a + d - c * b * 0 / g, c * b / g) (c * v + d) 0 (g * dmax) <-> meets (a, b) v 0 dmax).
  { unfold meets. cbn [fst snd]. split; intros (x & Hx & Ex).
    - exists (x / g). assert (X : x = g * (x / g)) by (field; lra). split; [split; apply (Rmult_le_reg_l g); try lra|].
      apply (Rmult_eq_reg_l c); [|lra]. apply (Rplus_eq_reg_r d). rewrite <- Ex. field. lra.
    - exists (g * x). split; [split; [apply Rmult_le_pos; lra|apply Rmult_le_compat_l; lra]|]. rewrite <- Ex. field. lra. }
  assert (D : meets (a, b) v 0 dmax \/ ~ meets (a, b) v 0 dmax).
  { rewrite (meets_sign _ v 0 dmax Hm). destruct (Rle_dec ((fst (a, b) + snd (a, b) * 0 - v) * (fst (a, b) + snd (a, b) * dmax - v)) 0); auto. }
  destruct D as [D|D].
  - destruct (S1 D) as (x & -> & _ & _ & Ex). destruct (T1 (proj2 M D)) as (x' & -> & _ & _ & Ex'). cbn [bind fst snd] in *.
    assert (X : x' = g * x).
    { rewrite Ex', (Ex N); [field; split; lra|]. intros Z. apply N. apply (Rmult_eq_reg_l (c / g)); [|apply Rmult_integral_contrapositive_currified; [lra|apply Rinv_neq_0_compat; lra]].
      rewrite Rmult_0_r, <- Z. field. lra. }
    destruct (qr_sizes solve (level_line Prep fit p) v 0 dmax levels) as [l|e]; cbn [bind].
    + rewrite IH. cbn [bind map]. now rewrite X.
    + destruct IH as [e' ->]. exists e'. reflexivity.
  - destruct (S2 D) as [e ->]. destruct (T2 (fun Z => D (proj1 M Z))) as [e' ->]. exists e'. reflexivity.
Qed.
(** The bootstrap rows, searched down to the same lowest number in both units: whenever both are found, the second is the first in
    the new unit; here the origin of the defects may move as well. *)
Theorem C106_bootstrap : forall solve solve' p p' pts g h c d v lowest m m' levels l l', solver_spec solve -> solver_spec solve' -> 0 < g -> 0 < c ->
  lowest <= m -> lowest <= m' ->
  (forall q, In q levels -> only_best (1 - q) pts (fit p (1 - q)) /\ snd (fit p (1 - q)) <> 0 /\ best (1 - q) (rescaled g h c d pts) (fit' p' (1 - q))) ->
  qr_boot_row solve (level_line Prep fit p) v lowest m levels = Ok l -> qr_boot_row solve' (level_line Prep' fit' p') (c * v + d) lowest m' levels = Ok l' ->
  l' = map (fun x => g * x + h) l.
Proof.
  intros solve solve' p p' pts g h c d v lowest m m' levels l l' Hs Hs' Hg Hc Hm Hm'. unfold qr_boot_row. revert l l'.
  induction levels as [|q levels IH]; intros l l' H; cbn [qr_sizes]; [intros [= <-] [= <-]; reflexivity|].
  destruct (H q (or_introl eq_refl)) as (U & N & B).
  assert (E : fit' p' (1 - q) = rescaled_line g h c d (fit p (1 - q))) by (apply (C106_lines (1 - q) g h c d pts); auto; lra).
  destruct (solve (level_line Prep fit p q) v lowest m) as [x|] eqn:Ex; [|discriminate].
  destruct (solve' (level_line Prep' fit' p' q) (c * v + d) lowest m') as [x'|] eqn:Ex'; [|discriminate]. cbn [bind].
  destruct (qr_sizes solve _ v lowest m levels) as [r|] eqn:Er; [|discriminate].
  destruct (qr_sizes solve' _ _ lowest m' levels) as [r'|] eqn:Er'; [|discriminate]. cbn [bind]. intros [= <-] [= <-]. cbn [map].
  f_equal; [|apply (IH r r' (fun q' Hq => H q' (or_intror Hq))); reflexivity].
  assert (G : forall so ab w hi z, solver_spec so -> lowest <= hi -> so (fun x => fst ab + snd ab * x) w lowest hi = Ok z -> fst ab + snd ab * z = w).
  { intros so ab w hi z Ho Hl Ez. destruct (solve_affine so ab w lowest hi Ho Hl) as [A1 A2].
    assert (D : meets ab w lowest hi \/ ~ meets ab w lowest hi).
    { rewrite (meets_sign ab w lowest hi Hl). destruct (Rle_dec ((fst ab + snd ab * lowest - w) * (fst ab + snd ab * hi - w)) 0); auto. }
    destruct D as [D|D]; [destruct (A1 D) as (z' & E1 & _ & E2 & _)|destruct (A2 D) as [e E1]]; rewrite Ez in E1; [injection E1 as <-; exact E2|discriminate]. }
  apply (G solve (fit p (1 - q)) v m x Hs Hm) in Ex. apply (G solve' (fit' p' (1 - q)) _ m' x' Hs' Hm') in Ex'.
  rewrite E in Ex'. destruct (fit p (1 - q)) as [a b]. unfold rescaled_line in Ex'. cbn [fst snd] in *.
  apply (Rmult_eq_reg_l (c * b / g)); [|apply Rmult_integral_contrapositive_currified; [apply Rmult_integral_contrapositive_currified; lra|apply Rinv_neq_0_compat; lra]].
  apply (Rplus_eq_reg_l (c * a + d - c * b * h / g)). rewrite Ex', <- Ex. field. lra.
Qed.
(** The second row is found as soon as the first is and its sizes in the new unit are not below the lowest number. *)
Theorem C106_bootstrap_found : forall solve solve' p p' pts g h c d v lowest m levels l, solver_spec solve -> solver_spec solve' -> 0 < g -> 0 < c ->
  lowest <= m -> lowest <= g * m + h ->
  (forall q, In q levels -> only_best (1 - q) pts (fit p (1 - q)) /\ snd (fit p (1 - q)) <> 0 /\ best (1 - q) (rescaled g h c d pts) (fit' p' (1 - q))) ->
  qr_boot_row solve (level_line Prep fit p) v lowest m levels = Ok l -> (forall x, In x l -> lowest <= g * x + h) ->
  qr_boot_row solve' (level_line Prep' fit' p') (c * v + d) lowest (g * m + h) levels = Ok (map (fun x => g * x + h) l).
Proof.
  intros solve solve' p p' pts g h c d v lowest m levels l Hs Hs' Hg Hc Hm Hm' H El Hl.
  assert (F : exists l', qr_boot_row solve' (level_line Prep' fit' p') (c * v + d) lowest (g * m + h) levels = Ok l').
  { unfold qr_boot_row in *. revert l El Hl. induction levels as [|q levels IH]; intros l; cbn [qr_sizes]; [intros _ _; now exists []|].
    destruct (H q (or_introl eq_refl)) as (U & N & B).
    assert (E : fit' p' (1 - q) = rescaled_line g h c d (fit p (1 - q))) by (apply (C106_lines (1 - q) g h c d pts); auto; lra).
    destruct (solve (level_line Prep fit p q) v lowest m) as [x|] eqn:Ex; [|discriminate]. cbn [bind].
    destruct (qr_sizes solve _ v lowest m levels) as [r|] eqn:Er; [|discriminate]. cbn [bind]. intros [= <-] Hl.
    destruct (IH (fun q' Hq => H q' (or_intror Hq)) r eq_refl (fun y Hy => Hl y (or_intror Hy))) as [r' Er'].
    destruct (solve_affine solve (fit p (1 - q)) v lowest m Hs Hm) as [A1 A2].
    assert (D : meets (fit p (1 - q)) v lowest m \/ ~ meets (fit p (1 - q)) v lowest m).
    { rewrite (meets_sign _ v lowest m Hm). destruct (Rle_dec ((fst (fit p (1 - q)) + snd (fit p (1 - q)) * lowest - v) * (fst (fit p (1 - q)) + snd (fit p (1 - q)) * m - v)) 0); auto. }
    change (solve (fun x => fst (fit p (1 - q)) + snd (fit p (1 - q)) * x) v lowest m) with (solve (level_line Prep fit p q) v lowest m) in A1, A2.
    destruct D as [D|D]; [destruct (A1 D) as (z & E1 & Hz & Ez & _)|destruct (A2 D) as [e E1]; congruence].
    rewrite Ex in E1. injection E1 as <-.
    destruct (solve_affine solve' (fit' p' (1 - q)) (c * v + d) lowest (g * m + h) Hs' Hm') as [B1 _].
    destruct B1 as (x' & Ex' & _).
    - exists (g * x + h). rewrite E. destruct (fit p (1 - q)) as [a b]. unfold rescaled_line. cbn [fst snd] in *.
      split; [split; [apply Hl; now left|apply Rplus_le_compat_r, Rmult_le_compat_l; lra]|]. rewrite <- Ez. field. lra.
    - change (solve' (fun x => fst (fit' p' (1 - q)) + snd (fit' p' (1 - q)) * x) (c * v + d) lowest (g * m + h)) with (solve' (level_line Prep' fit' p' q) (c * v + d) lowest (g * m + h)) in Ex'.
      rewrite Ex', Er'. cbn [bind]. now exists (x' :: r'). }
  destruct F as [l' El']. rewrite El'. f_equal.
  exact (C106_bootstrap solve solve' p p' pts g h c d v lowest m (g * m + h) levels l l' Hs Hs' Hg Hc Hm Hm' H El El').
Qed.
End Sizes.
(** The curves: sizes, largest defect and argument in the new unit give the old POD, for the curve and for every confidence curve. *)
Theorem C106_curves : forall g levels sizes rows dmax conf t, 0 < g ->
  qr_curve levels (map (Rmult g) sizes) (g * dmax) (g * t) = qr_curve levels sizes dmax t /\
  qr_evalCL levels (map (map (Rmult g)) rows) (g * dmax) conf (g * t) = qr_evalCL levels rows dmax conf t.
Proof.
  intros g levels sizes rows dmax conf t Hg.
  assert (C : forall s, qr_curve levels (map (Rmult g) s) (g * dmax) (g * t) = qr_curve levels s dmax t).
  { intros s. unfold qr_curve, interp1d, qr_xs.
    replace (0 :: map (Rmult g) s ++ [g * dmax]) with (map (Rmult g) (0 :: s ++ [dmax])) by (cbn [map]; rewrite map_app, Rmult_0_r; reflexivity).
    rewrite map_length. destruct (Nat.eqb _ _); [|reflexivity]. rewrite combine_map_l. unfold node_sort.
    rewrite (isort_map node_leb); [now apply interp_scal|]. intros x y. unfold node_leb. cbn [fst]. now apply Rleb_scal. }
  split; [apply C|]. unfold qr_evalCL, qr_cl_sizes, quantile_per_component. destruct rows as [|r rows]; [reflexivity|].
  cbn [bind map]. rewrite <- C. f_equal. rewrite map_map. apply map_ext. intros j. rewrite <- quantile_scal by exact Hg. f_equal.
  unfold column. cbn [map]. rewrite nth_scal. f_equal. rewrite !map_map. apply map_ext. intros s. apply nth_scal.
Qed.
(** Points on a line, at two sizes at least: that line is the only regression line of every level. *)
Lemma on_line q pts a b : 0 < q < 1 -> (forall xy, In xy pts -> snd xy = a + b * fst xy) ->
  (exists x1 x2, In x1 pts /\ In x2 pts /\ fst x1 <> fst x2) -> only_best q pts (a, b).
Proof.
  intros Hq Hl (x1 & x2 & I1 & I2 & N).
  assert (P : forall a' b', 0 <= loss q pts a' b').
  { intros a' b'. unfold loss. clear Hl I1 I2. induction pts as [|xy l IH]; cbn [map]; [rewrite Rsum_nil; lra|]. rewrite Rsum_cons.
    assert (X := tilted_nonneg q (snd xy - (a' + b' * fst xy)) Hq). lra. }
  assert (Z : loss q pts a b = 0).
  { unfold loss. clear I1 I2 P. induction pts as [|xy l IH]; cbn [map]; [apply Rsum_nil|]. rewrite Rsum_cons, IH by (intros; apply Hl; now right).
    rewrite (Hl xy (or_introl eq_refl)). unfold tilted. destruct (Rltb_spec (a + b * fst xy - (a + b * fst xy)) 0); lra. }
  split; [intros a' b'; cbn [fst snd]; rewrite Z; apply P|].
  intros [a' b'] B. specialize (B a b). cbn [fst snd] in B. rewrite Z in B.
  assert (E : forall xy, In xy pts -> snd xy = a' + b' * fst xy).
  { clear Hl I1 I2 P Z. unfold loss in B. revert B. induction pts as [|xy l IH]; intros B xy0 I; [destruct I|]. cbn [map] in B. rewrite Rsum_cons in B.
    assert (X := tilted_nonneg q (snd xy - (a' + b' * fst xy)) Hq).
    assert (Y : 0 <= Rsum (map (fun xy => tilted q (snd xy - (a' + b' * fst xy))) l)).
    { clear -Hq. induction l as [|z l IH]; cbn [map]; [rewrite Rsum_nil; lra|]. rewrite Rsum_cons. assert (X := tilted_nonneg q (snd z - (a' + b' * fst z)) Hq). lra. }
    destruct I as [<-|I]; [|apply IH; [lra|exact I]]. assert (T : tilted q (snd xy - (a' + b' * fst xy)) = 0) by lra. apply tilted_zero in T; [lra|exact Hq]. }
  assert (E1 := E x1 I1). assert (E2 := E x2 I2). rewrite (Hl x1 I1) in E1. rewrite (Hl x2 I2) in E2.
  assert (b' = b) as ->. { apply (Rmult_eq_reg_r (fst x1 - fst x2)); lra. }
  f_equal. lra.
Qed.
(** The origin of the defects counts: run searches the size between 0 and the largest defect.  With the same signals, run fails when the
    size sought is negative (defects given by their logarithm, say) and finds it once all defects are moved by 2. *)
Theorem C106_defect_origin_refuted :
  exists pts h v (ab ab' : R * R) q, 0 < q < 1 /\ only_best (1 - q) pts ab /\ only_best (1 - q) (rescaled 1 h 1 0 pts) ab' /\
    forall solve, solver_spec solve ->
      (exists e, qr_run solve (level_line unit (fun _ _ => ab) tt) v (Rlmax (map fst pts)) [q] = Raise e) /\
      (exists x, qr_run solve (level_line unit (fun _ _ => ab') tt) v (Rlmax (map fst (rescaled 1 h 1 0 pts))) [q] = Ok [x] /\ Rlmin (map fst pts) < x - h < Rlmax (map fst pts)).
Proof.
  exists [(-1, -1); (0, 0); (1, 1)], 2, (- (1 / 2)), (0, 1), (-2, 1), (1 / 2).
  split; [lra|]. split; [|split].
  - apply on_line; [lra|cbn; intros xy [<-|[<-|[<-|[]]]]; cbn; lra|]. exists (0, 0), (1, 1). cbn. repeat split; auto; lra.
  - apply on_line; [lra|cbn; intros xy [<-|[<-|[<-|[]]]]; cbn; lra|]. exists (1 * 0 + 2, 1 * 0 + 0), (1 * 1 + 2, 1 * 1 + 0). cbn. repeat split; auto; lra.
  - intros solve Hs.
    assert (E1 : Rlmax (map fst [(-1, -1); (0, 0); (1, 1)]) = 1) by (cbn; unfold Rmax; repeat destruct (Rle_dec _ _); lra).
    assert (E0 : Rlmin (map fst [(-1, -1); (0, 0); (1, 1)]) = -1) by (cbn; unfold Rmin; repeat destruct (Rle_dec _ _); lra).
    assert (E2 : Rlmax (map fst (rescaled 1 2 1 0 [(-1, -1); (0, 0); (1, 1)])) = 3) by (cbn; unfold Rmax; repeat destruct (Rle_dec _ _); lra).
    rewrite E0, E1, E2. unfold qr_run. cbn [qr_sizes]. split.
    + destruct (proj2 (solve_affine solve (0, 1) (- (1 / 2)) 0 1 Hs ltac:(lra))) as [e E]; [intros (x & Hx & Ex); cbn [fst snd] in Ex; lra|].
      exists e. unfold level_line. rewrite E. reflexivity.
    + destruct (proj1 (solve_affine solve (-2, 1) (- (1 / 2)) 0 3 Hs ltac:(lra))) as (x & E & _ & Ex & _); [exists (3 / 2); cbn [fst snd]; lra|].
      exists x. unfold level_line. rewrite E. cbn [fst snd bind] in *. split; [reflexivity|lra].
Qed.
Print Assumptions C106_lines.
Print Assumptions C106_run.
Print Assumptions C106_bootstrap.
Print Assumptions C106_bootstrap_found.
Print Assumptions C106_curves.
Print Assumptions C106_defect_origin_refuted.
(** Cases: three points on y = x, threshold 3/2, two levels; defects in a unit ten times smaller, signals doubled and moved by 1. *)
Definition line_points : list (R * R) := [(0, 0); (1, 1); (2, 2)].
Example C106_case : forall q, In q [1 / 4; 1 / 2] -> only_best (1 - q) line_points (0, 1) /\ snd (0, 1) <> 0 /\ best (1 - q) (rescaled 10 0 2 1 line_points) (1, 1 / 5).
Proof.
  intros q Hq. assert (0 < 1 - q < 1) by (destruct Hq as [<-|[<-|[]]]; lra). repeat split; [| |cbn; lra|].
  1, 2: apply on_line; [assumption|cbn; intros xy [<-|[<-|[<-|[]]]]; cbn; lra|]; exists (0, 0), (1, 1); cbn; repeat split; auto; lra.
  apply on_line; [assumption|cbn; intros xy [<-|[<-|[<-|[]]]]; cbn; lra|]. exists (10 * 0 + 0, 2 * 0 + 1), (10 * 1 + 0, 2 * 1 + 1). cbn. repeat split; auto; lra.
Qed.
Example C106_run_case : forall solve, solver_spec solve ->
  qr_run solve (level_line unit (fun _ _ => (0, 1)) tt) (3 / 2) 2 [1 / 4; 1 / 2] = Ok [3 / 2; 3 / 2] /\
  qr_run solve (level_line unit (fun _ _ => (1, 1 / 5)) tt) (2 * (3 / 2) + 1) (10 * 2) [1 / 4; 1 / 2] = Ok (map (Rmult 10) [3 / 2; 3 / 2]).
Proof.
  intros solve Hs.
  assert (A : qr_run solve (level_line unit (fun _ _ => (0, 1)) tt) (3 / 2) 2 [1 / 4; 1 / 2] = Ok [3 / 2; 3 / 2]).
  { destruct (proj1 (solve_affine solve (0, 1) (3 / 2) 0 2 Hs ltac:(lra))) as (x & E & _ & Ex & _); [exists (3 / 2); cbn [fst snd]; lra|].
    cbn [fst snd] in Ex. replace x with (3 / 2) in E by lra. unfold qr_run. cbn [qr_sizes]. unfold level_line. rewrite !E. reflexivity. }
  split; [exact A|].
  assert (T := C106_run unit unit (fun _ _ => (0, 1)) (fun _ _ => (1, 1 / 5)) solve solve tt tt line_points 10 2 1 (3 / 2) 2 [1 / 4; 1 / 2] Hs Hs ltac:(lra) ltac:(lra) ltac:(lra) C106_case).
  rewrite A in T. exact T.
Qed.
Example C106_bootstrap_case : forall solve, solver_spec solve -> -1000 <= 2 /\ (forall x, In x [3 / 2] -> -1000 <= 10 * x + 0) /\
  qr_boot_row solve (level_line unit (fun _ _ => (0, 1)) tt) (3 / 2) (-1000) 2 [1 / 4] = Ok [3 / 2].
Proof.
  intros solve Hs. split; [lra|]. split; [intros x [<-|[]]; lra|].
  destruct (proj1 (solve_affine solve (0, 1) (3 / 2) (-1000) 2 Hs ltac:(lra))) as (x & E & _ & Ex & _); [exists (3 / 2); cbn [fst snd]; lra|].
  cbn [fst snd] in Ex. replace x with (3 / 2) in E by lra. unfold qr_boot_row. cbn [qr_sizes]. unfold level_line. rewrite !E. reflexivity.
Qed.
Example C106_curves_case : qr_curve [1 / 2] [1] 2 (1 / 2) = Ok (1 / 4).
Proof.
  unfold qr_curve, interp1d, qr_xs, qr_ys, node_sort. cbn [app length Nat.eqb combine isort insert node_leb fst].
  unfold node_leb. cbn [fst]. destruct (Rleb_spec 1 2) as [A|A]; [|exfalso; lra]. cbn [insert fst].
  destruct (Rleb_spec 0 1) as [B|B]; [|exfalso; lra]. cbn [interp].
  destruct (Rltb_spec (1 / 2) 0) as [C|C]; [exfalso; lra|]. destruct (Rltb_spec (1 / 2) 1) as [D|D]; [|exfalso; lra]. f_equal. field.
Qed.
