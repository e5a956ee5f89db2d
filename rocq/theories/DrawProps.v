(** C84, C85: the graphs of the POD classes and of the perturbation law indices. *)
From Coq Require Import Reals Lra String.
From Verif Require Import RealBase Solver QuantileModel InterpModel InterpProps DetectionModel DetectionProps DrawModel.
Local Open Scope R_scope.
Local Open Scope list_scope.

Section Pod.
Variables (lo hi : R) (model : R -> res R) (getCL : R -> res (R -> res R)) (detect : R -> option R -> res (list R)).
(** What computeDetectionSize returns: one size, or two with a confidence level. *)
Definition one_or_two : Prop := forall p conf sizes, detect p conf = Ok sizes -> List.length sizes = match conf with None => 1%nat | Some _ => 2%nat end.
(** The titles of the classes, in words. *)
Definition title_spec (c : family) (t : string) : Prop :=
  match c with
  | FLinear None => t = "POD - Linear regression model - Binomial"%string
  | FLinear (Some f) => if string_dec f "NormalFactory" then t = "POD - Linear regression model - Gauss"%string else t = ("POD - Linear regression model - " ++ f)%string
  | FKriging => t = "POD - Kriging model"%string
  | FChaos => t = "POD - Polynomial chaos model"%string
  | FHitMiss => t = "POD - Classifier model"%string
  | FQuantile => t = "POD - Quantile regression model"%string
  end.
Lemma title_ok c : title_spec c (title c).
Proof.
  destruct c as [[f|]| | | |]; try reflexivity. cbn. destruct (string_dec f "NormalFactory") as [->|N]; [reflexivity|]. apply String.eqb_neq in N. now rewrite N.
Qed.
(** A figure: the curve of the POD on the interval asked for; with a confidence level also the curve at this level on the same interval; with a
    probability level the horizontal line at this level over the interval, and a vertical line up to it at each detection size returned by
    computeDetectionSize, in the same order. The bounds are those given, or those of the class. *)
Theorem C84_content c p conf dmin dmax n t els :
  one_or_two -> drawPOD lo hi model getCL detect c p conf dmin dmax n = Ok (t, els) ->
  title_spec c t /\
  let a := match dmin with Some x => x | None => lo end in let b := match dmax with Some x => x | None => hi end in
  match p, conf with
  | None, None => els = [Curve model a b n None]
  | None, Some g => exists f, getCL g = Ok f /\ els = [Curve model a b n None; Curve f a b n (Some g)]
  | Some q, None => exists x, detect q None = Ok [x] /\ els = [Curve model a b n None; Level q a b; Size x q None]
  | Some q, Some g => exists f x y, getCL g = Ok f /\ detect q (Some g) = Ok [x; y] /\
      els = [Curve model a b n None; Curve f a b n (Some g); Level q a b; Size x q None; Size y q (Some g)]
  end.
Proof.
  intros H12. unfold drawPOD. assert (IV : forall ab, interval lo hi c dmin dmax = Ok ab -> ab = (match dmin with Some x => x | None => lo end, match dmax with Some x => x | None => hi end)).
  { intros ab. unfold interval, draw_interval. destruct c; try (intros [= <-]; reflexivity);
      (destruct dmin as [x|]; [destruct (Rltb x lo); [discriminate|destruct (Rltb hi x); [discriminate|]]|]; cbn [bind];
       (destruct dmax as [y|]; [destruct (Rltb hi y); [discriminate|destruct (Rltb y lo); [discriminate|]]|]); cbn [bind]; intros [= <-]; reflexivity). }
  destruct (interval lo hi c dmin dmax) as [ab|]; [|discriminate]. specialize (IV ab eq_refl). subst ab. cbn [bind fst snd].
  set (a := match dmin with Some x => x | None => lo end). set (b := match dmax with Some x => x | None => hi end). cbn zeta. unfold inner_drawPOD.
  destruct conf as [g|]; cbn [bind].
  - destruct (getCL g) as [f|]; [|discriminate]. cbn [bind]. destruct p as [q|]; cbn [bind].
    + destruct (detect q (Some g)) as [sizes|] eqn:E; [|discriminate]. cbn [bind]. specialize (H12 _ _ _ E). cbn in H12. destruct sizes as [|x [|y [|? ?]]]; try discriminate. intros [= <- <-].
      split; [apply title_ok|]. exists f, x, y. auto.
    + intros [= <- <-]. split; [apply title_ok|]. exists f. auto.
  - destruct p as [q|]; cbn [bind].
    + destruct (detect q None) as [sizes|] eqn:E; [|discriminate]. cbn [bind]. specialize (H12 _ _ _ E). cbn in H12. destruct sizes as [|x [|y ?]]; try discriminate. intros [= <- <-].
      split; [apply title_ok|]. exists x. auto.
    + intros [= <- <-]. split; [apply title_ok|reflexivity].
Qed.
(** When it fails: an interval refused, a confidence curve that does not exist, or a detection size that does not exist; the linear class refuses
    no interval, and the interval has no influence on the detection size. *)
Theorem C84_raises c p conf dmin dmax n :
  one_or_two -> lo <= hi ->
  ((exists e, drawPOD lo hi model getCL detect c p conf dmin dmax n = Raise e) <->
   ((forall f, c <> FLinear f) /\ exists x, (dmin = Some x \/ dmax = Some x) /\ ~ lo <= x <= hi) \/
   (exists g e, conf = Some g /\ getCL g = Raise e) \/ (exists q e, p = Some q /\ detect q conf = Raise e)).
Proof.
  intros H12 Hlh. unfold drawPOD.
  assert (ID : (exists ab, interval lo hi c dmin dmax = Ok ab) /\ ~ ((forall f, c <> FLinear f) /\ exists x, (dmin = Some x \/ dmax = Some x) /\ ~ lo <= x <= hi) \/
    (exists e, interval lo hi c dmin dmax = Raise e) /\ ((forall f, c <> FLinear f) /\ exists x, (dmin = Some x \/ dmax = Some x) /\ ~ lo <= x <= hi)).
  { destruct (C61_accepted_intervals lo hi dmin dmax Hlh) as (_ & [A1 A2] & A3).
    assert (MM : (exists ab, draw_interval lo hi dmin dmax = Ok ab) /\ ~ (exists x, (dmin = Some x \/ dmax = Some x) /\ ~ lo <= x <= hi) \/
      (exists e, draw_interval lo hi dmin dmax = Raise e) /\ (exists x, (dmin = Some x \/ dmax = Some x) /\ ~ lo <= x <= hi)).
    { destruct (draw_interval lo hi dmin dmax) as [ab|e] eqn:E.
      - left. split; [eauto|]. intros F. specialize (A3 F). discriminate.
      - right. split; [eauto|].
        assert (DD : forall x, lo <= x <= hi \/ ~ lo <= x <= hi) by (intros x; destruct (Rle_dec lo x), (Rle_dec x hi); [left|right|right|right]; lra).
        assert (D1 : (exists x, (dmin = Some x \/ dmax = Some x) /\ ~ lo <= x <= hi) \/ (forall x, dmin = Some x \/ dmax = Some x -> lo <= x <= hi)).
        { destruct dmin as [x|], dmax as [y|].
          - destruct (DD x); [|left; eauto]. destruct (DD y); [|left; eauto]. right. intros z [[= <-]|[= <-]]; assumption.
          - destruct (DD x); [|left; eauto]. right. intros z [[= <-]|[=]]; assumption.
          - destruct (DD y); [|left; eauto]. right. intros z [[=]|[= <-]]; assumption.
          - right. intros z [[=]|[=]]. }
        destruct D1 as [D1|D1]; [exact D1|]. destruct (A2 D1). discriminate. }
    unfold interval. destruct c as [f| | | |]; [left; split; [eauto|intros [F _]; exact (F f eq_refl)]|..];
      (destruct MM as [[M1 M2]|[M1 M2]]; [left; split; [exact M1|intros [_ F]; contradiction]|right; split; [exact M1|split; [discriminate|exact M2]]]). }
  destruct ID as [[(ab & ->) N]|[(e & ->) Y]]; cbn [bind]; [|split; [intros _; left; exact Y|intros _; eauto]].
  unfold inner_drawPOD. destruct conf as [g|]; cbn [bind].
  - destruct (getCL g) as [f|e] eqn:Eg; cbn [bind]; [|split; [intros _; right; left; exists g, e; auto|intros _; eauto]].
    assert (NG : ~ exists g0 e, Some g = Some g0 /\ getCL g0 = Raise e) by (intros (g0 & e & [= <-] & F); congruence).
    destruct p as [q|]; cbn [bind]; [|split; [intros (e & F); discriminate|intros [F|[F|(q & e & F & _)]]; [contradiction|contradiction|discriminate]]].
    destruct (detect q (Some g)) as [sizes|e] eqn:E; cbn [bind]; [|split; [intros _; right; right; exists q, e; auto|intros _; eauto]].
    specialize (H12 _ _ _ E). cbn in H12. destruct sizes as [|x [|y [|? ?]]]; try discriminate. cbn.
    split; [intros (e & F); discriminate|]. intros [F|[F|(q0 & e & [= <-] & F)]]; [contradiction|contradiction|congruence].
  - assert (NG : ~ exists g0 e, @None R = Some g0 /\ getCL g0 = Raise e) by (intros (g0 & e & F & _); discriminate).
    destruct p as [q|]; cbn [bind]; [|split; [intros (e & F); discriminate|intros [F|[F|(q & e & F & _)]]; [contradiction|contradiction|discriminate]]].
    destruct (detect q None) as [sizes|e] eqn:E; cbn [bind]; [|split; [intros _; right; right; exists q, e; auto|intros _; eauto]].
    specialize (H12 _ _ _ E). cbn in H12. destruct sizes as [|x [|y ?]]; try discriminate. cbn.
    split; [intros (e & F); discriminate|]. intros [F|[F|(q0 & e & [= <-] & F)]]; [contradiction|contradiction|congruence].
Qed.
End Pod.

(** *** The classes which share the detection size computation *)
Definition curve_on (f : R -> res R) (lo hi : R) : Prop := cont_on (total f) lo hi /\ forall x, lo <= x <= hi -> exists v, f x = Ok v.
Lemma class_one_or_two solve lo hi model getCL : one_or_two (class_detect solve lo hi model getCL).
Proof.
  intros p conf sizes. unfold class_detect. destruct conf as [g|].
  - destruct (getCL g) as [f|]; [|discriminate]. cbn [bind]. unfold computeDetectionSize. destruct (_ && _); [|discriminate]. destruct (solve _ _ _ _); [|discriminate]. cbn [bind].
    destruct (_ && _); [|discriminate]. destruct (solve _ _ _ _); [|discriminate]. cbn [bind]. now intros [= <-].
  - unfold computeDetectionSize. destruct (_ && _); [|discriminate]. destruct (solve _ _ _ _); [|discriminate]. cbn [bind]. now intros [= <-].
Qed.
(** Every vertical line ends on the curve with the same confidence level, at the probability level; its size is inside the range of the class,
    so inside the graph when no interval is given. *)
Theorem C84_markers solve lo hi model getCL c q conf dmin dmax n t els :
  solver_spec solve -> lo <= hi -> curve_on model lo hi -> (forall g f, getCL g = Ok f -> curve_on f lo hi) ->
  drawPOD lo hi model getCL (class_detect solve lo hi model getCL) c (Some q) conf dmin dmax n = Ok (t, els) ->
  forall x p g, In (Size x p g) els ->
    p = q /\ lo <= x <= hi /\ (exists f a b, In (Curve f a b n g) els /\ f x = Ok q /\ In (Level q a b) els /\ (dmin = None -> dmax = None -> a <= x <= b)).
Proof.
  intros Hs Hlh [Mc Md] Hcl H x p g Hin. assert (T := C84_content lo hi model getCL _ c (Some q) conf dmin dmax n t els (class_one_or_two solve lo hi model getCL) H). destruct T as [_ T]. cbn zeta in T.
  assert (TT : forall f y, curve_on f lo hi -> lo <= y <= hi -> total f y = q -> f y = Ok q).
  { intros f y [_ Fd] Hy E. destruct (Fd y Hy) as [v Ev]. unfold total in E. rewrite Ev in *. now rewrite E. }
  destruct conf as [g0|].
  - destruct T as (f & x0 & y0 & Ef & Ed & ->). unfold class_detect in Ed. rewrite Ef in Ed. cbn [bind] in Ed. assert (Fc := Hcl g0 f Ef).
    destruct (C09_detection_size_with_confidence solve (total model) (total f) q lo hi Hs Hlh Mc (proj1 Fc)) as [D1 D2].
    assert (B : total model lo <= q <= total model hi /\ total f lo <= q <= total f hi).
    { destruct (Rle_dec (total model lo) q), (Rle_dec q (total model hi)), (Rle_dec (total f lo) q), (Rle_dec q (total f hi)); try (split; lra); exfalso; rewrite D2 in Ed by lra; discriminate. }
    destruct (D1 B) as (a & b & Ed' & Ha & Ea & Hb & Eb). rewrite Ed' in Ed. injection Ed as <- <-.
    destruct Hin as [F|[F|[F|[F|[F|[]]]]]]; try discriminate F; injection F as <- <- <-; (split; [reflexivity|]); (split; [assumption|]).
    + eexists model, _, _. split; [left; reflexivity|]. split; [apply TT; auto; split; assumption|]. split; [cbn; auto|]. intros -> ->. assumption.
    + eexists f, _, _. split; [right; left; reflexivity|]. split; [apply TT; auto|]. split; [cbn; auto|]. intros -> ->. assumption.
  - destruct T as (x0 & Ed & ->). unfold class_detect in Ed. destruct (C09_detection_size solve (total model) q lo hi Hs Hlh Mc) as [D1 D2].
    assert (B : total model lo <= q <= total model hi) by (destruct (Rle_dec (total model lo) q), (Rle_dec q (total model hi)); try (split; lra); exfalso; rewrite D2 in Ed by lra; discriminate).
    destruct (D1 B) as (a & Ed' & Ha & Ea). rewrite Ed' in Ed. injection Ed as <-. destruct Hin as [F|[F|[F|[]]]]; try discriminate F. injection F as <- <- <-.
    split; [reflexivity|]. split; [assumption|]. eexists model, _, _. split; [left; reflexivity|]. split; [apply TT; auto; split; assumption|]. split; [cbn; auto|]. intros -> ->. assumption.
Qed.
(** A straight POD curve on sizes 0 to 4 (x / 8) used in the cases. *)
Definition slope8 (x : R) : res R := Ok (x / 8).
Definition noCL (g : R) : res (R -> res R) := Raise GenericException.
Lemma slope8_on a b : curve_on slope8 a b.
Proof.
  split; [|intros x _; eexists; reflexivity]. apply lipschitz_cont_on with 1. intros x y _ _. unfold total, slope8. replace (y / 8 - x / 8) with ((y - x) * / 8) by field.
  rewrite Rabs_mult, (Rabs_right (/ 8)) by lra. assert (G := Rabs_pos (y - x)). lra.
Qed.
(** Finding: an interval given to drawPOD does not move the vertical line, which may be outside of the graph. *)
Theorem C84_marker_outside_refuted :
  exists t els x, drawPOD 0 4 slope8 noCL (class_detect bisection 0 4 slope8 noCL) FKriging (Some (1 / 4)) None (Some 3) (Some 4) 100 = Ok (t, els) /\
    In (Size x (1 / 4) None) els /\ In (Level (1 / 4) 3 4) els /\ x < 3.
Proof.
  destruct (C09_detection_size bisection (total slope8) (1 / 4) 0 4 bisection_spec ltac:(lra) (proj1 (slope8_on 0 4))) as [D _].
  destruct D as (a & Ea & Ha & Va); [unfold total, slope8; lra|]. unfold drawPOD, interval, draw_interval. repeat rewrite (proj2 (Rltb_false _ _)) by lra. cbn [bind fst snd].
  unfold inner_drawPOD, class_detect. rewrite Ea. cbn [bind nth_error]. eexists _, _, a. split; [reflexivity|]. split; [cbn; auto|]. split; [cbn; auto|]. unfold total, slope8 in Va. lra.
Qed.
(** Finding: in the linear class, an interval wide enough to contain the size wanted does not help: the method raises because the level is not
    reached on the interval of the data. *)
Theorem C84_wider_interval_refuted :
  exists x, 0 <= x <= 8 /\ slope8 x = Ok (3 / 4) /\
    drawPOD 0 4 slope8 noCL (class_detect bisection 0 4 slope8 noCL) (FLinear None) (Some (3 / 4)) None (Some 0) (Some 8) 100 = Raise GenericException.
Proof.
  exists 6. split; [lra|]. split; [unfold slope8; f_equal; lra|]. unfold drawPOD, interval. cbn [bind fst snd]. unfold inner_drawPOD, class_detect.
  destruct (C09_detection_size bisection (total slope8) (3 / 4) 0 4 bisection_spec ltac:(lra) (proj1 (slope8_on 0 4))) as [_ D]. rewrite D; [reflexivity|]. unfold total, slope8. lra.
Qed.
Print Assumptions C84_content.
Print Assumptions C84_raises.
Print Assumptions C84_markers.
Print Assumptions C84_marker_outside_refuted.
Print Assumptions C84_wider_interval_refuted.
(** A complete figure: curve, confidence curve, level and both lines. *)
Definition lower (g : R) : res (R -> res R) := Ok (fun x => Ok (x / 8 - 1 / 8)).
Example C84_case : exists t els, drawPOD 0 4 slope8 lower (class_detect bisection 0 4 slope8 lower) FChaos (Some (1 / 4)) (Some (95 / 100)) None None 100 = Ok (t, els) /\ List.length els = 5%nat.
Proof.
  assert (LC : forall g f, lower g = Ok f -> curve_on f 0 4).
  { intros g f [= <-]. split; [|intros; eexists; reflexivity]. apply lipschitz_cont_on with 1. intros x y _ _. unfold total. replace (y / 8 - 1 / 8 - (x / 8 - 1 / 8)) with ((y - x) * / 8) by field.
    rewrite Rabs_mult, (Rabs_right (/ 8)) by lra. assert (G := Rabs_pos (y - x)). lra. }
  destruct (drawPOD 0 4 slope8 lower (class_detect bisection 0 4 slope8 lower) FChaos (Some (1 / 4)) (Some (95 / 100)) None None 100) as [[t els]|e] eqn:E.
  - exists t, els. split; [reflexivity|]. apply C84_content in E; [|apply class_one_or_two]. destruct E as (_ & f & x & y & _ & _ & ->). reflexivity.
  - exfalso. destruct (proj1 (C84_raises 0 4 slope8 lower (class_detect bisection 0 4 slope8 lower) FChaos (Some (1 / 4)) (Some (95 / 100)) None None 100 (class_one_or_two _ _ _ _ _) ltac:(lra)) (ex_intro _ e E)) as [(_ & x & [F|F] & _)|[(g & e' & _ & F)|(q & e' & [= <-] & F)]]; try discriminate.
    unfold class_detect, lower in F. cbn [bind] in F.
    destruct (C09_detection_size_with_confidence bisection (total slope8) (total (fun x => Ok (x / 8 - 1 / 8))) (1 / 4) 0 4 bisection_spec ltac:(lra) (proj1 (slope8_on 0 4)) (proj1 (LC 0 _ eq_refl))) as [D _].
    destruct D as (a & b & D & _); [unfold total, slope8; lra|]. rewrite D in F. discriminate.
Qed.

(** *** C85: validation graph *)
(** It fails only without data or with a number of predictions different from the number of signals; it shows the pairs in order; the limits of
    the axes leave no point outside exactly when no signal nor prediction is negative (the comment of the code: assuming target and prediction > 0). *)
Theorem C85_validation target prediction :
  match drawValidationGraph target prediction with
  | Ok g =>
      List.length target = List.length prediction /\ target <> [] /\ v_points g = combine target prediction /\
      ((forall x y, In (x, y) (v_points g) -> v_lo g <= x <= v_hi g /\ v_lo g <= y <= v_hi g) <-> (forall v, In v (target ++ prediction) -> 0 <= v))
  | Raise e => e = ValueError /\ (target = [] \/ List.length target <> List.length prediction)
  end.
Proof.
  unfold drawValidationGraph. destruct (target ++ prediction) as [|v0 l0] eqn:E.
  - destruct target; [|discriminate]. auto.
  - destruct (Nat.eqb_spec (List.length target) (List.length prediction)) as [L|L]; [|auto]. rewrite <- E. cbn [v_lo v_hi v_points].
    assert (N : target <> []) by (intros ->; destruct prediction; discriminate).
    assert (NA : target ++ prediction <> []) by (rewrite E; discriminate). clear E v0 l0.
    split; [exact L|]. split; [exact N|]. split; [reflexivity|]. set (m := Rlmin (target ++ prediction)). set (M := Rlmax (target ++ prediction)). split.
    + intros H.
      assert (P : 99 / 100 * m <= m).
      { assert (G := Rlmin_in _ NA). fold m in G. apply in_app_or in G. destruct G as [G|G].
        - destruct (In_nth _ _ 0 G) as (i & Hi & Ei). destruct (H (nth i target 0) (nth i prediction 0)) as [HH _]; [|rewrite Ei in HH; apply HH].
          rewrite <- combine_nth by exact L. apply nth_In. rewrite combine_length, <- L, Nat.min_id. first [exact Hi|rewrite L; exact Hi].
        - destruct (In_nth _ _ 0 G) as (i & Hi & Ei). destruct (H (nth i target 0) (nth i prediction 0)) as [_ HH]; [|rewrite Ei in HH; apply HH].
          rewrite <- combine_nth by exact L. apply nth_In. rewrite combine_length, <- L, Nat.min_id. first [exact Hi|rewrite L; exact Hi]. }
      intros v Hv. assert (G := Rlmin_le _ _ Hv). fold m in G. lra.
    + intros H x y Hxy. assert (P := H _ (Rlmin_in _ NA)). fold m in P.
      assert (X : In x (target ++ prediction)) by (apply in_or_app; left; exact (in_combine_l _ _ _ _ Hxy)).
      assert (Y : In y (target ++ prediction)) by (apply in_or_app; right; exact (in_combine_r _ _ _ _ Hxy)).
      assert (G1 := Rlmin_le _ _ X). assert (G2 := Rlmax_ge _ _ X). assert (G3 := Rlmin_le _ _ Y). assert (G4 := Rlmax_ge _ _ Y). fold m in G1, G3. fold M in G2, G4. lra.
Qed.
(** Finding: with negative signals (after a Box-Cox transformation for instance) the worst point is outside of the axes. *)
Theorem C85_validation_refuted : exists g, drawValidationGraph [-1; 1] [-1; 1] = Ok g /\ In (-1, -1) (v_points g) /\ -1 < v_lo g.
Proof.
  eexists. split; [reflexivity|]. cbn [v_points v_lo]. split; [now left|]. cbn [app].
  assert (G : Rlmin [-1; 1; -1; 1] <= -1) by (apply Rlmin_le; now left). assert (G2 := Rlmin_in [-1; 1; -1; 1] ltac:(discriminate)). cbn [In] in G2. lra.
Qed.
(** *** C85: the chaos model against the data *)
(** Only in dimension one; every observation is shown, and the curve goes through the predictions of the chaos at the same defects, from left to
    right. *)
Theorem C85_chaos dim chaos defects signals :
  (dim <> 1%nat -> drawPolynomialChaosModel dim chaos defects signals = Raise GenericException) /\
  (dim = 1%nat -> exists line, drawPolynomialChaosModel dim chaos defects signals = Ok (combine defects signals, line) /\
     Permutation (map fst line) defects /\ Rsorted (map fst line) /\ forall x y, In (x, y) line -> y = chaos x).
Proof.
  unfold drawPolynomialChaosModel. split.
  - intros N. apply Nat.eqb_neq in N. now rewrite N.
  - intros ->. rewrite Nat.eqb_refl. eexists. split; [reflexivity|].
    assert (C : forall l, combine l (map chaos l) = map (fun x => (x, chaos x)) l) by (intros l; induction l as [|x l IH]; cbn; [reflexivity|now rewrite IH]).
    rewrite C. assert (Mf : map fst (map (fun x => (x, chaos x)) (Rsort defects)) = Rsort defects) by (rewrite map_map; cbn; apply map_id).
    rewrite Mf. split; [apply Rsort_perm|]. split; [apply Rsort_sorted|]. intros x y H. apply in_map_iff in H. destruct H as (z & [= <- <-] & _). reflexivity.
Qed.
(** *** C85: the quantile regression line *)
(** The criterion minimised by statsmodels' QuantReg.fit(q). *)
Definition tilted (q r : R) : R := if Rltb r 0 then (q - 1) * r else q * r.
Definition loss (q : R) (pts : list (R * R)) (a b : R) : R := Rsum (map (fun xy => tilted q (snd xy - (a + b * fst xy))) pts).
Definition minimiser (fit : R -> res (R * R)) (pts : list (R * R)) : Prop :=
  forall q a b, fit q = Ok (a, b) -> forall a' b', loss q pts a b <= loss q pts a' b'.
Lemma margin (l : list R) : exists e, 0 < e /\ forall r, In r l -> (0 < r -> e <= r) /\ (r < 0 -> r <= - e).
Proof.
  induction l as [|r l (e & He & IH)]; [exists 1; split; [lra|intros r []]|].
  destruct (Req_dec r 0) as [->|N]; [exists e; split; [exact He|]; intros r' [<-|H]; [split; lra|auto]|].
  exists (Rmin e (Rabs r)). assert (A := Rabs_pos_lt r N). split; [now apply Rmin_glb_lt|]. assert (B1 := Rmin_l e (Rabs r)). assert (B2 := Rmin_r e (Rabs r)).
  intros r' [<-|H]; [|destruct (IH r' H); split; intros; [assert (e <= r') by auto|assert (r' <= - e) by auto]; lra].
  split; intros S; [assert (Q := Rabs_right r ltac:(lra))|assert (Q := Rabs_left r ltac:(lra))]; lra.
Qed.
Definition below (a b : R) (xy : R * R) : bool := Rltb (snd xy) (a + b * fst xy).
Definition at_or_below (a b : R) (xy : R * R) : bool := Rleb (snd xy) (a + b * fst xy).
Lemma shift_up q a b e pts : (forall xy, In xy pts -> let r := snd xy - (a + b * fst xy) in (0 < r -> e <= r) /\ (r < 0 -> r <= - e)) -> 0 < e ->
  loss q pts (a + e) b = loss q pts a b + e * (INR (countb (at_or_below a b) pts) - q * INR (List.length pts)).
Proof.
  intros H He. unfold loss. induction pts as [|[x y] pts IH]; [cbn; lra|]. cbn [map]. rewrite !Rsum_cons, IH by (intros xy I; apply H; now right). clear IH.
  destruct (H (x, y) (or_introl eq_refl)) as [H1 H2]. cbn [fst snd] in *. unfold countb. cbn [filter List.length]. rewrite (S_INR (List.length pts)).
  unfold at_or_below at 2. cbn [fst snd]. unfold tilted at 1 3. destruct (Rleb_spec y (a + b * x)).
  - cbn [List.length]. rewrite S_INR. rewrite (proj2 (Rltb_true (y - (a + e + b * x)) 0)) by lra. destruct (Rltb_spec (y - (a + b * x)) 0); [ring|]. replace y with (a + b * x) by lra. ring.
  - rewrite (proj2 (Rltb_false (y - (a + e + b * x)) 0)) by (specialize (H1 ltac:(lra)); lra). rewrite (proj2 (Rltb_false (y - (a + b * x)) 0)) by lra. ring.
Qed.
Lemma shift_down q a b e pts : (forall xy, In xy pts -> let r := snd xy - (a + b * fst xy) in (0 < r -> e <= r) /\ (r < 0 -> r <= - e)) -> 0 < e ->
  loss q pts (a - e) b = loss q pts a b + e * (q * INR (List.length pts) - INR (countb (below a b) pts)).
Proof.
  intros H He. unfold loss. induction pts as [|[x y] pts IH]; [cbn; lra|]. cbn [map]. rewrite !Rsum_cons, IH by (intros xy I; apply H; now right). clear IH.
  destruct (H (x, y) (or_introl eq_refl)) as [H1 H2]. cbn [fst snd] in *. unfold countb. cbn [filter List.length]. rewrite (S_INR (List.length pts)).
  unfold below at 2. cbn [fst snd]. unfold tilted at 1 3. destruct (Rltb_spec y (a + b * x)).
  - cbn [List.length]. rewrite S_INR. rewrite (proj2 (Rltb_true (y - (a + b * x)) 0)) by lra. specialize (H2 ltac:(lra)).
    destruct (Rltb_spec (y - (a - e + b * x)) 0); [ring|]. replace y with (a - e + b * x) by lra. ring.
  - rewrite (proj2 (Rltb_false (y - (a - e + b * x)) 0)) by lra. rewrite (proj2 (Rltb_false (y - (a + b * x)) 0)) by lra. ring.
Qed.
(** The line drawn for the probability level p is the regression of level 1 - p; its points are at the defects. When the fit minimises its
    criterion, at least the share p of the observations is on or above the line, and at most the share p is strictly above. *)
Theorem C85_quantile_line fit defects signals p data line :
  List.length defects = List.length signals -> minimiser fit (combine defects signals) -> qr_drawLinearModel fit defects signals p = Ok (data, line) ->
  data = combine defects signals /\
  exists a b, fit (1 - p) = Ok (a, b) /\ map fst line = defects /\ (forall x y, In (x, y) line -> y = a + b * x) /\
    let n := INR (List.length data) in
    p * n <= INR (countb (fun xy => negb (below a b xy)) data) /\ INR (countb (fun xy => negb (at_or_below a b xy)) data) <= p * n.
Proof.
  intros L Hm. unfold qr_drawLinearModel. destruct (fit (1 - p)) as [[a b]|] eqn:E; [|discriminate]. cbn [bind fst snd]. intros [= <- <-]. split; [reflexivity|].
  exists a, b. split; [reflexivity|].
  assert (C : forall l, combine l (map (fun x => a + b * x) l) = map (fun x => (x, a + b * x)) l) by (intros l; induction l as [|x l IH]; cbn; [reflexivity|now rewrite IH]).
  rewrite C. split; [rewrite map_map; cbn; apply map_id|]. split; [intros x y H; apply in_map_iff in H; destruct H as (z & [= <- <-] & _); reflexivity|].
  cbn zeta. set (pts := combine defects signals) in *. specialize (Hm _ _ _ E).
  destruct (margin (map (fun xy => snd xy - (a + b * fst xy)) pts)) as (e & He & Mg).
  assert (Mg' : forall xy, In xy pts -> let r := snd xy - (a + b * fst xy) in (0 < r -> e <= r) /\ (r < 0 -> r <= - e)) by (intros xy I; apply Mg, (in_map (fun xy => snd xy - (a + b * fst xy)) _ _ I)).
  assert (U := Hm (a + e) b). rewrite (shift_up _ _ _ e) in U by assumption. assert (D := Hm (a - e) b). rewrite (shift_down _ _ _ e) in D by assumption.
  assert (K : forall f : R * R -> bool, INR (countb (fun xy => negb (f xy)) pts) = INR (List.length pts) - INR (countb f pts)).
  { intros f. unfold countb. clear. induction pts as [|x l IH]; [cbn; lra|]. cbn [filter]. destruct (f x); cbn [negb List.length]; rewrite ?S_INR, IH; lra. }
  rewrite (K (below a b)), (K (at_or_below a b)). assert (Z : forall z, 0 <= e * z -> 0 <= z) by (intros z Hz; apply Rmult_le_reg_l with e; lra).
  assert (ZU : 0 <= INR (countb (at_or_below a b) pts) - (1 - p) * INR (List.length pts)) by (apply Z; lra).
  assert (ZD : 0 <= (1 - p) * INR (List.length pts) - INR (countb (below a b) pts)) by (apply Z; lra). lra.
Qed.
(** *** C85: the densities of the perturbation law indices *)
(** The curve is the perturbed density for the delta of this row and this variable, on regular points from xMin to xMax (the quantiles 0.05 and
    0.95 of the original density by default); the original density is drawn on the same points; only an index outside of the deltas fails. *)
Theorem C85_density quantile pdf pert deltas marginal idelta original xmin xmax n :
  let a := match xmin with Some x => x | None => quantile (5 / 100) end in
  let b := match xmax with Some x => x | None => quantile (95 / 100) end in
  match drawMarginal1DPDF quantile pdf pert deltas marginal idelta original xmin xmax n with
  | Raise e => e = IndexError /\ (List.length deltas <= idelta \/ exists row, nth_error deltas idelta = Some row /\ List.length row <= marginal)%nat
  | Ok (delta, curve, other) =>
      (exists row, nth_error deltas idelta = Some row /\ nth_error row marginal = Some delta) /\
      List.length curve = n /\
      (forall x y, In (x, y) curve -> y = pert delta x /\ (a <= b -> (2 <= n)%nat -> a <= x <= b)) /\
      ((2 <= n)%nat -> map fst curve = map (fun i => a + INR i * ((b - a) / INR (n - 1))) (seq 0 n)) /\
      (if original then exists c, other = Some c /\ map fst c = map fst curve /\ forall x y, In (x, y) c -> y = pdf x else other = None)
  end.
Proof.
  cbn zeta. unfold drawMarginal1DPDF. set (a := match xmin with Some x => x | None => quantile (5 / 100) end). set (b := match xmax with Some x => x | None => quantile (95 / 100) end).
  destruct (nth_error deltas idelta) as [row|] eqn:E1; [|split; [reflexivity|left; now apply nth_error_None]].
  destruct (nth_error row marginal) as [delta|] eqn:E2; [|split; [reflexivity|right; exists row; split; [reflexivity|now apply nth_error_None]]].
  split; [exists row; auto|]. split; [unfold draw_points; now rewrite !map_length, seq_length|]. split; [|split].
  - intros x y H. apply in_map_iff in H. destruct H as (z & [= <- <-] & H). split; [reflexivity|]. intros Hab Hn. apply (draw_points_in a b a b n z); [lra|lra|exact Hn|exact H].
  - intros Hn. rewrite map_map. cbn [fst]. rewrite map_id. unfold draw_points. apply map_ext. intros i. unfold Rdiv. ring.
  - destruct original; [|reflexivity]. eexists. split; [reflexivity|]. rewrite !map_map. cbn [fst]. split; [reflexivity|].
    intros x y H. apply in_map_iff in H. destruct H as (z & [= <- <-] & _). reflexivity.
Qed.
Print Assumptions C85_validation.
Print Assumptions C85_validation_refuted.
Print Assumptions C85_chaos.
Print Assumptions C85_quantile_line.
Print Assumptions C85_density.
(** Cases: a validation graph without loss, a minimiser (median line through two of four points). *)
Example C85_validation_case : exists g, drawValidationGraph [1; 2] [1; 3] = Ok g /\ v_points g = [(1, 1); (2, 3)].
Proof. eexists. split; reflexivity. Qed.
Definition med_fit (q : R) : res (R * R) := if Reqb q (1 / 2) then Ok (1, 0) else Raise ValueError.
Example C85_minimiser_case : minimiser med_fit (combine [0; 0; 0; 1] [0; 1; 2; 1]).
Proof.
  intros q a b. unfold med_fit. destruct (Reqb_spec q (1 / 2)) as [->|]; [|discriminate]. intros [= <- <-] a' b'. unfold loss. cbn [combine map fst snd]. rewrite !Rsum_cons, Rsum_nil.
  assert (T : forall r, tilted (1 / 2) r = Rabs r / 2) by (intros r; unfold tilted; destruct (Rltb_spec r 0); [rewrite Rabs_left by lra|rewrite Rabs_right by lra]; lra).
  rewrite !T. assert (P1 := Rabs_pos (1 - (a' + b' * 0))). assert (P2 := Rabs_pos (1 - (a' + b' * 1))).
  replace (0 - (1 + 0 * 0)) with (- (1)) by ring. replace (1 - (1 + 0 * 0)) with 0 by ring. replace (2 - (1 + 0 * 0)) with 1 by ring. replace (1 - (1 + 0 * 1)) with 0 by ring.
  rewrite Rabs_Ropp, Rabs_R1, Rabs_R0. assert (Q1 := Rle_abs (- (0 - (a' + b' * 0)))). rewrite Rabs_Ropp in Q1. assert (Q2 := Rle_abs (2 - (a' + b' * 0))). lra.
Qed.
Example C85_quantile_case : exists data line, qr_drawLinearModel med_fit [0; 0; 0; 1] [0; 1; 2; 1] (1 / 2) = Ok (data, line).
Proof. unfold qr_drawLinearModel, med_fit. rewrite (proj2 (Reqb_true _ _)) by lra. cbn [bind]. eauto. Qed.
Example C85_density_case : exists c o, drawMarginal1DPDF (fun q => q) (fun x => 1) (fun d x => d * x) [[1; 2]; [3; 4]] 1 0 true None (Some 2) 3 = Ok (2, c, o).
Proof. do 2 eexists. reflexivity. Qed.
