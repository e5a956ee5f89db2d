(** C80, C81: the linear model POD from the data to its curves; its bootstrap collection. *)
From Coq Require Import Reals Lra.
From Verif Require Import RealBase RegModel RegProofs RegProps LinPodModel LinPodProps BoxCoxModel BoxCoxProps QuantileModel LinObjModel.
Local Open Scope R_scope.

(** *** What the fit works on *)
(** An observation is used when its signal is strictly between the thresholds that are given, or always for uncensored data. *)
Definition used (c : settings) (y : R) : Prop :=
  c_censored c = true -> (forall t, c_noise c = Some t -> t < y) /\ (forall t, c_sat c = Some t -> y < t).
Definition usedb (c : settings) (y : R) : bool := if c_censored c then inside (c_noise c) (c_sat c) y else true.
Lemma usedb_spec c y : usedb c y = true <-> used c y.
Proof.
  unfold usedb, used, inside. destruct (c_censored c); [|split; [discriminate|reflexivity]].
  rewrite andb_true_iff. split.
  - intros [A B] _. split; intros t E; [rewrite E in A|rewrite E in B]; now apply Rltb_true.
  - intros H. destruct (H eq_refl) as [A B]. split.
    + destruct (c_noise c); [|reflexivity]. apply Rltb_true. auto.
    + destruct (c_sat c); [|reflexivity]. apply Rltb_true. auto.
Qed.
Lemma used_filter c d : (if c_censored c then filter (fun p => inside (c_noise c) (c_sat c) (snd p)) d else d) = filter (fun p : R * R => usedb c (snd p)) d.
Proof.
  unfold usedb. destruct (c_censored c); [reflexivity|]. induction d as [|p d IH]; [reflexivity|]. cbn. now rewrite <- IH.
Qed.
Lemma combine_map {A B C} (f : A -> B) (g : A -> C) l : combine (map f l) (map g l) = map (fun p => (f p, g p)) l.
Proof. induction l as [|x l IH]; [reflexivity|]. cbn. now rewrite IH. Qed.

(** The increasing function applied to the signals and to the detection threshold: identity without Box-Cox. *)
Lemma stage opt sig det no sa bx ce o : pod_run opt sig det no sa bx ce = Ok o ->
  exists T : R -> R, o_signals o = map T sig /\ o_detection o = T det /\ (bx = false -> forall y, T y = y) /\
    (forall y y', In y (det :: sig) -> In y' (det :: sig) -> (T y < T y' <-> y < y')) /\
    (ce = true -> o_noise o = option_map T no /\ o_sat o = option_map T sa).
Proof.
  unfold pod_run. destruct bx.
  - destruct (auto_shift sig) as [shift|] eqn:E1; [|discriminate]. cbn [bind]. destruct (opt sig shift) as [lam|] eqn:E2; [|discriminate]. cbn [bind].
    destruct (map_res _ sig) as [sg|] eqn:E3; [|discriminate]. cbn [bind]. destruct (if ce then _ else _) as [n1|] eqn:E5; [|discriminate]. cbn [bind].
    destruct (if ce then bc_threshold lam shift sa else _) as [n2|] eqn:E6; [|discriminate]. cbn [bind].
    destruct (boxcox lam (det + shift)) as [dt|] eqn:E4; [|discriminate]. cbn [bind]. intros [= <-]. cbn.
    apply boxcox_inv in E4. destruct E4 as [P ->]. apply map_res_inv in E3.
    assert (Q : sg = map (fun y => bc lam (y + shift)) sig /\ forall y, In y sig -> 0 < y + shift).
    { clear -E3. induction E3 as [|x y l ys H _ [-> IH]]; [split; [reflexivity|intros ? []]|]. apply boxcox_inv in H. destruct H as [H ->].
      split; [reflexivity|]. intros z [<-|Hz]; auto. }
    destruct Q as [-> Q]. exists (fun y => bc lam (y + shift)). split; [reflexivity|]. split; [reflexivity|]. split; [discriminate|].
    assert (G : forall y, In y (det :: sig) -> 0 < y + shift) by (intros y [<-|H]; auto).
    split; [intros y y' Hy Hy'; rewrite bc_lt_iff by auto; split; lra|]. intros ->.
    assert (TH : forall t n, bc_threshold lam shift t = Ok n -> n = option_map (fun y => bc lam (y + shift)) t).
    { intros [t|] m; cbn; [|congruence]. destruct (boxcox lam (t + shift)) eqn:E; [|discriminate]. apply boxcox_inv in E. destruct E as [_ ->]. cbn. congruence. }
    split; now apply TH.
  - intros [= <-]. cbn. exists (fun y => y). rewrite map_id. repeat split; auto; [now destruct no|now destruct sa].
Qed.

(** The fit is made on the observations used, in order, with the signals and the threshold changed by one increasing function; the residuals
    are those of the line of the result. *)
Theorem C80_fit s c d l :
  computeLinearModel s c d = Ok l ->
  exists T : R -> R, exists obs, l_obs l = map (fun p => (fst p, T (snd p))) obs /\ obs = filter (fun p : R * R => usedb c (snd p)) d /\ obs <> [] /\
    (forall p, In p obs <-> In p d /\ used c (snd p)) /\
    l_det l = T (c_det c) /\ (c_boxcox c = false -> forall y, T y = y) /\
    (forall y y', In y (c_det c :: map snd obs) -> In y' (c_det c :: map snd obs) -> (T y < T y' <-> y < y')) /\
    l_resid l = map (fun p => T (snd p) - (l_a l + l_b l * fst p)) obs /\
    (c_censored c = false -> ols (l_obs l) = (l_a l, l_b l) /\ l_stderr l = stderr (l_obs l)) /\
    (c_censored c = true -> exists xn xs,
       xn = map fst (filter (fun p : R * R => match c_noise c with Some t => Rleb (snd p) t | None => false end) d) /\
       xs = map fst (filter (fun p : R * R => match c_sat c with Some t => Rleb t (snd p) | None => false end) d) /\
       s_fit s (fst (ols (l_obs l)), snd (ols (l_obs l)), stderr (l_obs l)) (l_obs l) xn xs (option_map T (c_noise c)) (option_map T (c_sat c))
         = Ok (l_a l, l_b l, l_stderr l)).
Proof.
  unfold computeLinearModel. rewrite used_filter. set (obs := filter (fun p : R * R => usedb c (snd p)) d).
  destruct (pod_run _ _ _ _ _ _ _) as [o|] eqn:E; [|discriminate]. cbn [bind]. apply stage in E. destruct E as (T & E1 & E2 & E3 & E4 & E5).
  rewrite E1, map_map, combine_map. destruct (map (fun x : R * R => (fst x, T (snd x))) obs) as [|q0 qs] eqn:Eo; [discriminate|]. rewrite <- Eo.
  assert (H : forall a b, residuals a b (map (fun x : R * R => (fst x, T (snd x))) obs) = map (fun p => T (snd p) - (a + b * fst p)) obs).
  { intros a b. unfold residuals. rewrite map_map. reflexivity. }
  intros HR. exists T, obs. assert (X : l_obs l = map (fun x : R * R => (fst x, T (snd x))) obs /\ l_det l = o_detection o /\
    l_resid l = residuals (l_a l) (l_b l) (map (fun x : R * R => (fst x, T (snd x))) obs) /\
    (c_censored c = false -> ols (l_obs l) = (l_a l, l_b l) /\ l_stderr l = stderr (l_obs l)) /\
    (c_censored c = true -> exists xn xs,
       xn = map fst (filter (fun p : R * R => match c_noise c with Some t => Rleb (snd p) t | None => false end) d) /\
       xs = map fst (filter (fun p : R * R => match c_sat c with Some t => Rleb t (snd p) | None => false end) d) /\
       s_fit s (fst (ols (l_obs l)), snd (ols (l_obs l)), stderr (l_obs l)) (l_obs l) xn xs (option_map T (c_noise c)) (option_map T (c_sat c))
         = Ok (l_a l, l_b l, l_stderr l))).
  { destruct (ols _) as [a b] eqn:EO. destruct (c_censored c).
    - destruct (E5 eq_refl) as [N1 N2]. rewrite N1, N2 in HR. destruct (s_fit _ _ _ _ _ _ _) as [[[a' b'] se']|] eqn:EF; [|discriminate]. cbn [bind] in HR. injection HR as <-. cbn [l_obs l_a l_b l_stderr l_det l_resid].
      repeat split; try discriminate. intros _. eexists _, _. split; [reflexivity|]. split; [reflexivity|]. unfold stderr in *. rewrite EO in *. exact EF.
    - injection HR as <-. cbn. repeat split; auto; discriminate. }
  destruct X as (X1 & X2 & X3 & X4). split; [exact X1|]. split; [reflexivity|]. split; [intros Z; rewrite Z in Eo; discriminate|].
  split; [intros p; unfold obs; rewrite filter_In; now rewrite usedb_spec|]. split; [congruence|]. split; [exact E3|]. split; [exact E4|]. split; [now rewrite X3, H|exact X4].
Qed.

(** The curve of an object just run. *)
Definition mean_pod ccdf c d k n w x : res R :=
  let o := fst (run ccdf c d k n w fresh) in do f <- getPODModel o; call_pod ccdf f o x.
Definition made k (l : linres) (build : list R -> res (R -> R)) : res closure :=
  match k with
  | Binomial => Ok (KBinomial (l_resid l))
  | Gauss => Ok (KGauss (map fst (l_obs l)) (l_stderr l))
  | Bootstrap => do f <- build (l_resid l); Ok (KBootstrap f)
  end.
Lemma mean_pod_eq ccdf c d k n w x :
  mean_pod ccdf c d k n w x =
  match computeLinearModel (w_solver w 0) c d with
  | Raise _ => Raise AttributeError
  | Ok l => match made k l (w_build w 0) with Ok f => Ok (eval ccdf f l x) | Raise _ => Raise AttributeError end
  end.
Proof.
  unfold mean_pod, run. destruct (computeLinearModel _ c d) as [l|e]; [|reflexivity]. destruct k; cbn [made].
  - reflexivity.
  - destruct (gauss_coll ccdf w l n); reflexivity.
  - destruct (w_build w 0 (l_resid l)); [|reflexivity]. cbn [bind]. destruct (bootstrap_coll w c d 0 n); reflexivity.
Qed.

(** Berens' curve: at size x, the part of the observations used that would be detected if each of them were moved along the fitted line from
    its own size to x. At its own size an observation counts iff its signal is above the detection threshold. *)
Theorem C80_binomial ccdf c d n w x v :
  mean_pod ccdf c d Binomial n w x = Ok v ->
  exists T b obs, obs = filter (fun p : R * R => usedb c (snd p)) d /\ obs <> [] /\
    v * INR (length obs) = INR (length (filter (fun p => Rltb (T (c_det c)) (T (snd p) + b * (x - fst p))) obs)) /\ 0 <= v <= 1 /\
    (c_boxcox c = false -> forall y, T y = y) /\
    (forall p, In p obs -> (T (c_det c) < T (snd p) + b * (fst p - fst p) <-> c_det c < snd p)) /\
    (c_censored c = false -> non_constant obs -> exists a, forall a' b',
       Rsum (map (fun p => (T (snd p) - (a + b * fst p)) ^ 2) obs) <= Rsum (map (fun p => (T (snd p) - (a' + b' * fst p)) ^ 2) obs)).
Proof.
  rewrite mean_pod_eq. destruct (computeLinearModel _ c d) as [l|e] eqn:E; [|discriminate]. cbn [made]. intros [= <-].
  destruct (C80_fit _ _ _ _ E) as (T & obs & E1 & E2 & E3 & E4 & E5 & E6 & E7 & E8 & E9 & _). exists T, (l_b l), obs. split; [exact E2|]. split; [exact E3|].
  assert (Hn : l_resid l <> []) by (rewrite E8; destruct obs; [contradiction|discriminate]).
  destruct (C12_proportion (l_resid l) (l_a l) (l_b l) (l_det l) x Hn) as [P1 P2]. cbn [eval]. split; [|split; [exact P2|split; [exact E6|split]]].
  - rewrite E8, map_length in P1. rewrite <- E8 in P1. rewrite P1. rewrite E8. f_equal.
    change (countb (fun r => Rltb (l_det l) (l_a l + l_b l * x + r)) (map (fun p => T (snd p) - (l_a l + l_b l * fst p)) obs)
          = countb (fun p => Rltb (T (c_det c)) (T (snd p) + l_b l * (x - fst p))) obs).
    rewrite countb_map, E5. apply countb_ext. intros p _. f_equal. ring.
  - intros p Hp. rewrite Rminus_eq_0, Rmult_0_r, Rplus_0_r. apply E7; [now left|right; now apply in_map].
  - intros HC Hn'. exists (l_a l). intros a' b'. assert (NC : non_constant (l_obs l)).
    { rewrite E1. destruct Hn' as (p & q & Hp & Hq & Hne). exists (fst p, T (snd p)), (fst q, T (snd q)).
      split; [now apply (in_map (fun p => (fst p, T (snd p))))|]. split; [now apply (in_map (fun p => (fst p, T (snd p))))|exact Hne]. }
    destruct (C11_least_squares_minimum (l_obs l) (l_a l) (l_b l) NC (proj1 (E9 HC)) a' b') as [LS _]. rewrite E1, !map_map in LS. exact LS.
Qed.

(** *** Change of units *)
Definition affine (cx kx cy ky : R) (d : data) : data := map (fun p => (cx * fst p + kx, cy * snd p + ky)) d.
Lemma affine_fst cx kx cy ky d : map fst (affine cx kx cy ky d) = map (fun x => cx * x + kx) (map fst d).
Proof. unfold affine. now rewrite !map_map. Qed.
Lemma affine_snd cx kx cy ky d : map snd (affine cx kx cy ky d) = map (fun x => cy * x + ky) (map snd d).
Proof. unfold affine. now rewrite !map_map. Qed.
Lemma Rmean_affine c k l : l <> [] -> Rmean (map (fun x => c * x + k) l) = c * Rmean l + k.
Proof.
  intros H. unfold Rmean. rewrite map_length. rewrite (Rsum_plus (fun x => c * x) (fun _ => k)), Rsum_const, Rsum_scal, map_id.
  assert (P := length_pos l H). field. lra.
Qed.
Lemma ols_affine cx kx cy ky d a b : cx <> 0 -> non_constant d -> ols d = (a, b) ->
  ols (affine cx kx cy ky d) = (cy * a + ky - cy * b / cx * kx, cy * b / cx).
Proof.
  intros Hc Hn E. assert (Hd := non_constant_nil d Hn). assert (S := proj1 (Sxx_pos d) Hn). unfold ols in *.
  assert (M1 : map fst d <> []) by (destruct d; [contradiction|discriminate]). assert (M2 : map snd d <> []) by (destruct d; [contradiction|discriminate]).
  assert (X : xbar (affine cx kx cy ky d) = cx * xbar d + kx) by (unfold xbar; rewrite affine_fst; now apply Rmean_affine).
  assert (Y : ybar (affine cx kx cy ky d) = cy * ybar d + ky) by (unfold ybar; rewrite affine_snd; now apply Rmean_affine).
  assert (SX : Sxx (affine cx kx cy ky d) = cx * cx * Sxx d).
  { unfold Sxx. rewrite X. unfold affine. rewrite map_map, <- Rsum_scal. apply Rsum_ext. intros p _. cbn [fst]. ring. }
  assert (SY : Sxy (affine cx kx cy ky d) = cx * cy * Sxy d).
  { unfold Sxy. rewrite X, Y. unfold affine. rewrite map_map, <- Rsum_scal. apply Rsum_ext. intros p _. cbn [fst snd]. ring. }
  rewrite X, Y, SX, SY. injection E as <- <-. f_equal; field; split; lra.
Qed.
Lemma residuals_affine cx kx cy ky d a b : cx <> 0 ->
  residuals (cy * a + ky - cy * b / cx * kx) (cy * b / cx) (affine cx kx cy ky d) = map (fun r => cy * r) (residuals a b d).
Proof.
  intros Hc. unfold residuals, affine. rewrite !map_map. apply map_ext. intros p. cbn [fst snd]. unfold linear. field. exact Hc.
Qed.
Lemma ssq_scale c l : ssq (map (fun r => c * r) l) = c * c * ssq l.
Proof. unfold ssq. rewrite map_map, <- Rsum_scal. apply Rsum_ext. intros; ring. Qed.
Lemma stderr_affine cx kx cy ky d : cx <> 0 -> 0 < cy -> non_constant d -> stderr (affine cx kx cy ky d) = cy * stderr d.
Proof.
  intros Hc He Hn. unfold stderr. destruct (ols d) as [a b] eqn:E. rewrite (ols_affine cx kx cy ky d a b Hc Hn E), residuals_affine, ssq_scale by assumption.
  assert (N : num (affine cx kx cy ky d) = num d) by apply num_map. rewrite N.
  replace (cy * cy * ssq (residuals a b d) / (num d - 2)) with (cy * cy * (ssq (residuals a b d) / (num d - 2))) by (unfold Rdiv; ring).
  destruct (Rle_dec 0 (ssq (residuals a b d) / (num d - 2))) as [G|G].
  - rewrite sqrt_mult by (try assumption; nra). rewrite sqrt_square by lra. reflexivity.
  - rewrite !sqrt_neg_0 by nra. ring.
Qed.
Lemma gram_affine cx kx d x : cx <> 0 -> distinct_sizes d -> gram_form (map (fun x => cx * x + kx) d) (cx * x + kx) = gram_form d x.
Proof.
  intros Hc H. assert (Hn := distinct_nil d H). assert (S := devsq_pos d H).
  assert (H' : distinct_sizes (map (fun x => cx * x + kx) d)).
  { destruct H as (u & v & Hu & Hv & Hne). exists (cx * u + kx), (cx * v + kx). split; [now apply (in_map (fun x => cx * x + kx))|].
    split; [now apply (in_map (fun x => cx * x + kx))|]. intros E. apply Hne. apply (Rmult_eq_reg_l cx); lra. }
  rewrite !gram_form_value by assumption. rewrite map_length, Rmean_affine by assumption.
  assert (D : devsq (map (fun x => cx * x + kx) d) = cx * cx * devsq d).
  { unfold devsq. rewrite Rmean_affine, map_map, <- Rsum_scal by assumption. apply Rsum_ext. intros; ring. }
  rewrite D. f_equal. field. split; lra.
Qed.
Lemma empirical_scale e r t : 0 < e -> empirical_ccdf (map (fun r => e * r) r) (e * t) = empirical_ccdf r t.
Proof.
  intros He. unfold empirical_ccdf. rewrite num_map. f_equal. f_equal. rewrite countb_map. apply countb_ext. intros y _.
  destruct (Rltb_spec (e * t) (e * y)), (Rltb_spec t y); auto; nra.
Qed.
(** The law fitted to residuals multiplied by e is the law multiplied by e. *)
Definition follows_units (build : list R -> res (R -> R)) (e : R) : Prop :=
  forall r, match build r with
            | Ok f => exists f', build (map (fun y => e * y) r) = Ok f' /\ forall t, f' (e * t) = f t
            | Raise _ => exists x, build (map (fun y => e * y) r) = Raise x
            end.
Lemma plain_fit s c d : c_boxcox c = false -> c_censored c = false -> d <> [] ->
  computeLinearModel s c d = Ok (let (a, b) := ols d in
    {| l_obs := d; l_a := a; l_b := b; l_stderr := stderr d; l_resid := residuals a b d; l_det := c_det c; l_lambda := None |}).
Proof.
  intros B C Hd. unfold computeLinearModel. rewrite C, B. cbn [pod_run bind o_signals o_detection o_noise o_sat o_lambda].
  rewrite combine_map. rewrite (map_ext (fun p : R * R => (fst p, snd p)) (fun p => p)), map_id by (now intros []).
  destruct d as [|p d]; [contradiction|]. destruct (ols (p :: d)); reflexivity.
Qed.
Definition with_det (c : settings) (t : R) : settings := {| c_det := t; c_noise := c_noise c; c_sat := c_sat c; c_boxcox := c_boxcox c; c_censored := c_censored c |}.
(** Uncensored data without Box-Cox: the curves do not depend on the units or the origins of the sizes and of the signals. *)
Theorem C80_units ccdf c d k n w x cx kx cy ky :
  c_boxcox c = false -> c_censored c = false -> non_constant d -> cx <> 0 -> 0 < cy -> (k = Bootstrap -> follows_units (w_build w 0) cy) ->
  mean_pod ccdf (with_det c (cy * c_det c + ky)) (affine cx kx cy ky d) k n w (cx * x + kx) = mean_pod ccdf c d k n w x.
Proof.
  intros B C Hn Hc He Hk. assert (Hd := non_constant_nil d Hn). rewrite !mean_pod_eq.
  rewrite (plain_fit _ c d B C Hd). rewrite (plain_fit _ (with_det c (cy * c_det c + ky)) (affine cx kx cy ky d) B C) by (unfold affine; destruct d; [contradiction|discriminate]).
  destruct (ols d) as [a b] eqn:E. rewrite (ols_affine cx kx cy ky d a b Hc Hn E), residuals_affine, stderr_affine by assumption.
  assert (T : cy * c_det c + ky - linear (cy * a + ky - cy * b / cx * kx) (cy * b / cx) (cx * x + kx) = cy * (c_det c - linear a b x)) by (unfold linear; field; exact Hc).
  destruct k; cbn [made l_resid l_obs l_stderr].
  - cbn [eval l_a l_b l_det with_det c_det]. f_equal. unfold binomial_pod. rewrite T. now apply empirical_scale.
  - cbn [eval l_a l_b l_det with_det c_det]. f_equal. rewrite affine_fst. unfold gauss_pod, prediction_variance.
    assert (D : distinct_sizes (map fst d)).
    { destruct Hn as (p & q & Hp & Hq & Hne). exists (fst p), (fst q). split; [now apply in_map|]. split; [now apply in_map|exact Hne]. }
    rewrite T, gram_affine by assumption. f_equal.
    assert (G : 0 < 1 + gram_form (map fst d) x).
    { rewrite gram_form_value by assumption. assert (P := length_pos _ (distinct_nil _ D)). assert (S := devsq_pos _ D).
      assert (0 < 1 / INR (length (map fst d))) by (apply Rdiv_lt_0_compat; lra).
      assert (0 <= (x - Rmean (map fst d)) ^ 2 / devsq (map fst d)) by (apply Rmult_le_pos; [apply pow2_ge_0|left; now apply Rinv_0_lt_compat]). lra. }
    replace (cy * stderr d * (cy * stderr d) * (1 + gram_form (map fst d) x)) with (cy * cy * (stderr d * stderr d * (1 + gram_form (map fst d) x))) by ring.
    assert (P0 : 0 <= stderr d * stderr d * (1 + gram_form (map fst d) x)) by (apply Rmult_le_pos; [apply Rle_0_sqr|lra]).
    rewrite sqrt_mult by (try assumption; nra). rewrite sqrt_square by lra.
    destruct (Req_dec (sqrt (stderr d * stderr d * (1 + gram_form (map fst d) x))) 0) as [Z|Z].
    + rewrite Z, Rmult_0_r. unfold Rdiv. rewrite Rinv_0. ring.
    + field. split; [exact Z|lra].
  - specialize (Hk eq_refl (residuals a b d)). destruct (w_build w 0 (residuals a b d)) as [f|].
    + destruct Hk as (f' & -> & Hf). cbn [bind eval l_a l_b l_det with_det c_det]. rewrite T, Hf. reflexivity.
    + destruct Hk as (x0 & ->). reflexivity.
Qed.

(** *** Order of the observations *)
Definition symmetric (s : solver) : Prop :=
  (forall l l' sh, Permutation l l' -> s_opt s l sh = s_opt s l' sh) /\
  (forall p o o' xn xn' xs xs' t1 t2, Permutation o o' -> Permutation xn xn' -> Permutation xs xs' -> s_fit s p o xn xs t1 t2 = s_fit s p o' xn' xs' t1 t2).
Lemma map_res_boxcox lam sh l :
  map_res (fun s => boxcox lam (s + sh)) l = if forallb (fun s => Rltb 0 (s + sh)) l then Ok (map (fun s => bc lam (s + sh)) l) else Raise GenericException.
Proof.
  induction l as [|x l IH]; [reflexivity|]. cbn [map_res forallb map]. destruct (Rltb_spec 0 (x + sh)).
  - rewrite boxcox_ok by assumption. cbn [bind andb]. rewrite IH. now destruct (forallb _ l).
  - rewrite boxcox_raise by lra. reflexivity.
Qed.
Lemma forallb_perm {A} (f : A -> bool) l l' : Permutation l l' -> forallb f l = forallb f l'.
Proof.
  intros P. destruct (forallb f l') eqn:E.
  - rewrite forallb_forall in *. intros x Hx. apply E. now apply (Permutation_in _ P).
  - apply not_true_is_false. intros H. rewrite <- not_true_iff_false in E. apply E. rewrite forallb_forall in *. intros x Hx. apply H. now apply (Permutation_in _ (Permutation_sym P)).
Qed.
Lemma filter_perm {A} (f : A -> bool) l l' : Permutation l l' -> Permutation (filter f l) (filter f l').
Proof.
  induction 1; cbn; auto.
  - destruct (f x); auto.
  - destruct (f x), (f y); auto. apply perm_swap.
  - eapply perm_trans; eauto.
Qed.
Lemma stage_perm opt sig sig' det no sa bx ce : (forall l l' sh, Permutation l l' -> opt l sh = opt l' sh) -> Permutation sig sig' ->
  match pod_run opt sig det no sa bx ce, pod_run opt sig' det no sa bx ce with
  | Ok o, Ok o' => exists T : R -> R, o_signals o = map T sig /\ o_signals o' = map T sig' /\ o_detection o = o_detection o' /\ o_noise o = o_noise o' /\ o_sat o = o_sat o'
  | Raise _, Raise _ => True
  | _, _ => False
  end.
Proof.
  intros Ho P. unfold pod_run. destruct bx; [|cbn; exists (fun y => y); rewrite !map_id; auto].
  assert (A : auto_shift sig = auto_shift sig').
  { unfold auto_shift. destruct sig as [|y0 l0]; [apply Permutation_nil in P; now subst|]. destruct sig' as [|y1 l1]; [apply Permutation_sym, Permutation_nil in P; discriminate|].
    now rewrite (Rlmin_perm _ _ P). }
  rewrite A. destruct (auto_shift sig') as [sh|]; [|exact I]. cbn [bind]. rewrite (Ho _ _ sh P). destruct (opt sig' sh) as [lam|]; [|exact I]. cbn [bind].
  rewrite !map_res_boxcox, (forallb_perm _ _ _ P). destruct (forallb _ sig'); [|exact I]. cbn [bind].
  destruct (if ce then bc_threshold lam sh no else Ok no) as [n1|]; [|exact I]. cbn [bind].
  destruct (if ce then bc_threshold lam sh sa else Ok sa) as [n2|]; [|exact I]. cbn [bind].
  destruct (boxcox lam (det + sh)) as [dt|]; [|exact I]. cbn. exists (fun s => bc lam (s + sh)). auto.
Qed.
Lemma ols_perm d d' : Permutation d d' -> ols d = ols d'.
Proof.
  intros P. assert (X : xbar d = xbar d') by (unfold xbar, Rmean; rewrite (Rsum_perm _ _ (Permutation_map fst P)), !map_length, (Permutation_length P); reflexivity).
  assert (Y : ybar d = ybar d') by (unfold ybar, Rmean; rewrite (Rsum_perm _ _ (Permutation_map snd P)), !map_length, (Permutation_length P); reflexivity).
  assert (SX : Sxx d = Sxx d') by (unfold Sxx; rewrite X; apply Rsum_perm; now apply Permutation_map).
  assert (SY : Sxy d = Sxy d') by (unfold Sxy; rewrite X, Y; apply Rsum_perm; now apply Permutation_map).
  unfold ols. now rewrite X, Y, SX, SY.
Qed.
Lemma residuals_perm a b d d' : Permutation d d' -> Permutation (residuals a b d) (residuals a b d').
Proof. apply Permutation_map. Qed.
Lemma stderr_perm d d' : Permutation d d' -> stderr d = stderr d'.
Proof.
  intros P. unfold stderr. rewrite (ols_perm _ _ P). destruct (ols d') as [a b]. unfold ssq, num. rewrite (Permutation_length P).
  rewrite (Rsum_perm _ _ (Permutation_map (fun r => r * r) (residuals_perm a b _ _ P))). reflexivity.
Qed.
Lemma fit_perm s c d d' : symmetric s -> Permutation d d' ->
  match computeLinearModel s c d, computeLinearModel s c d' with
  | Ok l, Ok l' => Permutation (l_obs l) (l_obs l') /\ l_a l = l_a l' /\ l_b l = l_b l' /\ l_stderr l = l_stderr l' /\ Permutation (l_resid l) (l_resid l') /\ l_det l = l_det l'
  | Raise _, Raise _ => True
  | _, _ => False
  end.
Proof.
  intros [S1 S2] P. unfold computeLinearModel. rewrite !used_filter. set (o := filter (fun p : R * R => usedb c (snd p)) d). set (o' := filter (fun p : R * R => usedb c (snd p)) d').
  assert (Po : Permutation o o') by (now apply filter_perm).
  pose proof (stage_perm (s_opt s) (map snd o) (map snd o') (c_det c) (c_noise c) (c_sat c) (c_boxcox c) (c_censored c) S1 (Permutation_map snd Po)) as H.
  destruct (pod_run _ (map snd o) _ _ _ _ _) as [u|], (pod_run _ (map snd o') _ _ _ _ _) as [u'|]; try contradiction; cbn [bind]; [|exact I].
  destruct H as (T & -> & -> & E1 & E2 & E3). rewrite !map_map, !combine_map. rewrite E1, E2, E3.
  pose proof (Permutation_map (fun x : R * R => (fst x, T (snd x))) Po) as Q.
  set (m := map (fun x : R * R => (fst x, T (snd x))) o) in *. set (m' := map (fun x : R * R => (fst x, T (snd x))) o') in *.
  destruct m as [|q qs] eqn:Em; [apply Permutation_nil in Q; rewrite Q; exact I|]. destruct m' as [|q' qs'] eqn:Em'; [apply Permutation_sym, Permutation_nil in Q; discriminate|].
  rewrite <- Em, <- Em' in *. rewrite (ols_perm _ _ Q), (stderr_perm _ _ Q). destruct (ols m') as [a b]. destruct (c_censored c).
  - rewrite (S2 (a, b, stderr m') m m' _ (map fst (filter (fun p : R * R => under_noise (c_noise c) (snd p)) d')) _
               (map fst (filter (fun p : R * R => over_sat (c_sat c) (snd p)) d')) (o_noise u') (o_sat u') Q);
      [|apply Permutation_map, filter_perm, P|apply Permutation_map, filter_perm, P].
    destruct (s_fit _ _ _ _ _ _ _) as [[[a' b'] se']|]; cbn [bind]; [|exact I]. cbn. repeat split; auto. now apply residuals_perm.
  - cbn. repeat split; auto. now apply residuals_perm.
Qed.
Lemma gram_perm d d' x : Permutation d d' -> gram_form d x = gram_form d' x.
Proof.
  intros P. unfold gram_form, num. rewrite (Permutation_length P), (Rsum_perm _ _ P), (Rsum_perm _ _ (Permutation_map (fun v => v * v) P)). reflexivity.
Qed.
(** The order of the observations does not change the curves when the optimisers and the factory do not look at it. *)
Theorem C80_order ccdf c d d' k n w x :
  symmetric (w_solver w 0) -> (k = Bootstrap -> forall r r', Permutation r r' -> w_build w 0 r = w_build w 0 r') -> Permutation d d' ->
  mean_pod ccdf c d k n w x = mean_pod ccdf c d' k n w x.
Proof.
  intros S Hk P. rewrite !mean_pod_eq. pose proof (fit_perm _ c _ _ S P) as H.
  destruct (computeLinearModel _ c d) as [l|], (computeLinearModel _ c d') as [l'|]; try contradiction; [|reflexivity].
  destruct H as (E1 & E2 & E3 & E4 & E5 & E6). destruct k; cbn [made].
  - cbn [eval]. rewrite E2, E3, E6. unfold binomial_pod, empirical_ccdf, num. now rewrite (countb_perm _ _ _ E5), (Permutation_length E5).
  - cbn [eval]. rewrite E2, E3, E4, E6. unfold gauss_pod, prediction_variance. now rewrite (gram_perm _ _ _ (Permutation_map fst E1)).
  - rewrite (Hk eq_refl _ _ E5). destruct (w_build _ _ _); [|reflexivity]. cbn [bind eval]. now rewrite E2, E3, E6.
Qed.

(** *** Repeated observations *)
Definition times (m : nat) (d : data) : data := concat (repeat d m).
Lemma Rsum_times (f : R * R -> R) m d : Rsum (map f (times m d)) = INR m * Rsum (map f d).
Proof.
  induction m as [|m IH]; [cbn; ring|]. unfold times in *. cbn [repeat concat]. rewrite map_app, Rsum_app, IH, S_INR. ring.
Qed.
Lemma times_length m d : INR (length (times m d)) = INR m * INR (length d).
Proof. induction m as [|m IH]; [cbn; ring|]. unfold times in *. cbn [repeat concat]. rewrite app_length, plus_INR, IH, S_INR. ring. Qed.
Lemma countb_times (f : R * R -> bool) m d : INR (countb f (times m d)) = INR m * INR (countb f d).
Proof. induction m as [|m IH]; [cbn; ring|]. unfold times in *. cbn [repeat concat]. rewrite countb_app, plus_INR, IH, S_INR. ring. Qed.
(** Uncensored data without Box-Cox: writing every observation m times does not change Berens' curve. *)
Theorem C80_repeated ccdf c d n w x m :
  c_boxcox c = false -> c_censored c = false -> non_constant d -> (0 < m)%nat ->
  mean_pod ccdf c (times m d) Binomial n w x = mean_pod ccdf c d Binomial n w x.
Proof.
  intros B C Hn Hm. assert (Hd := non_constant_nil d Hn). assert (S := proj1 (Sxx_pos d) Hn). assert (Pm := INR_pos m Hm). assert (Pd := length_pos d Hd).
  assert (Ht : times m d <> []) by (destruct m; [lia|]; unfold times; cbn; destruct d; [contradiction|discriminate]).
  rewrite !mean_pod_eq. rewrite (plain_fit _ c d B C Hd), (plain_fit _ c _ B C Ht).
  assert (X : xbar (times m d) = xbar d) by (unfold xbar, Rmean; rewrite Rsum_times, !map_length, times_length; field; split; lra).
  assert (Y : ybar (times m d) = ybar d) by (unfold ybar, Rmean; rewrite Rsum_times, !map_length, times_length; field; split; lra).
  assert (O : ols (times m d) = ols d).
  { unfold ols. rewrite X, Y. assert (E1 : Sxx (times m d) = INR m * Sxx d) by (unfold Sxx; now rewrite X, Rsum_times).
    assert (E2 : Sxy (times m d) = INR m * Sxy d) by (unfold Sxy; now rewrite X, Y, Rsum_times). rewrite E1, E2. f_equal; [do 2 f_equal|]; field; lra. }
  rewrite O. destruct (ols d) as [a b]. cbn [made l_resid eval l_a l_b l_det]. f_equal. unfold binomial_pod, empirical_ccdf, residuals. rewrite !num_map, !countb_map.
  unfold num. rewrite countb_times, times_length. field. split; lra.
Qed.
Print Assumptions C80_fit.
Print Assumptions C80_binomial.
Print Assumptions C80_units.
Print Assumptions C80_order.
Print Assumptions C80_repeated.

(** *** Cases for C80 *)
Definition demo_solver : solver := {| s_opt := fun _ _ => Ok 1; s_fit := fun p _ _ _ _ _ => Ok p |}.
Definition demo_world : world :=
  {| w_solver := fun _ => demo_solver; w_build := fun _ r => Ok (empirical_ccdf r); w_normal := fun _ => (0, 0, 1); w_draw := fun _ => [2%nat; 0%nat; 2%nat] |}.
Definition demo_data : data := [(0, 0); (1, 2); (2, 1)].
Definition plain (t : R) : settings := {| c_det := t; c_noise := None; c_sat := None; c_boxcox := false; c_censored := false |}.
Lemma demo_nc : non_constant demo_data.
Proof. exists (0, 0), (1, 2). cbn. split; [auto|]. split; [auto|lra]. Qed.
Lemma demo_ols : ols demo_data = (1 / 2, 1 / 2).
Proof. unfold ols, Sxy, Sxx, xbar, ybar, Rmean, demo_data. cbn. f_equal; field. Qed.
Lemma demo_symmetric : symmetric demo_solver.
Proof. split; reflexivity. Qed.
Lemma demo_follows e : 0 < e -> follows_units (w_build demo_world 0) e.
Proof. intros He r. cbn. eexists. split; [reflexivity|]. intros t. now apply empirical_scale. Qed.
Example C80_example : mean_pod logistic_ccdf (plain 1) demo_data Binomial 2 demo_world 1 = Ok (1 / 3) /\
  mean_pod logistic_ccdf (plain 12) (affine 3 1 10 2 demo_data) Binomial 2 demo_world 4 = Ok (1 / 3) /\
  mean_pod logistic_ccdf (plain 1) [(2, 1); (0, 0); (1, 2)] Binomial 2 demo_world 1 = Ok (1 / 3) /\
  mean_pod logistic_ccdf (plain 1) (times 4 demo_data) Binomial 2 demo_world 1 = Ok (1 / 3).
Proof.
  assert (A : mean_pod logistic_ccdf (plain 1) demo_data Binomial 2 demo_world 1 = Ok (1 / 3)).
  { rewrite mean_pod_eq, plain_fit by (try reflexivity; discriminate). rewrite demo_ols. cbn [made eval l_resid l_a l_b l_det c_det plain]. f_equal.
    unfold binomial_pod, empirical_ccdf, residuals, linear, num, demo_data. cbn [map fst snd length]. rewrite !countb_cons.
    rewrite (proj2 (Rltb_false _ (0 - _))), (proj2 (Rltb_true _ (2 - _))), (proj2 (Rltb_false _ (1 - _))) by lra. cbn. field. }
  split; [exact A|]. split; [|split].
  - rewrite <- A. replace (plain 12) with (with_det (plain 1) (10 * c_det (plain 1) + 2)) by (unfold with_det, plain; cbn; f_equal; lra).
    replace 4 with (3 * 1 + 1) by lra. apply C80_units; [reflexivity|reflexivity|apply demo_nc|lra|lra|discriminate].
  - rewrite <- A. apply C80_order; [apply demo_symmetric|discriminate|]. unfold demo_data. apply Permutation_sym. 
    eapply perm_trans; [apply perm_skip, perm_swap|apply perm_swap].
  - rewrite <- A. apply C80_repeated; [reflexivity|reflexivity|apply demo_nc|lia].
Qed.

(** *** C81: the bootstrap collection *)
Lemma coll_inv w c d : forall n i fs, bootstrap_coll w c d i n = Ok fs ->
  length fs = n /\ forall j, (j < n)%nat -> exists l f, computeLinearModel (w_solver w (S (i + j))) c (resample d (w_draw w (i + j))) = Ok l /\
    w_build w (S (i + j)) (l_resid l) = Ok f /\ forall x, nth j fs (fun _ => 0) x = f (l_det l - linear (l_a l) (l_b l) x).
Proof.
  induction n as [|n IH]; intros i fs; cbn [bootstrap_coll]; [intros [= <-]; split; [reflexivity|intros; lia]|].
  unfold bootstrap_curve at 1. destruct (computeLinearModel _ c _) as [l|] eqn:E1; [|discriminate]. cbn [bind].
  destruct (w_build w (S i) (l_resid l)) as [f|] eqn:E2; [|discriminate]. cbn [bind]. destruct (bootstrap_coll w c d (S i) n) as [gs|] eqn:E3; [|discriminate].
  cbn [bind]. intros [= <-]. destruct (IH _ _ E3) as [L H]. split; [cbn; now rewrite L|]. intros [|j] Hj.
  - rewrite Nat.add_0_r. exists l, f. auto.
  - destruct (H j ltac:(lia)) as (l' & f' & A1 & A2 & A3). rewrite Nat.add_succ_r. exists l', f'. auto.
Qed.
(** A sample of the bootstrap: as many rows as the data, each of them a row of the data with its own two columns. *)
Definition bootstrap_of (d d' : data) : Prop := length d' = length d /\ forall p, In p d' -> In p d.
Lemma resample_ok d idx : length idx = length d -> (forall k, In k idx -> (k < length d)%nat) -> bootstrap_of d (resample d idx).
Proof.
  intros L H. unfold resample. split; [now rewrite map_length|]. intros p Hp. apply in_map_iff in Hp. destruct Hp as (k & <- & Hk). apply nth_In. auto.
Qed.
(** The curves of the collection after a run that did not fail: as many as the simulation size, the i-th one being the curve that a new object
    with the same settings gives when it is run on the i-th bootstrap sample. *)
Theorem C81_collection ccdf c d n w o o' :
  run ccdf c d Bootstrap n w o = (o', Ok tt) ->
  (forall i, (i < n)%nat -> length (w_draw w i) = length d /\ forall k, In k (w_draw w i) -> (k < length d)%nat) ->
  exists fs, coll o' = Some fs /\ length fs = n /\
    forall i, (i < n)%nat -> exists d', bootstrap_of d d' /\ d' = resample d (w_draw w i) /\
      forall x m wi, w_solver wi 0 = w_solver w (S i) -> w_build wi 0 = w_build w (S i) -> mean_pod ccdf c d' Bootstrap m wi x = Ok (nth i fs (fun _ => 0) x).
Proof.
  unfold run. destruct (computeLinearModel (w_solver w 0) c d) as [l|]; [|discriminate]. destruct (w_build w 0 (l_resid l)) as [f|]; [|discriminate].
  destruct (bootstrap_coll w c d 0 n) as [fs|] eqn:E; [|discriminate]. intros [= <-] Hd. exists fs. split; [reflexivity|]. destruct (coll_inv _ _ _ _ _ _ E) as [L H].
  split; [exact L|]. intros i Hi. exists (resample d (w_draw w i)). destruct (Hd i Hi) as [D1 D2]. split; [now apply resample_ok|]. split; [reflexivity|].
  intros x m wi E1 E2. rewrite mean_pod_eq, E1, E2. destruct (H i Hi) as (l' & f' & A1 & A2 & A3). cbn [plus] in A1, A2. rewrite A1. cbn [made]. rewrite A2. cbn [bind eval]. now rewrite A3.
Qed.
(** Every curve is a probability and follows the sign of its own slope. *)
Definition survival (f : R -> R) : Prop := (forall t, 0 <= f t <= 1) /\ (forall s t, s <= t -> f t <= f s).
Theorem C81_curves ccdf c d n w o o' fs i :
  run ccdf c d Bootstrap n w o = (o', Ok tt) -> coll o' = Some fs -> (i < n)%nat -> (forall k r f, w_build w k r = Ok f -> survival f) ->
  exists b, (forall x, 0 <= nth i fs (fun _ => 0) x <= 1) /\
    (0 <= b -> forall x y, x <= y -> nth i fs (fun _ => 0) x <= nth i fs (fun _ => 0) y) /\
    (b <= 0 -> forall x y, x <= y -> nth i fs (fun _ => 0) y <= nth i fs (fun _ => 0) x) /\
    exists l, computeLinearModel (w_solver w (S i)) c (resample d (w_draw w i)) = Ok l /\ b = l_b l.
Proof.
  unfold run. destruct (computeLinearModel (w_solver w 0) c d) as [l|]; [|discriminate]. destruct (w_build w 0 (l_resid l)) as [f|]; [|discriminate].
  destruct (bootstrap_coll w c d 0 n) as [fs'|] eqn:E; [|discriminate]. intros [= <-] [= <-] Hi Hb. destruct (coll_inv _ _ _ _ _ _ E) as [L H].
  destruct (H i Hi) as (l' & f' & A1 & A2 & A3). cbn [plus] in A1, A2. destruct (Hb _ _ _ A2) as [S1 S2]. exists (l_b l').
  split; [intros x; rewrite A3; apply S1|]. split; [|split; [|exists l'; auto]].
  - intros Hs x y Hxy. rewrite !A3. apply S2. unfold linear. nra.
  - intros Hs x y Hxy. rewrite !A3. apply S2. unfold linear. nra.
Qed.
(** run fails iff the fit on the data, the law of its residuals or one of the samples fails, with the first of these exceptions. After a failure in a
    sample the mean curve is the new one and the collection the old one. *)
Definition sample_fails (w : world) (c : settings) (d : data) (i : nat) (e : exn) : Prop :=
  bootstrap_curve (w_solver w (S i)) (w_build w (S i)) c (resample d (w_draw w i)) = Raise e.
Lemma coll_raise w c d : forall n i e, bootstrap_coll w c d i n = Raise e <->
  exists j, (j < n)%nat /\ sample_fails w c d (i + j) e /\ forall j', (j' < j)%nat -> forall e', ~ sample_fails w c d (i + j') e'.
Proof.
  induction n as [|n IH]; intros i e; cbn [bootstrap_coll]; [split; [discriminate|intros (j & Hj & _); lia]|]. unfold sample_fails.
  destruct (bootstrap_curve (w_solver w (S i)) (w_build w (S i)) c (resample d (w_draw w i))) as [f|e0] eqn:E; cbn [bind].
  - transitivity (bootstrap_coll w c d (S i) n = Raise e).
    { destruct (bootstrap_coll w c d (S i) n); cbn [bind]; split; congruence. }
    rewrite IH. unfold sample_fails. split; intros (j & Hj & F & N).
    + exists (S j). rewrite Nat.add_succ_r. split; [lia|]. split; [exact F|]. intros [|j'] Hj' e'; [rewrite Nat.add_0_r; congruence|].
      rewrite Nat.add_succ_r. apply (N j' ltac:(lia)).
    + destruct j as [|j]; [rewrite Nat.add_0_r in F; congruence|]. rewrite Nat.add_succ_r in F. exists j. split; [lia|]. split; [exact F|].
      intros j' Hj' e'. specialize (N (S j') ltac:(lia) e'). now rewrite Nat.add_succ_r in N.
  - split; [intros [= <-]; exists 0%nat; rewrite Nat.add_0_r; split; [lia|]; split; [exact E|intros; lia]|].
    intros (j & Hj & F & N). destruct j as [|j]; [rewrite Nat.add_0_r in F; congruence|]. exfalso. apply (N 0%nat ltac:(lia) e0). now rewrite Nat.add_0_r.
Qed.
Theorem C81_run_fails ccdf c d n w o e :
  snd (run ccdf c d Bootstrap n w o) = Raise e <->
  computeLinearModel (w_solver w 0) c d = Raise e \/
  (exists l, computeLinearModel (w_solver w 0) c d = Ok l /\ w_build w 0 (l_resid l) = Raise e) \/
  (exists l f, computeLinearModel (w_solver w 0) c d = Ok l /\ w_build w 0 (l_resid l) = Ok f /\
     exists i, (i < n)%nat /\ sample_fails w c d i e /\ forall j, (j < i)%nat -> forall e', ~ sample_fails w c d j e').
Proof.
  unfold run. destruct (computeLinearModel (w_solver w 0) c d) as [l|e0].
  - destruct (w_build w 0 (l_resid l)) as [f|e1] eqn:EB.
    + pose proof (coll_raise w c d n 0 e) as H. destruct (bootstrap_coll w c d 0 n) as [fs|e2]; cbn [snd].
      * split; [discriminate|]. intros [A|[(l' & A & B)|(l' & f' & A & B & C)]]; [discriminate|congruence|]. apply H in C. discriminate.
      * split; [intros [= <-]; right; right; exists l, f; split; [reflexivity|split; [exact EB|now apply H]]|].
        intros [A|[(l' & A & B)|(l' & f' & A & B & C)]]; [discriminate|congruence|]. apply H in C. congruence.
    + cbn [snd]. split; [intros [= <-]; right; left; exists l; auto|]. intros [A|[(l' & A & B)|(l' & f' & A & B & C)]]; congruence.
  - cbn [snd]. split; [intros [= <-]; now left|]. intros [A|[(l' & A & _)|(l' & f' & A & _)]]; congruence.
Qed.
(** The state left by a failing run. *)
Theorem C81_after_failure ccdf c d n w o :
  let r := run ccdf c d Bootstrap n w o in
  coll (fst r) = coll o \/ snd r = Ok tt.
Proof.
  cbn zeta. unfold run. destruct (computeLinearModel _ c d) as [l|]; [|now left]. destruct (w_build _ _ _); [|now left]. destruct (bootstrap_coll _ _ _ _ _); [now right|now left].
Qed.
Theorem C81_mean_curve_survives ccdf c d n w l f i e x :
  computeLinearModel (w_solver w 0) c d = Ok l -> w_build w 0 (l_resid l) = Ok f -> (i < n)%nat -> sample_fails w c d i e ->
  (exists e', snd (run ccdf c d Bootstrap n w fresh) = Raise e') /\ mean_pod ccdf c d Bootstrap n w x = Ok (f (l_det l - (l_a l + l_b l * x))) /\
  coll (fst (run ccdf c d Bootstrap n w fresh)) = None.
Proof.
  intros E1 E2 Hi HF. assert (C : exists e', bootstrap_coll w c d 0 n = Raise e').
  { destruct (bootstrap_coll w c d 0 n) as [fs|e'] eqn:E; [|now exists e']. destruct (coll_inv _ _ _ _ _ _ E) as [_ H]. destruct (H i Hi) as (l' & f' & A1 & A2 & _).
    unfold sample_fails, bootstrap_curve in HF. cbn [plus] in A1, A2. rewrite A1 in HF. cbn [bind] in HF. rewrite A2 in HF. discriminate. }
  destruct C as (e' & C). split; [|split].
  - exists e'. unfold run. rewrite E1, E2, C. reflexivity.
  - rewrite mean_pod_eq, E1. cbn [made]. rewrite E2. reflexivity.
  - unfold run. rewrite E1, E2, C. reflexivity.
Qed.
(** A factory that fits the empirical law gives Berens' curve. *)
Theorem C81_empirical ccdf c d n m w x :
  w_build w 0 = (fun r => Ok (empirical_ccdf r)) -> mean_pod ccdf c d Bootstrap n w x = mean_pod ccdf c d Binomial m w x.
Proof. intros H. rewrite !mean_pod_eq. destruct (computeLinearModel _ c d); [|reflexivity]. cbn [made]. rewrite H. reflexivity. Qed.

(** The normal law: the collection exists iff the fit succeeds on at least three observations (the chi law has N - 2 degrees of freedom); the i-th
    curve is the probability that a normal signal exceeds the threshold, with the line moved by the i-th normal pair and the i-th deviation.
    With fewer observations run raises, the mean curve is the new one and the collection the old one. *)
Theorem C81_gauss ccdf c d n w o :
  (snd (run ccdf c d Gauss n w o) = Ok tt <-> exists l, computeLinearModel (w_solver w 0) c d = Ok l /\ (3 <= length (l_obs l))%nat) /\
  (forall l, computeLinearModel (w_solver w 0) c d = Ok l ->
     pod (fst (run ccdf c d Gauss n w o)) = Some (KGauss (map fst (l_obs l)) (l_stderr l)) /\
     ((3 <= length (l_obs l))%nat -> exists fs, coll (fst (run ccdf c d Gauss n w o)) = Some fs /\ length fs = n /\
        forall i z0 z1 sigma x, (i < n)%nat -> w_normal w i = (z0, z1, sigma) ->
          nth i fs (fun _ => 0) x = ccdf ((l_det l - ((z0 * sigma + l_a l) + (z1 * sigma + l_b l) * x)) / sigma)) /\
     ((length (l_obs l) <= 2)%nat -> snd (run ccdf c d Gauss n w o) = Raise GenericException /\ coll (fst (run ccdf c d Gauss n w o)) = coll o)).
Proof.
  unfold run, gauss_coll. destruct (computeLinearModel (w_solver w 0) c d) as [l|e].
  - destruct (Nat.leb_spec (length (l_obs l)) 2) as [H|H]; cbn [snd fst].
    + split; [split; [discriminate|intros (l' & [= <-] & H'); lia]|]. intros l' [= <-]. split; [reflexivity|]. split; [lia|]. auto.
    + split; [split; [intros _; exists l; split; [reflexivity|lia]|reflexivity]|]. intros l' [= <-]. split; [reflexivity|]. split; [|lia]. intros _.
      eexists. split; [reflexivity|]. split; [now rewrite map_length, seq_length|]. intros i z0 z1 sigma x Hi E.
      match goal with |- nth i (map ?g _) _ x = _ => rewrite (nth_indep _ (fun _ => 0) (g 0%nat)) by (rewrite map_length, seq_length; lia); rewrite (map_nth g) end.
      rewrite seq_nth by exact Hi. cbn [plus]. rewrite E. reflexivity.
  - cbn [snd]. split; [split; [discriminate|intros (l' & [=] & _)]|]. intros l' [=].
Qed.
(** Two uncensored observations are never enough, three are. *)
Corollary C81_gauss_points ccdf c d n w o :
  c_boxcox c = false -> c_censored c = false -> (snd (run ccdf c d Gauss n w o) = Ok tt <-> (3 <= length d)%nat).
Proof.
  intros B C. rewrite (proj1 (C81_gauss ccdf c d n w o)). destruct d as [|p d].
  - split; [|cbn; lia]. intros (l & E & _). unfold computeLinearModel, pod_run in E. rewrite B, C in E. cbn in E. discriminate.
  - rewrite (plain_fit _ c (p :: d) B C) by discriminate. destruct (ols (p :: d)) as [a b]. split.
    + intros (l & [= <-] & H). exact H.
    + intros H. eexists. split; [reflexivity|]. exact H.
Qed.
Example C81_gauss_case : exists fs, coll (fst (run logistic_ccdf (plain 1) demo_data Gauss 2 demo_world fresh)) = Some fs /\ length fs = 2%nat /\
  nth 0 fs (fun _ => 0) 1 = 1 / 2 /\ snd (run logistic_ccdf (plain 1) [(0, 0); (1, 2)] Gauss 2 demo_world fresh) = Raise GenericException.
Proof.
  destruct (C81_gauss logistic_ccdf (plain 1) demo_data 2 demo_world fresh) as [_ H]. 
  pose proof (plain_fit (w_solver demo_world 0) (plain 1) demo_data eq_refl eq_refl ltac:(discriminate)) as F. rewrite demo_ols in F. specialize (H _ F). destruct H as (_ & H & _). destruct (H ltac:(cbn; lia)) as (fs & E & L & V). exists fs. split; [exact E|]. split; [exact L|]. split.
  - rewrite (V 0%nat 0 0 1 1 ltac:(lia) eq_refl). cbn [l_det l_a l_b plain c_det]. replace ((1 - (0 * 1 + 1 / 2 + (0 * 1 + 1 / 2) * 1)) / 1) with 0 by field.
    unfold logistic_ccdf. rewrite exp_0. field.
  - destruct (C81_gauss logistic_ccdf (plain 1) [(0, 0); (1, 2)] 2 demo_world fresh) as [_ H']. 
    pose proof (plain_fit (w_solver demo_world 0) (plain 1) [(0, 0); (1, 2)] eq_refl eq_refl ltac:(discriminate)) as F'. destruct (ols [(0, 0); (1, 2)]) as [a b].
    apply (H' _ F'). cbn. lia.
Qed.
(** Finding: with Box-Cox, the shift is computed again on every sample. A sample without the negative signals is not shifted, and a detection
    threshold that was fine for the data makes the run fail. *)
Definition neg_data : data := [(1, -1); (2, 5); (3, 6)].
Definition boxed (t : R) : settings := {| c_det := t; c_noise := None; c_sat := None; c_boxcox := true; c_censored := false |}.
Theorem C81_box_cox_sample_refuted :
  exists c d n w, (forall i, bootstrap_of d (resample d (w_draw w i))) /\ (forall i, w_solver w i = demo_solver) /\ (forall i r, w_build w i r = Ok (empirical_ccdf r)) /\
    (forall x, exists v, mean_pod logistic_ccdf c d Binomial n w x = Ok v) /\ snd (run logistic_ccdf c d Binomial n w fresh) = Ok tt /\
    snd (run logistic_ccdf c d Bootstrap n w fresh) = Raise GenericException.
Proof.
  set (w := {| w_solver := fun _ => demo_solver; w_build := fun _ r => Ok (empirical_ccdf r); w_normal := fun _ => (0, 0, 1); w_draw := fun _ => [1%nat; 2%nat; 2%nat] |}).
  assert (M : Rlmin [-1; 5; 6] = -1).
  { apply Rle_antisym; [apply Rlmin_le; cbn; auto|]. pose proof (Rlmin_in [-1; 5; 6] ltac:(discriminate)) as H. cbn [In] in H. destruct H as [<-|[<-|[<-|[]]]]; lra. }
  assert (OK : exists l, computeLinearModel demo_solver (boxed (- / 2)) neg_data = Ok l).
  { unfold computeLinearModel. cbn [boxed c_censored c_boxcox c_noise c_sat c_det map neg_data snd fst demo_solver s_opt]. unfold pod_run, auto_shift. rewrite M.
    rewrite (proj2 (Rltb_true (-1) 0)) by lra. cbn [bind]. rewrite map_res_boxcox. cbn [forallb]. rewrite !(proj2 (Rltb_true 0 _)) by lra. cbn [bind andb].
    rewrite boxcox_ok by lra. cbn [bind o_signals map combine fst]. match goal with |- context [ols ?u] => destruct (ols u) end. eexists. reflexivity. }
  assert (BAD : computeLinearModel demo_solver (boxed (- / 2)) [(2, 5); (3, 6); (3, 6)] = Raise GenericException).
  { assert (M' : Rlmin [5; 6; 6] = 5).
    { apply Rle_antisym; [apply Rlmin_le; cbn; auto|]. pose proof (Rlmin_in [5; 6; 6] ltac:(discriminate)) as H. cbn [In] in H. destruct H as [<-|[<-|[<-|[]]]]; lra. }
    unfold computeLinearModel. cbn [boxed c_censored c_boxcox c_noise c_sat c_det map snd fst demo_solver s_opt]. unfold pod_run, auto_shift. rewrite M'.
    rewrite (proj2 (Rltb_false 5 0)) by lra. cbn [bind]. rewrite map_res_boxcox. cbn [forallb]. rewrite !(proj2 (Rltb_true 0 _)) by lra. cbn [bind andb].
    rewrite boxcox_raise by lra. reflexivity. }
  destruct OK as [l OK]. exists (boxed (- / 2)), neg_data, 1%nat, w. split; [intros i; apply resample_ok; [reflexivity|cbn; intros k [<-|[<-|[<-|[]]]]; lia]|].
  split; [reflexivity|]. split; [reflexivity|]. split; [|split].
  - intros x. rewrite mean_pod_eq. cbn [w w_solver]. rewrite OK. eexists. reflexivity.
  - unfold run. cbn [w w_solver]. rewrite OK. reflexivity.
  - apply C81_run_fails. right. right. exists l, (empirical_ccdf (l_resid l)). split; [exact OK|]. split; [reflexivity|]. exists 0%nat. split; [lia|].
    split; [|intros; lia]. unfold sample_fails, bootstrap_curve. cbn [w w_solver w_draw resample map neg_data nth]. rewrite BAD. reflexivity.
Qed.
(** Finding: a function returned by getPODModel keeps the residuals of its run but reads the line and threshold of the object when it is called.
    After a second run, whose maximum likelihood may end elsewhere (its start may be drawn at random), it is neither the old curve nor the new one. *)
Theorem C81_returned_function c d ccdf k n w1 w2 l1 l2 f x :
  computeLinearModel (w_solver w1 0) c d = Ok l1 -> computeLinearModel (w_solver w2 0) c d = Ok l2 -> made k l1 (w_build w1 0) = Ok f ->
  getPODModel (runs ccdf c d k n [w1]) = Ok f /\
  call_pod ccdf f (runs ccdf c d k n [w1]) x = Ok (eval ccdf f l1 x) /\ call_pod ccdf f (runs ccdf c d k n [w2; w1]) x = Ok (eval ccdf f l2 x).
Proof.
  intros E1 E2 Hf.
  assert (A : forall w o l, computeLinearModel (w_solver w 0) c d = Ok l -> fitted (fst (run ccdf c d k n w o)) = Some l).
  { intros w o l E. unfold run. rewrite E. destruct k; [reflexivity|destruct (gauss_coll _ _ _ _); reflexivity|]. destruct (w_build w 0 _); [|reflexivity]. destruct (bootstrap_coll _ _ _ _ _); reflexivity. }
  assert (B : pod (fst (run ccdf c d k n w1 fresh)) = Some f).
  { unfold run. rewrite E1. destruct k; cbn [made] in Hf.
    - injection Hf as <-. reflexivity.
    - injection Hf as <-. destruct (gauss_coll _ _ _ _); reflexivity.
    - destruct (w_build w1 0 _); [|discriminate]. injection Hf as <-. destruct (bootstrap_coll _ _ _ _ _); reflexivity. }
  cbn [runs]. unfold getPODModel, call_pod. rewrite B, !(A w1 _ _ E1), (A w2 _ _ E2). auto.
Qed.
Theorem C81_returned_function_refuted :
  exists c d w1 w2 f1 f2 x, getPODModel (runs logistic_ccdf c d Binomial 1 [w1]) = Ok f1 /\ getPODModel (runs logistic_ccdf c d Binomial 1 [w2; w1]) = Ok f2 /\
    call_pod logistic_ccdf f1 (runs logistic_ccdf c d Binomial 1 [w1]) x = Ok 0 /\
    call_pod logistic_ccdf f2 (runs logistic_ccdf c d Binomial 1 [w2; w1]) x = Ok 0 /\
    call_pod logistic_ccdf f1 (runs logistic_ccdf c d Binomial 1 [w2; w1]) x = Ok 1.
Proof.
  set (sv := fun a => {| s_opt := fun _ _ => Ok 1; s_fit := fun _ _ _ _ _ _ => Ok (a, 1, 1) |}).
  set (wd := fun a => {| w_solver := fun _ => sv a; w_build := fun _ r => Ok (empirical_ccdf r); w_normal := fun _ => (0, 0, 1); w_draw := fun _ => [] |}).
  set (c := {| c_det := 5; c_noise := None; c_sat := Some 10; c_boxcox := false; c_censored := true |}). set (d := [(0, 0); (1, 1); (2, 2)] : data).
  assert (F : forall a, computeLinearModel (sv a) c d = Ok {| l_obs := d; l_a := a; l_b := 1; l_stderr := 1; l_resid := [0 - (a + 1 * 0); 1 - (a + 1 * 1); 2 - (a + 1 * 2)]; l_det := 5; l_lambda := None |}).
  { intros a. unfold computeLinearModel. cbn [c d c_censored c_noise c_sat filter snd inside]. unfold inside. rewrite !(proj2 (Rltb_true _ 10)) by lra. cbn [andb].
    unfold pod_run. cbn -[ols stderr residuals Rltb Rleb]. match goal with |- context [ols ?u] => destruct (ols u) end. reflexivity. }
  assert (C : forall r a t, (forall y, In y r -> a < y) -> r <> [] -> empirical_ccdf r t = 1 \/ a < t).
  { intros r a t H Hr. destruct (Rlt_dec a t); [now right|]. left. unfold empirical_ccdf. rewrite countb_all; [unfold num; field; assert (P := length_pos r Hr); lra|].
    intros y Hy. apply Rltb_true. specialize (H y Hy). lra. }
  exists c, d, (wd 0), (wd 10). eexists _, _, 0. split; [cbn [runs]; unfold run; cbn [wd w_solver]; rewrite F; reflexivity|].
  split; [cbn [runs]; unfold run; cbn [wd w_solver]; rewrite !F; reflexivity|]. unfold call_pod. cbn [runs]. unfold run. cbn [wd w_solver]. rewrite !F. cbn [fst fitted eval l_a l_b l_det l_resid].
  unfold binomial_pod, empirical_ccdf, linear, num. cbn [length]. rewrite !countb_cons.
  rewrite !(proj2 (Rltb_false (5 - (0 + 1 * 0)) _)) by lra. rewrite !(proj2 (Rltb_false (5 - (10 + 1 * 0)) (_ - (10 + _)))) by lra. rewrite !(proj2 (Rltb_true (5 - (10 + 1 * 0)) _)) by lra.
  cbn. split; [f_equal; field|]. split; [f_equal; field|f_equal; field].
Qed.

(** A case for the collection: three curves, all of them Berens' curve of the third and first rows. *)
Example C81_example : exists o' fs, run logistic_ccdf (plain 1) demo_data Bootstrap 3 demo_world fresh = (o', Ok tt) /\ coll o' = Some fs /\ length fs = 3%nat /\
  bootstrap_of demo_data (resample demo_data (w_draw demo_world 0)) /\ survival (empirical_ccdf [0; 1]).
Proof.
  assert (X : exists o', run logistic_ccdf (plain 1) demo_data Bootstrap 3 demo_world fresh = (o', Ok tt)).
  { unfold run. cbn [demo_world w_solver]. rewrite plain_fit by (try reflexivity; discriminate). cbn [w_build demo_world bootstrap_coll w_solver w_draw resample map demo_data nth].
    unfold bootstrap_curve. rewrite plain_fit by (try reflexivity; discriminate). eexists. reflexivity. }
  destruct X as (o' & X). exists o'. destruct (C81_collection _ _ _ _ _ _ _ X) as (fs & E & L & _).
  { intros i Hi. split; [reflexivity|cbn; intros k [<-|[<-|[<-|[]]]]; lia]. }
  exists fs. split; [exact X|]. split; [exact E|]. split; [exact L|]. split; [apply resample_ok; [reflexivity|cbn; intros k [<-|[<-|[<-|[]]]]; lia]|]. split.
  - intros t. destruct (C12_proportion [0; 1] 0 0 t 0 ltac:(discriminate)) as [_ H]. unfold binomial_pod, linear in H. now replace (t - (0 + 0 * 0)) with t in H by ring.
  - intros s t H. now apply empirical_mono.
Qed.
Print Assumptions C81_collection.
Print Assumptions C81_curves.
Print Assumptions C81_run_fails.
Print Assumptions C81_after_failure.
Print Assumptions C81_mean_curve_survives.
Print Assumptions C81_empirical.
Print Assumptions C81_gauss.
Print Assumptions C81_gauss_points.
Print Assumptions C81_box_cox_sample_refuted.
Print Assumptions C81_returned_function.
Print Assumptions C81_returned_function_refuted.
