(** C96: units of the sizes and signals, with Box-Cox and with censored data. *)
From Coq Require Import Reals Lra.
From Verif Require Import RealBase RegModel RegProofs RegProps LinPodModel LinPodProps BoxCoxModel BoxCoxProps QuantileModel LinObjModel LinObjProps BoxCoxLikProps.
Local Open Scope R_scope.

(** *** The same numbers in other units *)
(** A signal y becomes cy * y + ky, a size x becomes cx * x + kx: the thresholds move with the signals. *)
Definition conv (cy ky : R) (t : option R) : option R := option_map (fun y => cy * y + ky) t.
Definition in_units (c : settings) (cy ky : R) : settings :=
  {| c_det := cy * c_det c + ky; c_noise := conv cy ky (c_noise c); c_sat := conv cy ky (c_sat c); c_boxcox := c_boxcox c; c_censored := c_censored c |}.
(** The line a + b x with deviation se, in the new units. *)
Definition moved (cx kx cy ky : R) (p : R * R * R) : R * R * R := let '(a, b, se) := p in (cy * a + ky - cy * b / cx * kx, cy * b / cx, cy * se).
(** The two optimisers follow the units: the Box-Cox parameter of c * signals is that of the signals (without shift), the censored line moves
    with the data. *)
Definition opt_follows (opt : list R -> R -> res R) (c : R) : Prop := forall l, opt (map (fun y => c * y) l) 0 = opt l 0.
Definition fit_follows (s : LinObjModel.solver) (cx kx : R) : Prop := forall e k p obs xn xs tn ts, 0 < e ->
  s_fit s (moved cx kx e k p) (affine cx kx e k obs) (map (fun x => cx * x + kx) xn) (map (fun x => cx * x + kx) xs) (conv e k tn) (conv e k ts) =
  match s_fit s p obs xn xs tn ts with Ok p' => Ok (moved cx kx e k p') | Raise x => Raise x end.

Lemma Rltb_units cy ky a b : 0 < cy -> Rltb (cy * a + ky) (cy * b + ky) = Rltb a b.
Proof. intros H. destruct (Rltb_spec (cy * a + ky) (cy * b + ky)), (Rltb_spec a b); auto; nra. Qed.
Lemma Rleb_units cy ky a b : 0 < cy -> Rleb (cy * a + ky) (cy * b + ky) = Rleb a b.
Proof. intros H. destruct (Rleb_spec (cy * a + ky) (cy * b + ky)), (Rleb_spec a b); auto; nra. Qed.
Lemma filter_map' {A B} (f : A -> B) (q : B -> bool) (q' : A -> bool) l : (forall x, q (f x) = q' x) -> filter q (map f l) = map f (filter q' l).
Proof. intros H. induction l as [|x l IH]; [reflexivity|]. cbn. rewrite H. destruct (q' x); cbn; now rewrite IH. Qed.
Lemma used_units c cx kx cy ky d : 0 < cy ->
  filter (fun p : R * R => usedb (in_units c cy ky) (snd p)) (affine cx kx cy ky d) = affine cx kx cy ky (filter (fun p : R * R => usedb c (snd p)) d).
Proof.
  intros H. unfold affine. apply filter_map'. intros p. cbn [snd]. unfold usedb, inside. cbn [in_units c_censored c_noise c_sat]. destruct (c_censored c); [|reflexivity].
  f_equal; [destruct (c_noise c)|destruct (c_sat c)]; cbn; try reflexivity; now apply Rltb_units.
Qed.
Lemma map_res_bc lam l : map_res (fun s => boxcox lam (s + 0)) l = if forallb (fun s => Rltb 0 s) l then Ok (map (bc lam) l) else Raise GenericException.
Proof.
  rewrite map_res_boxcox. rewrite (map_ext (fun s => bc lam (s + 0)) (bc lam)) by (intros; now rewrite Rplus_0_r).
  replace (forallb (fun s => Rltb 0 (s + 0)) l) with (forallb (fun s => Rltb 0 s) l); [reflexivity|].
  induction l as [|x l IH]; [reflexivity|]. cbn. now rewrite Rplus_0_r, IH.
Qed.
Lemma Rltb_scale c y : 0 < c -> Rltb 0 (c * y) = Rltb 0 y.
Proof. intros H. destruct (Rltb_spec 0 (c * y)), (Rltb_spec 0 y); auto; nra. Qed.
Lemma Rlmin_nonneg l : l <> [] -> (forall y, In y l -> 0 <= y) -> Rltb (Rlmin l) 0 = false.
Proof. intros N H. destruct (Rltb_spec (Rlmin l) 0); [|reflexivity]. specialize (H _ (Rlmin_in l N)). lra. Qed.
Lemma boxcox_units lam c t : 0 < c -> boxcox lam (c * t + 0) = match boxcox lam (t + 0) with Ok v => Ok (Rpower c lam * v + bc lam c) | Raise e => Raise e end.
Proof.
  intros H. rewrite !Rplus_0_r. destruct (Rlt_le_dec 0 t) as [P|P].
  - rewrite !boxcox_ok by (try apply Rmult_lt_0_compat; assumption). now rewrite bc_scale.
  - rewrite !boxcox_raise by nra. reflexivity.
Qed.
Lemma threshold_units lam c t : 0 < c ->
  bc_threshold lam 0 (conv c 0 t) = match bc_threshold lam 0 t with Ok v => Ok (conv (Rpower c lam) (bc lam c) v) | Raise e => Raise e end.
Proof.
  intros H. destruct t as [t|]; [|reflexivity]. cbn [conv option_map bc_threshold]. rewrite (Rplus_0_r (c * t)).
  replace (c * t + 0) with (c * t + 0) by ring. pose proof (boxcox_units lam c t H) as B. rewrite !Rplus_0_r in *. rewrite B.
  destruct (boxcox lam t); reflexivity.
Qed.

(** *** The preliminary treatment of every class *)
(** The outcome [o'] in the new units is the outcome [o] moved by an increasing affine function. *)
Definition follows (ce : bool) (e k : R) (o o' : bc_out) : Prop :=
  o_signals o' = map (fun y => e * y + k) (o_signals o) /\ o_detection o' = e * o_detection o + k /\ o_lambda o' = o_lambda o /\ o_shift o' = o_shift o /\
  (ce = true -> o_noise o' = conv e k (o_noise o) /\ o_sat o' = conv e k (o_sat o)).
(** When no signal is negative the prepared sample, its thresholds and its detection threshold in the new unit of the signals are those of the
    old one moved by one increasing affine function, with the same Box-Cox parameter; the failures are the same. *)
Theorem C96_prepared opt sig det no sa ce c :
  0 < c -> (forall y, In y sig -> 0 <= y) -> opt_follows opt c ->
  match pod_run opt sig det no sa true ce with
  | Ok o => exists lam o', o_lambda o = Some lam /\ pod_run opt (map (fun y => c * y) sig) (c * det) (conv c 0 no) (conv c 0 sa) true ce = Ok o' /\
              follows ce (Rpower c lam) (bc lam c) o o'
  | Raise e => pod_run opt (map (fun y => c * y) sig) (c * det) (conv c 0 no) (conv c 0 sa) true ce = Raise e
  end.
Proof.
  intros Hc Hs Ho. unfold pod_run, auto_shift. destruct sig as [|y0 l0]; [reflexivity|]. remember (y0 :: l0) as sig eqn:Es.
  assert (N : sig <> []) by (subst; discriminate). assert (N' : map (fun y => c * y) sig <> []) by (subst; discriminate).
  rewrite (Rlmin_nonneg sig N Hs). rewrite (Rlmin_nonneg (map (fun y => c * y) sig) N').
  2:{ intros y Hy. apply in_map_iff in Hy. destruct Hy as (z & <- & Hz). apply Rmult_le_pos; [lra|auto]. }
  assert (D : match map (fun y => c * y) sig with [] => Raise GenericException | _ :: _ => Ok 0 end = Ok (A := R) 0) by (subst; reflexivity). rewrite D. clear D. cbn [bind].
  rewrite Ho. destruct (opt sig 0) as [lam|e] eqn:El; [|reflexivity]. cbn [bind]. rewrite !map_res_bc.
  assert (F : forallb (fun s => Rltb 0 s) (map (fun y => c * y) sig) = forallb (fun s => Rltb 0 s) sig).
  { clear - Hc. induction sig as [|x l IH]; [reflexivity|]. cbn [map forallb]. now rewrite IH, Rltb_scale. }
  rewrite F. destruct (forallb (fun s => Rltb 0 s) sig) eqn:FP; [|reflexivity]. cbn [bind].
  assert (M : map (bc lam) (map (fun y => c * y) sig) = map (fun y => Rpower c lam * y + bc lam c) (map (bc lam) sig)).
  { rewrite !map_map. apply map_ext_in. intros y Hy. apply bc_scale; [exact Hc|]. apply Rltb_true. rewrite forallb_forall in FP. auto. }
  assert (B := boxcox_units lam c det Hc). destruct ce.
  - rewrite !threshold_units by exact Hc. destruct (bc_threshold lam 0 no) as [n1|]; [|reflexivity]. cbn [bind]. destruct (bc_threshold lam 0 sa) as [n2|]; [|reflexivity]. cbn [bind].
    rewrite B. destruct (boxcox lam (det + 0)) as [dt|]; [|reflexivity]. cbn [bind]. exists lam. eexists. split; [reflexivity|]. split; [reflexivity|].
    repeat split; auto.
  - cbn [bind]. rewrite B. destruct (boxcox lam (det + 0)) as [dt|]; [|reflexivity]. cbn [bind]. exists lam. eexists. split; [reflexivity|]. split; [reflexivity|].
    repeat split; auto; discriminate.
Qed.

(** *** The linear fit *)
Definition linres_follows (cx kx e k : R) (l l' : linres) : Prop :=
  0 < e /\ l_obs l' = affine cx kx e k (l_obs l) /\ (l_a l', l_b l', l_stderr l') = moved cx kx e k (l_a l, l_b l, l_stderr l) /\
  l_resid l' = map (fun r => e * r) (l_resid l) /\ l_det l' = e * l_det l + k /\ l_lambda l' = l_lambda l.
Lemma affine_combine cx kx cy ky (f : R -> R) obs (e k : R) (l : list R) :
  combine (map fst (affine cx kx cy ky obs)) (map (fun y => e * y + k) l) = affine cx kx e k (combine (map fst obs) l).
Proof.
  rewrite affine_fst. revert l. induction obs as [|p obs IH]; intros l; [reflexivity|]. destruct l as [|y l]; [reflexivity|]. cbn. f_equal. apply IH.
Qed.
Lemma combine_nc (obs : data) (l : list R) : length l = length obs -> non_constant obs -> non_constant (combine (map fst obs) l).
Proof.
  intros L (p & q & Hp & Hq & Hne).
  assert (G : forall p, In p obs -> exists y, In (fst p, y) (combine (map fst obs) l)).
  { clear p q Hp Hq Hne. intros p. revert l L. induction obs as [|u obs IH]; intros l L Hin; [destruct Hin|]. destruct l as [|y l]; [discriminate|]. destruct Hin as [->|H].
    - exists y. now left.
    - destruct (IH l ltac:(cbn in L; congruence) H) as [z Hz]. exists z. now right. }
  destruct (G p Hp) as [y Hy]. destruct (G q Hq) as [z Hz]. exists (fst p, y), (fst q, z). auto.
Qed.
Lemma pod_run_length opt sig det no sa bx ce o : pod_run opt sig det no sa bx ce = Ok o -> length (o_signals o) = length sig.
Proof. intros H. apply stage in H. destruct H as (T & -> & _). apply map_length. Qed.
Lemma sides_units c cx kx cy ky d : 0 < cy ->
  map fst (filter (fun p : R * R => under_noise (conv cy ky (c_noise c)) (snd p)) (affine cx kx cy ky d)) =
  map (fun x => cx * x + kx) (map fst (filter (fun p : R * R => under_noise (c_noise c) (snd p)) d)) /\
  map fst (filter (fun p : R * R => over_sat (conv cy ky (c_sat c)) (snd p)) (affine cx kx cy ky d)) =
  map (fun x => cx * x + kx) (map fst (filter (fun p : R * R => over_sat (c_sat c) (snd p)) d)).
Proof.
  intros H. unfold affine. split.
  - rewrite (filter_map' _ _ (fun p : R * R => under_noise (c_noise c) (snd p))); [now rewrite !map_map|]. intros p. cbn [snd]. unfold under_noise. destruct (c_noise c); [|reflexivity]. now apply Rleb_units.
  - rewrite (filter_map' _ _ (fun p : R * R => over_sat (c_sat c) (snd p))); [now rewrite !map_map|]. intros p. cbn [snd]. unfold over_sat. destruct (c_sat c); [|reflexivity]. now apply Rleb_units.
Qed.
Definition unit_change_ok (s : LinObjModel.solver) (c : settings) (d : data) (cy ky : R) : Prop :=
  c_boxcox c = true -> ky = 0 /\ opt_follows (s_opt s) cy /\ forall p, In p d -> used c (snd p) -> 0 <= snd p.
Lemma fit_units s c d cx kx cy ky :
  0 < cy -> cx <> 0 -> non_constant (filter (fun p : R * R => usedb c (snd p)) d) -> unit_change_ok s c d cy ky -> (c_censored c = true -> fit_follows s cx kx) ->
  match computeLinearModel s c d with
  | Ok l => exists e k l', computeLinearModel s (in_units c cy ky) (affine cx kx cy ky d) = Ok l' /\ linres_follows cx kx e k l l'
  | Raise e => computeLinearModel s (in_units c cy ky) (affine cx kx cy ky d) = Raise e
  end.
Proof.
  intros Hy Hx Hn Hb Hf. unfold computeLinearModel. cbn [in_units c_censored c_noise c_sat c_det c_boxcox].
  rewrite (used_filter c d). pose proof (used_filter (in_units c cy ky) (affine cx kx cy ky d)) as U. cbn [in_units c_censored c_noise c_sat] in U. rewrite U. clear U.
  change {| c_det := cy * c_det c + ky; c_noise := conv cy ky (c_noise c); c_sat := conv cy ky (c_sat c); c_boxcox := c_boxcox c; c_censored := c_censored c |} with (in_units c cy ky).
  rewrite used_units by exact Hy. destruct (sides_units c cx kx cy ky d Hy) as [-> ->].
  set (obs := filter (fun p : R * R => usedb c (snd p)) d) in *.
  set (xn := map fst (filter (fun p : R * R => under_noise (c_noise c) (snd p)) d)). set (xs := map fst (filter (fun p : R * R => over_sat (c_sat c) (snd p)) d)).
  assert (ST : match pod_run (s_opt s) (map snd obs) (c_det c) (c_noise c) (c_sat c) (c_boxcox c) (c_censored c) with
     | Ok o => exists e k o', 0 < e /\ pod_run (s_opt s) (map snd (affine cx kx cy ky obs)) (cy * c_det c + ky) (conv cy ky (c_noise c)) (conv cy ky (c_sat c)) (c_boxcox c) (c_censored c) = Ok o' /\ follows (c_censored c) e k o o'
     | Raise e => pod_run (s_opt s) (map snd (affine cx kx cy ky obs)) (cy * c_det c + ky) (conv cy ky (c_noise c)) (conv cy ky (c_sat c)) (c_boxcox c) (c_censored c) = Raise e
     end).
  { rewrite affine_snd. destruct (c_boxcox c) eqn:EB.
    - destruct (Hb EB) as (-> & Ho & Hs).
      rewrite (map_ext (fun x => cy * x + 0) (fun x => cy * x)) by (intros; ring). rewrite Rplus_0_r.
      pose proof (C96_prepared (s_opt s) (map snd obs) (c_det c) (c_noise c) (c_sat c) (c_censored c) cy Hy) as P. specialize (P ltac:(intros y Hi; apply in_map_iff in Hi; destruct Hi as (p & <- & Hp); unfold obs in Hp; apply filter_In in Hp; destruct Hp as [Hp Hu]; apply Hs; [exact Hp|now apply usedb_spec]) Ho).
      destruct (pod_run _ (map snd obs) _ _ _ _ _) as [o|e]; [|exact P]. destruct P as (lam & o' & _ & E & F). exists (Rpower cy lam), (bc lam cy), o'. split; [apply exp_pos|]. split; assumption.
    - cbn [pod_run]. exists cy, ky. eexists. split; [exact Hy|]. split; [reflexivity|]. repeat split; auto. }
  destruct (pod_run (s_opt s) (map snd obs) _ _ _ _ _) as [o|x] eqn:EO; [|rewrite ST; reflexivity].
  destruct ST as (e & k & o' & He & -> & F1 & F2 & F3 & _ & F5). cbn [bind]. rewrite F1, F2.
  rewrite affine_combine by exact (fun x => x). apply pod_run_length in EO. rewrite map_length in EO. assert (NC := combine_nc obs (o_signals o) EO Hn).
  set (m := combine (map fst obs) (o_signals o)) in *. assert (Hm := non_constant_nil m NC).
  destruct (ols m) as [a b] eqn:EL. assert (EL' := ols_affine cx kx e k m a b Hx NC EL). rewrite EL', stderr_affine by assumption.
  assert (K : forall A (u v : A), match m with [] => u | _ => v end = v) by (intros; destruct m; [contradiction|reflexivity]).
  assert (K' : forall A (u v : A), match affine cx kx e k m with [] => u | _ => v end = v) by (intros; destruct m; [contradiction|reflexivity]).
  rewrite K, K'. destruct (c_censored c) eqn:EC.
  - destruct (F5 eq_refl) as [-> ->]. pose proof (Hf eq_refl e k (a, b, stderr m) m xn xs (o_noise o) (o_sat o) He) as Q. cbn [moved] in Q. rewrite Q.
    destruct (s_fit s (a, b, stderr m) m xn xs (o_noise o) (o_sat o)) as [[[a' b'] se']|x]; [|reflexivity]. cbn [bind moved]. exists e, k. eexists. split; [reflexivity|].
    split; [exact He|]. cbn [l_obs l_a l_b l_stderr l_resid l_det l_lambda]. repeat split; auto. now apply residuals_affine.
  - exists e, k. eexists. split; [reflexivity|]. split; [exact He|]. cbn [l_obs l_a l_b l_stderr l_resid l_det l_lambda moved]. repeat split; auto. now apply residuals_affine.
Qed.

(** *** The curves *)
Lemma eval_units ccdf cx kx e k l l' x kd build :
  cx <> 0 -> distinct_sizes (map fst (l_obs l)) -> linres_follows cx kx e k l l' -> (kd = Bootstrap -> follows_units build e) ->
  match made kd l build with
  | Ok f => exists f', made kd l' build = Ok f' /\ eval ccdf f' l' (cx * x + kx) = eval ccdf f l x
  | Raise _ => exists y, made kd l' build = Raise y
  end.
Proof.
  intros Hc D (He & E1 & E2 & E3 & E4 & _) Hk. injection E2 as Ea Eb Es.
  assert (T : l_det l' - linear (l_a l') (l_b l') (cx * x + kx) = e * (l_det l - linear (l_a l) (l_b l) x)) by (rewrite Ea, Eb, E4; unfold linear; field; exact Hc).
  destruct kd; cbn [made].
  - eexists. split; [reflexivity|]. cbn [eval]. unfold binomial_pod. rewrite T, E3. now apply empirical_scale.
  - eexists. split; [reflexivity|]. cbn [eval]. rewrite E1, affine_fst, Es. unfold gauss_pod, prediction_variance. rewrite T, gram_affine by assumption. f_equal.
    set (G := gram_form (map fst (l_obs l)) x).
    assert (P : 0 < 1 + G).
    { unfold G. rewrite gram_form_value by assumption. assert (P := length_pos _ (distinct_nil _ D)). assert (S := devsq_pos _ D).
      assert (0 < 1 / INR (length (map fst (l_obs l)))) by (apply Rdiv_lt_0_compat; lra).
      assert (0 <= (x - Rmean (map fst (l_obs l))) ^ 2 / devsq (map fst (l_obs l))) by (apply Rmult_le_pos; [apply pow2_ge_0|left; now apply Rinv_0_lt_compat]). lra. }
    replace (e * l_stderr l * (e * l_stderr l) * (1 + G)) with (e * e * (l_stderr l * l_stderr l * (1 + G))) by ring.
    assert (P0 : 0 <= l_stderr l * l_stderr l * (1 + G)) by (apply Rmult_le_pos; [apply Rle_0_sqr|lra]).
    rewrite sqrt_mult by (try assumption; nra). rewrite sqrt_square by lra.
    destruct (Req_dec (sqrt (l_stderr l * l_stderr l * (1 + G))) 0) as [Z|Z].
    + rewrite Z, Rmult_0_r. unfold Rdiv. rewrite Rinv_0. ring.
    + field. split; [exact Z|lra].
  - rewrite E3. specialize (Hk eq_refl (l_resid l)). destruct (build (l_resid l)) as [f|y].
    + destruct Hk as (f' & -> & Hf). cbn [bind]. eexists. split; [reflexivity|]. cbn [eval]. now rewrite T, Hf.
    + destruct Hk as (x0 & ->). cbn [bind]. now exists x0.
Qed.
(** The mean curves of UnivariateLinearModelPOD, censored or not, do not depend on the units of the sizes and signals, nor on the origin of the
    sizes; nor on the origin of the signals without Box-Cox. With Box-Cox this holds when no signal used is negative. *)
Theorem C96_units ccdf c d kd n w x cx kx cy ky :
  0 < cy -> cx <> 0 -> non_constant (filter (fun p : R * R => usedb c (snd p)) d) ->
  (c_boxcox c = true -> ky = 0 /\ opt_follows (s_opt (w_solver w 0)) cy /\ forall p, In p d -> used c (snd p) -> 0 <= snd p) ->
  (c_censored c = true -> fit_follows (w_solver w 0) cx kx) -> (kd = Bootstrap -> forall e, 0 < e -> follows_units (w_build w 0) e) ->
  mean_pod ccdf (in_units c cy ky) (affine cx kx cy ky d) kd n w (cx * x + kx) = mean_pod ccdf c d kd n w x.
Proof.
  intros Hy Hx Hn Hb Hf Hk. rewrite !mean_pod_eq. pose proof (fit_units (w_solver w 0) c d cx kx cy ky Hy Hx Hn Hb Hf) as F.
  destruct (computeLinearModel (w_solver w 0) c d) as [l|y] eqn:E; [|now rewrite F]. destruct F as (e & k & l' & -> & F).
  assert (D : distinct_sizes (map fst (l_obs l))).
  { destruct (C80_fit _ _ _ _ E) as (T & obs & E1 & E2 & _). rewrite E1, map_map. cbn [fst]. rewrite <- E2 in Hn.
    destruct Hn as (p & q & Hp & Hq & Hne). exists (fst p), (fst q). split; [now apply (in_map fst)|]. split; [now apply (in_map fst)|exact Hne]. }
  pose proof (eval_units ccdf cx kx e k l l' x kd (w_build w 0) Hx D F (fun Hkd => Hk Hkd e (proj1 F))) as M.
  destruct (made kd l (w_build w 0)) as [f|y].
  - destruct M as (f' & -> & ->). reflexivity.
  - destruct M as (z & ->). reflexivity.
Qed.

(** The likelihood of censored data moves with the data: up to a constant its value at the moved parameters is the value in the old units, so
    the best parameters move with the data. *)
Theorem C96_likelihood cdf cx kx e k p d xn xs tn ts :
  0 < e -> cx <> 0 ->
  MLE cdf (moved cx kx e k p) (affine cx kx e k d) (map (fun x => cx * x + kx) xn) (map (fun x => cx * x + kx) xs) (conv e k tn) (conv e k ts) =
  match MLE cdf p d xn xs tn ts with Ok (Some v) => Ok (Some (v + num d * ln e)) | r => r end.
Proof.
  intros He Hx. destruct p as [[b0 b1] s]. cbn [moved]. unfold MLE.
  assert (Q : forall t u, 0 < s -> (e * t + k - linear (e * b0 + k - e * b1 / cx * kx) (e * b1 / cx) (cx * u + kx)) / (e * s) = (t - linear b0 b1 u) / s).
  { intros t u Hs. unfold linear. field. lra. }
  assert (SN : Rleb (e * s) 0 = Rleb s 0) by (destruct (Rleb_spec (e * s) 0), (Rleb_spec s 0); auto; nra).
  set (a' := e * b0 + k - e * b1 / cx * kx) in *. set (b' := e * b1 / cx) in *.
  assert (CN : forall (g : R -> R) t l, 0 < s ->
     censored_arg (conv e k t) (map (fun x => cx * x + kx) l) =
       match censored_arg t l with Ok v => Ok (match t with Some _ => e * v + k | None => v end) | Raise x => Raise x end /\
     forall v, censored_arg t l = Ok v ->
       map (fun x => g (cdf ((match t with Some _ => e * v + k | None => v end - linear a' b' x) / (e * s)))) (map (fun x => cx * x + kx) l) = map (fun x => g (cdf ((v - linear b0 b1 x) / s))) l).
  { intros g t l Hs. destruct t as [t|].
    - split; [reflexivity|]. intros v [= <-]. rewrite map_map. apply map_ext. intros u. now rewrite Q.
    - destruct l as [|u l]; [split; [reflexivity|]; intros v [= <-]; reflexivity|]. split; [reflexivity|discriminate]. }
  destruct (Rlt_le_dec 0 s) as [Hs|Hs].
  - destruct (CN (fun y => y) tn xn Hs) as [-> N2]. destruct (CN (fun y => 1 - y) ts xs Hs) as [-> S2].
    destruct (censored_arg tn xn) as [vn|]; [|reflexivity]. cbn [bind]. destruct (censored_arg ts xs) as [vs|]; [|reflexivity]. cbn [bind].
    rewrite (N2 _ eq_refl), (S2 _ eq_refl), SN. destruct (Rleb s 0); [reflexivity|]. destruct (forallb _ _); [|reflexivity]. do 2 f_equal.
    assert (N : num (affine cx kx e k d) = num d) by apply num_map. rewrite N. unfold a', b'. rewrite residuals_affine, ssq_scale by exact Hx.
    assert (P : 0 < s * sqrt (2 * PI)) by (apply Rmult_lt_0_compat; [exact Hs|apply sqrt_lt_R0; assert (PP := PI_RGT_0); lra]).
    rewrite Rmult_assoc, ln_mult by assumption. field. lra.
  - assert (SL : Rleb s 0 = true) by (now apply Rleb_true). rewrite SN, SL. destruct tn, ts, xn, xs; reflexivity.
Qed.

(** Finding: with Box-Cox and a negative signal the added shift is 100 in any unit, and the curve depends on the unit of the signals: here Berens'
    curve at 1/2 is 1 in one unit and 0 in a unit five times smaller, with a logarithm in both. *)
Lemma ols_two A B : ols [(0, A); (1, B)] = (A, B - A).
Proof. unfold ols, Sxy, Sxx, xbar, ybar, Rmean. cbn [map fst snd Rsum fold_right length INR]. f_equal; field. Qed.
Theorem C96_units_refuted :
  exists c d w cy, c_boxcox c = true /\ c_censored c = false /\ non_constant d /\ 0 < cy /\ (forall u, opt_follows (s_opt (w_solver w 0)) u) /\
    forall ccdf n, mean_pod ccdf c d Binomial n w (1 / 2) = Ok 1 /\
      mean_pod ccdf (in_units c cy 0) (affine 1 0 cy 0 d) Binomial n w (1 * (1 / 2) + 0) = Ok 0.
Proof.
  set (s := {| s_opt := fun _ _ => Ok 0; s_fit := fun p _ _ _ _ _ => Ok p |}).
  exists {| c_det := 89; c_noise := None; c_sat := None; c_boxcox := true; c_censored := false |}, [(0, -1); (1, 299)],
    {| w_solver := fun _ => s; w_build := fun _ _ => Raise GenericException; w_normal := fun _ => (0, 0, 1); w_draw := fun _ => [] |}, 5.
  split; [reflexivity|]. split; [reflexivity|]. split; [exists (0, -1), (1, 299); cbn; repeat split; auto; lra|]. split; [lra|]. split; [intros u l; reflexivity|].
  assert (F : forall c d u v t sh, c_boxcox c = true -> c_censored c = false -> d = [(0, u); (1, v)] -> t = c_det c -> auto_shift [u; v] = Ok sh -> 0 < u + sh -> 0 < v + sh -> 0 < t + sh ->
     exists l, computeLinearModel s c d = Ok l /\ l_a l = ln (u + sh) /\ l_b l = ln (v + sh) - ln (u + sh) /\ l_det l = ln (t + sh) /\ l_resid l = residuals (l_a l) (l_b l) [(0, ln (u + sh)); (1, ln (v + sh))]).
  { intros c d u v t sh Hb Hc -> -> Hsh P1 P2 P3. unfold computeLinearModel. rewrite Hc, Hb. cbn [map snd fst pod_run]. rewrite Hsh. cbn [bind s_opt s map_res].
    rewrite !boxcox_ok by assumption. cbn [bind o_signals combine o_detection o_lambda]. unfold bc. destruct (Reqb_spec 0 0) as [_|]; [|contradiction].
    rewrite ols_two. eexists. split; [reflexivity|]. cbn. auto. }
  assert (V : forall l A B, l_resid l = residuals (l_a l) (l_b l) [(0, A); (1, B)] -> l_a l = A -> l_b l = B - A ->
     forall x, (l_det l < A + (B - A) * x -> binomial_pod (l_resid l) (l_a l) (l_b l) (l_det l) x = 1) /\ (A + (B - A) * x <= l_det l -> binomial_pod (l_resid l) (l_a l) (l_b l) (l_det l) x = 0)).
  { intros l A B -> -> -> x. unfold binomial_pod, empirical_ccdf, residuals, linear, countb, num. cbn [map filter fst snd length].
    replace (A - (A + (B - A) * 0)) with 0 by ring. replace (B - (A + (B - A) * 1)) with 0 by ring. cbn [filter].
    destruct (Rltb_spec (l_det l - (A + (B - A) * x)) 0) as [H|H]; cbn [length INR]; split; intros K; try lra; field. }
  assert (SH : forall u v, u < v -> u < 0 -> auto_shift [u; v] = Ok (- u + 100)).
  { intros u v H1 H2. unfold auto_shift. assert (M : Rlmin [u; v] = u).
    { apply Rle_antisym; [apply Rlmin_le; now left|]. destruct (Rlmin_in [u; v] ltac:(discriminate)) as [<-|[<-|[]]]; lra. }
    rewrite M. destruct (Rltb_spec u 0); [reflexivity|lra]. }
  assert (LH : forall p q, 0 < p -> 0 < q -> ln p + (ln q - ln p) * (1 / 2) = ln (sqrt (p * q))).
  { intros p q Hp Hq. assert (PQ : 0 < p * q) by (now apply Rmult_lt_0_compat). assert (L2 : ln (p * q) = 2 * ln (sqrt (p * q))).
    { rewrite <- (sqrt_sqrt (p * q)) at 1 by lra. rewrite ln_mult by (apply sqrt_lt_R0; lra). ring. }
    rewrite ln_mult in L2 by assumption. lra. }
  intros ccdf n. rewrite !mean_pod_eq. cbn [w_solver made]. split.
  - destruct (F {| c_det := 89; c_noise := None; c_sat := None; c_boxcox := true; c_censored := false |} [(0, -1); (1, 299)] (-1) 299 89 (- -1 + 100) eq_refl eq_refl eq_refl eq_refl (SH (-1) 299 ltac:(lra) ltac:(lra)) ltac:(lra) ltac:(lra) ltac:(lra)) as (l & E & E1 & E2 & E3 & E4).
    rewrite E. cbn [eval]. f_equal. apply (V l _ _ E4 E1 E2). rewrite E3, LH by lra. replace ((-1 + (- -1 + 100)) * (299 + (- -1 + 100))) with (200 * 200) by ring. rewrite sqrt_square by lra. apply ln_increasing; lra.
  - destruct (F (in_units {| c_det := 89; c_noise := None; c_sat := None; c_boxcox := true; c_censored := false |} 5 0) (affine 1 0 5 0 [(0, -1); (1, 299)]) (-5) 1495 445 (- -5 + 100)
      eq_refl eq_refl ltac:(unfold affine; cbn [map fst snd]; repeat (f_equal; try lra)) ltac:(cbn; lra) (SH (-5) 1495 ltac:(lra) ltac:(lra)) ltac:(lra) ltac:(lra) ltac:(lra)) as (l & E & E1 & E2 & E3 & E4).
    rewrite E. cbn [eval]. f_equal. apply (V l _ _ E4 E1 E2). rewrite E3. replace (1 * (1 / 2) + 0) with (1 / 2) by ring. rewrite LH by lra.
    replace ((-5 + (- -5 + 100)) * (1495 + (- -5 + 100))) with (400 * 400) by ring. rewrite sqrt_square by lra. left. apply ln_increasing; lra.
Qed.

(** Signals of a censored sample with Box-Cox, in another unit: the hypotheses of the two theorems hold for an optimiser that keeps its start. *)
Example C96_case :
  let s := {| s_opt := fun _ _ => Ok (1 / 2); s_fit := fun p _ _ _ _ _ => Ok p |} in
  let c := {| c_det := 4; c_noise := Some 1; c_sat := Some 9; c_boxcox := true; c_censored := true |} in
  let d := [(0, 1 / 2); (1, 2); (2, 5); (3, 10)] in
  non_constant (filter (fun p : R * R => usedb c (snd p)) d) /\ opt_follows (s_opt s) 7 /\ (forall p, In p d -> used c (snd p) -> 0 <= snd p) /\ fit_follows s 2 3 /\
  (forall e, 0 < e -> follows_units (fun r => Ok (empirical_ccdf r)) e) /\ exists l, computeLinearModel s c d = Ok l /\ length (l_obs l) = 2%nat.
Proof.
  cbn zeta. set (s := {| s_opt := fun _ _ => Ok (1 / 2); s_fit := fun p _ _ _ _ _ => Ok p |}). set (c := {| c_det := 4; c_noise := Some 1; c_sat := Some 9; c_boxcox := true; c_censored := true |}).
  assert (FE : filter (fun p : R * R => usedb c (snd p)) [(0, 1 / 2); (1, 2); (2, 5); (3, 10)] = [(1, 2); (2, 5)]).
  { unfold usedb, inside, c. cbn [filter snd c_censored c_noise c_sat]. destruct (Rltb_spec 1 (1 / 2)), (Rltb_spec 1 2), (Rltb_spec 2 9), (Rltb_spec 1 5), (Rltb_spec 5 9), (Rltb_spec 1 10), (Rltb_spec 10 9); try lra; reflexivity. }
  split; [rewrite FE; exists (1, 2), (2, 5); cbn; repeat split; auto; lra|]. split; [intros l; reflexivity|].
  split; [intros p [<-|[<-|[<-|[<-|[]]]]] _; cbn; lra|]. split; [intros e k p obs xn xs tn ts He; reflexivity|].
  split; [intros e He r; exists (empirical_ccdf (map (fun y => e * y) r)); split; [reflexivity|intros t; now apply empirical_scale]|].
  unfold computeLinearModel. rewrite (used_filter c), FE. cbn [map snd fst c_boxcox c_censored c c_det c_noise c_sat pod_run auto_shift].
  assert (M : Rltb (Rlmin [2; 5]) 0 = false) by (apply Rlmin_nonneg; [discriminate|intros y [<-|[<-|[]]]; lra]). rewrite M. cbn [bind s_opt s map_res bc_threshold].
  rewrite !boxcox_ok by lra. cbn [bind o_signals combine]. destruct (ols _) as [a b]. cbn [s_fit bind]. eexists. split; [reflexivity|reflexivity].
Qed.
Print Assumptions C96_prepared.
Print Assumptions C96_units.
Print Assumptions C96_likelihood.
Print Assumptions C96_units_refuted.
