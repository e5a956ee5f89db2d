(** C103: a higher detection threshold never raises the curves of a POD. *)
From Coq Require Import Reals Lra.
From Verif Require Import RealBase Solver RegModel RegProofs RegProps LinPodModel LinPodProps BoxCoxModel BoxCoxProps QuantileModel QuantileProofs QuantileProps
  InterpModel InterpProofs InterpProps DetectionModel DetectionProps BinomialProps QrConfProps LinObjModel LinObjProps LawModel LawProps KrigSimModel KrigSimProps.
Local Open Scope R_scope.

(** The same settings with another detection threshold. *)
Definition with_det (t : R) (c : settings) : settings :=
  {| c_det := t; c_noise := c_noise c; c_sat := c_sat c; c_boxcox := c_boxcox c; c_censored := c_censored c |}.
Definition falling (f : R -> R) : Prop := forall x y, x <= y -> f y <= f x.
(** Two lists of equal length, the second below the first entry by entry. *)
Definition below (l l' : list R) : Prop := Forall2 Rle l' l.

(** *** Quantiles of ordered samples *)
Ltac f2 := repeat first [apply Forall2_nil | apply Forall2_cons]; solve [lra | assumption | auto].
Lemma sorted_tail a l : Rsorted (a :: l) -> Rsorted l.
Proof. now inversion 1. Qed.
Lemma sorted_head a b l : Rsorted (a :: b :: l) -> a <= b.
Proof. inversion 1 as [|? ? _ H']; subst. now inversion H'. Qed.
Lemma insert_right a y l l' : Rsorted (a :: l) -> a <= y -> Forall2 Rle l l' -> Forall2 Rle (a :: l) (insert Rleb y l').
Proof.
  intros Hs Hay H. revert a Hs Hay. induction H as [|c d l l' Hcd H IH]; intros a Hs Hay; cbn; [f2|].
  assert (Hac := sorted_head _ _ _ Hs). destruct (Rleb_spec y d); [f2|]. constructor; [lra|]. apply IH; [now apply sorted_tail in Hs|lra].
Qed.
Lemma insert_left x b l l' : Rsorted (b :: l') -> x <= b -> Forall2 Rle l l' -> Forall2 Rle (insert Rleb x l) (b :: l').
Proof.
  intros Hs Hxb H. revert b Hs Hxb. induction H as [|c d l l' Hcd H IH]; intros b Hs Hxb; cbn; [f2|].
  assert (Hac := sorted_head _ _ _ Hs). destruct (Rleb_spec x c); [f2|]. constructor; [lra|]. apply IH; [now apply sorted_tail in Hs|lra].
Qed.
Lemma insert_le x y l l' : Rsorted l -> Rsorted l' -> x <= y -> Forall2 Rle l l' -> Forall2 Rle (insert Rleb x l) (insert Rleb y l').
Proof.
  intros Hs Hs' Hxy H. induction H as [|a b l l' Hab H IH]; cbn; [f2|].
  destruct (Rleb_spec x a), (Rleb_spec y b).
  - f2.
  - constructor; [lra|]. apply insert_right; [assumption|lra|assumption].
  - constructor; [lra|]. apply insert_left; [assumption|lra|assumption].
  - constructor; [assumption|]. apply IH; eapply sorted_tail; eassumption.
Qed.
Lemma sort_le l l' : Forall2 Rle l l' -> Forall2 Rle (Rsort l) (Rsort l').
Proof. induction 1; cbn; [constructor|]. apply insert_le; auto; apply Rsort_sorted. Qed.
Lemma Forall2_nth l l' : Forall2 Rle l l' -> forall i, nth i l 0 <= nth i l' 0.
Proof. induction 1 as [|x y l l' H _ IH]; intros [|i]; cbn; try lra; auto. Qed.
Lemma quantile_le l l' p : l <> [] -> Forall2 Rle l l' -> quantile l p <= quantile l' p.
Proof.
  intros Hn H. assert (L : length l = length l') by (induction H; cbn; auto; destruct l; cbn in *; [inversion H0; reflexivity|]; rewrite IHForall2; [reflexivity|discriminate]).
  assert (S := Forall2_nth _ _ (sort_le _ _ H)). unfold quantile. rewrite <- L.
  set (n := INR (length l)). destruct (Rleb_spec (n - 1) (p * n - / 2)); [apply S|]. destruct (Rleb_spec (p * n - / 2) 0); [apply S|].
  set (t := p * n - / 2) in *. destruct (floor_nat t ltac:(lra)) as [F1 F2]. set (k := Z.to_nat (Int_part t)) in *.
  assert (S1 := S k). assert (S2 := S (Datatypes.S k)). set (w := t - INR k) in *. assert (0 <= w <= 1) by (unfold w; lra). nra.
Qed.

(** *** UnivariateLinearModelPOD *)
Ltac same_fit :=
  cbn [o_signals o_noise o_sat o_detection o_lambda];
  match goal with |- context [combine ?u ?v] => destruct (combine u v) as [|? ?]; [discriminate|] end;
  match goal with |- context [ols ?u] => destruct (ols u) as [? ?] end;
  match goal with |- context [c_censored ?c] => destruct (c_censored c) end;
  [match goal with |- context [s_fit ?s ?a1 ?a2 ?a3 ?a4 ?a5 ?a6] => destruct (s_fit s a1 a2 a3 a4 a5 a6) as [[[? ?] ?]|]; [|discriminate] end; cbn [bind]|];
  (intros [= <-]; eexists; split; [reflexivity|]; cbn; auto 10).
(** The regression does not see the threshold: same line, residuals and Box-Cox parameter; only the threshold compared to the (transformed)
    signals moves, in the same direction. A threshold the transformation accepts leaves no reason to refuse a higher one. *)
Theorem C103_fit s c d t t' l : t <= t' -> computeLinearModel s (with_det t c) d = Ok l ->
  exists l', computeLinearModel s (with_det t' c) d = Ok l' /\
    l_obs l' = l_obs l /\ l_a l' = l_a l /\ l_b l' = l_b l /\ l_stderr l' = l_stderr l /\ l_resid l' = l_resid l /\ l_lambda l' = l_lambda l /\
    l_det l <= l_det l' /\ (t < t' -> l_det l < l_det l').
Proof.
  intros Ht. unfold computeLinearModel, with_det. cbn [c_det c_noise c_sat c_boxcox c_censored].
  set (obs := if c_censored c then filter (fun p => inside (c_noise c) (c_sat c) (snd p)) d else d). unfold pod_run.
  destruct (c_boxcox c).
  - destruct (auto_shift _) as [shift|]; [|discriminate]. cbn [bind]. destruct (s_opt _ _ _) as [lam|]; [|discriminate]. cbn [bind].
    destruct (map_res _ _) as [sig|]; [|discriminate]. cbn [bind]. destruct (if c_censored c then bc_threshold lam shift (c_noise c) else _) as [no|]; [|discriminate]. cbn [bind].
    destruct (if c_censored c then bc_threshold lam shift (c_sat c) else _) as [sa|]; [|discriminate]. cbn [bind].
    destruct (boxcox lam (t + shift)) as [v|] eqn:Ev; [|discriminate]. destruct (boxcox_inv _ _ _ Ev) as [Pt ->].
    assert (Pt' : 0 < t' + shift) by lra. destruct (boxcox lam (t' + shift)) as [v'|] eqn:Ev'.
    2:{ exfalso. unfold boxcox in Ev'. destruct (Rltb_spec 0 (t' + shift)); [|lra]. destruct (Reqb lam 0); discriminate. }
    destruct (boxcox_inv _ _ _ Ev') as [_ ->]. cbn [bind]. assert (L1 : bc lam (t + shift) <= bc lam (t' + shift)) by (apply bc_le_iff; lra).
    assert (L2 : t < t' -> bc lam (t + shift) < bc lam (t' + shift)) by (intros H; apply bc_lt_iff; lra). same_fit.
  - cbn [bind]. same_fit.
Qed.
(** The confidence curve of an object just run, at confidence [g]: the quantile 1 - g of the values of the curves simulated by the run. *)
Definition conf_pod ccdf c d k n w g x : res R :=
  match coll (fst (run ccdf c d k n w fresh)) with
  | None | Some [] => Raise GenericException
  | Some fs => Ok (quantile (map (fun f : R -> R => f x) fs) (1 - g))
  end.
Lemma div_le a b s : a <= b -> 0 <= s -> a / s <= b / s.
Proof.
  intros H [Hs|<-]; [apply Rmult_le_compat_r; [left; now apply Rinv_0_lt_compat|exact H]|]. unfold Rdiv. rewrite Rinv_0, !Rmult_0_r. lra.
Qed.
Lemma countb_le {A} (f g : A -> bool) l : (forall x, f x = true -> g x = true) -> (countb f l <= countb g l)%nat.
Proof. intros H. unfold countb. induction l as [|x l IH]; cbn; [lia|]. assert (G := H x). destruct (f x); [rewrite G by reflexivity; cbn; lia|destruct (g x); cbn; lia]. Qed.
Lemma empirical_falling resid : falling (empirical_ccdf resid).
Proof.
  intros x y Hxy. unfold empirical_ccdf. apply div_le; [|apply pos_INR]. apply le_INR. apply countb_le. intros r.
  destruct (Rltb_spec y r), (Rltb_spec x r); auto; lra.
Qed.
(** What is asked of the external world: distribution functions are monotone and the simulated deviations are not negative. *)
Definition sound_world (ccdf : R -> R) (w : world) : Prop :=
  falling ccdf /\ (forall i r f, w_build w i r = Ok f -> falling f) /\ (forall i, 0 <= snd (w_normal w i)).
Lemma bootstrap_coll_le ccdf c d w t t' n : t <= t' -> sound_world ccdf w -> forall i fs, bootstrap_coll w (with_det t c) d i n = Ok fs ->
  exists fs', bootstrap_coll w (with_det t' c) d i n = Ok fs' /\ Forall2 (fun f f' => forall x, f' x <= f x) fs fs'.
Proof.
  intros Ht (_ & HB & _). induction n as [|n IH]; intros i fs; cbn [bootstrap_coll].
  - intros [= <-]. eexists. split; [reflexivity|constructor].
  - unfold bootstrap_curve. destruct (computeLinearModel _ (with_det t c) _) as [l|] eqn:E; [|discriminate]. cbn [bind].
    destruct (C103_fit _ _ _ _ _ _ Ht E) as (l' & E' & _ & Ea & Eb & _ & Er & _ & Ed & _). rewrite E'. cbn [bind]. rewrite Er.
    destruct (w_build w (S i) (l_resid l)) as [f|] eqn:Ef; [|discriminate]. cbn [bind].
    destruct (bootstrap_coll w (with_det t c) d (S i) n) as [fs0|] eqn:E0; [|discriminate]. cbn [bind]. intros [= <-].
    destruct (IH (S i) fs0 E0) as (fs' & E1 & F). rewrite E1. eexists. split; [reflexivity|]. constructor; [|exact F].
    intros x. rewrite Ea, Eb. apply (HB _ _ _ Ef). lra.
Qed.
(** A run that succeeds with a threshold succeeds with a higher one, on the same data and draws. The mean curve is then nowhere higher, nor is
    any curve simulated, nor the confidence curve at any level. *)
Theorem C103_linear ccdf c d k n w t t' :
  t <= t' -> sound_world ccdf w -> snd (run ccdf (with_det t c) d k n w fresh) = Ok tt ->
  snd (run ccdf (with_det t' c) d k n w fresh) = Ok tt /\
  (forall x, exists v v', mean_pod ccdf (with_det t c) d k n w x = Ok v /\ mean_pod ccdf (with_det t' c) d k n w x = Ok v' /\ v' <= v) /\
  (k <> Binomial -> exists fs fs', coll (fst (run ccdf (with_det t c) d k n w fresh)) = Some fs /\ coll (fst (run ccdf (with_det t' c) d k n w fresh)) = Some fs' /\
     length fs = n /\ Forall2 (fun f f' : R -> R => forall x, f' x <= f x) fs fs') /\
  (k <> Binomial -> (0 < n)%nat -> forall g x, exists v v',
     conf_pod ccdf (with_det t c) d k n w g x = Ok v /\ conf_pod ccdf (with_det t' c) d k n w g x = Ok v' /\ v' <= v).
Proof.
  intros Ht HW HR. assert (W := HW). destruct W as (HC & HB & HS).
  assert (G : snd (run ccdf (with_det t' c) d k n w fresh) = Ok tt /\
    (forall x, exists v v', mean_pod ccdf (with_det t c) d k n w x = Ok v /\ mean_pod ccdf (with_det t' c) d k n w x = Ok v' /\ v' <= v) /\
    (k <> Binomial -> exists fs fs', coll (fst (run ccdf (with_det t c) d k n w fresh)) = Some fs /\ coll (fst (run ccdf (with_det t' c) d k n w fresh)) = Some fs' /\
     length fs = n /\ Forall2 (fun f f' : R -> R => forall x, f' x <= f x) fs fs')).
  { revert HR. setoid_rewrite mean_pod_eq. unfold run. destruct (computeLinearModel _ (with_det t c) d) as [l|] eqn:E; [|discriminate].
    destruct (C103_fit _ _ _ _ _ _ Ht E) as (l' & E' & Eo & Ea & Eb & Es & Er & _ & Ed & _). rewrite E'.
    destruct k; cbn [made].
    - intros _. split; [reflexivity|]. split; [|congruence]. intros x. eexists _, _. split; [reflexivity|]. split; [reflexivity|].
      cbn [eval]. rewrite Er, Ea, Eb. apply empirical_falling. lra.
    - unfold gauss_coll. rewrite Eo. destruct (Nat.leb _ 2); [discriminate|]. intros _. split; [reflexivity|]. split.
      + intros x. eexists _, _. split; [reflexivity|]. split; [reflexivity|]. cbn [eval]. rewrite Es, Ea, Eb. apply HC. apply div_le; [lra|apply sqrt_pos].
      + intros _. eexists _, _. split; [reflexivity|]. split; [reflexivity|]. split; [now rewrite map_length, seq_length|].
        generalize (seq 0 n). intros is. induction is as [|i is IH]; cbn [map]; [constructor|]. constructor; [|exact IH].
        intros x. assert (P := HS i). destruct (w_normal w i) as [[z0 z1] sg]. cbn [snd] in P. unfold gauss_simulated_pod. rewrite Ea, Eb. apply HC. apply div_le; [lra|exact P].
    - rewrite Er. destruct (w_build w 0 (l_resid l)) as [f|] eqn:Ef; [|discriminate]. destruct (bootstrap_coll w (with_det t c) d 0 n) as [fs|] eqn:EB; [|discriminate].
      destruct (bootstrap_coll_le ccdf _ _ _ _ _ _ Ht HW _ _ EB) as (fs' & EB' & F). rewrite EB'. intros _. cbn [bind]. split; [reflexivity|]. split.
      + intros x. eexists _, _. split; [reflexivity|]. split; [reflexivity|]. cbn [eval]. rewrite Ea, Eb. apply (HB _ _ _ Ef). lra.
      + intros _. exists fs, fs'. split; [reflexivity|]. split; [reflexivity|]. split; [|exact F].
        clear -EB. generalize dependent fs. generalize 0%nat. induction n as [|m IH]; intros i fs; cbn [bootstrap_coll]; [intros [= <-]; reflexivity|].
        destruct (bootstrap_curve _ _ _ _); [|discriminate]. cbn [bind]. destruct (bootstrap_coll _ _ _ (S i) m) eqn:E; [|discriminate]. cbn [bind]. intros [= <-]. cbn. now rewrite (IH _ _ E). }
  destruct G as (G1 & G2 & G3). split; [exact G1|]. split; [exact G2|]. split; [exact G3|]. intros Hk Hn g x. destruct (G3 Hk) as (fs & fs' & E1 & E2 & L & F).
  unfold conf_pod. rewrite E1, E2. destruct F as [|f f' fs fs' Hf F]; [cbn in L; lia|]. eexists _, _. split; [reflexivity|]. split; [reflexivity|].
  apply quantile_le; [discriminate|]. cbn [map]. constructor; [apply Hf|]. clear -F. induction F; cbn; constructor; auto.
Qed.
Print Assumptions C103_linear.
(** *** The binomial confidence curve *)
(** Its value at a size depends on the number of detections only: with a confidence of one half or more it never rises with the threshold. *)
Theorem C103_binomial_confidence qBeta resid a b t t' gamma x :
  qBeta_spec qBeta -> resid <> [] -> t <= t' -> / 2 <= gamma < 1 ->
  binomial_cl qBeta resid a b t' gamma x <= binomial_cl qBeta resid a b t gamma x.
Proof.
  intros HQ Hn Ht Hg. rewrite !C13_count by assumption. set (n := length resid).
  set (k' := length (filter (fun r => Rltb t' (a + b * x + r)) resid)). set (k := length (filter (fun r => Rltb t (a + b * x + r)) resid)).
  assert (K : (k' <= k)%nat).
  { apply (countb_le (fun r => Rltb t' (a + b * x + r)) (fun r => Rltb t (a + b * x + r)) resid). intros r. destruct (Rltb_spec t' (a + b * x + r)), (Rltb_spec t (a + b * x + r)); auto; lra. }
  assert (Kn : (k <= n)%nat) by (unfold k, n; clear; induction resid as [|r l IH]; cbn; [lia|]; destruct (Rltb _ _); cbn; lia). assert (Hn1 : (1 <= n)%nat) by (unfold n; destruct resid; [contradiction|cbn; lia]).
  destruct (Nat.eq_dec k' k) as [->|D]; [lra|]. destruct (Nat.eq_dec k n) as [->|D2].
  - destruct (C13_all_detected qBeta n gamma gamma HQ Hn1 ltac:(lra) ltac:(lra)) as (_ & _ & _ & A).
    assert (A' : binomial_cl_value qBeta n (n - 1) gamma <= binomial_cl_value qBeta n n gamma) by (destruct (Rle_dec (binomial_cl_value qBeta n (n - 1) gamma) (binomial_cl_value qBeta n n gamma)) as [|N]; [assumption|]; assert (N' : binomial_cl_value qBeta n n gamma < binomial_cl_value qBeta n (n - 1) gamma) by lra; apply A in N'; lra).
    destruct (Nat.eq_dec k' (n - 1)) as [->|D3]; [exact A'|].
    destruct (C13_monotone qBeta n k' (n - 1) gamma gamma HQ ltac:(lia) ltac:(lia) ltac:(lra) ltac:(lra)) as [M _]. specialize (M ltac:(lia)). lra.
  - destruct (C13_monotone qBeta n k' k gamma gamma HQ ltac:(lia) ltac:(lia) ltac:(lra) ltac:(lra)) as [M _]. specialize (M ltac:(lia)). lra.
Qed.
(** Finding: below one half a higher threshold that loses the first detection raises the curve. *)
Theorem C103_binomial_confidence_refuted :
  forall qBeta, qBeta_spec qBeta -> forall gamma, 0 < gamma < / 2 ->
    exists resid a b t t' x, resid <> [] /\ t < t' /\ binomial_cl qBeta resid a b t gamma x < binomial_cl qBeta resid a b t' gamma x.
Proof.
  intros qBeta HQ gamma Hg. exists [-1; 1], 0, 1, (-2), 0, 0. split; [discriminate|]. split; [lra|]. rewrite !C13_count by discriminate.
  destruct (C13_all_detected qBeta 2 gamma gamma HQ ltac:(lia) ltac:(lra) ltac:(lra)) as (_ & _ & _ & A).
  cbn [filter]. repeat match goal with |- context [Rltb ?u ?v] => destruct (Rltb_spec u v); try lra end. cbn [length]. exact (proj2 A ltac:(lra)).
Qed.

(** *** QuantileRegressionPOD *)
(** Regression lines that rise with the size, on the interval searched. *)
Definition rising_on (f : R -> R) (lo hi : R) : Prop := forall x y, lo <= x -> x < y -> y <= hi -> f x < f y.
Lemma crossing_le f lo hi a a' t t' : rising_on f lo hi -> t <= t' -> lo <= a <= hi -> lo <= a' <= hi -> f a = t -> f a' = t' -> a <= a'.
Proof. intros H Ht Ha Ha' E E'. destruct (Rle_dec a a') as [|N]; [assumption|]. assert (G := H a' a ltac:(lra) ltac:(lra) ltac:(lra)). lra. Qed.
Lemma solve_root (solve : Solver.solver) f v lo hi x : solver_spec solve -> lo <= hi -> cont_on f lo hi -> solve f v lo hi = Ok x -> lo <= x <= hi /\ f x = v.
Proof.
  intros HS Hd Hc E. destruct (HS f v lo hi Hd Hc) as [A B]. destruct (Rle_dec ((f lo - v) * (f hi - v)) 0) as [L|L].
  - destruct (A L) as (y & E' & H). rewrite E in E'. injection E' as <-. exact H.
  - destruct (B ltac:(lra)) as (e & E'). congruence.
Qed.
Lemma qr_sizes_le (solve : Solver.solver) line t t' lo hi levels : solver_spec solve -> lo <= hi -> (forall q, cont_on (line q) lo hi) ->
  (forall q, In q levels -> rising_on (line q) lo hi) -> t <= t' -> forall s s',
  qr_sizes solve line t lo hi levels = Ok s -> qr_sizes solve line t' lo hi levels = Ok s' -> length s = length levels /\ Forall2 Rle s s'.
Proof.
  intros HS Hd Hc Hr Ht. induction levels as [|q levels IH]; intros s s'; cbn [qr_sizes]; [intros [= <-] [= <-]; split; [reflexivity|constructor]|].
  destruct (solve (line q) t lo hi) as [a|] eqn:E; [|discriminate]. cbn [bind]. destruct (qr_sizes solve line t lo hi levels) as [l|]; [|discriminate]. cbn [bind]. intros [= <-].
  destruct (solve (line q) t' lo hi) as [a'|] eqn:E'; [|discriminate]. cbn [bind]. destruct (qr_sizes solve line t' lo hi levels) as [l'|]; [|discriminate]. cbn [bind]. intros [= <-].
  destruct (IH (fun q' H => Hr q' (or_intror H)) l l' eq_refl eq_refl) as [L F].
  apply solve_root in E; auto. apply solve_root in E'; auto. destruct E as [E1 E2], E' as [E1' E2']. split; [cbn; now rewrite L|].
  constructor; [|exact F]. apply (crossing_le (line q) lo hi a a' t t'); auto. apply Hr. now left.
Qed.
Lemma qr_ys_sorted levels : Rsorted levels -> (forall q, In q levels -> 0 < q) -> Rsorted (qr_ys levels).
Proof.
  intros Hl Hpos. unfold qr_ys. destruct levels as [|q0 ql] eqn:El.
  { cbn. constructor; [repeat constructor|]. constructor; [|constructor]. unfold Rlmax. cbn. lra. }
  rewrite <- El in *. assert (Hm := fun x => Rlmax_ge levels x).
  assert (Hp0 : 0 < Rlmax levels) by (apply Hpos, Rlmax_in; rewrite El; discriminate).
  constructor.
  + revert Hm. generalize (Rlmax levels). clear -Hl. induction Hl as [|q l Hl IH Hall]; intros m Hm; cbn; [repeat constructor|].
    constructor; [apply IH; intros x Hx; apply Hm; now right|]. apply Forall_app. split; [exact Hall|].
    constructor; [apply Hm; now left|constructor].
  + apply Forall_app. split; [apply Forall_forall; intros q Hq; assert (G := Hpos q Hq); lra|constructor; [lra|constructor]].
Qed.
Lemma Forall2_len {A B} (P : A -> B -> Prop) l l' : Forall2 P l l' -> length l = length l'.
Proof. induction 1; cbn; auto. Qed.
Lemma qr_curve_le levels s s' dmax x v v' : Rsorted levels -> (forall q, In q levels -> 0 < q) -> length s = length levels -> Forall2 Rle s s' ->
  strictly_increasing (qr_xs s dmax) -> strictly_increasing (qr_xs s' dmax) -> qr_curve levels s dmax x = Ok v -> qr_curve levels s' dmax x = Ok v' -> v' <= v.
Proof.
  intros Hl Hp L F Hs Hs' Hv Hv'. assert (L' := Forall2_len _ _ _ F). assert (L2 : length s' = length levels) by congruence.
  apply (interp1d_shift_right (qr_xs s dmax) (qr_xs s' dmax) (qr_ys levels) x v v'); auto using qr_len.
  - now apply qr_ys_sorted.
  - intros j _. apply Forall2_nth. unfold qr_xs. constructor; [lra|]. clear -F. induction F; cbn; f2.
Qed.
(** Rising regression lines: the size found at each level is never smaller for a higher threshold; the POD curve through the sizes is nowhere
    higher where both are defined. *)
Theorem C103_quantile_regression (solve : Solver.solver) line t t' dmax levels s s' :
  solver_spec solve -> 0 <= dmax -> (forall q, cont_on (line q) 0 dmax) -> (forall q, In q levels -> rising_on (line q) 0 dmax) -> t <= t' ->
  qr_run solve line t dmax levels = Ok s -> qr_run solve line t' dmax levels = Ok s' ->
  Forall2 Rle s s' /\
  (Rsorted levels -> (forall q, In q levels -> 0 < q) -> strictly_increasing (qr_xs s dmax) -> strictly_increasing (qr_xs s' dmax) ->
   forall x v v', qr_curve levels s dmax x = Ok v -> qr_curve levels s' dmax x = Ok v' -> v' <= v).
Proof.
  intros HS Hd Hc Hr Ht E E'. destruct (qr_sizes_le _ _ _ _ _ _ _ HS Hd Hc Hr Ht _ _ E E') as [L F]. split; [exact F|].
  intros. eapply qr_curve_le with (s := s) (s' := s'); eauto.
Qed.
(** The same for the bootstrap: [boots] are the regression lines and the largest defect of each bootstrap sample. *)
Theorem C103_quantile_regression_confidence (solve : Solver.solver) boots t t' lowest dmax levels rows rows' g s s' :
  solver_spec solve -> t <= t' -> boots <> [] ->
  (forall b, In b boots -> lowest <= snd b /\ (forall q, cont_on (fst b q) lowest (snd b)) /\ forall q, In q levels -> rising_on (fst b q) lowest (snd b)) ->
  Forall2 (fun b r => qr_boot_row solve (fst b) t lowest (snd b) levels = Ok r) boots rows ->
  Forall2 (fun b r => qr_boot_row solve (fst b) t' lowest (snd b) levels = Ok r) boots rows' ->
  qr_cl_sizes rows (length levels) g = Ok s -> qr_cl_sizes rows' (length levels) g = Ok s' ->
  Forall2 (Forall2 Rle) rows rows' /\ Forall2 Rle s s' /\
  (Rsorted levels -> (forall q, In q levels -> 0 < q) -> strictly_increasing (qr_xs s dmax) -> strictly_increasing (qr_xs s' dmax) ->
   forall x v v', qr_evalCL levels rows dmax g x = Ok v -> qr_evalCL levels rows' dmax g x = Ok v' -> v' <= v).
Proof.
  intros HS Ht Hb HB F F' E E'.
  assert (G : Forall2 (Forall2 Rle) rows rows').
  { clear E E' Hb. revert rows' F'. induction F as [|b r boots rows H F IH]; intros rows' F'; inversion F' as [|? r' ? rows0 H' F0]; subst; [constructor|].
    destruct (HB b (or_introl eq_refl)) as (Hd & Hc & Hr). constructor; [|apply IH; auto; intros b' Hb'; apply HB; now right].
    exact (proj2 (qr_sizes_le _ _ _ _ _ _ _ HS Hd Hc Hr Ht _ _ H H')). }
  split; [exact G|].
  assert (N : rows <> []) by (intros ->; inversion F; subst; contradiction).
  assert (K : Forall2 Rle s s' /\ length s = length levels).
  { unfold qr_cl_sizes, quantile_per_component in E, E'. destruct rows as [|r0 rs] eqn:ER; [contradiction|]. rewrite <- ER in *.
    destruct rows' as [|r0' rs'] eqn:ER'; [discriminate|]. rewrite <- ER' in *. injection E as <-. injection E' as <-. split; [|now rewrite map_length, seq_length].
    generalize (seq 0 (length levels)). intros js. induction js as [|j js IH]; cbn [map]; [constructor|]. constructor; [|exact IH].
    apply quantile_le; [rewrite ER; discriminate|]. unfold QuantileModel.column. clear -G. induction G as [|r r' rows rows' H G IH]; cbn; [constructor|]. constructor; [now apply Forall2_nth|exact IH]. }
  destruct K as [K L]. split; [exact K|]. intros Hl Hp Hs Hs' x v v' Hv Hv'. unfold qr_evalCL in Hv, Hv'. rewrite E in Hv. rewrite E' in Hv'. cbn [bind] in Hv, Hv'.
  eapply qr_curve_le with (s := s) (s' := s'); eauto.
Qed.
(** *** Detection sizes *)
(** A curve that is nowhere higher gives a detection size that is not smaller; the same for the sizes on the confidence curves. *)
Theorem C103_detection_size (solve : Solver.solver) F F' cl cl' p lo hi a b a' b' :
  solver_spec solve -> lo <= hi -> cont_on F lo hi -> cont_on F' lo hi -> cont_on cl lo hi -> cont_on cl' lo hi -> rising_on F lo hi -> rising_on cl lo hi ->
  (forall x, lo <= x <= hi -> F' x <= F x) -> (forall x, lo <= x <= hi -> cl' x <= cl x) ->
  computeDetectionSize solve F (Some cl) p lo hi = Ok [a; b] -> computeDetectionSize solve F' (Some cl') p lo hi = Ok [a'; b'] -> a <= a' /\ b <= b'.
Proof.
  intros HS Hd C1 C2 C3 C4 M1 M2 L1 L2. unfold computeDetectionSize.
  assert (X : forall F F' u u', cont_on F lo hi -> cont_on F' lo hi -> rising_on F lo hi -> (forall x, lo <= x <= hi -> F' x <= F x) ->
    solve F p lo hi = Ok u -> solve F' p lo hi = Ok u' -> u <= u').
  { clear -HS Hd. intros F F' u u' C C' M L E E'. apply solve_root in E; auto. apply solve_root in E'; auto. destruct E as [E1 E2], E' as [E1' E2'].
    apply (crossing_le F lo hi u u' (F u) (F u') M); auto. rewrite E2, <- E2'. now apply L. }
  destruct (Rleb (F lo) p && _); [|discriminate]. destruct (solve F p lo hi) as [u|] eqn:E1; [|discriminate]. cbn [bind]. destruct (Rleb (cl lo) p && _); [|discriminate].
  destruct (solve cl p lo hi) as [u2|] eqn:E2; [|discriminate]. cbn [bind]. intros [= -> ->].
  destruct (Rleb (F' lo) p && _); [|discriminate]. destruct (solve F' p lo hi) as [u'|] eqn:E1'; [|discriminate]. cbn [bind]. destruct (Rleb (cl' lo) p && _); [|discriminate].
  destruct (solve cl' p lo hi) as [u2'|] eqn:E2'; [|discriminate]. cbn [bind]. intros [= -> ->]. split; [exact (X F F' _ _ C1 C2 M1 L1 E1 E1')|exact (X cl cl' _ _ C3 C4 M2 L2 E2 E2')].
Qed.

(** *** Curves interpolated between the defect sizes *)
Lemma interp1d_below xs ys ys' x v v' : strictly_increasing xs -> length xs = length ys -> below ys ys' ->
  interp1d xs ys x = Ok v -> interp1d xs ys' x = Ok v' -> v' <= v.
Proof.
  intros Hs L F Hv Hv'. assert (L' := Forall2_len _ _ _ F). assert (LL : length xs = length ys') by congruence.
  assert (Hne : xs <> []) by (intros ->; destruct ys; [|discriminate]; discriminate).
  destruct (C28_domain xs ys x L Hs Hne) as [_ D].
  assert (Ht : nth 0 xs 0 <= x <= last xs 0).
  { destruct (Rle_dec (nth 0 xs 0) x) as [A|A]; [destruct (Rle_dec x (last xs 0)) as [B|B]|]; [auto| |]; rewrite D in Hv by lra; discriminate. }
  destruct (find_cell xs x Hs Hne Ht) as [(i & Hi & Hti)|[H1 H2]].
  - destruct (C28_affine_between_neighbours xs ys i x L Hs Hi Hti) as (w & Hw & Et & Ev). rewrite Ev in Hv. injection Hv as <-.
    destruct (C28_affine_between_neighbours xs ys' i x LL Hs Hi Hti) as (w' & Hw' & Et' & Ev'). rewrite Ev' in Hv'. injection Hv' as <-.
    assert (Hlt : nth i xs 0 < nth (S i) xs 0).
    { clear -Hs Hi. revert i Hi. induction Hs as [|a l Hl IH Ha]; intros i Hi; cbn in Hi; [lia|].
      destruct i as [|i]; cbn [nth]; [rewrite Forall_forall in Ha; apply Ha, nth_In; lia|apply IH; lia]. }
    assert (w' = w) as -> by nra. assert (G1 := Forall2_nth _ _ F i). assert (G2 := Forall2_nth _ _ F (S i)).
    apply Rplus_le_compat; apply Rmult_le_compat_l; lra.
  - subst x. rewrite (C28_exact_at_defect_sizes xs ys 0 L Hs ltac:(lia)) in Hv. rewrite (C28_exact_at_defect_sizes xs ys' 0 LL Hs ltac:(lia)) in Hv'.
    injection Hv as <-. injection Hv' as <-. apply (Forall2_nth _ _ F).
Qed.
(** A simulation that is nowhere higher at the nodes gives curves that are nowhere higher between them: the mean curve, a curve of other
    ordinates, and the confidence curve at every level. *)
Theorem C103_interpolated_curves sizes rows rows' pod pod' :
  strictly_increasing sizes -> rows <> [] -> Forall2 below rows rows' ->
  (length pod = length sizes -> below pod pod' -> forall x v v', interp1d sizes pod x = Ok v -> interp1d sizes pod' x = Ok v' -> v' <= v) /\
  (forall x v v', meta_evalPOD (meta_run (fun _ => rows) col_means (meta_new sizes)) x = Ok v ->
     meta_evalPOD (meta_run (fun _ => rows') col_means (meta_new sizes)) x = Ok v' -> v' <= v) /\
  (forall g x v v', meta_evalCL (meta_run (fun _ => rows) col_means (meta_new sizes)) g x = Ok v ->
     meta_evalCL (meta_run (fun _ => rows') col_means (meta_new sizes)) g x = Ok v' -> v' <= v).
Proof.
  intros Hs Hn F.
  assert (C : forall j, Forall2 Rle (QuantileModel.column rows' j) (QuantileModel.column rows j)).
  { intros j. unfold QuantileModel.column. clear -F. induction F as [|r r' rows rows' H F IH]; cbn; [constructor|]. constructor; [now apply Forall2_nth|exact IH]. }
  split; [intros L B x v v'; now apply interp1d_below|]. split.
  - intros x v v'. cbn [meta_evalPOD meta_run mo_curve mo_sizes meta_new]. apply interp1d_below; [exact Hs|unfold col_means; now rewrite map_length, seq_length|].
    unfold below, col_means. generalize (seq 0 (length sizes)). intros js. induction js as [|j js IH]; cbn [map]; [constructor|]. constructor; [|exact IH].
    unfold Rmean. assert (G := C j). rewrite (Forall2_len _ _ _ G). apply div_le; [|apply pos_INR]. clear -G. induction G; [lra|]. rewrite !Rsum_cons. lra.
  - intros g x v v'. cbn [meta_evalCL meta_run mo_rows mo_sizes meta_new]. unfold pod_cl_values, quantile_per_component.
    destruct rows as [|r0 rs] eqn:ER; [contradiction|]. rewrite <- ER in *. destruct rows' as [|r0' rs'] eqn:ER'; [intros _; discriminate|]. rewrite <- ER' in *. cbn [bind].
    apply interp1d_below; [exact Hs|now rewrite map_length, seq_length|].
    unfold below. generalize (seq 0 (length sizes)). intros js. induction js as [|j js IH]; cbn [map]; [constructor|]. constructor; [|exact IH].
    apply quantile_le; [rewrite ER'; discriminate|apply C].
Qed.
(** *** Metamodels *)
(** Chaos: with the same points, chaos and residual draws the ordinate is a part of the points, those above the threshold. *)
Theorem C103_chaos_node t t' chaos stderr xs eps : t <= t' -> chaos_node t' chaos stderr xs eps <= chaos_node t chaos stderr xs eps.
Proof.
  intros Ht. unfold chaos_node, Rmean. rewrite !map_length. apply div_le; [|apply pos_INR]. apply Rsum_le. intros [x e] _. cbn [fst snd].
  destruct (Rltb_spec t' (chaos x + e * stderr)), (Rltb_spec t (chaos x + e * stderr)); lra.
Qed.
Lemma law_le {A} S (E : law A) f g : is_law S E -> (forall x, S x -> f x <= g x) -> E f <= E g.
Proof.
  intros L H. assert (G := law_pos _ _ L (fun x => 1 * g x + -1 * f x)). rewrite (law_lin _ _ L) in G. specialize (G ltac:(intros x Hx; specialize (H x Hx); lra)). lra.
Qed.
(** Kriging: the expected ordinate never rises with the threshold, for any numbers of points and draws. *)
Theorem C103_kriging_expected Z dim E a t t' m v N M :
  centred Z -> (1 <= dim)%nat -> is_law (of_dim dim) E -> (0 < N)%nat -> (0 < M)%nat -> (forall x, 0 <= v x) -> t <= t' ->
  kriging_node_expectation Z (kriging_points dim E a) t' m v N M <= kriging_node_expectation Z (kriging_points dim E a) t m v N M.
Proof.
  intros HZ Hd L HN HM Hv Ht. rewrite !(C92_kriging_unbiased Z dim E) by assumption. apply (law_le (of_dim dim)); [eapply kriging_points_law; eassumption|].
  intros x _. unfold exceedance. apply (law_le anything); [apply HZ|]. intros z _. destruct (Rlt_dec t' _), (Rlt_dec t _); lra.
Qed.
(** Finding: on given draws the ordinate of the kriging POD can rise with the threshold, even above 1. The ordinate is not the part of the
    points above the threshold but a draw of a normal law centred on it, of variance 0 when the part is 0 or 1. *)
Theorem C103_kriging_node_refuted :
  exists t t' m v xs draws rnd, t < t' /\ (forall x, 0 <= v x) /\ kriging_node t m v xs draws rnd = 1 /\ 1 < kriging_node t' m v xs draws rnd.
Proof.
  exists 0, 2, (fun x => nth 0 x 0), (fun _ => 0), [[1]; [3]], [0], [(0%nat, 2)]. split; [lra|]. split; [intros; lra|].
  unfold kriging_node, pod_sample, mixture_sample, mixture, randomVector, realisation. cbn [map combine nth fst snd].
  destruct (Rltb_spec 0 0); [lra|]. cbn [map fst snd nth length].
  assert (E1 : pod_of_row 0 [Some (0 * sqrt 0 + 1); Some (0 * sqrt 0 + 3)] = 1).
  { unfold pod_of_row, exceeds. cbn [map]. repeat match goal with |- context [Rltb ?u ?v] => destruct (Rltb_spec u v); try (exfalso; rewrite ?Rmult_0_l in *; lra) end. unfold Rmean. cbn. field. }
  assert (E2 : pod_of_row 2 [Some (0 * sqrt 0 + 1); Some (0 * sqrt 0 + 3)] = / 2).
  { unfold pod_of_row, exceeds. cbn [map]. repeat match goal with |- context [Rltb ?u ?v] => destruct (Rltb_spec u v); try (exfalso; rewrite ?Rmult_0_l in *; lra) end. unfold Rmean. cbn. field. }
  rewrite E1, E2. unfold component_of, var_tcl. cbn [INR].
  destruct (Rltb_spec 0 (1 * (1 - 1) / (1 + 1))); [lra|]. destruct (Rltb_spec 1 1); [lra|]. destruct (Rltb_spec 0 (/ 2 * (1 - / 2) / (1 + 1))); [|lra].
  cbn [draw]. unfold Rmean. cbn. split; [field|].
  assert (Q : / 4 < sqrt (/ 2 * (1 - / 2) / (1 + 1))) by (rewrite <- (sqrt_square (/ 4)) by lra; apply sqrt_lt_1; lra). lra.
Qed.

(** *** Examples *)
(** Three observations on the line y = x + 1 and two thresholds, all three kinds of curves; two rising lines; two simulations. *)
Definition sample3 : data := [(1, 2); (2, 3); (3, 4)].
Definition plain (t : R) : settings := {| c_det := t; c_noise := None; c_sat := None; c_boxcox := false; c_censored := false |}.
Definition any_world : world :=
  {| w_solver := fun _ => {| s_opt := fun _ _ => Raise ValueError; s_fit := fun _ _ _ _ _ _ => Raise ValueError |};
     w_build := fun _ _ => Ok (fun x => if Rle_dec x 0 then 1 else 0); w_normal := fun _ => (0, 0, 1); w_draw := fun _ => [0; 1; 2]%nat |}.
Definition step_down (x : R) : R := if Rle_dec x 0 then 1 else 0.
Lemma step_falling : falling step_down.
Proof. intros x y H. unfold step_down. destruct (Rle_dec x 0), (Rle_dec y 0); lra. Qed.
Example C103_example :
  sound_world step_down any_world /\ with_det 2 (plain 1) = plain 2 /\
  (forall k n, snd (run step_down (with_det 1 (plain 1)) sample3 k n any_world fresh) = Ok tt) /\
  (rising_on (fun x => 0 + 2 * x) 0 5 /\ cont_on (fun x => 0 + 2 * x) 0 5 /\ strictly_increasing (qr_xs [1; 2] 5)) /\
  (strictly_increasing [1; 2] /\ Forall2 below [[1; 1]; [/ 2; 1]] [[/ 2; 1]; [0; 1]]).
Proof.
  split; [|split; [reflexivity|split; [|split; [split; [|split]|split]]]].
  - split; [exact step_falling|]. split; [intros i r f [= <-]; exact step_falling|]. intros i. cbn. lra.
  - intros k n. destruct k; [reflexivity|reflexivity|]. unfold run. 
    assert (B : forall i, exists fs, bootstrap_coll any_world (with_det 1 (plain 1)) sample3 i n = Ok fs).
    { induction n as [|n IH]; intros i; cbn [bootstrap_coll]; [eauto|]. destruct (IH (S i)) as [fs Efs]. rewrite Efs.
      unfold bootstrap_curve, computeLinearModel. cbn [any_world w_draw resample map nth sample3 with_det plain c_censored c_boxcox pod_run bind o_signals combine fst snd c_det c_noise c_sat].
      destruct (ols _) as [u v]. cbn. eauto. }
    destruct (B 0%nat) as [fs Efs]. rewrite Efs. unfold computeLinearModel. cbn [sample3 map with_det plain c_censored c_boxcox pod_run bind o_signals combine fst snd c_det c_noise c_sat].
    destruct (ols _) as [u v]. cbn. reflexivity.
  - intros x y _ H _. lra.
  - apply (lipschitz_cont_on _ _ _ 2). intros x y _ _. replace (0 + 2 * y - (0 + 2 * x)) with (2 * (y - x)) by ring. rewrite Rabs_mult, (Rabs_right 2) by lra. lra.
  - unfold qr_xs. cbn. repeat constructor; lra.
  - repeat constructor; lra.
  - unfold below. f2; f2.
Qed.
(** Two rising curves, the second lower, and their detection sizes at 1/2 : 2 and 5/2 (the same curves are taken as confidence curves). *)
Lemma line_cont k lo hi : 0 < k -> cont_on (fun x => k * x) lo hi.
Proof. intros Hk. apply (lipschitz_cont_on _ _ _ k). intros x y _ _. replace (k * y - k * x) with (k * (y - x)) by ring. rewrite Rabs_mult, (Rabs_right k) by lra. lra. Qed.
Lemma line_rising k lo hi : 0 < k -> rising_on (fun x => k * x) lo hi.
Proof. intros Hk x y _ H _. now apply Rmult_lt_compat_l. Qed.
Lemma line_size (solve : Solver.solver) k p hi : solver_spec solve -> 0 < k -> 0 <= p <= k * hi -> 0 <= hi -> computeDetectionSize solve (fun x => k * x) (Some (fun x => k * x)) p 0 hi = Ok [p / k; p / k].
Proof.
  intros HS Hk Hp Hh. unfold computeDetectionSize. destruct (Rleb_spec (k * 0) p); [|lra]. destruct (Rleb_spec p (k * hi)); [|lra]. cbn [andb].
  destruct (HS (fun x => k * x) p 0 hi Hh (line_cont k 0 hi Hk)) as [A _]. destruct A as (x & E & _ & R1); [nra|].
  assert (x = p / k) as -> by (apply (Rmult_eq_reg_l k); [rewrite R1; field; lra|lra]). rewrite E. reflexivity.
Qed.
Example C103_example_detection (solve : Solver.solver) : solver_spec solve ->
  (forall x, 0 <= x <= 4 -> / 5 * x <= / 4 * x) /\ rising_on (fun x => / 4 * x) 0 4 /\ cont_on (fun x => / 4 * x) 0 4 /\ cont_on (fun x => / 5 * x) 0 4 /\
  computeDetectionSize solve (fun x => / 4 * x) (Some (fun x => / 4 * x)) (/ 2) 0 4 = Ok [2; 2] /\
  computeDetectionSize solve (fun x => / 5 * x) (Some (fun x => / 5 * x)) (/ 2) 0 4 = Ok [5 / 2; 5 / 2].
Proof.
  intros HS. split; [intros; lra|]. split; [apply line_rising; lra|]. split; [apply line_cont; lra|]. split; [apply line_cont; lra|].
  rewrite !line_size by (assumption || lra). replace (/ 2 / / 4) with 2 by field. replace (/ 2 / / 5) with (5 / 2) by field. auto.
Qed.
Print Assumptions C103_fit.
Print Assumptions C103_binomial_confidence.
Print Assumptions C103_binomial_confidence_refuted.
Print Assumptions C103_quantile_regression.
Print Assumptions C103_quantile_regression_confidence.
Print Assumptions C103_detection_size.
Print Assumptions C103_interpolated_curves.
Print Assumptions C103_chaos_node.
Print Assumptions C103_kriging_expected.
Print Assumptions C103_kriging_node_refuted.
