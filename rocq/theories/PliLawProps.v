(** C93: the perturbed probability of the PLI is an importance sampling estimate. *)
From Verif Require Import RealBase FilterProofs LooModel PliModel KrigSimModel LawModel LawProps PliLawModel.
Local Open Scope R_scope.

(** The strict comparison used to collect the failure points, in words. *)
Definition fails (o : operator) (threshold y : R) : Prop :=
  match o with Less | LessOrEqual => y < threshold | Greater | GreaterOrEqual => threshold < y | OtherOperator => False end.
Definition failing (o : operator) (threshold y : R) : bool :=
  match o with Less | LessOrEqual => Rltb y threshold | Greater | GreaterOrEqual => Rltb threshold y | OtherOperator => false end.
Lemma failing_spec o t y : failing o t y = true <-> fails o t y.
Proof. destruct o; cbn; rewrite ?Rltb_true; try tauto. split; [discriminate|contradiction]. Qed.
(** The indicator of an event. *)
Definition ind (P : Prop) (b : R) : Prop := (P /\ b = 1) \/ (~ P /\ b = 0).
Definition one (b : bool) : R := if b then 1 else 0.
(** An integral over the points, such as the Lebesgue integral: linear, determined by the values of the function. *)
Definition integral (I : (list R -> R) -> R) : Prop :=
  (forall a b f g, I (fun x => a * f x + b * g x) = a * I f + b * I g) /\ (forall f g, (forall x, f x = g x) -> I f = I g).
(** The points have the product of the densities as density: they are drawn independently, and never where it vanishes. *)
Definition has_density (I : (list R -> R) -> R) (pdfs : list (R -> R)) (E : law (list R)) : Prop :=
  is_law (fun x => of_dim (length pdfs) x /\ product_pdf pdfs x <> 0) E /\ forall f, E f = I (fun x => f x * product_pdf pdfs x).

Section Estimate.
Variables (o : operator) (t : R) (g : list R -> R) (pdfs : list (R -> R)) (i : nat) (pert : R -> R).
Definition weight (x : list R) : R := one (failing o t (g x)) * (perturbedPDF pdfs i pert x / product_pdf pdfs x).
Lemma ratios xs : o <> OtherOperator -> Forall (fun x => of_dim (length pdfs) x /\ product_pdf pdfs x <> 0) xs ->
  exists l, (do fail <- failureSample o t xs (map g xs); Ok (all_some (map (likelihood_ratio pdfs i pert) fail))) = Ok (Some l) /\
    Rsum l = Rsum (map weight xs) /\ Rsum (map (fun r => r * r) l) = Rsum (map (fun x => weight x * weight x) xs).
Proof.
  intros Ho HS.
  assert (F : failureSample o t xs (map g xs) = Ok (filter (fun x => failing o t (g x)) xs)).
  { assert (B : forall f : R -> bool, bool_index (map f (map g xs)) xs = Ok (filter (fun x => f (g x)) xs)).
    { intros f. rewrite bool_index_map by now rewrite map_length. f_equal. clear. induction xs as [|x xs IH]; [reflexivity|]. cbn [map combine filter snd]. destruct (f (g x)); cbn [map fst]; now rewrite IH. }
    unfold failureSample. destruct o; try congruence; rewrite B; reflexivity. }
  rewrite F. cbn [bind]. clear F. exists (map (fun x => perturbedPDF pdfs i pert x / product_pdf pdfs x) (filter (fun x => failing o t (g x)) xs)).
  induction HS as [|x xs [_ Hx] _ (IH1 & IH2 & IH3)]; [cbn; auto|]. cbn [filter map]. rewrite !Rsum_cons. injection IH1 as IH1. unfold weight at 1 3 4. unfold one.
  destruct (failing o t (g x)); cbn [map all_some].
  - unfold likelihood_ratio at 1, qdiv. destruct (Reqb_spec (product_pdf pdfs x) 0); [contradiction|]. rewrite IH1. cbn [option_map]. rewrite !Rsum_cons, IH2, IH3. split; [reflexivity|]. split; ring.
  - rewrite IH1, IH2, IH3. split; [reflexivity|]. split; ring.
Qed.
Lemma value_sum xs : o <> OtherOperator -> Forall (fun x => of_dim (length pdfs) x /\ product_pdf pdfs x <> 0) xs ->
  (exists v, pfdelta_of o t g pdfs i pert xs = Ok v) /\
  value (pfdelta_of o t g pdfs i pert xs) = Rmean (map weight xs) /\
  value (varPfdelta_of o t g pdfs i pert xs) = Rmean (map (fun x => weight x * weight x) xs) - Rmean (map weight xs) * Rmean (map weight xs).
Proof.
  intros Ho HS. destruct (ratios xs Ho HS) as (l & E & S1 & S2). unfold pfdelta_of, varPfdelta_of. destruct (failureSample o t xs (map g xs)) as [fail|]; [|discriminate].
  cbn [bind] in *. injection E as ->. cbn [value]. unfold pfdelta, varPfdelta, pfdelta. rewrite S1, S2. unfold Rmean. rewrite !map_length. split; [eauto|]. split; unfold Rdiv; ring.
Qed.
(** The estimate never fails and its expectation is the probability, under the perturbed density, of the failures that the original density can
    produce; when the perturbed density vanishes with the original one at the failing points, it is the whole perturbed failure probability. *)
Theorem C93_unbiased I E N :
  integral I -> has_density I pdfs E -> o <> OtherOperator -> (0 < N)%nat ->
  (forall xs, Forall (fun x => of_dim (length pdfs) x /\ product_pdf pdfs x <> 0) xs -> exists v, pfdelta_of o t g pdfs i pert xs = Ok v) /\
  (forall b c, (forall x, ind (fails o t (g x)) (b x)) -> (forall x, ind (product_pdf pdfs x <> 0) (c x)) ->
     sample E N (fun xs => value (pfdelta_of o t g pdfs i pert xs)) = I (fun x => b x * c x * perturbedPDF pdfs i pert x)) /\
  (forall b, (forall x, ind (fails o t (g x)) (b x)) -> (forall x, fails o t (g x) -> product_pdf pdfs x = 0 -> perturbedPDF pdfs i pert x = 0) ->
     sample E N (fun xs => value (pfdelta_of o t g pdfs i pert xs)) = I (fun x => b x * perturbedPDF pdfs i pert x)).
Proof.
  intros [_ HI] [L D] Ho HN. split; [intros xs H; apply (value_sum xs Ho H)|].
  assert (S : sample E N (fun xs => value (pfdelta_of o t g pdfs i pert xs)) = I (fun x => weight x * product_pdf pdfs x)).
  { rewrite <- D, <- (sample_mean _ E N weight L HN). apply (sample_ext _ E N _ _ L). intros xs _ H. apply (value_sum xs Ho H). }
  assert (B : forall b x, ind (fails o t (g x)) (b x) -> b x = one (failing o t (g x))).
  { intros b x [[H ->]|[H ->]]; unfold one; [now rewrite (proj2 (failing_spec o t (g x)) H)|]. destruct (failing o t (g x)) eqn:F; [|reflexivity]. now apply failing_spec in F. }
  split.
  - intros b c Hb Hc. rewrite S. apply HI. intros x. rewrite (B b x (Hb x)). unfold weight. destruct (Hc x) as [[H ->]|[H ->]].
    + field. exact H.
    + assert (Z : product_pdf pdfs x = 0) by (destruct (Req_dec (product_pdf pdfs x) 0); tauto). rewrite Z. ring.
  - intros b Hb Hz. rewrite S. apply HI. intros x. rewrite (B b x (Hb x)). unfold weight. destruct (Req_dec (product_pdf pdfs x) 0) as [Z|Z]; [|field; exact Z].
    rewrite Z. destruct (failing o t (g x)) eqn:F; unfold one; [|ring]. rewrite (Hz x (proj1 (failing_spec o t (g x)) F) Z). ring.
Qed.
End Estimate.
(** Second moment of the mean of independent draws. *)
Lemma sample_square {A} S (E : law A) n a f : is_law S E ->
  sample E n (fun xs => (a + Rsum (map f xs)) * (a + Rsum (map f xs))) = (a + INR n * E f) * (a + INR n * E f) + INR n * (E (fun x => f x * f x) - E f * E f).
Proof.
  intros L. revert a. induction n as [|n IH]; intros a; cbn [sample]; [cbn; ring|].
  set (m := E f). set (q := E (fun x => f x * f x)).
  rewrite (law_ext' S E _ (fun x => ((a + INR n * m) * (a + INR n * m) + INR n * (q - m * m)) + (1 * (f x * f x) + (2 * (a + INR n * m)) * f x)) L).
  - rewrite (law_plus S E (fun _ => (a + INR n * m) * (a + INR n * m) + INR n * (q - m * m)) _ L), (law_one _ _ L), (law_lin _ _ L). fold m q. rewrite S_INR. ring.
  - intros x. transitivity (sample E n (fun xs => ((a + f x) + Rsum (map f xs)) * ((a + f x) + Rsum (map f xs)))).
    + apply (sample_ext S); [exact L|]. intros xs _ _. cbn [map]. rewrite Rsum_cons. ring.
    + rewrite IH. fold m q. ring.
Qed.
(** The variance given to the estimator is, in expectation, (N - 1) / N of the variance of the weight of one point: slightly too low, the more so as the
    simulation is short; it is N times the variance of the estimate, up to this factor. *)
Theorem C93_variance o t g pdfs i pert E N m s :
  is_law (fun x => of_dim (length pdfs) x /\ product_pdf pdfs x <> 0) E -> o <> OtherOperator -> (0 < N)%nat ->
  sample E 1 (fun xs => value (pfdelta_of o t g pdfs i pert xs)) = m ->
  sample E 1 (fun xs => (value (pfdelta_of o t g pdfs i pert xs) - m) * (value (pfdelta_of o t g pdfs i pert xs) - m)) = s ->
  sample E N (fun xs => value (varPfdelta_of o t g pdfs i pert xs)) = (INR N - 1) / INR N * s /\
  sample E N (fun xs => (value (pfdelta_of o t g pdfs i pert xs) - m) * (value (pfdelta_of o t g pdfs i pert xs) - m)) = s / INR N.
Proof.
  intros L Ho HN Hm Hs. assert (PN := INR_pos N HN). set (w := weight o t g pdfs i pert).
  assert (V : forall n, (0 < n)%nat -> sample E n (fun xs => (value (pfdelta_of o t g pdfs i pert xs) - m) * (value (pfdelta_of o t g pdfs i pert xs) - m)) =
    (E w - m) * (E w - m) + (E (fun x => w x * w x) - E w * E w) / INR n).
  { intros n Hn. assert (P := INR_pos n Hn).
    assert (G : sample E n (fun xs => (- m + Rsum (map (fun x => / INR n * w x) xs)) * (- m + Rsum (map (fun x => / INR n * w x) xs))) = (E w - m) * (E w - m) + (E (fun x => w x * w x) - E w * E w) / INR n).
    { rewrite (sample_square _ E n (- m) _ L), (law_scal _ E _ _ L). rewrite (law_ext' _ E (fun x => / INR n * w x * (/ INR n * w x)) (fun x => (/ INR n * / INR n) * (w x * w x)) L) by (intros; ring).
      rewrite (law_scal _ E _ _ L). field. lra. }
    rewrite <- G. apply (sample_ext _ E n _ _ L). intros xs Hl H. rewrite (proj1 (proj2 (value_sum o t g pdfs i pert xs Ho H))). fold w. unfold Rmean. rewrite map_length, Hl, Rsum_scal. unfold Rdiv. ring. }
  assert (M : m = E w).
  { rewrite <- Hm, <- (sample_mean _ E 1 w L ltac:(lia)). apply (sample_ext _ E 1 _ _ L). intros xs _ H. apply (value_sum o t g pdfs i pert xs Ho H). }
  rewrite (V 1%nat ltac:(lia)) in Hs. rewrite <- M in Hs. assert (S : E (fun x => w x * w x) - m * m = s) by (rewrite <- Hs; cbn; field). split.
  - assert (G : sample E N (fun xs => Rmean (map (fun x => w x * w x) xs) + -1 * ((0 + Rsum (map (fun x => / INR N * w x) xs)) * (0 + Rsum (map (fun x => / INR N * w x) xs)))) = (INR N - 1) / INR N * s).
    { assert (LS : forall n F G c, sample E n (fun xs => F xs + c * G xs) = sample E n F + c * sample E n G).
      { clear - L. induction n as [|n IH]; intros F G c; cbn [sample]; [reflexivity|]. rewrite <- (law_scal _ E _ _ L), <- (law_plus _ E _ _ L). apply (law_ext' _ E _ _ L). intros x.
        apply (IH (fun xs => F (x :: xs)) (fun xs => G (x :: xs)) c). }
      rewrite LS, (sample_mean _ E N (fun x => w x * w x) L HN), (sample_square _ E N 0 _ L), (law_scal _ E _ _ L).
      rewrite (law_ext' _ E (fun x => / INR N * w x * (/ INR N * w x)) (fun x => (/ INR N * / INR N) * (w x * w x)) L) by (intros; ring). rewrite (law_scal _ E _ _ L), <- M.
      replace (E (fun x => w x * w x)) with (s + m * m) by lra. field. lra. }
    rewrite <- G. apply (sample_ext _ E N _ _ L). intros xs Hl H. rewrite (proj2 (proj2 (value_sum o t g pdfs i pert xs Ho H))). fold w. rewrite Rsum_scal. unfold Rmean. rewrite !map_length, Hl. unfold Rdiv. ring.
  - rewrite (V N HN), <- M, S. unfold Rdiv. ring.
Qed.
(** Finding: a perturbation that moves the law outside of the support of the original one. The estimate misses these failures: it can be 0 in expectation
    (and for every sample) although the perturbed law always fails. *)
Definition on_grid (f : list R -> R) : R := Rsum (map f [[0]; [1]]).
Definition only (a x : R) : R := if Req_EM_T x a then 1 else 0.
Lemma only_density : has_density on_grid [only 0] (dirac [0]) /\ integral on_grid.
Proof.
  assert (P0 : product_pdf [only 0] [0] = 1) by (cbn; unfold only; destruct (Req_EM_T 0 0); lra).
  assert (P1 : product_pdf [only 0] [1] = 0) by (cbn; unfold only; destruct (Req_EM_T 1 0); lra). split; [split|split].
  - eapply weaken; [|apply dirac_law]. intros x ->. split; [reflexivity|]. rewrite P0. lra.
  - intros f. unfold dirac, on_grid. cbn [map]. rewrite !Rsum_cons, Rsum_nil, P0, P1. ring.
  - intros. unfold on_grid. cbn. ring.
  - intros f g H. unfold on_grid. cbn. now rewrite !H.
Qed.
Theorem C93_support_refuted :
  exists I pdfs E g t pert, integral I /\ has_density I pdfs E /\ (forall x, 0 <= perturbedPDF pdfs 0 pert x) /\ I (perturbedPDF pdfs 0 pert) = 1 /\
    I (fun x => (if Rlt_dec t (g x) then 1 else 0) * perturbedPDF pdfs 0 pert x) = 1 /\
    forall N, (0 < N)%nat -> sample E N (fun xs => value (pfdelta_of Greater t g pdfs 0 pert xs)) = 0.
Proof.
  exists on_grid, [only 0], (dirac [0]), (fun x => nth 0 x 0), (1 / 2), (only 1). destruct only_density as [D II]. split; [exact II|]. split; [exact D|]. split; [|split; [|split]].
  - intros [|y x]; cbn; [lra|]. unfold only. destruct (Req_EM_T y 1); lra.
  - unfold on_grid. cbn. unfold only. destruct (Req_EM_T 0 1), (Req_EM_T 1 1); lra.
  - unfold on_grid. cbn. unfold only. destruct (Req_EM_T 0 1), (Req_EM_T 1 1), (Rlt_dec (1 / 2) 0), (Rlt_dec (1 / 2) 1); lra.
  - intros N HN. destruct (C93_unbiased Greater (1 / 2) (fun x => nth 0 x 0) [only 0] 0 (only 1) on_grid (dirac [0]) N II D ltac:(discriminate) HN) as (_ & H & _).
    rewrite (H (fun x => if Rlt_dec (1 / 2) (nth 0 x 0) then 1 else 0) (fun x => if Req_EM_T (product_pdf [only 0] x) 0 then 0 else 1)).
    + unfold on_grid. cbn. unfold only. destruct (Req_EM_T 0 1), (Req_EM_T 1 1), (Req_EM_T 1 0), (Rlt_dec (1 / 2) 0), (Rlt_dec (1 / 2) 1); try lra. destruct (Req_EM_T (0 * 1) 0); lra.
    + intros x. unfold ind, fails. destruct (Rlt_dec _ _); auto.
    + intros x. unfold ind. destruct (Req_EM_T _ 0); [right; tauto|left; auto].
Qed.
(** A case: two points, densities 3/4 and 1/4, perturbed to 1/4 and 3/4; the expected estimate is 3/4 for every size. *)
Definition two (p x : R) : R := if Req_EM_T x 0 then p else if Req_EM_T x 1 then 1 - p else 0.
Example C93_case : exists E, integral on_grid /\ has_density on_grid [two (3 / 4)] E /\
  (forall N, (0 < N)%nat -> sample E N (fun xs => value (pfdelta_of Greater (1 / 2) (fun x => nth 0 x 0) [two (3 / 4)] 0 (two (1 / 4)) xs)) = 3 / 4) /\
  sample E 4 (fun xs => value (varPfdelta_of Greater (1 / 2) (fun x => nth 0 x 0) [two (3 / 4)] 0 (two (1 / 4)) xs)) = 81 / 64.
Proof.
  set (E := finite [(3 / 4, [0]); (1 / 4, [1])]). exists E.
  assert (II := proj2 only_density). assert (P0 : forall p, product_pdf [two p] [0] = p) by (intros p; cbn; unfold two; destruct (Req_EM_T 0 0); lra).
  assert (P1 : forall p, product_pdf [two p] [1] = 1 - p) by (intros p; cbn; unfold two; destruct (Req_EM_T 1 0); [lra|]; destruct (Req_EM_T 1 1); lra).
  assert (D : has_density on_grid [two (3 / 4)] E).
  { split.
    - apply finite_law; [|cbn; lra]. intros p [<-|[<-|[]]]; (split; [cbn; lra|]); (split; [reflexivity|]); cbn [snd]; rewrite ?P0, ?P1; lra.
    - intros f. unfold E, finite, on_grid. cbn [map]. rewrite !Rsum_cons, Rsum_nil, P0, P1. cbn [fst snd]. field. }
  assert (U : forall N, (0 < N)%nat -> sample E N (fun xs => value (pfdelta_of Greater (1 / 2) (fun x => nth 0 x 0) [two (3 / 4)] 0 (two (1 / 4)) xs)) = 3 / 4).
  { intros N HN. destruct (C93_unbiased Greater (1 / 2) (fun x => nth 0 x 0) [two (3 / 4)] 0 (two (1 / 4)) on_grid E N II D ltac:(discriminate) HN) as (_ & _ & H).
    rewrite (H (fun x => if Rlt_dec (1 / 2) (nth 0 x 0) then 1 else 0)).
    - unfold on_grid, perturbedPDF. cbn [map replace_nth]. rewrite !Rsum_cons, Rsum_nil, P0, P1. cbn [nth]. destruct (Rlt_dec (1 / 2) 0), (Rlt_dec (1 / 2) 1); lra.
    - intros x. unfold ind, fails. destruct (Rlt_dec _ _); auto.
    - intros [|y x] _; cbn; [lra|]. unfold two. destruct (Req_EM_T y 0); [lra|]. destruct (Req_EM_T y 1); lra. }
  split; [exact II|]. split; [exact D|]. split; [exact U|].
  destruct (C93_variance Greater (1 / 2) (fun x => nth 0 x 0) [two (3 / 4)] 0 (two (1 / 4)) E 4 (3 / 4) (27 / 16) (proj1 D) ltac:(discriminate) ltac:(lia) (U 1%nat ltac:(lia))) as [V _].
  - assert (S0 : value (pfdelta_of Greater (1 / 2) (fun x => nth 0 x 0) [two (3 / 4)] 0 (two (1 / 4)) [[0]]) = 0).
    { unfold pfdelta_of. cbn [failureSample map nth]. rewrite (proj2 (Rltb_false (1 / 2) 0)) by lra. cbn. unfold pfdelta. cbn. ring. }
    assert (S1 : value (pfdelta_of Greater (1 / 2) (fun x => nth 0 x 0) [two (3 / 4)] 0 (two (1 / 4)) [[1]]) = 3).
    { unfold pfdelta_of. cbn [failureSample map nth]. rewrite (proj2 (Rltb_true (1 / 2) 1)) by lra. unfold bool_index. cbn [length Nat.eqb combine filter map fst snd bind].
      unfold likelihood_ratio, qdiv, perturbedPDF. cbn [replace_nth]. cbn [mask map]. rewrite !P1. destruct (Reqb_spec (1 - 3 / 4) 0); [lra|]. cbn [all_some option_map value]. unfold pfdelta. cbn. field. }
    cbn [sample]. unfold E, finite. cbn [map]. rewrite !Rsum_cons, Rsum_nil. cbn [fst snd]. rewrite S0, S1. field.
  - rewrite V. cbn. field.
Qed.
Print Assumptions C93_unbiased.
Print Assumptions C93_variance.
Print Assumptions C93_support_refuted.
