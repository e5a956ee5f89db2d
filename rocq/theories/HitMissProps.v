(** C39-C43: properties of AdaptiveHitMissPOD.run. *)
From Coq Require Import SpecFloat Reals.
From Verif Require Import Base Float64 SettersModel HitMissModel HitMissSpec HitMissProofs HitMissConf.

(** C39: the run terminates; when it returns normally, the DOE is the initial one followed by exactly nMore
    candidates, each labelled by the physical model and chosen, at its round, in the probability band of the classifier
    in force; there are ceil(nMore/5) rounds. *)
Theorem C39_exact_growth :
  forall (X : Type) argsort fit phys (candidates : list X) b nMore input labels fuel,
    argsort_spec argsort -> length labels = length input -> nMore <= 5 * fuel ->
    exists s r, hm_run argsort fit phys candidates b nMore fuel input labels = Some (s, r) /\
      (r = Ok tt ->
       exists rounds, let new := firstn nMore (concat rounds) in
         h_input s = input ++ new /\ length new = nMore /\ h_labels s = labels ++ map phys new /\
         length rounds = ceil5 nMore /\ h_iter s = ceil5 nMore /\
         forall k xs, nth_error rounds k = Some xs ->
           exists f, current_classifier fit phys input labels k (concat (firstn k rounds)) f /\
                     round_ok candidates b f xs).
Proof.
  intros X argsort fit phys candidates b nMore input labels fuel Has Hl Hf.
  destruct (growth_lemma argsort fit phys candidates b nMore Has input labels fuel Hl Hf)
    as [rounds [s [r [E [Ht [He [Hi [Hin [Hla [Hr H]]]]]]]]]].
  exists s, r. split; [exact E|]. intros ->. exists rounds. cbv zeta.
  destruct H as [[_ H]|[H _]]; [|discriminate].
  destruct (ceil5_cost nMore) as [Hc _].
  split; [exact Hin|]. split; [rewrite firstn_length; lia|]. split; [exact Hla|].
  split; [exact H|]. split; [congruence|exact Hr].
Qed.
Print Assumptions C39_exact_growth.

(** C40: number of physical evaluations, whatever the outcome and, on success, exactly 5*ceil(nMore/5). *)
Theorem C40_number_of_evaluations :
  forall (X : Type) argsort fit phys (candidates : list X) b nMore input labels fuel s,
    argsort_spec argsort -> length labels = length input -> nMore <= 5 * fuel ->
    hm_run argsort fit phys candidates b nMore fuel input labels = Some (s, Ok tt) ->
    length (h_evals s) = 5 * ceil5 nMore /\ nMore <= length (h_evals s) < nMore + 5 /\
    (length (h_evals s) = nMore <-> nMore mod 5 = 0) /\
    h_input s = input ++ firstn nMore (h_evals s).
Proof.
  intros X argsort fit phys candidates b nMore input labels fuel s Has Hl Hf E'.
  destruct (growth_lemma argsort fit phys candidates b nMore Has input labels fuel Hl Hf)
    as [rounds [s' [r [E [Ht [He [Hi [Hin [Hla [Hr H]]]]]]]]]].
  rewrite E in E'. injection E' as -> ->.
  destruct H as [[_ H]|[H _]]; [|discriminate].
  destruct (ceil5_cost nMore) as [H1 [H2 H3]]. rewrite He. rewrite Ht, H. auto.
Qed.
Print Assumptions C40_number_of_evaluations.

(** The five candidates of one iteration, from any state; they are at distinct positions iff at least five
    candidates are in the band. *)
Theorem C40_five_quantiles :
  forall (X : Type) argsort fit phys (candidates : list X) b nMore n_ini s,
    argsort_spec argsort -> some_candidate_in_band candidates b s ->
    exists s' xs order idx,
      hm_step argsort fit phys candidates b nMore n_ini s = (s', Ok tt) /\
      quartile_choice b (map (eval_clf s (h_cur s)) candidates) order idx /\
      map Some xs = map (nth_error candidates) idx /\
      h_evals s' = h_evals s ++ xs /\
      (NoDup idx <-> 5 <= length order).
Proof. intros X argsort fit phys candidates b nMore n_ini s Has. exact (proj1 (step_lemma argsort fit phys candidates b nMore Has n_ini s)). Qed.
Print Assumptions C40_five_quantiles.

(** A running example: ten candidates 0..9, truth "x >= 5", a classifier that gives x/10 at even iterations and
    (x+2)/12 at odd ones, band [0.2, 0.9). *)
Definition ex_cand : list Z := [0; 1; 2; 3; 4; 5; 6; 7; 8; 9]%Z.
Definition ex_phys (x : Z) : bool := (5 <=? x)%Z.
Definition ex_fit (k : nat) (_ : list Z) (_ : list bool) (x : Z) : float :=
  if Nat.even k then of_ratio x 10 else of_ratio (x + 2) 12.
Definition ex_band : band := {| pmin := of_ratio 1 5; pmax := of_ratio 9 10 |}.
Definition ex_run (nMore : nat) :=
  hm_run stable_argsort ex_fit ex_phys ex_cand ex_band nMore nMore [0; 9]%Z [false; true].
(** What a client sees of a run that returned normally. *)
Definition observe {X} (o : option (hm_state (X := X) * res unit)) : option (list X * list bool * list X) :=
  match o with Some (s, Ok _) => Some (h_input s, h_labels s, h_evals s) | _ => None end.
Lemma observe_inv {X} (o : option (hm_state (X := X) * res unit)) i l e :
  observe o = Some (i, l, e) -> exists s, o = Some (s, Ok tt) /\ h_input s = i /\ h_labels s = l /\ h_evals s = e.
Proof.
  destruct o as [[s [[]|]]|]; cbn; intros H; try discriminate. injection H as <- <- <-. eauto.
Qed.
(** Non-vacuity: 7 more points need two rounds and ten evaluations. *)
Example C39_example :
  argsort_spec stable_argsort /\
  observe (ex_run 7) = Some ([0; 9; 2; 3; 5; 7; 8; 1; 3]%Z,
                             [false; true; false; false; true; true; true; false; false],
                             [2; 3; 5; 7; 8; 1; 3; 5; 7; 8]%Z).
Proof. split; [exact stable_argsort_spec|]. vm_compute. reflexivity. Qed.

(** Finding: points are evaluated and added several times, even with more than five distinct candidates in the band;
    and more evaluations are made than points requested. *)
Theorem C40_duplicates_refuted :
  exists argsort fit phys (candidates input : list Z) labels b nMore s,
    argsort_spec argsort /\ NoDup candidates /\ NoDup input /\
    hm_run argsort fit phys candidates b nMore nMore input labels = Some (s, Ok tt) /\
    ~ NoDup (h_input s) /\ length (h_evals s) > nMore.
Proof.
  exists stable_argsort, ex_fit, ex_phys, ex_cand, [0; 9]%Z, [false; true], ex_band, 7.
  destruct (observe_inv _ _ _ _ (proj2 C39_example)) as [s [E [H1 [_ H2]]]]. exists s.
  split; [exact stable_argsort_spec|].
  split; [repeat constructor; cbn; intuition discriminate|].
  split; [repeat constructor; cbn; intuition discriminate|].
  split; [exact E|]. rewrite H1, H2. split; [|cbn; lia].
  intros H. do 3 (apply NoDup_cons_iff in H as [_ H]).
  apply NoDup_cons_iff in H as [H _]. apply H. cbn. tauto.
Qed.
Print Assumptions C40_duplicates_refuted.

(** C41: the only failure of the loop is an empty band, and it is fatal: the "widened" band of the code contains no
    double at all.  The data gathered before the failure is five points per completed round. *)
Theorem C41_widened_band_is_empty :
  forall probs : list float, forall p, In p probs -> ~ (fltb p f01 = true /\ fgeb p f08 = true).
Proof.
  intros probs p _ [H1 H2].
  assert (C := fleb_fltb_trans _ _ _ H2 H1). vm_compute in C. discriminate.
Qed.
Print Assumptions C41_widened_band_is_empty.

Theorem C41_step_fails_iff_band_empty :
  forall (X : Type) argsort fit phys (candidates : list X) b nMore n_ini s,
    argsort_spec argsort ->
    (~ some_candidate_in_band candidates b s <->
     hm_step argsort fit phys candidates b nMore n_ini s = (s, Raise IndexError)).
Proof.
  intros X argsort fit phys candidates b nMore n_ini s Has.
  destruct (step_lemma argsort fit phys candidates b nMore Has n_ini s) as [H1 H2]. split; [exact H2|].
  intros E Hav. destruct (H1 Hav) as [s' [xs [o [i [E' _]]]]]. congruence.
Qed.
Print Assumptions C41_step_fails_iff_band_empty.

Theorem C41_run_outcome :
  forall (X : Type) argsort fit phys (candidates : list X) b nMore input labels fuel,
    argsort_spec argsort -> length labels = length input -> nMore <= 5 * fuel ->
    exists s r, hm_run argsort fit phys candidates b nMore fuel input labels = Some (s, r) /\
      (r = Ok tt \/
       (r = Raise IndexError /\ ~ some_candidate_in_band candidates b s /\
        exists new k, h_input s = input ++ new /\ h_labels s = labels ++ map phys new /\
                      length new = 5 * k /\ 5 * k < nMore)).
Proof.
  intros X argsort fit phys candidates b nMore input labels fuel Has Hl Hf.
  destruct (growth_lemma argsort fit phys candidates b nMore Has input labels fuel Hl Hf)
    as [rounds [s [r [E [Ht [He [Hi [Hin [Hla [Hr H]]]]]]]]]].
  exists s, r. split; [exact E|]. destruct H as [[-> _]|[-> [Hlt Hav]]]; [now left|right].
  split; [reflexivity|]. split; [exact Hav|].
  exists (firstn nMore (concat rounds)), (length rounds).
  split; [exact Hin|]. split; [exact Hla|]. split; [rewrite firstn_length; lia|exact Hlt].
Qed.
Print Assumptions C41_run_outcome.
(** Both outcomes happen. *)
Example C41_failure_happens :
  match hm_run stable_argsort ex_fit ex_phys ex_cand {| pmin := of_ratio 51 100; pmax := of_ratio 52 100 |}
               7 7 [0; 9]%Z [false; true] with
  | Some (s, Raise IndexError) => h_input s = [0; 9]%Z
  | _ => False
  end.
Proof. vm_compute. reflexivity. Qed.
(** A failed run leaves numpy arrays behind, so every later run fails with AttributeError. *)
Theorem C41_failed_run_is_not_restartable :
  forall oks : list bool,
    let final := fold_left (fun k ok => fst (hm_run_guard k ok)) oks IsSample in
    (final = IsSample <-> forallb (fun b => b) oks = true) /\
    (final = IsArray -> forall ok, hm_run_guard final ok = (IsArray, Raise AttributeError)).
Proof.
  intros oks. cbv zeta.
  assert (HA : forall l, fold_left (fun k ok => fst (hm_run_guard k ok)) l IsArray = IsArray)
    by (induction l; cbn; auto).
  split.
  - induction oks as [|[] oks IH]; cbn; [tauto|exact IH|]. rewrite HA. split; discriminate.
  - intros -> ok. reflexivity.
Qed.
Print Assumptions C41_failed_run_is_not_restartable.

(** C42: range and monotonicity of the corrected probability.  Exact arithmetic for the matrix and the monotonicity;
    the range is proved for the doubles themselves. *)
Theorem C42_corrected_probability_range :
  forall p11 p10 raw : float,
    let p := agg num64 p11 p10 raw in
    (is_nan p = true \/ (fleb fzero p = true /\ fleb p fone = true)) /\
    snd (agg_row num64 p11 p10 raw) = p /\ fst (agg_row num64 p11 p10 raw) = fsub fone p.
Proof. intros p11 p10 raw. split; [exact (agg64_range p11 p10 raw)|]. split; reflexivity. Qed.
Print Assumptions C42_corrected_probability_range.
Example C42_range_example :
  agg num64 (of_ratio 3 4) (of_ratio 1 4) (of_ratio 1 2) = of_ratio 1 2 /\
  agg num64 (of_ratio 3 4) (of_ratio 1 4) (of_ratio 1 8) = fzero /\
  is_nan (agg num64 (of_ratio 1 4) (of_ratio 1 4) (of_ratio 1 4)) = true.
Proof. vm_compute. auto. Qed.

Theorem C42_corrected_probability_monotone :
  forall p11 p10 : R, (0 <= p11 <= 1)%R -> (0 <= p10 <= 1)%R -> p11 <> p10 ->
    (forall r, (0 <= fst (agg_row numR p11 p10 r) <= 1)%R /\ (0 <= snd (agg_row numR p11 p10 r) <= 1)%R /\
               (fst (agg_row numR p11 p10 r) + snd (agg_row numR p11 p10 r) = 1)%R) /\
    ((forall r r', (0 <= r <= 1)%R -> (0 <= r' <= 1)%R -> (r <= r')%R ->
        (snd (agg_row numR p11 p10 r) <= snd (agg_row numR p11 p10 r'))%R) <-> (p10 < p11)%R).
Proof. exact aggR_row_lemma. Qed.
Print Assumptions C42_corrected_probability_monotone.

Theorem C42_matrix_columns_sum_to_one :
  forall (truth : list bool) (preds : list (list bool)),
    preds <> [] -> Forall (fun p => length truth = length p /\ both_classes p) preds ->
    let c := confMat numR truth preds in
    (0 <= m00 c)%R /\ (0 <= m01 c)%R /\ (0 <= m10 c)%R /\ (0 <= m11 c)%R /\
    (m00 c + m10 c = 1)%R /\ (m01 c + m11 c = 1)%R.
Proof. exact confMat_stochastic. Qed.
Print Assumptions C42_matrix_columns_sum_to_one.
Example C42_matrix_example :
  Forall (fun p => length [true; false; true] = length p /\ both_classes p)
         [[true; false; false]; [false; true; true]] /\
  m11 (confMat num64 [true; false; true] [[true; false; false]; [false; true; true]]) = of_ratio 3 4.
Proof.
  split; [|vm_compute; reflexivity].
  repeat (constructor; [split; [reflexivity|split; cbn; tauto]|]). constructor.
Qed.

(** Finding: a classifier that predicts a single class makes the matrix NaN; every corrected probability is then NaN and
    the next iteration, if one is needed, raises IndexError. *)
Theorem C42_single_class_prediction_stops_the_run :
  forall (X : Type) argsort fit phys (candidates : list X) b nMore n_ini s s' c,
    argsort_spec argsort ->
    hm_step argsort fit phys candidates b nMore n_ini s = (s', Ok tt) ->
    both_classes (h_labels s') -> In c (h_list s) ->
    ~ both_classes (predict (eval_clf s c) (h_input s')) ->
    (is_nan (h_p11 s') = true \/ is_nan (h_p10 s') = true) /\
    (forall x, is_nan (eval_clf s' (h_cur s') x) = true) /\
    hm_step argsort fit phys candidates b nMore n_ini s' = (s', Raise IndexError).
Proof. intros X argsort fit phys candidates b nMore n_ini s s' c. exact (single_class_stops argsort fit phys candidates b nMore n_ini s s' c). Qed.
Print Assumptions C42_single_class_prediction_stops_the_run.
Example C42_single_class_example :
  let fit0 (_ : nat) (_ : list Z) (_ : list bool) (x : Z) := of_ratio (x + 10) 40 in
  let s0 := hm_start fit0 [0; 9]%Z [false; true] in
  let s1 := fst (hm_step stable_argsort fit0 ex_phys ex_cand ex_band 7 2 s0) in
  snd (hm_step stable_argsort fit0 ex_phys ex_cand ex_band 7 2 s0) = Ok tt /\
  h_labels s1 = [false; true; false; false; true; true; true] /\
  predict (eval_clf s0 CInit) (h_input s1) = repeat false 7 /\
  snd (hm_step stable_argsort fit0 ex_phys ex_cand ex_band 7 2 s1) = Raise IndexError.
Proof. vm_compute. auto. Qed.

(** C43: the matrix of round k+1 averages the initial classifier once and the latest corrected classifier k times. *)
Inductive hm_reach {X} argsort fit phys (candidates : list X) b nMore (input : list X) (labels : list bool)
  : nat -> hm_state -> Prop :=
| reach_start : hm_reach argsort fit phys candidates b nMore input labels 0 (hm_start fit input labels)
| reach_step k s s' :
    hm_reach argsort fit phys candidates b nMore input labels k s -> h_added s < nMore ->
    hm_step argsort fit phys candidates b nMore (length input) s = (s', Ok tt) ->
    hm_reach argsort fit phys candidates b nMore input labels (S k) s'.

Theorem C43_matrix_averages_latest_classifier :
  forall (X : Type) argsort fit phys (candidates : list X) b nMore input labels k s s',
    argsort_spec argsort -> length labels = length input ->
    hm_reach argsort fit phys candidates b nMore input labels k s -> h_added s < nMore ->
    hm_step argsort fit phys candidates b nMore (length input) s = (s', Ok tt) ->
    h_conf s' = Some (confMat num64 (h_labels s')
      (predict (fit 0 input labels) (h_input s')
       :: repeat (predict (fun x => agg num64 (h_p11 s) (h_p10 s) (h_algo s x)) (h_input s')) k)) /\
    (0 < k -> h_algo s = fit k (h_input s) (h_labels s) /\ (h_cur s = CAgg) /\
              exists c, h_conf s = Some c /\ h_p11 s = m11 c /\ h_p10 s = m10 c).
Proof.
  intros X argsort fit phys candidates b nMore input labels k s s' Has Hl Hr Hlt E.
  assert (HI : exists rounds, Inv fit phys candidates b nMore input labels k rounds s).
  { clear E s'. induction Hr as [|k s s' Hr IH Ha E].
    - exists []. apply inv_start.
    - destruct (IH Ha) as [rounds HI]. rewrite (inv_added _ _ _ _ _ _ _ _ _ _ HI) in Ha.
      destruct (step_inv argsort fit phys candidates b nMore Has input labels k rounds s Hl HI Ha) as [H1 H2].
      destruct (available_dec candidates b s) as [Hav|Hav].
      + destruct (H1 Hav) as [xs [s2 [E2 HI2]]]. rewrite E in E2. injection E2 as <-. eauto.
      + rewrite (H2 Hav) in E. discriminate. }
  destruct HI as [rounds HI]. split; [exact (step_conf _ _ _ _ _ _ _ _ _ _ _ _ HI E)|].
  intros Hk. destruct k; [lia|]. destruct (inv_cur _ _ _ _ _ _ _ _ _ _ HI) as [? [? ?]]. auto.
Qed.
Print Assumptions C43_matrix_averages_latest_classifier.

Lemma step_pair {A B} (p : A * B) (r : B) : snd p = r -> p = (fst p, r).
Proof. destruct p. cbn. congruence. Qed.
Definition ex_fit3 (k : nat) (_ : list Z) (_ : list bool) (x : Z) : float :=
  if Nat.even k then of_ratio x 10 else of_ratio (x + 4) 14.
(** Finding: this is not the average over the classifiers built so far (each with its own parameters). *)
Theorem C43_average_over_history_refuted :
  exists argsort fit phys (candidates input : list Z) labels b nMore s0 s1 s2 s3,
    let run k := hm_reach argsort fit phys candidates b nMore input labels k in
    argsort_spec argsort /\ run 0 s0 /\ run 1 s1 /\ run 2 s2 /\ run 3 s3 /\
    h_conf s3 <> Some (confMat num64 (h_labels s3)
       [predict (eval_clf s0 CInit) (h_input s3);
        predict (eval_clf s1 CAgg) (h_input s3);
        predict (eval_clf s2 CAgg) (h_input s3)]).
Proof.
  set (st := hm_step stable_argsort ex_fit3 ex_phys ex_cand ex_band 15 2).
  set (s0 := hm_start ex_fit3 [0; 9]%Z [false; true]).
  set (s1 := fst (st s0)). set (s2 := fst (st s1)). set (s3 := fst (st s2)).
  exists stable_argsort, ex_fit3, ex_phys, ex_cand, [0; 9]%Z, [false; true], ex_band, 15, s0, s1, s2, s3.
  cbv zeta.
  assert (R0 : hm_reach stable_argsort ex_fit3 ex_phys ex_cand ex_band 15 [0; 9]%Z [false; true] 0 s0) by constructor.
  assert (R1 : hm_reach stable_argsort ex_fit3 ex_phys ex_cand ex_band 15 [0; 9]%Z [false; true] 1 s1).
  { econstructor; [exact R0|cbn; lia|]. apply (step_pair (st s0) (Ok tt)). vm_compute. reflexivity. }
  assert (R2 : hm_reach stable_argsort ex_fit3 ex_phys ex_cand ex_band 15 [0; 9]%Z [false; true] 2 s2).
  { econstructor; [exact R1|vm_compute; lia|]. apply (step_pair (st s1) (Ok tt)). vm_compute. reflexivity. }
  assert (R3 : hm_reach stable_argsort ex_fit3 ex_phys ex_cand ex_band 15 [0; 9]%Z [false; true] 3 s3).
  { econstructor; [exact R2|vm_compute; lia|]. apply (step_pair (st s2) (Ok tt)). vm_compute. reflexivity. }
  split; [exact stable_argsort_spec|]. repeat (split; [assumption|]).
  intros H. vm_compute in H. discriminate.
Qed.
Print Assumptions C43_average_over_history_refuted.
