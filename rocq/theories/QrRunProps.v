(** C95: when the run of the quantile regression POD succeeds. *)
From Coq Require Import Reals Lra.
From Verif Require Import RealBase Solver InterpModel DetectionModel KrigAttrModel QrObjModel QrObjProps QrRunModel.
Local Open Scope R_scope.

(** The affine function a + b x takes the value v on [lo, hi]. *)
Definition meets (ab : R * R) (v lo hi : R) : Prop := exists x, lo <= x <= hi /\ fst ab + snd ab * x = v.
(** [x] is the only such size. *)
Definition meets_at (ab : R * R) (v lo hi x : R) : Prop :=
  lo <= x <= hi /\ fst ab + snd ab * x = v /\ (snd ab <> 0 -> x = (v - fst ab) / snd ab).

Lemma affine_cont ab lo hi : cont_on (fun x => fst ab + snd ab * x) lo hi.
Proof.
  apply (lipschitz_cont_on _ lo hi (Rabs (snd ab))). intros x y _ _.
  replace (fst ab + snd ab * y - (fst ab + snd ab * x)) with (snd ab * (y - x)) by ring. rewrite Rabs_mult. lra.
Qed.
Lemma meets_sign ab v lo hi : lo <= hi ->
  (meets ab v lo hi <-> (fst ab + snd ab * lo - v) * (fst ab + snd ab * hi - v) <= 0).
Proof.
  intros H. split.
  - intros (x & Hx & <-).
    replace (fst ab + snd ab * lo - (fst ab + snd ab * x)) with (- (snd ab * (x - lo))) by ring.
    replace (fst ab + snd ab * hi - (fst ab + snd ab * x)) with (snd ab * (hi - x)) by ring.
    replace (- (snd ab * (x - lo)) * (snd ab * (hi - x))) with (- ((snd ab * snd ab) * ((x - lo) * (hi - x)))) by ring.
    assert (0 <= snd ab * snd ab) by apply Rle_0_sqr. assert (0 <= (x - lo) * (hi - x)) by (apply Rmult_le_pos; lra).
    assert (0 <= (snd ab * snd ab) * ((x - lo) * (hi - x))) by now apply Rmult_le_pos. lra.
  - intros S. destruct ab as [a b]. cbn [fst snd] in *. destruct (Req_dec b 0) as [->|N].
    + exists lo. cbn [fst snd]. split; [lra|]. nra.
    + exists ((v - a) / b). cbn [fst snd]. split; [|field; exact N].
      assert (E1 : a + b * lo - v = - (b * ((v - a) / b - lo))) by (field; exact N).
      assert (E2 : a + b * hi - v = b * (hi - (v - a) / b)) by (field; exact N).
      rewrite E1, E2 in S. set (x := (v - a) / b) in *.
      assert (Q : 0 < b * b) by nra. assert (0 <= (x - lo) * (hi - x)) by nra. nra.
Qed.
Lemma solve_affine solve ab v lo hi : solver_spec solve -> lo <= hi ->
  (meets ab v lo hi -> exists x, solve (fun x => fst ab + snd ab * x) v lo hi = Ok x /\ meets_at ab v lo hi x) /\
  (~ meets ab v lo hi -> exists e, solve (fun x => fst ab + snd ab * x) v lo hi = Raise e).
Proof.
  intros Hs Hl. destruct (Hs (fun x => fst ab + snd ab * x) v lo hi Hl (affine_cont ab lo hi)) as [S1 S2].
  rewrite (meets_sign ab v lo hi Hl). split.
  - intros H. destruct (S1 H) as (x & E & Hx & Ev). exists x. split; [exact E|]. split; [exact Hx|]. split; [exact Ev|].
    intros N. rewrite <- Ev. field. exact N.
  - intros H. apply S2. lra.
Qed.
Section Lines.
Variables Prep : Type.
Variable fit : Prep -> R -> R * R.
(** The sizes of all levels: they exist iff every line meets the threshold on the interval. *)
Lemma sizes_spec solve p v lo hi : solver_spec solve -> lo <= hi -> forall levels,
  ((forall q, In q levels -> meets (fit p (1 - q)) v lo hi) ->
     exists l, qr_sizes solve (level_line Prep fit p) v lo hi levels = Ok l /\ Forall2 (fun q x => meets_at (fit p (1 - q)) v lo hi x) levels l) /\
  ((exists q, In q levels /\ ~ meets (fit p (1 - q)) v lo hi) -> exists e, qr_sizes solve (level_line Prep fit p) v lo hi levels = Raise e).
Proof.
  intros Hs Hl. induction levels as [|q levels [I1 I2]].
  - split; [intros _; exists []; split; [reflexivity|constructor]|]. intros (q & [] & _).
  - destruct (solve_affine solve (fit p (1 - q)) v lo hi Hs Hl) as [S1 S2]. cbn [qr_sizes].
    change (solve (level_line Prep fit p q) v lo hi) with (solve (fun x => fst (fit p (1 - q)) + snd (fit p (1 - q)) * x) v lo hi).
    split.
    + intros H. destruct (S1 (H q (or_introl eq_refl))) as (x & -> & Hx). cbn [bind].
      destruct (I1 (fun q' Hq => H q' (or_intror Hq))) as (l & -> & Hl'). exists (x :: l). split; [reflexivity|]. now constructor.
    + intros (q' & [->|Hq] & N).
      * destruct (S2 N) as [e ->]. exists e. reflexivity.
      * destruct (solve _ v lo hi) as [x|e]; [|exists e; reflexivity]. cbn [bind]. destruct (I2 (ex_intro _ q' (conj Hq N))) as [e ->]. exists e. reflexivity.
Qed.
End Lines.

Section Spec.
Variables Data F L Gr Prep : Type.
Variable boxCox : bool.
Variable data : Data.
Variable filtered : Data -> res F.
Variable optimise : F -> res (L * Gr).
Variable transform : F -> option L -> res Prep.
Variable fit : Prep -> R -> R * R.
Variable threshold max_defect : Prep -> R.
Variable lowest : R.
Notation run := (run Data F L Gr Prep boxCox data filtered optimise transform max_defect).
Notation after := (after Data F L Gr Prep boxCox data filtered optimise transform max_defect).
Notation prepared := (prepared Data F L Gr Prep boxCox filtered optimise transform).
Notation levels_of := (levels_of Data Prep).
Notation sims_of := (sims_of Data Prep).
Notation run_ := (run_ Data F L Gr Prep boxCox filtered optimise transform).
Notation boot := (boot Data F L Gr Prep boxCox filtered optimise transform).
Notation line_world := (line_world Data Prep fit threshold max_defect lowest).

Lemma run__result d s : snd (run_ d s) = prepared d.
Proof.
  unfold QrObjModel.run_, QrObjProps.prepared. destruct (filtered d) as [f|e]; [|reflexivity]. cbn [bind]. destruct boxCox; [|reflexivity].
  destruct (optimise f) as [[l g]|e]; reflexivity.
Qed.
Lemma boot_result w : forall is filled s,
  (snd (boot w is filled s) = Ok tt <->
   forall i, In i is -> exists p r, prepared (w_data _ _ w i) = Ok p /\ w_boot _ _ w i p (levels _ _ _ s) = Ok r).
Proof.
  induction is as [|i is IH]; intros filled s; cbn [QrObjModel.boot]; [split; [intros _ i []|reflexivity]|].
  assert (R := run__result (w_data _ _ w i) s).
  destruct (run__fields Data F L Gr Prep boxCox filtered optimise transform (w_data _ _ w i) s) as (HL & _).
  destruct (run_ (w_data _ _ w i) s) as [s1 [p|e]]; cbn [fst snd] in *.
  - rewrite HL. destruct (w_boot _ _ w i p (levels _ _ _ s)) as [r|e] eqn:Er.
    + rewrite IH. cbn [set_rows levels]. rewrite HL. split.
      * intros H j [<-|Hj]; [exists p, r; split; [now symmetry|exact Er]|now apply H].
      * intros H j Hj. apply H. now right.
    + split; [discriminate|]. intros H. destruct (H i (or_introl eq_refl)) as (p' & r & E1 & E2). rewrite <- R in E1. injection E1 as <-. congruence.
  - split; [discriminate|]. intros H. destruct (H i (or_introl eq_refl)) as (p' & r & E1 & E2). congruence.
Qed.

(** In every history: run succeeds iff on the data and on every bootstrap sample the preliminary treatment does, every line of the
    data meets the threshold between 0 and the largest defect, and every line of each bootstrap sample meets it below the largest
    defect of that sample. *)
Theorem C95_succeeds_iff :
  forall solve draws past given l0,
    solver_spec solve -> (forall p, prepared data = Ok p -> 0 <= max_defect p) ->
    (forall i p, prepared (draws i) = Ok p -> lowest <= max_defect p) ->
    let s := after given l0 past in
    (snd (run (line_world solve draws) s) = Ok tt <->
     (exists p, prepared data = Ok p /\ forall q, In q (levels_of l0 past) -> meets (fit p (1 - q)) (threshold p) 0 (max_defect p)) /\
     (forall i, (i < sims_of past)%nat -> exists p, prepared (draws i) = Ok p /\
        forall q, In q (levels_of l0 past) -> meets (fit p (1 - q)) (threshold p) lowest (max_defect p))).
Proof.
  intros solve draws past given l0 Hs Hm0 Hm s.
  destruct (after_fields Data F L Gr Prep boxCox data filtered optimise transform max_defect past given l0) as [A1 A2].
  rewrite <- A1, <- A2. fold s. clearbody s. clear A1 A2.
  assert (G : forall p lo hi v ls, lo <= hi ->
     ((exists l, qr_sizes solve (level_line Prep fit p) v lo hi ls = Ok l) <-> forall q, In q ls -> meets (fit p (1 - q)) v lo hi)).
  { intros p lo hi v ls Hl. destruct (sizes_spec Prep fit solve p v lo hi Hs Hl ls) as [S1 S2]. split.
    - intros (l & E) q Hq. assert (D : meets (fit p (1 - q)) v lo hi \/ ~ meets (fit p (1 - q)) v lo hi).
      { rewrite (meets_sign _ v lo hi Hl). destruct (Rle_dec ((fst (fit p (1 - q)) + snd (fit p (1 - q)) * lo - v) * (fst (fit p (1 - q)) + snd (fit p (1 - q)) * hi - v)) 0); auto. }
      destruct D as [D|D]; [exact D|]. destruct (S2 (ex_intro _ q (conj Hq D))) as [e E']. congruence.
    - intros H. destruct (S1 H) as (l & E & _). now exists l. }
  unfold QrObjModel.run. assert (R := run__result data s).
  destruct (run__fields Data F L Gr Prep boxCox filtered optimise transform data s) as (HL & HS & _).
  destruct (run_ data s) as [s1 [p|e]]; cbn [fst snd] in *.
  - cbv zeta. cbn [set_prep set_curve levels sims]. rewrite HL, HS. cbn [QrRunModel.line_world w_sizes]. unfold qr_run.
    assert (M0 := Hm0 p (eq_sym R)). specialize (G p) as Gp.
    destruct (qr_sizes solve (level_line Prep fit p) (threshold p) 0 (max_defect p) (levels _ _ _ s)) as [a|e] eqn:Ea.
    + rewrite boot_result. cbn [set_rows set_curve set_prep levels QrRunModel.line_world w_data w_boot]. rewrite HL. split.
      * intros H. split.
        -- exists p. split; [now symmetry|]. apply (Gp 0 (max_defect p) _ _ M0). now exists a.
        -- intros i Hi. destruct (H i) as (p' & r & E1 & E2); [apply in_seq; lia|]. exists p'. split; [exact E1|].
           apply (G p' lowest (max_defect p') _ _ (Hm _ _ E1)). now exists r.
      * intros [_ H] i Hi. apply in_seq in Hi. destruct (H i ltac:(lia)) as (p' & E1 & E2).
        apply (G p' lowest (max_defect p') _ _ (Hm _ _ E1)) in E2 as [r E2]. exists p', r. split; [exact E1|exact E2].
    + split; [discriminate|]. intros [(p' & E1 & E2) _]. rewrite <- R in E1. injection E1 as <-.
      apply (Gp 0 (max_defect p) _ _ M0) in E2 as [l E2]. congruence.
  - split; [discriminate|]. intros [(p' & E1 & _) _]. congruence.
Qed.
(** The sizes: on the data those of the curve, on the i-th bootstrap sample the i-th row behind the confidence curve; each is the
    crossing point of its line. *)
Theorem C95_sizes :
  forall solve draws past given l0 c,
    solver_spec solve -> (forall p, prepared data = Ok p -> 0 <= max_defect p) ->
    (forall i p, prepared (draws i) = Ok p -> lowest <= max_defect p) ->
    let s := after given l0 past in
    snd (run (line_world solve draws) s) = Ok tt -> (0 < sims_of past)%nat ->
    exists p a rs,
      prepared data = Ok p /\ Forall2 (fun q x => meets_at (fit p (1 - q)) (threshold p) 0 (max_defect p) x) (levels_of l0 past) a /\
      (forall t, evalPOD L Gr Prep (fst (run (line_world solve draws) s)) t = qr_curve (levels_of l0 past) a (max_defect p) t) /\
      length rs = sims_of past /\
      (forall i, (i < sims_of past)%nat -> exists p' r, prepared (draws i) = Ok p' /\ nth_error rs i = Some r /\
         Forall2 (fun q x => meets_at (fit p' (1 - q)) (threshold p') lowest (max_defect p') x) (levels_of l0 past) r) /\
      exists v, QuantileModel.quantile_per_component rs (length (levels_of l0 past)) c = Ok v /\
        forall t, evalCL L Gr Prep max_defect (fst (run (line_world solve draws) s)) c t = qr_curve (levels_of l0 past) v (max_defect p) t.
Proof.
  intros solve draws past given l0 c Hs Hm0 Hm s H Hn.
  assert (S := proj1 (C95_succeeds_iff solve draws past given l0 Hs Hm0 Hm) H). destruct S as [(p & Ep & Mp) Mb].
  destruct (C72_parameter_after_run Data F L Gr Prep boxCox data filtered optimise transform max_defect past given l0 (line_world solve draws) H) as ((p0 & a & E0 & Ea & Ecurve) & _).
  rewrite Ep in E0. injection E0 as <-.
  destruct (C73_confidence_curve_after_run Data F L Gr Prep boxCox data filtered optimise transform max_defect past given l0 (line_world solve draws) [] H Hn) as (p1 & rs & E1 & Lr & Hr & Hc & _).
  rewrite Ep in E1. injection E1 as <-.
  exists p, a, rs. split; [exact Ep|]. split.
  { destruct (sizes_spec Prep fit solve p (threshold p) 0 (max_defect p) Hs (Hm0 _ Ep) (levels_of l0 past)) as [S1 _].
    destruct (S1 Mp) as (l & El & Hl). cbn [QrRunModel.line_world w_sizes] in Ea. unfold qr_run in Ea. rewrite El in Ea. injection Ea as <-. exact Hl. }
  split; [exact Ecurve|]. split; [exact Lr|]. split.
  - intros i Hi. destruct (Hr i Hi) as (pi & r & E1 & E2 & E3). exists pi, r. split; [exact E1|]. split; [exact E3|].
    destruct (Mb i Hi) as (pi' & E1' & Mi). cbn [QrRunModel.line_world w_data] in E1. rewrite E1 in E1'. injection E1' as <-.
    destruct (sizes_spec Prep fit solve pi (threshold pi) lowest (max_defect pi) Hs (Hm _ _ E1) (levels_of l0 past)) as [S1 _].
    destruct (S1 Mi) as (l & El & Hl). cbn [QrRunModel.line_world w_boot] in E2. unfold qr_boot_row in E2. rewrite El in E2. injection E2 as <-. exact Hl.
  - destruct (Hc c) as (v & Ev & _ & Ht). exists v. split; [exact Ev|]. intros t. apply Ht.
Qed.
End Spec.
Print Assumptions C95_succeeds_iff.
Print Assumptions C95_sizes.

(** With a positive slope: only the value at the largest defect matters (and that the line is below the threshold at the lower end);
    a flat line meets the threshold only if it is the threshold. *)
Theorem C95_increasing_line :
  forall a b v lo hi, lo <= hi ->
    (0 < b -> (meets (a, b) v lo hi <-> a + b * lo <= v /\ v <= a + b * hi)) /\
    (b < 0 -> (meets (a, b) v lo hi <-> a + b * hi <= v /\ v <= a + b * lo)) /\
    (b = 0 -> (meets (a, b) v lo hi <-> v = a)).
Proof.
  intros a b v lo hi H. split; [|split].
  - intros Hb. split.
    + intros (x & Hx & E). cbn [fst snd] in E. nra.
    + intros [H1 H2]. exists ((v - a) / b). cbn [fst snd]. split; [|field; lra].
      assert (E : b * ((v - a) / b) = v - a) by (field; lra). split; nra.
  - intros Hb. split.
    + intros (x & Hx & E). cbn [fst snd] in E. nra.
    + intros [H1 H2]. exists ((v - a) / b). cbn [fst snd]. split; [|field; lra].
      assert (E : b * ((v - a) / b) = v - a) by (field; lra). split; nra.
  - intros ->. split.
    + intros (x & Hx & E). cbn [fst snd] in E. lra.
    + intros ->. exists lo. cbn [fst snd]. split; lra.
Qed.
Print Assumptions C95_increasing_line.

(** *** A sample whose run fails because of one of its resamples *)
Definition points := list (R * R).
(** No Box-Cox, no censoring; the threshold is 5/2; every regression line is y = x; one level. *)
Definition diag_run (solve : solver) (sample : points) (draws : nat -> points) (n : nat) :=
  run points points unit unit points false sample (fun d => Ok d) (fun _ => Raise GenericException) (fun f _ => Ok f) (fun p => Rlmax (map fst p))
    (line_world points points (fun _ _ => (0, 1)) (fun _ => 5 / 2) (fun p => Rlmax (map fst p)) (-1000) solve draws)
    (after points points unit unit points false sample (fun d => Ok d) (fun _ => Raise GenericException) (fun f _ => Ok f) (fun p => Rlmax (map fst p))
       None [/ 2] [SetSims points points n]).
Lemma Rlmax_is l m : In m l -> (forall x, In x l -> x <= m) -> Rlmax l = m.
Proof.
  intros Hm H. apply Rle_antisym; [apply H, Rlmax_in; now destruct l|now apply Rlmax_ge].
Qed.
Lemma diag_run_iff solve sample draws n : solver_spec solve -> 0 <= Rlmax (map fst sample) -> (forall i, 0 <= Rlmax (map fst (draws i))) ->
  (snd (diag_run solve sample draws n) = Ok tt <->
   5 / 2 <= Rlmax (map fst sample) /\ forall i, (i < n)%nat -> 5 / 2 <= Rlmax (map fst (draws i))).
Proof.
  intros Hs H0 Hd. unfold diag_run.
  rewrite (C95_succeeds_iff points points unit unit points false sample (fun d => Ok d) (fun _ => Raise GenericException) (fun f _ => Ok f) (fun _ _ => (0, 1))
    (fun _ => 5 / 2) (fun p => Rlmax (map fst p)) (-1000) solve draws [SetSims points points n] None [/ 2] Hs).
  - cbn [levels_of sims_of prepared bind]. split.
    + intros [(p & [= <-] & M) B]. split.
      * destruct (M (/ 2) (or_introl eq_refl)) as (x & Hx & E). cbn [fst snd] in E. lra.
      * intros i Hi. destruct (B i Hi) as (p & [= <-] & Mi). destruct (Mi (/ 2) (or_introl eq_refl)) as (x & Hx & E). cbn [fst snd] in E. lra.
    + intros [A B]. split.
      * exists sample. split; [reflexivity|]. intros q _. exists (5 / 2). cbn [fst snd]. lra.
      * intros i Hi. exists (draws i). split; [reflexivity|]. intros q _. exists (5 / 2). cbn [fst snd]. specialize (B i Hi). lra.
  - intros p [= <-]. exact H0.
  - intros i p [= <-]. specialize (Hd i). lra.
Qed.
(** Finding: three observations exactly on y = x, as is each resample; the data allow the run, a resample of observations whose
    defects are below the size at the threshold makes it raise, at whatever position of whatever number of simulations. *)
Theorem C95_one_resample_refuted :
  exists sample resample : points,
    length resample = length sample /\ incl resample sample /\ (forall x y, In (x, y) sample -> y = 0 + 1 * x) /\
    forall solve, solver_spec solve ->
      snd (diag_run solve sample (fun _ => sample) 1000) = Ok tt /\
      forall n k, (k < n)%nat -> snd (diag_run solve sample (fun i => if Nat.eqb i k then resample else sample) n) <> Ok tt.
Proof.
  exists [(1, 1); (2, 2); (3, 3)], [(2, 2); (1, 1); (2, 2)]. split; [reflexivity|]. split; [intros z; cbn; tauto|].
  split; [intros x y H; cbn in H; repeat destruct H as [[= <- <-]|H]; lra|].
  assert (M1 : Rlmax (map fst [(1, 1); (2, 2); (3, 3)]) = 3).
  { apply Rlmax_is; [cbn; auto|]. intros x H. cbn in H. repeat destruct H as [<-|H]; lra. }
  assert (M2 : Rlmax (map fst [(2, 2); (1, 1); (2, 2)]) = 2).
  { apply Rlmax_is; [cbn; auto|]. intros x H. cbn in H. repeat destruct H as [<-|H]; lra. }
  intros solve Hs. split.
  - apply diag_run_iff; [exact Hs|rewrite M1; lra|intros _; rewrite M1; lra|]. split; [|intros _ _]; rewrite M1; lra.
  - intros n k Hk. rewrite diag_run_iff; [|exact Hs|rewrite M1; lra|intros i; destruct (Nat.eqb i k); [rewrite M2|rewrite M1]; lra].
    intros [_ H]. specialize (H k Hk). cbv beta in H. rewrite Nat.eqb_refl, M2 in H. lra.
Qed.
Print Assumptions C95_one_resample_refuted.
(** The contract of the solver is met by bisection, so that the run of the case succeeds. *)
Example C95_case : snd (diag_run bisection [(1, 1); (2, 2); (3, 3)] (fun _ => [(3, 3); (1, 1); (3, 3)]) 5) = Ok tt.
Proof.
  apply diag_run_iff; [exact bisection_spec| | |split; [|intros _ _]];
    try intros _; (erewrite (Rlmax_is _ 3); [lra|cbn; auto|]; intros x H; cbn in H; repeat destruct H as [<-|H]; lra).
Qed.
