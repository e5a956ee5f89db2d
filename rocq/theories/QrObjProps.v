(** C72, C73: the QuantileRegressionPOD object. *)
From Verif Require Import RealBase Solver QuantileModel QuantileProofs QuantileProps InterpModel InterpProofs InterpProps DetectionModel KrigAttrModel QrObjModel.
Local Open Scope R_scope.

Section Spec.
Variables Data F L Gr Prep : Type.
Variable boxCox : bool.
Variable data : Data.
Variable filtered : Data -> res F.
Variable optimise : F -> res (L * Gr).
Variable transform : F -> option L -> res Prep.
Variable max_defect : Prep -> R.
Local Arguments w_sizes {Data Prep}.
Local Arguments w_data {Data Prep}.
Local Arguments w_boot {Data Prep}.
Local Arguments lam {L Gr Prep}.
Local Arguments graph {L Gr Prep}.
Local Arguments prep {L Gr Prep}.
Local Arguments levels {L Gr Prep}.
Local Arguments sims {L Gr Prep}.
Local Arguments curve {L Gr Prep}.
Local Arguments rows {L Gr Prep}.
Local Arguments Run {Data Prep}.
Local Arguments SetLevels {Data Prep}.
Local Arguments SetSims {Data Prep}.
Notation world := (world Data Prep).
Notation state := (state L Gr Prep).
Notation op := (op Data Prep).
Notation run_ := (run_ Data F L Gr Prep boxCox filtered optimise transform).
Notation boot := (boot Data F L Gr Prep boxCox filtered optimise transform).
Notation run := (run Data F L Gr Prep boxCox data filtered optimise transform max_defect).
Notation after := (after Data F L Gr Prep boxCox data filtered optimise transform max_defect).
Notation getBoxCoxParameter := (getBoxCoxParameter L Gr Prep).
Notation drawBoxCoxLikelihood := (drawBoxCoxLikelihood L Gr Prep boxCox).
Notation evalPOD := (evalPOD L Gr Prep).
Notation evalCL := (evalCL L Gr Prep max_defect).
Notation setQuantile := (setQuantile L Gr Prep).

(** The Box-Cox parameter and graph of a sample, and what the stage makes of the sample. *)
Definition fitted (d : Data) : res (L * Gr) := do f <- filtered d; optimise f.
Definition prepared (d : Data) : res Prep :=
  do f <- filtered d; if boxCox then do lg <- optimise f; transform f (Some (fst lg)) else transform f None.
Fixpoint levels_of (l0 : list R) (past : list op) : list R :=
  match past with [] => l0 | SetLevels l :: _ => l | _ :: past' => levels_of l0 past' end.
Fixpoint sims_of (past : list op) : nat := match past with [] => 1000%nat | SetSims n :: _ => n | _ :: past' => sims_of past' end.

Lemma run__ok d s s' p :
  run_ d s = (s', Ok p) ->
  prepared d = Ok p /\ prep s' = prep s /\ levels s' = levels s /\ sims s' = sims s /\ curve s' = curve s /\ rows s' = rows s /\
  (boxCox = true -> exists l g, fitted d = Ok (l, g) /\ lam s' = Some l /\ graph s' = Val g) /\
  (boxCox = false -> lam s' = None).
Proof.
  unfold QrObjModel.run_, prepared, fitted. destruct (filtered d) as [f|e]; [|discriminate]. cbn [bind]. destruct boxCox.
  - destruct (optimise f) as [[l g]|e]; [|discriminate]. cbn [bind fst]. intros H. injection H as <- Ht. cbn. rewrite Ht.
    repeat split; [|discriminate]. intros _. now exists l, g.
  - intros H. injection H as <- Ht. cbn. rewrite Ht. repeat split. discriminate.
Qed.
Lemma run__fields d s : let s' := fst (run_ d s) in levels s' = levels s /\ sims s' = sims s /\ (boxCox = false -> lam s = None -> lam s' = None).
Proof.
  unfold QrObjModel.run_. destruct (filtered d) as [f|e]; [|repeat split; auto]. destruct boxCox.
  - destruct (optimise f) as [[l g]|e]; cbn; repeat split; try congruence; auto.
  - cbn. repeat split.
Qed.
Lemma boot_ok w : forall is filled s s',
  boot w is filled s = (s', Ok tt) ->
  prep s' = prep s /\ levels s' = levels s /\ sims s' = sims s /\ curve s' = curve s /\
  (exists rs, Forall2 (fun i r => exists p, prepared (w_data w i) = Ok p /\ w_boot w i p (levels s) = Ok r) is rs /\
     (is <> [] -> rows s' = Val (filled ++ rs, length (levels s)))) /\
  (is = [] -> s' = s) /\
  (boxCox = false -> lam s = None -> lam s' = None) /\
  (boxCox = true -> is <> [] -> exists l g, fitted (w_data w (last is 0%nat)) = Ok (l, g) /\ lam s' = Some l /\ graph s' = Val g).
Proof.
  induction is as [|i is IH]; intros filled s s'; cbn [QrObjModel.boot].
  - intros [= <-]. repeat split; try congruence. exists []. split; [constructor|congruence].
  - destruct (run_ (w_data w i) s) as [s1 [p|e]] eqn:E1; [|discriminate].
    destruct (run__ok _ _ _ _ E1) as (Hp & H1 & H2 & H3 & H4 & H5 & H6 & H7).
    destruct (w_boot w i p (levels s1)) as [r|e] eqn:E2; [|discriminate].
    intros H. destruct (IH _ _ _ H) as (K1 & K2 & K3 & K4 & (rs & K5 & K6) & K7 & K8 & K9).
    cbn [set_rows QrObjModel.prep QrObjModel.levels QrObjModel.sims QrObjModel.curve QrObjModel.lam] in K1, K2, K3, K4, K5, K6, K8.
    rewrite H2 in *. repeat split; try congruence.
    + exists (r :: rs). split.
      * constructor; [now exists p|exact K5].
      * intros _. destruct is as [|j is].
        -- rewrite (K7 eq_refl). inversion K5; subst. reflexivity.
        -- rewrite K6 by discriminate. rewrite <- app_assoc. reflexivity.
    + intros Hb _. apply K8; [exact Hb|]. exact (H7 Hb).
    + intros Hb _. destruct is as [|j is].
      * rewrite (K7 eq_refl). exact (H6 Hb).
      * exact (K9 Hb ltac:(discriminate)).
Qed.

Lemma boot_fields w : forall is filled s, let s' := fst (boot w is filled s) in levels s' = levels s /\ sims s' = sims s.
Proof.
  induction is as [|i is IH]; intros filled s; cbn [QrObjModel.boot]; [split; reflexivity|].
  destruct (run_ (w_data w i) s) as [s1 r] eqn:E1. destruct (run__fields (w_data w i) s) as (H1 & H2 & _). rewrite E1 in H1, H2. cbn [fst] in H1, H2.
  destruct r as [p|e]; [|split; assumption]. destruct (w_boot w i p (levels s1)) as [row|e]; [|split; assumption].
  destruct (IH (filled ++ [row]) (set_rows L Gr Prep (filled ++ [row] ++ repeat (repeat 0 (length (levels s1))) (length is), length (levels s1)) s1)) as [I1 I2].
  cbv zeta in *. rewrite I1, I2. split; assumption.
Qed.
Lemma after_fields past given l0 : levels (after given l0 past) = levels_of l0 past /\ sims (after given l0 past) = sims_of past.
Proof.
  induction past as [|o past [I1 I2]]; [split; reflexivity|]. cbn [QrObjModel.after levels_of sims_of]. revert I1 I2. generalize (after given l0 past). intros s I1 I2.
  destruct o as [w|l|n]; cbn [step levels_of sims_of]; [|split; [reflexivity|exact I2]|split; [exact I1|reflexivity]].
  rewrite <- I1, <- I2. unfold QrObjModel.run. destruct (run_ data s) as [s1 r] eqn:E1. destruct (run__fields data s) as (H1 & H2 & _). rewrite E1 in H1, H2. cbn [fst] in H1, H2.
  destruct r as [p|e]; [|split; assumption]. cbv zeta. destruct (w_sizes w p _) as [a|e]; [|split; assumption].
  match goal with |- context [boot w ?l ?f ?x] => destruct (boot_fields w l f x) as [B1 B2] end. cbv zeta in *. rewrite B1, B2. split; assumption.
Qed.

(** C72: after a run that did not fail, the Box-Cox parameter and the likelihood graph are those of the last bootstrap sample, whereas the
    POD curve comes from the data transformed with the parameter of the data. *)
Theorem C72_parameter_after_run :
  forall past given l0 w,
    let s := after given l0 past in
    let s' := fst (run w s) in
    let now := levels_of l0 past in
    snd (run w s) = Ok tt ->
    (exists p a, prepared data = Ok p /\ w_sizes w p now = Ok a /\ forall t, evalPOD s' t = qr_curve now a (max_defect p) t) /\
    (boxCox = true ->
       exists l g, fitted (match sims_of past with O => data | S n => w_data w n end) = Ok (l, g) /\
                   getBoxCoxParameter s' = Some l /\ drawBoxCoxLikelihood s' = Ok (Some g)) /\
    (boxCox = false -> getBoxCoxParameter s' = None /\ drawBoxCoxLikelihood s' = Raise GenericException).
Proof.
  intros past given l0 w s s' now H. subst s'. revert H. destruct (after_fields past given l0) as [A1 A2]. subst now. rewrite <- A1, <- A2. fold s. clearbody s. clear A1 A2. unfold QrObjModel.run.
  destruct (run_ data s) as [s1 [p|e]] eqn:E1; [|discriminate]. destruct (run__ok _ _ _ _ E1) as (Hp & H1 & H2 & H3 & H4 & H5 & H6 & H7).
  cbv zeta. cbn [set_prep set_curve QrObjModel.levels QrObjModel.sims]. rewrite H2, H3. destruct (w_sizes w p (levels s)) as [a|e] eqn:Ea; [|discriminate].
  match goal with |- context [boot w (seq 0 _) [] ?x] => set (s4 := x) end.
  assert (V : lam s4 = lam s1 /\ graph s4 = graph s1 /\ curve s4 = Val (levels s, a, max_defect p)) by (cbn; rewrite ?H2; repeat split).
  destruct V as (V1 & V2 & V3). clearbody s4.
  destruct (boot w (seq 0 (sims s)) [] s4) as [s5 [[]|e]] eqn:E5; [|discriminate]. intros _.
  destruct (boot_ok _ _ _ _ _ E5) as (_ & _ & _ & K4 & _ & K7 & K8 & K9). cbn [fst].
  split; [|split].
  - exists p, a. split; [exact Hp|]. split; [exact Ea|]. intros t. unfold QrObjModel.evalPOD. now rewrite K4, V3.
  - intros Hb. unfold QrObjModel.getBoxCoxParameter, QrObjModel.drawBoxCoxLikelihood. destruct (sims s) as [|n].
    + rewrite (K7 eq_refl), V1, V2. destruct (H6 Hb) as (l & g & F1 & F2 & F3). exists l, g. rewrite Hb, F2, F3. repeat split. exact F1.
    + destruct (K9 Hb ltac:(discriminate)) as (l & g & F1 & F2 & F3). exists l, g.
      assert (Hl : last (seq 0 (S n)) 0%nat = n) by (rewrite seq_S, last_last; reflexivity). rewrite Hl in F1.
      rewrite Hb, F2, F3. repeat split. exact F1.
  - intros Hb. unfold QrObjModel.getBoxCoxParameter, QrObjModel.drawBoxCoxLikelihood. rewrite Hb. split; [|reflexivity].
    apply K8; [exact Hb|]. rewrite V1. exact (H7 Hb).
Qed.
(** Without Box-Cox there is no parameter, in every history; before the first run the parameter is the given float and there is no graph. *)
Theorem C72_disabled :
  forall past l0, boxCox = false -> getBoxCoxParameter (after None l0 past) = None.
Proof.
  intros past l0 Hb. unfold QrObjModel.getBoxCoxParameter. induction past as [|o past IH]; [reflexivity|].
  cbn [QrObjModel.after]. revert IH. generalize (after None l0 past). intros s IH. destruct o as [w|l|n]; cbn [step]; [|exact IH|exact IH].
  unfold QrObjModel.run. destruct (run_ data s) as [s1 r] eqn:E1. assert (N1 : lam s1 = None).
  { destruct (run__fields data s) as (_ & _ & H). rewrite E1 in H. exact (H Hb IH). }
  destruct r as [p|e]; [|exact N1]. cbv zeta. destruct (w_sizes w p _) as [a|e]; [|exact N1].
  match goal with |- context [boot w ?l [] ?x] => generalize l; generalize (@nil (list R)); set (s4 := x) end.
  assert (N4 : lam s4 = None) by exact N1. clearbody s4. clear - N4 Hb. intros filled is. revert filled s4 N4.
  induction is as [|i is IH]; intros filled s4 N4; cbn [QrObjModel.boot]; [exact N4|].
  destruct (run_ (w_data w i) s4) as [s5 r] eqn:E1. assert (N5 : lam s5 = None).
  { destruct (run__fields (w_data w i) s4) as (_ & _ & H). rewrite E1 in H. exact (H Hb N4). }
  destruct r as [p|e]; [|exact N5]. destruct (w_boot w i p _) as [row|e]; [|exact N5]. apply IH. exact N5.
Qed.
Definition is_run (o : op) : bool := match o with Run _ => true | _ => false end.
Theorem C72_before_run :
  forall past given l0, existsb is_run past = false ->
    getBoxCoxParameter (after given l0 past) = given /\
    drawBoxCoxLikelihood (after given l0 past) = (if boxCox then Raise AttributeError else Raise GenericException) /\
    (forall t, evalPOD (after given l0 past) t = Raise AttributeError) /\ (forall c t, evalCL (after given l0 past) c t = Raise AttributeError).
Proof.
  intros past given l0 H.
  assert (E : lam (after given l0 past) = given /\ graph (after given l0 past) = Missing /\ curve (after given l0 past) = Missing /\ rows (after given l0 past) = Missing).
  { induction past as [|o past IH]; [repeat split|]. cbn [existsb] in H. apply orb_false_elim in H as [Ho H]. specialize (IH H).
    destruct o as [w|l|n]; [discriminate Ho|exact IH|exact IH]. }
  destruct E as (E1 & E2 & E3 & E4).
  unfold QrObjModel.getBoxCoxParameter, QrObjModel.drawBoxCoxLikelihood, QrObjModel.evalPOD, QrObjModel.evalCL. rewrite E1, E2, E3, E4.
  repeat split.
Qed.

(** setSimulationSize only counts for the next run. *)
Theorem C73_setSimulationSize :
  forall (n : nat) (s : state), (forall t, evalPOD (QrObjModel.setSimulationSize L Gr Prep n s) t = evalPOD s t) /\ (forall c t, evalCL (QrObjModel.setSimulationSize L Gr Prep n s) c t = evalCL s c t) /\
    getBoxCoxParameter (QrObjModel.setSimulationSize L Gr Prep n s) = getBoxCoxParameter s /\ drawBoxCoxLikelihood (QrObjModel.setSimulationSize L Gr Prep n s) = drawBoxCoxLikelihood s /\ QrObjModel.levels (QrObjModel.setSimulationSize L Gr Prep n s) = QrObjModel.levels s /\
    QrObjModel.sims (QrObjModel.setSimulationSize L Gr Prep n s) = n.
Proof. intros n s. repeat split. Qed.
(** C73: the confidence curve after a run, and after the levels were changed. *)
Theorem C73_confidence_curve_after_run :
  forall past given l0 w l2,
    let s := after given l0 past in
    let now := levels_of l0 past in
    snd (run w s) = Ok tt -> (0 < sims_of past)%nat ->
    exists p rs, prepared data = Ok p /\ length rs = sims_of past /\
      (forall i, (i < sims_of past)%nat -> exists pi r, prepared (w_data w i) = Ok pi /\ w_boot w i pi now = Ok r /\ nth_error rs i = Some r) /\
      (forall c, exists v, quantile_per_component rs (length now) c = Ok v /\ length v = length now /\
         forall t, evalCL (fst (run w s)) c t = qr_curve now v (max_defect p) t /\
                   evalCL (setQuantile l2 (fst (run w s))) c t = (if Nat.eqb (length l2) (length now) then qr_curve l2 v (max_defect p) t else Raise ValueError)) /\
      (forall t, evalPOD (setQuantile l2 (fst (run w s))) t = evalPOD (fst (run w s)) t).
Proof.
  intros past given l0 w l2 s now H Hn. destruct (after_fields past given l0) as [A1 A2]. subst now. rewrite <- A1, <- A2 in *. fold s in Hn |- *. clearbody s. clear A1 A2. revert H. unfold QrObjModel.run.
  destruct (run_ data s) as [s1 [p|e]] eqn:E1; [|discriminate]. destruct (run__ok _ _ _ _ E1) as (Hp & H1 & H2 & H3 & H4 & H5 & H6 & H7).
  cbv zeta. cbn [set_prep set_curve QrObjModel.levels QrObjModel.sims]. rewrite H2, H3. destruct (w_sizes w p (levels s)) as [a|e] eqn:Ea; [|discriminate].
  match goal with |- context [boot w (seq 0 _) [] ?x] => set (s4 := x) end.
  assert (V : prep s4 = Val p /\ levels s4 = levels s) by (cbn; rewrite ?H2; repeat split). destruct V as (V1 & V2). clearbody s4.
  destruct (boot w (seq 0 (sims s)) [] s4) as [s5 [[]|e]] eqn:E5; [|discriminate]. intros _.
  destruct (boot_ok _ _ _ _ _ E5) as (K1 & K2 & K3 & K4 & (rs & K5 & K6) & _). cbn [fst]. rewrite V2 in *.
  assert (Hne : seq 0 (sims s) <> []) by (destruct (sims s); [lia|discriminate]). specialize (K6 Hne). cbn [app] in K6.
  assert (HL : length rs = sims s) by (rewrite <- (seq_length (sims s) 0); clear - K5; induction K5; cbn; congruence).
  exists p, rs. split; [exact Hp|]. split; [exact HL|]. split; [|split].
  - intros i Hi. assert (G : forall l1 l2', Forall2 (fun i r => exists p, prepared (w_data w i) = Ok p /\ w_boot w i p (levels s) = Ok r) l1 l2' ->
      forall i x, nth_error l1 i = Some x -> exists pi r, prepared (w_data w x) = Ok pi /\ w_boot w x pi (levels s) = Ok r /\ nth_error l2' i = Some r).
    { induction 1 as [|x y l1 l2' (q & Q1 & Q2) _ IH]; intros [|j] z; cbn [nth_error]; try discriminate; [|apply IH].
      intros [= <-]. now exists q, y. }
    apply (G _ _ K5 i i). rewrite nth_error_nth' with (d := 0%nat) by (now rewrite seq_length). now rewrite seq_nth.
  - intros c. destruct (C15_per_defect_values rs (length (levels s)) (1 - c)) as [_ D].
    destruct rs as [|r0 rs'] eqn:Ers; [cbn in HL; lia|]. rewrite <- Ers in *.
    destruct (D ltac:(now rewrite Ers)) as (v & D1 & D2 & _). unfold pod_cl_values in D1. replace (1 - (1 - c)) with c in D1 by ring.
    exists v. split; [exact D1|]. split; [exact D2|]. intros t. unfold QrObjModel.evalCL. cbn [QrObjModel.setQuantile QrObjModel.rows QrObjModel.prep QrObjModel.levels].
    rewrite K6, D1. cbn [bind]. rewrite K1, V1, K2. split; [reflexivity|].
    destruct (Nat.eqb_spec (length l2) (length (levels s))) as [EL|NL]; [reflexivity|].
    unfold qr_curve, interp1d, qr_xs, qr_ys. cbn [length]. rewrite !app_length. cbn [length]. rewrite D2.
    destruct (Nat.eqb_spec (S (length (levels s) + 1)) (S (length l2 + 1))); [lia|reflexivity].
  - reflexivity.
Qed.
End Spec.
Print Assumptions C72_parameter_after_run.
Print Assumptions C72_disabled.
Print Assumptions C72_before_run.
Print Assumptions C73_confidence_curve_after_run.

Fixpoint seqR (x : R) (n : nat) : list R := match n with O => [] | S n => x :: seqR (x + 1) n end.
(** A concrete object: samples are numbers, the Box-Cox parameter and the graph of a sample are the sample itself, the largest defect is 4. *)
Definition ex_world : QrObjModel.world R R :=
  {| w_sizes := fun _ l => Ok (seqR 1 (length l)); w_data := fun i => 7 + INR i; w_boot := fun _ _ l => Ok (seqR 1 (length l)) |}.
Definition ex_run (b : bool) := run R R R R R b 0 (fun d => Ok d) (fun f => Ok (f, f)) (fun f _ => Ok f) (fun _ => 4) ex_world.
Definition ex_after (b : bool) := after R R R R R b 0 (fun d => Ok d) (fun f => Ok (f, f)) (fun f _ => Ok f) (fun _ => 4) None [/4; 3/4].
(** Finding: the parameter reported is not the one of the data, which made the POD curve. *)
Theorem C72_parameter_of_the_data_refuted :
  exists past l g l',
    snd (ex_run true (ex_after true past)) = Ok tt /\
    fitted R R R R (fun d => Ok d) (fun f => Ok (f, f)) 0 = Ok (l, g) /\
    getBoxCoxParameter R R R (fst (ex_run true (ex_after true past))) = Some l' /\ l' <> l /\
    drawBoxCoxLikelihood R R R true (fst (ex_run true (ex_after true past))) = Ok (Some l').
Proof.
  exists [SetSims R R 2], 0, 0, (7 + INR 1). repeat split. cbn. lra.
Qed.
Print Assumptions C72_parameter_of_the_data_refuted.
(** Finding: after setQuantile the confidence curve, with one simulation equal to the data, is above the POD curve. *)
Lemma ex_nd : NoDup (qr_xs [1; 2] 4).
Proof. unfold qr_xs. cbn. repeat constructor; cbn; intros H; repeat destruct H as [H|H]; try lra; destruct H. Qed.
Theorem C73_below_the_pod_curve_refuted :
  exists past l2 t v w,
    let s' := setQuantile R R R l2 (fst (ex_run false (ex_after false past))) in
    snd (ex_run false (ex_after false past)) = Ok tt /\ length l2 = 2%nat /\
    evalPOD R R R s' t = Ok v /\ (forall c, evalCL R R R (fun _ => 4) s' c t = Ok w) /\ v < w.
Proof.
  exists [SetSims R R 1], [/2; 9/10], 1, (/4), (/2). intros s'. split; [reflexivity|]. split; [reflexivity|].
  split; [|split; [|lra]].
  - destruct (C25_nodes_on_the_curve [/4; 3/4] [1; 2] 4 eq_refl ltac:(discriminate) ex_nd) as [_ [H _]]. specialize (H 0%nat ltac:(cbn; lia)).
    cbn [nth] in H. rewrite <- H. unfold s', QrObjModel.evalPOD. cbn. now replace (1 + 1) with 2 by ring.
  - intros c. assert (Q : forall a p, quantile [a] p = a).
    { intros a p. assert (B := quantile_bounds [a] p ltac:(discriminate)). cbn in B. lra. }
    destruct (C25_nodes_on_the_curve [/2; 9/10] [1; 2] 4 eq_refl ltac:(discriminate) ex_nd) as [_ [H _]]. specialize (H 0%nat ltac:(cbn; lia)).
    cbn [nth] in H. rewrite <- H. unfold s', QrObjModel.evalCL, quantile_per_component, column. cbn -[quantile qr_curve]. rewrite !Q.
    now replace (1 + 1) with 2 by ring.
Qed.
Print Assumptions C73_below_the_pod_curve_refuted.
(** The same object, other number of levels: ValueError. *)
Example C73_example : let s := fst (ex_run false (ex_after false [SetSims R R 1])) in
  snd (ex_run false (ex_after false [SetSims R R 1])) = Ok tt /\ (0 < sims_of R R [SetSims R R 1])%nat /\
  (forall c t, evalCL R R R (fun _ => 4) (setQuantile R R R [/2] s) c t = Raise ValueError) /\ getBoxCoxParameter R R R s = None.
Proof. repeat split. cbn. lia. Qed.
