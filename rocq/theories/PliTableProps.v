(** C100: the tables of the PLI objects, call after call. *)
From Verif Require Import RealBase LooModel KrigAttrModel PliModel PliProps PliDensityModel PliTableModel PliTableProofs.
From Verif Require PliDeltaProps.
Local Open Scope R_scope.

(** *** Specification *)
(** The entry (i, j) of a list of rows, if there is one. *)
Definition entry {A} (t : list (list A)) (i j : nat) : option A := match nth_error t i with Some row => nth_error row j | None => None end.
(** The evaluations strictly beyond the threshold. *)
Definition beyond (o : operator) (t y : R) : Prop := match o with Less | LessOrEqual => y < t | Greater | GreaterOrEqual => t < y | OtherOperator => False end.

Lemma nth_error_map_seq {A} (f : nat -> A) n i : nth_error (map f (seq 0 n)) i = if Nat.ltb i n then Some (f i) else None.
Proof.
  rewrite nth_error_map. destruct (Nat.ltb_spec i n) as [H|H].
  - rewrite (nth_error_nth' _ O) by (rewrite seq_length; lia). now rewrite seq_nth.
  - replace (nth_error (seq 0 n) i) with (@None nat); [reflexivity|]. symmetry. apply nth_error_None. now rewrite seq_length.
Qed.
Lemma entry_table {A} (t : nat -> nat -> A) n p i j :
  entry (map (fun i => map (t i) (seq 0 p)) (seq 0 n)) i j = if Nat.ltb i n && Nat.ltb j p then Some (t i j) else None.
Proof. unfold entry. rewrite nth_error_map_seq. destruct (Nat.ltb i n); [|reflexivity]. now rewrite nth_error_map_seq. Qed.
Lemma entry_table_in {A} (t : nat -> nat -> A) n p i j : (i < n)%nat -> (j < p)%nat ->
  entry (map (fun i => map (t i) (seq 0 p)) (seq 0 n)) i j = Some (t i j).
Proof. intros H1 H2. rewrite entry_table. apply Nat.ltb_lt in H1, H2. now rewrite H1, H2. Qed.

Lemma map_res_ok {A B} (f : A -> res B) l : forall r, map_res f l = Ok r -> Forall2 (fun x y => f x = Ok y) l r.
Proof.
  induction l as [|x l IH]; cbn; intros r H; [injection H as <-; constructor|]. destruct (f x) as [y|e] eqn:E; [|discriminate]. cbn in H.
  destruct (map_res f l) as [r'|e]; [|discriminate]. injection H as <-. constructor; [exact E|now apply IH].
Qed.
Lemma forall2_length {A B} (P : A -> B -> Prop) l r : Forall2 P l r -> length l = length r.
Proof. induction 1; cbn; congruence. Qed.
Lemma product_replace_at pdfs m g h x : g (nth m x 0) = h (nth m x 0) -> product_pdf (replace_nth m g pdfs) x = product_pdf (replace_nth m h pdfs) x.
Proof.
  revert pdfs x. induction m as [|m IH]; intros [|f pdfs] [|v x] H; cbn in *; try reflexivity; [now rewrite H|]. now rewrite (IH pdfs x H).
Qed.

Section Props.
Variable G : Type.
Variable k : kind.
Variable margs : list marginal_dist.
Variable dl : list (list R).
Notation obj := (obj G).
Notation world := (world G).
Notation run := (run G k margs dl).
Notation fresh := (fresh G).
Notation getIndices := (getIndices G margs dl).
Notation getPerturbed := (getPerturbedProbabilityEstimate G margs dl).
Notation interval := (computeConfidenceInterval G margs dl).
Notation pdfs := (map dist_pdf margs).

(** The perturbed density of a marginal for a delta is f at the points that failed. *)
Definition perturbed_by (w : world) (g : G) (m d : nat) (f : R -> R) : Prop :=
  exists dist, nth_error margs m = Some dist /\
  forall x y, In (x, y) (combine (w_xs G w) (w_outs G w)) -> beyond (w_op G w) (w_threshold G w) y ->
    marginal_density G k w g m dist (nth m (nth d dl []) 0) (nth m x 0) = Ok (Some (f (nth m x 0))).
(** The getters give, for delta d and marginal m, the index of the perturbed density (PliModel.pli_run, the subject of C50-C52 and C74) and
    the symmetric interval around it. *)
Definition computed (w : world) (g : G) (s' : obj) (m d : nat) : Prop :=
  exists f cell, perturbed_by w g m d f /\
    pli_run (w_op G w) (w_threshold G w) (w_xs G w) (w_outs G w) pdfs m f = Ok cell /\
    entry (getPerturbed s') d m = Some (Some (c_pfdelta cell)) /\ entry (getIndices s') d m = Some (Some (c_index cell)) /\
    forall zq dflt level, entry (interval zq dflt level s') m d = Some (c_index cell - zq level * c_sigma cell, c_index cell + zq level * c_sigma cell).
(** The getters give the same as before for delta d and marginal m. *)
Definition untouched (s s' : obj) (m d : nat) : Prop :=
  entry (getPerturbed s') d m = entry (getPerturbed s) d m /\ entry (getIndices s') d m = entry (getIndices s) d m /\
  forall zq dflt level, entry (interval zq dflt level s') m d = entry (interval zq dflt level s) m d.

Lemma beyond_strict o t y : beyond o t y <-> strict o t y = true.
Proof. destruct o; cbn; rewrite ?Rltb_true; try tauto. split; [tauto|discriminate]. Qed.
Lemma mask_in {A} (f : R -> bool) (xs : list A) outs x : In x (mask (map f outs) xs) <-> exists y, In (x, y) (combine xs outs) /\ f y = true.
Proof.
  revert xs. induction outs as [|y outs IH]; intros [|a xs]; cbn; try (split; [tauto|intros (y' & [] & _)]).
  destruct (f y) eqn:E; cbn; rewrite IH; split.
  - intros [->|(y' & H & H')]; [exists y; auto|exists y'; auto].
  - intros (y' & [[= -> ->]|H] & H'); [now left|right; eauto].
  - intros (y' & H & H'). eauto.
  - intros (y' & [[= -> ->]|H] & H'); [congruence|eauto].
Qed.

Lemma computed_of_done w g s' m d : (d < length dl)%nat -> (m < length margs)%nat ->
  w_op G w <> OtherOperator -> length (w_xs G w) = length (w_outs G w) ->
  let pf := mc_probability (w_op G w) (w_threshold G w) (w_outs G w) in
  done G k margs dl w g (length (w_outs G w)) pf (mask (map (strict (w_op G w) (w_threshold G w)) (w_outs G w)) (w_xs G w)) s' (m, d) ->
  computed w g s' m d.
Proof.
  intros Hd Hm Ho Hl pf (rs & l & ER & (E1 & E2 & E3) & EL & E4). set (N := length (w_outs G w)) in *. set (fail := mask _ _) in *.
  unfold ratios_of, table_ratios in ER. destruct fail as [|x0 fail0] eqn:EF; [discriminate|].
  assert (NE : Nat.eqb (length fail) 0 = false) by (now rewrite EF). rewrite <- EF in *. clear x0 fail0 EF.
  destruct (nth_error margs m) as [dist|] eqn:EM; [|discriminate]. set (delta := nth m (nth d dl []) 0) in *.
  destruct (map_res (fun x => marginal_density G k w g m dist delta (nth m x 0)) fail) as [vs|e] eqn:EV; [|discriminate].
  cbn [bind] in ER. injection ER as ER. assert (FV := map_res_ok _ _ _ EV). clear EV.
  set (f := fun v => match marginal_density G k w g m dist delta v with Ok (Some r) => r | _ => 0 end).
  unfold law_of, num_pfd, table_law in EL. destruct (all_some rs) as [lr|] eqn:EA; [|discriminate]. cbn [option_map] in EL.
  assert (EA' := proj1 (all_some_spec _ _) EA).
  assert (FF : (forall x, In x fail -> marginal_density G k w g m dist delta (nth m x 0) = Ok (Some (f (nth m x 0)))) /\ rs = map (likelihood_ratio pdfs m f) fail).
  { clear - FV ER EA' f. revert lr EA'. rewrite <- ER. clear ER rs. clearbody fail. induction FV as [|x v fail vs H FV IH]; cbn; intros lr EA'.
    - split; [intros x []|reflexivity].
    - destruct lr as [|r lr]; [discriminate|]. cbn in EA'. injection EA' as H1 H2. destruct v as [v|]; [|discriminate].
      destruct (IH lr H2) as [I1 I2]. assert (Ff : f (nth m x 0) = v) by (unfold f; now rewrite H). split.
      + intros z [<-|Hz]; [now rewrite Ff|now apply I1].
      + rewrite I2. f_equal. unfold likelihood_ratio, perturbedPDF. now rewrite (product_replace_at pdfs m (fun _ => v) f x) by now rewrite Ff. }
  destruct FF as [F1 F2]. unfold table_var in EL. rewrite EA in EL. change (1 / INR N * Rsum (map (fun r => r * r) lr) - pfdelta N lr * pfdelta N lr) with (varPfdelta N lr) in EL.
  destruct (sigma_of N (estimator_var pf (pfdelta N lr) (varPfdelta N lr))) as [sg|e] eqn:ES; [|discriminate]. cbn [bind table_index] in EL.
  destruct (pl_index pf (pfdelta N lr)) as [i|] eqn:EI; [|discriminate]. injection EL as <-.
  unfold num_pfd in E1, E3. rewrite EA in E1, E3. cbn [option_map table_index] in E1, E3. rewrite EI in E3.
  exists f, {| c_pfdelta := pfdelta N lr; c_index := i; c_sigma := sg |}. split.
  { exists dist. split; [exact EM|]. intros x y Hxy Hb. apply F1. apply mask_in. exists y. split; [exact Hxy|now apply beyond_strict]. }
  split.
  { unfold pli_run. rewrite failureSample_ok by assumption. cbn [bind]. fold fail. fold N. fold pf.
    rewrite NE. unfold pli_one. rewrite <- F2, EA, ES. cbn [bind]. now rewrite EI. }
  unfold PliTableModel.getPerturbedProbabilityEstimate, PliTableModel.getIndices, PliTableModel.table_of, PliTableModel.computeConfidenceInterval.
  rewrite !entry_table_in by assumption. cbn [c_pfdelta c_index c_sigma]. rewrite E1, E3. split; [reflexivity|]. split; [reflexivity|].
  intros zq dflt level. rewrite (entry_table_in (fun m d => law_interval zq dflt level (o_est G s' d m))) by assumption. now rewrite E4.
Qed.
Lemma untouched_of s s' m d : o_pfd G s' d m = o_pfd G s d m -> o_idx G s' d m = o_idx G s d m -> o_est G s' d m = o_est G s d m -> untouched s s' m d.
Proof.
  intros H1 H2 H3. unfold untouched, PliTableModel.getPerturbedProbabilityEstimate, PliTableModel.getIndices, PliTableModel.table_of, PliTableModel.computeConfidenceInterval.
  rewrite !entry_table, H1, H2. split; [reflexivity|]. split; [reflexivity|]. intros zq dflt level.
  rewrite !(entry_table (fun m d => law_interval zq dflt level (o_est G _ d m))). now rewrite H3.
Qed.

(** *** A run that succeeds *)
Theorem C100_run :
  forall w s s', w_op G w <> OtherOperator -> length (w_xs G w) = length (w_outs G w) -> run w s = (s', Ok tt) ->
  (forall m d, (m < length margs)%nat -> (d < length dl)%nat -> computed w (o_gk G s) s' m d) /\ o_gk G s' = o_gk G s.
Proof.
  intros w s s' Ho Hl H. unfold PliTableModel.run in H. rewrite failureSample_ok in H by assumption.
  destruct (steps_spec G k margs dl _ _ _ _ _ _ _ _ H (turns_sorted margs dl)) as (before & HB & HE & HS). split; [|apply HS].
  intros m d Hm Hd. apply computed_of_done; try assumption. apply HB. rewrite <- HE. now apply turns_in.
Qed.
(** A run succeeds as soon as every index can be computed: the converse of C100_run. *)
Lemma map_res_all {A B} (f : A -> res B) (g : A -> B) l : (forall x, In x l -> f x = Ok (g x)) -> map_res f l = Ok (map g l).
Proof. induction l as [|x l IH]; intros H; [reflexivity|]. cbn. rewrite (H x) by now left. cbn. rewrite IH by (intros; apply H; now right). reflexivity. Qed.
Theorem C100_succeeds :
  forall w s, w_op G w <> OtherOperator -> length (w_xs G w) = length (w_outs G w) ->
  (forall m d, (m < length margs)%nat -> (d < length dl)%nat ->
     exists f cell, perturbed_by w (o_gk G s) m d f /\ pli_run (w_op G w) (w_threshold G w) (w_xs G w) (w_outs G w) pdfs m f = Ok cell) ->
  exists s', run w s = (s', Ok tt).
Proof.
  intros w s Ho Hl H. unfold PliTableModel.run. rewrite failureSample_ok by assumption. set (fail := mask _ _).
  set (N := length (w_outs G w)). set (pf := mc_probability _ _ _).
  assert (K : forall cells s1, o_gk G s1 = o_gk G s -> (forall m d, In (m, d) cells -> (m < length margs)%nat /\ (d < length dl)%nat) ->
    exists s', steps G k margs dl w N pf fail cells s1 = (s', Ok tt)).
  { induction cells as [|[m d] cells IH]; intros s1 Eg Hc; [now exists s1|]. cbn [PliTableModel.steps].
    destruct (Hc m d (or_introl eq_refl)) as [Hm Hd]. destruct (H m d Hm Hd) as (f & cell & (dist & EM & Hf) & HP).
    unfold pli_run in HP. rewrite failureSample_ok in HP by assumption. cbn [bind] in HP. fold fail N pf in HP.
    destruct (Nat.eqb (length fail) 0) eqn:NE; [discriminate|].
    assert (TR : table_ratios G k margs w (o_gk G s1) m (nth m (nth d dl []) 0) fail = Ok (map (likelihood_ratio pdfs m f) fail)).
    { unfold table_ratios. rewrite EM, Eg. rewrite (map_res_all _ (fun x => Some (f (nth m x 0)))).
      - destruct fail as [|x0 fail0]; [discriminate|]. cbn [bind]. f_equal. generalize (x0 :: fail0). clear. intros l.
        induction l as [|x l IH]; [reflexivity|]. cbn. rewrite IH. f_equal. unfold likelihood_ratio, perturbedPDF.
        now rewrite (product_replace_at pdfs m (fun _ => f (nth m x 0)) f x).
      - intros x Hx. apply mask_in in Hx. destruct Hx as (y & Hxy & Hy). apply (Hf x y Hxy). now apply beyond_strict. }
    unfold PliTableModel.step. rewrite TR. unfold pli_one in HP. destruct (all_some (map (likelihood_ratio pdfs m f) fail)) as [lr|] eqn:EA; [|discriminate].
    unfold put, table_var, table_law, table_index. rewrite !Nat.eqb_refl, EA. cbn [andb option_map].
    change (1 / INR N * Rsum (map (fun r => r * r) lr) - pfdelta N lr * pfdelta N lr) with (varPfdelta N lr).
    destruct (sigma_of N (estimator_var pf (pfdelta N lr) (varPfdelta N lr))) as [sg|e]; [|discriminate]. cbn [bind] in HP |- *.
    destruct (pl_index pf (pfdelta N lr)) as [i|]; [|discriminate].
    apply IH; [exact Eg|]. intros m' d' Hi. apply Hc. now right. }
  apply K; [reflexivity|]. intros m d. apply turns_in.
Qed.
(** A marginal asked to keep its own mean (or variance) is left as it is, whatever the solver, the optimisation and the integration
    algorithm would have done: an object of which all the deltas are the original ones has indices equal to 0. *)
Theorem C100_unperturbed :
  forall w s, k <> Base -> w_op G w = Less \/ w_op G w = Greater -> length (w_xs G w) = length (w_outs G w) ->
  (forall x, In x (w_xs G w) -> length x = length margs /\ product_pdf pdfs x <> 0) ->
  0 < mc_probability (w_op G w) (w_threshold G w) (w_outs G w) < 1 ->
  (forall m d dist, nth_error margs m = Some dist -> (d < length dl)%nat ->
     nth m (nth d dl []) 0 = match k with Variance _ => dist_variance dist | _ => dist_mean dist end) ->
  exists s', run w s = (s', Ok tt) /\
  forall m d, (m < length margs)%nat -> (d < length dl)%nat ->
    entry (getIndices s') d m = Some (Some 0) /\
    entry (getPerturbed s') d m = Some (Some (mc_probability (w_op G w) (w_threshold G w) (w_outs G w))).
Proof.
  intros w s Hk Ho Hl Hx Hpf Hd. assert (Ho' : w_op G w <> OtherOperator) by (destruct Ho; congruence).
  assert (P : forall m d dist, nth_error margs m = Some dist -> (d < length dl)%nat -> forall x,
    marginal_density G k w (o_gk G s) m dist (nth m (nth d dl []) 0) x = Ok (Some (dist_pdf dist x))).
  { intros m d dist EM Hd' x. rewrite (Hd m d dist EM Hd'). unfold marginal_density. destruct k as [|b|b]; [contradiction| |].
    - unfold mean_perturbed. now rewrite Reqb_refl.
    - unfold variance_perturbed. rewrite Reqb_refl. now destruct dist. }
  assert (Q : forall m f, (m < length margs)%nat ->
    (forall x y, In (x, y) (combine (w_xs G w) (w_outs G w)) -> beyond (w_op G w) (w_threshold G w) y ->
       exists dist, nth_error margs m = Some dist /\ f (nth m x 0) = dist_pdf dist (nth m x 0)) ->
    pli_run (w_op G w) (w_threshold G w) (w_xs G w) (w_outs G w) pdfs m f =
    Ok {| c_pfdelta := mc_probability (w_op G w) (w_threshold G w) (w_outs G w); c_index := 0; c_sigma := 1 / 10 ^ 30 |}).
  { intros m f Hm Hf. destruct (nth_error margs m) as [dist|] eqn:EM; [|apply nth_error_None in EM; lia].
    rewrite <- (C51_no_perturbation (w_op G w) (w_threshold G w) (w_xs G w) (w_outs G w) pdfs m (dist_pdf dist) Ho Hl); [|intros x Hi; now apply Hx| |exact Hpf].
    - unfold pli_run. rewrite failureSample_ok by assumption. cbn [bind]. destruct (Nat.eqb _ 0); [reflexivity|]. f_equal. apply map_ext_in.
      intros x Hi. apply mask_in in Hi. destruct Hi as (y & Hxy & Hy). destruct (Hf x y Hxy (proj2 (beyond_strict _ _ _) Hy)) as (dist' & [= <-] & E).
      unfold likelihood_ratio, perturbedPDF. now rewrite (product_replace_at pdfs m f (dist_pdf dist) x E).
    - intros x g v Hi Eg _. rewrite nth_error_map, EM in Eg. cbn in Eg. congruence. }
  destruct (C100_succeeds w s Ho' Hl) as [s' HR].
  { intros m d Hm Hd'. destruct (nth_error margs m) as [dist|] eqn:EM; [|apply nth_error_None in EM; lia].
    exists (dist_pdf dist). eexists. split; [exists dist; split; [exact EM|]; intros x y _ _; now apply P|]. apply Q; [exact Hm|]. intros x y _ _. eauto. }
  exists s'. split; [exact HR|]. intros m d Hm Hd'. destruct (C100_run w s s' Ho' Hl HR) as [HC _].
  destruct (HC m d Hm Hd') as (f & cell & (dist & EM & Hf) & HP & HE & HI & _).
  rewrite Q in HP; [|exact Hm|].
  - injection HP as <-. cbn in HE, HI. auto.
  - intros x y Hxy Hy. exists dist. split; [exact EM|]. specialize (Hf x y Hxy Hy). rewrite (P m d dist EM Hd') in Hf. congruence.
Qed.
(** The index is inside its interval, in the middle. *)
Theorem C100_interval :
  forall w s s' m d zq dflt level, w_op G w <> OtherOperator -> length (w_xs G w) = length (w_outs G w) -> run w s = (s', Ok tt) ->
  (m < length margs)%nat -> (d < length dl)%nat -> 0 < zq level ->
  exists i lo hi, entry (getIndices s') d m = Some (Some i) /\ entry (interval zq dflt level s') m d = Some (lo, hi) /\ lo < i < hi /\ hi - i = i - lo.
Proof.
  intros w s s' m d zq dflt level Ho Hl H Hm Hd Hz. destruct (C100_run w s s' Ho Hl H) as [HC _].
  destruct (HC m d Hm Hd) as (f & cell & _ & HP & _ & HI & HV). exists (c_index cell), (c_index cell - zq level * c_sigma cell), (c_index cell + zq level * c_sigma cell).
  split; [exact HI|]. split; [apply HV|].
  assert (S : 0 < c_sigma cell).
  { unfold pli_run in HP. rewrite failureSample_ok in HP by assumption. cbn [bind] in HP. destruct (Nat.eqb _ _); [discriminate|]. unfold pli_one in HP.
    destruct (all_some _) as [l|]; [|discriminate]. set (N := length (w_outs G w)) in *.
    destruct (sigma_of N _) as [sg|e] eqn:ES; [|discriminate]. cbn [bind] in HP. destruct (pl_index _ _) as [i|]; [|discriminate]. injection HP as <-. cbn.
    unfold sigma_of in ES. destruct (estimator_var _ _ _) as [v|]; [|discriminate]. destruct (_ || _) eqn:EB.
    - assert (EX : sg = 1 / 10 ^ 30) by congruence. rewrite EX. apply Rmult_lt_0_compat; [lra|]. apply Rinv_0_lt_compat, pow_lt. lra.
    - apply orb_false_iff in EB. destruct EB as [_ EB]. destruct (Reqb_spec v 0) as [|NZ]; [discriminate|]. destruct (Rltb_spec v 0) as [|NN]; [discriminate|].
      injection ES as <-. apply sqrt_lt_R0. apply Rmult_lt_0_compat; [lra|]. apply Rinv_0_lt_compat, INR_pos.
      assert (Hin : In (m, d) (turns margs dl)) by now apply turns_in. clear - H Hin Ho Hl. unfold N. destruct (w_outs G w) as [|y outs] eqn:EO; [|cbn; lia].
      exfalso. unfold PliTableModel.run in H. rewrite failureSample_ok, EO in H by (assumption || now rewrite EO). cbn in H.
      destruct (turns margs dl) as [|[m' d'] cells]; [destruct Hin|]. cbn in H. unfold PliTableModel.step, table_ratios in H. cbn in H. discriminate. }
  nra.
Qed.

(** The outcome of a run and, when it succeeds, all that can be read afterwards do not depend on the previous content of the tables. *)
Lemma step_outcome w N pf fail m d s1 s2 : o_gk G s1 = o_gk G s2 ->
  snd (step G k margs dl w N pf fail m d s1) = snd (step G k margs dl w N pf fail m d s2) /\
  o_gk G (fst (step G k margs dl w N pf fail m d s1)) = o_gk G (fst (step G k margs dl w N pf fail m d s2)).
Proof.
  intros E. unfold step. rewrite E. destruct (table_ratios _ _ _ _ _ _ _ _); [|auto]. rewrite !put_same. destruct (table_law _ _ _ _ _); auto.
Qed.
Lemma steps_outcome w N pf fail cells : forall s1 s2, o_gk G s1 = o_gk G s2 ->
  snd (steps G k margs dl w N pf fail cells s1) = snd (steps G k margs dl w N pf fail cells s2).
Proof.
  induction cells as [|[m d] cells IH]; intros s1 s2 E; [reflexivity|]. cbn. destruct (step_outcome w N pf fail m d s1 s2 E) as [A B].
  destruct (step G k margs dl w N pf fail m d s1) as [s1' r1], (step G k margs dl w N pf fail m d s2) as [s2' r2]. cbn in A, B. subst r2.
  destruct r1; [now apply IH|reflexivity].
Qed.
Theorem C100_history_free :
  forall w s1 s2, o_gk G s1 = o_gk G s2 ->
  snd (run w s1) = snd (run w s2) /\
  (snd (run w s1) = Ok tt ->
   getIndices (fst (run w s1)) = getIndices (fst (run w s2)) /\ getPerturbed (fst (run w s1)) = getPerturbed (fst (run w s2)) /\
   forall zq dflt level, interval zq dflt level (fst (run w s1)) = interval zq dflt level (fst (run w s2))).
Proof.
  intros w s1 s2 E.
  assert (R : snd (run w s1) = snd (run w s2)).
  { unfold PliTableModel.run. destruct (failureSample _ _ _ _) as [fail|e]; [|reflexivity]. now apply steps_outcome. }
  split; [exact R|]. intros HO. rewrite HO in R. symmetry in R. unfold PliTableModel.run in HO, R |- *.
  destruct (failureSample _ _ _ _) as [fail|e]; [|discriminate]. set (N := length (w_outs G w)) in *. set (pf := mc_probability _ _ _) in *.
  set (a1 := Build_obj _ _ _ _ _ _ _ (o_est G s1) _) in *. set (a2 := Build_obj _ _ _ _ _ _ _ (o_est G s2) _) in *.
  destruct (steps G k margs dl w N pf fail (turns margs dl) a1) as [b1 r1] eqn:E1. destruct (steps G k margs dl w N pf fail (turns margs dl) a2) as [b2 r2] eqn:E2.
  cbn in HO, R. subst r1 r2. cbn [fst].
  destruct (steps_spec G k margs dl _ _ _ _ _ _ _ _ E1 (turns_sorted margs dl)) as (l1 & D1 & C1 & _).
  destruct (steps_spec G k margs dl _ _ _ _ _ _ _ _ E2 (turns_sorted margs dl)) as (l2 & D2 & C2 & _). subst l1 l2.
  assert (EQ : forall m d, (m < length margs)%nat -> (d < length dl)%nat -> o_pfd G b1 d m = o_pfd G b2 d m /\ o_idx G b1 d m = o_idx G b2 d m /\ o_est G b1 d m = o_est G b2 d m).
  { intros m d Hm Hd. assert (I : In (m, d) (turns margs dl)) by now apply turns_in.
    destruct (D1 _ I) as (rs & l & X1 & (X2 & X3 & X4) & X5 & X6). destruct (D2 _ I) as (rs' & l' & Y1 & (Y2 & Y3 & Y4) & Y5 & Y6).
    change (o_gk G a1) with (o_gk G s1) in X1. change (o_gk G a2) with (o_gk G s2) in Y1. rewrite E, Y1 in X1. injection X1 as <-. rewrite Y5 in X5. injection X5 as <-.
    repeat split; congruence. }
  assert (T : forall V (t t' : nat -> nat -> V), (forall d m, (d < length dl)%nat -> (m < length margs)%nat -> t d m = t' d m) -> table_of margs dl t = table_of margs dl t').
  { intros V t t' H. unfold table_of. apply map_ext_in. intros d Hd. apply map_ext_in. intros m Hm. apply in_seq in Hd, Hm. apply H; lia. }
  split; [|split]; [apply T; intros; now apply EQ..|]. intros zq dflt level. unfold PliTableModel.computeConfidenceInterval.
  apply map_ext_in. intros m Hm. apply map_ext_in. intros d Hd. apply in_seq in Hd, Hm. f_equal. apply EQ; lia.
Qed.

(** *** A run that fails *)
(** The law is refused only when the index is not a finite number. *)
Lemma law_refused N pf rs e : (0 < N)%nat -> pf <= 1 -> INR (length rs) <= INR N * pf -> rs <> [] ->
  law_of N pf rs = Raise e -> table_index pf (num_pfd N rs) = None.
Proof.
  intros HN Hp Hk Hne H. unfold law_of, num_pfd in *. destruct (all_some rs) as [l|] eqn:EA; [|reflexivity]. cbn [option_map] in *.
  unfold table_var in H. rewrite EA in H. cbn [table_law table_index] in *.
  change (1 / INR N * Rsum (map (fun r => r * r) l) - pfdelta N l * pfdelta N l) with (varPfdelta N l) in H.
  assert (EL : length rs = length l) by (apply all_some_spec in EA; subst rs; apply map_length). rewrite EL in Hk.
  assert (PN := INR_pos N HN).
  assert (P0 : 0 < pf).
  { assert (0 < INR (length l)) by (apply INR_pos; rewrite <- EL; destruct rs; [congruence|cbn; lia]). nra. }
  destruct (C52_variances_nonnegative N pf l HN ltac:(lra) Hk) as [_ V].
  destruct (estimator_var pf (pfdelta N l) (varPfdelta N l)) as [v|] eqn:EV.
  - assert (V0 := V v eq_refl). unfold sigma_of in H. destruct (Rltb_spec v 0); [lra|]. rewrite andb_false_r in H. cbn [orb] in H.
    destruct (Reqb v 0); cbn [bind] in H; (destruct (pl_index pf (pfdelta N l)); [discriminate|reflexivity]).
  - unfold estimator_var in EV. unfold pl_index, qdiv. destruct (Rltb_spec (pfdelta N l) pf).
    + destruct (Reqb_spec (pfdelta N l) 0); [reflexivity|discriminate].
    + destruct (Reqb_spec pf 0); [lra|discriminate].
Qed.
Theorem C100_raise :
  forall w s s' e, w_op G w <> OtherOperator -> length (w_xs G w) = length (w_outs G w) -> run w s = (s', Raise e) ->
  exists m0 d0, (m0 < length margs)%nat /\ (d0 < length dl)%nat /\
  (forall m d, (m < length margs)%nat -> (d < length dl)%nat -> earlier (m, d) (m0, d0) -> computed w (o_gk G s) s' m d) /\
  (forall m d, earlier (m0, d0) (m, d) -> untouched s s' m d) /\
  (untouched s s' m0 d0 \/
   entry (getIndices s') d0 m0 = Some None /\ (forall zq dflt level, entry (interval zq dflt level s') m0 d0 = entry (interval zq dflt level s) m0 d0)) /\
  o_gk G s' = o_gk G s.
Proof.
  intros w s s' e Ho Hl H. unfold PliTableModel.run in H. rewrite failureSample_ok in H by assumption.
  destruct (steps_spec G k margs dl _ _ _ _ _ _ _ _ H (turns_sorted margs dl)) as (before & HB & [m0 d0] & after & HE & HX & HS).
  set (N := length (w_outs G w)) in *. set (pf := mc_probability _ _ _) in *. set (fail := mask _ _) in *. set (a := Build_obj _ _ _ _ _ _ _ _ _) in *.
  assert (I0 : In (m0, d0) (turns margs dl)) by (rewrite HE; apply in_or_app; right; now left). apply turns_in in I0. destruct I0 as [Hm0 Hd0].
  assert (SO := turns_sorted margs dl). rewrite HE in SO. destruct (sorted_split _ _ _ _ SO) as [SB SA].
  assert (AS : forall c c', earlier c c' -> earlier c' c -> False) by (intros [x y] [x' y'] [P|[P P']] [Q|[Q Q']]; cbn in *; lia).
  exists m0, d0. split; [exact Hm0|]. split; [exact Hd0|]. split; [|split; [|split]].
  - intros m d Hm Hd HL. apply computed_of_done; try assumption. apply HB.
    assert (I : In (m, d) (turns margs dl)) by now apply turns_in. rewrite HE in I. apply in_app_or in I. destruct I as [I|[I|I]]; [exact I| |].
    + exfalso. rewrite I in HL. now apply (AS _ _ HL).
    + exfalso. apply SA in I. now apply (AS _ _ HL).
  - intros m d HL. destruct HS as (_ & _ & _ & _ & HS). destruct (HS d m) as (Q1 & Q2 & Q3 & Q4); [|now apply untouched_of].
    intros [X|X]; [apply SB in X; now apply (AS _ _ HL)|]. rewrite X in HL. now apply (AS _ _ HL).
  - destruct HX as [Q1 [(Q2 & Q3 & Q4 & Q5)|(rs & Q2 & Q3 & (Q4 & Q5 & Q6))]].
    + left. now apply untouched_of.
    + right. split.
      * unfold PliTableModel.getIndices, table_of. rewrite entry_table_in by assumption. f_equal. rewrite Q6.
        assert (LF : fail <> [] /\ length rs = length fail).
        { unfold ratios_of, table_ratios in Q2. destruct fail as [|x fl]; [discriminate|]. split; [discriminate|]. destruct (nth_error margs m0); [|discriminate].
          destruct (map_res _ (x :: fl)) as [vs|] eqn:EV; [|discriminate]. cbn [bind] in Q2. apply (f_equal (fun r => match r with Ok l => length l | Raise _ => O end)) in Q2. apply map_res_ok in EV. apply forall2_length in EV.
          cbv beta iota in Q2. rewrite map_length, combine_length in Q2. lia. }
        destruct LF as [LF1 LF2].
        assert (HC : length fail = countb (strict (w_op G w) (w_threshold G w)) (w_outs G w)) by (unfold fail; now apply mask_map_count).
        assert (HC' : (length fail <= countb (event_holds (w_op G w) (w_threshold G w)) (w_outs G w))%nat) by (rewrite HC; apply countb_mono; intros y _; apply strict_implies).
        assert (HC2 := countb_le (event_holds (w_op G w) (w_threshold G w)) (w_outs G w)). fold N in HC2.
        assert (PN : (0 < N)%nat) by (destruct fail; [congruence|cbn in HC'; lia]). assert (PN' := INR_pos N PN).
        assert (EP : INR N * pf = INR (countb (event_holds (w_op G w) (w_threshold G w)) (w_outs G w))) by (unfold pf, mc_probability; fold N; field; lra).
        apply le_INR in HC2, HC'. apply (law_refused N pf rs e); [exact PN|nra|rewrite LF2; lra|destruct rs; [destruct fail; [congruence|discriminate]|discriminate]|exact Q3].
      * intros zq dflt level. unfold PliTableModel.computeConfidenceInterval. rewrite !(entry_table (fun m d => law_interval zq dflt level (o_est G _ d m))). now rewrite Q1.
  - apply HS.
Qed.
(** An operator that is not known, no failure point, or the base class: nothing can be computed and nothing is written. *)
Theorem C100_nothing_computed :
  forall w s, margs <> [] -> dl <> [] ->
  let refused e := snd (run w s) = Raise e /\ getIndices (fst (run w s)) = getIndices s /\ getPerturbed (fst (run w s)) = getPerturbed s /\
                   forall zq dflt level, interval zq dflt level (fst (run w s)) = interval zq dflt level s in
  (w_op G w = OtherOperator -> refused NameError) /\
  (w_op G w <> OtherOperator -> length (w_xs G w) = length (w_outs G w) ->
   ((forall y, In y (w_outs G w) -> ~ beyond (w_op G w) (w_threshold G w) y) -> refused ValueError) /\
   (k = Base -> (exists y, In y (w_outs G w) /\ beyond (w_op G w) (w_threshold G w) y) -> refused TypeError)).
Proof.
  intros w s Hm Hd refused.
  assert (ST : forall e, (forall fail, failureSample (w_op G w) (w_threshold G w) (w_xs G w) (w_outs G w) = Ok fail -> forall g delta, table_ratios G k margs w g 0 delta fail = Raise e) ->
    w_op G w <> OtherOperator -> length (w_xs G w) = length (w_outs G w) -> refused e).
  { intros e HR Ho Hl. unfold refused, PliTableModel.run. rewrite failureSample_ok in * by assumption. assert (HR' := HR _ eq_refl).
    destruct margs as [|a ms]; [congruence|]. destruct dl as [|b ds]; [congruence|]. cbn [turns length seq flat_map map app steps]. unfold step. rewrite HR'. cbn. auto. }
  split; [|intros Ho Hl; split].
  - intros E. unfold refused, PliTableModel.run. rewrite E. cbn. auto.
  - intros HN. apply ST; try assumption. intros fail HF g delta. rewrite failureSample_ok in HF by assumption. injection HF as <-.
    destruct (mask _ _) as [|x l] eqn:EM; [reflexivity|]. exfalso.
    assert (I : In x (mask (map (strict (w_op G w) (w_threshold G w)) (w_outs G w)) (w_xs G w))) by (rewrite EM; now left).
    apply mask_in in I. destruct I as (y & I1 & I2). apply in_combine_r in I1. apply (HN y I1). now apply beyond_strict.
  - intros EK (y & Hy1 & Hy2). apply ST; try assumption. intros fail HF g delta. rewrite failureSample_ok in HF by assumption. injection HF as <-.
    destruct (mask _ _) as [|x l] eqn:EM.
    + exfalso. assert (L := mask_map_count (strict (w_op G w) (w_threshold G w)) _ _ Hl). rewrite EM in L. cbn in L.
      apply beyond_strict in Hy2. unfold countb in L. assert (I : In y (filter (strict (w_op G w) (w_threshold G w)) (w_outs G w))) by (apply filter_In; auto).
      destruct (filter _ _); [destruct I|discriminate].
    + unfold table_ratios. destruct margs as [|a ms]; [congruence|]. cbn [nth_error map_res]. unfold marginal_density. rewrite EK. reflexivity.
Qed.

(** *** Before the first run *)
(** Finding: nothing tells that run has not been called: all the indices and the perturbed probabilities are 0 and the intervals are those
    of the default distribution. *)
Theorem C100_before_run :
  forall g m d, (m < length margs)%nat -> (d < length dl)%nat ->
  entry (getIndices (fresh g)) d m = Some (Some 0) /\ entry (getPerturbed (fresh g)) d m = Some (Some 0) /\
  forall zq dflt level, entry (interval zq dflt level (fresh g)) m d = Some (dflt level).
Proof.
  intros g m d Hm Hd. unfold PliTableModel.getPerturbedProbabilityEstimate, PliTableModel.getIndices, table_of, PliTableModel.computeConfidenceInterval.
  rewrite !entry_table_in by assumption. split; [reflexivity|]. split; [reflexivity|]. intros zq dflt level.
  now rewrite (entry_table_in (fun m d => law_interval zq dflt level (o_est G (fresh g) d m))) by assumption.
Qed.
(** Whatever the state, the getters give a table with a row per delta and a column per marginal, the intervals a row per marginal and a
    column per delta, and the deltas are those of the constructor. *)
Theorem C100_shape :
  forall s zq dflt level,
  length (getIndices s) = length dl /\ (forall row, In row (getIndices s) -> length row = length margs) /\
  length (getPerturbed s) = length dl /\ (forall row, In row (getPerturbed s) -> length row = length margs) /\
  length (interval zq dflt level s) = length margs /\ (forall row, In row (interval zq dflt level s) -> length row = length dl) /\
  getDeltaSample G dl s = dl.
Proof.
  intros s zq dflt level. unfold PliTableModel.getPerturbedProbabilityEstimate, PliTableModel.getIndices, table_of, PliTableModel.computeConfidenceInterval.
  rewrite !map_length, !seq_length. repeat split; intros row Hr; apply in_map_iff in Hr; destruct Hr as (x & <- & _); now rewrite map_length, seq_length.
Qed.

(** *** The integration algorithm *)
(** setGaussKronrod refuses without a change, or changes the algorithm only: what can be read stays. *)
Theorem C100_setGaussKronrod :
  forall g s, let (s', r) := setGaussKronrod G g s in
  (r = Ok tt <-> exists a, g = Accepted a) /\ (g = Unaccepted -> r = Raise AttributeError) /\ (r <> Ok tt -> s' = s) /\ (forall a, g = Accepted a -> o_gk G s' = a) /\
  forall m d, untouched s s' m d.
Proof.
  intros [a| |e] s; cbn; (split; [split; [intros; eauto; discriminate|intros [a' E]; congruence]|]); (split; [congruence|]); (split; [congruence|]); (split; [congruence|]);
    intros m d; now apply untouched_of.
Qed.
(** It has no part in the indices of a mean perturbation, nor in those of a variance perturbation without uniform marginal. *)
Theorem C100_algorithm_unused :
  forall w s a, (exists b, k = Mean b) \/ (forall p q, ~ In (MUniform p q) margs) ->
  let s1 := fst (setGaussKronrod G (Accepted a) s) in
  snd (run w s1) = snd (run w s) /\ getIndices (fst (run w s1)) = getIndices (fst (run w s)) /\
  getPerturbed (fst (run w s1)) = getPerturbed (fst (run w s)) /\
  forall zq dflt level, interval zq dflt level (fst (run w s1)) = interval zq dflt level (fst (run w s)).
Proof.
  intros w s a HK s1.
  assert (TR : forall g g' m delta fail, table_ratios G k margs w g m delta fail = table_ratios G k margs w g' m delta fail).
  { intros g g' m delta fail. unfold table_ratios. destruct fail as [|x fail]; [reflexivity|]. destruct (nth_error margs m) as [dist|] eqn:EM; [|reflexivity].
    assert (MD : forall v, marginal_density G k w g m dist delta v = marginal_density G k w g' m dist delta v).
    { intros v. unfold marginal_density. destruct HK as [[b ->]|HU]; [reflexivity|]. destruct k; try reflexivity. destruct dist as [| p q|]; try reflexivity.
      exfalso. apply (HU p q). eapply nth_error_In. exact EM. }
    replace (map_res (fun x => marginal_density G k w g m dist delta (nth m x 0)) (x :: fail)) with (map_res (fun x => marginal_density G k w g' m dist delta (nth m x 0)) (x :: fail)); [reflexivity|].
    generalize (x :: fail) as l. induction l as [|y l IH]; [reflexivity|]. cbn. now rewrite IH, MD. }
  assert (SS : forall N pf fail cells t t', o_pfd G t = o_pfd G t' -> o_var G t = o_var G t' -> o_idx G t = o_idx G t' -> o_est G t = o_est G t' ->
    let (u, r) := steps G k margs dl w N pf fail cells t in let (u', r') := steps G k margs dl w N pf fail cells t' in
    r = r' /\ o_pfd G u = o_pfd G u' /\ o_idx G u = o_idx G u' /\ o_est G u = o_est G u').
  { intros N pf fail. induction cells as [|[m d] cells IH]; intros t t' H1 H2 H3 H4; cbn; [auto|].
    unfold step. rewrite (TR (o_gk G t) (o_gk G t')), H1, H2, H3, H4. destruct (table_ratios _ _ _ _ _ _ _ _) as [rs|e]; [|auto].
    destruct (table_law _ _ _ _ _) as [l|e]; [|cbn; auto]. apply IH; reflexivity. }
  unfold PliTableModel.run. unfold s1. cbn [setGaussKronrod fst o_pfd o_var o_idx o_est o_fail o_gk]. destruct (failureSample _ _ _ _) as [fail|e]; [|cbn; auto].
  set (N := length (w_outs G w)). set (pf := mc_probability _ _ _).
  set (t := Build_obj G _ _ _ _ _ _ _ a). set (t' := Build_obj G _ _ _ _ _ _ _ (o_gk G s)).
  assert (X := SS N pf fail (turns margs dl) t t' eq_refl eq_refl eq_refl eq_refl).
  destruct (steps G k margs dl w N pf fail (turns margs dl) t) as [u r], (steps G k margs dl w N pf fail (turns margs dl) t') as [u' r']. destruct X as (-> & X1 & X2 & X3).
  cbn [fst snd]. unfold PliTableModel.getPerturbedProbabilityEstimate, PliTableModel.getIndices, PliTableModel.computeConfidenceInterval. rewrite X1, X2, X3. auto.
Qed.
(** getOriginalDelta: the moment that is perturbed; the base class refuses. *)
Theorem C100_original_delta :
  forall m dist, nth_error margs m = Some dist ->
  getOriginalDelta k margs m = match k with Base => Raise GenericException | Mean _ => Ok (dist_mean dist) | Variance _ => Ok (dist_variance dist) end.
Proof. intros m dist H. unfold getOriginalDelta. rewrite H. now destruct k. Qed.
End Props.

(** *** The constructor *)
(** An object is built exactly when the history is not empty, the parameters are independent and the deltas are accepted (the subject of
    C55); the history is looked at first, then the copula. *)
Theorem C100_construct :
  forall k history independent margs d,
  (forall v, construct k history independent margs d = Ok v <-> (0 < history)%nat /\ independent = true /\ kind_deltas k margs d = Ok v) /\
  (history = O -> construct k history independent margs d = Raise AttributeError) /\
  ((0 < history)%nat -> independent = false -> construct k history independent margs d = Raise GenericException).
Proof.
  intros k h b margs d. unfold construct. destruct h as [|h]; cbn [Nat.eqb].
  - split; [|split; [reflexivity|lia]]. intros v. split; [discriminate|lia].
  - destruct b; cbn [negb]; (split; [|split; [discriminate|]]); try (intros; (discriminate || reflexivity)); intros v.
    + split; [intros H; split; [lia|auto]|tauto].
    + split; [discriminate|intros (_ & ? & _); discriminate].
Qed.

(** The deltas of an object that was built: those given, a column repeated for all the marginals if there is only one (C53), and with the
    scaling option the mean moved by delta standard deviations, or the square of the standard deviation moved by delta means. *)
Theorem C100_deltas :
  forall k history independent margs d w, construct k history independent margs d = Ok w ->
  exists v, pli_deltas (length margs) d = Ok v /\
  match k with
  | Base | Mean false | Variance false => w = v
  | Mean true => forall i j x dist, entry v i j = Some x -> nth_error margs j = Some dist -> entry w i j = Some (dist_mean dist + x * sqrt (dist_variance dist))
  | Variance true => forall i j x dist, entry v i j = Some x -> nth_error margs j = Some dist ->
      entry w i j = Some ((sqrt (dist_variance dist) + x * dist_mean dist) ^ 2)
  end.
Proof.
  intros k h b margs d w H. apply (proj1 (C100_construct k h b margs d)) in H. destruct H as (_ & _ & H). unfold kind_deltas in H.
  assert (E : forall (f : R -> R -> R -> R) v w, map (fun row => map3 f row (map dist_mean margs) (map (fun m => sqrt (dist_variance m)) margs)) v = w ->
    forall i j x dist, entry v i j = Some x -> nth_error margs j = Some dist -> entry w i j = Some (f x (dist_mean dist) (sqrt (dist_variance dist)))).
  { intros f v w' <- i j x dist Hx Hd. unfold entry in *. rewrite nth_error_map. destruct (nth_error v i) as [row|]; [|discriminate]. cbn [option_map].
    apply PliDeltaProps.nth_error_map3; [exact Hx| |]; rewrite nth_error_map, Hd; reflexivity. }
  destruct k as [|[]|[]].
  - exists w. auto.
  - unfold mean_deltas in H. destruct (pli_deltas (length margs) d) as [v|]; [|discriminate]. cbn [bind] in H. injection H as H. exists v. split; [reflexivity|].
    intros i j x dist Hx Hd. rewrite (E _ _ _ H i j x dist Hx Hd). f_equal. ring.
  - unfold mean_deltas in H. destruct (pli_deltas (length margs) d) as [v|]; [|discriminate]. cbn [bind] in H. injection H as H. exists v. auto.
  - unfold variance_deltas in H. destruct (pli_deltas (length margs) d) as [v|]; [|discriminate]. cbn [bind] in H. rewrite andb_false_r in H. injection H as H. exists v.
    split; [reflexivity|]. intros i j x dist Hx Hd. rewrite (E _ _ _ H i j x dist Hx Hd). f_equal. ring.
  - unfold variance_deltas in H. destruct (pli_deltas (length margs) d) as [v|]; [|discriminate]. cbn [bind] in H. destruct (_ && _); [discriminate|]. injection H as H. exists v. auto.
Qed.
Example C100_example_deltas : exists w, construct (Mean true) 3 true [MNormal 2 1; MOther 3 1 (fun _ => 1)] (D1 [5; 6]) = Ok w.
Proof. eexists. reflexivity. Qed.

(** *** Cases *)
(** Two evaluations of one or two parameters, one failure, at 0. *)
Definition case_world (dim : nat) : world unit :=
  {| w_op := Greater; w_threshold := 5; w_xs := [repeat 0 dim; repeat 0 dim]; w_outs := [6; 4]; w_solve := fun _ => 0; w_opt := fun _ _ _ => Ok (0, 0) |}.
Lemma case_pf : mc_probability Greater 5 [6; 4] = 1 / 2.
Proof. unfold mc_probability, countb. cbn [filter event_holds length]. destruct (Rltb_spec 5 6); [|lra]. destruct (Rltb_spec 5 4); [lra|]. cbn. field. Qed.
Lemma case_fail (x y : list R) : failureSample Greater 5 [x; y] [6; 4] = Ok [x].
Proof. rewrite failureSample_ok by (try discriminate; reflexivity). cbn. destruct (Rltb_spec 5 6); [|lra]. destruct (Rltb_spec 5 4); [lra|]. reflexivity. Qed.
Lemma case_density : normal_pdf 0 1 0 <> 0.
Proof.
  unfold normal_pdf. assert (0 < exp (- ((0 - 0) * (0 - 0)) / (2 * (1 * 1)))) by apply exp_pos.
  assert (0 < sqrt (2 * PI)) by (apply sqrt_lt_R0; assert (P := PI_RGT_0); lra).
  apply Rgt_not_eq. apply Rmult_lt_0_compat; [assumption|]. apply Rinv_0_lt_compat. lra.
Qed.
Lemma case_law : law_of 2 (1 / 2) [Some 1] = Ok (NormalLaw 0 (1 / 10 ^ 30)) /\ num_pfd 2 [Some 1] = Some (1 / 2).
Proof.
  assert (E1 : pfdelta 2 [1] = 1 / 2) by (unfold pfdelta; cbn; field).
  split; [|unfold num_pfd; cbn [all_some option_map]; now rewrite E1].
  unfold law_of, num_pfd, table_law, table_var. cbn [all_some option_map table_index]. rewrite E1.
  unfold estimator_var, pl_index, qdiv. destruct (Rltb_spec (1 / 2) (1 / 2)); [lra|]. destruct (Reqb_spec (1 / 2) 0); [lra|].
  match goal with |- context[sigma_of 2 (Some ?v)] => replace v with 0 by (cbn; field) end.
  unfold sigma_of. rewrite Reqb_refl, orb_true_r. cbn [bind]. do 2 f_equal. field.
Qed.
Lemma case_ratios g b (margs : list marginal_dist) : (margs = [] \/ margs = [MOther 0 1 (fun _ => 1)]) -> forall delta,
  delta = 0 -> table_ratios unit (Mean b) (MNormal 0 1 :: margs) (case_world (S (length margs))) g 0 delta [repeat 0 (S (length margs))] = Ok [Some 1].
Proof.
  assert (ND := case_density). intros HM delta ->. unfold table_ratios. cbn [nth_error map_res repeat nth]. unfold marginal_density, mean_perturbed. cbn [dist_mean]. rewrite Reqb_refl. cbn [bind dist_pdf combine map fst snd].
  do 2 f_equal. unfold likelihood_ratio, perturbedPDF, qdiv. cbn [map replace_nth]. set (n := normal_pdf 0 1 0) in *.
  destruct HM as [-> | ->]; cbn [map length repeat product_pdf dist_pdf]; fold n; match goal with |- context[Reqb ?x 0] => destruct (Reqb_spec x 0); [lra|] end; f_equal; field; lra.
Qed.
(** Finding: after a run that failed midway, the getters answer with numbers for all the marginals, computed or not; the perturbed
    probability of a marginal that was never looked at reads 0. *)
Theorem C100_half_filled_refuted :
  exists k margs dl (w : world unit) s',
  PliTableModel.run unit k margs dl w (fresh unit tt) = (s', Raise GenericException) /\
  entry (getPerturbedProbabilityEstimate unit margs dl s') 0 0 = Some (Some (1 / 2)) /\
  entry (getPerturbedProbabilityEstimate unit margs dl s') 0 1 = Some (Some 0) /\
  entry (getIndices unit margs dl s') 0 0 = Some (Some 0) /\ entry (getIndices unit margs dl s') 0 1 = Some (Some 0).
Proof.
  set (margs := [MNormal 0 1; MOther 0 1 (fun _ => 1)]). set (dl := [[0; 5]]).
  exists (Mean false), margs, dl, (case_world 2). eexists.
  destruct case_law as [CL CN]. assert (CR := case_ratios tt false [MOther 0 1 (fun _ => 1)] (or_intror eq_refl) 0 eq_refl). cbn [length] in CR. fold margs in CR.
  split; [|split; [|split; [|split]]].
  - unfold PliTableModel.run. cbn [w_op w_threshold w_xs w_outs case_world]. rewrite case_fail, case_pf. fold (case_world 2).
    change (turns margs dl) with [(0%nat, 0%nat); (1%nat, 0%nat)]. cbn [steps length]. unfold step at 1. cbn [o_gk fresh nth dl].
    rewrite CR. rewrite !put_same. fold (num_pfd 2 [Some 1]). fold (law_of 2 (1 / 2) [Some 1]). rewrite CL.
    unfold step. cbn [o_gk with_tables nth]. unfold table_ratios at 1. cbn [nth_error margs map_res repeat nth]. unfold marginal_density, mean_perturbed. cbn [dist_mean].
    change (nth 1 (nth 0 dl []) 0) with 5. destruct (Reqb_spec 5 0); [lra|]. cbn [bind]. reflexivity.
  - cbn. rewrite <- CN. reflexivity.
  - reflexivity.
  - change (Some (table_index (1 / 2) (num_pfd 2 [Some 1])) = Some (Some 0)). rewrite CN. unfold table_index, pl_index, qdiv. destruct (Rltb_spec (1 / 2) (1 / 2)); [lra|]. destruct (Reqb_spec (1 / 2) 0); [lra|]. do 2 f_equal. field.
  - reflexivity.
Qed.
(** A run that succeeds. *)
Example C100_example :
  exists s', PliTableModel.run unit (Mean false) [MNormal 0 1] [[0]] (case_world 1) (fresh unit tt) = (s', Ok tt) /\
  w_op unit (case_world 1) <> OtherOperator /\ length (w_xs unit (case_world 1)) = length (w_outs unit (case_world 1)) /\
  getPerturbedProbabilityEstimate unit [MNormal 0 1] [[0]] s' = [[Some (1 / 2)]].
Proof.
  destruct case_law as [CL CN]. assert (CR := case_ratios tt false [] (or_introl eq_refl) 0 eq_refl). cbn [length] in CR.
  eexists. split; [|split; [discriminate|split; [reflexivity|]]].
  - unfold PliTableModel.run. cbn [w_op w_threshold w_xs w_outs case_world]. rewrite case_fail, case_pf. fold (case_world 1).
    change (turns [MNormal 0 1] [[0]]) with [(0%nat, 0%nat)]. cbn [steps length]. unfold step at 1. cbn [o_gk fresh nth].
    rewrite CR. rewrite !put_same. fold (num_pfd 2 [Some 1]). fold (law_of 2 (1 / 2) [Some 1]). rewrite CL. reflexivity.
  - cbn. rewrite <- CN. reflexivity.
Qed.
(** Deltas equal to the original variances, with an optimisation that would not work. *)
Example C100_example_unperturbed :
  let w := {| w_op := Greater; w_threshold := 5; w_xs := [[0; 0]; [0; 0]]; w_outs := [6; 4]; w_solve := fun _ => 0; w_opt := fun (_ : unit) _ _ => Raise OSError |} in
  exists s', PliTableModel.run unit (Variance false) [MNormal 0 1; MUniform (-1) 1] [[1; 1 / 3]; [1; 1 / 3]] w (fresh unit tt) = (s', Ok tt) /\
  entry (getIndices unit [MNormal 0 1; MUniform (-1) 1] [[1; 1 / 3]; [1; 1 / 3]] s') 1 1 = Some (Some 0).
Proof.
  intros w. assert (ND := case_density). set (margs := [MNormal 0 1; MUniform (-1) 1]). set (dl := [[1; 1 / 3]; [1; 1 / 3]]).
  destruct (C100_unperturbed unit (Variance false) margs dl w (fresh unit tt)) as (s' & HR & HI).
  - discriminate.
  - now right.
  - reflexivity.
  - intros x Hx. assert (E : x = [0; 0]) by (destruct Hx as [<-|[<-|[]]]; reflexivity). subst x. split; [reflexivity|].
    cbn [margs map dist_pdf product_pdf]. unfold uniform_pdf. destruct (Rleb_spec (-1) 0), (Rleb_spec 0 1); try lra. cbn [andb].
    set (n := normal_pdf 0 1 0) in *. replace (n * (/ (1 - -1) * 1)) with (n / 2) by field. lra.
  - cbn [w w_op w_threshold w_outs]. rewrite case_pf. lra.
  - intros m d dist EM Hd. cbn in Hd. destruct m as [|[|m]]; cbn in EM; [| |destruct m; discriminate]; injection EM as <-; destruct d as [|[|d]]; try lia; cbn; lra.
  - exists s'. split; [exact HR|]. apply (HI 1%nat 1%nat); cbn; lia.
Qed.
(** The hypotheses of the refusals. *)
Example C100_example_refused :
  (forall y, In y [6; 4] -> ~ beyond Greater 7 y) /\ (exists y, In y [6; 4] /\ beyond Greater 5 y) /\
  construct Base 0 true [] (D0 1) = Raise AttributeError /\ construct Base 3 false [] (D0 1) = Raise GenericException.
Proof.
  split; [intros y [<-|[<-|[]]]; cbn; lra|]. split; [exists 6; split; [now left|cbn; lra]|]. split; reflexivity.
Qed.
Print Assumptions C100_run.
Print Assumptions C100_succeeds.
Print Assumptions C100_unperturbed.
Print Assumptions C100_interval.
Print Assumptions C100_history_free.
Print Assumptions C100_raise.
Print Assumptions C100_nothing_computed.
Print Assumptions C100_before_run.
Print Assumptions C100_shape.
Print Assumptions C100_setGaussKronrod.
Print Assumptions C100_algorithm_unused.
Print Assumptions C100_original_delta.
Print Assumptions C100_construct.
Print Assumptions C100_deltas.
Print Assumptions C100_half_filled_refuted.
