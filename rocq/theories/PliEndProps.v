(** C101: PLIMean and PLIVariance from the Monte Carlo simulations to the tables of indices. *)
From Coq Require Import Reals Lra.
From Verif Require Import RealBase LooModel KrigAttrModel PliModel PliProps PliDeltaProps PliPodModel PliPodProps PliObjModel PliDensityModel PliTableModel PliTableProps PliEndModel.
From Verif Require PliObjProps.
Require Import ZArith.
Local Open Scope R_scope.

Section Spec.
Variables N G : Type.
Variable metamodel : list R -> R.
Variable detection : R.
Variable delta : list (list R).
Variable class : pli_class.
Local Arguments PliObjModel.core {D N G Obj}.
Local Arguments PliObjModel.dist {D N G Obj}.
Local Arguments PliObjModel.gk {D N G Obj}.
Notation state := (PliObjModel.state joint N G (one G)).
Notation run := (PliEndModel.run N G metamodel detection delta class).
Notation outside := (outside G).
Notation core := PliObjModel.core.
Notation law s := (j_margs (PliObjModel.dist s)).
Notation signals := (signals metamodel).

(** The points whose signal exceeds the threshold, and their share. *)
Definition detected (x : R) (points : list (list R)) : list (list R) := filter (fun p => Rltb detection (metamodel (x :: p))) points.
Definition share (x : R) (points : list (list R)) : R := INR (length (detected x points)) / INR (length points).
Lemma estimate_share (e : outside) n x : estimate G metamodel detection e n x = share x (e_points G e n).
Proof.
  unfold estimate, mc_probability, share, detected. unfold PliEndModel.signals. rewrite map_length. f_equal. f_equal.
  generalize (e_points G e n). unfold countb. clear. induction l as [|p l IH]; [reflexivity|]. cbn. destruct (Rltb detection (metamodel (x :: p))); cbn; auto.
Qed.
Definition keeps (x : R) (points : list (list R)) : Prop := 1 / 1000 < share x points < 999 / 1000.
Lemma keepable_spec (e : outside) (st : pstate (one G)) k :
  keepable (estimate G metamodel detection e) (clock st) (sizes st) k = true <-> keeps (nth k (sizes st) 0) (e_points G e (clock st + k)).
Proof. unfold keepable. rewrite C56_kept, estimate_share. reflexivity. Qed.
Lemma kept_not_empty x points : keeps x points -> exists p, In p points /\ detection < metamodel (x :: p).
Proof.
  intros [H _]. assert (L : detected x points <> []). { intros E. unfold share in H. rewrite E in H. cbn in H. unfold Rdiv in H. rewrite !Rmult_0_l in H. lra. }
  destruct (detected x points) as [|p l] eqn:E; [contradiction|]. assert (I : In p (detected x points)) by (rewrite E; now left).
  unfold detected in I. apply filter_In in I. destruct I as [I1 I2]. apply Rltb_true in I2. eauto.
Qed.

(** The table shown by getIndices for delta i, marginal j, defect k. *)
Definition shown (s : state) (i j k : nat) (v : option R) : Prop :=
  PliPodModel.getIndices (indices (core s)) (Some (Z.of_nat i)) (Some (Z.of_nat j)) (Some (Z.of_nat k)) = Ok (S0 v).
Definition shaped (s : state) : Prop := consistent (core s) /\ n_delta (indices (core s)) = length delta /\ n_marginal (indices (core s)) = length (law s).
Lemma py_index_nat n i : (i < n)%nat -> py_index n (Z.of_nat i) = Some i.
Proof. intros H. apply py_index_spec. split; [exact H|now left]. Qed.

(** What is computed for delta i, marginal j and a defect of size x, from the points of its own simulation: the index of the density of
    that marginal with the moment asked for (PliModel.pli_run, the subject of C50-C52). *)
Definition index_for (e : outside) (g : G) (n : nat) (x : R) (margs : list marginal_dist) (dl : list (list R)) (i j : nat) (v : R) : Prop :=
  exists dist f cell, nth_error margs j = Some dist /\
    (forall p, In p (e_points G e n) -> detection < metamodel (x :: p) ->
       marginal_density G (kind_of class) (simulation G metamodel detection e n x) g j dist (nth j (nth i dl []) 0) (nth j p 0) = Ok (Some (f (nth j p 0)))) /\
    pli_run Greater detection (e_points G e n) (signals x (e_points G e n)) (map dist_pdf margs) j f = Ok cell /\ v = c_index cell.

Lemma in_combine_signals x (points : list (list R)) p y : In (p, y) (combine points (signals x points)) <-> In p points /\ y = metamodel (x :: p).
Proof.
  unfold PliEndModel.signals. induction points as [|q l IH]; cbn; [tauto|]. rewrite IH. split.
  - intros [[= -> ->]|[H1 H2]]; auto.
  - intros [[->|H1] ->]; auto.
Qed.
Lemma rows_kept dim d v : pli_deltas dim (matrix d) = Ok v -> length v = length d.
Proof.
  unfold pli_deltas, matrix. destruct d as [|r d]; [discriminate|]. cbn [vstack bind]. destruct (_ && _); [discriminate|].
  destruct (Nat.eqb _ 1); intros E; apply (f_equal (fun q => match q with Ok l => length l | Raise _ => O end)) in E; cbn beta iota in E;
    rewrite <- E; [now rewrite map_length|reflexivity].
Qed.
Lemma rows_kept_kind kd margs d v : kind_deltas kd margs (matrix d) = Ok v -> length v = length d.
Proof.
  unfold kind_deltas. destruct kd as [|b|b].
  - apply rows_kept.
  - unfold mean_deltas. destruct (pli_deltas (length margs) (matrix d)) as [w|] eqn:E; [|discriminate]. cbn [bind]. apply rows_kept in E.
    intros [= <-]. destruct b; now rewrite ?map_length.
  - unfold variance_deltas. destruct (pli_deltas (length margs) (matrix d)) as [w|] eqn:E; [|discriminate]. cbn [bind]. apply rows_kept in E.
    destruct (_ && _); [discriminate|]. intros [= <-]. destruct b; now rewrite ?map_length.
Qed.
Lemma nth_entry {A} (t : list (list A)) i j v d : entry t i j = Some v -> nth j (nth i t []) d = v.
Proof.
  unfold entry. destruct (nth_error t i) as [r|] eqn:E; [|discriminate]. intros H. rewrite (nth_error_nth _ _ _ E). now apply nth_error_nth.
Qed.

(** After a run: a size is kept when the share of the points of its simulation above the threshold is strictly between 0.001 and 0.999;
    its indices are computed from these points, the current distribution, deltas and integration algorithm; the others are NaN. *)
Theorem C101_run :
  forall e s s', shaped s -> run e s = (s', Ok tt) ->
  sizes (core s') = sizes (core s) /\
  forall k, (k < length (sizes (core s)))%nat ->
  let x := nth k (sizes (core s)) 0 in let n := (clock (core s) + k)%nat in
  (keeps x (e_points G e n) ->
     j_independent (PliObjModel.dist s) = true /\
     exists dl, kind_deltas (kind_of class) (law s) (matrix delta) = Ok dl /\
     forall i j, (i < length delta)%nat -> (j < length (law s))%nat ->
       exists v, shown s' i j k (Some v) /\ index_for e (PliObjModel.gk s) n x (law s) dl i j v) /\
  (~ keeps x (e_points G e n) -> forall i j, (i < length delta)%nat -> (j < length (law s))%nat -> shown s' i j k None).
Proof.
  intros e s s' (Hc & Hd & Hm) H. unfold PliEndModel.run, PliObjModel.run in H. cbn [calls PliObjModel.w_mc PliObjModel.w_define PliObjModel.w_solve] in H.
  destruct (PliPodModel.run _ _ _ _) as [c r] eqn:E. injection H as <- ->.
  assert (W := proj1 (C56_run_iff _ _ _ _ Hc) (ex_intro _ _ E)).
  destruct (C56_run _ _ _ _ Hc W) as (c' & E' & Hs & Hc' & _ & Ht). rewrite E in E'. injection E' as <-.
  assert (Sh : n_delta (indices c) = length delta /\ n_marginal (indices c) = length (law s)).
  { assert (X := PliObjProps.run_shaped (one G) (length (law s)) delta (estimate G metamodel detection e) (define G metamodel detection e (PliObjModel.dist s) delta class) (object_indices G class (PliObjModel.gk s)) (core s) (conj Hd Hm)).
    rewrite E in X. exact X. }
  cbn [PliObjModel.core]. split; [exact Hs|]. intros k Hk. cbn zeta. set (x := nth k (sizes (core s)) 0). set (n := (clock (core s) + k)%nat). specialize (Ht k Hk).
  assert (SH : forall i j v, (i < length delta)%nat -> (j < length (law s))%nat -> at3 (indices c) i j k = v ->
    shown {| PliObjModel.core := c; PliObjModel.dist := PliObjModel.dist s; PliObjModel.sampling := PliObjModel.sampling _ _ _ _ s; PliObjModel.gk := PliObjModel.gk s |} i j k v).
  { intros i j v Hi Hj <-. unfold shown. cbn [PliObjModel.core PliPodModel.getIndices]. destruct Sh as [S1 S2]. destruct Hc' as (_ & S3 & _).
    rewrite !py_index_nat by (rewrite ?S1, ?S2, ?S3, ?Hs; assumption). reflexivity. }
  unfold treated in Ht. assert (KS := keepable_spec e (core s) k). fold x n in KS. split.
  - intros K. apply KS in K. rewrite K in Ht. destruct Ht as (o & m & D1 & D2 & _ & D4). fold x n in D1.
    unfold define in D1. destruct (construct _ _ _ _ _) as [dl|ex] eqn:EC; [|discriminate]. cbn [bind] in D1. injection D1 as <-.
    apply C100_construct in EC. destruct EC as (_ & EI & ED). split; [exact EI|]. exists dl. split; [exact ED|]. intros i j Hi Hj.
    unfold object_indices, object_run in D2. cbn [one_margs one_deltas one_result] in D2.
    destruct (PliTableModel.run _ _ _ _ _ _) as [so [[]|ex]] eqn:ER; [|discriminate]. injection D2 as <-.
    assert (Ll := rows_kept_kind _ _ _ _ ED).
    destruct (C100_run G (kind_of class) (law s) dl (simulation G metamodel detection e n x) (fresh G (PliObjModel.gk s)) so) as [HC _]; [discriminate|cbn; unfold PliEndModel.signals; now rewrite map_length|exact ER|].
    destruct (HC j i Hj ltac:(lia)) as (f & cell & (dist & EM & Hf) & HP & _ & HI & _). exists (c_index cell). split.
    + apply SH; [assumption|assumption|]. rewrite D4. now apply nth_entry.
    + exists dist, f, cell. split; [exact EM|]. split; [|split; [exact HP|reflexivity]].
      intros p Hp Hlt. apply (Hf p (metamodel (x :: p))); [|exact Hlt]. cbn [simulation w_xs w_outs]. now apply in_combine_signals.
  - intros K. destruct (keepable _ _ _ _) eqn:EK; [exfalso; apply K; now apply KS|]. intros i j Hi Hj. now apply SH.
Qed.

(** A run that fails fails at a kept size: there the constructor refuses the distribution or the deltas, or the object fails. *)
Theorem C101_raise :
  forall e s s' ex, consistent (core s) -> run e s = (s', Raise ex) ->
  exists k, (k < length (sizes (core s)))%nat /\
  let x := nth k (sizes (core s)) 0 in let n := (clock (core s) + k)%nat in
  keeps x (e_points G e n) /\
  ((j_independent (PliObjModel.dist s) = false /\ ex = GenericException) \/
   (j_independent (PliObjModel.dist s) = true /\ kind_deltas (kind_of class) (law s) (matrix delta) = Raise ex) \/
   (j_independent (PliObjModel.dist s) = true /\ exists dl, kind_deltas (kind_of class) (law s) (matrix delta) = Ok dl /\
      snd (PliTableModel.run G (kind_of class) (law s) dl (simulation G metamodel detection e n x) (fresh G (PliObjModel.gk s))) = Raise ex)).
Proof.
  intros e s s' ex Hc H. unfold PliEndModel.run, PliObjModel.run in H. cbn [calls PliObjModel.w_mc PliObjModel.w_define PliObjModel.w_solve] in H.
  destruct (PliPodModel.run _ _ _ _) as [c r] eqn:E. injection H as _ ->.
  destruct (C56_run_raise _ _ _ _ _ _ Hc E) as (k & Hk & HK & _ & HR). exists k. split; [exact Hk|]. cbn zeta. apply keepable_spec in HK.
  split; [exact HK|]. set (x := nth k (sizes (core s)) 0) in *. set (n := (clock (core s) + k)%nat) in *.
  destruct (kept_not_empty _ _ HK) as (p & Hp & _). assert (L : length (e_points G e n) <> O) by (intros Z; apply length_zero_iff_nil in Z; rewrite Z in Hp; contradiction).
  unfold define, construct in HR. apply Nat.eqb_neq in L. rewrite L in HR. destruct (j_independent (PliObjModel.dist s)); cbn [negb] in HR.
  - right. destruct (kind_deltas _ _ _) as [dl|ex'] eqn:ED; cbn [bind] in HR.
    + right. split; [reflexivity|]. exists dl. split; [reflexivity|]. destruct HR as [HR|(o & HO & HR)]; [discriminate|]. injection HO as <-.
      unfold object_indices, object_run in HR. cbn [one_margs one_deltas one_result] in HR.
      destruct (PliTableModel.run _ _ _ _ _ _) as [so [u|ex']]; [discriminate|]. cbn. congruence.
    + left. split; [reflexivity|]. destruct HR as [HR|(o & HO & _)]; congruence.
  - left. split; [reflexivity|]. destruct HR as [HR|(o & HO & _)]; cbn [bind] in *; congruence.
Qed.
(** A kept size has at least one point above the threshold: the objects built by a run never meet an empty failure sample (C51, C100). *)
Theorem C101_no_empty_sample :
  forall (e : outside) n x, keeps x (e_points G e n) ->
  exists y, In y (w_outs G (simulation G metamodel detection e n x)) /\ strict (w_op G (simulation G metamodel detection e n x)) (w_threshold G (simulation G metamodel detection e n x)) y = true.
Proof.
  intros e n x H. destruct (kept_not_empty _ _ H) as (p & Hp & Hd). exists (metamodel (x :: p)). split.
  - cbn. unfold PliEndModel.signals. apply in_map_iff. eauto.
  - cbn. now apply Rltb_true.
Qed.

(** Success of a run from the success of the objects of the kept sizes. *)
Lemma run_succeeds (e : outside) (s : state) dl :
  consistent (core s) -> j_independent (PliObjModel.dist s) = true -> kind_deltas (kind_of class) (law s) (matrix delta) = Ok dl ->
  (forall k, (k < length (sizes (core s)))%nat -> let x := nth k (sizes (core s)) 0 in let n := (clock (core s) + k)%nat in
     keeps x (e_points G e n) -> exists so, PliTableModel.run G (kind_of class) (law s) dl (simulation G metamodel detection e n x) (fresh G (PliObjModel.gk s)) = (so, Ok tt)) ->
  exists s', run e s = (s', Ok tt).
Proof.
  intros Hc HI HD H. destruct (run e s) as [s' [[]|ex]] eqn:E; [eauto|]. exfalso.
  destruct (C101_raise e s s' ex Hc E) as (k & Hk & HK & HR). specialize (H k Hk HK). destruct H as [so H].
  destruct HR as [[HR _]|[[_ HR]|[_ (dl' & HD' & HR)]]]; [congruence|congruence|]. assert (dl' = dl) by congruence. subst dl'. rewrite H in HR. discriminate.
Qed.
Definition normal_law (margs : list marginal_dist) : Prop := forall m, In m margs -> exists mu sd, m = MNormal mu sd /\ 0 < sd.
Definition rectangular (d : list (list R)) (dim : nat) : Prop := d <> [] /\ exists c, (c = 1%nat \/ c = dim) /\ forall row, In row d -> length row = c.
Lemma normal_product (pdfs : list (R -> R)) x : (forall f v, In f pdfs -> 0 < f v) -> 0 < product_pdf pdfs x.
Proof.
  revert x. induction pdfs as [|f pdfs IH]; intros [|v x] H; cbn; try lra. apply Rmult_lt_0_compat; [apply H; now left|]. apply IH. intros; apply H. now right.
Qed.
Lemma in_replace {A} n (v : A) l f : In f (replace_nth n v l) -> f = v \/ In f l.
Proof. revert l. induction n as [|n IH]; intros [|a l] H; cbn in *; try contradiction; destruct H as [<-|H]; auto. destruct (IH _ H); auto. Qed.
Lemma code_normal_pos m s x : 0 < s -> 0 < code_normal m s x.
Proof.
  intros H. unfold code_normal. apply Rmult_lt_0_compat; [|apply exp_pos]. unfold Rdiv. rewrite Rmult_1_l. apply Rinv_0_lt_compat.
  apply Rmult_lt_0_compat; [exact H|]. apply sqrt_lt_R0. assert (P := PI_RGT_0). lra.
Qed.
Lemma accepted_deltas dim d : rectangular d dim -> exists v, pli_deltas dim (matrix d) = Ok v.
Proof.
  intros [Hn (c & Hc & Hr)]. unfold pli_deltas, matrix. destruct d as [|r d]; [contradiction|]. cbn [vstack bind]. rewrite (Hr r) by now left.
  destruct (Nat.eqb_spec c 1); cbn [negb andb]; [eauto|]. destruct Hc as [Hc|Hc]; [contradiction|]. subst c. rewrite Nat.eqb_refl. cbn. eauto.
Qed.
Lemma one_column dim d v : rectangular d dim -> pli_deltas dim (matrix d) = Ok v -> forall row, In row v -> length row = dim.
Proof.
  intros [Hn (c & Hc & Hr)] E. apply (C53_one_column_per_parameter dim (matrix d) v); [|intros ? ? X; discriminate X|exact E].
  intros c' rows [= <- <-] row Hrow. destruct d as [|r d]; [contradiction|]. rewrite (Hr r) by now left. now apply Hr.
Qed.
(** With normal parameters of positive standard deviation the analysis never fails, whatever the metamodel, the threshold, the points drawn
    and the solvers: PLIMean for all deltas of a fitting shape, PLIVariance when the variances asked for are positive. *)
Theorem C101_normal_parameters :
  forall e s, consistent (core s) -> j_independent (PliObjModel.dist s) = true -> normal_law (law s) -> rectangular delta (length (law s)) ->
  match class with
  | PLIMean _ => True
  | PLIVariance _ =>
      exists dl, kind_deltas (kind_of class) (law s) (matrix delta) = Ok dl /\
      forall i j, (i < length delta)%nat -> (j < length (law s))%nat -> 0 < nth j (nth i dl []) 0
  end -> exists s', run e s = (s', Ok tt).
Proof.
  intros e s Hc HI HN HR HV.
  assert (HD : exists dl, kind_deltas (kind_of class) (law s) (matrix delta) = Ok dl /\
    match class with PLIMean _ => True | PLIVariance _ => forall i j, (i < length delta)%nat -> (j < length (law s))%nat -> 0 < nth j (nth i dl []) 0 end).
  { destruct class as [b|b]; [|exact HV]. destruct (accepted_deltas _ _ HR) as [v Ev]. unfold kind_deltas, kind_of, mean_deltas. rewrite Ev. cbn [bind]. eauto. }
  destruct HD as (dl & HD & HP). apply (run_succeeds e s dl Hc HI HD). intros k Hk x n HK.
  apply C100_succeeds; [discriminate|cbn; unfold PliEndModel.signals; now rewrite map_length|].
  intros m d Hm Hd. rewrite (rows_kept_kind _ _ _ _ HD) in Hd.
  destruct (nth_error (law s) m) as [dist|] eqn:EM; [|apply nth_error_None in EM; lia].
  destruct (HN dist (nth_error_In _ _ EM)) as (mu & sd & -> & Hsd).
  assert (PD : forall f v, In f (map dist_pdf (law s)) -> 0 < f v).
  { intros f v Hf. apply in_map_iff in Hf. destruct Hf as (q & <- & Hq). destruct (HN q Hq) as (mu' & sd' & -> & Hsd'). cbn. unfold normal_pdf.
    apply Rmult_lt_0_compat; [apply exp_pos|]. apply Rinv_0_lt_compat. apply Rmult_lt_0_compat; [exact Hsd'|]. apply sqrt_lt_R0. assert (P := PI_RGT_0). lra. }
  assert (F : exists f, (forall v, 0 < f v) /\
    forall v, marginal_density G (kind_of class) (simulation G metamodel detection e n x) (o_gk G (fresh G (PliObjModel.gk s))) m (MNormal mu sd) (nth m (nth d dl []) 0) v = Ok (Some (f v))).
  { assert (PO : forall v, 0 < dist_pdf (MNormal mu sd) v) by (intros v; apply PD; apply in_map_iff; exists (MNormal mu sd); split; [reflexivity|now apply nth_error_In with m]).
    destruct class as [b|b]; cbn [kind_of]; unfold marginal_density.
    - unfold mean_perturbed. destruct (Reqb (nth m (nth d dl []) 0) (dist_mean (MNormal mu sd))).
      + exists (dist_pdf (MNormal mu sd)). split; [exact PO|reflexivity].
      + exists (code_normal (nth m (nth d dl []) 0) sd). split; [intros v; now apply code_normal_pos|reflexivity].
    - unfold variance_perturbed. cbn [bind]. destruct (Reqb (nth m (nth d dl []) 0) (dist_variance (MNormal mu sd))).
      + exists (dist_pdf (MNormal mu sd)). split; [exact PO|reflexivity].
      + exists (code_normal mu (sqrt (nth m (nth d dl []) 0))). split; [|reflexivity]. intros v. apply code_normal_pos. apply sqrt_lt_R0. now apply HP. }
  destruct F as (f & F1 & F2).
  destruct (C52_interval_exists Greater detection (e_points G e n) (signals x (e_points G e n)) (map dist_pdf (law s)) m f) as (cell & HC & _).
  - discriminate.
  - unfold PliEndModel.signals. now rewrite map_length.
  - exact (C101_no_empty_sample e n x HK).
  - intros p _. split; [now apply normal_product|]. unfold perturbedPDF. apply normal_product. intros h v Hh. apply in_replace in Hh. destruct Hh as [->|Hh]; [apply F1|now apply PD].
  - exists f, cell. split; [|exact HC]. exists (MNormal mu sd). split; [exact EM|]. intros; apply F2.
Qed.

(** Deltas of 0 with the default scaling leave the distribution alone: the analysis succeeds, whatever the solvers would have done, and the
    indices of all the kept sizes are 0, for every law of the parameters with a density at the points drawn. *)
Theorem C101_zero_deltas :
  forall e s, shaped s -> j_independent (PliObjModel.dist s) = true -> rectangular delta (length (law s)) ->
  scaled class = true -> (forall row z, In row delta -> In z row -> z = 0) -> (forall m, In m (law s) -> 0 <= dist_variance m) ->
  (forall n p, In p (e_points G e n) -> length p = length (law s) /\ product_pdf (map dist_pdf (law s)) p <> 0) ->
  exists s', run e s = (s', Ok tt) /\
  forall k i j, (k < length (sizes (core s)))%nat -> (i < length delta)%nat -> (j < length (law s))%nat ->
    keeps (nth k (sizes (core s)) 0) (e_points G e (clock (core s) + k)) -> shown s' i j k (Some 0).
Proof.
  intros e s HS HI HR Hsc HZ HV HP. destruct (accepted_deltas _ _ HR) as [v Ev].
  assert (Lv := rows_kept _ _ _ Ev). assert (Cv := one_column _ _ _ HR Ev).
  assert (Zv : forall i j, (i < length delta)%nat -> (j < length (law s))%nat -> PliTableProps.entry v i j = Some 0).
  { intros i j Hi Hj. unfold PliTableProps.entry. destruct (nth_error v i) as [row|] eqn:E; [|apply nth_error_None in E; lia].
    assert (Lr := Cv row (nth_error_In _ _ E)). destruct (nth_error row j) as [z|] eqn:Ez; [|apply nth_error_None in Ez; lia]. f_equal.
    assert (X : In row v) by now apply nth_error_In with i. apply nth_error_In in Ez. unfold pli_deltas, matrix in Ev. destruct delta as [|r d] eqn:Ed; [discriminate|].
    cbn [vstack bind] in Ev. destruct (_ && _); [discriminate|]. destruct (Nat.eqb _ 1).
    - assert (EV : v = map (fun row => repeat (nth 0 row 0) (length (law s))) (r :: d)) by congruence. rewrite EV in X. apply in_map_iff in X. destruct X as (r0 & <- & Hr0).
      apply repeat_spec in Ez. subst z. destruct r0 as [|a r0]; [reflexivity|]. apply (HZ (a :: r0)); [exact Hr0|now left].
    - assert (EV : v = r :: d) by congruence. rewrite EV in X. now apply (HZ row). }
  assert (HD : exists dl, kind_deltas (kind_of class) (law s) (matrix delta) = Ok dl /\ forall i j dist, nth_error (law s) j = Some dist -> (i < length delta)%nat ->
     nth j (nth i dl []) 0 = match kind_of class with Variance _ => dist_variance dist | _ => dist_mean dist end).
  { assert (K : exists dl, kind_deltas (kind_of class) (law s) (matrix delta) = Ok dl).
    { destruct class as [b|b]; unfold kind_deltas, kind_of, mean_deltas, variance_deltas; rewrite Ev; cbn [bind]; [eauto|]. rewrite Hsc. cbn [negb]. rewrite andb_false_r. eauto. }
    destruct K as [dl K]. exists dl. split; [exact K|]. intros i j dist Ej Hi. assert (Hj : (j < length (law s))%nat) by (apply nth_error_Some; congruence).
    assert (KC : construct (kind_of class) 1 true (law s) (matrix delta) = Ok dl) by exact K. destruct (C100_deltas _ _ _ _ _ _ KC) as (v' & Ev' & HW).
    assert (v' = v) by congruence. subst v'. assert (Z := Zv i j Hi Hj). apply nth_entry.
    unfold kind_of in *. destruct class as [b|b]; rewrite Hsc in *; rewrite (HW i j 0 dist Z Ej); f_equal; [ring|].
    rewrite <- (sqrt_sqrt (dist_variance dist)) at 2 by (apply HV; now apply nth_error_In with j). ring. }
  destruct HD as (dl & HD & HM). assert (Ld := rows_kept_kind _ _ _ _ HD).
  assert (U : forall k, (k < length (sizes (core s)))%nat -> let x := nth k (sizes (core s)) 0 in let n := (clock (core s) + k)%nat in
    keeps x (e_points G e n) -> exists so, PliTableModel.run G (kind_of class) (law s) dl (simulation G metamodel detection e n x) (fresh G (PliObjModel.gk s)) = (so, Ok tt) /\
    forall m d, (m < length (law s))%nat -> (d < length dl)%nat -> PliTableProps.entry (PliTableModel.getIndices G (law s) dl so) d m = Some (Some 0)).
  { intros k Hk x n HK. destruct (C100_unperturbed G (kind_of class) (law s) dl (simulation G metamodel detection e n x) (fresh G (PliObjModel.gk s))) as (so & H1 & H2).
    - destruct class; discriminate.
    - now right.
    - cbn. unfold PliEndModel.signals. now rewrite map_length.
    - intros p Hp. apply (HP n p Hp).
    - assert (Q := estimate_share e n x). unfold estimate in Q. cbn [simulation w_op w_threshold w_outs]. rewrite Q. unfold keeps in HK. lra.
    - intros m d dist Em Hd. apply HM; [exact Em|lia].
    - exists so. split; [exact H1|]. intros m d Hm Hd. now apply H2. }
  destruct (run_succeeds e s dl (proj1 HS) HI HD) as [s' HR'].
  { intros k Hk x n HK. destruct (U k Hk HK) as (so & H1 & _). eauto. }
  exists s'. split; [exact HR'|]. intros k i j Hk Hi Hj HK. destruct (C101_run e s s' HS HR') as [_ HC]. destruct (HC k Hk) as [HC1 _].
  destruct (HC1 HK) as (_ & dl' & HD' & HX). assert (dl' = dl) by congruence. subst dl'. destruct (HX i j Hi Hj) as (w & Hw & (dist & f & cell & Em & Hf & HPl & ->)).
  enough (c_index cell = 0) as <- by exact Hw.
  assert (PF := estimate_share e (clock (core s) + k) (nth k (sizes (core s)) 0)). unfold estimate in PF.
  assert (Q := C51_no_perturbation Greater detection (e_points G e (clock (core s) + k)) (signals (nth k (sizes (core s)) 0) (e_points G e (clock (core s) + k))) (map dist_pdf (law s)) j (dist_pdf dist)).
  assert (QQ : pli_run Greater detection (e_points G e (clock (core s) + k)) (signals (nth k (sizes (core s)) 0) (e_points G e (clock (core s) + k))) (map dist_pdf (law s)) j f
             = pli_run Greater detection (e_points G e (clock (core s) + k)) (signals (nth k (sizes (core s)) 0) (e_points G e (clock (core s) + k))) (map dist_pdf (law s)) j (dist_pdf dist)).
  { unfold pli_run. rewrite !failureSample_ok by (try discriminate; unfold PliEndModel.signals; now rewrite map_length). cbn [bind]. destruct (Nat.eqb _ 0); [reflexivity|].
    f_equal. apply map_ext_in. intros p Hp. apply mask_in in Hp. destruct Hp as (y & Hxy & Hy). apply in_combine_signals in Hxy. destruct Hxy as [Hp ->].
    unfold likelihood_ratio, perturbedPDF. rewrite (product_replace_at (map dist_pdf (law s)) j f (dist_pdf dist) p); [reflexivity|].
    apply Rltb_true in Hy. specialize (Hf p Hp Hy). rewrite (HM i j dist Em Hi) in Hf.
    unfold marginal_density in Hf. destruct class as [b|b]; cbn [kind_of] in Hf.
    - unfold mean_perturbed in Hf. rewrite Reqb_refl in Hf. congruence.
    - unfold variance_perturbed in Hf. rewrite Reqb_refl in Hf. destruct dist; cbn [bind] in Hf; congruence. }
  rewrite QQ, Q in HPl.
  - injection HPl as <-. reflexivity.
  - now right.
  - unfold PliEndModel.signals. now rewrite map_length.
  - intros p Hp. apply (HP _ p Hp).
  - intros p h z _ Eh _. rewrite nth_error_map, Em in Eh. cbn in Eh. congruence.
  - rewrite PF. unfold keeps in HK. lra.
Qed.

(** Finding: the constructor and setDistribution accept dependent parameters; run refuses them, but only once a size is kept. *)
Theorem C101_dependent_parameters :
  forall e s, consistent (core s) -> j_independent (PliObjModel.dist s) = false ->
  ((exists k, (k < length (sizes (core s)))%nat /\ keeps (nth k (sizes (core s)) 0) (e_points G e (clock (core s) + k))) -> snd (run e s) = Raise GenericException) /\
  ((forall k, (k < length (sizes (core s)))%nat -> ~ keeps (nth k (sizes (core s)) 0) (e_points G e (clock (core s) + k))) -> snd (run e s) = Ok tt).
Proof.
  intros e s Hc HI. split.
  - intros (k & Hk & HK). destruct (run e s) as [s' [[]|ex]] eqn:E.
    + exfalso. unfold PliEndModel.run, PliObjModel.run in E. cbn [calls PliObjModel.w_mc PliObjModel.w_define PliObjModel.w_solve] in E.
      destruct (PliPodModel.run _ _ _ _) as [c r] eqn:EP. injection E as _ ->. assert (W := proj1 (C56_run_iff _ _ _ _ Hc) (ex_intro _ _ EP)).
      specialize (W k Hk). apply keepable_spec in HK. destruct (W HK) as (o & m & D & _). unfold define, construct in D. rewrite HI in D.
      destruct (Nat.eqb _ 0); discriminate.
    + destruct (C101_raise e s s' ex Hc E) as (k' & _ & _ & [[_ ->]|[[X _]|[X _]]]); [reflexivity|congruence|congruence].
  - intros HK. destruct (run e s) as [s' [[]|ex]] eqn:E; [reflexivity|].
    destruct (C101_raise e s s' ex Hc E) as (k' & Hk' & HK' & _). exfalso. exact (HK k' Hk' HK').
Qed.
End Spec.

(** *** A case: two normal parameters, two defect sizes, of which the second is always detected *)
Definition case_law : joint := {| j_joint := true; j_independent := true; j_margs := [MNormal 0 1; MNormal 1 2] |}.
Definition case_outside : outside unit := {| e_points := fun _ => [[0; 0]; [0; 1]]; e_root := fun _ => 0; e_optimum := fun _ _ _ _ => Raise OSError |}.
Definition case_metamodel (p : list R) : R := Rsum p.
Definition case_state : PliObjModel.state joint unit unit (one unit) := PliObjModel.init joint unit unit (one unit) 2 [[0]; [0]] [1; 2] case_law tt tt.
Lemma case_keeps : keeps case_metamodel (3 / 2) 1 [[0; 0]; [0; 1]] /\ ~ keeps case_metamodel (3 / 2) 2 [[0; 0]; [0; 1]].
Proof.
  unfold keeps, share, detected, case_metamodel. cbn [filter Rsum length fold_right].
  split.
  - destruct (Rltb_spec (3 / 2) (1 + (0 + (0 + 0)))); [lra|]. destruct (Rltb_spec (3 / 2) (1 + (0 + (1 + 0)))); [|lra]. cbn. lra.
  - destruct (Rltb_spec (3 / 2) (2 + (0 + (0 + 0)))); [|lra]. destruct (Rltb_spec (3 / 2) (2 + (0 + (1 + 0)))); [|lra]. cbn. lra.
Qed.
Example C101_example :
  shaped unit unit [[0]; [0]] case_state /\ normal_law (j_margs case_law) /\ rectangular [[0]; [0]] 2 /\
  exists s', PliEndModel.run unit unit case_metamodel (3 / 2) [[0]; [0]] (PLIMean None) case_outside case_state = (s', Ok tt) /\
    shown unit unit s' 1 1 0 (Some 0) /\ shown unit unit s' 1 1 1 None.
Proof.
  assert (S : shaped unit unit [[0]; [0]] case_state) by (split; [repeat split|split; reflexivity]).
  assert (NL : normal_law (j_margs case_law)) by (intros m [<-|[<-|[]]]; [exists 0, 1|exists 1, 2]; (split; [reflexivity|lra])).
  assert (RC : rectangular [[0]; [0]] 2) by (split; [discriminate|exists 1%nat; split; [now left|intros row [<-|[<-|[]]]; reflexivity]]).
  split; [exact S|]. split; [exact NL|]. split; [exact RC|].
  destruct case_keeps as [K1 K2].
  destruct (C101_zero_deltas unit unit case_metamodel (3 / 2) [[0]; [0]] (PLIMean None) case_outside case_state S eq_refl RC eq_refl) as (s' & HR & HZ).
  - intros row z [<-|[<-|[]]] [<-|[]]; reflexivity.
  - intros m [<-|[<-|[]]]; cbn; lra.
  - intros n p Hp. assert (L : length p = 2%nat) by (destruct Hp as [<-|[<-|[]]]; reflexivity). split; [exact L|].
    apply Rgt_not_eq. apply normal_product. intros f v Hf. apply in_map_iff in Hf. destruct Hf as (q & <- & Hq). destruct (NL q Hq) as (mu & sd & -> & Hsd). cbn.
    unfold normal_pdf. apply Rmult_lt_0_compat; [apply exp_pos|]. apply Rinv_0_lt_compat. apply Rmult_lt_0_compat; [exact Hsd|]. apply sqrt_lt_R0. assert (P := PI_RGT_0). lra.
  - exists s'. split; [exact HR|]. split; [apply (HZ 0%nat 1%nat 1%nat); cbn; try lia; exact K1|].
    destruct (C101_run unit unit case_metamodel (3 / 2) [[0]; [0]] (PLIMean None) case_outside case_state s' S HR) as [_ HC].
    destruct (HC 1%nat ltac:(cbn; lia)) as [_ HN]. apply HN; [exact K2|cbn; lia|cbn; lia].
Qed.
(** Positive variances asked for. *)
Example C101_example_variance :
  exists dl, kind_deltas (kind_of (PLIVariance (Some false))) [MNormal 0 1; MNormal 1 2] (matrix [[2]; [3]]) = Ok dl /\
  forall i j, (i < 2)%nat -> (j < 2)%nat -> 0 < nth j (nth i dl []) 0.
Proof.
  exists [[2; 2]; [3; 3]]. split.
  - unfold kind_deltas, kind_of, variance_deltas, scaled. change (pli_deltas (length [MNormal 0 1; MNormal 1 2]) (matrix [[2]; [3]])) with (Ok [[2; 2]; [3; 3]]). cbn [bind forallb].
    destruct (Rltb_spec 0 2); [|lra]. destruct (Rltb_spec 0 3); [|lra]. reflexivity.
  - intros [|[|i]] [|[|j]] Hi Hj; try lia; cbn; lra.
Qed.
(** Dependent parameters, with a size that is kept. *)
Example C101_example_dependent :
  let s := PliObjModel.init joint unit unit (one unit) 2 [[0]] [1] {| j_joint := true; j_independent := false; j_margs := [MNormal 0 1; MNormal 1 2] |} tt tt in
  snd (PliEndModel.run unit unit case_metamodel (3 / 2) [[0]] (PLIMean None) case_outside s) = Raise GenericException.
Proof.
  intros s. apply (C101_dependent_parameters unit unit case_metamodel (3 / 2) [[0]] (PLIMean None) case_outside s); [repeat split|reflexivity|].
  exists 0%nat. split; [cbn; lia|exact (proj1 case_keeps)].
Qed.
Print Assumptions C101_run.
Print Assumptions C101_raise.
Print Assumptions C101_no_empty_sample.
Print Assumptions C101_normal_parameters.
Print Assumptions C101_zero_deltas.
Print Assumptions C101_dependent_parameters.
