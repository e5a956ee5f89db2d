(** C34 (chaos part) and C71 (chaos part): what the calls made on a PolynomialChaosPOD leave in the object. *)
From Verif Require Import Base KrigAttrModel ChaosAttrModel.

Section Spec.
Variables CR D A P M E PM CD CF Sz : Type.
Variable default_dist : Sz -> D.
Variable fixed : D -> Z -> res A.
Variable default_projection : P.
Variable describe : D -> res unit.
Variable predict : CR -> res M.
Variable input_dim : CR -> nat.
Variable strip : D -> nat -> res D.
Local Arguments w_fit {CR D A P M E PM CD CF Sz}.
Local Arguments w_resid {CR D A P M E PM CD CF Sz}.
Local Arguments w_quality {CR D A P M E PM CD CF Sz}.
Local Arguments w_pod {CR D A P M E PM CD CF Sz}.
Local Arguments w_coefs {CR D A P M E PM CD CF Sz}.
Local Arguments w_conf {CR D A P M E PM CD CF Sz}.
Local Arguments user {CR D A P M E PM CD CF Sz}.
Local Arguments cresult {CR D A P M E PM CD CF Sz}.
Local Arguments dist {CR D A P M E PM CD CF Sz}.
Local Arguments adaptive {CR D A P M E PM CD CF Sz}.
Local Arguments projection {CR D A P M E PM CD CF Sz}.
Local Arguments degree {CR D A P M E PM CD CF Sz}.
Local Arguments sizes {CR D A P M E PM CD CF Sz}.
Local Arguments podmodel {CR D A P M E PM CD CF Sz}.
Local Arguments coefs {CR D A P M E PM CD CF Sz}.
Local Arguments Run {CR D A P M E PM CD CF Sz}.
Local Arguments SetResult {CR D A P M E PM CD CF Sz}.
Local Arguments SetDist {CR D A P M E PM CD CF Sz}.
Local Arguments SetAdaptive {CR D A P M E PM CD CF Sz}.
Local Arguments SetProjection {CR D A P M E PM CD CF Sz}.
Local Arguments SetDegree {CR D A P M E PM CD CF Sz}.
Local Arguments SetSizes {CR D A P M E PM CD CF Sz}.
Local Arguments getPolynomialChaosResult {CR D A P M E PM CD CF Sz}.
Local Arguments getDistribution {CR D A P M E PM CD CF Sz}.
Local Arguments getAdaptiveStrategy {CR D A P M E PM CD CF Sz}.
Local Arguments getProjectionStrategy {CR D A P M E PM CD CF Sz}.
Local Arguments getDegree {CR D A P M E PM CD CF Sz}.
Local Arguments getPODModel {CR D A P M E PM CD CF Sz}.
Local Arguments getCoefficientDistribution {CR D A P M E PM CD CF Sz}.
Local Arguments newPODaggr {CR D A P M E PM CD CF Sz}.
Notation op := (op CR D A P M E PM CD CF Sz).
Notation world := (world CR D A P M E PM CD CF Sz).
Notation state := (state CR D A P M E PM CD CF Sz).
Notation run := (run CR D A P M E PM CD CF Sz default_dist fixed default_projection describe predict).
Notation run_rest := (run_rest CR D A P M E PM CD CF Sz predict).
Notation after := (after CR D A P M E PM CD CF Sz default_dist fixed default_projection describe predict).
Notation step := (step CR D A P M E PM CD CF Sz default_dist fixed default_projection describe predict).
Notation newAnalysis := (newAnalysis CR D A P M E PM CD CF Sz input_dim strip).

(** *** Reading the object off the calls made so far, newest first *)
Section Reading.
Variable z0 : Sz.
Definition some {X} (x : option X) (d : X) : X := match x with Some a => a | None => d end.
(** The defect sizes and the degree in force. *)
Fixpoint sizes_of (past : list op) : Sz :=
  match past with [] => z0 | SetSizes z _ :: _ => z | _ :: past' => sizes_of past' end.
Fixpoint degree_of (past : list op) : Z :=
  match past with [] => 3%Z | SetDegree n :: _ => n | _ :: past' => degree_of past' end.
(** The user has given a chaos result. *)
Fixpoint supplied (past : list op) : bool :=
  match past with [] => false | SetResult (Accepted _) :: _ => true | _ :: past' => supplied past' end.
(** The distribution: the last given one; else the default one for the defect sizes of the first run without a given result. *)
Fixpoint dist_in (past : list op) : option D :=
  match past with
  | [] => None
  | SetDist (Accepted d) :: _ => Some d
  | Run _ :: past' => match dist_in past' with Some d => Some d | None => if supplied past' then None else Some (default_dist (sizes_of past')) end
  | _ :: past' => dist_in past'
  end.
Definition law (past : list op) : D := some (dist_in past) (default_dist (sizes_of past)).
(** The adaptive strategy: the last given one; else the one of the law and of the degree at the first run without a given result. *)
Fixpoint adaptive_in (past : list op) : option A :=
  match past with
  | [] => None
  | SetAdaptive (Accepted a) :: _ => Some a
  | Run _ :: past' =>
      match adaptive_in past' with
      | Some a => Some a
      | None => if supplied past' then None
                else match (do _ <- describe (law past'); fixed (law past') (degree_of past')) with Ok a => Some a | Raise _ => None end
      end
  | _ :: past' => adaptive_in past'
  end.
Definition strategy (past : list op) : res A := match adaptive_in past with Some a => Ok a | None => fixed (law past) (degree_of past) end.
Fixpoint projection_in (past : list op) : option P :=
  match past with
  | [] => None
  | SetProjection (Accepted p) :: _ => Some p
  | Run _ :: past' =>
      match projection_in past' with
      | Some p => Some p
      | None => if supplied past' then None
                else match (do _ <- describe (law past'); strategy past') with Ok _ => Some default_projection | Raise _ => None end
      end
  | _ :: past' => projection_in past'
  end.
(** The chaos that run fits. *)
Definition fitted (w : world) (past : list op) : res CR :=
  do _ <- describe (law past); do a <- strategy past; w_fit w (law past) a (some (projection_in past) default_projection).
(** The last chaos result, fitted or given. *)
Fixpoint result_in (past : list op) : option CR :=
  match past with
  | [] => None
  | SetResult (Accepted r) :: _ => Some r
  | Run w :: past' => if supplied past' then result_in past' else match fitted w past' with Ok r => Some r | Raise _ => result_in past' end
  | _ :: past' => result_in past'
  end.
(** The chaos and the law run works with: the given result when there is one, and then only a law that is already there. *)
Definition chaos_for (w : world) (past : list op) : res CR := if supplied past then object (result_in past) else fitted w past.
Definition law_for (past : list op) : res D := if supplied past then object (dist_in past) else Ok (law past).
(** The POD function of a run, then the law of the coefficients. *)
Definition pod_of (w : world) (past : list op) : res PM :=
  do r <- chaos_for w past; do m <- predict r; do v <- w_resid w m; do _ <- w_quality w m v; do d <- law_for past;
  w_pod w (sizes_of past) m v d.
Definition coefs_of (w : world) (past : list op) : res CD :=
  do _ <- pod_of w past; do r <- chaos_for w past; do m <- predict r; do v <- w_resid w m; w_coefs w m v.
Definition all_of (w : world) (past : list op) : res CF :=
  do c <- coefs_of w past; do r <- chaos_for w past; do m <- predict r; do v <- w_resid w m; do d <- law_for past;
  w_conf w c (sizes_of past) m v d.

Definition none_or {X} (x : option X) : attr X := match x with Some a => Val a | None => PyNone end.
Lemma or_default_none {X} (x : option X) d : or_default (none_or x) d = some x d. Proof. now destruct x. Qed.
Lemma read_none {X} (x : option X) : read (none_or x) = Ok x. Proof. now destruct x. Qed.

(** The part of run after the chaos result. *)
Lemma run_rest_spec w (s s' : state) r :
  run_rest w s = (s', r) ->
  user s' = user s /\ cresult s' = cresult s /\ dist s' = dist s /\ adaptive s' = adaptive s /\ projection s' = projection s /\
  degree s' = degree s /\ sizes s' = sizes s.
Proof.
  unfold ChaosAttrModel.run_rest.
  destruct (do r <- read (cresult s); do r <- object r; predict r) as [m|e]; [|intros [= <- <-]; repeat split].
  cbv zeta. destruct (w_resid w m) as [v|e]; [|intros [= <- <-]; repeat split].
  match goal with |- match ?x with _ => _ end = _ -> _ => destruct x as [[d p]|e] end; [|intros [= <- <-]; repeat split].
  destruct (w_coefs w m v) as [c|e]; [|intros [= <- <-]; repeat split].
  match goal with |- match ?x with _ => _ end = _ -> _ => destruct x as [f|e] end; intros [= <- <-]; repeat split.
Qed.
Lemma run_state w (s : state) :
  user s = true -> fst (run w s) = fst (run_rest w s).
Proof. intros H. unfold ChaosAttrModel.run. now rewrite H. Qed.

Lemma after_chaos past :
  let s := after z0 past in
  user s = supplied past /\ cresult s = none_or (result_in past) /\ dist s = none_or (dist_in past) /\ adaptive s = none_or (adaptive_in past) /\
  projection s = none_or (projection_in past) /\ degree s = degree_of past /\ sizes s = sizes_of past.
Proof.
  induction past as [|o past IH]; cbn [ChaosAttrModel.after]; [repeat split|].
  cbv zeta in IH |- *. revert IH. generalize (after z0 past). intros s (Hu & Hr & Hd & Ha & Hp & Hg & Hs).
  destruct o as [w|[r| |e]|[d| |e]|[a| |e]|[p| |e]|n|z b|]; cbn [step]; try (cbn; repeat split; assumption).
  cbn [supplied result_in dist_in adaptive_in projection_in degree_of sizes_of].
  unfold ChaosAttrModel.run. rewrite Hu. destruct (supplied past) eqn:Es.
  - destruct (run_rest w s) as [s' r] eqn:Er. cbn [fst]. destruct (run_rest_spec _ _ _ _ Er) as (-> & -> & -> & -> & -> & -> & ->). cbn [fst].
    rewrite Hu, Hr, Hd, Ha, Hp, Hg, Hs. repeat split; destruct (dist_in past), (adaptive_in past), (projection_in past); reflexivity.
  - unfold buildChaosAlgo. cbv zeta.
    cbn [set_dist ChaosAttrModel.adaptive ChaosAttrModel.degree ChaosAttrModel.projection]. rewrite Hd, Hs, or_default_none, Ha, Hg, Hp, or_default_none.
    fold (law past). unfold fitted.
    assert (Dl : (match dist_in past with Some d => Some d | None => Some (default_dist (sizes_of past)) end) = Some (law past)) by (unfold law; now destruct (dist_in past)).
    rewrite Dl.
    assert (St : match none_or (adaptive_in past) with Val a => Ok a | _ => fixed (law past) (degree_of past) end = strategy past) by (unfold strategy; now destruct (adaptive_in past)).
    rewrite St.
    destruct (describe (law past)) as [u|e] eqn:Ed; cbn [bind].
    2:{ cbn. rewrite ?Hu, ?Hr, ?Hd, ?Ha, ?Hp, ?Hg, ?Hs. repeat split; destruct (adaptive_in past), (projection_in past); reflexivity. }
    destruct (strategy past) as [a|e] eqn:Ea; cbn [bind].
    2:{ assert (Ea' := Ea). unfold strategy in Ea'. destruct (adaptive_in past) eqn:Eb; [discriminate|]. rewrite Ea'.
        cbn. rewrite ?Hu, ?Hr, ?Hd, ?Ha, ?Hp, ?Hg, ?Hs, ?Eb. repeat split; destruct (projection_in past); reflexivity. }
    assert (Eb : (match adaptive_in past with Some a => Some a | None => match fixed (law past) (degree_of past) with Ok a => Some a | Raise _ => None end end) = Some a).
    { unfold strategy in Ea. destruct (adaptive_in past); [congruence|]. now rewrite Ea. }
    rewrite Eb.
    destruct (w_fit w (law past) a (some (projection_in past) default_projection)) as [r|e] eqn:Ew.
    + match goal with |- context [run_rest w ?x] => destruct (run_rest w x) as [s' o] eqn:Er end.
      cbn [fst]. destruct (run_rest_spec _ _ _ _ Er) as (-> & -> & -> & -> & -> & -> & ->). cbn. rewrite ?Hu, ?Hr, ?Hd, ?Ha, ?Hp, ?Hg, ?Hs.
      repeat split. destruct (projection_in past); reflexivity.
    + cbn. rewrite ?Hu, ?Hr, ?Hd, ?Ha, ?Hp, ?Hg, ?Hs. repeat split. destruct (projection_in past); reflexivity.
Qed.

(** run seen from the specification. *)
Lemma run_rest_value w (s : state) r m v :
  cresult s = Val r -> predict r = Ok m -> w_resid w m = Ok v ->
  let pod := (do _ <- w_quality w m v; do d <- read (dist s); do d <- object d; w_pod w (sizes s) m v d) in
  let coe := (do _ <- pod; w_coefs w m v) in
  let all := (do c <- coe; do d <- read (dist s); do d <- object d; w_conf w c (sizes s) m v d) in
  snd (run_rest w s) = (do _ <- all; Ok tt) /\
  getPODModel (fst (run_rest w s)) = match pod with Ok p => Ok (Some p) | Raise _ => getPODModel s end /\
  getCoefficientDistribution (fst (run_rest w s)) = match coe with Ok c => Ok (Some c) | Raise _ => getCoefficientDistribution s end.
Proof.
  intros Hr Hm Hv. unfold ChaosAttrModel.run_rest. rewrite Hr. cbn [read object bind]. rewrite Hm. cbv zeta. rewrite Hv.
  cbn [set_resid set_pred ChaosAttrModel.dist ChaosAttrModel.sizes].
  destruct (w_quality w m v) as [u|e]; cbn [bind]; [|repeat split].
  destruct (read (dist s)) as [od|e]; cbn [bind]; [|repeat split]. destruct (object od) as [d|e]; cbn [bind]; [|repeat split].
  destruct (w_pod w (sizes s) m v d) as [p|e]; cbn [bind]; [|repeat split].
  destruct (w_coefs w m v) as [c|e]; cbn [bind]; [|repeat split].
  cbn [set_coefs set_podmodel set_resid set_pred ChaosAttrModel.sizes]. destruct (w_conf w c (sizes s) m v d) as [f|e]; repeat split.
Qed.
Lemma run_spec past w :
  let s := after z0 past in
  snd (run w s) = (do _ <- all_of w past; Ok tt) /\
  getPODModel (fst (run w s)) = match pod_of w past with Ok p => Ok (Some p) | Raise _ => getPODModel s end /\
  getCoefficientDistribution (fst (run w s)) = match coefs_of w past with Ok c => Ok (Some c) | Raise _ => getCoefficientDistribution s end.
Proof.
  intros s. destruct (after_chaos past) as (Hu & Hr & Hd & Ha & Hp & Hg & Hs). subst s.
  revert Hu Hr Hd Ha Hp Hg Hs. generalize (after z0 past). intros s Hu Hr Hd Ha Hp Hg Hs.
  assert (G : forall (s' : state) r, cresult s' = Val r -> chaos_for w past = Ok r -> read (dist s') = Ok (match law_for past with Ok d => Some d | Raise _ => None end) ->
     (forall e, law_for past = Raise e -> e = AttributeError) -> sizes s' = sizes_of past ->
     getPODModel s' = getPODModel s -> getCoefficientDistribution s' = getCoefficientDistribution s ->
     snd (run_rest w s') = (do _ <- all_of w past; Ok tt) /\
     getPODModel (fst (run_rest w s')) = match pod_of w past with Ok p => Ok (Some p) | Raise _ => getPODModel s end /\
     getCoefficientDistribution (fst (run_rest w s')) = match coefs_of w past with Ok c => Ok (Some c) | Raise _ => getCoefficientDistribution s end).
  { intros s' r E1 E2 E3 E4 E5 E6 E7. unfold all_of, coefs_of, pod_of. rewrite E2. cbn [bind].
    destruct (predict r) as [m|e] eqn:Em; cbn [bind].
    2:{ unfold ChaosAttrModel.run_rest. rewrite E1. cbn [read object bind]. rewrite Em. repeat split; assumption. }
    destruct (w_resid w m) as [v|e] eqn:Ev; cbn [bind].
    2:{ unfold ChaosAttrModel.run_rest. rewrite E1. cbn [read object bind]. rewrite Em. cbv zeta. rewrite Ev. repeat split; assumption. }
    destruct (run_rest_value w s' r m v E1 Em Ev) as (F1 & F2 & F3). rewrite F1, F2, F3, E5, E6, E7.
    rewrite E3. cbn [bind].
    destruct (law_for past) as [d|e] eqn:El.
    - cbn [object bind]. destruct (w_quality w m v); cbn [bind]; [|repeat split]. destruct (w_pod w (sizes_of past) m v d); cbn [bind]; [|repeat split].
      destruct (w_coefs w m v); cbn [bind]; repeat split.
    - rewrite (E4 e eq_refl). cbn [object bind]. destruct (w_quality w m v); repeat split. }
  unfold ChaosAttrModel.run. rewrite Hu. destruct (supplied past) eqn:Es.
  - assert (Hx : exists r, result_in past = Some r).
    { clear - Es. induction past as [|o past IH]; [discriminate|]. cbn [supplied] in Es.
      destruct o as [w|[r| |e]|[d| |e]|[a| |e]|[p| |e]|n|z b|]; cbn [result_in]; try (now apply IH); [|now exists r]. rewrite Es. now apply IH. }
    destruct Hx as [r Hx]. apply (G s r); try reflexivity; try assumption.
    + now rewrite Hr, Hx.
    + unfold chaos_for. now rewrite Es, Hx.
    + rewrite Hd, read_none. unfold law_for. rewrite Es. now destruct (dist_in past).
    + unfold law_for. rewrite Es. intros e. destruct (dist_in past); cbn; congruence.
  - unfold buildChaosAlgo. cbv zeta.
    cbn [set_dist ChaosAttrModel.adaptive ChaosAttrModel.degree ChaosAttrModel.projection]. rewrite Hd, Hs, or_default_none, Ha, Hg, Hp, or_default_none.
    fold (law past).
    assert (St : match none_or (adaptive_in past) with Val a => Ok a | _ => fixed (law past) (degree_of past) end = strategy past) by (unfold strategy; now destruct (adaptive_in past)).
    rewrite St.
    assert (Hf : forall e, fitted w past = Raise e -> all_of w past = Raise e /\ pod_of w past = Raise e /\ coefs_of w past = Raise e).
    { intros e Ef. unfold all_of, coefs_of, pod_of, chaos_for. rewrite Es, Ef. repeat split. }
    assert (Hl : law_for past = Ok (law past)) by (unfold law_for; now rewrite Es).
    assert (Hc : chaos_for w past = fitted w past) by (unfold chaos_for; now rewrite Es).
    unfold fitted in Hf, Hc.
    destruct (describe (law past)) as [u|e]; cbn [bind] in Hf, Hc.
    2:{ destruct (Hf e eq_refl) as (-> & -> & ->). repeat split. }
    destruct (strategy past) as [a|e]; cbn [bind] in Hf, Hc.
    2:{ destruct (Hf e eq_refl) as (-> & -> & ->). repeat split. }
    destruct (w_fit w (law past) a (some (projection_in past) default_projection)) as [r|e].
    + apply (G _ r); try reflexivity; try exact Hc.
      * rewrite Hl. reflexivity.
      * rewrite Hl. discriminate.
      * exact Hs.
    + destruct (Hf e eq_refl) as (-> & -> & ->). repeat split.
Qed.

(** C34, chaos: what run gives in every history. With a given result it works with that result, and only if a distribution
    is already there; otherwise it fits a chaos. *)
Theorem C34_chaos_run :
  forall past w,
    let s := after z0 past in
    snd (run w s) = (do _ <- all_of w past; Ok tt) /\
    getPODModel (fst (run w s)) = match pod_of w past with Ok p => Ok (Some p) | Raise _ => getPODModel s end.
Proof. intros past w s. destruct (run_spec past w) as (H1 & H2 & _). split; assumption. Qed.

(** A given result alone is not enough: without a distribution from setDistribution or from an earlier run that fitted a
    chaos, run raises (AttributeError unless the given result fails before), and no POD appears. *)
Definition gives_law (o : op) : bool := match o with SetDist (Accepted _) => true | Run _ => true | _ => false end.
Theorem C34_chaos_given_result_alone_fails :
  forall past r w,
    existsb gives_law past = false ->
    let s := after z0 (SetResult (Accepted r) :: past) in
    getPODModel (fst (run w s)) = Raise AttributeError /\
    snd (run w s) = (do m <- predict r; do v <- w_resid w m; do _ <- w_quality w m v; Raise AttributeError).
Proof.
  intros past r w H s. destruct (C34_chaos_run (SetResult (Accepted r) :: past) w) as (H1 & H2).
  assert (Hn : dist_in past = None).
  { clear - H. induction past as [|o past IH]; [reflexivity|]. cbn [existsb] in H. apply orb_false_elim in H as [Ho H].
    destruct o as [w|[x| |e]|[d| |e]|[a| |e]|[p| |e]|n|z b|]; try discriminate Ho; exact (IH H). }
  assert (Hp : getPODModel s = Raise AttributeError).
  { subst s. cbn [ChaosAttrModel.after step setPolynomialChaosResult fst]. clear - H.
    assert (F : forall p, existsb gives_law p = false -> podmodel (after z0 p) = Missing).
    { induction p as [|o p IH]; [reflexivity|]. intros Hp. cbn [existsb] in Hp. apply orb_false_elim in Hp as [Ho Hp]. specialize (IH Hp).
      destruct o as [w|[x| |e]|[d| |e]|[a| |e]|[q| |e]|n|z b|]; try discriminate Ho; exact IH. }
    unfold ChaosAttrModel.getPODModel. cbn [set_result ChaosAttrModel.podmodel]. now rewrite F. }
  fold s in H1, H2. rewrite H1, H2, Hp. unfold all_of, coefs_of, pod_of, chaos_for, law_for. cbn [supplied result_in dist_in]. rewrite Hn. cbn [object bind].
  destruct (predict r) as [m|e]; cbn [bind]; [|split; reflexivity]. destruct (w_resid w m) as [v|e]; cbn [bind]; [|split; reflexivity].
  destruct (w_quality w m v); split; reflexivity.
Qed.
(** With a distribution the given result is the one that is used. *)
Theorem C34_chaos_given_result_is_used :
  forall past r d w,
    let s := after z0 (SetResult (Accepted r) :: SetDist (Accepted d) :: past) in
    forall m v p, predict r = Ok m -> w_resid w m = Ok v -> w_quality w m v = Ok tt -> w_pod w (sizes_of past) m v d = Ok p ->
    getPODModel (fst (run w s)) = Ok (Some p) /\
    getPolynomialChaosResult (fst (run w s)) = Ok (Some r) /\
    snd (run w s) = (do c <- w_coefs w m v; do _ <- w_conf w c (sizes_of past) m v d; Ok tt).
Proof.
  intros past r d w s m v p Hm Hv Hq Hp. destruct (C34_chaos_run (SetResult (Accepted r) :: SetDist (Accepted d) :: past) w) as (H1 & H2).
  fold s in H1, H2. rewrite H1, H2. unfold all_of, coefs_of, pod_of, chaos_for, law_for. cbn [supplied result_in dist_in sizes_of object bind].
  rewrite Hm. cbn [bind]. rewrite Hv. cbn [bind]. rewrite Hq. cbn [bind]. rewrite Hp. cbn [bind]. split; [reflexivity|]. split.
  - change (fst (run w s)) with (after z0 (Run w :: SetResult (Accepted r) :: SetDist (Accepted d) :: past)).
    destruct (after_chaos (Run w :: SetResult (Accepted r) :: SetDist (Accepted d) :: past)) as (_ & Hr & _).
    unfold ChaosAttrModel.getPolynomialChaosResult. rewrite Hr, read_none. reflexivity.
  - destruct (w_coefs w m v) as [c|e]; cbn [bind]; [|reflexivity]. destruct (w_conf w c _ m v d); reflexivity.
Qed.
(** A result given after a run: the Sobol function puts coefficients drawn for the old chaos on the basis of the new one. *)
Theorem C34_chaos_result_given_after_run :
  forall past w r,
    snd (run w (after z0 past)) = Ok tt ->
    exists c, coefs_of w past = Ok c /\ newPODaggr (after z0 (SetResult (Accepted r) :: Run w :: past)) = Ok (c, r).
Proof.
  intros past w r H. destruct (run_spec past w) as (H1 & _ & H3). rewrite H in H1.
  destruct (coefs_of w past) as [c|e] eqn:Ec; [|unfold all_of in H1; rewrite Ec in H1; discriminate].
  exists c. split; [reflexivity|]. cbn [ChaosAttrModel.after step setPolynomialChaosResult fst].
  unfold ChaosAttrModel.newPODaggr. 
  change (getCoefficientDistribution (set_result CR D A P M E PM CD CF Sz true r (fst (run w (after z0 past))))) with (getCoefficientDistribution (fst (run w (after z0 past)))).
  rewrite H3. reflexivity.
Qed.

(** C71, chaos: the accessors in every history. *)
Theorem C71_chaos_accessors :
  forall past,
    let s := after z0 past in
    getDistribution s = Ok (dist_in past) /\ getAdaptiveStrategy s = Ok (adaptive_in past) /\ getProjectionStrategy s = Ok (projection_in past) /\
    getDegree s = degree_of past /\ getPolynomialChaosResult s = Ok (result_in past).
Proof.
  intros past s. destruct (after_chaos past) as (Hu & Hr & Hd & Ha & Hp & Hg & Hs). subst s.
  unfold ChaosAttrModel.getDistribution, ChaosAttrModel.getAdaptiveStrategy, ChaosAttrModel.getProjectionStrategy, ChaosAttrModel.getDegree, ChaosAttrModel.getPolynomialChaosResult.
  rewrite Hd, Ha, Hp, Hg, Hr, !read_none. repeat split.
Qed.
(** The exception of a refused setter. *)
Definition refusal (o : op) : option exn :=
  match o with
  | SetDist Unaccepted => Some ValueError
  | SetResult Unaccepted | SetAdaptive Unaccepted | SetProjection Unaccepted => Some GenericException
  | SetSizes _ false => Some ValueError
  | SetDist (Fails e) | SetResult (Fails e) | SetAdaptive (Fails e) | SetProjection (Fails e) => Some e
  | _ => None
  end.
Definition is_run (o : op) : bool := match o with Run _ => true | _ => false end.
Definition is_sizes (o : op) : bool := match o with SetSizes _ _ => true | _ => false end.
(** Before any run there is neither a POD model nor a distribution of the coefficients, and no aggregated POD can be built. *)
Theorem C71_chaos_before_run :
  forall past, (forall o, In o past -> is_run o = false) ->
    getPODModel (after z0 past) = Raise AttributeError /\ getCoefficientDistribution (after z0 past) = Raise AttributeError /\
    newPODaggr (after z0 past) = Raise AttributeError.
Proof.
  intros past H. assert (HE : podmodel (after z0 past) = Missing /\ coefs (after z0 past) = Missing).
  { induction past as [|o past IH]; [split; reflexivity|]. assert (Ho := H o (or_introl eq_refl)).
    destruct (IH (fun o' Ho' => H o' (or_intror Ho'))) as [I1 I2]. cbn [ChaosAttrModel.after].
    destruct o as [w|[r| |e]|[d| |e]|[a| |e]|[p| |e]|n|z [|]|]; try discriminate; cbn; auto. }
  destruct HE as [E1 E2]. unfold ChaosAttrModel.getPODModel, ChaosAttrModel.newPODaggr, ChaosAttrModel.getCoefficientDistribution. rewrite E1, E2. repeat split.
Qed.
(** Setters: accepted, or refused with that exception and without effect; but sizes out of the range of the data are stored
    although setDefectSizes raises. *)
Theorem C71_chaos_setters :
  forall (s : state) (o : op), is_run o = false ->
    snd (step o s) = match refusal o with None => Ok tt | Some e => Raise e end /\
    (refusal o <> None -> is_sizes o = false -> fst (step o s) = s) /\
    (forall z b, o = SetSizes z b -> sizes (fst (step o s)) = z /\ fst (step o s) = fst (step (SetSizes z true) s)).
Proof.
  intros s o Ho. destruct o as [w|[r| |e]|[d| |e]|[a| |e]|[p| |e]|n|z [|]|]; try discriminate; cbn; (split; [reflexivity|]);
    (split; [intros N K; first [reflexivity|discriminate K|now destruct N]|]); intros z' b' [= ]; subst; split; reflexivity.
Qed.
(** Before the first run, the degree and the distribution are those of the strategy that run creates. *)
Theorem C71_chaos_first_strategy :
  forall past w a,
    adaptive_in past = None -> supplied past = false -> snd (run w (after z0 past)) = Ok tt ->
    getAdaptiveStrategy (fst (run w (after z0 past))) = Ok (Some a) ->
    fixed (law past) (getDegree (after z0 past)) = Ok a.
Proof.
  intros past w a Hn Hs Hok. change (fst (run w (after z0 past))) with (after z0 (Run w :: past)).
  destruct (C71_chaos_accessors (Run w :: past)) as (_ & Ha & _). destruct (C71_chaos_accessors past) as (_ & _ & _ & Hg & _).
  rewrite Ha, Hg. cbn [adaptive_in]. rewrite Hn, Hs. destruct (describe (law past)); cbn [bind]; [|discriminate].
  destruct (fixed (law past) (degree_of past)); congruence.
Qed.
(** Once there is a strategy, created by a run or given, setDegree and setDistribution change neither it nor what later runs
    fit with: only setAdaptiveStrategy does. *)
Definition gives_strategy (o : op) : bool := match o with SetAdaptive (Accepted _) => true | _ => false end.
Theorem C71_chaos_strategy_is_kept :
  forall past a later,
    getAdaptiveStrategy (after z0 past) = Ok (Some a) -> existsb gives_strategy later = false ->
    getAdaptiveStrategy (after z0 (later ++ past)) = Ok (Some a).
Proof.
  intros past a later Ha Hl. destruct (C71_chaos_accessors past) as (_ & E1 & _). destruct (C71_chaos_accessors (later ++ past)) as (_ & E2 & _).
  rewrite E1 in Ha. injection Ha as Ha. rewrite E2. f_equal. clear E1 E2.
  induction later as [|o later IH]; [exact Ha|]. cbn [existsb] in Hl. apply orb_false_elim in Hl as [Ho Hl]. specialize (IH Hl). cbn [app adaptive_in].
  destruct o as [w|[x| |e]|[d| |e]|[b| |e]|[q| |e]|n|z b|]; try discriminate Ho; try exact IH. now rewrite IH.
Qed.
Theorem C71_chaos_degree_has_no_effect :
  forall past a n w,
    getAdaptiveStrategy (after z0 past) = Ok (Some a) ->
    fitted w (SetDegree n :: past) = fitted w past /\
    snd (run w (after z0 (SetDegree n :: past))) = snd (run w (after z0 past)) /\
    getPODModel (fst (run w (after z0 (SetDegree n :: past)))) = getPODModel (fst (run w (after z0 past))).
Proof.
  intros past a n w Ha. destruct (C71_chaos_accessors past) as (_ & E1 & _). rewrite E1 in Ha. injection Ha as Ha.
  assert (F : fitted w (SetDegree n :: past) = fitted w past).
  { unfold fitted, strategy, law. cbn [dist_in sizes_of adaptive_in projection_in]. now rewrite Ha. }
  split; [exact F|].
  destruct (run_spec (SetDegree n :: past) w) as (A1 & A2 & _). destruct (run_spec past w) as (B1 & B2 & _).
  assert (C : chaos_for w (SetDegree n :: past) = chaos_for w past) by (unfold chaos_for; cbn [supplied result_in]; now rewrite F).
  assert (L : law_for (SetDegree n :: past) = law_for past) by reflexivity.
  assert (Po : pod_of w (SetDegree n :: past) = pod_of w past) by (unfold pod_of; now rewrite C, L).
  rewrite A1, A2, B1, B2. unfold all_of, coefs_of. rewrite Po, C, L. split; reflexivity.
Qed.
(** The sensitivity analyses of a chaos need a result and a distribution, given or from a run. *)
Theorem C63_chaos_analyses :
  forall past,
    newAnalysis (after z0 past) =
      match result_in past with
      | None => Raise AttributeError
      | Some r => if Nat.leb 3 (input_dim r)
                  then match dist_in past with None => Raise AttributeError | Some d => do d' <- strip d (input_dim r - 1); Ok (r, d') end
                  else Raise AssertionError
      end.
Proof.
  intros past. destruct (C71_chaos_accessors past) as (Hd & _ & _ & _ & Hr). unfold ChaosAttrModel.newAnalysis. rewrite Hr, Hd. cbn [bind].
  destruct (result_in past) as [r|]; [|reflexivity]. cbn [object bind].
  assert (Hdim : Nat.leb 2 (input_dim r - 1) = Nat.leb 3 (input_dim r)).
  { destruct (Nat.leb_spec 2 (input_dim r - 1)), (Nat.leb_spec 3 (input_dim r)); lia || reflexivity. }
  rewrite Hdim. destruct (Nat.leb 3 (input_dim r)); [|reflexivity]. cbn [assert_ bind]. destruct (dist_in past); reflexivity.
Qed.
End Reading.
End Spec.
Print Assumptions C63_chaos_analyses.
Print Assumptions C34_chaos_run.
Print Assumptions C34_chaos_given_result_alone_fails.
Print Assumptions C34_chaos_given_result_is_used.
Print Assumptions C34_chaos_result_given_after_run.
Print Assumptions C71_chaos_accessors.
Print Assumptions C71_chaos_setters.
Print Assumptions C71_chaos_before_run.
Print Assumptions C71_chaos_first_strategy.
Print Assumptions C71_chaos_strategy_is_kept.
Print Assumptions C71_chaos_degree_has_no_effect.

(** *** Concrete cases: results, laws, … are numbers; the default strategy of law d and degree n is 10 d + n. *)
Definition toy_world : world Z Z Z Z Z Z Z Z Z Z :=
  {| w_fit := fun d a p => Ok (100 * a + p)%Z; w_resid := fun m => Ok 1%Z; w_quality := fun _ _ => Ok tt;
     w_pod := fun z m v d => Ok (m + z + d)%Z; w_coefs := fun m v => Ok m; w_conf := fun c z m v d => Ok c |}.
Definition toy_after := after Z Z Z Z Z Z Z Z Z Z (fun z => z) (fun d n => Ok (10 * d + n)%Z) 5%Z (fun _ => Ok tt) (fun r => Ok r).
Definition toy_run := run Z Z Z Z Z Z Z Z Z Z (fun z => z) (fun d n => Ok (10 * d + n)%Z) 5%Z (fun _ => Ok tt) (fun r => Ok r).
Local Notation R := (Run Z Z Z Z Z Z Z Z Z Z toy_world).
Local Notation SR r := (SetResult Z Z Z Z Z Z Z Z Z Z (Accepted r)).
Local Notation SD d := (SetDist Z Z Z Z Z Z Z Z Z Z (Accepted d)).
Local Notation SG n := (SetDegree Z Z Z Z Z Z Z Z Z Z n).
(** The strategy is that of the degree in force: false for the second run after a change of degree. *)
Theorem C71_chaos_strategy_follows_degree_refuted :
  exists past d,
    snd (toy_run toy_world (toy_after 7%Z past)) = Ok tt /\
    getDegree _ _ _ _ _ _ _ _ _ _ (toy_after 7%Z (R :: past)) = 5%Z /\ getDistribution _ _ _ _ _ _ _ _ _ _ (toy_after 7%Z (R :: past)) = Ok (Some d) /\
    getAdaptiveStrategy _ _ _ _ _ _ _ _ _ _ (toy_after 7%Z (R :: past)) = Ok (Some (10 * d + 3)%Z).
Proof. exists [SG 5%Z; R], 7%Z. vm_compute. repeat split. Qed.
Print Assumptions C71_chaos_strategy_follows_degree_refuted.
Example C71_example :
  getAdaptiveStrategy _ _ _ _ _ _ _ _ _ _ (toy_after 7%Z [R; SG 5%Z]) = Ok (Some 75%Z) /\
  getAdaptiveStrategy _ _ _ _ _ _ _ _ _ _ (toy_after 7%Z [R; SD 8%Z; R]) = Ok (Some 73%Z) /\
  getAdaptiveStrategy _ _ _ _ _ _ _ _ _ _ (toy_after 7%Z []) = Ok None.
Proof. vm_compute. repeat split. Qed.
Example C34_chaos_example :
  snd (toy_run toy_world (toy_after 7%Z [])) = Ok tt /\
  snd (toy_run toy_world (toy_after 7%Z [SR 9%Z])) = Raise AttributeError /\
  getPODModel _ _ _ _ _ _ _ _ _ _ (toy_after 7%Z [R; SR 9%Z; SD 2%Z]) = Ok (Some 18%Z) /\
  getPODModel _ _ _ _ _ _ _ _ _ _ (toy_after 7%Z [R; SR 9%Z; R]) = Ok (Some 23%Z) /\
  newPODaggr _ _ _ _ _ _ _ _ _ _ (toy_after 7%Z [SR 9%Z; R]) = Ok (7305%Z, 9%Z).
Proof. vm_compute. repeat split. Qed.
