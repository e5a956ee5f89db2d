(** C34 (kriging part), C63 and C71 (kriging part): what the calls made on a KrigingPOD or an AdaptiveSignalPOD leave in the object. *)
From Verif Require Import Base KrigAttrModel.

Section Spec.
Variables KR T D B C Q PM Sz : Type.
Variable default_dist : Sz -> D.
Variable default_basis : B.
Variable default_cov : C.
Variable norm : T.
Variable cov_of : KR -> C.
Variable basis_of : KR -> B.
Variable input_dim : KR -> nat.
Variable strip : D -> nat -> res D.
Variable G : Type.
Variable validation : KR -> T -> res G.
Notation op := (op KR T D B C Q PM Sz).
Notation world := (world KR T D B C Q PM Sz).
Notation Run := (Run KR T D B C Q PM Sz).
Notation SetResult := (SetResult KR T D B C Q PM Sz).
Notation SetDist := (SetDist KR T D B C Q PM Sz).
Notation SetBasis := (SetBasis KR T D B C Q PM Sz).
Notation SetCov := (SetCov KR T D B C Q PM Sz).
Notation SetSizes := (SetSizes KR T D B C Q PM Sz).
Notation Look := (Look KR T D B C Q PM Sz).
Notation w_fit := (w_fit KR T D B C Q PM Sz).
Notation w_q2 := (w_q2 KR T D B C Q PM Sz).
Notation w_pod := (w_pod KR T D B C Q PM Sz).
Notation w_candidates := (w_candidates KR T D B C Q PM Sz).
Notation w_norm := (w_norm KR T D B C Q PM Sz).
Notation w_loop := (w_loop KR T D B C Q PM Sz).
Notation run := (run KR T D B C Q PM Sz default_dist default_basis default_cov norm cov_of basis_of).
Notation run_kriging := (run_kriging KR T D B C Q PM Sz default_dist default_basis default_cov norm).
Notation run_adaptive := (run_adaptive KR T D B C Q PM Sz default_dist default_basis default_cov cov_of basis_of).
Notation after := (after KR T D B C Q PM Sz default_dist default_basis default_cov norm cov_of basis_of).
Notation step := (step KR T D B C Q PM Sz default_dist default_basis default_cov norm cov_of basis_of).
Notation getKrigingResult := (getKrigingResult KR T D B C Q PM Sz).
Notation getDistribution := (getDistribution KR T D B C Q PM Sz).
Notation getBasis := (getBasis KR T D B C Q PM Sz).
Notation getCovarianceModel := (getCovarianceModel KR T D B C Q PM Sz).
Notation getPODModel := (getPODModel KR T D B C Q PM Sz).
Notation drawValidationGraph := (drawValidationGraph KR T D B C Q PM Sz G validation).
Notation newPLI := (newPLI KR T D B C Q PM Sz input_dim strip).
Notation newSobol := (newSobol KR T D B C Q PM Sz input_dim strip).
Notation state := (state KR T D B C Q PM Sz).

(** *** Reading a KrigingPOD off the calls made so far, newest first *)
Section Reading.
Variable z0 : Sz.
(** The defect sizes in force. *)
Fixpoint sizes_of (past : list op) : Sz :=
  match past with [] => z0 | KrigAttrModel.SetSizes _ _ _ _ _ _ _ _ z _ :: _ => z | _ :: past' => sizes_of past' end.
(** The user has given a kriging result. *)
Fixpoint supplied (past : list op) : bool :=
  match past with [] => false | KrigAttrModel.SetResult _ _ _ _ _ _ _ _ (Accepted _) :: _ => true | _ :: past' => supplied past' end.
(** The basis and the covariance model: the last given ones; else the default ones, once there was a fit. *)
Fixpoint basis_in (past : list op) : option B :=
  match past with
  | [] => None
  | KrigAttrModel.SetBasis _ _ _ _ _ _ _ _ (Accepted b) :: _ => Some b
  | KrigAttrModel.Run _ _ _ _ _ _ _ _ _ :: past' =>
      match basis_in past' with Some b => Some b | None => if supplied past' then None else Some default_basis end
  | _ :: past' => basis_in past'
  end.
Fixpoint cov_in (past : list op) : option C :=
  match past with
  | [] => None
  | KrigAttrModel.SetCov _ _ _ _ _ _ _ _ (Accepted c) :: _ => Some c
  | KrigAttrModel.Run _ _ _ _ _ _ _ _ _ :: past' =>
      match cov_in past' with Some c => Some c | None => if supplied past' then None else Some default_cov end
  | _ :: past' => cov_in past'
  end.
Definition some {A} (x : option A) (d : A) : A := match x with Some a => a | None => d end.
(** The kriging that run fits. *)
Definition fitted (w : world) (past : list op) : res KR := w_fit w (some (basis_in past) default_basis) (some (cov_in past) default_cov).
(** The last kriging result, fitted or given. *)
Fixpoint result_in (past : list op) : option KR :=
  match past with
  | [] => None
  | KrigAttrModel.SetResult _ _ _ _ _ _ _ _ (Accepted k) :: _ => Some k
  | KrigAttrModel.Run _ _ _ _ _ _ _ _ w :: past' =>
      if supplied past' then result_in past' else match fitted w past' with Ok k => Some k | Raise _ => result_in past' end
  | _ :: past' => result_in past'
  end.
(** A run has fitted a kriging. *)
Fixpoint has_fitted (past : list op) : bool :=
  match past with
  | [] => false
  | KrigAttrModel.Run _ _ _ _ _ _ _ _ w :: past' => negb (supplied past') && is_ok (fitted w past') || has_fitted past'
  | _ :: past' => has_fitted past'
  end.
(** The distribution: the last given one; else the default one for the defect sizes of the first run that got as far. *)
Fixpoint dist_in (past : list op) : option D :=
  match past with
  | [] => None
  | KrigAttrModel.SetDist _ _ _ _ _ _ _ _ (Accepted d) :: _ => Some d
  | KrigAttrModel.Run _ _ _ _ _ _ _ _ w :: past' =>
      match dist_in past' with
      | Some d => Some d
      | None => if supplied past' then None
                else match (do k <- fitted w past'; w_q2 w k norm) with Ok _ => Some (default_dist (sizes_of past')) | Raise _ => None end
      end
  | _ :: past' => dist_in past'
  end.
(** The POD function a run should make. *)
Definition pod_of (w : world) (past : list op) : res PM :=
  do k <- fitted w past; do _ <- w_q2 w k norm; w_pod w (sizes_of past) k norm (some (dist_in past) (default_dist (sizes_of past))).
(** The POD function of the last run that made one. *)
Fixpoint pod_in (past : list op) : option PM :=
  match past with
  | [] => None
  | KrigAttrModel.Run _ _ _ _ _ _ _ _ w :: past' =>
      if supplied past' then pod_in past' else match pod_of w past' with Ok m => Some m | Raise _ => pod_in past' end
  | _ :: past' => pod_in past'
  end.

Definition none_or {A} (x : option A) : attr A := match x with Some a => Val a | None => PyNone end.
Definition missing_or {A} (x : option A) : attr A := match x with Some a => Val a | None => Missing end.
Lemma or_default_none {A} (x : option A) d : or_default (none_or x) d = some x d.
Proof. now destruct x. Qed.

Lemma after_kriging past :
  let s := after KrigingPOD z0 past in
  kind _ _ _ _ _ _ _ _ s = KrigingPOD /\ user _ _ _ _ _ _ _ _ s = supplied past /\ kresult _ _ _ _ _ _ _ _ s = none_or (result_in past) /\
  transf _ _ _ _ _ _ _ _ s = (if has_fitted past then Val norm else Missing) /\ dist _ _ _ _ _ _ _ _ s = none_or (dist_in past) /\
  basis _ _ _ _ _ _ _ _ s = none_or (basis_in past) /\ cov _ _ _ _ _ _ _ _ s = none_or (cov_in past) /\
  podmodel _ _ _ _ _ _ _ _ s = missing_or (pod_in past) /\ sizes _ _ _ _ _ _ _ _ s = sizes_of past.
Proof.
  induction past as [|o past IH]; cbn [KrigAttrModel.after].
  - repeat split.
  - cbv zeta in IH |- *. revert IH. generalize (after KrigingPOD z0 past). intros s (Hk & Hu & Hr & Ht & Hd & Hb & Hc & Hp & Hs).
    destruct o as [w|[k| |e]|[d| |e]|[b| |e]|[c| |e]|z b|]; cbn [step].
    + unfold KrigAttrModel.run. rewrite Hk. unfold KrigAttrModel.run_kriging. rewrite Hu.
      cbn [supplied result_in has_fitted dist_in basis_in cov_in pod_in sizes_of]. destruct (supplied past) eqn:Es.
      * cbn [fst andb orb negb]. repeat split; try assumption.
        -- rewrite Hd. destruct (dist_in past); reflexivity.
        -- rewrite Hb. destruct (basis_in past); reflexivity.
        -- rewrite Hc. destruct (cov_in past); reflexivity.
      * unfold buildKrigingAlgo. rewrite Hb, Hc, !or_default_none. unfold pod_of. fold (fitted w past).
        destruct (fitted w past) as [k|e] eqn:Ef; cbn [negb andb orb is_ok bind fst].
        -- cbn [set_transf set_kresult set_cov set_basis KrigAttrModel.kresult KrigAttrModel.dist KrigAttrModel.sizes read object bind].
           destruct (w_q2 w k norm) as [q|e] eqn:Eq; cbn [bind].
           ++ cbn [set_q2 set_dist set_transf set_kresult set_cov set_basis KrigAttrModel.kresult KrigAttrModel.dist KrigAttrModel.sizes]. rewrite Hd, Hs, or_default_none.
              destruct (w_pod w (sizes_of past) k norm (some (dist_in past) (default_dist (sizes_of past)))) as [m|e] eqn:Em; cbn; rewrite ?Hk, ?Hu, ?Hs, ?Hp;
                repeat split; try reflexivity; destruct (dist_in past), (basis_in past), (cov_in past); reflexivity.
           ++ cbn. rewrite ?Hk, ?Hu, ?Hs, ?Hp, ?Hd. repeat split; try reflexivity; destruct (dist_in past), (basis_in past), (cov_in past); reflexivity.
        -- cbn. rewrite ?Hk, ?Hu, ?Hs, ?Hp, ?Hd, ?Hr, ?Ht. repeat split; try reflexivity; destruct (dist_in past), (basis_in past), (cov_in past); reflexivity.
    + unfold setKrigingResult. rewrite Hk. cbn. repeat split; assumption.
    + unfold setKrigingResult. rewrite Hk. cbn. repeat split; assumption.
    + unfold setKrigingResult. rewrite Hk. cbn. repeat split; assumption.
    + cbn. repeat split; assumption.
    + cbn. repeat split; assumption.
    + cbn. repeat split; assumption.
    + cbn. repeat split; assumption.
    + cbn. repeat split; assumption.
    + cbn. repeat split; assumption.
    + cbn. repeat split; assumption.
    + cbn. repeat split; assumption.
    + cbn. repeat split; assumption.
    + cbn. repeat split; assumption.
    + cbn. repeat split; assumption.
Qed.

(** C34: run computes the POD with a kriging of its own, unless a result was ever given: then it always raises
    UnboundLocalError and does nothing, whatever the data and the external computations. *)
Theorem C34_kriging_run :
  forall past w,
    let s := after KrigingPOD z0 past in
    if supplied past
    then run w s = (s, Raise UnboundLocalError)
    else snd (run w s) = (do _ <- pod_of w past; Ok tt) /\
         getPODModel (fst (run w s)) = match pod_of w past with Ok m => Ok (Some m) | Raise _ => getPODModel s end.
Proof.
  intros past w s. destruct (after_kriging past) as (Hk & Hu & Hr & Ht & Hd & Hb & Hc & Hp & Hs). subst s.
  revert Hk Hu Hr Ht Hd Hb Hc Hp Hs. generalize (after KrigingPOD z0 past). intros s Hk Hu Hr Ht Hd Hb Hc Hp Hs.
  unfold KrigAttrModel.run. rewrite Hk. unfold KrigAttrModel.run_kriging. rewrite Hu. destruct (supplied past); [reflexivity|].
  unfold buildKrigingAlgo. rewrite Hb, Hc, !or_default_none. unfold pod_of. fold (fitted w past).
  destruct (fitted w past) as [k|e]; cbn [bind fst snd].
  - cbn [set_transf set_kresult set_cov set_basis KrigAttrModel.kresult read object bind].
    destruct (w_q2 w k norm) as [q|e]; cbn [bind].
    + cbn [set_q2 set_dist KrigAttrModel.kresult KrigAttrModel.dist KrigAttrModel.sizes set_transf set_kresult set_cov set_basis].
      rewrite Hd, Hs, or_default_none. destruct (w_pod w _ k norm _) as [m|e]; cbn; split; reflexivity.
    + cbn. split; reflexivity.
  - cbn. split; reflexivity.
Qed.

(** The Q2 kept: that of the last run that computed one (a result given stops the runs before). *)
Fixpoint q2_in (past : list op) : option Q :=
  match past with
  | [] => None
  | KrigAttrModel.Run _ _ _ _ _ _ _ _ w :: past' =>
      if supplied past' then q2_in past' else match (do k <- fitted w past'; w_q2 w k norm) with Ok q => Some q | Raise _ => q2_in past' end
  | _ :: past' => q2_in past'
  end.
Theorem C63_kriging_Q2 : forall past, KrigAttrModel.getQ2 KR T D B C Q PM Sz (after KrigingPOD z0 past) = match q2_in past with Some q => Ok (Some q) | None => Raise AttributeError end.
Proof.
  intros past. assert (H : q2 _ _ _ _ _ _ _ _ (after KrigingPOD z0 past) = missing_or (q2_in past)).
  { induction past as [|o past IH]; cbn [KrigAttrModel.after]; [reflexivity|].
    destruct (after_kriging past) as (Hk & Hu & Hr & Ht & Hd & Hb & Hc & Hp & Hs). revert IH Hk Hu Hr Ht Hd Hb Hc Hp Hs. generalize (after KrigingPOD z0 past). intros s IH Hk Hu Hr Ht Hd Hb Hc Hp Hs.
    destruct o as [w|[k| |e]|[d| |e]|[b| |e]|[c| |e]|z b|]; cbn [step q2_in]; try (unfold setKrigingResult; rewrite Hk); try exact IH.
    unfold KrigAttrModel.run. rewrite Hk. unfold KrigAttrModel.run_kriging. rewrite Hu. destruct (supplied past) eqn:Es; [exact IH|].
    unfold buildKrigingAlgo. rewrite Hb, Hc, !or_default_none. fold (fitted w past). destruct (fitted w past) as [k|e] eqn:Ef; cbn [bind fst]; [|exact IH].
    cbn [set_transf set_kresult set_cov set_basis KrigAttrModel.kresult read object bind]. destruct (w_q2 w k norm) as [q|e] eqn:Eq; cbn [bind]; [|exact IH].
    destruct (w_pod w _ k norm _); reflexivity. }
  unfold KrigAttrModel.getQ2. rewrite H. now destruct (q2_in past).
Qed.

(** No later call repairs the object. *)
Theorem C34_kriging_given_result_is_never_used :
  forall past k later w,
    let s := after KrigingPOD z0 (later ++ SetResult (Accepted k) :: past) in
    run w s = (s, Raise UnboundLocalError) /\ getPODModel s = getPODModel (after KrigingPOD z0 past).
Proof.
  intros past k later w s.
  assert (Hs : supplied (later ++ SetResult (Accepted k) :: past) = true).
  { induction later as [|o later IH]; cbn [app supplied]; [reflexivity|].
    destruct o as [?|[?| |?]|[?| |?]|[?| |?]|[?| |?]|? ?|]; first [exact IH|reflexivity]. }
  split.
  - pose proof (C34_kriging_run (later ++ SetResult (Accepted k) :: past) w) as H. cbv zeta in H. rewrite Hs in H. exact H.
  - subst s. destruct (after_kriging (later ++ SetResult (Accepted k) :: past)) as (_ & _ & _ & _ & _ & _ & _ & Hp & _).
    destruct (after_kriging past) as (_ & _ & _ & _ & _ & _ & _ & Hp' & _).
    unfold KrigAttrModel.getPODModel. rewrite Hp, Hp'. do 2 f_equal. clear Hp Hs.
    induction later as [|o later IH]; cbn [app pod_in]; [reflexivity|].
    assert (Hs : supplied (later ++ SetResult (Accepted k) :: past) = true).
    { clear. induction later as [|o later IH]; cbn [app supplied]; [reflexivity|].
      destruct o as [?|[?| |?]|[?| |?]|[?| |?]|[?| |?]|? ?|]; first [exact IH|reflexivity]. }
    destruct o as [?|[?| |?]|[?| |?]|[?| |?]|[?| |?]|? ?|]; try exact IH. now rewrite Hs.
Qed.

(** C63, KrigingPOD: what every reader gives. *)
Theorem C63_kriging_readers :
  forall past,
    let s := after KrigingPOD z0 past in
    getKrigingResult s = Ok (result_in past) /\
    drawValidationGraph s = (if has_fitted past then do k <- object (result_in past); validation k norm else Raise AttributeError) /\
    (forall k, result_in past = Some k ->
       newSobol s = (if Nat.leb 3 (input_dim k)
                     then match dist_in past with None => Raise AttributeError | Some d => do d' <- strip d (input_dim k - 1); Ok (k, d') end
                     else Raise AssertionError)) /\
    (result_in past = None -> newSobol s = Raise AttributeError /\ newPLI s = Raise AttributeError) /\
    (has_fitted past = false -> newPLI s = Raise AttributeError) /\
    (has_fitted past = true -> newPLI s = (do kd <- newSobol s; Ok (fst kd, norm, snd kd))).
Proof.
  intros past s. destruct (after_kriging past) as (Hk & Hu & Hr & Ht & Hd & Hb & Hc & Hp & Hs). subst s.
  revert Hk Hu Hr Ht Hd Hb Hc Hp Hs. generalize (after KrigingPOD z0 past). intros s Hk Hu Hr Ht Hd Hb Hc Hp Hs.
  assert (Hg : getKrigingResult s = Ok (result_in past)).
  { unfold KrigAttrModel.getKrigingResult. rewrite Hr. now destruct (result_in past). }
  assert (Hgd : getDistribution s = Ok (dist_in past)).
  { unfold KrigAttrModel.getDistribution. rewrite Hd. now destruct (dist_in past). }
  assert (Hdim : forall n, Nat.leb 2 (n - 1) = Nat.leb 3 n).
  { intros n. destruct (Nat.leb_spec 2 (n - 1)), (Nat.leb_spec 3 n); lia || reflexivity. }
  split; [exact Hg|]. split; [|split; [|split; [|split]]].
  - unfold KrigAttrModel.drawValidationGraph. rewrite Hr, Ht. destruct (result_in past), (has_fitted past); reflexivity.
  - intros k E. unfold KrigAttrModel.newSobol. rewrite Hg, E. cbn [bind object]. rewrite Hdim, Hgd.
    destruct (Nat.leb 3 (input_dim k)); cbn [assert_ bind object]; [|reflexivity]. destruct (dist_in past); reflexivity.
  - intros E. unfold KrigAttrModel.newSobol, KrigAttrModel.newPLI. rewrite Hg, E. split; reflexivity.
  - intros E. unfold KrigAttrModel.newPLI. rewrite Hg, Ht, E. destruct (result_in past); reflexivity.
  - intros E. unfold KrigAttrModel.newPLI, KrigAttrModel.newSobol. rewrite Hg, Ht, E. cbn [bind]. destruct (result_in past) as [k|]; [|reflexivity].
    cbn [object bind read]. destruct (assert_ _); cbn [bind]; [|reflexivity]. rewrite Hgd. cbn [bind].
    destruct (object (dist_in past)); cbn [bind]; [|reflexivity]. destruct (strip _ _); reflexivity.
Qed.

(** After a run that did not fail, all of them work, with the kriging of that run. *)
Theorem C63_kriging_after_run :
  forall past w,
    let s := after KrigingPOD z0 past in
    snd (run w s) = Ok tt ->
    exists k d, fitted w past = Ok k /\ getKrigingResult (fst (run w s)) = Ok (Some k) /\ getDistribution (fst (run w s)) = Ok (Some d) /\
      drawValidationGraph (fst (run w s)) = validation k norm /\
      (3 <= input_dim k -> newSobol (fst (run w s)) = (do d' <- strip d (input_dim k - 1); Ok (k, d')) /\
                           newPLI (fst (run w s)) = (do d' <- strip d (input_dim k - 1); Ok (k, norm, d'))).
Proof.
  intros past w s H. pose proof (C34_kriging_run past w) as H0. cbv zeta in H0.
  destruct (supplied past) eqn:Es; [subst s; rewrite H0 in H; discriminate|]. destruct H0 as (H0 & _). subst s. rewrite H in H0.
  unfold pod_of in H0. destruct (fitted w past) as [k|e] eqn:Ef; [|discriminate]. cbn [bind] in H0.
  destruct (w_q2 w k norm) as [q|e] eqn:Eq; [|discriminate]. clear H0.
  change (fst (run w (after KrigingPOD z0 past))) with (after KrigingPOD z0 (Run w :: past)).
  destruct (C63_kriging_readers (Run w :: past)) as (R1 & R2 & R3 & _ & _ & R4).
  assert (E1 : result_in (Run w :: past) = Some k) by (cbn [result_in]; now rewrite Es, Ef).
  assert (E2 : has_fitted (Run w :: past) = true) by (cbn [has_fitted]; now rewrite Es, Ef).
  assert (E3 : dist_in (Run w :: past) = Some (some (dist_in past) (default_dist (sizes_of past)))).
  { cbn [dist_in]. rewrite Es, Ef. cbn [bind]. rewrite Eq. now destruct (dist_in past). }
  exists k, (some (dist_in past) (default_dist (sizes_of past))). split; [reflexivity|].
  split; [now rewrite R1, E1|]. split.
  { destruct (after_kriging (Run w :: past)) as (_ & _ & _ & _ & Hd & _). unfold KrigAttrModel.getDistribution. rewrite Hd, E3. reflexivity. }
  split; [now rewrite R2, E2, E1|]. intros Hdim. apply Nat.leb_le in Hdim.
  specialize (R3 k E1). rewrite Hdim, E3 in R3. split; [exact R3|]. rewrite (R4 E2), R3. destruct (strip _ _); reflexivity.
Qed.

(** A result given after a run replaces the kriging but not the POD, nor the normalisation: the validation graph then mixes
    the given kriging with the normalisation of the sample, and the POD is that of the other kriging. *)
Theorem C63_kriging_result_given_after_run :
  forall past w k,
    let s := after KrigingPOD z0 past in
    snd (run w s) = Ok tt ->
    let s' := after KrigingPOD z0 (SetResult (Accepted k) :: Run w :: past) in
    getKrigingResult s' = Ok (Some k) /\ drawValidationGraph s' = validation k norm /\ getPODModel s' = getPODModel (fst (run w s)).
Proof.
  intros past w k s H s'. destruct (C63_kriging_after_run past w H) as (k0 & d & Hf & _).
  destruct (C63_kriging_readers (SetResult (Accepted k) :: Run w :: past)) as (R1 & R2 & _).
  assert (Es : supplied past = false).
  { destruct (supplied past) eqn:Es; [|reflexivity]. pose proof (C34_kriging_run past w) as H0. cbv zeta in H0. rewrite Es in H0.
    subst s. rewrite H0 in H. discriminate. }
  split; [exact R1|]. split.
  - subst s'. rewrite R2. cbn [has_fitted result_in]. rewrite Es, Hf. reflexivity.
  - reflexivity || (subst s'; cbn [KrigAttrModel.after step]; unfold setKrigingResult;
      destruct (after_kriging (Run w :: past)) as (Hk & _); cbn [KrigAttrModel.after step] in Hk; rewrite Hk; reflexivity).
Qed.

(** C71, kriging: the basis, the covariance model and the distribution are the last ones given; without any, the first run
    chooses them and the later runs keep them, whatever the defect sizes have become. *)
Theorem C71_kriging_defaults :
  forall past,
    let s := after KrigingPOD z0 past in
    getBasis s = Ok (basis_in past) /\ getCovarianceModel s = Ok (cov_in past) /\ getDistribution s = Ok (dist_in past).
Proof.
  intros past s. destruct (after_kriging past) as (_ & _ & _ & _ & Hd & Hb & Hc & _). subst s.
  unfold KrigAttrModel.getBasis, KrigAttrModel.getCovarianceModel, KrigAttrModel.getDistribution. rewrite Hd, Hb, Hc.
  destruct (basis_in past), (cov_in past), (dist_in past); repeat split.
Qed.

(** The exception of a refused setter; setKrigingResult exists for KrigingPOD only. *)
Definition refusal (c : cls) (o : op) : option exn :=
  match o with
  | KrigAttrModel.SetResult _ _ _ _ _ _ _ _ g => match c, g with AdaptiveSignalPOD, _ => Some AttributeError | _, Unaccepted => Some GenericException | _, Fails e => Some e | _, Accepted _ => None end
  | KrigAttrModel.SetDist _ _ _ _ _ _ _ _ Unaccepted | KrigAttrModel.SetSizes _ _ _ _ _ _ _ _ _ false => Some ValueError
  | KrigAttrModel.SetBasis _ _ _ _ _ _ _ _ Unaccepted | KrigAttrModel.SetCov _ _ _ _ _ _ _ _ Unaccepted => Some GenericException
  | KrigAttrModel.SetDist _ _ _ _ _ _ _ _ (Fails e) | KrigAttrModel.SetBasis _ _ _ _ _ _ _ _ (Fails e) | KrigAttrModel.SetCov _ _ _ _ _ _ _ _ (Fails e) => Some e
  | _ => None
  end.
Definition runs_the_pod (o : op) : bool := match o with KrigAttrModel.Run _ _ _ _ _ _ _ _ _ => true | _ => false end.
Definition is_sizes (o : op) : bool := match o with KrigAttrModel.SetSizes _ _ _ _ _ _ _ _ _ _ => true | _ => false end.
(** Setters: accepted, or refused with that exception and without effect; but sizes out of the range of the data are stored
    although setDefectSizes raises. *)
Theorem C71_kriging_setters :
  forall (s : state) (o : op), runs_the_pod o = false ->
    snd (step o s) = match refusal (kind _ _ _ _ _ _ _ _ s) o with None => Ok tt | Some e => Raise e end /\
    (refusal (kind _ _ _ _ _ _ _ _ s) o <> None -> is_sizes o = false -> fst (step o s) = s) /\
    (forall z b, o = SetSizes z b -> sizes _ _ _ _ _ _ _ _ (fst (step o s)) = z /\ fst (step o s) = fst (step (SetSizes z true) s)).
Proof.
  intros s o Ho. destruct o as [w|[r| |e]|[d| |e]|[a| |e]|[p| |e]|z [|]|]; try discriminate; cbn;
    unfold setKrigingResult; try (destruct (kind _ _ _ _ _ _ _ _ s)); cbn; (split; [reflexivity|]);
    (split; [intros N K; first [reflexivity|discriminate K|now destruct N]|]); intros z' b' [= ]; subst; split; reflexivity.
Qed.

(** *** AdaptiveSignalPOD *)
(** Invariant: the normalisation is never stored; the result appears with the first fit. *)
Lemma run_adaptive_transf w (s : state) : transf _ _ _ _ _ _ _ _ (fst (run_adaptive w s)) = transf _ _ _ _ _ _ _ _ s.
Proof.
  unfold KrigAttrModel.run_adaptive. cbv zeta. destruct (w_candidates w _); [|reflexivity]. cbn [buildKrigingAlgo].
  destruct (w_fit w _ _) as [k|e]; [|reflexivity]. destruct (w_q2 w k _) as [q|e]; [|reflexivity].
  match goal with |- context [keep_all _ _ _ _ _ _ _ _ _ _ _ _ ?x] => set (s3 := x) end.
  match goal with |- context [w_loop ?a ?b ?c ?d ?e] => destruct (w_loop a b c d e) as [l out] end.
  assert (K : forall l k (x : state), transf _ _ _ _ _ _ _ _ (fst (keep_all KR T D B C Q PM Sz cov_of basis_of l k x)) = transf _ _ _ _ _ _ _ _ x).
  { clear. induction l as [|[k' [m|]] l IH]; intros k x; cbn [keep_all]; [reflexivity| |]; now rewrite IH. }
  pose proof (K l k s3) as K'. destruct (keep_all _ _ _ _ _ _ _ _ _ _ l k s3) as [s4 k4]. cbn [fst] in K'.
  destruct out as [t|e]; [|exact K']. destruct (w_pod w _ k4 t _); exact K'.
Qed.
Lemma run_adaptive_kind w (s : state) : kind _ _ _ _ _ _ _ _ (fst (run_adaptive w s)) = kind _ _ _ _ _ _ _ _ s.
Proof.
  unfold KrigAttrModel.run_adaptive. cbv zeta. destruct (w_candidates w _); [|reflexivity]. cbn [buildKrigingAlgo].
  destruct (w_fit w _ _) as [k|e]; [|reflexivity]. destruct (w_q2 w k _) as [q|e]; [|reflexivity].
  match goal with |- context [keep_all _ _ _ _ _ _ _ _ _ _ _ _ ?x] => set (s3 := x) end.
  match goal with |- context [w_loop ?a ?b ?c ?d ?e] => destruct (w_loop a b c d e) as [l out] end.
  assert (K : forall l k (x : state), kind _ _ _ _ _ _ _ _ (fst (keep_all KR T D B C Q PM Sz cov_of basis_of l k x)) = kind _ _ _ _ _ _ _ _ x).
  { clear. induction l as [|[k' [m|]] l IH]; intros k x; cbn [keep_all]; [reflexivity| |]; now rewrite IH. }
  pose proof (K l k s3) as K'. destruct (keep_all _ _ _ _ _ _ _ _ _ _ l k s3) as [s4 k4]. cbn [fst] in K'.
  destruct out as [t|e]; [|exact K']. destruct (w_pod w _ k4 t _); exact K'.
Qed.
Lemma after_adaptive past :
  kind _ _ _ _ _ _ _ _ (after AdaptiveSignalPOD z0 past) = AdaptiveSignalPOD /\ transf _ _ _ _ _ _ _ _ (after AdaptiveSignalPOD z0 past) = Missing.
Proof.
  induction past as [|o past [Hk Ht]]; cbn [KrigAttrModel.after]; [split; reflexivity|].
  destruct o as [w|[k| |e]|[d| |e]|[b| |e]|[c| |e]|z b|]; cbn [step]; try (split; [exact Hk|exact Ht]).
  - unfold KrigAttrModel.run. rewrite Hk. split; [now rewrite run_adaptive_kind|now rewrite run_adaptive_transf].
  - unfold setKrigingResult. rewrite Hk. split; [exact Hk|exact Ht].
  - unfold setKrigingResult. rewrite Hk. split; [exact Hk|exact Ht].
  - unfold setKrigingResult. rewrite Hk. split; [exact Hk|exact Ht].
Qed.

(** C63, AdaptiveSignalPOD (finding): in every history, run or not, the validation graph and the PLI analysis raise AttributeError. *)
Theorem C63_adaptive_never_works :
  forall past,
    let s := after AdaptiveSignalPOD z0 past in
    drawValidationGraph s = Raise AttributeError /\ newPLI s = Raise AttributeError.
Proof.
  intros past s. destruct (after_adaptive past) as (_ & Ht). subst s.
  unfold KrigAttrModel.drawValidationGraph, KrigAttrModel.newPLI, KrigAttrModel.getKrigingResult. rewrite Ht.
  destruct (kresult _ _ _ _ _ _ _ _ (after AdaptiveSignalPOD z0 past)); split; reflexivity.
Qed.

(** Before any run, getKrigingResult raises instead of returning None with a message. *)
Definition is_run (o : op) : bool := match o with KrigAttrModel.Run _ _ _ _ _ _ _ _ _ => true | _ => false end.
Theorem C63_adaptive_before_run :
  forall past, existsb is_run past = false ->
    let s := after AdaptiveSignalPOD z0 past in
    getKrigingResult s = Raise AttributeError /\ newSobol s = Raise AttributeError.
Proof.
  intros past H s.
  assert (E : kresult _ _ _ _ _ _ _ _ (after AdaptiveSignalPOD z0 past) = Missing).
  { clear s. induction past as [|o past IH]; cbn [KrigAttrModel.after]; [reflexivity|]. cbn [existsb] in H. apply orb_false_elim in H as [Ho H].
    specialize (IH H). destruct (after_adaptive past) as (Hk & _).
    destruct o as [w|[k| |e]|[d| |e]|[b| |e]|[c| |e]|z b|]; cbn [step]; try discriminate Ho; try exact IH;
      unfold setKrigingResult; rewrite Hk; exact IH. }
  subst s. unfold KrigAttrModel.newSobol, KrigAttrModel.getKrigingResult. rewrite E. split; reflexivity.
Qed.

(** After a run that did not fail, getKrigingResult gives the last result of the enrichment (the first one when there was
    none) and the Sobol analysis works with it. *)
Theorem C63_adaptive_after_run :
  forall past w,
    let s := after AdaptiveSignalPOD z0 past in
    snd (run w s) = Ok tt ->
    let b := match getBasis s with Ok (Some b) => b | _ => default_basis end in
    let c := match getCovarianceModel s with Ok (Some c) => c | _ => default_cov end in
    let d := match getDistribution s with Ok (Some d) => d | _ => default_dist (sizes _ _ _ _ _ _ _ _ s) end in
    exists k l t,
      w_fit w b c = Ok k /\ w_loop w k (w_norm w) d (sizes _ _ _ _ _ _ _ _ s) = (l, Ok t) /\
      let k' := last (map fst l) k in
      getKrigingResult (fst (run w s)) = Ok (Some k') /\ getDistribution (fst (run w s)) = Ok (Some d) /\
      getBasis (fst (run w s)) = Ok (Some (basis_of k')) /\ getCovarianceModel (fst (run w s)) = Ok (Some (cov_of k')) /\
      (3 <= input_dim k' -> newSobol (fst (run w s)) = (do d' <- strip d (input_dim k' - 1); Ok (k', d'))).
Proof.
  intros past w s. destruct (after_adaptive past) as (Hk & _). subst s. revert Hk. generalize (after AdaptiveSignalPOD z0 past). intros s Hk.
  assert (OD : forall (A : Type) (x : attr A) (d : A), or_default x d = match read x with Ok (Some a) => a | _ => d end) by (now intros A [| |a]).
  unfold KrigAttrModel.run. rewrite Hk. unfold KrigAttrModel.run_adaptive. cbv zeta.
  change (getBasis s) with (read (basis _ _ _ _ _ _ _ _ s)). change (getCovarianceModel s) with (read (cov _ _ _ _ _ _ _ _ s)).
  change (getDistribution s) with (read (dist _ _ _ _ _ _ _ _ s)). rewrite <- !OD.
  set (d := or_default (dist _ _ _ _ _ _ _ _ s) _). destruct (w_candidates w d); [|discriminate]. cbn [buildKrigingAlgo].
  match goal with |- context [w_fit w ?x ?y] => set (b := x); set (c := y) end.
  destruct (w_fit w b c) as [k|e] eqn:Ef; [|discriminate]. destruct (w_q2 w k _) as [q|e]; [|discriminate].
  match goal with |- context [set_q2 _ _ _ _ _ _ _ _ q ?x] => set (s2 := x) end.
  assert (P2 : kresult _ _ _ _ _ _ _ _ s2 = Val k /\ dist _ _ _ _ _ _ _ _ s2 = Val d /\ basis _ _ _ _ _ _ _ _ s2 = Val (basis_of k) /\
               cov _ _ _ _ _ _ _ _ s2 = Val (cov_of k) /\ sizes _ _ _ _ _ _ _ _ s2 = sizes _ _ _ _ _ _ _ _ s) by (repeat split).
  clearbody s2. destruct P2 as (P1 & P2 & P3 & P4 & P5).
  cbn [set_q2 KrigAttrModel.sizes]. rewrite P5.
  destruct (w_loop w k (w_norm w) d (sizes _ _ _ _ _ _ _ _ s)) as [l out] eqn:El.
  assert (K : forall l k (x : state), kresult _ _ _ _ _ _ _ _ x = Val k -> dist _ _ _ _ _ _ _ _ x = Val d -> basis _ _ _ _ _ _ _ _ x = Val (basis_of k) -> cov _ _ _ _ _ _ _ _ x = Val (cov_of k) ->
     let '(y, k') := keep_all KR T D B C Q PM Sz cov_of basis_of l k x in
     k' = last (map fst l) k /\ kresult _ _ _ _ _ _ _ _ y = Val k' /\ dist _ _ _ _ _ _ _ _ y = Val d /\ basis _ _ _ _ _ _ _ _ y = Val (basis_of k') /\ cov _ _ _ _ _ _ _ _ y = Val (cov_of k')).
  { clear. induction l as [|[k' m] l IH]; intros k x H1 H2 H3 H4; cbn [keep_all]; [repeat split; assumption|].
    assert (L : last (map fst ((k', m) :: l)) k = last (map fst l) k').
    { cbn [map fst]. destruct (map fst l) as [|a r]; [reflexivity|]. clear. revert a. induction r as [|a' r IH]; intros a; [reflexivity|]. exact (IH a'). }
    rewrite L. apply IH; destruct m; (reflexivity || exact H2). }
  specialize (K l k (set_q2 _ _ _ _ _ _ _ _ q s2) P1 P2 P3 P4).
  cbn [set_q2] in K. destruct (keep_all _ _ _ _ _ _ _ _ _ _ l k _) as [s4 k4]. destruct K as (K0 & K1 & K2 & K3 & K4).
  destruct out as [t|e]; [|discriminate]. destruct (w_pod w _ k4 t d) as [m|e]; [|discriminate]. intros _. subst k4.
  exists k, l, t. split; [exact Ef|]. split; [exact El|].
  cbn [fst]. unfold KrigAttrModel.newSobol, KrigAttrModel.getKrigingResult, KrigAttrModel.getDistribution, KrigAttrModel.getBasis, KrigAttrModel.getCovarianceModel.
  cbn [set_podmodel KrigAttrModel.kresult KrigAttrModel.dist KrigAttrModel.basis KrigAttrModel.cov]. rewrite K1, K2, K3, K4.
  repeat split. intros Hdim. cbn [read bind object].
  assert (Hl : Nat.leb 2 (input_dim (last (map fst l) k) - 1) = true) by (apply Nat.leb_le; lia). rewrite Hl. reflexivity.
Qed.
End Reading.
End Spec.
Print Assumptions C34_kriging_run.
Print Assumptions C34_kriging_given_result_is_never_used.
Print Assumptions C63_kriging_readers.
Print Assumptions C63_kriging_after_run.
Print Assumptions C63_kriging_result_given_after_run.
Print Assumptions C71_kriging_defaults.
Print Assumptions C71_kriging_setters.
Print Assumptions C63_adaptive_never_works.
Print Assumptions C63_adaptive_before_run.
Print Assumptions C63_adaptive_after_run.

(** *** Concrete cases: results, laws, … are numbers; a fit is the sum of the basis and of the covariance model. *)
Definition toy_world : world nat nat nat nat nat nat nat nat :=
  {| w_fit := fun b c => if Nat.eqb b 0 then Raise GenericException else Ok (b + c); w_q2 := fun k t => Ok k;
     w_pod := fun z k t d => Ok (1000 * k + 100 * t + 10 * z + d); w_candidates := fun _ => Ok tt; w_norm := 5;
     w_loop := fun k t d z => ([(k + 1, None); (k + 2, Some 8)], Ok (t + 1)) |}.
Definition toy_after := after nat nat nat nat nat nat nat nat (fun z => z) 1 2 3 (fun k => k) (fun k => k + 1).
Definition toy_run := run nat nat nat nat nat nat nat nat (fun z => z) 1 2 3 (fun k => k) (fun k => k + 1).
Local Notation R := (Run nat nat nat nat nat nat nat nat toy_world).
Local Notation SR k := (SetResult nat nat nat nat nat nat nat nat (Accepted k)).
Local Notation SZ z := (SetSizes nat nat nat nat nat nat nat nat z true).
(** A run, then another with other sizes: the POD follows the sizes, the distribution does not. *)
Theorem C71_kriging_default_distribution_follows_sizes_refuted :
  exists past, getDistribution _ _ _ _ _ _ _ _ (toy_after KrigingPOD 7 (R :: past)) = Ok (Some 7) /\
    snd (toy_run toy_world (toy_after KrigingPOD 7 past)) = Ok tt /\ sizes _ _ _ _ _ _ _ _ (toy_after KrigingPOD 7 past) = 4.
Proof. exists [SZ 4; R]. vm_compute. repeat split. Qed.
Print Assumptions C71_kriging_default_distribution_follows_sizes_refuted.
Example C34_example :
  snd (toy_run toy_world (toy_after KrigingPOD 7 [])) = Ok tt /\
  getPODModel _ _ _ _ _ _ _ _ (toy_after KrigingPOD 7 [R]) = Ok (Some 3377) /\
  snd (toy_run toy_world (toy_after KrigingPOD 7 [SR 9])) = Raise UnboundLocalError /\
  getPODModel _ _ _ _ _ _ _ _ (toy_after KrigingPOD 7 [R; SR 9]) = Raise AttributeError /\
  getPODModel _ _ _ _ _ _ _ _ (toy_after KrigingPOD 7 [R; SR 9; R]) = Ok (Some 3377).
Proof. vm_compute. repeat split. Qed.
Local Notation draw := (drawValidationGraph nat nat nat nat nat nat nat nat nat (fun k t => Ok (10 * k + t))).
Local Notation pli := (newPLI nat nat nat nat nat nat nat nat (fun k => k) (fun d n => Ok d)).
Local Notation sobol := (newSobol nat nat nat nat nat nat nat nat (fun k => k) (fun d n => Ok d)).
Example C63_example :
  draw (toy_after KrigingPOD 7 []) = Raise AttributeError /\ draw (toy_after KrigingPOD 7 [R]) = Ok 33 /\
  draw (toy_after KrigingPOD 7 [SR 9; R]) = Ok 93 /\ pli (toy_after KrigingPOD 7 [R]) = Ok (3, 3, 7) /\
  sobol (toy_after KrigingPOD 7 [SR 9]) = Raise AttributeError /\
  snd (toy_run toy_world (toy_after AdaptiveSignalPOD 7 [])) = Ok tt /\
  sobol (toy_after AdaptiveSignalPOD 7 [R]) = Ok (5, 7) /\ pli (toy_after AdaptiveSignalPOD 7 [R]) = Raise AttributeError /\
  draw (toy_after AdaptiveSignalPOD 7 [R]) = Raise AttributeError.
Proof. vm_compute. repeat split. Qed.
