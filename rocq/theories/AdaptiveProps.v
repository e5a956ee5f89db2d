(** C36, C37, C38: the enrichment of the adaptive signal POD. *)
From Verif Require Import Base Float64 AdaptiveModel AdaptiveProofs.

Section Props.
  Context {P Y K T D C : Type}.
  Variables (fit_init : option K -> list P -> list Y -> K) (normalise : list P -> T) (fit_fixed : K -> list P -> list Y -> K)
    (q2 : K -> T -> list P -> list Y -> float) (reoptimise : K -> K) (metamodel : K -> T -> P -> Y)
    (refpod : nat -> (P -> Y) -> C) (crit : nat -> nat -> K -> list P -> list Y -> C -> float * D)
    (final_pod : K -> T -> D) (observe : P -> res Y).
  Notation run := (run fit_init normalise fit_fixed q2 reoptimise metamodel refpod crit final_pod observe).
  Notation loop := (loop normalise fit_fixed q2 reoptimise refpod crit observe).
  Notation refit := (refit normalise fit_fixed q2 reoptimise).
  Notation recorded := (recorded refpod crit).
  Notation events_ok := (events_ok normalise fit_fixed q2 reoptimise refpod crit observe).

  (** A run that returns normally appends exactly n candidates (no candidate row twice), each with its own value. *)
  Theorem C36_run_adds_the_requested_points :
    forall st cands n st', run st cands n = (st', Ok tt) ->
    exists cs ys rest, length cs = n /\ Permutation cands (cs ++ rest) /\
      a_input st' = a_input st ++ cs /\ a_signals st' = a_signals st ++ ys /\
      Forall2 (fun c y => observe c = Ok y) cs ys.
  Proof.
    intros st cands n st' H. unfold AdaptiveModel.run in H.
    destruct (loop n 0 _ _ _ _ None cands) as [st1 [[k' t']|e]] eqn:E; [|discriminate].
    apply loop_ok in E. destruct E as (cs & ys & rest & H1 & H2 & H3 & H4 & H5 & _).
    injection H as <-. exists cs, ys, rest. cbn in *. auto 10.
  Qed.
  (** Successive runs, each with its own candidates and number of points. *)
  Fixpoint runs (st : astate P Y K D) (l : list (list P * nat)) : astate P Y K D * res unit :=
    match l with
    | [] => (st, Ok tt)
    | (c, n) :: l' => match run st c n with (st', Ok _) => runs st' l' | (st', Raise e) => (st', Raise e) end
    end.
  Theorem C36_runs_accumulate :
    forall l st st', runs st l = (st', Ok tt) ->
    exists cs ys, length cs = list_sum (map snd l) /\ a_input st' = a_input st ++ cs /\ a_signals st' = a_signals st ++ ys /\
      Forall2 (fun c y => observe c = Ok y) cs ys /\ (forall c, In c cs -> exists cands, In cands (map fst l) /\ In c cands).
  Proof.
    induction l as [|[c n] l IH]; intros st st' H; cbn in H.
    - injection H as <-. exists [], []. rewrite !app_nil_r. repeat (split; [auto|]). intros c [].
    - destruct (run st c n) as [st1 [u|e]] eqn:E; [|discriminate]. destruct u.
      apply C36_run_adds_the_requested_points in E. destruct E as (cs1 & ys1 & rest & L & Pm & I1 & S1 & F1).
      apply IH in H. destruct H as (cs2 & ys2 & L2 & I2 & S2 & F2 & In2).
      exists (cs1 ++ cs2), (ys1 ++ ys2). split; [rewrite app_length, L, L2; reflexivity|].
      split; [now rewrite I2, I1, app_assoc|]. split; [now rewrite S2, S1, app_assoc|]. split; [now apply Forall2_app|].
      intros x Hx. apply in_app_or in Hx. destruct Hx as [Hx|Hx].
      + exists c. split; [now left|]. apply (Permutation_in x (Permutation_sym Pm)). apply in_or_app. now left.
      + destruct (In2 x Hx) as (cd & H1 & H2). exists cd. split; [now right|assumption].
  Qed.

  Lemma run_events st cands n st' r : run st cands n = (st', r) ->
    let k := fit_init (a_model st) (a_input st) (a_signals st) in
    let meta := metamodel k (normalise (a_input st)) in
    exists evs, a_log st' = a_log st ++ evs /\ events_ok meta 0 k (a_input st) (a_signals st) None cands evs /\
      a_input st' = a_input st ++ chosen evs.
  Proof.
    intros H k meta. unfold AdaptiveModel.run in H.
    destruct (loop n 0 _ _ _ _ None cands) as [st1 [[k' t']|e]] eqn:E; apply loop_events in E;
      injection H as <- <-; exact E.
  Qed.
  (** How each iteration of a run relates to the previous one. *)
  Fixpoint linked (prev : option nat) (cands : list P) (evs : list (event P Y K)) : Prop :=
    match evs with
    | [] => True
    | e :: l => e_cands e = cands /\ index_ok prev e /\ (e_idx e < length cands)%nat /\ linked (Some (e_idx e)) (erase (e_idx e) cands) l
    end.
  Lemma events_linked meta it k input signals idx cands evs :
    events_ok meta it k input signals idx cands evs -> linked idx cands evs.
  Proof.
    induction 1 as [|it k input signals idx cands i c e Hc Ho Hi|it k input signals idx cands i c y evs Hc Ho Hi Hev IH]; cbn [linked];
      [exact I| |]; (split; [reflexivity|]); (split; [exact Hi|]); (split; [apply nth_error_Some; cbn; rewrite Hc; discriminate|]); [exact I|exact IH].
  Qed.
  Lemma linked_index : forall evs prev cands e, linked prev cands evs -> In e evs -> exists q, index_ok q e.
  Proof.
    induction evs as [|x l IH]; intros prev cands e H He; [destruct He|].
    destruct H as (_ & H1 & _ & H2). destruct He as [<-|He]; [eauto|]. eapply IH; eassumption.
  Qed.
  Lemma linked_next : forall l1 prev cands e1 e2 l2, linked prev cands (l1 ++ e1 :: e2 :: l2) ->
    e_cands e2 = erase (e_idx e1) (e_cands e1) /\ index_ok (Some (e_idx e1)) e2.
  Proof.
    induction l1 as [|x l1 IH]; intros prev cands e1 e2 l2 H; cbn in H.
    - destruct H as (H1 & _ & _ & H2 & H3 & _). rewrite H1. auto.
    - destruct H as (_ & _ & _ & H). eapply IH; exact H.
  Qed.
  (** Whatever the outcome: each iteration works on the candidates left by the previous one; when some criterion is
      below 1e9 the point added is the first minimiser of the criterion. *)
  Theorem C36_first_minimiser :
    forall st cands n st' r, run st cands n = (st', r) ->
    exists evs, a_log st' = a_log st ++ evs /\ a_input st' = a_input st ++ flat_map chosen_of evs /\
      (forall e l, evs = e :: l -> e_cands e = cands) /\
      (forall l1 e1 e2 l2, evs = l1 ++ e1 :: e2 :: l2 -> e_cands e2 = erase (e_idx e1) (e_cands e1)) /\
      (forall e, In e evs -> usable f1e9 (e_crit e) -> first_min f1e9 (e_crit e) (e_idx e)).
  Proof.
    intros st cands n st' r H. apply run_events in H. destruct H as (evs & H1 & H2 & H3).
    apply events_linked in H2. exists evs. split; [exact H1|]. split; [exact H3|]. split.
    { intros e l ->. apply H2. }
    split. { intros l1 e1 e2 l2 ->. eapply linked_next; exact H2. }
    intros e He Hu. destruct (linked_index _ _ _ _ H2 He) as (q & [Hq|[Hq _]]); [exact Hq|contradiction].
  Qed.

  (** No usable criterion at the first iteration: run fails and the DOE is unchanged. *)
  Theorem C37_first_iteration :
    forall st cands n,
      (forall i k s c v d, crit 1 i k s c v = d -> fltb (fst d) f1e9 = false) -> (0 < n)%nat ->
      exists st', run st cands n = (st', Raise UnboundLocalError) /\ a_input st' = a_input st /\ a_signals st' = a_signals st.
  Proof.
    intros st cands n H Hn. destruct n as [|n]; [lia|]. unfold AdaptiveModel.run. cbn [AdaptiveModel.loop].
    set (k := fit_init _ _ _). set (st1 := {| a_input := _; a_signals := _; a_model := _; a_pod := _; a_log := _ |}).
    set (meta := metamodel _ _).
    pose proof (iterate_case normalise fit_fixed q2 reoptimise refpod crit observe (0 + 1) k meta st1 None cands) as Hc.
    assert (NU : forall i, ~ usable f1e9 (e_crit (recorded (0 + 1) k meta (a_input st1) (a_signals st1) cands i))).
    { intros i (v & Hv & Hlt). cbn in Hv. apply in_map_iff in Hv. destruct Hv as (x & <- & _).
      rewrite (H _ _ _ _ _ _ eq_refl) in Hlt. discriminate. }
    destruct (iterate _ _ _ _ _ _ _ (0 + 1) k meta st1 None cands) as [st2 r2] eqn:E.
    assert (HF : forall i, index_ok None (recorded (0 + 1) k meta (a_input st1) (a_signals st1) cands i) -> False).
    { intros i [Hm|[_ Hm]]; [|discriminate]. destruct Hm as (v & Hv & Hlt & _). apply (NU i). exists v. split; [|exact Hlt].
      eapply nth_error_In; exact Hv. }
    inversion Hc as [pod Hi Hn' Heq|pod i Hi Hn' Hl Heq|pod i c e Hc1 Ho Hok Heq|pod i c y Hc1 Ho Hok Heq]; subst st2 r2.
    - eexists. split; [reflexivity|]. cbn. auto.
    - discriminate.
    - destruct (HF _ Hok).
    - destruct (HF _ Hok).
  Qed.
  (** No usable criterion at a later iteration: the index of the previous iteration is reused. *)
  Theorem C37_stale_index_reused :
    forall st cands n st' r, run st cands n = (st', r) ->
    exists evs, a_log st' = a_log st ++ evs /\
      forall l1 e1 e2 l2, evs = l1 ++ e1 :: e2 :: l2 -> ~ usable f1e9 (e_crit e2) -> e_idx e2 = e_idx e1.
  Proof.
    intros st cands n st' r H. apply run_events in H. destruct H as (evs & H1 & H2 & _).
    apply events_linked in H2. exists evs. split; [exact H1|]. intros l1 e1 e2 l2 -> NU.
    apply linked_next in H2. destruct H2 as [_ [(v & Hv & Hlt & _)|[_ H]]]; [|congruence].
    destruct NU. exists v. split; [eapply nth_error_In; exact Hv|exact Hlt].
  Qed.
  (** More points than candidates: run never returns normally... *)
  Theorem C37_too_many_points :
    forall st cands n st' r, (length cands < n)%nat -> run st cands n = (st', r) -> r <> Ok tt.
  Proof.
    intros st cands n st' r Hn H ->. apply C36_run_adds_the_requested_points in H.
    destruct H as (cs & ys & rest & H1 & H2 & _). apply Permutation_length in H2. rewrite app_length in H2. lia.
  Qed.
  Lemma loop_exhaust : forall n it k t meta st idx cands,
    (forall it i k s c v, fltb (fst (crit it i k s c v)) f1e9 = true) -> (forall c, In c cands -> exists y, observe c = Ok y) ->
    (length cands < n)%nat ->
    exists st' cs ys, loop n it k t meta st idx cands
        = (st', Raise (match idx, cands with None, [] => UnboundLocalError | _, _ => IndexError end)) /\
      Permutation cands cs /\ a_input st' = a_input st ++ cs /\ a_signals st' = a_signals st ++ ys /\
      Forall2 (fun c y => observe c = Ok y) cs ys.
  Proof.
    induction n as [|n IH]; intros it k t meta st idx cands Hcr Ho Hn; [lia|]. cbn [AdaptiveModel.loop].
    pose proof (iterate_case normalise fit_fixed q2 reoptimise refpod crit observe (it + 1) k meta st idx cands) as Hc.
    destruct (iterate _ _ _ _ _ _ _ (it + 1) k meta st idx cands) as [st2 r2] eqn:E.
    assert (US : forall i x l, cands = x :: l -> usable f1e9 (e_crit (recorded (it + 1) k meta (a_input st) (a_signals st) cands i))).
    { intros i x l ->. eexists. split; [cbn; now left|]. apply Hcr. }
    inversion Hc as [pod Hi NU Heq|pod i Hi NU Hl Heq|pod i c e Hc1 Hob Hok Heq|pod i c y Hc1 Hob Hok Heq]; subst st2 r2.
    - destruct cands as [|x l]; [|destruct NU; eapply US; reflexivity]. rewrite Hi. eexists _, [], []. split; [reflexivity|].
      cbn. rewrite !app_nil_r. auto.
    - destruct cands as [|x l]; [|destruct NU; eapply US; reflexivity]. rewrite Hi. eexists _, [], []. split; [reflexivity|].
      cbn. rewrite !app_nil_r. auto.
    - destruct (Ho c (nth_error_In _ _ Hc1)) as (y & Hy). congruence.
    - destruct (IH (it + 1) (refit k (a_input st ++ [c]) (a_signals st ++ [y])) (normalise (a_input st ++ [c])) meta
                  {| a_input := a_input st ++ [c]; a_signals := a_signals st ++ [y];
                     a_model := Some (refit k (a_input st ++ [c]) (a_signals st ++ [y])); a_pod := pod;
                     a_log := a_log st ++ [recorded (it + 1) k meta (a_input st) (a_signals st) cands i] |} (Some i) (erase i cands))
        as (st' & cs & ys & H1 & H2 & H3 & H4 & H5); [exact Hcr| |rewrite (erase_length _ _ _ Hc1) in Hn; lia|].
      { intros c' Hc'. apply Ho. apply (Permutation_in c' (Permutation_sym (erase_perm _ _ _ Hc1))). now right. }
      cbn [a_input a_signals] in *. rewrite H1. exists st', (c :: cs), (y :: ys). split.
      { f_equal. f_equal. destruct idx; [reflexivity|]. destruct cands; [destruct i; discriminate|]. reflexivity. }
      split; [rewrite (erase_perm _ _ _ Hc1); now constructor|]. split; [rewrite H3, <- app_assoc; reflexivity|].
      split; [rewrite H4, <- app_assoc; reflexivity|]. now constructor.
  Qed.
  (** ... and when nothing else goes wrong it fails after having added all of them. *)
  Theorem C37_candidates_run_out :
    forall st cands n,
      (forall it i k s c v, fltb (fst (crit it i k s c v)) f1e9 = true) -> (forall c, In c cands -> exists y, observe c = Ok y) ->
      cands <> [] -> (length cands < n)%nat ->
    exists st' cs ys, run st cands n = (st', Raise IndexError) /\ Permutation cands cs /\
      a_input st' = a_input st ++ cs /\ a_signals st' = a_signals st ++ ys /\ Forall2 (fun c y => observe c = Ok y) cs ys.
  Proof.
    intros st cands n Hcr Ho Hne Hn. unfold AdaptiveModel.run.
    set (k := fit_init _ _ _). set (st1 := {| a_input := _; a_signals := _; a_model := _; a_pod := _; a_log := _ |}).
    destruct (loop_exhaust n 0 k (normalise (a_input st)) (metamodel k (normalise (a_input st))) st1 None cands Hcr Ho Hn)
      as (st' & cs & ys & H1 & H2 & H3 & H4 & H5).
    rewrite H1. destruct cands; [congruence|]. exists st', cs, ys. split; [reflexivity|]. cbn in *. auto.
  Qed.
  (** When the physical model (or the transformation) fails the point is already in the input DOE: the input and the
      output DOE no longer have the same size. *)
  Lemma loop_lengths n : forall it k t meta st idx cands st' r,
    loop n it k t meta st idx cands = (st', r) ->
    length (a_input st) = length (a_signals st) ->
    length (a_input st') = length (a_signals st') \/
    length (a_input st') = S (length (a_signals st')) /\ exists c e, In c cands /\ observe c = Raise e /\ r = Raise e.
  Proof.
    induction n as [|n IH]; intros it k t meta st idx cands st' r H L; cbn in H.
    - injection H as <- <-. now left.
    - pose proof (iterate_case normalise fit_fixed q2 reoptimise refpod crit observe (it + 1) k meta st idx cands) as Hc.
      destruct (iterate _ _ _ _ _ _ _ (it + 1) k meta st idx cands) as [st1 r1] eqn:E.
      inversion Hc as [pod Hi NU Heq|pod i Hi NU Hl Heq|pod i c e Hc1 Ho Hok Heq|pod i c y Hc1 Ho Hok Heq]; subst st1 r1.
      + injection H as <- <-. now left.
      + injection H as <- <-. now left.
      + injection H as <- <-. right. cbn. rewrite app_length. cbn. split; [lia|]. exists c, e. split; [eapply nth_error_In; exact Hc1|auto].
      + apply IH in H.
        * destruct H as [H|(H & c' & e & H1 & H2)]; [now left|]. right. split; [exact H|]. exists c', e. split; [|exact H2].
          apply (Permutation_in c' (Permutation_sym (erase_perm _ _ _ Hc1))). now right.
        * cbn. rewrite !app_length. cbn. lia.
  Qed.
  Theorem C37_sizes_differ_only_after_a_model_failure :
    forall st cands n st' r, run st cands n = (st', r) -> length (a_input st) = length (a_signals st) ->
      length (a_input st') = length (a_signals st') \/
      length (a_input st') = S (length (a_signals st')) /\ exists c e, In c cands /\ observe c = Raise e /\ r = Raise e.
  Proof.
    intros st cands n st' r H L. unfold AdaptiveModel.run in H.
    destruct (loop n 0 _ _ _ _ None cands) as [st1 [[k' t']|e]] eqn:E; apply loop_lengths in E; try exact L;
      injection H as <- <-; cbn in *; destruct E as [E|(E1 & c & e' & E2 & E3 & E4)]; auto; try discriminate.
    right. split; [exact E1|]. exists c, e'. split; [exact E2|]. split; [exact E3|]. congruence.
  Qed.

  (** At every iteration the predicted signals and the POD before the addition come from the kriging of the DOE at the
      beginning of run; the criterion itself uses the current kriging and the current DOE. *)
  Theorem C38_predictions_of_the_initial_model :
    forall st cands n st' r, run st cands n = (st', r) ->
    let meta := metamodel (fit_init (a_model st) (a_input st) (a_signals st)) (normalise (a_input st)) in
    exists evs, a_log st' = a_log st ++ evs /\
      forall j e, nth_error evs j = Some e ->
        e_pred e = map meta (e_cands e) /\
        exists ys, length ys = j /\
          e_crit e = map (fun ic => fst (crit (j + 1) (fst ic) (e_model e)
                                          ((a_input st ++ flat_map chosen_of (firstn j evs)) ++ [snd ic])
                                          ((a_signals st ++ ys) ++ [meta (snd ic)]) (refpod (j + 1) meta)))
                         (combine (seq 0 (length (e_cands e))) (e_cands e)) /\
          (e_model e = if Nat.eqb j 0 then fit_init (a_model st) (a_input st) (a_signals st)
                       else refit match nth_error evs (j - 1) with Some e' => e_model e' | None => e_model e end
                              (a_input st ++ flat_map chosen_of (firstn j evs)) (a_signals st ++ ys)).
  Proof.
    intros st cands n st' r H meta. apply run_events in H. destruct H as (evs & H1 & H2 & _). fold meta in H2.
    exists evs. split; [exact H1|]. clear H1.
    enough (G : forall it k input signals idx cands evs, events_ok meta it k input signals idx cands evs ->
       forall j e, nth_error evs j = Some e ->
        e_pred e = map meta (e_cands e) /\
        exists ys, length ys = j /\
          e_crit e = map (fun ic => fst (crit (it + j + 1) (fst ic) (e_model e)
                                          ((input ++ flat_map chosen_of (firstn j evs)) ++ [snd ic])
                                          ((signals ++ ys) ++ [meta (snd ic)]) (refpod (it + j + 1) meta)))
                         (combine (seq 0 (length (e_cands e))) (e_cands e)) /\
          (e_model e = if Nat.eqb j 0 then k
                       else refit match nth_error evs (j - 1) with Some e' => e_model e' | None => e_model e end
                              (input ++ flat_map chosen_of (firstn j evs)) (signals ++ ys))).
    { intros j e He. exact (G _ _ _ _ _ _ _ H2 j e He). }
    clear H2 evs. intros it k input signals idx cs evs Hev.
    induction Hev as [it k input signals idx cs|it k input signals idx cs i c e Hc Ho Hi|it k input signals idx cs i c y evs Hc Ho Hi Hev IH];
      intros j e' Hj.
    - destruct j; discriminate.
    - destruct j as [|[|j]]; try discriminate. injection Hj as <-. split; [reflexivity|]. exists []. split; [reflexivity|].
      cbn [firstn flat_map]. rewrite !app_nil_r, Nat.add_0_r. split; reflexivity.
    - destruct j as [|j].
      + injection Hj as <-. split; [reflexivity|]. exists []. split; [reflexivity|].
        cbn [firstn flat_map]. rewrite !app_nil_r, Nat.add_0_r. split; reflexivity.
      + cbn [nth_error] in Hj. destruct (IH j e' Hj) as (G1 & ys & G2 & G3 & G4). split; [exact G1|].
        exists (y :: ys). split; [cbn; now rewrite G2|]. cbn [firstn flat_map]. unfold chosen_of at 1 3. cbn [e_cands e_idx recorded].
        rewrite Hc. rewrite (app_assoc input [c]), !(app_assoc signals [y] ys : signals ++ y :: ys = _).
        split.
        * rewrite G3. replace (it + S j + 1) with (it + 1 + j + 1) by lia. reflexivity.
        * cbn [Nat.eqb]. rewrite G4. destruct j as [|j]; [destruct ys; [|discriminate]; cbn [firstn flat_map]; rewrite !app_nil_r; reflexivity|]. cbn [Nat.eqb Nat.sub]. rewrite Nat.sub_0_r. cbn [nth_error].
          cbn in Hj. destruct (nth_error evs j) as [e1|] eqn:Ee; [reflexivity|].
          apply nth_error_None in Ee. assert (S j < length evs)%nat by (apply nth_error_Some; cbn in *; rewrite Hj; discriminate). lia.
  Qed.
  (** Specification of the update of the model: [k] is the model obtained from [kp] on the DOE (input, signals): the covariance
      parameters of [kp] are kept as they are unless that gives a Q2 below 0.95 on this DOE, in which case they are re-optimised. *)
  Definition updated_from (kp : K) (input : list P) (signals : list Y) (k : K) : Prop :=
    let kept := fit_fixed kp input signals in
    let quality := q2 kept (normalise input) input signals in
    (fltb quality f095 = true -> k = reoptimise kept) /\ (fltb quality f095 = false -> k = kept).
  (** The final POD uses the kriging fitted on the final DOE with the normalisation of the final DOE. *)
  Theorem C38_final_pod :
    forall st cands n st', run st cands n = (st', Ok tt) ->
    exists k, a_model st' = Some k /\ a_pod st' = Some (final_pod k (normalise (a_input st'))) /\
      (n = 0%nat /\ k = fit_init (a_model st) (a_input st) (a_signals st) \/ exists kp, updated_from kp (a_input st') (a_signals st') k).
  Proof.
    intros st cands n st' H. unfold AdaptiveModel.run in H.
    destruct (loop n 0 _ _ _ _ None cands) as [st1 [[k' t']|e]] eqn:E; [|discriminate].
    apply loop_ok in E. destruct E as (cs & ys & rest & H1 & H2 & H3 & H4 & H5 & H6 & H7 & H8).
    injection H as <-. exists k'. cbn in *. split; [now apply H8|]. split; [now rewrite H6|].
    destruct H7 as [H7|(kp & H7)]; [left; exact H7|right; exists kp]. unfold updated_from. subst k'. unfold AdaptiveModel.refit.
    destruct (fltb _ f095); split; congruence.
  Qed.
End Props.
Print Assumptions C36_run_adds_the_requested_points.
Print Assumptions C36_runs_accumulate.
Print Assumptions C36_first_minimiser.
Print Assumptions C37_first_iteration.
Print Assumptions C37_stale_index_reused.
Print Assumptions C37_too_many_points.
Print Assumptions C37_candidates_run_out.
Print Assumptions C37_sizes_differ_only_after_a_model_failure.
Print Assumptions C38_predictions_of_the_initial_model.
Print Assumptions C38_final_pod.

(** *** A concrete instance: points and signals are numbers; a kriging is the size of its DOE plus 1000 per optimisation; it predicts
    its own number plus the point. *)
Definition ex_run (crit : nat -> nat -> float) (observe : nat -> res nat) :=
  run (P := nat) (Y := nat) (K := nat) (T := nat) (D := nat) (C := nat)
    (fun _ i _ => length i + 1000) (fun i => length i) (fun _ i _ => length i) (fun k _ _ _ => if Nat.even k then fzero else fone)
    (fun k => k + 1000) (fun k t x => k + x) (fun it meta => meta it)
    (fun it i k inp sig c => (crit it i, it)) (fun k t => k + t) observe.
Definition ex_st : astate nat nat nat nat := {| a_input := [1; 2]; a_signals := [10; 20]; a_model := None; a_pod := None; a_log := [] |}.
Definition ex_crit (it i : nat) : float := of_int (Z.of_nat (3 * it - i)).
Definition ex_obs (x : nat) : res nat := if Nat.eqb x 13 then Raise GenericException else Ok (x * 10).
Example C36_example :
  let '(st, r) := ex_run ex_crit ex_obs ex_st [5; 6; 7] 2 in
  r = Ok tt /\ a_input st = [1; 2; 7; 6] /\ a_signals st = [10; 20; 70; 60] /\ a_model st = Some 1004 /\ a_pod st = Some 1008 /\
  map e_idx (a_log st) = [2; 1] /\ map e_pred (a_log st) = [[1007; 1008; 1009]; [1007; 1008]].
Proof. vm_compute. repeat split. Qed.
(** All criteria unusable at the second iteration: the previous index is used and a point with a NaN criterion is added. *)
Definition ex_crit_nan (it i : nat) : float := if Nat.eqb it 1 then of_int (Z.of_nat i) else SpecFloat.S754_nan.
Theorem C37_unselected_point_added_refuted :
  exists crit st cands n st' e, ex_run crit ex_obs st cands n = (st', Ok tt) /\ In e (a_log st') /\
    nth_error (e_crit e) (e_idx e) = Some SpecFloat.S754_nan.
Proof.
  exists ex_crit_nan, ex_st, [5; 6; 7], 2. eexists. eexists. split; [vm_compute; reflexivity|].
  split; [right; left; reflexivity|]. reflexivity.
Qed.
Example C37_first_iteration_example :
  (forall i k s c v d, (fun (it i k : nat) (inp sig : list nat) (c : nat) => (SpecFloat.S754_nan, it)) 1 i k s c v = d -> fltb (fst d) f1e9 = false) /\
  snd (ex_run (fun _ _ => SpecFloat.S754_nan) ex_obs ex_st [5; 6] 1) = Raise UnboundLocalError.
Proof. split; [intros i k s c v d <-; reflexivity|reflexivity]. Qed.
Example C37_run_out_example :
  (forall c, In c [5; 6] -> exists y, ex_obs c = Ok y) /\
  let '(st, r) := ex_run ex_crit ex_obs ex_st [5; 6] 3 in r = Raise IndexError /\ a_input st = [1; 2; 6; 5] /\ a_signals st = [10; 20; 60; 50].
Proof. split; [intros c [<-|[<-|[]]]; eexists; reflexivity|vm_compute; auto]. Qed.
Example C37_model_failure_example :
  let '(st, r) := ex_run ex_crit ex_obs ex_st [5; 13] 2 in
  r = Raise GenericException /\ a_input st = [1; 2; 13] /\ a_signals st = [10; 20].
Proof. vm_compute. auto. Qed.
(** The candidates' predictions are not those of the current kriging. *)
Theorem C38_current_model_refuted :
  exists st cands n st' e, ex_run ex_crit ex_obs st cands n = (st', Ok tt) /\ In e (a_log st') /\
    e_pred e <> map (fun x => e_model e + x) (e_cands e).
Proof.
  exists ex_st, [5; 6; 7], 2. eexists. eexists. split; [vm_compute; reflexivity|]. split; [right; left; reflexivity|].
  vm_compute. discriminate.
Qed.
Print Assumptions C37_unselected_point_added_refuted.
Print Assumptions C38_current_model_refuted.
