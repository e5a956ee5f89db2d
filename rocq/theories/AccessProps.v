(** C88: settings of the POD classes, getters of the hit-miss POD. *)
From Coq Require Import String.
From Verif Require Import Base Float64 SettersModel HitMissModel HitMissSpec HitMissProofs HitMissProps AccessModel.
Local Open Scope list_scope.

(** The type checks in words: the verbosity and the graph switch are bool, the directory a string or None, the distribution a JointDistribution; the
    sizes and the levels are not checked. *)
Definition well_typed (o : call) : Prop :=
  match o with
  | SetVerbose v => exists b, v = ABool b
  | SetDistribution d => exists n, d = AJoint n
  | SetGraph g _ _ dir => (exists b, g = ABool b) /\ (dir = ANone \/ exists d, dir = AStr d)
  | _ => True
  end.
(** The classes with each setter. *)
Definition owners (o : call) : list pclass :=
  match o with
  | SetVerbose _ | SetSimulation _ => [CLinear; CQuantile; CChaos; CKriging; CSignal; CHitMiss; CSummary]
  | SetSampling _ => [CChaos; CKriging; CSignal; CHitMiss; CSummary]
  | SetStart _ => [CKriging; CSignal]
  | SetCandidates _ | SetGraph _ _ _ _ => [CSignal; CHitMiss]
  | SetDistribution _ => [CChaos; CKriging; CSignal; CHitMiss]
  end.
Lemma owners_spec c o : has_method c o = true <-> In c (owners o).
Proof.
  destruct o, c; cbn; split; auto 10; try discriminate; intros H; repeat (destruct H as [H|H]; try discriminate); contradiction.
Qed.
(** A setter works iff the class has it and its arguments have the right types; otherwise the object is left as it was. *)
Lemma outcome c s o :
  (snd (do_call c s o) = Ok tt <-> has_method c o = true /\ well_typed o) /\
  (snd (do_call c s o) <> Ok tt -> fst (do_call c s o) = s) /\
  (has_method c o = true -> ~ well_typed o -> snd (do_call c s o) = Raise (match o with SetDistribution _ => ValueError | _ => TypeError end)) /\
  (has_method c o = false -> snd (do_call c s o) = Raise AttributeError).
Proof.
  unfold do_call. destruct (has_method c o) eqn:E.
  - assert (G : (snd (body o s) = Ok tt /\ well_typed o) \/ (body o s = (s, Raise (match o with SetDistribution _ => ValueError | _ => TypeError end)) /\ ~ well_typed o)).
    { destruct o as [v|n|n|n|n|d|g p c' dir]; cbn.
      - destruct v; try (right; split; [reflexivity|intros [x [=]]]). left. split; [reflexivity|eauto].
      - left. auto.
      - left. auto.
      - left. auto.
      - left. auto.
      - destruct d; try (right; split; [reflexivity|intros [x [=]]]). left. split; [reflexivity|eauto].
      - destruct g; try (right; split; [reflexivity|intros [[x [=]] _]]). destruct dir; try (right; split; [reflexivity|intros [_ [[=]|[x [=]]]]]); left; (split; [reflexivity|]); split; eauto. }
    destruct G as [[G1 G2]|[G1 G2]]; [rewrite G1|rewrite G1]; (split; [|split; [|split]]); cbn.
    + tauto.
    + congruence.
    + contradiction.
    + discriminate.
    + split; [discriminate|tauto].
    + reflexivity.
    + reflexivity.
    + discriminate.
  - split; [|split; [|split]]; cbn.
    + split; [discriminate|intros [[=] _]].
    + reflexivity.
    + discriminate.
    + reflexivity.
Qed.
Theorem C88_outcome c s o :
  (snd (do_call c s o) = Ok tt <-> In c (owners o) /\ well_typed o) /\
  (snd (do_call c s o) <> Ok tt -> fst (do_call c s o) = s) /\
  (In c (owners o) -> ~ well_typed o -> snd (do_call c s o) = Raise (match o with SetDistribution _ => ValueError | _ => TypeError end)) /\
  (~ In c (owners o) -> snd (do_call c s o) = Raise AttributeError).
Proof.
  destruct (outcome c s o) as (A & B & C & D). rewrite <- owners_spec. split; [exact A|]. split; [exact B|]. split; [exact C|].
  intros N. apply D. destruct (has_method c o); [now destruct N|reflexivity].
Qed.
(** What the last accepted call said about an attribute. *)
Fixpoint last_said {A} (said : call -> option A) (c : pclass) (l : list call) (default : A) : A :=
  match l with
  | [] => default
  | o :: l' => last_said said c l' (if has_method c o then match said o with Some a => a | None => default end else default)
  end.
Definition said_verbose (o : call) := match o with SetVerbose (ABool b) => Some b | _ => None end.
Definition said_simulation (o : call) := match o with SetSimulation n => Some n | _ => None end.
Definition said_sampling (o : call) := match o with SetSampling n => Some n | _ => None end.
Definition said_start (o : call) := match o with SetStart n => Some n | _ => None end.
Definition said_candidates (o : call) := match o with SetCandidates n => Some n | _ => None end.
Definition said_distribution (o : call) := match o with SetDistribution (AJoint n) => Some (Some n) | _ => None end.
(** The four graph options change together. *)
Definition said_graph (o : call) : option (bool * arg * arg * option string) :=
  match o with
  | SetGraph (ABool b) p c ANone => Some (b, p, c, None)
  | SetGraph (ABool b) p c (AStr d) => Some (b, p, c, Some d)
  | _ => None
  end.
(** After any calls, in any order and with failures in between, each attribute is what the last accepted call about it said, or its default. *)
Theorem C88_history c l :
  s_verbose (calls c l) = last_said said_verbose c l true /\
  s_simulation (calls c l) = last_said said_simulation c l (AOther 1000) /\
  s_sampling (calls c l) = last_said said_sampling c l (AOther (match c with CHitMiss => 10000 | _ => 5000 end)) /\
  s_start (calls c l) = last_said said_start c l (AOther (match c with CHitMiss => 1000 | _ => 100 end)) /\
  s_candidates (calls c l) = last_said said_candidates c l (AOther (match c with CSignal => 1000 | _ => 5000 end)) /\
  s_dist (calls c l) = last_said said_distribution c l None /\
  (s_graph (calls c l), s_p (calls c l), s_c (calls c l), s_dir (calls c l)) = last_said said_graph c l (false, ANone, ANone, None).
Proof.
  unfold calls.
  assert (G : forall s, let s' := fold_left (fun s o => fst (do_call c s o)) l s in
    s_verbose s' = last_said said_verbose c l (s_verbose s) /\ s_simulation s' = last_said said_simulation c l (s_simulation s) /\
    s_sampling s' = last_said said_sampling c l (s_sampling s) /\ s_start s' = last_said said_start c l (s_start s) /\
    s_candidates s' = last_said said_candidates c l (s_candidates s) /\ s_dist s' = last_said said_distribution c l (s_dist s) /\
    (s_graph s', s_p s', s_c s', s_dir s') = last_said said_graph c l (s_graph s, s_p s, s_c s, s_dir s)).
  { induction l as [|o l' IH]; intros s; [cbn; auto 10|]. cbn [fold_left last_said]. specialize (IH (fst (do_call c s o))). cbn zeta in *.
    destruct IH as (I1 & I2 & I3 & I4 & I5 & I6 & I7). rewrite I1, I2, I3, I4, I5, I6, I7. clear. unfold do_call.
    destruct (has_method c o) eqn:E; [|cbn; auto 10]. destruct o as [v|n|n|n|n|d|g p c' dir]; cbn; auto 10.
    - destruct v; cbn; auto 10.
    - destruct d; cbn; auto 10.
    - destruct g; cbn; auto 10. destruct dir; cbn; auto 10. }
  exact (G (initial c)).
Qed.
(** run keeps the distribution given by the user and otherwise sets the default one, once: later runs keep it. *)
Theorem C88_distribution default default' s :
  s_dist (run_distribution default s) = Some (match s_dist s with Some d => d | None => default end) /\
  run_distribution default' (run_distribution default s) = run_distribution default s /\
  guarded_get (s_dist (run_distribution default s)) = (false, Some (match s_dist s with Some d => d | None => default end)).
Proof. destruct s as [? ? ? ? ? [d|] ? ? ? ?]; cbn; auto. Qed.
(** getConfusionMatrix after a first run: a matrix iff points were added. Finding: with nMorePoints = 0 it prints that run must be launched first,
    although it has been. *)
Theorem C88_confusion_matrix : forall (X : Type) argsort fit phys (candidates : list X) b nMore fuel input labels s,
  hm_run argsort fit phys candidates b nMore fuel input labels = Some (s, Ok tt) ->
  (guarded_get (confMat_after None s) = (true, None) <-> nMore = 0) /\
  (forall previous, nMore <> 0 -> exists m, guarded_get (confMat_after previous s) = (false, Some m) /\ h_conf s = Some m).
Proof.
  intros X argsort fit phys candidates b nMore fuel input labels s H.
  assert (G : nMore = 0 /\ h_conf s = None \/ nMore <> 0 /\ exists m, h_conf s = Some m).
  { unfold hm_run in H. destruct (Nat.eq_dec nMore 0) as [->|N].
    - left. split; [reflexivity|]. destruct fuel; cbn [hm_loop hm_start h_added Nat.ltb Nat.leb] in H; injection H as <-; reflexivity.
    - right. split; [exact N|].
      assert (L : forall f n st, hm_loop argsort fit phys candidates b nMore f n st = Some (s, Ok tt) -> h_added st < nMore \/ (exists m, h_conf st = Some m) -> exists m, h_conf s = Some m).
      { induction f as [|f IH]; intros n st E C; cbn [hm_loop] in E; destruct (Nat.ltb_spec (h_added st) nMore).
        - discriminate.
        - injection E as <-. destruct C; [lia|assumption].
        - destruct (hm_step argsort fit phys candidates b nMore n st) as [st' [u|e]] eqn:Es; [|discriminate]. apply (IH _ _ E). right.
          unfold hm_step in Es. destruct (bind _ _); [|discriminate]. injection Es as <- _. cbn. eauto.
        - injection E as <-. destruct C; [lia|assumption]. }
      apply (L _ _ _ H). left. cbn. lia. }
  unfold confMat_after. destruct G as [[-> ->]|[N [m ->]]]; split.
  - cbn. tauto.
  - contradiction.
  - cbn. split; [discriminate|contradiction].
  - intros previous _. exists m. split; reflexivity.
Qed.
Print Assumptions C88_outcome.
Print Assumptions C88_history.
Print Assumptions C88_distribution.
Print Assumptions C88_confusion_matrix.
(** Cases. *)
Example C88_case :
  let s := calls CSignal [SetVerbose (AOther 1); SetVerbose (ABool false); SetGraph (ABool true) (AOther 9) ANone (AOther 3); SetGraph (ABool true) (AOther 9) ANone (AStr "out");
                          SetCandidates (AStr "many"); SetDistribution (AOther 2)] in
  s_verbose s = false /\ s_graph s = true /\ s_dir s = Some "out"%string /\ s_candidates s = AStr "many" /\ s_dist s = None.
Proof. cbn. auto. Qed.
Example C88_confusion_case : exists s, hm_run stable_argsort (fun _ _ _ _ => of_ratio 1 2) (fun x : nat => Nat.ltb 4 x) [2; 3] {| pmin := fzero; pmax := fone |} 0 3 [0; 9] [false; true] = Some (s, Ok tt).
Proof. eexists. reflexivity. Qed.
Example C88_confusion_case_more : exists s, hm_run stable_argsort (fun _ _ _ _ => of_ratio 1 2) (fun x : nat => Nat.ltb 4 x) [2; 3; 5; 7; 8] {| pmin := fzero; pmax := fone |} 3 3 [0; 9] [false; true] = Some (s, Ok tt).
Proof. eexists. vm_compute. reflexivity. Qed.
