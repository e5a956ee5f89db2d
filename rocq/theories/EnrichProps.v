(** C86: graphs and failures during the enrichment of the adaptive PODs. *)
From Coq Require Import String.
From Verif Require Import Base Float64 SettersModel AdaptiveModel HitMissModel HitMissSpec EnrichModel.
Local Open Scope list_scope.

(** The disk after the graphs of the iterations first..first+n-1 have been saved. *)
Definition saved (dir : option string) (first n : nat) (w w' : disk) : Prop :=
  match dir with
  | None => w' = w
  | Some d => d_files w' = d_files w ++ map (fun i => (d, i)) (seq first n) /\
              (forall x, In x (d_dirs w') <-> In x (d_dirs w) \/ (n <> 0 /\ x = d))
  end.
Lemma has_dir_in d w : has_dir d w = true <-> In d (d_dirs w).
Proof.
  unfold has_dir. rewrite existsb_exists. split; [intros (x & H & E); apply String.eqb_eq in E; now subst|intros H; exists d; split; [exact H|apply String.eqb_refl]].
Qed.
Lemma saved_0 dir first w : saved dir first 0 w w.
Proof. unfold saved. destruct dir; [|reflexivity]. cbn. rewrite app_nil_r. split; [reflexivity|]. intros x. split; [auto|intros [H|[H _]]; [exact H|contradiction]]. Qed.
Lemma signal_save_ok dir it w : exists w', signal_save dir it w = (w', Ok tt) /\ saved dir it 1 w w'.
Proof.
  unfold signal_save, savefig. destruct dir as [d|]; [|exists w; split; reflexivity].
  destruct (has_dir d w) eqn:E.
  - rewrite E. eexists. split; [reflexivity|]. cbn. split; [reflexivity|]. intros x. apply has_dir_in in E. split; [auto|intros [H|[_ ->]]; auto].
  - unfold has_dir at 1. cbn [d_dirs existsb]. rewrite String.eqb_refl. cbn [orb]. eexists. split; [reflexivity|]. cbn. split; [reflexivity|]. intros x.
    split; [intros [<-|H]; auto|intros [H|[_ ->]]; auto].
Qed.
Lemma saved_S dir first n w w1 w2 : saved dir first 1 w w1 -> saved dir (first + 1) n w1 w2 -> saved dir first (S n) w w2.
Proof.
  unfold saved. destruct dir as [d|]; [|intros ->; auto]. intros [F1 D1] [F2 D2]. split.
  - rewrite F2, F1, <- app_assoc. f_equal. cbn [seq map]. now rewrite Nat.add_1_r.
  - intros x. rewrite D2, D1. split; [intros [[H|[_ H]]|[_ H]]; auto|intros [H|[_ H]]; auto].
Qed.

Section Signal.
  Context {P Y K T D C : Type}.
  Variables (fit_init : option K -> list P -> list Y -> K) (normalise : list P -> T) (fit_fixed : K -> list P -> list Y -> K)
    (q2 : K -> T -> list P -> list Y -> float) (reopt : K -> res K) (reoptimise : K -> K) (metamodel : K -> T -> P -> Y)
    (refpod : nat -> (P -> Y) -> C) (crit : nat -> nat -> K -> list P -> list Y -> C -> float * D)
    (final_pod : K -> T -> D) (observe : P -> res Y).
  Variables (graph : bool) (dir : option string) (draw : option D -> res unit).
  Notation run := (run fit_init normalise fit_fixed q2 reoptimise metamodel refpod crit final_pod observe).
  Notation loop := (loop normalise fit_fixed q2 reoptimise refpod crit observe).
  Notation iterate := (iterate normalise fit_fixed q2 reoptimise refpod crit observe).
  Notation giterate := (giterate normalise fit_fixed q2 reopt refpod crit observe).
  Notation gloop := (gloop normalise fit_fixed q2 reopt refpod crit observe graph dir draw).
  Notation grun := (grun fit_init normalise fit_fixed q2 reopt metamodel refpod crit final_pod observe graph dir draw).
  (** The state and the kriging before the first iteration, and the state after m iterations without any graph. *)
  Definition first_kriging (st : astate P Y K D) : K := fit_init (a_model st) (a_input st) (a_signals st).
  Definition ready (st : astate P Y K D) : astate P Y K D :=
    {| a_input := a_input st; a_signals := a_signals st; a_model := Some (first_kriging st); a_pod := a_pod st; a_log := a_log st |}.
  Definition after (m : nat) (st : astate P Y K D) (cands : list P) : astate P Y K D * res (K * T) :=
    let k := first_kriging st in let t := normalise (a_input st) in loop m 0 k t (metamodel k t) (ready st) None cands.

  Lemma sg_off it (st : astate P Y K D) w : graph = false -> signal_graph graph dir draw it st w = (w, Ok tt).
  Proof. unfold signal_graph. now intros ->. Qed.
  Lemma sg_on it (st : astate P Y K D) w : graph = true -> signal_graph graph dir draw it st w = match draw (a_pod st) with Raise e => (w, Raise e) | Ok _ => signal_save dir it w end.
  Proof. unfold signal_graph. now intros ->. Qed.
  Section NoFailure.
  Hypothesis Hre : forall k, reopt k = Ok (reoptimise k).
  Lemma giterate_eq it k meta st idx cands : giterate it k meta st idx cands = iterate it k meta st idx cands.
  Proof.
    unfold EnrichModel.giterate, AdaptiveModel.iterate. destruct (scan _ 0 f1e9 idx (a_pod st)) as [[i|] pod']; [|reflexivity]. destruct (nth_error cands i) as [c|]; [|reflexivity].
    destruct (observe c) as [y|]; [|reflexivity]. cbn zeta. unfold grefit, AdaptiveModel.refit. rewrite Hre. cbn [a_input]. destruct (fltb _ f095); reflexivity.
  Qed.
  Lemma loop_S n it k t meta st idx cands : loop (S n) it k t meta st idx cands =
    match iterate (it + 1) k meta st idx cands with
    | (st', Raise e) => (st', Raise e)
    | (st', Ok (i, k', cands')) => loop n (it + 1) k' (normalise (a_input st')) meta st' (Some i) cands'
    end.
  Proof. reflexivity. Qed.
  Lemma gloop_off n : graph = false -> forall it k t meta st w idx cands,
    gloop n it k t meta st w idx cands = let '(s, r) := loop n it k t meta st idx cands in (s, w, r).
  Proof.
    intros G. induction n as [|n IH]; intros it k t meta st w idx cands; [reflexivity|]. cbn [EnrichModel.gloop AdaptiveModel.loop]. rewrite giterate_eq.
    destruct (iterate (it + 1) k meta st idx cands) as [st' [[[i k'] c']|e]]; [|reflexivity]. rewrite (sg_off _ _ _ G). apply IH.
  Qed.
  Lemma gloop_on n : graph = true -> forall it k t meta st w idx cands,
    (forall m s x, 1 <= m <= n -> loop m it k t meta st idx cands = (s, Ok x) -> draw (a_pod s) = Ok tt) ->
    exists j w', j <= n /\ (forall m, m <= j -> exists s x, loop m it k t meta st idx cands = (s, Ok x)) /\
      (j = n \/ exists s e, loop (S j) it k t meta st idx cands = (s, Raise e)) /\ saved dir (it + 1) j w w' /\
      gloop n it k t meta st w idx cands = let '(s, r) := loop n it k t meta st idx cands in (s, w', r).
  Proof.
    intros G. induction n as [|n IH]; intros it k t meta st w idx cands Hd.
    - exists 0, w. split; [lia|]. split; [intros m Hm; replace m with 0 by lia; cbn; eauto|]. split; [now left|]. split; [apply saved_0|reflexivity].
    - cbn [EnrichModel.gloop AdaptiveModel.loop]. rewrite giterate_eq. destruct (iterate (it + 1) k meta st idx cands) as [st' [[[i k'] c']|e]] eqn:E.
      + rewrite (sg_on _ _ _ G).
        assert (D1 := Hd 1 st' (k', normalise (a_input st')) ltac:(lia)). cbn [AdaptiveModel.loop] in D1. rewrite E in D1. rewrite (D1 eq_refl).
        destruct (signal_save_ok dir (it + 1) w) as (w1 & -> & S1).
        destruct (IH (it + 1) k' (normalise (a_input st')) meta st' w1 (Some i) c') as (j & w' & Hj & A & B & Sv & Eq).
        { intros m s x Hm Hx. apply (Hd (S m) s x); [lia|]. now rewrite loop_S, E. }
        exists (S j), w'. split; [lia|]. split; [|split; [|split; [exact (saved_S _ _ _ _ _ _ S1 Sv)|exact Eq]]].
        * intros [|m] Hm; [cbn; eauto|]. cbn [AdaptiveModel.loop]. rewrite E. apply A. lia.
        * destruct B as [->|(s & e & B)]; [now left|right]. exists s, e. exact B.
      + exists 0, w. split; [lia|]. split; [intros m Hm; replace m with 0 by lia; cbn; eauto|].
        split; [right; exists st', e; reflexivity|]. split; [apply saved_0|reflexivity].
  Qed.
  Lemma gloop_stop n : graph = true -> forall it k t meta st w idx cands m s x e,
    1 <= m <= n -> loop m it k t meta st idx cands = (s, Ok x) -> draw (a_pod s) = Raise e ->
    (forall m' s' x', 1 <= m' < m -> loop m' it k t meta st idx cands = (s', Ok x') -> draw (a_pod s') = Ok tt) ->
    exists w', saved dir (it + 1) (m - 1) w w' /\ gloop n it k t meta st w idx cands = (s, w', Raise e).
  Proof.
    intros G. induction n as [|n IH]; intros it k t meta st w idx cands m s x e Hm Hs Hd Hb; [lia|].
    cbn [EnrichModel.gloop]. rewrite giterate_eq. destruct m as [|m]; [lia|]. cbn [AdaptiveModel.loop] in Hs.
    destruct (iterate (it + 1) k meta st idx cands) as [st' [[[i k'] c']|e']] eqn:E; [|discriminate]. rewrite (sg_on _ _ _ G). destruct m as [|m].
    - cbn [AdaptiveModel.loop] in Hs. injection Hs as <- <-. rewrite Hd. exists w. split; [apply saved_0|reflexivity].
    - assert (D1 := Hb 1 st' (k', normalise (a_input st')) ltac:(lia)). cbn [AdaptiveModel.loop] in D1. rewrite E in D1. rewrite (D1 eq_refl).
      destruct (signal_save_ok dir (it + 1) w) as (w1 & -> & S1).
      destruct (IH (it + 1) k' (normalise (a_input st')) meta st' w1 (Some i) c' (S m) s x e ltac:(lia) Hs Hd) as (w' & Sv & Eq).
      { intros m' s' x' Hm' Hx'. apply (Hb (S m') s' x'); [lia|]. now rewrite loop_S, E. }
      exists w'. split; [|exact Eq]. replace (S (S m) - 1) with (S m) by lia. replace (S m - 1) with m in Sv by lia. exact (saved_S _ _ _ _ _ _ S1 Sv).
  Qed.
  (** Without graph, or when every graph can be drawn, run does exactly what it does without graphs. *)
  Theorem C86_signal_off st w cands n : graph = false -> grun st w cands n = let '(s, r) := run st cands n in (s, w, r).
  Proof.
    intros G. unfold EnrichModel.grun, AdaptiveModel.run. rewrite (gloop_off n G). destruct (loop n 0 _ _ _ _ None cands) as [s [[k t]|e]]; reflexivity.
  Qed.
  (** The same state and outcome, and one file per iteration in the directory given, which is created when needed. *)
  Theorem C86_signal_graphs st w cands n : graph = true ->
    (forall m s x, 1 <= m <= n -> after m st cands = (s, Ok x) -> draw (a_pod s) = Ok tt) ->
    exists j w', j <= n /\ (forall m, m <= j -> exists s x, after m st cands = (s, Ok x)) /\ (j = n \/ exists s e, after (S j) st cands = (s, Raise e)) /\
      saved dir 1 j w w' /\ grun st w cands n = let '(s, r) := run st cands n in (s, w', r).
  Proof.
    intros G H. destruct (gloop_on n G 0 _ _ _ (ready st) w None cands H) as (j & w' & Hj & A & B & Sv & Eq). exists j, w'. split; [exact Hj|]. split; [exact A|]. split; [exact B|].
    split; [exact Sv|]. unfold EnrichModel.grun, AdaptiveModel.run. unfold ready, first_kriging in Eq. rewrite Eq. destruct (loop n 0 _ _ _ _ None cands) as [s [[k t]|e]]; reflexivity.
  Qed.
  (** A graph that cannot be drawn (its probability level is not reached by the current POD, for instance) stops the enrichment there: the m
      points added so far stay, the remaining ones are not evaluated, no POD is built, the graphs before are on the disk. *)
  Theorem C86_signal_graph_fails st w cands n m s x e : graph = true ->
    1 <= m <= n -> after m st cands = (s, Ok x) -> draw (a_pod s) = Raise e ->
    (forall m' s' x', 1 <= m' < m -> after m' st cands = (s', Ok x') -> draw (a_pod s') = Ok tt) ->
    exists w', saved dir 1 (m - 1) w w' /\ grun st w cands n = (s, w', Raise e).
  Proof.
    intros G Hm Hs Hd Hb. destruct (gloop_stop n G 0 _ _ _ (ready st) w None cands m s x e Hm Hs Hd Hb) as (w' & Sv & Eq). exists w'. split; [exact Sv|].
    unfold EnrichModel.grun. unfold ready, first_kriging in Eq. now rewrite Eq.
  Qed.
  End NoFailure.

  (** Whatever fails (criterion, physical model, optimisation of the covariance, graph, candidates running out): every value computed by the
      physical model is kept beside its point, and the points come from the candidates, each row at most once; only the point at which the
      physical model itself failed has no value. *)
  Lemma erase_perm {A} i (l : list A) c : nth_error l i = Some c -> Permutation l (c :: erase i l).
  Proof.
    revert i. induction l as [|x l IH]; intros [|i] H; try discriminate; cbn in *; [now injection H as <-|].
    rewrite perm_swap. apply perm_skip. now apply IH.
  Qed.
  Lemma gloop_kept n : forall it k t meta st w idx cands s w' r, gloop n it k t meta st w idx cands = (s, w', r) ->
    exists cs ys rest, Permutation cands (cs ++ rest) /\ List.length cs <= n /\ Forall2 (fun c y => observe c = Ok y) cs ys /\ a_signals s = a_signals st ++ ys /\
      (a_input s = a_input st ++ cs \/ exists c e, a_input s = a_input st ++ cs ++ [c] /\ In c rest /\ observe c = Raise e /\ r = Raise e).
  Proof.
    induction n as [|n IH]; intros it k t meta st w idx cands s w' r H; cbn [EnrichModel.gloop] in H.
    - injection H as <- <- <-. exists [], [], cands. rewrite !app_nil_r. repeat (split; [auto|]). now left.
    - destruct (giterate (it + 1) k meta st idx cands) as [st' o] eqn:E.
      assert (G : exists cs ys rest, Permutation cands (cs ++ rest) /\ List.length cs <= 1 /\ Forall2 (fun c y => observe c = Ok y) cs ys /\ a_signals st' = a_signals st ++ ys /\
        (a_input st' = a_input st ++ cs \/ exists c e, a_input st' = a_input st ++ cs ++ [c] /\ In c rest /\ observe c = Raise e /\ o = Raise e) /\
        forall i k' c', o = Ok (i, k', c') -> a_input st' = a_input st ++ cs /\ Permutation rest c').
      { unfold EnrichModel.giterate in E. destruct (scan _ 0 f1e9 idx (a_pod st)) as [[i|] pod'].
        2: { injection E as <- <-. exists [], [], cands. cbn. rewrite !app_nil_r. do 5 (split; [solve [auto with arith]|]). intros i1 k0 c0 [=]. }
        destruct (nth_error cands i) as [c|] eqn:Ec.
        2: { injection E as <- <-. exists [], [], cands. cbn. rewrite !app_nil_r. do 5 (split; [solve [auto with arith]|]). intros i' k' c' [=]. }
        assert (Pm := erase_perm i cands c Ec). destruct (observe c) as [y|e] eqn:Eo.
        2: { injection E as <- <-. exists [], [], cands. cbn. rewrite !app_nil_r. do 4 (split; [solve [auto with arith]|]). split; [right; exists c, e; split; [reflexivity|]; split; [now apply nth_error_In in Ec|]; auto|]. intros i' k' c' [=]. }
        destruct (grefit _ _ _ _ k _ _) as [k'|e]; injection E as <- <-; exists [c], [y], (erase i cands); cbn; (split; [exact Pm|]); (split; [lia|]); (split; [auto|]);
          (split; [reflexivity|]); (split; [now left|]); [intros i' k0 c' [= <- <- <-]; split; reflexivity|intros i' k0 c' [=]]. }
      destruct G as (cs & ys & rest & P1 & L1 & F1 & S1 & I1 & N1). destruct o as [[[i k'] c']|e].
      + destruct (N1 i k' c' eq_refl) as [I2 P2]. destruct (signal_graph graph dir draw (it + 1) st' w) as [w1 [u|e]].
        * apply IH in H. destruct H as (cs2 & ys2 & rest2 & P3 & L3 & F3 & S3 & I3). exists (cs ++ cs2), (ys ++ ys2), rest2.
          split; [rewrite P1, P2, P3, app_assoc; reflexivity|]. split; [rewrite app_length; lia|]. split; [now apply Forall2_app|]. split; [now rewrite S3, S1, app_assoc|].
          destruct I3 as [I3|(c & e & I3 & Hr & O3 & R3)]; [left; now rewrite I3, I2, app_assoc|right; exists c, e; split; [rewrite I3, I2, !app_assoc; reflexivity|auto]].
        * injection H as <- <- <-. exists cs, ys, rest. split; [exact P1|]. split; [lia|]. split; [exact F1|]. split; [exact S1|]. now left.
      + injection H as <- <- <-. exists cs, ys, rest. split; [exact P1|]. split; [lia|]. split; [exact F1|]. split; [exact S1|].
        destruct I1 as [I1|(c & e0 & I1 & Hr & O1 & [= <-])]; [now left|right; exists c, e; auto].
  Qed.
  Theorem C86_nothing_lost st w cands n s w' r : grun st w cands n = (s, w', r) ->
    exists cs ys rest, Permutation cands (cs ++ rest) /\ List.length cs <= n /\ Forall2 (fun c y => observe c = Ok y) cs ys /\ a_signals s = a_signals st ++ ys /\
      (a_input s = a_input st ++ cs \/ exists c e, a_input s = a_input st ++ cs ++ [c] /\ In c rest /\ observe c = Raise e /\ r = Raise e).
  Proof.
    unfold EnrichModel.grun. destruct (gloop n 0 _ _ _ _ w None cands) as [[s1 w1] [[k' t']|e]] eqn:E; apply gloop_kept in E; intros [= <- <- <-]; cbn [a_input a_signals];
      destruct E as (cs & ys & rest & H1 & H2 & H3 & H4 & [H5|(c & e0 & H5 & H6 & H7 & H8)]); exists cs, ys, rest; do 4 (split; [assumption|]).
    - now left.
    - discriminate.
    - now left.
    - injection H8 as <-. right. exists c, e. auto.
  Qed.
  (** An optimisation of the covariance that fails stops the run at the first iteration whose Q2 is below 0.95, after its point has been added,
      the kriging being still the one of the iteration before. *)
  Theorem C86_optimisation_fails st w cands n i c y e pod :
    let k := first_kriging st in let meta := metamodel k (normalise (a_input st)) in
    scan (map (evaluate refpod crit 1 k meta (ready st)) (enumerate cands)) 0 f1e9 None (a_pod st) = (Some i, pod) ->
    nth_error cands i = Some c -> observe c = Ok y ->
    let inp := a_input st ++ [c] in let sig := a_signals st ++ [y] in let k' := fit_fixed k inp sig in
    fltb (q2 k' (normalise inp) inp sig) f095 = true -> reopt k' = Raise e ->
    exists s, grun st w cands (S n) = (s, w, Raise e) /\ a_input s = inp /\ a_signals s = sig /\ a_model s = Some k.
  Proof.
    cbn zeta. intros Hsc Hc Hy Hq Hr. unfold EnrichModel.grun. cbn [EnrichModel.gloop]. unfold EnrichModel.giterate. change (0 + 1) with 1. fold (first_kriging st). fold (ready st).
    change (a_pod (ready st)) with (a_pod st). rewrite Hsc. cbn zeta. rewrite Hc, Hy. unfold grefit. cbn [a_input a_signals a_model ready]. cbn zeta. rewrite Hq, Hr.
    eexists. split; [reflexivity|]. cbn. auto.
  Qed.
End Signal.
Print Assumptions C86_signal_off.
Print Assumptions C86_signal_graphs.
Print Assumptions C86_signal_graph_fails.
Print Assumptions C86_nothing_lost.
Print Assumptions C86_optimisation_fails.

Section HitMiss.
  Context {X : Type}.
  Variables (argsort : list float -> list nat) (fit : nat -> list X -> list bool -> X -> float) (phys : X -> bool) (candidates : list X) (b : band) (nMore : nat).
  Variables (graph : bool) (dir : option string) (draw : hm_state (X := X) -> res unit).
  Notation step := (hm_step argsort fit phys candidates b nMore).
  Notation loop := (hm_loop argsort fit phys candidates b nMore).
  Notation gloop := (ghm_loop argsort fit phys candidates b nMore graph dir draw).
  Notation grun := (ghm_run argsort fit phys candidates b nMore graph dir draw).
  (** The state after m iterations without any graph. *)
  Fixpoint turns (m n_ini : nat) (s : hm_state (X := X)) : hm_state (X := X) * res unit :=
    match m with O => (s, Ok tt) | S m' => match step n_ini s with (s', Ok _) => turns m' n_ini s' | (s', Raise e) => (s', Raise e) end end.
  Lemma hg_off (s : hm_state (X := X)) w : graph = false -> hitmiss_graph graph dir draw s w = (w, Ok tt).
  Proof. unfold hitmiss_graph. now intros ->. Qed.
  Lemma hg_on (s : hm_state (X := X)) w : graph = true -> hitmiss_graph graph dir draw s w = match draw s with Raise e => (w, Raise e) | Ok _ => hitmiss_save dir (h_iter s) w end.
  Proof. unfold hitmiss_graph. now intros ->. Qed.
  Lemma step_iter n_ini s s' u : step n_ini s = (s', Ok u) -> h_iter s' = S (h_iter s).
  Proof. unfold hm_step. destruct (bind _ _); [|discriminate]. intros [= <- _]. reflexivity. Qed.
  Theorem C86_hitmiss_off fuel input labels w : graph = false ->
    grun fuel input labels w = option_map (fun p => (fst p, w, snd p)) (hm_run argsort fit phys candidates b nMore fuel input labels).
  Proof.
    intros G. unfold ghm_run, hm_run. generalize (hm_start fit input labels), (List.length input). induction fuel as [|f IH]; intros s n; cbn [ghm_loop hm_loop]; destruct (Nat.ltb (h_added s) nMore); try reflexivity.
    destruct (step n s) as [s' [u|e]]; [|reflexivity]. rewrite (hg_off _ _ G). apply IH.
  Qed.
  Lemma hgloop_on fuel : graph = true -> forall n_ini s w o,
    (forall d, dir = Some d -> In d (d_dirs w)) ->
    (forall m s', turns m n_ini s = (s', Ok tt) -> 1 <= m -> draw s' = Ok tt) -> loop fuel n_ini s = Some o ->
    exists j w', saved dir (S (h_iter s)) j w w' /\ h_iter (fst o) = h_iter s + j /\ gloop fuel n_ini s w = Some (fst o, w', snd o).
  Proof.
    intros G. induction fuel as [|f IH]; intros n_ini s w o Hdir Hd Ho; cbn [ghm_loop hm_loop] in *; destruct (Nat.ltb (h_added s) nMore).
    - discriminate.
    - injection Ho as <-. exists 0, w. split; [apply saved_0|]. split; [cbn; lia|reflexivity].
    - destruct (step n_ini s) as [s' [[]|e]] eqn:E.
      + rewrite (hg_on _ _ G). assert (D1 := Hd 1 s'). cbn [turns] in D1. rewrite E in D1. rewrite (D1 eq_refl) by lia.
        assert (It := step_iter _ _ _ _ E).
        assert (Sv : exists w1, hitmiss_save dir (h_iter s') w = (w1, Ok tt) /\ saved dir (S (h_iter s)) 1 w w1 /\ d_dirs w1 = d_dirs w).
        { unfold hitmiss_save, savefig, saved. destruct dir as [d|]; [|exists w; auto]. assert (Hin := Hdir d eq_refl). rewrite (proj2 (has_dir_in d w) Hin).
          eexists. split; [reflexivity|]. cbn. rewrite It. split; [|reflexivity]. split; [reflexivity|]. intros x. split; [auto|intros [H|[_ ->]]; auto]. }
        destruct Sv as (w1 & -> & S1 & Dw). destruct (IH n_ini s' w1 o) as (j & w' & S2 & Hj & Eq); [intros d Ed; rewrite Dw; auto| |exact Ho|].
        { intros m s2 Hm Hm1. apply (Hd (S m) s2); [cbn [turns]; now rewrite E|lia]. }
        exists (S j), w'. split; [|split; [rewrite Hj, It; lia|exact Eq]]. rewrite It in S2. replace (S (S (h_iter s))) with (S (h_iter s) + 1) in S2 by lia. exact (saved_S _ _ _ _ _ _ S1 S2).
      + injection Ho as <-. exists 0, w. split; [apply saved_0|].
        assert (s' = s) as -> by (unfold hm_step in E; destruct (bind _ _); [discriminate|now injection E as <- _]). split; [cbn; lia|reflexivity].
    - injection Ho as <-. exists 0, w. split; [apply saved_0|]. split; [cbn; lia|reflexivity].
  Qed.
  (** When the graphs can be drawn and the directory exists: the same enrichment, and one file per iteration. *)
  Theorem C86_hitmiss_graphs fuel input labels w o : graph = true ->
    (forall d, dir = Some d -> In d (d_dirs w)) ->
    (forall m s, turns m (List.length input) (hm_start fit input labels) = (s, Ok tt) -> 1 <= m -> draw s = Ok tt) ->
    hm_run argsort fit phys candidates b nMore fuel input labels = Some o ->
    exists w', saved dir 1 (h_iter (fst o)) w w' /\ grun fuel input labels w = Some (fst o, w', snd o).
  Proof.
    intros G Hdir Hd Ho. destruct (hgloop_on fuel G _ _ w o Hdir Hd Ho) as (j & w' & S1 & Hj & Eq). cbn in Hj. subst j. exists w'. split; [exact S1|exact Eq].
  Qed.
  (** Finding: the directory is not created. When it does not exist the run stops with OSError at the first iteration, although its points have
      been evaluated by the physical model and added. *)
  Theorem C86_hitmiss_missing_directory fuel input labels w d s : graph = true -> dir = Some d -> ~ In d (d_dirs w) -> 0 < nMore ->
    step (List.length input) (hm_start fit input labels) = (s, Ok tt) -> draw s = Ok tt ->
    grun (S fuel) input labels w = Some (s, w, Raise OSError) /\
    h_evals s <> [] /\ exists new, new <> [] /\ h_input s = input ++ new.
  Proof.
    intros G Hdir Hn Hm Hs Hd. split.
    - unfold ghm_run. cbn [ghm_loop h_added hm_start]. rewrite (proj2 (Nat.ltb_lt 0 nMore) Hm), Hs. rewrite (hg_on _ _ G), Hd, Hdir. unfold hitmiss_save, savefig.
      destruct (has_dir d w) eqn:E; [apply has_dir_in in E; contradiction|reflexivity].
    - unfold hm_step in Hs. destruct (select argsort b _) as [idx|] eqn:Es; [|discriminate]. cbn [bind] in Hs. destruct (fancy candidates idx) as [xs|] eqn:Ef; [|discriminate]. injection Hs as <-. cbn [h_evals h_input hm_start app].
      assert (Ln : List.length idx = 5).
      { unfold select in Es. destruct (fancy _ (match band_indices _ _ _ with [] => _ | _ => _ end)) as [sub|]; [|discriminate]. cbn [bind] in Es.
        set (ind := match band_indices (pmin b) (pmax b) _ with [] => _ | _ => _ end) in *. destruct ind as [|i0 ind]; [discriminate|].
        destruct (fancy (argsort sub) (quant _)) as [bis|] eqn:Eb; [|discriminate]. cbn [bind] in Es.
        assert (FL : forall A (l : list A) ix r, fancy l ix = Ok r -> List.length r = List.length ix).
        { intros A l ix r. unfold fancy. assert (AS : forall (o : list (option A)) r, all_some o = Some r -> List.length r = List.length o).
          { induction o as [|[x|] o IHo]; intros r0 H; cbn in H; [now injection H as <-| |discriminate]. destruct (all_some o) as [r1|]; [|discriminate]. injection H as <-. cbn. f_equal. now apply IHo. }
          destruct (all_some _) as [r0|] eqn:Ea; [|discriminate]. intros [= <-]. apply AS in Ea. now rewrite map_length in Ea. }
        apply FL in Es. apply FL in Eb. rewrite Es, Eb. reflexivity. }
      assert (Lx : List.length xs = 5).
      { unfold fancy in Ef. destruct (all_some (map (nth_error candidates) idx)) as [r|] eqn:Ea; [|discriminate]. injection Ef as <-.
        assert (AS : forall (o : list (option X)) r, all_some o = Some r -> List.length r = List.length o).
        { induction o as [|[x|] o IHo]; intros r0 H; cbn in H; [now injection H as <-| |discriminate]. destruct (all_some o) as [r1|]; [|discriminate]. injection H as <-. cbn. f_equal. now apply IHo. }
        apply AS in Ea. now rewrite map_length, Ln in Ea. }
      destruct xs as [|x0 xs]; [discriminate|]. split; [discriminate|].
      destruct (Nat.ltb _ _); [|eexists; split; [|reflexivity]; discriminate]. eexists. split; [|reflexivity]. replace (nMore + List.length input - List.length input) with nMore by lia.
      destruct nMore; [lia|discriminate].
  Qed.
  (** A graph that cannot be drawn at iteration m stops the run there, with the points of the m iterations and the graphs of those before. *)
  Theorem C86_hitmiss_graph_fails fuel : forall input labels w m s e, graph = true -> (forall d, dir = Some d -> In d (d_dirs w)) ->
    1 <= m <= fuel -> (forall m' s', m' < m -> turns m' (List.length input) (hm_start fit input labels) = (s', Ok tt) -> h_added s' < nMore) ->
    turns m (List.length input) (hm_start fit input labels) = (s, Ok tt) -> draw s = Raise e ->
    (forall m' s', 1 <= m' < m -> turns m' (List.length input) (hm_start fit input labels) = (s', Ok tt) -> draw s' = Ok tt) ->
    exists w', saved dir 1 (m - 1) w w' /\ grun fuel input labels w = Some (s, w', Raise e).
  Proof.
    intros input labels w m s e G Hdir. unfold ghm_run. change (saved dir 1 (m - 1) w) with (saved dir (S (h_iter (hm_start fit input labels))) (m - 1) w). generalize (hm_start fit input labels), (List.length input). intros s0 n. revert m s0 w Hdir.
    induction fuel as [|f IH]; intros m s0 w Hdir Hm Hlt Hs Hd Hb; [lia|]. cbn [ghm_loop]. rewrite (proj2 (Nat.ltb_lt _ _) (Hlt 0 s0 ltac:(lia) eq_refl)).
    destruct m as [|m]; [lia|]. cbn [turns] in Hs. destruct (step n s0) as [s1 [[]|e1]] eqn:E; [|discriminate]. assert (It := step_iter _ _ _ _ E). rewrite (hg_on _ _ G). destruct m as [|m].
    - cbn [turns] in Hs. injection Hs as <-. rewrite Hd. exists w. split; [apply saved_0|reflexivity].
    - assert (D1 := Hb 1 s1 ltac:(lia)). cbn [turns] in D1. rewrite E in D1. rewrite (D1 eq_refl).
      assert (Sv : exists w1, hitmiss_save dir (h_iter s1) w = (w1, Ok tt) /\ saved dir (S (h_iter s0)) 1 w w1 /\ d_dirs w1 = d_dirs w).
      { unfold hitmiss_save, savefig, saved. destruct dir as [d|]; [|exists w; auto]. assert (Hin := Hdir d eq_refl). rewrite (proj2 (has_dir_in d w) Hin).
        eexists. split; [reflexivity|]. cbn. rewrite It. split; [|reflexivity]. split; [reflexivity|]. intros x. split; [auto|intros [H|[_ ->]]; auto]. }
      destruct Sv as (w1 & -> & S1 & Dw).
      destruct (IH (S m) s1 w1) as (w' & S2 & Eq); [intros d Ed; rewrite Dw; auto|lia| |exact Hs|exact Hd| |].
      + intros m' s' Hm' Hs'. apply (Hlt (S m') s'); [lia|]. cbn [turns]. now rewrite E.
      + intros m' s' Hm' Hs'. apply (Hb (S m') s'); [lia|]. cbn [turns]. now rewrite E.
      + exists w'. split; [|exact Eq]. rewrite It in S2. replace (S (S (h_iter s0))) with (S (h_iter s0) + 1) in S2 by lia. replace (S (S m) - 1) with (S (S m - 1)) by lia. exact (saved_S _ _ _ _ _ _ S1 S2).
  Qed.
End HitMiss.
Print Assumptions C86_hitmiss_off.
Print Assumptions C86_hitmiss_graphs.
Print Assumptions C86_hitmiss_missing_directory.
Print Assumptions C86_hitmiss_graph_fails.

(** *** Cases *)
(** Points and signals are numbers; as in C36_example the kriging of an even number of points has Q2 = 0. *)
Definition eg_run (reopt : nat -> res nat) (graph : bool) (dir : option string) (draw : option nat -> res unit) :=
  grun (P := nat) (Y := nat) (K := nat) (T := nat) (D := nat) (C := nat)
    (fun _ i _ => List.length i + 1000) (fun i => List.length i) (fun _ i _ => List.length i) (fun k _ _ _ => if Nat.even k then fzero else fone)
    reopt (fun k t x => k + x) (fun it meta => meta it) (fun it i k inp sig c => (of_int (Z.of_nat (3 * it - i)), it)) (fun k t => k + t)
    (fun x => Ok (x * 10)) graph dir draw.
Definition eg_st : astate nat nat nat nat := {| a_input := [1; 2]; a_signals := [10; 20]; a_model := None; a_pod := None; a_log := [] |}.
Definition eg_disk : disk := {| d_dirs := ["tmp"%string]; d_files := [] |}.
Example C86_signal_case :
  let '(st, w, r) := eg_run (fun k => Ok (k + 1000)) true (Some "out"%string) (fun _ => Ok tt) eg_st eg_disk [5; 6; 7] 2 in
  r = Ok tt /\ a_input st = [1; 2; 7; 6] /\ d_files w = [("out"%string, 1); ("out"%string, 2)] /\ In "out"%string (d_dirs w).
Proof. vm_compute. auto. Qed.
(** A level which is not reached by the POD of the second iteration. *)
Example C86_signal_stop_case :
  let '(st, w, r) := eg_run (fun k => Ok (k + 1000)) true (Some "out"%string) (fun d => match d with Some 2 => Raise GenericException | _ => Ok tt end) eg_st eg_disk [5; 6; 7] 3 in
  r = Raise GenericException /\ a_input st = [1; 2; 7; 6] /\ a_signals st = [10; 20; 70; 60] /\ d_files w = [("out"%string, 1)].
Proof. vm_compute. auto. Qed.
(** The optimisation of the covariance fails at the second iteration. *)
Example C86_optimisation_case :
  let '(st, w, r) := eg_run (fun k => Raise AttributeError) false None (fun _ => Ok tt) eg_st eg_disk [5; 6; 7] 3 in
  r = Raise AttributeError /\ a_input st = [1; 2; 7; 6] /\ a_signals st = [10; 20; 70; 60] /\ a_model st = Some 3.
Proof. vm_compute. auto. Qed.
(** Hit-miss: five candidates with probability 1/2, in a directory that exists and in one that does not. *)
Definition eh_run (dir : string) :=
  ghm_run stable_argsort (fun _ _ _ _ => of_ratio 1 2) (fun x : nat => Nat.ltb 4 x) [2; 3; 5; 7; 8] {| pmin := of_ratio 45 100; pmax := of_ratio 52 100 |} 7
    true (Some dir) (fun _ => Ok tt) 7 [0; 9] [false; true] eg_disk.
Example C86_hitmiss_missing_case :
  match eh_run "out" with Some (s, w, r) => r = Raise OSError /\ h_input s = [0; 9; 2; 3; 5; 7; 8] /\ h_evals s = [2; 3; 5; 7; 8] /\ w = eg_disk | None => False end.
Proof. vm_compute. auto. Qed.
Example C86_hitmiss_case : match eh_run "tmp" with Some (s, w, r) => d_files w <> [] /\ r <> Raise OSError | None => False end.
Proof. vm_compute. split; discriminate. Qed.
