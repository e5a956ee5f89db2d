(** Lemmas on the adaptive enrichment loop. *)
From Verif Require Import Base Float64 AdaptiveModel.

(** Specification: position i holds the first minimum of l among the values below the bound. *)
Definition first_min (bound : float) (l : list float) (i : nat) : Prop :=
  exists v, nth_error l i = Some v /\ fltb v bound = true /\
    (forall j w, nth_error l j = Some w -> fltb w v = false) /\
    (forall j w, (j < i)%nat -> nth_error l j = Some w -> fleb w v = false).
Definition usable (bound : float) (l : list float) : Prop := exists v, In v l /\ fltb v bound = true.

Lemma scan_spec {D} (evals : list (float * D)) : forall i best idx pod,
  (forall v, In v (map fst evals) -> fltb v best = false) /\ scan evals i best idx pod = (idx, pod) \/
  exists j d, first_min best (map fst evals) j /\ nth_error (map snd evals) j = Some d /\
              scan evals i best idx pod = (Some (i + j), Some d).
Proof.
  induction evals as [|[v d] l IH]; intros i best idx pod.
  - left. split; [intros v []|reflexivity].
  - cbn [scan map fst snd]. destruct (fltb v best) eqn:E.
    + right. destruct (IH (i + 1) v (Some i) (Some d)) as [[H1 H2]|(j & d' & (w & Hw & Hlt & Hmin & Hfst) & Hd & H2)].
      * exists 0, d. rewrite Nat.add_0_r. split; [|split; [reflexivity|exact H2]].
        exists v. split; [reflexivity|]. split; [exact E|]. split; [|intros j w Hj; lia].
        intros [|j] w Hj; [injection Hj as <-; apply fltb_irrefl|]. apply H1. eapply nth_error_In; exact Hj.
      * exists (S j), d'. split; [|split; [exact Hd|rewrite H2; f_equal; f_equal; lia]].
        exists w. split; [exact Hw|]. split; [eapply fltb_trans; eassumption|]. split.
        -- intros [|j'] w' Hj; [|now apply (Hmin j')]. injection Hj as <-.
           destruct (fltb v w) eqn:F; [|reflexivity].
           assert (X := fltb_trans _ _ _ Hlt F). rewrite fltb_irrefl in X. discriminate.
        -- intros [|j'] w' Hj' Hj; [|apply (Hfst j'); [lia|exact Hj]]. injection Hj as <-.
           destruct (fleb v w) eqn:F; [|reflexivity]. assert (X := fleb_fltb_trans _ _ _ F Hlt). rewrite fltb_irrefl in X. discriminate.
    + destruct (IH (i + 1) best idx pod) as [[H1 H2]|(j & d' & (w & Hw & Hlt & Hmin & Hfst) & Hd & H2)].
      * left. split; [|exact H2]. intros w [<-|Hw]; [exact E|now apply H1].
      * right. exists (S j), d'. split; [|split; [exact Hd|rewrite H2; f_equal; f_equal; lia]].
        exists w. split; [exact Hw|]. split; [exact Hlt|]. split.
        -- intros [|j'] w' Hj; [|now apply (Hmin j')]. injection Hj as <-.
           destruct (fltb v w) eqn:F; [|reflexivity]. assert (X := fltb_trans _ _ _ F Hlt). congruence.
        -- intros [|j'] w' Hj' Hj; [|apply (Hfst j'); [lia|exact Hj]]. injection Hj as <-.
           destruct (fleb v w) eqn:F; [|reflexivity]. assert (X := fleb_fltb_trans _ _ _ F Hlt). congruence.
Qed.
Lemma erase_perm {A} (l : list A) : forall i x, nth_error l i = Some x -> Permutation l (x :: erase i l).
Proof.
  induction l as [|y l IH]; intros [|i] x H; try discriminate; cbn in *.
  - injection H as ->. reflexivity.
  - rewrite (IH i x H) at 1. apply perm_swap.
Qed.
Lemma erase_length {A} (l : list A) i x : nth_error l i = Some x -> length l = S (length (erase i l)).
Proof. intros H. apply erase_perm in H. apply Permutation_length in H. exact H. Qed.
Lemma enumerate_length {A} (l : list A) : length (enumerate l) = length l.
Proof. unfold enumerate. rewrite combine_length, seq_length. lia. Qed.
Lemma enumerate_nth {A} (l : list A) i x : nth_error l i = Some x -> nth_error (enumerate l) i = Some (i, x).
Proof.
  unfold enumerate. enough (G : forall k, nth_error l i = Some x -> nth_error (combine (seq k (length l)) l) i = Some (k + i, x)) by apply (G 0).
  revert i. induction l as [|y l IH]; intros [|i] k H; try discriminate; cbn in *.
  - injection H as ->. now rewrite Nat.add_0_r.
  - rewrite (IH i (S k) H). f_equal. f_equal. lia.
Qed.

Section A.
  Context {P Y K T D C : Type}.
  Variables (fit_init : option K -> list P -> list Y -> K) (normalise : list P -> T) (fit_fixed : K -> list P -> list Y -> K)
    (q2 : K -> T -> list P -> list Y -> float) (reoptimise : K -> K) (metamodel : K -> T -> P -> Y)
    (refpod : nat -> (P -> Y) -> C) (crit : nat -> nat -> K -> list P -> list Y -> C -> float * D)
    (final_pod : K -> T -> D) (observe : P -> res Y).
  Notation iterate := (iterate normalise fit_fixed q2 reoptimise refpod crit observe).
  Notation loop := (loop normalise fit_fixed q2 reoptimise refpod crit observe).
  Notation refit := (refit normalise fit_fixed q2 reoptimise).
  Notation evaluate := (evaluate refpod crit).
  Notation astate := (astate P Y K D).
  Notation event := (event P Y K).
  (** What is recorded of one iteration on the DOE (input, signals) of kriging k. *)
  Definition recorded (it : nat) (k : K) (meta : P -> Y) (input : list P) (signals : list Y) (cands : list P) (i : nat) : event :=
    {| e_it := it; e_model := k; e_cands := cands; e_pred := map meta cands;
       e_crit := map (fun ic => fst (crit it (fst ic) k (input ++ [snd ic]) (signals ++ [meta (snd ic)]) (refpod it meta))) (enumerate cands);
       e_idx := i |}.
  (** The index used at an iteration, [prev] being the one of the previous iteration. *)
  Definition index_ok (prev : option nat) (e : event) : Prop :=
    first_min f1e9 (e_crit e) (e_idx e) \/ (~ usable f1e9 (e_crit e) /\ prev = Some (e_idx e)).
  Lemma usable_dec l : usable f1e9 l \/ (forall v, In v l -> fltb v f1e9 = false).
  Proof.
    destruct (existsb (fun v => fltb v f1e9) l) eqn:E.
    - left. apply existsb_exists in E. destruct E as (v & H1 & H2). now exists v.
    - right. intros v Hv. destruct (fltb v f1e9) eqn:F; [|reflexivity].
      assert (existsb (fun v => fltb v f1e9) l = true) by (apply existsb_exists; now exists v). congruence.
  Qed.
  Inductive iter_case (it : nat) (k : K) (meta : P -> Y) (st : astate) (idx : option nat) (cands : list P) :
    astate * res (nat * K * list P) -> Prop :=
  | ic_unbound pod : idx = None -> ~ usable f1e9 (e_crit (recorded it k meta (a_input st) (a_signals st) cands 0)) ->
      iter_case it k meta st idx cands
        ({| a_input := a_input st; a_signals := a_signals st; a_model := a_model st; a_pod := pod; a_log := a_log st |}, Raise UnboundLocalError)
  | ic_range pod i : idx = Some i -> ~ usable f1e9 (e_crit (recorded it k meta (a_input st) (a_signals st) cands 0)) -> (length cands <= i)%nat ->
      iter_case it k meta st idx cands
        ({| a_input := a_input st; a_signals := a_signals st; a_model := a_model st; a_pod := pod; a_log := a_log st |}, Raise IndexError)
  | ic_fail pod i c e : nth_error cands i = Some c -> observe c = Raise e ->
      index_ok idx (recorded it k meta (a_input st) (a_signals st) cands i) ->
      iter_case it k meta st idx cands
        ({| a_input := a_input st ++ [c]; a_signals := a_signals st; a_model := a_model st; a_pod := pod;
            a_log := a_log st ++ [recorded it k meta (a_input st) (a_signals st) cands i] |}, Raise e)
  | ic_ok pod i c y : nth_error cands i = Some c -> observe c = Ok y ->
      index_ok idx (recorded it k meta (a_input st) (a_signals st) cands i) ->
      iter_case it k meta st idx cands
        ({| a_input := a_input st ++ [c]; a_signals := a_signals st ++ [y];
            a_model := Some (refit k (a_input st ++ [c]) (a_signals st ++ [y])); a_pod := pod;
            a_log := a_log st ++ [recorded it k meta (a_input st) (a_signals st) cands i] |},
         Ok (i, refit k (a_input st ++ [c]) (a_signals st ++ [y]), erase i cands)).
  Lemma iterate_case it k meta st idx cands : iter_case it k meta st idx cands (iterate it k meta st idx cands).
  Proof.
    unfold AdaptiveModel.iterate.
    set (evals := map (evaluate it k meta st) (enumerate cands)).
    assert (Ev : forall i, e_crit (recorded it k meta (a_input st) (a_signals st) cands i) = map fst evals).
    { intros i. cbn. unfold evals. rewrite map_map. reflexivity. }
    assert (Er : forall i, {| e_it := it; e_model := k; e_cands := cands; e_pred := map meta cands; e_crit := map fst evals; e_idx := i |}
                           = recorded it k meta (a_input st) (a_signals st) cands i).
    { intros i. rewrite <- (Ev i). reflexivity. }
    assert (Len : length (map fst evals) = length cands) by (unfold evals; rewrite !map_length; apply enumerate_length).
    destruct (scan_spec evals 0 f1e9 idx (a_pod st)) as [[H1 H2]|(j & d & Hmin & Hd & H2)]; rewrite H2.
    - assert (NU : ~ usable f1e9 (map fst evals)) by (intros (v & Hv & Hlt); rewrite H1 in Hlt by assumption; discriminate).
      destruct idx as [i|].
      + destruct (nth_error cands i) as [c|] eqn:En.
        * destruct (observe c) as [y|e] eqn:Eo; cbn [a_input a_log].
          -- rewrite Er. apply ic_ok; try assumption. right. cbn [e_idx recorded]. rewrite Ev. auto.
          -- rewrite Er. apply ic_fail; try assumption. right. cbn [e_idx recorded]. rewrite Ev. auto.
        * apply nth_error_None in En. eapply ic_range; [reflexivity| |exact En]. now rewrite Ev.
      + apply ic_unbound; [reflexivity|]. now rewrite Ev.
    - cbn [Nat.add]. assert (Hj : (j < length cands)%nat).
      { destruct Hmin as (v & Hv & _). rewrite <- Len. apply nth_error_Some. rewrite Hv. discriminate. }
      destruct (nth_error cands j) as [c|] eqn:En; [|apply nth_error_None in En; lia].
      destruct (observe c) as [y|e] eqn:Eo; cbn [a_input a_log].
      + rewrite Er. apply ic_ok; try assumption. left. rewrite Ev. exact Hmin.
      + rewrite Er. apply ic_fail; try assumption. left. rewrite Ev. exact Hmin.
  Qed.

  (** The events recorded by a loop: each follows from the DOE of its time. *)
  Inductive events_ok (meta : P -> Y) : nat -> K -> list P -> list Y -> option nat -> list P -> list event -> Prop :=
  | ev_nil it k input signals idx cands : events_ok meta it k input signals idx cands []
  | ev_fail it k input signals idx cands i c e :
      nth_error cands i = Some c -> observe c = Raise e -> index_ok idx (recorded (it + 1) k meta input signals cands i) ->
      events_ok meta it k input signals idx cands [recorded (it + 1) k meta input signals cands i]
  | ev_cons it k input signals idx cands i c y evs :
      nth_error cands i = Some c -> observe c = Ok y -> index_ok idx (recorded (it + 1) k meta input signals cands i) ->
      events_ok meta (it + 1) (refit k (input ++ [c]) (signals ++ [y])) (input ++ [c]) (signals ++ [y]) (Some i) (erase i cands) evs ->
      events_ok meta it k input signals idx cands (recorded (it + 1) k meta input signals cands i :: evs).
  (** The candidates chosen by the events. *)
  Definition chosen_of (e : event) : list P := match nth_error (e_cands e) (e_idx e) with Some c => [c] | None => [] end.
  Definition chosen (evs : list event) : list P := flat_map chosen_of evs.
  Lemma loop_events n : forall it k t meta st idx cands st' r,
    loop n it k t meta st idx cands = (st', r) ->
    exists evs, a_log st' = a_log st ++ evs /\ events_ok meta it k (a_input st) (a_signals st) idx cands evs /\
      a_input st' = a_input st ++ chosen evs.
  Proof.
    induction n as [|n IH]; intros it k t meta st idx cands st' r H; cbn in H.
    - injection H as <- <-. exists []. rewrite !app_nil_r. split; [reflexivity|]. split; [constructor|reflexivity].
    - pose proof (iterate_case (it + 1) k meta st idx cands) as Hc.
      destruct (iterate (it + 1) k meta st idx cands) as [st1 r1] eqn:E.
      inversion Hc as [pod Hi Hn Heq|pod i Hi Hn Hl Heq|pod i c e Hc1 Ho Hok Heq|pod i c y Hc1 Ho Hok Heq]; subst st1 r1.
      + injection H as <- <-. exists []. cbn. rewrite !app_nil_r. split; [reflexivity|]. split; [constructor|reflexivity].
      + injection H as <- <-. exists []. cbn. rewrite !app_nil_r. split; [reflexivity|]. split; [constructor|reflexivity].
      + injection H as <- <-. eexists. cbn [a_log a_input]. split; [reflexivity|]. split; [eapply ev_fail; eassumption|].
        cbn. unfold chosen_of. cbn. rewrite Hc1. reflexivity.
      + apply IH in H. cbn [a_log a_input a_signals] in H. destruct H as (evs & H1 & H2 & H3).
        exists (recorded (it + 1) k meta (a_input st) (a_signals st) cands i :: evs). split.
        * rewrite H1, <- app_assoc. reflexivity.
        * split; [eapply ev_cons; eassumption|]. rewrite H3, <- app_assoc. cbn. unfold chosen_of at 1. cbn. rewrite Hc1. reflexivity.
  Qed.
  Lemma loop_ok n : forall it k t meta st idx cands st' k' t',
    loop n it k t meta st idx cands = (st', Ok (k', t')) ->
    exists cs ys rest, length cs = n /\ Permutation cands (cs ++ rest) /\ a_input st' = a_input st ++ cs /\
      a_signals st' = a_signals st ++ ys /\ Forall2 (fun c y => observe c = Ok y) cs ys /\
      (t = normalise (a_input st) -> t' = normalise (a_input st')) /\
      (n = 0 /\ k' = k \/ exists kp, k' = refit kp (a_input st') (a_signals st')) /\
      (a_model st = Some k -> a_model st' = Some k').
  Proof.
    induction n as [|n IH]; intros it k t meta st idx cands st' k' t' H; cbn in H.
    - injection H as <- <- <-. exists [], [], cands. rewrite !app_nil_r. repeat (split; [auto|]). auto.
    - pose proof (iterate_case (it + 1) k meta st idx cands) as Hc.
      destruct (iterate (it + 1) k meta st idx cands) as [st1 r1] eqn:E.
      inversion Hc as [pod Hi Hn Heq|pod i Hi Hn Hl Heq|pod i c e Hc1 Ho Hok Heq|pod i c y Hc1 Ho Hok Heq]; subst st1 r1;
        try discriminate.
      apply IH in H. cbn [a_input a_signals a_model] in H. destruct H as (cs & ys & rest & H1 & H2 & H3 & H4 & H5 & H6 & H7 & H8).
      exists (c :: cs), (y :: ys), rest. split; [cbn; now rewrite H1|]. split.
      { rewrite (erase_perm cands i c Hc1), H2. reflexivity. }
      split; [rewrite H3, <- app_assoc; reflexivity|]. split; [rewrite H4, <- app_assoc; reflexivity|].
      split; [now constructor|]. split; [intros _; now apply H6|]. split; [|intros _; now apply H8].
      right. destruct H7 as [[-> ->]|H7]; [|exact H7]. destruct cs; [|discriminate]. inversion H5; subst.
      rewrite app_nil_r in H3, H4. rewrite H3, H4. eauto.
  Qed.
End A.
