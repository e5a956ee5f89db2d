(** Lemmas on the hit-miss enrichment. *)
From Coq Require Import SpecFloat FinFun.
From Verif Require Import Base Float64 SettersModel HitMissModel HitMissSpec.

Lemma StronglySorted_nth {A} (R : A -> A -> Prop) l :
  StronglySorted R l -> forall i j a b, i < j -> nth_error l i = Some a -> nth_error l j = Some b -> R a b.
Proof.
  induction 1 as [|x l Hs IH Hall]; intros i j a b Hij Ha Hb; [now destruct i|].
  destruct j as [|j]; [lia|]. destruct i as [|i]; cbn in Ha, Hb.
  - injection Ha as <-. rewrite Forall_forall in Hall. apply Hall. eapply nth_error_In; eauto.
  - apply (IH i j); auto; lia.
Qed.
Lemma stable_argsort_spec : argsort_spec stable_argsort.
Proof.
  intros l. split; [apply isort_perm|].
  intros i j a b Hij Ha Hb.
  assert (Hs : Sorted_by (fun i j => np_leb (nth i l fzero) (nth j l fzero)) (stable_argsort l)).
  { apply isort_sorted; intros; [apply np_leb_total|eapply np_leb_trans; eauto]. }
  exact (StronglySorted_nth _ _ Hs i j a b Hij Ha Hb).
Qed.

(** *** Fancy indexing *)
Lemma fancy_ok {A} (d : A) l idx :
  Forall (fun i => i < length l) idx -> fancy l idx = Ok (map (fun i => nth i l d) idx).
Proof.
  unfold fancy. intros H.
  assert (E : all_some (map (nth_error l) idx) = Some (map (fun i => nth i l d) idx)).
  { induction H as [|i idx Hi H IH]; cbn; [reflexivity|].
    rewrite (nth_error_nth' l d Hi), IH. reflexivity. }
  now rewrite E.
Qed.

Lemma combine_seq_nth {A} (l : list A) : forall s i p,
  In (i, p) (combine (seq s (length l)) l) <-> s <= i /\ nth_error l (i - s) = Some p.
Proof.
  induction l as [|x l IH]; cbn [length seq combine In]; intros s i p.
  - split; [tauto|]. intros [_ H]. destruct (i - s); discriminate.
  - rewrite IH. split.
    + intros [H|[H1 H2]].
      * injection H as -> ->. rewrite Nat.sub_diag. cbn. auto.
      * split; [lia|]. replace (i - s) with (S (i - S s)) by lia. exact H2.
    + intros [H1 H2]. destruct (Nat.eq_dec s i) as [->|Hne].
      * left. rewrite Nat.sub_diag in H2. cbn in H2. congruence.
      * right. split; [lia|]. replace (i - s) with (S (i - S s)) in H2 by lia. exact H2.
Qed.

Lemma band_indices_spec lo hi probs i :
  In i (band_indices lo hi probs) <->
  exists p, nth_error probs i = Some p /\ fleb lo p = true /\ fltb p hi = true.
Proof.
  unfold band_indices. rewrite in_map_iff. split.
  - intros [[i' p] [E H]]. cbn in E. subst i'. apply filter_In in H as [H1 H2].
    apply combine_seq_nth in H1 as [_ H1]. rewrite Nat.sub_0_r in H1.
    cbn in H2. apply andb_true_iff in H2 as [Ha Hb]. exists p. auto.
  - intros [p [H [Ha Hb]]]. exists (i, p). split; [reflexivity|]. apply filter_In. split.
    + apply combine_seq_nth. rewrite Nat.sub_0_r. split; [lia|assumption].
    + cbn. unfold fgeb. unfold fleb in Ha. now rewrite Ha, Hb.
Qed.
Lemma band_indices_lt lo hi probs : Forall (fun i => i < length probs) (band_indices lo hi probs).
Proof.
  apply Forall_forall. intros i H. apply band_indices_spec in H as [p [H _]].
  apply nth_error_Some. congruence.
Qed.
Lemma NoDup_map_fst_filter {A B} (f : A * B -> bool) l : NoDup (map fst l) -> NoDup (map fst (filter f l)).
Proof.
  induction l as [|x l IH]; cbn; intros H; [constructor|].
  inversion H as [|? ? Hn Hd]; subst. destruct (f x); cbn; auto.
  constructor; auto. intros Hin. apply Hn. apply in_map_iff in Hin as [y [E Hy]].
  apply filter_In in Hy as [Hy _]. rewrite <- E. now apply in_map.
Qed.
Lemma map_fst_combine {A B} : forall (l : list A) (l' : list B),
  length l = length l' -> map fst (combine l l') = l.
Proof. induction l as [|x l IH]; intros [|y l'] H; cbn in *; try discriminate; [reflexivity|]. f_equal. auto. Qed.
Lemma band_indices_NoDup lo hi probs : NoDup (band_indices lo hi probs).
Proof.
  apply NoDup_map_fst_filter. rewrite map_fst_combine by apply seq_length. apply seq_NoDup.
Qed.

(** The widened band of lines 278-279 is empty for every list of doubles. *)
Lemma fallback_empty probs : band_indices f08 f01 probs = [].
Proof.
  destruct (band_indices f08 f01 probs) as [|i l] eqn:E; [reflexivity|].
  assert (H : In i (band_indices f08 f01 probs)) by (rewrite E; now left).
  apply band_indices_spec in H as [p [_ [H1 H2]]].
  assert (C := fleb_fltb_trans _ _ _ H1 H2).
  vm_compute in C. discriminate.
Qed.

(** *** Selected ranks *)
Lemma quant_lt n : 0 < n -> Forall (fun q => q < n) (quant n).
Proof.
  intros H. unfold quant.
  assert (n / 4 < n) by (apply Nat.div_lt; lia).
  assert (n / 2 < n) by (apply Nat.div_lt; lia).
  assert (3 * n / 4 < n) by (apply Nat.div_lt_upper_bound; lia).
  repeat constructor; lia.
Qed.
Lemma div_bounds n d : d <> 0 -> d * (n / d) <= n < d * (n / d) + d.
Proof. intros H. split; [now apply Nat.mul_div_le|]. pose proof (Nat.mul_succ_div_gt n d H). lia. Qed.
Lemma quant_NoDup n : 0 < n -> (NoDup (quant n) <-> 5 <= n).
Proof.
  intros Hn. unfold quant.
  pose proof (div_bounds n 4 ltac:(lia)). pose proof (div_bounds n 2 ltac:(lia)).
  pose proof (div_bounds (3 * n) 4 ltac:(lia)).
  remember (n / 4) as a. remember (n / 2) as b. remember (3 * n / 4) as c.
  split.
  - intros H2. destruct (le_lt_dec 5 n) as [|Hlt]; [assumption|exfalso].
    assert (0 = a \/ c = n - 1) as [E|E] by lia.
    + inversion H2 as [|? ? Hni _]; subst. apply Hni. left. auto.
    + apply NoDup_cons_iff in H2 as [_ H2]. apply NoDup_cons_iff in H2 as [_ H2].
      apply NoDup_cons_iff in H2 as [_ H2]. apply NoDup_cons_iff in H2 as [Hni _].
      apply Hni. left. auto.
  - intros H2. repeat constructor; cbn; intuition lia.
Qed.

(** Description of a successful selection: [order] lists the positions of the band by increasing probability. *)
Definition selection (b : band) (probs : list float) (order idx : list nat) : Prop :=
  Permutation order (band_indices (pmin b) (pmax b) probs) /\
  (forall i j, i < j < length order ->
     np_leb (nth (nth i order 0) probs fzero) (nth (nth j order 0) probs fzero) = true) /\
  idx = map (fun q => nth q order 0) (quant (length order)).

Lemma map_nth_perm {A} (d : A) l p : Permutation p (seq 0 (length l)) -> Permutation (map (fun i => nth i l d) p) l.
Proof.
  intros H. rewrite (Permutation_map _ H).
  assert (E : map (fun i => nth i l d) (seq 0 (length l)) = l); [|now rewrite E].
  clear H. induction l as [|x l IH]; cbn; [reflexivity|]. f_equal.
  rewrite <- seq_shift, map_map. exact IH.
Qed.
Lemma nth_map' {A B} (f : A -> B) l i da db : i < length l -> nth i (map f l) db = f (nth i l da).
Proof. intros H. rewrite (nth_indep _ db (f da)) by now rewrite map_length. apply map_nth. Qed.
Lemma map_nth_nth d (ind l : list nat) :
  (forall k, nth k (map (fun i => nth i ind d) l) d = if Nat.ltb k (length l) then nth (nth k l d) ind d else d).
Proof.
  intros k. destruct (Nat.ltb_spec k (length l)).
  - now rewrite (nth_map' _ _ _ d).
  - rewrite nth_overflow; [reflexivity|]. now rewrite map_length.
Qed.

Lemma select_spec argsort b probs : argsort_spec argsort ->
  (band_indices (pmin b) (pmax b) probs <> [] ->
   exists order idx, select argsort b probs = Ok idx /\ selection b probs order idx) /\
  (band_indices (pmin b) (pmax b) probs = [] -> select argsort b probs = Raise IndexError).
Proof.
  intros Has. unfold select. split.
  - intros Hne. destruct (band_indices (pmin b) (pmax b) probs) as [|i0 l0] eqn:E; [congruence|].
    assert (Hlt := band_indices_lt (pmin b) (pmax b) probs). rewrite E in Hlt.
    cbv zeta beta iota. set (ind := i0 :: l0) in *.
    rewrite (fancy_ok fzero _ _ Hlt). cbn [bind].
    set (sub := map (fun i => nth i probs fzero) ind).
    destruct (Has sub) as [HP HS].
    assert (Hl : length (argsort sub) = length ind).
    { rewrite (Permutation_length HP), seq_length. apply map_length. }
    assert (Hq : Forall (fun q => q < length (argsort sub)) (quant (length ind))).
    { rewrite Hl. apply quant_lt. cbn. lia. }
    change (match ind with [] => Raise IndexError | _ :: _ =>
              bind (fancy (argsort sub) (quant (length ind))) (fun bis => fancy ind bis) end)
      with (bind (fancy (argsort sub) (quant (length ind))) (fun bis => fancy ind bis)).
    rewrite (fancy_ok 0 _ _ Hq). cbn [bind].
    assert (Hb : Forall (fun i => i < length ind) (map (fun i => nth i (argsort sub) 0) (quant (length ind)))).
    { apply Forall_forall. intros x Hx. apply in_map_iff in Hx as [q [<- Hq']].
      rewrite Forall_forall in Hq. specialize (Hq q Hq').
      assert (Hin : In (nth q (argsort sub) 0) (argsort sub)) by now apply nth_In.
      eapply Permutation_in in Hin; [|exact HP]. apply in_seq in Hin.
      assert (length sub = length ind) by (unfold sub; apply map_length). lia. }
    rewrite (fancy_ok 0 _ _ Hb).
    exists (map (fun i => nth i ind 0) (argsort sub)). eexists. split; [reflexivity|].
    assert (Hls : length sub = length ind) by (unfold sub; apply map_length).
    unfold selection. rewrite E. fold ind. split; [|split].
    + apply map_nth_perm. rewrite <- Hls. exact HP.
    + rewrite map_length. intros i j Hij.
      rewrite !(nth_map' _ _ _ 0) by lia.
      assert (Hi : nth_error (argsort sub) i = Some (nth i (argsort sub) 0)) by (apply nth_error_nth'; lia).
      assert (Hj : nth_error (argsort sub) j = Some (nth j (argsort sub) 0)) by (apply nth_error_nth'; lia).
      assert (H := HS i j _ _ (proj1 Hij) Hi Hj).
      assert (Hr : forall k, k < length (argsort sub) -> nth k (argsort sub) 0 < length ind).
      { intros k Hk. assert (Hin : In (nth k (argsort sub) 0) (argsort sub)) by now apply nth_In.
        eapply Permutation_in in Hin; [|exact HP]. apply in_seq in Hin. lia. }
      unfold sub in H at 2 4. rewrite !(nth_map' _ _ _ 0) in H by (apply Hr; lia). exact H.
    + rewrite map_length, Hl, map_map. apply map_ext_in. intros q Hqin.
      rewrite Forall_forall in Hq. rewrite (nth_map' _ _ _ 0) by now apply Hq. reflexivity.
  - intros E. rewrite E, fallback_empty. reflexivity.
Qed.

Lemma selection_in_band b probs order idx : selection b probs order idx -> order <> [] ->
  length idx = 5 /\
  Forall (fun i => exists p, nth_error probs i = Some p /\ in_band b p) idx.
Proof.
  intros [HP [_ ->]] Hne. split; [reflexivity|].
  apply Forall_forall. intros i Hi. apply in_map_iff in Hi as [q [<- Hq]].
  assert (Hn : 0 < length order) by (destruct order; [congruence|cbn; lia]).
  assert (Hl := quant_lt _ Hn). rewrite Forall_forall in Hl.
  assert (Hin : In (nth q order 0) order) by (apply nth_In; auto).
  eapply Permutation_in in Hin; [|exact HP]. apply band_indices_spec in Hin as [p [H1 H2]].
  exists p. split; [exact H1|exact H2].
Qed.
Lemma NoDup_map_nth {A} (d : A) (l : list A) (q : list nat) :
  NoDup l -> Forall (fun i => i < length l) q -> (NoDup (map (fun i => nth i l d) q) <-> NoDup q).
Proof.
  intros Hl Hq. split.
  - intros H. eapply NoDup_map_inv; exact H.
  - intros H. induction H as [|x q Hx Hd IH]; cbn; [constructor|].
    inversion Hq; subst. constructor; [|auto].
    intros Hin. apply in_map_iff in Hin as [y [E Hy]].
    apply Hx. assert (y = x); [|congruence].
    apply (proj1 (NoDup_nth l d) Hl y x); auto.
    match goal with HF : Forall _ q |- _ => rewrite Forall_forall in HF; now apply HF end.
Qed.
Lemma selection_NoDup b probs order idx : selection b probs order idx -> order <> [] ->
  (NoDup idx <-> 5 <= length order).
Proof.
  intros [HP [_ ->]] Hne.
  assert (Hn : 0 < length order) by (destruct order; [congruence|cbn; lia]).
  rewrite NoDup_map_nth.
  - now apply quant_NoDup.
  - eapply Permutation_NoDup; [symmetry; exact HP|apply band_indices_NoDup].
  - now apply quant_lt.
Qed.

Lemma selection_choice b probs order idx : selection b probs order idx -> quartile_choice b probs order idx.
Proof.
  intros [HP [HS ->]]. split; [|split; [|split; [exact HS|reflexivity]]].
  - eapply Permutation_NoDup; [symmetry; exact HP|apply band_indices_NoDup].
  - intros i. split; intros H.
    + eapply Permutation_in in H; [|exact HP]. now apply (proj1 (band_indices_spec _ _ _ _)) in H.
    + eapply Permutation_in; [symmetry; exact HP|]. now apply band_indices_spec.
Qed.

(** *** The loop *)
Section Loop.
  Context {X : Type}.
  Variables (argsort : list float -> list nat) (fit : nat -> list X -> list bool -> X -> float)
            (phys : X -> bool) (candidates : list X) (b : band) (nMore : nat).
  Hypothesis Has : argsort_spec argsort.
  Notation step := (hm_step argsort fit phys candidates b nMore).
  Notation loop := (hm_loop argsort fit phys candidates b nMore).
  Notation run := (hm_run argsort fit phys candidates b nMore).

  (** A candidate in the band for the model in force in state [s]. *)
  Notation available := (some_candidate_in_band candidates b).

  Lemma available_indices s :
    available s <-> band_indices (pmin b) (pmax b) (map (eval_clf s (h_cur s)) candidates) <> [].
  Proof.
    split.
    - intros [x [Hx [H1 H2]]] E.
      apply In_nth_error in Hx as [i Hi].
      assert (Hin : In i (band_indices (pmin b) (pmax b) (map (eval_clf s (h_cur s)) candidates))).
      { apply band_indices_spec. exists (eval_clf s (h_cur s) x). split; [|now split].
        now apply map_nth_error. }
      rewrite E in Hin. destruct Hin.
    - intros E. destruct (band_indices _ _ _) as [|i l] eqn:Eb; [congruence|].
      assert (Hin : In i (band_indices (pmin b) (pmax b) (map (eval_clf s (h_cur s)) candidates)))
        by (rewrite Eb; now left).
      apply band_indices_spec in Hin as [p [H1 H2]].
      rewrite nth_error_map in H1. destruct (nth_error candidates i) as [x|] eqn:Ex; [|discriminate].
      cbn in H1. injection H1 as <-. exists x. split; [eapply nth_error_In; eauto|exact H2].
  Qed.

  Lemma step_select s :
    (available s -> exists xs order idx,
       (do i <- select argsort b (map (eval_clf s (h_cur s)) candidates); fancy candidates i) = Ok xs /\
       selection b (map (eval_clf s (h_cur s)) candidates) order idx /\ order <> [] /\
       map Some xs = map (nth_error candidates) idx /\
       round_ok candidates b (eval_clf s (h_cur s)) xs) /\
    (~ available s ->
       (do i <- select argsort b (map (eval_clf s (h_cur s)) candidates); fancy candidates i)
       = Raise IndexError).
  Proof.
    destruct (select_spec argsort b (map (eval_clf s (h_cur s)) candidates) Has) as [H1 H2].
    split.
    - intros Hav. assert (Hne := proj1 (available_indices s) Hav).
      destruct (H1 Hne) as [order [idx [E Hsel]]]. rewrite E. cbn [bind].
      assert (Hone : order <> []).
      { intros ->. destruct Hsel as [HP _]. apply Permutation_nil in HP. congruence. }
      destruct (selection_in_band _ _ _ _ Hsel Hone) as [Hlen Hall].
      destruct Hav as [x0 [Hx0 _]].
      assert (Hlt : Forall (fun i => i < length candidates) idx).
      { eapply Forall_impl; [|exact Hall]. intros i [p [Hp _]].
        assert (Hs : nth_error (map (eval_clf s (h_cur s)) candidates) i <> None) by congruence.
        apply nth_error_Some in Hs. now rewrite map_length in Hs. }
      rewrite (fancy_ok x0 _ _ Hlt). eexists _, order, idx.
      split; [reflexivity|]. split; [exact Hsel|]. split; [exact Hone|]. split.
      { rewrite map_map. apply map_ext_in. intros i Hi. rewrite Forall_forall in Hlt.
        symmetry. apply nth_error_nth'. auto. }
      split; [now rewrite map_length|].
      apply Forall_forall. intros x Hx. apply in_map_iff in Hx as [i [<- Hi]].
      rewrite Forall_forall in Hlt, Hall. split; [apply nth_In; auto|].
      destruct (Hall i Hi) as [p [Hp Hb]].
      rewrite nth_error_map, (nth_error_nth' _ x0 (Hlt i Hi)) in Hp. cbn in Hp. injection Hp as <-. exact Hb.
    - intros Hav. rewrite H2; [reflexivity|].
      destruct (band_indices _ _ _) eqn:E; [reflexivity|].
      exfalso. apply Hav. apply available_indices. rewrite E. discriminate.
  Qed.

  Variables (input : list X) (labels : list bool).

  (** State after [k] successful rounds with the points [rounds]. *)
  Record Inv (k : nat) (rounds : list (list X)) (s : hm_state) : Prop := {
    inv_len : length rounds = k;
    inv_iter : h_iter s = k;
    inv_added : h_added s = 5 * k;
    inv_total : length (concat rounds) = 5 * k;
    inv_needed : 5 * k < nMore + 5;
    inv_input : h_input s = input ++ firstn nMore (concat rounds);
    inv_labels : h_labels s = labels ++ map phys (firstn nMore (concat rounds));
    inv_evals : h_evals s = concat rounds;
    inv_list : h_list s = CInit :: repeat CAgg k;
    inv_init : h_init s = fit 0 input labels;
    inv_cur : match k with
              | O => h_cur s = CInit /\ h_conf s = None
              | S _ => h_cur s = CAgg /\ h_algo s = fit k (h_input s) (h_labels s) /\
                       exists c, h_conf s = Some c /\ h_p11 s = m11 c /\ h_p10 s = m10 c
              end;
    inv_rounds : forall j xs, nth_error rounds j = Some xs ->
      exists f, current_classifier fit phys input labels j (concat (firstn j rounds)) f /\
                round_ok candidates b f xs
  }.

  Lemma inv_start : Inv 0 [] (hm_start fit input labels).
  Proof.
    constructor; cbn; try reflexivity; try lia.
    - now rewrite firstn_nil, app_nil_r.
    - now rewrite firstn_nil, app_nil_r.
    - auto.
    - intros j xs H. now destruct j.
  Qed.

  Lemma inv_current k rounds s : Inv k rounds s -> 5 * k < nMore ->
    current_classifier fit phys input labels k (concat rounds) (eval_clf s (h_cur s)).
  Proof.
    intros [] Hlt. unfold current_classifier. destruct k as [|k].
    - destruct inv_cur0 as [-> _]. cbn. exact inv_init0.
    - destruct inv_cur0 as [-> [Ha _]]. exists (h_p11 s), (h_p10 s).
      unfold eval_clf. rewrite Ha, inv_input0, inv_labels0, firstn_all2 by lia. reflexivity.
  Qed.

  Lemma step_inv k rounds s : length labels = length input -> Inv k rounds s -> 5 * k < nMore ->
    (available s -> exists xs s', step (length input) s = (s', Ok tt) /\ Inv (S k) (rounds ++ [xs]) s') /\
    (~ available s -> step (length input) s = (s, Raise IndexError)).
  Proof.
    intros Hlab HI Hlt. unfold hm_step. destruct (step_select s) as [H1 H2]. split.
    - intros Hav. destruct (H1 Hav) as [xs [order [idx [E [_ [_ [_ Hr]]]]]]]. rewrite E.
      assert (Hcur := inv_current _ _ _ HI Hlt).
      destruct Hr as [Hlen Hall]. destruct HI.
      assert (Hil : length (h_input s) = length input + 5 * k).
      { rewrite inv_input0, app_length, firstn_length. lia. }
      exists xs. eexists. split; [reflexivity|].
      assert (Hcc : concat (rounds ++ [xs]) = concat rounds ++ xs) by (rewrite concat_app; cbn; now rewrite app_nil_r).
      assert (Hx : (if Nat.ltb (length input + nMore) (length (h_input s) + length xs)
                    then firstn (nMore + length input - length (h_input s)) xs else xs)
                   = firstn (nMore - 5 * k) xs).
      { destruct (Nat.ltb_spec (length input + nMore) (length (h_input s) + length xs)).
        - f_equal. lia.
        - rewrite firstn_all2; [reflexivity|lia]. }
      assert (Hz : (if Nat.ltb (length input + nMore) (length (h_input s) + length xs)
                    then firstn (nMore + length input - length (h_input s)) (map phys xs) else map phys xs)
                   = map phys (firstn (nMore - 5 * k) xs)).
      { rewrite <- Hx. destruct (Nat.ltb _ _); [apply firstn_map|reflexivity]. }
      assert (Hin : h_input s ++ firstn (nMore - 5 * k) xs = input ++ firstn nMore (concat (rounds ++ [xs]))).
      { rewrite inv_input0, Hcc, firstn_app, inv_total0, app_assoc. reflexivity. }
      assert (Hla : h_labels s ++ map phys (firstn (nMore - 5 * k) xs)
                    = labels ++ map phys (firstn nMore (concat (rounds ++ [xs])))).
      { rewrite inv_labels0, Hcc, firstn_app, inv_total0, map_app, app_assoc. reflexivity. }
      constructor; cbn [h_input h_labels h_added h_iter h_init h_p11 h_p10 h_algo h_list h_cur h_conf h_evals].
      + rewrite app_length. cbn. lia.
      + lia.
      + lia.
      + rewrite Hcc, app_length. lia.
      + lia.
      + rewrite Hx. exact Hin.
      + rewrite Hz. exact Hla.
      + rewrite Hcc. congruence.
      + rewrite inv_list0. cbn. now rewrite <- repeat_cons.
      + exact inv_init0.
      + split; [reflexivity|]. rewrite inv_iter0. split; [reflexivity|]. eexists. repeat split.
      + intros j ys Hj. destruct (Nat.eq_dec j k) as [->|Hne].
        * rewrite nth_error_app2, inv_len0, Nat.sub_diag in Hj by lia. cbn in Hj. injection Hj as <-.
          exists (eval_clf s (h_cur s)). split; [|now split].
          rewrite firstn_app, inv_len0, Nat.sub_diag, firstn_all2 by lia. cbn. rewrite app_nil_r. exact Hcur.
        * assert (Hjl : j < length (rounds ++ [xs])) by (apply nth_error_Some; congruence).
          rewrite app_length in Hjl. cbn in Hjl.
          rewrite nth_error_app1 in Hj by lia.
          rewrite firstn_app. replace (j - length rounds) with 0 by lia. cbn. rewrite app_nil_r. auto.
    - intros Hav. rewrite (H2 Hav). reflexivity.
  Qed.

  Lemma available_dec s : available s \/ ~ available s.
  Proof.
    destruct (band_indices (pmin b) (pmax b) (map (eval_clf s (h_cur s)) candidates)) eqn:E.
    - right. intros H. apply available_indices in H. congruence.
    - left. apply available_indices. rewrite E. discriminate.
  Qed.

  Lemma loop_inv : length labels = length input -> forall fuel k rounds s, Inv k rounds s -> nMore <= 5 * (k + fuel) ->
    exists k' rounds' s' r, loop fuel (length input) s = Some (s', r) /\ Inv k' rounds' s' /\
      ((r = Ok tt /\ nMore <= 5 * k') \/
       (r = Raise IndexError /\ 5 * k' < nMore /\ ~ available s')).
  Proof.
    intros Hlab. induction fuel as [|fuel IH]; intros k rounds s HI Hf; cbn [hm_loop].
    - rewrite (inv_added _ _ _ HI). destruct (Nat.ltb_spec (5 * k) nMore); [lia|].
      exists k, rounds, s, (Ok tt). split; [reflexivity|]. split; [exact HI|]. left. auto.
    - rewrite (inv_added _ _ _ HI). destruct (Nat.ltb_spec (5 * k) nMore) as [Hlt|Hge].
      + destruct (step_inv k rounds s Hlab HI Hlt) as [H1 H2].
        destruct (available_dec s) as [Hav|Hav].
        * destruct (H1 Hav) as [xs [s' [-> HI']]].
          apply (IH (S k) (rounds ++ [xs]) s' HI'). lia.
        * rewrite (H2 Hav). exists k, rounds, s, (Raise IndexError). split; [reflexivity|]. split; [exact HI|]. right. auto.
      + exists k, rounds, s, (Ok tt). split; [reflexivity|]. split; [exact HI|]. left. auto.
  Qed.

  Lemma ceil5_spec n k : 5 * k < n + 5 -> n <= 5 * k -> k = ceil5 n.
  Proof.
    intros H1 H2. unfold ceil5. apply (Nat.div_unique (n + 4) 5 k (n + 4 - 5 * k)); lia.
  Qed.

  Lemma run_lemma fuel : length labels = length input -> nMore <= 5 * fuel ->
    exists rounds s r, run fuel input labels = Some (s, r) /\
      Inv (length rounds) rounds s /\
      ((r = Ok tt /\ length rounds = ceil5 nMore) \/
       (r = Raise IndexError /\ 5 * length rounds < nMore /\ ~ available s)).
  Proof.
    intros Hlab Hf. unfold hm_run.
    destruct (loop_inv Hlab fuel 0 [] _ inv_start Hf) as [k [rounds [s [r [E [HI H]]]]]].
    exists rounds, s, r. split; [exact E|]. assert (Hk := inv_len _ _ _ HI).
    split; [now rewrite Hk|]. rewrite Hk.
    destruct H as [[-> H]|H]; [left|right; exact H].
    split; [reflexivity|]. apply ceil5_spec; [apply (inv_needed _ _ _ HI)|exact H].
  Qed.

  (** The matrix computed by a round: the initial classifier once, the latest corrected one [k] times. *)
  Lemma step_conf k rounds s s' : Inv k rounds s -> step (length input) s = (s', Ok tt) ->
    h_conf s' = Some (confMat num64 (h_labels s')
      (predict (fit 0 input labels) (h_input s')
       :: repeat (predict (fun x => agg num64 (h_p11 s) (h_p10 s) (h_algo s x)) (h_input s')) k)).
  Proof.
    intros HI. unfold hm_step.
    destruct (do i <- _; fancy candidates i) as [xs|e]; [|discriminate].
    intros H. injection H as <-. cbn [h_conf h_labels h_input]. f_equal. f_equal.
    rewrite (inv_list _ _ _ HI). cbn [map]. f_equal.
    - unfold eval_clf. now rewrite (inv_init _ _ _ HI).
    - clear. induction k; cbn; [reflexivity|]. f_equal; auto.
  Qed.

  Lemma growth_lemma fuel : length labels = length input -> nMore <= 5 * fuel ->
    exists rounds s r, run fuel input labels = Some (s, r) /\
      let new := firstn nMore (concat rounds) in
      length (concat rounds) = 5 * length rounds /\ h_evals s = concat rounds /\
      h_iter s = length rounds /\
      h_input s = input ++ new /\ h_labels s = labels ++ map phys new /\
      (forall k xs, nth_error rounds k = Some xs ->
         exists f, current_classifier fit phys input labels k (concat (firstn k rounds)) f /\
                   round_ok candidates b f xs) /\
      ((r = Ok tt /\ length rounds = ceil5 nMore) \/
       (r = Raise IndexError /\ 5 * length rounds < nMore /\ ~ available s)).
  Proof.
    intros Hlab Hf. destruct (run_lemma fuel Hlab Hf) as [rounds [s [r [E [HI H]]]]].
    exists rounds, s, r. split; [exact E|]. destruct HI. cbv zeta. repeat (split; [assumption|]). exact H.
  Qed.

  (** One iteration from an arbitrary state. *)
  Lemma step_lemma n_ini s :
    (available s -> exists s' xs order idx,
        step n_ini s = (s', Ok tt) /\
        quartile_choice b (map (eval_clf s (h_cur s)) candidates) order idx /\
        map Some xs = map (nth_error candidates) idx /\
        h_evals s' = h_evals s ++ xs /\
        (NoDup idx <-> 5 <= length order)) /\
    (~ available s -> step n_ini s = (s, Raise IndexError)).
  Proof.
    destruct (step_select s) as [H1 H2]. unfold hm_step. split.
    - intros Hav. destruct (H1 Hav) as [xs [order [idx [E [Hsel [Hne [Hx _]]]]]]]. rewrite E.
      eexists _, xs, order, idx. split; [reflexivity|]. split; [now apply selection_choice|].
      split; [exact Hx|]. split; [reflexivity|]. eapply selection_NoDup; eauto.
    - intros Hav. now rewrite (H2 Hav).
  Qed.
End Loop.

Lemma ceil5_cost n : n <= 5 * ceil5 n /\ 5 * ceil5 n < n + 5 /\ (5 * ceil5 n = n <-> n mod 5 = 0).
Proof.
  unfold ceil5. pose proof (div_bounds (n + 4) 5 ltac:(lia)).
  remember ((n + 4) / 5) as q. split; [lia|]. split; [lia|]. split; intros Hq.
  - rewrite <- Hq. rewrite Nat.mul_comm. apply Nat.mod_mul. lia.
  - apply Nat.mod_divides in Hq; [|lia]. destruct Hq as [c ->]. lia.
Qed.
