From Coq Require Import SpecFloat String.
From Verif Require Import Base Float64 SettersModel.
Local Open Scope list_scope.

Definition within (lo hi x : float) : Prop := fleb lo x = true /\ fleb x hi = true.

(** *** Range test through np.max / np.min *)
Lemma existsb_is_nan_perm l1 l2 : Permutation l1 l2 -> existsb is_nan l1 = existsb is_nan l2.
Proof.
  induction 1 as [|x l1 l2 _ IH|x y l|l1 l2 l3 _ IH1 _ IH2]; cbn; try congruence.
  destruct (is_nan x), (is_nan y); reflexivity.
Qed.

Lemma range_test y ys lo hi :
  is_nan lo = false -> is_nan hi = false -> existsb is_nan (y :: ys) = false ->
  ((fgtb (np_max y ys) hi || fltb (np_min y ys) lo)%bool = false <-> Forall (within lo hi) (y :: ys)).
Proof.
  intros Hlo Hhi Hn. rewrite orb_false_iff.
  assert (Hmx : is_nan (np_max y ys) = false) by (rewrite np_max_is_nan; exact Hn).
  assert (Hmn : is_nan (np_min y ys) = false) by (rewrite np_min_is_nan; exact Hn).
  unfold fgtb. change (SFltb hi (np_max y ys)) with (fltb hi (np_max y ys)).
  rewrite (fltb_negb_fleb hi), (fltb_negb_fleb _ lo), !negb_false_iff by auto.
  rewrite Forall_forall. split.
  - intros [H1 H2] x Hx. split.
    + eapply fleb_trans; [exact H2|]. now apply np_min_le.
    + eapply fleb_trans; [|exact H1]. now apply np_max_ge.
  - intros H. split; [apply (H _ (np_max_in ys y))|apply (H _ (np_min_in ys y))].
Qed.

Lemma nan_test_passes y ys lo hi :
  existsb is_nan (y :: ys) = true -> (fgtb (np_max y ys) hi || fltb (np_min y ys) lo)%bool = false.
Proof.
  intros H. rewrite <- np_max_is_nan in H.
  assert (H2 := H). rewrite np_max_is_nan, <- np_min_is_nan in H2.
  destruct (np_max y ys); try discriminate. destruct (np_min y ys); try discriminate.
  unfold fgtb. change (fltb hi S754_nan || false = false)%bool. now rewrite fltb_nan_r.
Qed.

Lemma fsort_nil_iff l : fsort l = [] <-> l = [].
Proof.
  split; [|now intros ->]. intros H. assert (P := fsort_perm l). rewrite H in P. now apply Permutation_nil in P.
Qed.

(** Effect of one call. *)
Lemma setDefectSizes_spec lo hi st arg st' r :
  is_nan lo = false -> is_nan hi = false ->
  setDefectSizes lo hi st arg = (st', r) ->
  (arg = [] -> st' = st /\ r = Raise ValueError) /\
  (arg <> [] -> existsb is_nan arg = false ->
     (r = Ok tt <-> Forall (within lo hi) arg) /\ (r = Raise ValueError <-> ~ Forall (within lo hi) arg)) /\
  (arg <> [] -> existsb is_nan arg = true -> r = Ok tt) /\
  (arg <> [] -> st_sizes st' = fsort arg) /\
  (r = Ok tt -> st_number st' = List.length (st_sizes st')) /\
  (r <> Ok tt -> st_number st' = st_number st).
Proof.
  intros Hlo Hhi. unfold setDefectSizes. destruct (fsort arg) as [|y ys] eqn:E.
  - apply (proj1 (fsort_nil_iff _)) in E. subst arg. intros H. injection H as <- <-.
    repeat split; intros; try congruence; try contradiction.
  - assert (P := fsort_perm arg). rewrite E in P.
    assert (Hne : arg <> []) by (intros ->; discriminate).
    assert (HF : Forall (within lo hi) (y :: ys) <-> Forall (within lo hi) arg).
    { split; apply Permutation_Forall; [|symmetry]; exact P. }
    assert (HN : existsb is_nan (y :: ys) = existsb is_nan arg) by now apply existsb_is_nan_perm.
    destruct (fgtb (np_max y ys) hi || fltb (np_min y ys) lo)%bool eqn:T;
      intros H; injection H as <- <-; cbn [st_sizes st_number].
    + split; [congruence|]. split; [|split; [|split; [|split]]]; try congruence; auto.
      * intros _ Hn. rewrite <- HF, <- range_test by (auto; congruence). rewrite T.
        split; split; intros; try congruence; try reflexivity. 
      * intros _ Hn. rewrite <- HN in Hn. rewrite (nan_test_passes _ _ lo hi Hn) in T. discriminate.
    + split; [congruence|]. split; [|split; [|split; [|split]]]; try congruence; auto.
      intros _ Hn. rewrite <- HF, <- range_test by (auto; congruence). rewrite T.
      split; split; intros; try congruence; try reflexivity.
Qed.

(** *** Histories *)
(** Sizes shown after a history: the sorted last non-empty argument. *)
Definition last_nonempty (d : list float) (args : list (list float)) : list float :=
  fold_left (fun acc a => match a with [] => acc | _ => fsort a end) args d.
(** A call accepted by the setter. *)
Definition accepted (lo hi : float) (arg : list float) : Prop :=
  arg <> [] /\ (existsb is_nan arg = true \/ Forall (within lo hi) arg).

Lemma history_sizes lo hi : forall args st,
  st_sizes (set_history lo hi st args) = last_nonempty (st_sizes st) args.
Proof.
  induction args as [|a args IH]; intros st; [reflexivity|].
  change (set_history lo hi st (a :: args)) with (set_history lo hi (fst (setDefectSizes lo hi st a)) args).
  change (last_nonempty (st_sizes st) (a :: args))
    with (last_nonempty (match a with [] => st_sizes st | _ => fsort a end) args).
  rewrite IH. f_equal. unfold setDefectSizes. destruct (fsort a) as [|y ys] eqn:E.
  - apply (proj1 (fsort_nil_iff _)) in E. now subst a.
  - destruct a as [|x xs]; [discriminate|]. destruct (fgtb (np_max y ys) hi || fltb (np_min y ys) lo)%bool; cbn; congruence.
Qed.

Definition sizes_inv (lo hi : float) (st : sizes_state) : Prop :=
  st_number st = List.length (st_sizes st) /\ Sorted_by np_leb (st_sizes st) /\ Forall (within lo hi) (st_sizes st).

Lemma within_not_nan lo hi x : within lo hi x -> is_nan x = false.
Proof. intros [H _]. now apply fleb_not_nan in H. Qed.
Lemma forall_within_no_nan lo hi l : Forall (within lo hi) l -> existsb is_nan l = false.
Proof.
  induction 1 as [|x l Hx _ IH]; [reflexivity|]. cbn. rewrite IH, (within_not_nan _ _ _ Hx). reflexivity.
Qed.

Lemma step_inv lo hi st arg :
  is_nan lo = false -> is_nan hi = false ->
  sizes_inv lo hi st -> Forall (within lo hi) arg -> sizes_inv lo hi (fst (setDefectSizes lo hi st arg)).
Proof.
  intros Hlo Hhi Hinv Harg.
  destruct (setDefectSizes lo hi st arg) as [st' r] eqn:E. cbn [fst].
  destruct (setDefectSizes_spec lo hi st arg st' r Hlo Hhi E) as (H1 & H2 & H3 & H4 & H5 & H6).
  destruct arg as [|x xs].
  - destruct (H1 eq_refl) as [-> _]. exact Hinv.
  - assert (Hn : existsb is_nan (x :: xs) = false) by now apply (forall_within_no_nan lo hi).
    destruct (H2 ltac:(discriminate) Hn) as [[_ Hok] _]. specialize (Hok Harg). subst r.
    unfold sizes_inv. rewrite (H5 eq_refl), (H4 ltac:(discriminate)).
    split; [reflexivity|]. split; [apply fsort_sorted|].
    eapply Permutation_Forall; [symmetry; apply fsort_perm|exact Harg].
Qed.
Lemma history_inv lo hi : is_nan lo = false -> is_nan hi = false -> forall args st,
  sizes_inv lo hi st -> Forall (Forall (within lo hi)) args -> sizes_inv lo hi (set_history lo hi st args).
Proof.
  intros Hlo Hhi. induction args as [|a args IH]; intros st Hinv Hall; [exact Hinv|].
  inversion Hall; subst. apply (IH (fst (setDefectSizes lo hi st a))); [|assumption]. now apply step_inv.
Qed.

(** Shapes in run. *)
Lemma assign_columns_ok ncol : forall sizes i, assign_columns ncol i sizes = Ok tt <-> (sizes = [] \/ i + List.length sizes <= ncol).
Proof.
  induction sizes as [|x sizes IH]; intros i; cbn [assign_columns List.length].
  - intuition.
  - destruct (Nat.ltb_spec i ncol).
    + rewrite IH. split; [intros [->|H']|intros [H'|H']]; cbn; try (right; cbn; lia); try discriminate; try (right; lia).
      
    + split; [discriminate|]. intros [H'|H']; [discriminate|lia].
Qed.
Lemma run_shapes_ok st : run_shapes st = Ok tt <-> st_number st = List.length (st_sizes st).
Proof.
  unfold run_shapes. destruct (assign_columns (st_number st) 0 (st_sizes st)) as [[]|e] eqn:E; cbn [bind].
  - destruct (Nat.eqb_spec (List.length (st_sizes st)) (st_number st)); split; congruence.
  - split; [discriminate|]. intros H.
    assert (C : assign_columns (st_number st) 0 (st_sizes st) = Ok tt)
      by (apply assign_columns_ok; right; cbn; lia).
    congruence.
Qed.

(** *** setQuantile *)
Definition in01_open (x : float) : Prop := fltb fzero x = true /\ fltb x fone = true.
Lemma quantile_test y ys :
  existsb is_nan (y :: ys) = false ->
  ((fgeb (np_max y ys) fone || fleb (np_min y ys) fzero)%bool = false <-> Forall in01_open (y :: ys)).
Proof.
  intros Hn. rewrite orb_false_iff.
  assert (Hmx : is_nan (np_max y ys) = false) by (rewrite np_max_is_nan; exact Hn).
  assert (Hmn : is_nan (np_min y ys) = false) by (rewrite np_min_is_nan; exact Hn).
  unfold fgeb. change (SFleb fone (np_max y ys)) with (fleb fone (np_max y ys)).
  assert (N1 : is_nan fone = false) by reflexivity. assert (N0 : is_nan fzero = false) by reflexivity.
  rewrite (fleb_negb_fltb fone), (fleb_negb_fltb _ fzero), !negb_false_iff by auto.
  rewrite Forall_forall. split.
  - intros [H1 H2] x Hx. split.
    + eapply fltb_fleb_trans; [exact H2|]. now apply np_min_le.
    + eapply fleb_fltb_trans; [|exact H1]. now apply np_max_ge.
  - intros H. split; [apply (H _ (np_max_in ys y))|apply (H _ (np_min_in ys y))].
Qed.
Lemma setQuantile_spec st arg st' r :
  setQuantile st arg = (st', r) ->
  (r <> Ok tt -> st' = st /\ r = Raise ValueError) /\
  (r = Ok tt -> st' = fsort arg /\ arg <> []) /\
  (existsb is_nan arg = false -> (r = Ok tt <-> arg <> [] /\ Forall in01_open arg)) /\
  (existsb is_nan arg = true -> r = Ok tt).
Proof.
  unfold setQuantile. destruct (fsort arg) as [|y ys] eqn:E.
  - apply (proj1 (fsort_nil_iff _)) in E. subst arg. intros H. injection H as <- <-. cbn.
    repeat split; intros; try congruence. now destruct H0.
  - assert (P := fsort_perm arg). rewrite E in P.
    assert (Hne : arg <> []) by (intros ->; discriminate).
    assert (HF : Forall in01_open (y :: ys) <-> Forall in01_open arg).
    { split; apply Permutation_Forall; [|symmetry]; exact P. }
    assert (HN : existsb is_nan (y :: ys) = existsb is_nan arg) by now apply existsb_is_nan_perm.
    destruct (fgeb (np_max y ys) fone || fleb (np_min y ys) fzero)%bool eqn:T; intros H; injection H as <- <-.
    + split; [auto|]. split; [congruence|]. split.
      * intros Hn. rewrite <- HF, <- quantile_test by congruence. rewrite T. split; [congruence|intros [_ ?]; congruence].
      * intros Hn. exfalso. rewrite <- HN in Hn.
        assert (H1 := Hn). rewrite <- np_max_is_nan in H1. rewrite <- np_min_is_nan in Hn.
        unfold fgeb in T. change (SFleb fone (np_max y ys)) with (fleb fone (np_max y ys)) in T.
        destruct (np_max y ys); try discriminate. destruct (np_min y ys); try discriminate.
    + split; [congruence|]. split; [auto|]. split; [|reflexivity].
      intros Hn. rewrite <- HF, <- quantile_test by congruence. rewrite T. tauto.
Qed.
Lemma quantile_step_inv st arg :
  existsb is_nan arg = false ->
  Sorted_by np_leb st /\ Forall in01_open st ->
  Sorted_by np_leb (fst (setQuantile st arg)) /\ Forall in01_open (fst (setQuantile st arg)).
Proof.
  intros Hn Hst. destruct (setQuantile st arg) as [st' r] eqn:E. cbn [fst].
  destruct (setQuantile_spec st arg st' r E) as (H1 & H2 & H3 & _).
  destruct r as [[]|e].
  - destruct (H2 eq_refl) as [-> _]. destruct (H3 Hn) as [H _]. destruct (H eq_refl) as [_ H4].
    split; [apply fsort_sorted|]. eapply Permutation_Forall; [symmetry; apply fsort_perm|exact H4].
  - destruct H1 as [-> _]; [discriminate|exact Hst].
Qed.
Lemma quantile_history_inv : forall args st,
  Forall (fun a => existsb is_nan a = false) args ->
  Sorted_by np_leb st /\ Forall in01_open st ->
  Sorted_by np_leb (quantile_history st args) /\ Forall in01_open (quantile_history st args).
Proof.
  induction args as [|a args IH]; intros st Hn Hst; [exact Hst|].
  inversion Hn; subst. apply (IH (fst (setQuantile st a))); [assumption|]. now apply quantile_step_inv.
Qed.

(** *** pmin / pmax *)
Definition in01 (x : float) : Prop := fleb fzero x = true /\ fleb x fone = true.
Lemma band_test p : is_nan p = false -> ((fltb p fzero || fgtb p fone)%bool = false <-> in01 p).
Proof.
  intros Hp. rewrite orb_false_iff. unfold in01, fgtb. change (SFltb fone p) with (fltb fone p).
  rewrite (fltb_negb_fleb p fzero), (fltb_negb_fleb fone p), !negb_false_iff by auto. reflexivity.
Qed.
Definition op_value (o : band_op) : float := match o with SetPMin p | SetPMax p => p end.
Lemma band_step_spec b o b' r :
  band_step b o = (b', r) ->
  (r <> Ok tt -> b' = b /\ r = Raise ValueError) /\
  (r = Ok tt <-> is_nan (op_value o) = true \/ in01 (op_value o)) /\
  (r = Ok tt -> match o with
                | SetPMin p => pmin b' = p /\ pmax b' = pmax b
                | SetPMax p => pmin b' = pmin b /\ pmax b' = p
                end).
Proof.
  destruct o as [p|p]; cbn [band_step op_value];
    (destruct (fltb p fzero || fgtb p fone)%bool eqn:T; intros H; injection H as <- <-;
     (split; [try (intros; split; congruence); congruence|]; split; [|try congruence; auto]);
     (destruct (is_nan p) eqn:Hp;
      [ split; intros; try (now left); destruct p; cbn in *; congruence
      | rewrite <- band_test by assumption; rewrite T; split; intros; try congruence; try (right; reflexivity);
        destruct H; congruence ])).
Qed.
Lemma band_history_inv : forall ops b,
  Forall (fun o => is_nan (op_value o) = false) ops ->
  in01 (pmin b) /\ in01 (pmax b) ->
  in01 (pmin (band_history b ops)) /\ in01 (pmax (band_history b ops)).
Proof.
  induction ops as [|o ops IH]; intros b Hn Hb; [exact Hb|].
  inversion Hn as [|? ? Hn1 Hn2]; subst.
  apply (IH (fst (band_step b o))); [assumption|].
  destruct (band_step b o) as [b' r] eqn:E. cbn [fst].
  destruct (band_step_spec b o b' r E) as (H1 & H2 & H3).
  destruct r as [[]|e].
  - assert (Hi : in01 (op_value o)) by (destruct H2 as [H2 _]; destruct (H2 eq_refl); [congruence|assumption]).
    specialize (H3 eq_refl). destruct o; cbn in *; destruct H3 as [-> ->]; tauto.
  - destruct H1 as [-> _]; [discriminate|exact Hb].
Qed.

(** *** Classifier type *)
Lemma classifier_step_spec {P} (rf svc : P) s name s' r :
  classifier_step rf svc s (SetType name) = (s', r) ->
  (name = "rf"%string -> r = Ok tt /\ s' = {| c_type := "rf"%string; c_params := rf |}) /\
  (name = "svc"%string -> r = Ok tt /\ s' = {| c_type := "svc"%string; c_params := svc |}) /\
  (name <> "rf"%string -> name <> "svc"%string -> r = Raise ValueError /\ s' = s).
Proof.
  unfold classifier_step.
  destruct (String.eqb_spec name "rf"); destruct (String.eqb_spec name "svc"); cbn; intros H; injection H as <- <-;
    subst; repeat split; intros; try congruence; try contradiction; cbn; try congruence.
Qed.
