(** C46, C47, C48: Sobol indices. *)
From Coq Require Import SpecFloat.
From Verif Require Import RealBase Float64 SettersModel SettersProofs HitMissModel SobolModel.
Local Open Scope list_scope.

Lemma fancy_filter {A B} (f : B -> bool) (l : list A) (outs : list B) : length l = length outs ->
  fancy l (filter (fun i => match nth_error outs i with Some c => f c | None => false end) (seq 0 (length outs)))
  = Ok (map fst (filter (fun p => f (snd p)) (combine l outs))).
Proof.
  intros H. unfold fancy.
  enough (G : forall n, all_some (map (nth_error l) (filter (fun i => match nth_error outs i with Some c => f c | None => false end) (seq n (length outs - n))))
           = Some (map fst (filter (fun p => f (snd p)) (skipn n (combine l outs))))).
  { specialize (G 0). rewrite Nat.sub_0_r in G. cbn [skipn] in G. now rewrite G. }
  intros n. remember (length outs - n) as m eqn:Em. revert n Em. induction m as [|m IH]; intros n Em.
  - cbn. rewrite skipn_all2; [reflexivity|]. rewrite combine_length. lia.
  - cbn [seq filter]. assert (Hn : (n < length outs)%nat) by lia.
    destruct (nth_error outs n) as [c|] eqn:Eo; [|apply nth_error_None in Eo; lia].
    destruct (nth_error l n) as [a|] eqn:Ea; [|apply nth_error_None in Ea; lia].
    assert (Es : skipn n (combine l outs) = (a, c) :: skipn (S n) (combine l outs)).
    { assert (Ec : nth_error (combine l outs) n = Some (a, c)).
      { clear -Ea Eo. revert n outs Ea Eo. induction l as [|x l IHl]; intros [|n] [|y outs] Ea Eo; cbn in *; try discriminate.
        - congruence.
        - now apply IHl. }
      clear -Ec. revert n Ec. induction (combine l outs) as [|p q IHq]; intros [|n] Ec; cbn in *; try discriminate.
      - congruence.
      - now apply IHq. }
    rewrite Es. cbn [filter snd]. specialize (IH (S n) ltac:(lia)). destruct (f c); cbn [map all_some fst].
    + rewrite Ea, IH. reflexivity.
    + exact IH.
Qed.
Lemma filter_seq_length {B} (f : B -> bool) (outs : list B) :
  length (filter (fun i => match nth_error outs i with Some c => f c | None => false end) (seq 0 (length outs))) = length (filter f outs).
Proof.
  enough (G : forall n, length (filter (fun i => match nth_error outs i with Some c => f c | None => false end) (seq n (length outs - n)))
              = length (filter f (skipn n outs))) by (specialize (G 0); rewrite Nat.sub_0_r in G; exact G).
  intros n. remember (length outs - n) as m eqn:Em. revert n Em. induction m as [|m IH]; intros n Em.
  - cbn. rewrite skipn_all2 by lia. reflexivity.
  - cbn [seq filter]. destruct (nth_error outs n) as [c|] eqn:Eo; [|apply nth_error_None in Eo; lia].
    assert (Es : skipn n outs = c :: skipn (S n) outs).
    { clear -Eo. revert n Eo. induction outs as [|p q IHq]; intros [|n] Ec; cbn in *; try discriminate; [congruence|now apply IHq]. }
    rewrite Es. cbn [filter]. specialize (IH (S n) ltac:(lia)). destruct (f c); cbn [length]; now rewrite IH.
Qed.
Lemma filter_length_all {A} (f : A -> bool) l : length (filter f l) = length l -> filter f l = l.
Proof.
  induction l as [|x l IH]; cbn; [reflexivity|]. destruct (f x); cbn.
  - intros H. f_equal. apply IH. lia.
  - intros H. assert (L : (length (filter f l) <= length l)%nat) by (clear; induction l as [|y l IH]; cbn; [lia|destruct (f y); cbn; lia]). lia.
Qed.
Lemma filter_snd {A B} (f : B -> bool) : forall (l : list A) (outs : list B), length l = length outs ->
  map snd (filter (fun p => f (snd p)) (combine l outs)) = filter f outs.
Proof.
  induction l as [|x l IH]; intros [|y outs] H; cbn in *; try discriminate; [reflexivity|].
  destruct (f y); cbn; rewrite IH by lia; reflexivity.
Qed.
Lemma combine_split_map {A B} (l : list (A * B)) : combine (map fst l) (map snd l) = l.
Proof. induction l as [|[a b] l IH]; cbn; congruence. Qed.
Lemma StronglySorted_filter_fst {A B} (leb : A -> A -> bool) (f : A * B -> bool) : forall (l : list (A * B)),
  Sorted_by leb (map fst l) -> Sorted_by leb (map fst (filter f l)).
Proof.
  induction l as [|p l IH]; cbn; intros H; [constructor|]. inversion H as [|? ? H1 H2]; subst.
  destruct (f p); cbn; [|now apply IH]. constructor; [now apply IH|].
  rewrite Forall_forall in *. intros y Hy. apply H2. apply in_map_iff in Hy. destruct Hy as (q & <- & Hq).
  apply in_map. apply filter_In in Hq. tauto.
Qed.
Lemma combine_fst {A B} : forall (s : list A) (o : list B), length o = length s -> map fst (combine s o) = s.
Proof. induction s as [|x s IH]; intros [|y o] H; cbn in *; try discriminate; [reflexivity|]. f_equal. apply IH. lia. Qed.
Lemma filter_nil_some {A} (f : A -> bool) l : filter f l = [] -> forall x, In x l -> f x = false.
Proof.
  intros H x Hx. destruct (f x) eqn:E; [|reflexivity]. assert (G : In x (filter f l)) by (apply filter_In; auto). rewrite H in G. destruct G.
Qed.

(** C46.  The sizes kept are those whose output column has a non zero variance; sizes and columns stay aligned; when every
    variance is zero run raises and keeps the sizes. *)
Theorem C46_alignment :
  forall (Col : Type) lo hi (design : list float -> list Col) nonzero st,
    is_nan lo = false -> is_nan hi = false -> sizes_inv lo hi (sb_sizes st) -> st_sizes (sb_sizes st) <> [] ->
    length (design (st_sizes (sb_sizes st))) = length (st_sizes (sb_sizes st)) ->
    let kept := filter (fun p => nonzero (snd p)) (combine (st_sizes (sb_sizes st)) (design (st_sizes (sb_sizes st)))) in
    if existsb nonzero (design (st_sizes (sb_sizes st)))
    then exists st', sobol_run lo hi design nonzero st = (st', Ok tt) /\ sizes_inv lo hi (sb_sizes st') /\
           st_sizes (sb_sizes st') = map fst kept /\ sb_sa st' = Some (map snd kept) /\ drawn st' = kept
    else sobol_run lo hi design nonzero st = (st, Raise ValueError).
Proof.
  intros Col lo hi design nonzero st Hlo Hhi Hinv Hne Hlen kept.
  set (sizes := st_sizes (sb_sizes st)) in *. set (outs := design sizes) in *.
  assert (Ls : length (filter (fun i => match nth_error outs i with Some c => nonzero c | None => false end) (seq 0 (length outs)))
               = length (filter nonzero outs)) by apply filter_seq_length.
  assert (Fs : fancy sizes (filter (fun i => match nth_error outs i with Some c => nonzero c | None => false end) (seq 0 (length outs)))
               = Ok (map fst kept)) by (apply fancy_filter; now symmetry).
  assert (Fo : fancy outs (filter (fun i => match nth_error outs i with Some c => nonzero c | None => false end) (seq 0 (length outs)))
               = Ok (map snd kept)).
  { rewrite fancy_filter by reflexivity. f_equal. unfold kept. rewrite filter_snd by now symmetry.
    clear. induction outs as [|x l IH]; cbn; [reflexivity|]. destruct (nonzero x); cbn; now rewrite IH. }
  assert (Lk : length kept = length (filter nonzero outs)).
  { rewrite <- (filter_snd nonzero sizes outs) by now symmetry. now rewrite map_length. }
  destruct Hinv as (Hnum & Hsort & Hwith).
  assert (Sk : Sorted_by np_leb (map fst kept)).
  { apply StronglySorted_filter_fst. rewrite combine_fst by exact Hlen. exact Hsort. }
  assert (Wk : Forall (within lo hi) (map fst kept)).
  { rewrite Forall_forall in *. intros x Hx. apply Hwith. apply in_map_iff in Hx. destruct Hx as ([a c] & <- & Hx).
    apply filter_In in Hx. eapply in_combine_l. apply Hx. }
  unfold sobol_run. fold sizes outs. rewrite Ls.
  destruct (existsb nonzero outs) eqn:Ex.
  - destruct (Nat.eqb_spec (length (filter nonzero outs)) (length outs)) as [E|E]; cbn [negb].
    + assert (Ef : kept = combine sizes outs).
      { unfold kept. apply filter_length_all. fold kept. rewrite Lk, combine_length. lia. }
      eexists. split; [reflexivity|]. cbn [sb_sizes sb_sa].
      assert (E1 : map fst kept = sizes).
      { rewrite Ef. now apply combine_fst. }
      assert (E2 : map snd kept = outs).
      { unfold kept. rewrite filter_snd by now symmetry. now apply filter_length_all. }
      split; [split; [exact Hnum|split; [exact Hsort|exact Hwith]]|]. fold sizes. split; [now symmetry|]. split; [now rewrite E2|].
      unfold drawn. cbn [sb_sizes sb_sa]. fold sizes. now symmetry.
    + rewrite Fs. destruct (setDefectSizes lo hi (sb_sizes st) (map fst kept)) as [st1 r] eqn:Eset.
      assert (Hk : map fst kept <> []).
      { intros H. apply existsb_exists in Ex. destruct Ex as (c & Hc & Hf).
        assert (Z : length (filter nonzero outs) = 0) by (rewrite <- Lk, <- (map_length fst), H; reflexivity).
        apply length_zero_iff_nil in Z. rewrite (filter_nil_some _ _ Z c Hc) in Hf. discriminate. }
      destruct (setDefectSizes_spec lo hi _ _ _ _ Hlo Hhi Eset) as (_ & H2 & _ & H4 & H5 & _).
      destruct (H2 Hk (forall_within_no_nan lo hi _ Wk)) as [Hok _]. rewrite (proj2 Hok Wk) in *. rewrite Fo.
      assert (Es : st_sizes st1 = map fst kept) by (rewrite (H4 Hk); apply isort_id; exact Sk).
      eexists. split; [reflexivity|]. cbn [sb_sizes sb_sa]. split.
      { split; [rewrite (H5 eq_refl); reflexivity|]. rewrite Es. auto. }
      split; [exact Es|]. split; [reflexivity|]. unfold drawn. cbn [sb_sizes sb_sa]. rewrite Es. apply combine_split_map.
  - assert (Z : filter nonzero outs = []).
    { clear -Ex. induction outs as [|x l IH]; cbn in *; [reflexivity|]. apply orb_false_iff in Ex. destruct Ex as [-> Ex]. now apply IH. }
    rewrite Z in *. cbn [length] in *.
    destruct (Nat.eqb_spec 0 (length outs)) as [E|E]; cbn [negb].
    { exfalso. apply Hne. apply length_zero_iff_nil. lia. }
    rewrite Fs. assert (kept = []) as -> by (apply length_zero_iff_nil; exact Lk). cbn. destruct st; reflexivity.
Qed.
Print Assumptions C46_alignment.
(** Runs never bring a removed size back: after any number of runs the sizes are a part of the initial ones, in order. *)
Theorem C46_removed_sizes_stay_removed :
  forall (Col : Type) lo hi (designs : list (list float -> list Col)) nonzero st st',
    is_nan lo = false -> is_nan hi = false -> sizes_inv lo hi (sb_sizes st) -> st_sizes (sb_sizes st) <> [] ->
    (forall d s, In d designs -> length (d s) = length s) ->
    fold_left (fun s d => fst (sobol_run lo hi d nonzero s)) designs st = st' ->
    exists m, length m = length (st_sizes (sb_sizes st)) /\ st_sizes (sb_sizes st') = mask m (st_sizes (sb_sizes st)).
Proof.
  intros Col lo hi designs nonzero st st' Hlo Hhi.
  revert st. induction designs as [|d ds IH]; intros st Hinv Hne Hl H; cbn [fold_left] in H.
  - subst st'. exists (map (fun _ => true) (st_sizes (sb_sizes st))). rewrite map_length. split; [reflexivity|].
    generalize (st_sizes (sb_sizes st)). intros l. induction l as [|x l IHl]; cbn; [reflexivity|]. now rewrite <- IHl.
  - assert (Hd := Hl d (st_sizes (sb_sizes st)) (or_introl eq_refl)).
    pose proof (C46_alignment Col lo hi d nonzero st Hlo Hhi Hinv Hne Hd) as A. cbv zeta in A.
    destruct (existsb nonzero (d (st_sizes (sb_sizes st)))) eqn:Ex.
    + destruct A as (st1 & A1 & A2 & A3 & _ & _). rewrite A1 in H. cbn [fst] in H.
      destruct (IH st1 A2) as (m & M1 & M2); [| |exact H|].
      * rewrite A3. intros Hn. apply map_eq_nil in Hn. apply existsb_exists in Ex. destruct Ex as (c & Hc & Hf).
        assert (Z := filter_snd nonzero (st_sizes (sb_sizes st)) _ (eq_sym Hd)). rewrite Hn in Z. cbn in Z. symmetry in Z.
        rewrite (filter_nil_some _ _ Z c Hc) in Hf. discriminate.
      * intros d' s Hd'. apply Hl. now right.
      * rewrite M2, A3. rewrite A3, map_length in M1. clear -M1 Hd.
        revert m M1 Hd. generalize (d (st_sizes (sb_sizes st))). generalize (st_sizes (sb_sizes st)). clear.
        induction l as [|x l IHl]; intros [|o outs] m M1 Hd; cbn in *; try discriminate.
        -- exists []. destruct m; [auto|discriminate].
        -- destruct (nonzero o); cbn in *.
           ++ destruct m as [|b m]; [discriminate|]. destruct (IHl outs m) as (m' & E1 & E2); [now injection M1|now injection Hd|].
              exists (b :: m'). cbn. rewrite E1. split; [reflexivity|]. destruct b; [f_equal|]; exact E2.
           ++ destruct (IHl outs m) as (m' & E1 & E2); [exact M1|now injection Hd|]. exists (false :: m'). cbn. rewrite E1. auto.
    + rewrite A in H. cbn [fst] in H. apply IH; auto. intros d' s Hd'. apply Hl. now right.
Qed.
Print Assumptions C46_removed_sizes_stay_removed.
Definition ex_sobol : sobol_state Z := {| sb_sizes := {| st_sizes := [of_int 1; of_int 2; of_int 5]; st_number := 3 |}; sb_sa := None |}.
Definition ex_design (s : list float) : list Z := map (fun f => if fltb f (of_int 2) then 0 else 7)%Z s.
Example C46_example :
  sizes_inv (of_int 1) (of_int 5) (sb_sizes ex_sobol) /\ length (ex_design (st_sizes (sb_sizes ex_sobol))) = 3 /\
  fst (sobol_run (of_int 1) (of_int 5) ex_design (fun c => negb (Z.eqb c 0)) ex_sobol)
  = {| sb_sizes := {| st_sizes := [of_int 2; of_int 5]; st_number := 2 |}; sb_sa := Some [7; 7]%Z |}.
Proof.
  split; [|split; [reflexivity|vm_compute; reflexivity]].
  split; [reflexivity|]. split; repeat first [ match goal with |- _ = _ => vm_compute; reflexivity end | constructor ].
Qed.
(** setDefectSizes without a new run: the plot shows the index computed for another size. *)
Theorem C46_plot_after_setDefectSizes_refuted :
  exists (st st' : sobol_state float) arg a c,
    sobol_run (of_int 1) (of_int 5) (fun s => s) (fun _ => true) st = (st, Ok tt) /\
    sobol_setSizes (of_int 1) (of_int 5) st arg = (st', Ok tt) /\ In (a, c) (drawn st') /\ a <> c.
Proof.
  exists {| sb_sizes := {| st_sizes := [of_int 2; of_int 5]; st_number := 2 |}; sb_sa := Some [of_int 2; of_int 5] |}.
  eexists. exists [of_int 3; of_int 4], (of_int 3), (of_int 2).
  split; [vm_compute; reflexivity|]. split; [vm_compute; reflexivity|]. split; [left; vm_compute; reflexivity|vm_compute; discriminate].
Qed.
Print Assumptions C46_plot_after_setDefectSizes_refuted.

Local Open Scope R_scope.
(** C47. *)
Lemma check_var_spec vars :
  check_var vars = if forallb (fun v => Rltb v 0) vars then Raise ValueError else Ok vars.
Proof.
  unfold check_var. destruct (forallb (fun v => Rltb v 0) vars) eqn:E; [|reflexivity].
  assert (F : forallb (fun v => Rltb v (1 / 100)) (filter (fun v => Rltb v 0) vars) = true).
  { apply forallb_forall. intros v Hv. apply filter_In in Hv. destruct Hv as [_ Hv]. apply Rltb_true in Hv. apply Rltb_true. lra. }
  now rewrite F.
Qed.
Theorem C47_raises_iff_all_negative :
  forall Phi detection means vars, length means = length vars ->
    (kr_exec Phi detection means vars = Raise ValueError <-> (forall v, In v vars -> v < 0)) /\
    (forall e, kr_exec Phi detection means vars = Raise e -> e = ValueError).
Proof.
  intros Phi detection means vars Hl. unfold kr_exec. rewrite check_var_spec.
  destruct (forallb (fun v => Rltb v 0) vars) eqn:E; cbn [bind].
  - split; [|congruence]. split; [|reflexivity]. intros _ v Hv. apply Rltb_true. rewrite forallb_forall in E. now apply E.
  - split; [|destruct vars; congruence]. split; [destruct vars; discriminate|]. intros H.
    assert (forallb (fun v => Rltb v 0) vars = true) by (apply forallb_forall; intros v Hv; now apply Rltb_true, H). congruence.
Qed.
Print Assumptions C47_raises_iff_all_negative.
(** Otherwise nothing is repaired: if the first variance is negative all outputs are NaN; if it is not negative no
    other variance matters. *)
Theorem C47_some_negative :
  forall Phi detection means v0 vars, (exists v, In v (v0 :: vars) /\ 0 <= v) ->
    (v0 < 0 -> kr_exec Phi detection means (v0 :: vars) = Ok (map (fun _ => None) means)) /\
    (0 <= v0 -> forall vars', kr_exec Phi detection means (v0 :: vars) = kr_exec Phi detection means (v0 :: vars')).
Proof.
  intros Phi detection means v0 vars (v & Hv & Hp).
  assert (E : forallb (fun v => Rltb v 0) (v0 :: vars) = false).
  { destruct (forallb (fun v => Rltb v 0) (v0 :: vars)) eqn:E; [|reflexivity]. rewrite forallb_forall in E. apply E in Hv.
    apply Rltb_true in Hv. lra. }
  unfold kr_exec. rewrite !check_var_spec, E. cbn [bind]. split.
  - intros H. f_equal. apply map_ext. intros m. unfold kr_prob. now rewrite (proj2 (Rltb_true v0 0) H).
  - intros H vars'. rewrite check_var_spec. cbn [forallb]. rewrite (proj2 (Rltb_false v0 0) H). reflexivity.
Qed.
Print Assumptions C47_some_negative.
(** First variance zero: the outputs do not depend on the normal law: 0 below the threshold, 1 above, NaN (0/0) on it. *)
Theorem C47_zero_variance :
  forall Phi detection means vars, exists out, kr_exec Phi detection means (0 :: vars) = Ok out /\
    Forall2 (fun m o => (m < detection -> o = Some 0) /\ (detection < m -> o = Some 1) /\ (m = detection -> o = None)) means out.
Proof.
  intros Phi detection means vars. unfold kr_exec. rewrite check_var_spec. cbn [forallb]. rewrite (proj2 (Rltb_false 0 0)) by lra. cbn [andb bind]. eexists. split; [reflexivity|].
  induction means as [|m means IH]; cbn [map]; constructor; [|exact IH]. unfold kr_prob. rewrite (proj2 (Rltb_false 0 0)) by lra.
  destruct (Reqb_spec 0 0) as [_|N]; [|now destruct N]. destruct (Reqb_spec (detection - m) 0), (Rltb_spec 0 (detection - m)); (repeat split; intros; try reflexivity; lra).
Qed.
Print Assumptions C47_zero_variance.
(** Documented behaviour (negative values above -1e-2 accepted) refuted: one tiny negative variance is rejected when it is alone,
    a large negative one accepted when it is not. *)
Theorem C47_documented_tolerance_refuted :
  (exists Phi d m, kr_exec Phi d [m] [- (1 / 1000)] = Raise ValueError) /\
  (exists Phi d m1 m2 r, kr_exec Phi d [m1; m2] [1; - 100] = Ok r).
Proof.
  split.
  - exists (fun x => x), 0, 0. apply C47_raises_iff_all_negative; [reflexivity|]. intros v [<-|[]]. lra.
  - exists (fun x => x), 0, 0, 0. unfold kr_exec. rewrite check_var_spec. cbn [forallb].
    destruct (Rltb_spec 1 0); [lra|]. cbn [andb bind]. eexists. reflexivity.
Qed.
Print Assumptions C47_documented_tolerance_refuted.
Example C47_example : (exists v, In v [-1; 2] /\ 0 <= v) /\ kr_exec (fun x => x) 0 [3; 4] [-1; 2] = Ok [None; None].
Proof. split; [exists 2; split; [right; left; reflexivity|lra]|]. apply C47_some_negative; [exists 2; split; [right; left; reflexivity|lra]|lra]. Qed.

(** C48.  Specification: the kriging POD at a size with mean m and variance var > 0. *)
Definition kriging_pod (Phi : R -> R) (detection m var : R) : R := 1 - Phi ((detection - m) / sqrt var).
Definition increasing (Phi : R -> R) : Prop := forall x y, x < y -> Phi x < Phi y.
Lemma increasing_inj Phi : increasing Phi -> forall x y, Phi x = Phi y -> x = y.
Proof. intros H x y E. destruct (Rtotal_order x y) as [L|[L|L]]; [apply H in L; lra|exact L|apply H in L; lra]. Qed.
Theorem C48_variance_of_the_first_size :
  forall Phi detection means vars i m v v0,
    increasing Phi -> (forall v, In v vars -> 0 < v) -> length means = length vars ->
    nth_error means i = Some m -> nth_error vars i = Some v -> nth_error vars 0 = Some v0 ->
    exists out, kr_exec Phi detection means vars = Ok out /\ nth_error out i = Some (Some (kriging_pod Phi detection m v0)) /\
      (nth_error out i = Some (Some (kriging_pod Phi detection m v)) <-> v = v0 \/ m = detection).
Proof.
  intros Phi detection means vars i m v v0 HP Hpos Hl Hm Hv Hv0.
  destruct vars as [|w vars]; [discriminate|]. injection Hv0 as ->.
  assert (H0 : 0 < v0) by (apply Hpos; now left). assert (Hvp : 0 < v) by (apply Hpos; eapply nth_error_In; exact Hv).
  unfold kr_exec. rewrite check_var_spec. cbn [forallb]. destruct (Rltb_spec v0 0) as [L|_]; [lra|]. cbn [andb bind].
  eexists. split; [reflexivity|]. rewrite nth_error_map, Hm. cbn [option_map].
  assert (E : kr_prob Phi detection m v0 = Some (kriging_pod Phi detection m v0)).
  { unfold kr_prob. destruct (Rltb_spec v0 0); [lra|]. destruct (Reqb_spec v0 0); [lra|]. reflexivity. }
  rewrite E. split; [reflexivity|]. assert (S0 := sqrt_lt_R0 v0 H0). assert (S1 := sqrt_lt_R0 v Hvp). split.
  - intros H. injection H as H. unfold kriging_pod in H. assert (H' : Phi ((detection - m) / sqrt v0) = Phi ((detection - m) / sqrt v)) by lra.
    apply increasing_inj in H'; [|exact HP]. destruct (Req_dec (detection - m) 0) as [Z|Z]; [right; lra|]. left.
    assert (Hs : sqrt v = sqrt v0).
    { assert (H2 : / sqrt v0 = / sqrt v) by (apply (Rmult_eq_reg_l (detection - m)); [exact H'|exact Z]).
      apply (f_equal Rinv) in H2. rewrite !Rinv_inv in H2. now symmetry. }
    apply sqrt_inj in Hs; lra.
  - intros [->| ->]; [reflexivity|]. unfold kriging_pod. do 3 f_equal. replace (detection - detection) with 0 by ring. unfold Rdiv. now rewrite !Rmult_0_l.
Qed.
Print Assumptions C48_variance_of_the_first_size.
(** The kriging is that of the normalised inputs: mean and variance at (a, x) are [kmean (T (a, x))], [kvar (T (a, x))]. *)
Theorem C48_agrees_without_normalisation :
  forall (P : Type) Phi detection (kmean kvar : P -> R) (T : P -> P) point sizes v,
    sizes <> [] -> (forall a, In a sizes -> T (point a) = point a) -> (forall a, In a sizes -> kvar (point a) = v) -> 0 < v ->
    kr_point Phi detection kmean kvar point sizes
    = Ok (map (fun a => Some (kriging_pod Phi detection (kmean (T (point a))) (kvar (T (point a))))) sizes).
Proof.
  intros P Phi detection kmean kvar T point sizes v Hne HT Hv Hp. unfold kr_point, kr_exec. rewrite check_var_spec.
  destruct sizes as [|a sizes]; [now destruct Hne|]. cbn [map forallb].
  rewrite (Hv a (or_introl eq_refl)). destruct (Rltb_spec v 0) as [L|_]; [lra|]. cbn [andb bind]. f_equal.
  change (kmean (point a) :: map (fun a0 => kmean (point a0)) sizes) with (map (fun a0 => kmean (point a0)) (a :: sizes)).
  change (Some (kriging_pod Phi detection (kmean (T (point a))) (kvar (T (point a))))
          :: map (fun a0 => Some (kriging_pod Phi detection (kmean (T (point a0))) (kvar (T (point a0))))) sizes)
    with (map (fun a0 => Some (kriging_pod Phi detection (kmean (T (point a0))) (kvar (T (point a0))))) (a :: sizes)).
  change (map (fun m => kr_prob Phi detection m v) (map (fun a0 => kmean (point a0)) (a :: sizes))
          = map (fun a0 => Some (kriging_pod Phi detection (kmean (T (point a0))) (kvar (T (point a0))))) (a :: sizes)).
  rewrite map_map. apply map_ext_in. intros b Hb. rewrite (HT b Hb), (Hv b Hb). unfold kr_prob.
  destruct (Rltb_spec v 0); [lra|]. destruct (Reqb_spec v 0); [lra|]. reflexivity.
Qed.
Print Assumptions C48_agrees_without_normalisation.
(** With a normalisation (here a division by 2) the values differ, even with a constant variance. *)
Theorem C48_normalised_inputs_refuted :
  exists (Phi : R -> R) detection (kmean kvar : R -> R) (T : R -> R) (point : R -> R) (a : R),
    increasing Phi /\ (forall x, kvar x = 1) /\
    kr_point Phi detection kmean kvar point [a] <> Ok [Some (kriging_pod Phi detection (kmean (T (point a))) (kvar (T (point a))))].
Proof.
  exists (fun x => x), 0, (fun x => x), (fun _ => 1), (fun x => x / 2), (fun x => x), 2.
  split; [intros x y H; exact H|]. split; [reflexivity|].
  rewrite (C48_agrees_without_normalisation R _ _ _ _ (fun x => x) _ _ 1); [|discriminate|reflexivity|reflexivity|lra].
  cbn [map]. unfold kriging_pod. rewrite sqrt_1. intros H. injection H as H. lra.
Qed.
Print Assumptions C48_normalised_inputs_refuted.
Theorem C48_variance_refuted :
  exists (Phi : R -> R) detection means vars i m v out,
    increasing Phi /\ (forall v, In v vars -> 0 < v) /\ kr_exec Phi detection means vars = Ok out /\
    nth_error means i = Some m /\ nth_error vars i = Some v /\
    nth_error out i <> Some (Some (kriging_pod Phi detection m v)).
Proof.
  destruct (C48_variance_of_the_first_size (fun x => x) 0 [1; 1] [1; 4] 1 1 4 1) as (out & E & _ & N); try reflexivity.
  - intros x y H; exact H.
  - intros v [<-|[<-|[]]]; lra.
  - exists (fun x => x), 0, [1; 1], [1; 4], 1%nat, 1, 4, out. split; [intros x y H; exact H|].
    split; [intros v [<-|[<-|[]]]; lra|]. split; [exact E|]. split; [reflexivity|]. split; [reflexivity|].
    intros H. apply N in H. lra.
Qed.
Print Assumptions C48_variance_refuted.
Example C48_example : increasing (fun x => x) /\ (forall v, In v [1; 4] -> 0 < v) /\ length [1; 1] = length [1; 4] /\
  kr_point (fun x => x) 0 (fun x : R => x) (fun _ => 1) (fun a => a) [2; 3] = Ok [Some 3; Some 4].
Proof.
  split; [intros x y H; exact H|]. split; [intros v [<-|[<-|[]]]; lra|]. split; [reflexivity|].
  rewrite (C48_agrees_without_normalisation R _ _ _ _ (fun x => x) _ _ 1); [|discriminate|reflexivity|reflexivity|lra].
  cbn [map]. unfold kriging_pod. rewrite sqrt_1. repeat f_equal; lra.
Qed.
