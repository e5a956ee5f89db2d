(** C87: the search of the covariance parameters. *)
From Coq Require Import Reals Lra.
From Verif Require Import RealBase ThetaModel.
Local Open Scope R_scope.

(** A point of a box. *)
Definition in_box (lower upper x : list R) : Prop :=
  length x = length lower /\ forall i, (i < length lower)%nat -> nth i lower 0 <= nth i x 0 <= nth i upper 0.
(** The Sobol sequence: that many points of the unit cube. *)
Definition sobol_spec (sobol : nat -> nat -> list (list R)) : Prop :=
  forall d n, length (sobol d n) = n /\ forall u, In u (sobol d n) -> length u = d /\ forall v, In v u -> 0 <= v <= 1.
(** A local search: stays in the bounds of the fitter and does not return worse than its starting point. *)
Definition local_spec (lik : list R -> R) (local : fitter -> list R -> list R) : Prop :=
  forall f lower upper s, f_bounds f = Some (lower, upper) -> in_box lower upper s -> in_box lower upper (local f s) /\ lik s <= lik (local f s).

Lemma stretch_in lower upper u : length upper = length lower -> length u = length lower -> (forall v, In v u -> 0 <= v <= 1) ->
  (forall i, (i < length lower)%nat -> nth i lower 0 <= nth i upper 0) -> in_box lower upper (stretch lower upper u).
Proof.
  revert upper u. induction lower as [|a l IH]; intros [|b h] [|v u] Lh Lu Hv Hb; try discriminate; [split; [reflexivity|intros i Hi; cbn in Hi; lia]|].
  cbn [stretch]. injection Lh as Lh. injection Lu as Lu.
  destruct (IH h u Lh Lu (fun w Hw => Hv w (or_intror Hw)) (fun i Hi => Hb (S i) ltac:(cbn; lia))) as [L1 B1].
  split; [cbn; now rewrite L1|]. intros [|i] Hi; cbn [nth].
  - assert (V := Hv v (or_introl eq_refl)). assert (B := Hb 0%nat ltac:(cbn; lia)). cbn [nth] in B. assert (0 <= (b - a) * v) by (apply Rmult_le_pos; lra).
    assert ((b - a) * v <= (b - a) * 1) by (apply Rmult_le_compat_l; lra). lra.
  - apply B1. cbn in Hi. lia.
Qed.
Lemma proper_spec lower upper : proper lower upper = true <-> length upper = length lower /\ forall i, (i < length lower)%nat -> nth i lower 0 < nth i upper 0.
Proof.
  revert upper. induction lower as [|a l IH]; intros [|b h]; cbn [proper].
  - split; [intros _; split; [reflexivity|intros i Hi; cbn in Hi; lia]|reflexivity].
  - split; [discriminate|intros [H _]; discriminate].
  - split; [discriminate|intros [H _]; discriminate].
  - rewrite andb_true_iff, Rltb_true, IH. split.
    + intros [H1 [H2 H3]]. split; [cbn; now rewrite H2|]. intros [|i] Hi; cbn; [exact H1|]. apply H3. cbn in Hi. lia.
    + intros [H1 H2]. split; [exact (H2 0%nat ltac:(cbn; lia))|]. split; [now injection H1|]. intros i Hi. exact (H2 (S i) ltac:(cbn; lia)).
Qed.
(** A positive size sets the bounds and that many starting points, all of them inside; the only failure is a box which is not one. A size that is
    not positive switches the optimisation off and touches nothing else. *)
Theorem C87_settings sobol f lower upper size : sobol_spec sobol ->
  ((size <= 0)%Z -> estimKrigingTheta sobol f lower upper size = Ok {| f_bounds := f_bounds f; f_starts := f_starts f; f_optimise := false |}) /\
  ((0 < size)%Z ->
     (lower <> [] /\ length upper = length lower /\ (forall i, (i < length lower)%nat -> nth i lower 0 < nth i upper 0) ->
        exists starts, estimKrigingTheta sobol f lower upper size = Ok {| f_bounds := Some (lower, upper); f_starts := Some starts; f_optimise := f_optimise f |} /\
          Z.of_nat (length starts) = size /\ forall s, In s starts -> in_box lower upper s) /\
     (~ (lower <> [] /\ length upper = length lower /\ (forall i, (i < length lower)%nat -> nth i lower 0 < nth i upper 0)) ->
        exists e, estimKrigingTheta sobol f lower upper size = Raise e)).
Proof.
  intros Hs. unfold estimKrigingTheta. split.
  - intros H. destruct (Z.ltb_spec 0 size); [lia|reflexivity].
  - intros H. destruct (Z.ltb_spec 0 size); [|lia]. split.
    + intros (N & L & B). destruct (Nat.eqb_spec (length lower) 0) as [E|_]; [destruct lower; [congruence|discriminate]|].
      rewrite (proj2 (proper_spec lower upper)) by (split; assumption). eexists. split; [reflexivity|]. destruct (Hs (length lower) (Z.to_nat size)) as [Ls Cs]. split; [rewrite map_length, Ls; lia|].
      intros s Hin. apply in_map_iff in Hin. destruct Hin as (u & <- & Hu). destruct (Cs u Hu) as [Lu Vu]. apply stretch_in; auto. intros i Hi. left. auto.
    + intros N. destruct (Nat.eqb_spec (length lower) 0) as [E|E]; [eauto|]. destruct (proper lower upper) eqn:Ep; [|eauto]. exfalso. apply N. apply proper_spec in Ep. split; [intros ->; apply E; reflexivity|exact Ep].
Qed.
Lemma multistart_spec lik local starts theta0 (Q : list R -> Prop) : starts <> [] -> (forall s, In s starts -> Q (local s) /\ lik s <= lik (local s)) ->
  Q (multistart lik local starts theta0) /\ forall s, In s starts -> lik s <= lik (multistart lik local starts theta0).
Proof.
  intros N H. destruct starts as [|s0 l]; [congruence|]. unfold multistart.
  assert (G : forall l a, Q a -> (forall s, In s l -> Q (local s) /\ lik s <= lik (local s)) ->
    let r := fold_left (fun a s => best lik a (local s)) l a in Q r /\ lik a <= lik r /\ forall s, In s l -> lik s <= lik r).
  { clear. induction l as [|s l IH]; intros a Qa H; cbn; [split; [exact Qa|]; split; [lra|intros s []]|].
    destruct (H s (or_introl eq_refl)) as [Qs Ls]. assert (B : Q (best lik a (local s)) /\ lik a <= lik (best lik a (local s)) /\ lik (local s) <= lik (best lik a (local s))).
    { unfold best. destruct (Rltb_spec (lik a) (lik (local s))); split; auto; lra. }
    destruct B as (B1 & B2 & B3). destruct (IH _ B1 (fun s' Hs => H s' (or_intror Hs))) as (I1 & I2 & I3). split; [exact I1|]. split; [lra|]. intros s' [<-|Hs]; [lra|auto]. }
  destruct (H s0 (or_introl eq_refl)) as [Q0 L0]. destruct (G l (local s0) Q0 (fun s Hs => H s (or_intror Hs))) as (G1 & G2 & G3). split; [exact G1|]. intros s [<-|Hs]; [lra|auto].
Qed.
(** The parameters of the kriging: in [0.001, 50] and at least as likely as each of the starting points tried when the size is positive; those of the
    covariance model given otherwise. *)
Theorem C87_parameters sobol lik local default size theta0 : sobol_spec sobol -> local_spec lik local -> theta0 <> [] ->
  ((size <= 0)%Z -> covariance_search sobol lik local default size theta0 = Ok theta0) /\
  ((0 < size)%Z -> exists theta, covariance_search sobol lik local default size theta0 = Ok theta /\
     length theta = length theta0 /\ (forall v, In v theta -> 1 / 1000 <= v <= 50) /\
     forall u, In u (sobol (length theta0) (Z.to_nat size)) -> lik (map (fun v => 1 / 1000 + (50 - 1 / 1000) * v) u) <= lik theta).
Proof.
  intros Hs Hl Hn. unfold covariance_search. set (d := length theta0). set (lo := repeat (1 / 1000) d). set (hi := repeat 50 d).
  destruct (C87_settings sobol new_fitter lo hi size Hs) as [C1 C2]. split.
  - intros H. rewrite (C1 H). reflexivity.
  - intros H. destruct (C2 H) as [C3 _].
    assert (Ll : length lo = d) by apply repeat_length. assert (Lh : length hi = d) by apply repeat_length.
    assert (Nl : forall i, (i < d)%nat -> nth i lo 0 = 1 / 1000) by (intros i Hi; unfold lo; rewrite (nth_indep _ 0 (1 / 1000)) by (rewrite repeat_length; exact Hi); apply nth_repeat).
    assert (Nh : forall i, (i < d)%nat -> nth i hi 0 = 50) by (intros i Hi; unfold hi; rewrite (nth_indep _ 0 50) by (rewrite repeat_length; exact Hi); apply nth_repeat).
    assert (dp : (0 < d)%nat) by (unfold d; destruct theta0; [congruence|cbn; lia]).
    destruct C3 as (starts & E & Lst & Bst).
    { split; [intros E; rewrite E in Ll; cbn in Ll; lia|]. split; [congruence|]. rewrite Ll. intros i Hi. rewrite Nl, Nh by exact Hi. lra. }
    rewrite E. cbn [bind fitter_run f_optimise f_starts new_fitter].
    assert (St : starts = map (stretch lo hi) (sobol d (Z.to_nat size))).
    { unfold estimKrigingTheta in E. destruct (Z.ltb 0 size); [|discriminate]. destruct (Nat.eqb (length lo) 0); [discriminate|]. destruct (proper lo hi); [|discriminate]. injection E as E. rewrite <- E. now rewrite Ll. }
    destruct (multistart_spec lik (local {| f_bounds := Some (lo, hi); f_starts := Some starts; f_optimise := true |}) starts theta0 (in_box lo hi)) as [M1 M2].
    { intros ->. cbn in Lst. lia. }
    { intros s Hin. apply (Hl {| f_bounds := Some (lo, hi); f_starts := Some starts; f_optimise := true |} lo hi s eq_refl). auto. }
    eexists. split; [reflexivity|]. destruct M1 as [M1 M3]. split; [exact (eq_trans M1 Ll)|]. split.
    + intros v Hv. destruct (In_nth _ _ 0 Hv) as (i & Hi & <-). rewrite M1, Ll in Hi. assert (B := M3 i ltac:(rewrite Ll; exact Hi)). rewrite Nl, Nh in B by exact Hi. exact B.
    + intros u Hu. assert (Su : stretch lo hi u = map (fun v => 1 / 1000 + (50 - 1 / 1000) * v) u).
      { destruct (Hs d (Z.to_nat size)) as [_ Cs]. destruct (Cs u Hu) as [Lu _]. unfold lo, hi. clear - Lu. clearbody d. revert d Lu. induction u as [|v u IH]; intros d Lu; destruct d; try discriminate; [reflexivity|].
        cbn [repeat stretch map]. f_equal. apply IH. now injection Lu. }
      rewrite <- Su. apply M2. rewrite St. now apply in_map.
Qed.
Print Assumptions C87_settings.
Print Assumptions C87_parameters.
(** The contracts hold for the points at the middle of the cube and a local search which stays where it is; the search returns the middle of the box. *)
Definition mid (d n : nat) : list (list R) := repeat (repeat (1 / 2) d) n.
Example C87_sobol_case : sobol_spec mid.
Proof.
  intros d n. unfold mid. split; [apply repeat_length|]. intros u Hu. apply repeat_spec in Hu. subst u. split; [apply repeat_length|]. intros v Hv. apply repeat_spec in Hv. subst v. lra.
Qed.
Example C87_local_case : local_spec (fun x => - nth 0 x 0) (fun _ s => s).
Proof. intros f lower upper s _ H. split; [exact H|lra]. Qed.
Example C87_case : covariance_search mid (fun x => - nth 0 x 0) (fun _ s => s) (fun x => x) 3 [1; 1] = Ok [1 / 1000 + (50 - 1 / 1000) * (1 / 2); 1 / 1000 + (50 - 1 / 1000) * (1 / 2)].
Proof.
  unfold covariance_search, estimKrigingTheta. cbn [length repeat Nat.eqb Z.ltb Z.compare proper]. rewrite !(proj2 (Rltb_true (1 / 1000) 50)) by lra. cbn [andb bind]. unfold fitter_run. cbn [f_optimise f_starts new_fitter].
  change (Z.to_nat 3) with 3%nat. cbn [mid repeat map stretch multistart fold_left]. assert (B : forall lik a, best lik a a = a) by (intros lik a; unfold best; destruct (Rltb _ _); reflexivity). rewrite !B. reflexivity.
Qed.
