(** C26 (confidence curves of the quantile regression POD). *)
From Verif Require Import RealBase Solver QuantileModel QuantileProofs QuantileProps InterpModel InterpProofs InterpProps DetectionModel DetectionProps.
Local Open Scope R_scope.

Lemma nth_map_seq (f : nat -> R) n j : (j < n)%nat -> nth j (map f (seq 0 n)) 0 = f j.
Proof. intros H. rewrite (nth_indep _ 0 (f 0%nat)) by (now rewrite map_length, seq_length). rewrite map_nth, seq_nth by exact H. reflexivity. Qed.
Lemma filter_map_length {A B} (f : B -> bool) (g : A -> B) l : length (filter f (map g l)) = length (filter (fun x => f (g x)) l).
Proof. induction l as [|x l IH]; cbn; [reflexivity|]. destruct (f (g x)); cbn; now rewrite IH. Qed.
(** The size of the confidence curve at a level: it grows with the confidence, is between the extreme bootstrap sizes of that
    level, and at confidence (k + 1/2)/M at most k of the M bootstrap sizes are below it and at most M-1-k above. *)
Theorem C26_confidence_sizes :
  forall (rows : list (list R)) (n : nat) (c : R), rows <> [] ->
    exists sizes, qr_cl_sizes rows n c = Ok sizes /\ length sizes = n /\
      (forall j, (j < n)%nat ->
         (exists r r', In r rows /\ In r' rows /\ nth j r 0 <= nth j sizes 0 <= nth j r' 0) /\
         (forall k, (k < length rows)%nat -> c = (INR k + / 2) / INR (length rows) ->
            (countb (fun r => Rltb (nth j r 0%R) (nth j sizes 0%R)) rows <= k)%nat /\
            (countb (fun r => Rltb (nth j sizes 0%R) (nth j r 0%R)) rows <= length rows - 1 - k)%nat)) /\
      (forall c' sizes', c <= c' -> qr_cl_sizes rows n c' = Ok sizes' -> forall j, (j < n)%nat -> nth j sizes 0 <= nth j sizes' 0).
Proof.
  intros rows n c Hne. unfold qr_cl_sizes, quantile_per_component.
  assert (Hc : forall j, column rows j <> []) by (intros j E; apply Hne; now apply map_eq_nil in E).
  destruct rows as [|r0 rs] eqn:Er; [now destruct Hne|]. rewrite <- Er in *. clear Er r0 rs Hne.
  eexists. split; [reflexivity|]. split; [now rewrite map_length, seq_length|]. split.
  - intros j Hj. rewrite nth_map_seq by exact Hj. split.
    + assert (B := quantile_bounds (column rows j) c (Hc j)).
      assert (I1 := Rlmin_in _ (Hc j)). assert (I2 := Rlmax_in _ (Hc j)).
      unfold column in I1, I2. apply in_map_iff in I1, I2. destruct I1 as (r & E1 & I1), I2 as (r' & E2 & I2).
      exists r, r'. unfold column in B. rewrite E1, E2. auto.
    + intros k Hk ->. assert (L : length (column rows j) = length rows) by (unfold column; apply map_length).
      assert (G := C15_order_statistic (column rows j) k ltac:(lia)). cbv zeta in G. rewrite L in G.
      replace (1 - (1 - (INR k + / 2) / INR (length rows))) with ((INR k + / 2) / INR (length rows)) in G by ring.
      destruct G as (_ & G1 & G2). unfold column in *. unfold countb in *. rewrite !filter_map_length in *. split; assumption.
  - intros c' sizes' Hcc [= <-] j Hj. rewrite !nth_map_seq by exact Hj. now apply quantile_mono.
Qed.
Print Assumptions C26_confidence_sizes.

(** Moving the nodes of a non decreasing curve to the right lowers the curve. *)
Lemma find_cell : forall xs t, strictly_increasing xs -> xs <> [] -> nth 0 xs 0 <= t <= last xs 0 ->
  (exists i, (S i < length xs)%nat /\ nth i xs 0 <= t <= nth (S i) xs 0) \/ (length xs = 1%nat /\ t = nth 0 xs 0).
Proof.
  induction xs as [|a xs IH]; intros t Hs Hne Ht; [now destruct Hne|].
  destruct xs as [|b xs]; [right; cbn in Ht; split; [reflexivity|cbn; lra]|]. left.
  destruct (Rle_lt_dec t b) as [L|L].
  - exists 0%nat. cbn [length nth] in *. split; [lia|lra].
  - inversion Hs; subst. destruct (IH t) as [(i & Hi & Hti)|[K1 K2]]; auto; [discriminate| | |].
    + change (last (a :: b :: xs) 0) with (last (b :: xs) 0) in Ht. cbn [nth] in *. lra.
    + exists (S i). cbn [length nth] in *. split; [lia|exact Hti].
    + cbn [nth] in K2. lra.
Qed.
Lemma interp1d_shift_right xs xs' ys t v v' :
  length xs = length ys -> length xs' = length ys -> strictly_increasing xs -> strictly_increasing xs' -> StronglySorted Rle ys ->
  (forall j, (j < length ys)%nat -> nth j xs 0 <= nth j xs' 0) ->
  interp1d xs ys t = Ok v -> interp1d xs' ys t = Ok v' -> v' <= v.
Proof.
  intros HL HL' Hs Hs' Hy Hle Hv Hv'.
  assert (Hne : xs' <> []).
  { intros E. rewrite E in Hv'. cbn in HL'. destruct ys; [|discriminate]. rewrite E in *. cbn in Hv'. discriminate. }
  destruct (C28_domain xs' ys t HL' Hs' Hne) as [_ D].
  assert (Ht : nth 0 xs' 0 <= t <= last xs' 0).
  { destruct (Rle_dec (nth 0 xs' 0) t) as [A|A]; [destruct (Rle_dec t (last xs' 0)) as [B|B]|]; [auto| |];
      rewrite D in Hv' by lra; discriminate. }
  destruct (find_cell xs' t Hs' Hne Ht) as [(i & Hi & Hti)|[H1 H2]].
  - destruct (C28_affine_between_neighbours xs' ys i t HL' Hs' Hi Hti) as (w & Hw & Et & Ev). rewrite Ev in Hv'. injection Hv' as <-.
    set (u := (1 - w) * nth i xs 0 + w * nth (S i) xs 0).
    assert (Hlt : nth i xs 0 < nth (S i) xs 0).
    { clear -Hs Hi HL HL'. assert (Hi' : (S i < length xs)%nat) by lia. clear Hi HL HL'. revert i Hi'. induction Hs as [|a l Hl IH Ha]; intros i Hi; cbn in Hi; [lia|].
      destruct i as [|i]; cbn [nth].
      - rewrite Forall_forall in Ha. apply Ha. apply nth_In. lia.
      - apply IH. lia. }
    assert (Hu : nth i xs 0 <= u <= nth (S i) xs 0) by (unfold u; nra).
    assert (Hut : u <= t).
    { rewrite Et. unfold u. apply Rplus_le_compat; apply Rmult_le_compat_l; try lra; apply Hle; lia. }
    destruct (C28_affine_between_neighbours xs ys i u HL Hs ltac:(lia) Hu) as (w' & Hw' & Eu & Ev').
    assert (w' = w) as -> by (unfold u in Eu; nra).
    exact (C28_monotone xs ys u t _ _ HL Hs Hy Hut Ev' Hv).
  - destruct ys as [|y [|? ?]]; try (cbn in *; lia). destruct xs as [|x [|? ?]]; try (cbn in *; lia).
    destruct xs' as [|x' [|? ?]]; try (cbn in *; lia). cbn in H2. subst t.
    assert (E := C28_exact_at_defect_sizes [x'] [y] 0 eq_refl Hs' ltac:(cbn; lia)). cbn [nth] in E. rewrite E in Hv'. injection Hv' as <-.
    assert (R := C28_range [x] [y] x' v y y). destruct R as [R1 R2]; [|exact Hv|lra]. intros z [<-|[]]. lra.
Qed.
(** The curve decreases with the confidence, as long as the confidence sizes are in increasing order inside (0, largest
    defect). *)
Theorem C26_curve_decreases_with_confidence :
  forall (levels : list R) rows dmax c c' s s' t v v',
    Rsorted levels -> (forall q, In q levels -> 0 < q) -> c <= c' ->
    qr_cl_sizes rows (length levels) c = Ok s -> qr_cl_sizes rows (length levels) c' = Ok s' ->
    strictly_increasing (qr_xs s dmax) -> strictly_increasing (qr_xs s' dmax) ->
    qr_evalCL levels rows dmax c t = Ok v -> qr_evalCL levels rows dmax c' t = Ok v' -> v' <= v.
Proof.
  intros levels rows dmax c c' s s' t v v' Hl Hpos Hc E E' Hx Hx' Hv Hv'.
  unfold qr_evalCL in *. rewrite E in Hv. rewrite E' in Hv'. cbn [bind] in Hv, Hv'.
  destruct rows as [|r0 rs] eqn:Er; [discriminate|]. rewrite <- Er in *.
  destruct (C26_confidence_sizes rows (length levels) c) as (s1 & F1 & L1 & _ & F2); [rewrite Er; discriminate|].
  rewrite E in F1. injection F1 as <-.
  destruct (C26_confidence_sizes rows (length levels) c') as (s2 & G1 & L2 & _ & _); [rewrite Er; discriminate|].
  rewrite E' in G1. injection G1 as <-.
  assert (M := F2 c' s' Hc E').
  eapply (interp1d_shift_right (qr_xs s dmax) (qr_xs s' dmax) (qr_ys levels)); try eassumption.
  - apply qr_len. exact L1.
  - apply qr_len. exact L2.
  - unfold qr_ys. destruct levels as [|q0 ql] eqn:El.
    { cbn. constructor; [repeat constructor|]. constructor; [|constructor]. unfold Rlmax. cbn. lra. }
    rewrite <- El in *. assert (Hm := fun x => Rlmax_ge levels x).
    assert (Hp0 : 0 < Rlmax levels) by (apply Hpos, Rlmax_in; rewrite El; discriminate).
    constructor.
    + revert Hm. generalize (Rlmax levels). clear -Hl. induction Hl as [|q l Hl IH Hall]; intros m Hm; cbn; [repeat constructor|].
      constructor; [apply IH; intros x Hx; apply Hm; now right|]. apply Forall_app. split; [exact Hall|].
      constructor; [apply Hm; now left|constructor].
    + apply Forall_app. split; [apply Forall_forall; intros q Hq; assert (G := Hpos q Hq); lra|constructor; [lra|constructor]].
  - intros j Hj. unfold qr_xs, qr_ys in *. cbn [length] in Hj. rewrite app_length in Hj. cbn [length] in Hj.
    destruct j as [|j]; cbn [nth]; [lra|]. destruct (Nat.lt_ge_cases j (length levels)) as [L|L].
    + rewrite !app_nth1 by lia. now apply M.
    + rewrite !app_nth2 by lia. rewrite L1, L2. lra.
Qed.
Print Assumptions C26_curve_decreases_with_confidence.
(** The bootstrap roots are searched on negative sizes too; a negative confidence size makes the confidence curve decrease
    (from its level down to 0 at size 0). *)
Theorem C26_monotone_confidence_curve_refuted :
  exists (levels : list R) rows dmax c t1 t2 v1 v2,
    strictly_increasing levels /\ (forall q, In q levels -> 0 < q < 1) /\ rows <> [] /\ (forall r, In r rows -> strictly_increasing r) /\
    t1 < t2 <= dmax /\ qr_evalCL levels rows dmax c t1 = Ok v1 /\ qr_evalCL levels rows dmax c t2 = Ok v2 /\ v2 < v1.
Proof.
  exists [/4; 3/4], [[-1; 2]], 5, (/2), (-1), 0, (/4), 0.
  split; [repeat constructor; lra|]. split; [intros q [<-|[<-|[]]]; lra|]. split; [discriminate|].
  split; [intros r [<-|[]]; repeat constructor; lra|]. split; [lra|].
  assert (E : qr_cl_sizes [[-1; 2]] (length [/4; 3/4]) (/2) = Ok [-1; 2]).
  { destruct (C26_confidence_sizes [[-1; 2]] 2 (/2)) as (s & Es & L & H & _); [discriminate|]. change (length [/4; 3/4]) with 2%nat. rewrite Es.
    destruct s as [|a [|b [|? ?]]]; try discriminate.
    destruct (H 0%nat ltac:(lia)) as [(r & r' & I1 & I2 & B) _]. destruct (H 1%nat ltac:(lia)) as [(q & q' & I3 & I4 & B') _].
    destruct I1 as [<-|[]], I2 as [<-|[]], I3 as [<-|[]], I4 as [<-|[]]. cbn in B, B'. repeat f_equal; lra. }
  unfold qr_evalCL. rewrite E. cbn [bind].
  destruct (C25_nodes_on_the_curve [/4; 3/4] [-1; 2] 5 eq_refl) as (H0 & H1 & _).
  - discriminate.
  - unfold qr_xs. cbn. repeat constructor; cbn; intuition lra.
  - split; [exact (H1 0%nat ltac:(cbn; lia))|]. split; [exact H0|lra].
Qed.
Print Assumptions C26_monotone_confidence_curve_refuted.
Example C26_confidence_example : let rows := [[1; 3]; [2; 4]] in let levels := [/4; 3/4] in
  rows <> [] /\ Rsorted levels /\ (exists s, qr_cl_sizes rows (length levels) (/4) = Ok s /\ strictly_increasing (qr_xs s 5)).
Proof.
  intros rows levels. split; [discriminate|]. split; [repeat constructor; lra|].
  destruct (C26_confidence_sizes rows 2 (/4)) as (s & E & L & H & _); [discriminate|]. exists s. split; [exact E|].
  destruct s as [|a [|b [|? ?]]]; try discriminate.
  destruct (H 0%nat ltac:(lia)) as [(r & r' & I1 & I2 & B) _]. destruct (H 1%nat ltac:(lia)) as [(q & q' & I3 & I4 & B') _].
  destruct I1 as [<-|[<-|[]]], I2 as [<-|[<-|[]]], I3 as [<-|[<-|[]]], I4 as [<-|[<-|[]]]; cbn in B, B'; unfold qr_xs; cbn; repeat constructor; lra.
Qed.
