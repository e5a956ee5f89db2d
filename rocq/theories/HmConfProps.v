(** C94: what the confidence curve of the hit-miss POD is. *)
From Coq Require Import Reals Lra.
From Verif Require Import RealBase LayoutModel LayoutProps QuantileModel QuantileProofs InterpModel InterpProofs InterpProps HmConfModel.
Local Open Scope R_scope.

(** *** How many values are below and above an empirical quantile *)
Lemma count_below s q k : Rsorted s -> (k <= length s)%nat -> (forall j, (k <= j < length s)%nat -> q <= nth j s 0) ->
  (countb (fun x => Rltb x q) s <= k)%nat.
Proof.
  intros Hs Hk H. rewrite <- (firstn_skipn k s), countb_app.
  replace (countb _ (skipn k s)) with 0%nat.
  - rewrite Nat.add_0_r. etransitivity; [apply countb_le|]. rewrite firstn_length. lia.
  - symmetry. apply countb_none. intros x Hx. apply Rltb_false. destruct (In_nth _ _ 0 Hx) as [i [Hi <-]].
    rewrite skipn_length in Hi. replace (nth i (skipn k s) 0) with (nth (k + i) s 0); [apply H; lia|].
    rewrite <- (firstn_skipn k s) at 1. rewrite app_nth2; rewrite firstn_length_le by lia; [f_equal; lia|lia].
Qed.
Lemma count_above s q k : Rsorted s -> (k <= length s)%nat -> (forall j, (j < k)%nat -> nth j s 0 <= q) ->
  (countb (fun x => Rltb q x) s <= length s - k)%nat.
Proof.
  intros Hs Hk H. rewrite <- (firstn_skipn k s) at 1. rewrite countb_app.
  replace (countb _ (firstn k s)) with 0%nat.
  - cbn [Nat.add]. etransitivity; [apply countb_le|]. rewrite skipn_length. lia.
  - symmetry. apply countb_none. intros x Hx. apply Rltb_false. destruct (In_nth _ _ 0 Hx) as [i [Hi <-]].
    rewrite firstn_length_le in Hi by lia. replace (nth i (firstn k s) 0) with (nth i s 0); [apply H; lia|].
    rewrite <- (firstn_skipn k s) at 1. rewrite app_nth1; [reflexivity|]. rewrite firstn_length_le; lia.
Qed.
Lemma quantile_counts l p : l <> [] -> 0 <= p <= 1 ->
  INR (countb (fun x => Rltb x (quantile l p)) l) <= p * INR (length l) + / 2 /\
  INR (countb (fun x => Rltb (quantile l p) x) l) <= (1 - p) * INR (length l) + / 2.
Proof.
  intros Hn Hp. assert (Hs := Rsort_sorted l). assert (HL := Rsort_length l).
  assert (Hpos : (0 < length l)%nat) by (destruct l; [easy|cbn; lia]).
  assert (HI : 1 <= INR (length l)) by (apply (le_INR 1); lia).
  assert (Hpn : 0 <= p * INR (length l)) by (apply Rmult_le_pos; lra).
  assert (Hqn : 0 <= (1 - p) * INR (length l)) by (apply Rmult_le_pos; lra).
  assert (Ep : (1 - p) * INR (length l) = INR (length l) - p * INR (length l)) by ring.
  rewrite <- !(countb_perm _ _ _ (Rsort_perm l)).
  assert (Main : forall q k m, (k <= length l)%nat -> (m <= length l)%nat ->
     (forall j, (k <= j < length l)%nat -> q <= nth j (Rsort l) 0) -> (forall j, (j < m)%nat -> nth j (Rsort l) 0 <= q) ->
     INR k <= p * INR (length l) + / 2 -> INR (length l) - INR m <= (1 - p) * INR (length l) + / 2 ->
     INR (countb (fun x => Rltb x q) (Rsort l)) <= p * INR (length l) + / 2 /\
     INR (countb (fun x => Rltb q x) (Rsort l)) <= (1 - p) * INR (length l) + / 2).
  { intros q k m Hk Hm H1 H2 L1 L2. split.
    - eapply Rle_trans; [apply le_INR, (count_below _ q k); rewrite ?HL; auto|exact L1].
    - eapply Rle_trans; [apply le_INR, (count_above _ q m); rewrite ?HL; auto|]. rewrite HL, minus_INR by lia. exact L2. }
  destruct (quantile_cases l p Hn) as [[A ->]|[[A [B ->]]|[A [B E]]]].
  - apply (Main _ (length l - 1)%nat (length l)); try lia.
    + intros j Hj. apply Rsorted_nth; [exact Hs|lia].
    + intros j Hj. apply Rsorted_nth; [exact Hs|lia].
    + rewrite minus_INR by lia. cbn [INR]. lra.
    + lra.
  - apply (Main _ 0%nat 0%nat); try lia.
    + intros j Hj. apply Rsorted_nth; [exact Hs|lia].
    + cbn [INR]. lra.
    + cbn [INR]. lra.
  - set (t := p * INR (length l) - / 2) in *.
    assert (A' := A). rewrite <- HL in A' at 1.
    destruct (lerp_bounds (Rsort l) Hs t (Rlt_le _ _ B) A') as [Hk Hb]. rewrite HL in Hk.
    destruct (floor_nat t (Rlt_le _ _ B)) as [F1 F2]. rewrite E.
    set (k := Z.to_nat (Int_part t)) in *.
    apply (Main _ (S k) (S k)); try lia.
    + intros j Hj. eapply Rle_trans; [apply Hb|]. apply Rsorted_nth; [exact Hs|lia].
    + intros j Hj. eapply Rle_trans; [|apply Hb]. apply Rsorted_nth; [exact Hs|lia].
    + rewrite S_INR. unfold t in F1. lra.
    + rewrite S_INR. unfold t in F2. lra.
Qed.

(** *** C94 *)
(** From the classifier to the curves: at a defect size, the POD curve is the mean of the probabilities of detection given to
    the Monte Carlo points at that size, and the curve of confidence c is the quantile 1 - c of these probabilities. *)
Theorem C94_curves :
  forall (dim : nat) (sizes : list R) (X : list (list R)) (proba : list R -> R) (c : R),
    strictly_increasing sizes -> X <> [] ->
    exists o, hm_finish (length sizes) dim sizes X proba = Ok o /\
      forall a, In a sizes ->
        let at_a := map (fun x => proba (a :: x)) X in
        meta_evalPOD o a = Ok (Rsum at_a / INR (length X)) /\ meta_evalCL o c a = Ok (quantile at_a (1 - c)).
Proof.
  intros dim sizes X proba c Hs HX.
  destruct (C35_hitmiss_pod 0 (length X) (length sizes) dim sizes X proba eq_refl eq_refl) as [cols [Hc [HL Hcol]]].
  unfold hm_finish. rewrite Hc. cbn [bind]. eexists. split; [reflexivity|]. intros a Ha. set (at_a := map (fun x => proba (a :: x)) X).
  destruct (In_nth _ _ 0 Ha) as [i [Hi Ea]].
  assert (En : nth_error sizes i = Some a) by (rewrite <- Ea; now apply nth_error_nth').
  assert (Hci := Hcol i a En).
  assert (Hli : nth i cols [] = at_a) by (now apply nth_error_nth).
  assert (Hrows : map (fun row => nth i row 0) (rows_of (length X) cols) = at_a).
  { unfold rows_of. rewrite map_map.
    transitivity (map (fun k => nth k at_a 0) (seq 0 (length at_a))).
    - unfold at_a at 2. rewrite map_length. apply map_ext_in. intros k Hk.
      rewrite (nth_indep _ 0 (nth k [] 0)) by (rewrite map_length; lia).
      rewrite (map_nth (fun col => nth k col 0)). now rewrite Hli.
    - clear. induction at_a as [|v l IH]; [reflexivity|]. cbn [length seq map nth]. f_equal.
      rewrite <- seq_shift, map_map. exact IH. }
  assert (Hlen : length (rows_of (length X) cols) = length X) by (unfold rows_of; now rewrite map_length, seq_length).
  assert (Hne : rows_of (length X) cols <> []).
  { intros E. apply HX, length_zero_iff_nil. rewrite <- Hlen, E. reflexivity. }
  assert (V := C28_values_at_the_defect_sizes (fun _ => rows_of (length X) cols) sizes i c Hs Hi Hne).
  cbn [meta_run meta_new mo_sizes mo_rows mo_curve] in V. rewrite Ea, Hrows, Hlen in V. exact V.
Qed.
Print Assumptions C94_curves.

(** The confidence level is a share of the Monte Carlo points, that is of the population of the parameters other than the
    defect: up to half a point, at most (1 - c) N points get a smaller probability than the confidence value, at most c N a
    larger one.  Nothing else enters: the value is determined by this share whatever the number of the observations. *)
Theorem C94_share_of_points :
  forall (dim : nat) (sizes : list R) (X : list (list R)) (proba : list R -> R) (c : R),
    strictly_increasing sizes -> X <> [] -> 0 <= c <= 1 ->
    exists o, hm_finish (length sizes) dim sizes X proba = Ok o /\
      forall a, In a sizes -> exists v, meta_evalCL o c a = Ok v /\
        INR (countb (fun x => Rltb (proba (a :: x)) v) X) <= (1 - c) * INR (length X) + / 2 /\
        INR (countb (fun x => Rltb v (proba (a :: x))) X) <= c * INR (length X) + / 2.
Proof.
  intros dim sizes X proba c Hs HX Hc. destruct (C94_curves dim sizes X proba c Hs HX) as [o [Ho H]].
  exists o. split; [exact Ho|]. intros a Ha. destruct (H a Ha) as [_ E]. eexists. split; [exact E|].
  set (l := map (fun x => proba (a :: x)) X) in *.
  assert (Hl : l <> []) by (unfold l; destruct X; [easy|discriminate]).
  destruct (quantile_counts l (1 - c) Hl ltac:(lra)) as [A B].
  assert (EL : length l = length X) by (unfold l; apply map_length). rewrite EL in A, B.
  unfold l in A at 2. unfold l in B at 2. rewrite countb_map in A, B. split; [exact A|]. replace (1 - (1 - c)) with c in B by lra. exact B.
Qed.
Print Assumptions C94_share_of_points.

(** A classifier that decides each point (probability 0 or 1): the POD is the share of the detected points but the confidence
    value is 0 as soon as more than (1 - c) N points are missed, and 1 as soon as fewer are, up to half a point. *)
Theorem C94_deciding_classifier :
  forall (dim : nat) (sizes : list R) (X : list (list R)) (detected : list R -> bool) (c : R),
    strictly_increasing sizes -> X <> [] -> 0 <= c <= 1 ->
    exists o, hm_finish (length sizes) dim sizes X (fun z => if detected z then 1 else 0) = Ok o /\
      forall a, In a sizes ->
        let missed := INR (countb (fun x => negb (detected (a :: x))) X) in
        meta_evalPOD o a = Ok (1 - missed / INR (length X)) /\
        ((1 - c) * INR (length X) + / 2 < missed -> meta_evalCL o c a = Ok 0) /\
        (missed < (1 - c) * INR (length X) - / 2 -> meta_evalCL o c a = Ok 1).
Proof.
  intros dim sizes X detected c Hs HX Hc. set (proba := fun z => if detected z then 1 else 0).
  destruct (C94_curves dim sizes X proba c Hs HX) as [o [Ho H]].
  destruct (C94_share_of_points dim sizes X proba c Hs HX Hc) as [o' [Ho' H']].
  rewrite Ho in Ho'. injection Ho' as <-. exists o. split; [exact Ho|]. intros a Ha missed.
  destruct (H a Ha) as [HP HQ]. destruct (H' a Ha) as [v [Hv [A B]]].
  set (l := map (fun x => proba (a :: x)) X) in *.
  assert (Hl : l <> []) by (unfold l; destruct X; [easy|discriminate]).
  assert (HN : 0 < INR (length X)) by (apply lt_0_INR; destruct X; [easy|cbn; lia]).
  assert (Hv01 : 0 <= v <= 1).
  { rewrite HQ in Hv. injection Hv as <-. assert (Hb := quantile_bounds l (1 - c) Hl).
    assert (In01 : forall w, In w l -> 0 <= w <= 1).
    { intros w Hw. apply in_map_iff in Hw as [x [<- _]]. unfold proba. destruct (detected (a :: x)); lra. }
    assert (H1 := In01 _ (Rlmin_in l Hl)). assert (H2 := In01 _ (Rlmax_in l Hl)). lra. }
  assert (Hcomp : Rsum l = INR (length X) - missed).
  { unfold l, missed. clear. induction X as [|x X IH]; [cbn; lra|].
    cbn [map length]. rewrite countb_cons, plus_INR, S_INR. unfold Rsum in *. cbn [fold_right] in *. rewrite IH. unfold proba. destruct (detected (a :: x)); cbn [negb INR]; lra. }
  assert (Hdet : INR (length X) - missed = INR (countb (fun x => detected (a :: x)) X)).
  { unfold missed. clear. induction X as [|x X IH]; [cbn; lra|].
    cbn [length]. rewrite !countb_cons, !plus_INR, S_INR. destruct (detected (a :: x)); cbn [negb INR]; lra. }
  split; [|split].
  - rewrite HP, Hcomp. f_equal. field. lra.
  - intros Hm. rewrite Hv. f_equal. destruct (Req_dec v 0) as [E|E]; [exact E|]. exfalso.
    assert (Hle : missed <= INR (countb (fun x => Rltb (proba (a :: x)) v) X)).
    { unfold missed. apply le_INR, countb_mono. intros x _ Hx. unfold proba. destruct (detected (a :: x)); [discriminate|].
      apply Rltb_true. lra. }
    lra.
  - intros Hm. rewrite Hv. f_equal. destruct (Req_dec v 1) as [E|E]; [exact E|]. exfalso.
    assert (Hle : INR (length X) - missed <= INR (countb (fun x => Rltb v (proba (a :: x))) X)).
    { rewrite Hdet. apply le_INR, countb_mono. intros x _ Hx. unfold proba. rewrite Hx. apply Rltb_true. lra. }
    lra.
Qed.
Print Assumptions C94_deciding_classifier.

(** Hence the curve is not a confidence bound on the POD: nine points out of ten detected by a perfectly known classifier give
    POD 0.9 at every size, while the curve at confidence 0.95 stays at 0 for every sampling size 10 n, n >= 2. *)
Theorem C94_confidence_bound_refuted :
  exists (detected : list R -> bool) (points : nat -> list (list R)),
    forall (n : nat) (sizes : list R), (2 <= n)%nat -> strictly_increasing sizes ->
      length (points n) = (10 * n)%nat /\
      exists o, hm_finish (length sizes) 2 sizes (points n) (fun z => if detected z then 1 else 0) = Ok o /\
        forall a, In a sizes -> meta_evalPOD o a = Ok (9 / 10) /\ meta_evalCL o (95 / 100) a = Ok 0.
Proof.
  exists (fun z => Rltb 0 (nth 1 z 0)).
  exists (fun n => repeat [0] n ++ repeat [1] (9 * n)).
  intros n sizes Hn Hs. set (X := repeat [0] n ++ repeat [1] (9 * n)).
  assert (HL : length X = (10 * n)%nat) by (unfold X; rewrite app_length, !repeat_length; lia).
  split; [exact HL|]. assert (HX : X <> []) by (intros E; rewrite E in HL; cbn in HL; lia).
  destruct (C94_deciding_classifier 2 sizes X (fun z => Rltb 0 (nth 1 z 0)) (95 / 100) Hs HX ltac:(lra)) as [o [Ho H]].
  exists o. split; [exact Ho|]. intros a Ha. destruct (H a Ha) as [HP [H0 _]].
  assert (Hm : countb (fun x => negb (Rltb 0 (nth 1 (a :: x) 0))) X = n).
  { unfold X. rewrite countb_app. rewrite countb_all, countb_none, repeat_length; [lia| |].
    - intros x Hx. apply repeat_spec in Hx. subst x. cbn [nth]. replace (Rltb 0 1) with true; [reflexivity|]. symmetry. apply Rltb_true. lra.
    - intros x Hx. apply repeat_spec in Hx. subst x. cbn [nth]. replace (Rltb 0 0) with false; [reflexivity|]. symmetry. apply Rltb_false. lra. }
  assert (HnR : 2 <= INR n) by (apply (le_INR 2) in Hn; cbn [INR] in Hn; lra).
  rewrite Hm, HL, mult_INR in HP, H0. replace (INR 10) with 10 in HP, H0 by (cbn [INR]; lra). split.
  - rewrite HP. f_equal. field. lra.
  - apply H0. lra.
Qed.
Print Assumptions C94_confidence_bound_refuted.

(** Two sizes, four points, a graded classifier: the hypotheses are met, the POD and the values at c = 5/8 (an order statistic). *)
Example C94_case :
  strictly_increasing [1; 2] /\
  exists o, hm_finish 2 2 [1; 2] [[0]; [1]; [2]; [3]] (fun z => nth 0 z 0 * nth 1 z 0 / 6) = Ok o /\
    meta_evalPOD o 1 = Ok (1 / 4) /\ meta_evalPOD o 2 = Ok (1 / 2) /\ meta_evalCL o (5 / 8) 2 = Ok (1 / 3).
Proof.
  assert (Hs : strictly_increasing [1; 2]) by (cbn; repeat constructor; lra).
  split; [exact Hs|].
  destruct (C94_curves 2 [1; 2] [[0]; [1]; [2]; [3]] (fun z => nth 0 z 0 * nth 1 z 0 / 6) (5 / 8) Hs ltac:(discriminate)) as [o [Ho H]].
  exists o. split; [exact Ho|].
  destruct (H 1 ltac:(cbn; auto)) as [A _]. destruct (H 2 ltac:(cbn; auto)) as [B C].
  split; [|split].
  - rewrite A. f_equal. unfold Rsum. cbn [map fold_right nth length INR]. field.
  - rewrite B. f_equal. unfold Rsum. cbn [map fold_right nth length INR]. field.
  - rewrite C. f_equal. cbn [map nth].
    assert (E : 1 - 5 / 8 = (INR 1 + / 2) / INR (length [2 * 0 / 6; 2 * 1 / 6; 2 * 2 / 6; 2 * 3 / 6])) by (cbn [length INR]; field).
    rewrite E, quantile_order by (cbn; lia). rewrite Rsort_id; [cbn; field|]. repeat constructor; lra.
Qed.
