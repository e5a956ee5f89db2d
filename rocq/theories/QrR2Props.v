(** C90: the pseudo R2 of the quantile regression, and the regression it belongs to. *)
From Coq Require Import Reals Lra Lia List String.
From Verif Require Import RealBase DrawProps QrR2Model.
Import ListNotations.
Local Open Scope R_scope.
Local Open Scope list_scope.

(** *** Specification *)
(** The observations. *)
Definition points (o : qr) : list (R * R) := combine (q_defects o) (q_signals o).
(** statsmodels finds a line of the smallest criterion, whatever the effort. *)
Definition exact (o : qr) : Prop := forall e, minimiser (q_fit o e) (points o).
(** The criterion of a constant signal. *)
Definition flat (q : R) (l : list R) (c : R) : R := Rsum (map (fun y => tilted q (y - c)) l).
(** The quality of a line among the regressions of level q: which part of the criterion of the quantile of the signals it removes. *)
Definition quality (o : qr) (q : R) (ab : R * R) : R := 1 - loss q (points o) (fst ab) (snd ab) / flat q (q_signals o) (score (q_signals o) q).

(** *** Helpers *)
Lemma weigh_tilted q e : 0 < q < 1 -> weigh q e = tilted q e.
Proof.
  intros Hq. unfold weigh, tilted. destruct (Rltb_spec e 0) as [H|H].
  - rewrite Rabs_left1; [ring|]. assert (0 <= (1 - q) * - e) by (apply Rmult_le_pos; lra). lra.
  - apply Rabs_right, Rle_ge, Rmult_le_pos; lra.
Qed.
Lemma tilted_nonneg q e : 0 < q < 1 -> 0 <= tilted q e.
Proof. intros Hq. rewrite <- weigh_tilted by exact Hq. apply Rabs_pos. Qed.
Lemma tilted_zero q e : 0 < q < 1 -> tilted q e = 0 -> e = 0.
Proof. intros Hq. unfold tilted. destruct (Rltb_spec e 0); intros Z; apply Rmult_integral in Z; destruct Z; lra. Qed.
Lemma tilted_0 q : tilted q 0 = 0.
Proof. unfold tilted. rewrite (proj2 (Rltb_false 0 0)) by lra. ring. Qed.
Lemma loss_nonneg q pts a b : 0 < q < 1 -> 0 <= loss q pts a b.
Proof. intros Hq. apply Rsum_nonneg. intros x H. apply in_map_iff in H. destruct H as (xy & <- & _). now apply tilted_nonneg. Qed.
Lemma tilted_scal q be e : 0 < be -> tilted q (be * e) = be * tilted q e.
Proof.
  intros Hb. unfold tilted. destruct (Rltb_spec e 0) as [H|H], (Rltb_spec (be * e) 0) as [G|G]; try ring; exfalso; apply Rnot_lt_le in H || apply Rnot_lt_le in G.
  - assert (0 < be * - e) by (apply Rmult_lt_0_compat; lra). lra.
  - assert (0 <= be * e) by (apply Rmult_le_pos; lra). lra.
Qed.
Lemma flat_nonneg q l c : 0 < q < 1 -> 0 <= flat q l c.
Proof. intros Hq. apply Rsum_nonneg. intros x H. apply in_map_iff in H. destruct H as (y & <- & _). now apply tilted_nonneg. Qed.
Lemma flat_zero q l c : 0 < q < 1 -> flat q l c = 0 -> forall y, In y l -> y = c.
Proof.
  intros Hq Z y H. assert (E := Rsum_nonneg_zero (map (fun y => tilted q (y - c)) l)). assert (tilted q (y - c) = 0); [|apply tilted_zero in H0; lra].
  apply E; [|exact Z|apply (in_map (fun y => tilted q (y - c)) _ _ H)]. intros x I. apply in_map_iff in I. destruct I as (z & <- & _). now apply tilted_nonneg.
Qed.
Lemma flat_loss q xs ys c : List.length xs = List.length ys -> flat q ys c = loss q (combine xs ys) c 0.
Proof.
  unfold flat, loss. revert ys. induction xs as [|x xs IH]; intros [|y ys] L; cbn in L; try discriminate; [reflexivity|].
  cbn [combine map fst snd]. rewrite !Rsum_cons, (IH ys) by lia. f_equal. f_equal. ring.
Qed.
(** The index used by the quantile of the signals. *)
Lemma index (n : nat) q : (0 < n)%nat -> 0 < q < 1 ->
  let t := q * (INR n - 1) in let k := Z.to_nat (Int_part t) in (k < n)%nat /\ ((S k < n)%nat \/ t - INR k = 0).
Proof.
  intros Hn Hq. cbn zeta. set (t := q * (INR n - 1)). assert (N1 : 1 <= INR n) by (replace 1 with (INR 1) by reflexivity; apply le_INR; lia).
  assert (T0 : 0 <= t) by (apply Rmult_le_pos; lra). destruct (base_Int_part t) as [B1 B2].
  assert (Z0 : (-1 < Int_part t)%Z) by (apply lt_IZR; change (IZR (-1)) with (-1); lra).
  assert (I : INR (Z.to_nat (Int_part t)) = IZR (Int_part t)) by (rewrite INR_IZR_INZ, Z2Nat.id by lia; reflexivity).
  destruct (Nat.eq_dec n 1) as [->|N].
  - assert (t = 0) by (unfold t; cbn; ring). assert (Int_part t = 0)%Z by (assert (IZR (Int_part t) <= 0) by lra; assert (Int_part t <= 0)%Z by (now apply le_IZR); lia).
    rewrite H0. cbn. split; [lia|right; lra].
  - assert (N2 : 2 <= INR n) by (replace 2 with (INR 2) by reflexivity; apply le_INR; lia).
    assert (Tn : t < INR n - 1) by (unfold t; assert (0 < (1 - q) * (INR n - 1)) by (apply Rmult_lt_0_compat; lra); lra).
    assert (K : INR (S (Z.to_nat (Int_part t))) < INR n) by (rewrite S_INR, I; lra). apply INR_lt in K. split; [lia|now left].
Qed.
Lemma Rsort_map_mono (f : R -> R) l : (forall x y, x <= y -> f x <= f y) -> Rsort (map f l) = map f (Rsort l).
Proof.
  intros H. rewrite <- (Rsort_id (map f (Rsort l))).
  - apply Rsort_unique. apply Permutation.Permutation_sym, Permutation.Permutation_map, Rsort_perm.
  - assert (S := Rsort_sorted l). induction S as [|x s S IH F]; [constructor|]. cbn [map]. constructor; [exact IH|].
    apply Forall_forall. intros y I. apply in_map_iff in I. destruct I as (z & <- & I). apply H. rewrite Forall_forall in F. auto.
Qed.
Lemma score_affine l q al be : l <> [] -> 0 < q < 1 -> 0 <= be -> score (map (fun y => al + be * y) l) q = al + be * score l q.
Proof.
  intros Hl Hq Hb. unfold score. rewrite map_length. rewrite Rsort_map_mono by (intros x y H; assert (be * x <= be * y) by (apply Rmult_le_compat_l; lra); lra).
  assert (Hn : (0 < List.length l)%nat) by (destruct l; [congruence|cbn; lia]).
  destruct (index (List.length l) q Hn Hq) as [K1 K2]. set (t := q * (INR (List.length l) - 1)) in *. set (k := Z.to_nat (Int_part t)) in *.
  assert (G : forall i, (i < List.length l)%nat -> nth i (map (fun y => al + be * y) (Rsort l)) 0 = al + be * nth i (Rsort l) 0).
  { intros i Hi. rewrite (nth_indep _ 0 ((fun y => al + be * y) 0)) by (rewrite map_length, Rsort_length; exact Hi). now rewrite (map_nth (fun y => al + be * y)). }
  rewrite (G k K1). destruct K2 as [K2|K2]; [rewrite (G (S k) K2); ring|rewrite K2; ring].
Qed.
Lemma score_const l q c : l <> [] -> 0 < q < 1 -> (forall y, In y l -> y = c) -> score l q = c.
Proof.
  intros Hl Hq H. replace l with (map (fun y => c + 0 * y) l).
  - rewrite score_affine by (auto; lra). ring.
  - rewrite <- (map_id l) at 2. apply map_ext_in. intros y I. rewrite (H y I). ring.
Qed.
Lemma prsquared_quality o q ab : 0 < q < 1 -> prsquared q (q_defects o) (q_signals o) ab =
  if Reqb (flat q (q_signals o) (score (q_signals o) q)) 0 then None else Some (quality o q ab).
Proof.
  intros Hq. unfold prsquared, quality, flat, loss, points.
  replace (map (fun xy : R * R => weigh q (snd xy - (fst ab + snd ab * fst xy))) (combine (q_defects o) (q_signals o)))
    with (map (fun xy : R * R => tilted q (snd xy - (fst ab + snd ab * fst xy))) (combine (q_defects o) (q_signals o))) by (apply map_ext; intros; now rewrite weigh_tilted).
  replace (map (fun y : R => weigh q (y - score (q_signals o) q)) (q_signals o)) with (map (fun y : R => tilted q (y - score (q_signals o) q)) (q_signals o)) by (apply map_ext; intros; now rewrite weigh_tilted).
  reflexivity.
Qed.
Lemma flat_defined q l : 0 < q < 1 -> l <> [] -> (flat q l (score l q) = 0 <-> exists c, forall y, In y l -> y = c).
Proof.
  intros Hq Hl. split.
  - intros Z. exists (score l q). now apply flat_zero with q.
  - intros (c & H). rewrite (score_const l q c) by assumption. unfold flat. rewrite (Rsum_ext _ (fun _ => 0)); [rewrite Rsum_const; ring|].
    intros y I. rewrite (H y I). replace (c - c) with 0 by ring. apply tilted_0.
Qed.

(** *** C90 *)
(** getR2 raises before a run and when the fit raises. Otherwise it is undefined exactly when all the signals are equal, and else it is the
    quality of the fitted line of this level. It lies in [0, 1] and no line has a better quality; it is 1 exactly when all the observations are on the line. *)
Theorem C90_range (o : qr) (q : R) :
  0 < q < 1 -> q_signals o <> [] -> List.length (q_defects o) = List.length (q_signals o) -> exact o ->
  match getR2 (Some o) q with
  | Raise e => q_fit o Default q = Raise e
  | Ok None => exists c, forall y, In y (q_signals o) -> y = c
  | Ok (Some r) => exists a b, q_fit o Default q = Ok (a, b) /\ 0 <= r <= 1 /\
      r = quality o q (a, b) /\ (forall a' b', quality o q (a', b') <= r) /\ (r = 1 <-> forall x y, In (x, y) (points o) -> y = a + b * x) /\
      ~ exists c, forall y, In y (q_signals o) -> y = c
  end.
Proof.
  intros Hq Hs HL Hm. unfold getR2, fit. destruct (q_fit o Default q) as [[a b]|e] eqn:E; cbn [bind]; [|reflexivity].
  rewrite prsquared_quality by exact Hq. assert (D := flat_defined q (q_signals o) Hq Hs). set (F := flat q (q_signals o) (score (q_signals o) q)) in *.
  destruct (Reqb_spec F 0) as [Z|Z]; [now apply D|]. assert (P : 0 < F) by (assert (0 <= F) by (now apply flat_nonneg); lra).
  exists a, b. specialize (Hm Default q a b E).
  assert (B : forall a' b', quality o q (a', b') <= quality o q (a, b)).
  { intros a' b'. unfold quality. cbn [fst snd]. fold F. assert (loss q (points o) a b / F <= loss q (points o) a' b' / F); [|lra]. unfold Rdiv. apply Rmult_le_compat_r; [left; now apply Rinv_0_lt_compat|apply Hm]. }
  split; [reflexivity|]. split.
  { split.
    - assert (X := B (score (q_signals o) q) 0). unfold quality at 1 in X. cbn [fst snd] in X. unfold points in X. rewrite <- flat_loss in X by exact HL. fold F in X. replace (F / F) with 1 in X by (field; lra). lra.
    - unfold quality. fold F. cbn [fst snd]. assert (0 <= loss q (points o) a b / F); [|lra]. apply Rmult_le_pos; [now apply loss_nonneg|left; now apply Rinv_0_lt_compat]. }
  split; [reflexivity|]. split; [exact B|]. split.
  - unfold quality. fold F. cbn [fst snd]. split.
    + intros Q x y I. assert (L0 : loss q (points o) a b = 0) by (assert (loss q (points o) a b / F = 0) by lra; replace (loss q (points o) a b) with (loss q (points o) a b / F * F) by (field; lra); rewrite H; ring).
      assert (tilted q (y - (a + b * x)) = 0); [|apply tilted_zero in H; lra].
      apply (Rsum_nonneg_zero (map (fun xy => tilted q (snd xy - (a + b * fst xy))) (points o))); [|exact L0|apply (in_map (fun xy => tilted q (snd xy - (a + b * fst xy))) _ _ I)].
      intros z Hz. apply in_map_iff in Hz. destruct Hz as (xy & <- & _). now apply tilted_nonneg.
    + intros H. assert (L0 : loss q (points o) a b = 0); [|rewrite L0; field; lra]. unfold loss. rewrite (Rsum_ext _ (fun _ => 0)); [rewrite Rsum_const; ring|].
      intros [x y] I. cbn [fst snd]. rewrite (H x y I). replace (a + b * x - (a + b * x)) with 0 by ring. apply tilted_0.
  - intros C. apply D in C. contradiction.
Qed.
(** Before a run it raises AttributeError at any level. *)
Theorem C90_before_run q : getR2 None q = Raise AttributeError.
Proof. reflexivity. Qed.
(** The value does not depend on the units: an increasing affine change of the signals and any affine change of the defects leave it as it is. *)
Theorem C90_units (o o' : qr) (q al be ga de r r' : R) :
  0 < q < 1 -> q_signals o <> [] -> List.length (q_defects o) = List.length (q_signals o) -> exact o -> exact o' ->
  0 < be -> de <> 0 -> q_signals o' = map (fun y => al + be * y) (q_signals o) -> q_defects o' = map (fun x => ga + de * x) (q_defects o) ->
  getR2 (Some o) q = Ok (Some r) -> getR2 (Some o') q = Ok (Some r') -> r = r'.
Proof.
  intros Hq Hs HL Hm Hm' Hb Hd ES ED.
  assert (LS : forall a b, loss q (points o') (al + be * a - be * b * ga / de) (be * b / de) = be * loss q (points o) a b).
  { intros a b. unfold loss, points. rewrite ES, ED. clear - Hb Hd HL. revert HL. generalize (q_signals o). induction (q_defects o) as [|x xs IH]; intros [|y ys] HL; cbn in HL; try discriminate; [cbn; ring|].
    cbn [map combine fst snd]. rewrite !Rsum_cons, IH by lia.
    replace (al + be * y - (al + be * a - be * b * ga / de + be * b / de * (ga + de * x))) with (be * (y - (a + b * x))) by (field; exact Hd).
    rewrite tilted_scal by exact Hb. ring. }
  assert (FS : flat q (q_signals o') (score (q_signals o') q) = be * flat q (q_signals o) (score (q_signals o) q)).
  { rewrite ES, score_affine by (auto; lra). unfold flat. rewrite map_map. generalize (score (q_signals o) q). intros c. rewrite <- Rsum_scal. apply Rsum_ext. intros y _.
    replace (al + be * y - (al + be * c)) with (be * (y - c)) by ring. now apply tilted_scal. }
  assert (QS : forall a b, flat q (q_signals o) (score (q_signals o) q) <> 0 -> quality o' q (al + be * a - be * b * ga / de, be * b / de) = quality o q (a, b)).
  { intros a b N. unfold quality. cbn [fst snd]. rewrite LS, FS. field. split; [exact N|lra]. }
  assert (Hs' : q_signals o' <> []) by (rewrite ES; destruct (q_signals o); [congruence|discriminate]).
  assert (HL' : List.length (q_defects o') = List.length (q_signals o')) by (rewrite ES, ED, !map_length; exact HL).
  assert (A := C90_range o q Hq Hs HL Hm). assert (A' := C90_range o' q Hq Hs' HL' Hm'). intros G G'. rewrite G in A. rewrite G' in A'.
  destruct A as (a & b & E & _ & -> & B & _ & C). destruct A' as (a' & b' & E' & _ & -> & B' & _ & _).
  assert (N : flat q (q_signals o) (score (q_signals o) q) <> 0) by (intros Z; apply C; now apply (flat_defined q)).
  apply Rle_antisym.
  - rewrite <- (QS a b N). apply B'.
  - assert (K := QS ((a' - al) / be + b' * ga / be) (b' * de / be) N).
    replace (al + be * ((a' - al) / be + b' * ga / be) - be * (b' * de / be) * ga / de) with a' in K by (field; lra).
    replace (be * (b' * de / be) / de) with b' in K by (field; lra). rewrite K. apply B.
Qed.
(** Finding: the value reported at level p says nothing about the line behind the detection size and the graph of the same level, which is
    the one of level 1 - p: two objects with the same data and the same line of level p report the same value. *)
Theorem C90_level (o o' : qr) (p : R) : q_defects o = q_defects o' -> q_signals o = q_signals o' -> q_fit o Default p = q_fit o' Default p ->
  reported (Some o) p = reported (Some o') p /\
  size_line (Some o) p = q_fit o Loose (1 - p) /\ drawn_line (Some o) p = q_fit o Default (1 - p).
Proof. intros H1 H2 H3. unfold reported, getR2, fit. rewrite H3, H1, H2. repeat split. Qed.
(** An exact regression on four observations: lines of levels 3/4 and 1/4. *)
Definition two_fit (hi lo : R * R) (_ : effort) (q : R) : res (R * R) := if Reqb q (3 / 4) then Ok hi else if Reqb q (1 / 4) then Ok lo else Raise ValueError.
Definition case_low : qr := {| q_defects := [0; 1; 1; 1]; q_signals := [0; 1; 1; 2]; q_fit := two_fit (0, 2) (0, 1) |}.
Definition case_high : qr := {| q_defects := [0; 0; 0; 1]; q_signals := [0; 1; 1; 2]; q_fit := two_fit (1, 1) (0, 2) |}.
Ltac cases_lra := unfold tilted; repeat match goal with |- context [Rltb ?x ?y] => destruct (Rltb_spec x y) end; lra.
Lemma case_low_exact : exact case_low.
Proof.
  intros e q a b. unfold case_low, points, two_fit. cbn [q_fit q_defects q_signals combine].
  destruct (Reqb_spec q (3 / 4)) as [->|]; [intros [= <- <-]|destruct (Reqb_spec q (1 / 4)) as [->|]; [intros [= <- <-]|discriminate]];
    intros a' b'; unfold loss; cbn [map fst snd]; rewrite !Rsum_cons, !Rsum_nil.
  - replace (tilted (3 / 4) (0 - (0 + 2 * 0))) with 0 by cases_lra. replace (tilted (3 / 4) (1 - (0 + 2 * 1))) with (1 / 4) by cases_lra. replace (tilted (3 / 4) (2 - (0 + 2 * 1))) with 0 by cases_lra.
    assert (X := tilted_nonneg (3 / 4) (0 - (a' + b' * 0)) ltac:(lra)). assert (1 / 2 <= tilted (3 / 4) (1 - (a' + b' * 1)) + (tilted (3 / 4) (1 - (a' + b' * 1)) + tilted (3 / 4) (2 - (a' + b' * 1)))); [|lra]. clear X. cases_lra.
  - replace (tilted (1 / 4) (0 - (0 + 1 * 0))) with 0 by cases_lra. replace (tilted (1 / 4) (1 - (0 + 1 * 1))) with 0 by cases_lra. replace (tilted (1 / 4) (2 - (0 + 1 * 1))) with (1 / 4) by cases_lra.
    assert (X := tilted_nonneg (1 / 4) (0 - (a' + b' * 0)) ltac:(lra)). assert (1 / 4 <= tilted (1 / 4) (1 - (a' + b' * 1)) + (tilted (1 / 4) (1 - (a' + b' * 1)) + tilted (1 / 4) (2 - (a' + b' * 1)))); [|lra]. clear X. cases_lra.
Qed.
Lemma case_high_exact : exact case_high.
Proof.
  intros e q a b. unfold case_high, points, two_fit. cbn [q_fit q_defects q_signals combine].
  destruct (Reqb_spec q (3 / 4)) as [->|]; [intros [= <- <-]|destruct (Reqb_spec q (1 / 4)) as [->|]; [intros [= <- <-]|discriminate]];
    intros a' b'; unfold loss; cbn [map fst snd]; rewrite !Rsum_cons, !Rsum_nil.
  - replace (tilted (3 / 4) (0 - (1 + 1 * 0))) with (1 / 4) by cases_lra. replace (tilted (3 / 4) (1 - (1 + 1 * 0))) with 0 by cases_lra. replace (tilted (3 / 4) (2 - (1 + 1 * 1))) with 0 by cases_lra.
    assert (X := tilted_nonneg (3 / 4) (2 - (a' + b' * 1)) ltac:(lra)). assert (1 / 4 <= tilted (3 / 4) (0 - (a' + b' * 0)) + (tilted (3 / 4) (1 - (a' + b' * 0)) + tilted (3 / 4) (1 - (a' + b' * 0)))); [|lra]. clear X. cases_lra.
  - replace (tilted (1 / 4) (0 - (0 + 2 * 0))) with 0 by cases_lra. replace (tilted (1 / 4) (1 - (0 + 2 * 0))) with (1 / 4) by cases_lra. replace (tilted (1 / 4) (2 - (0 + 2 * 1))) with 0 by cases_lra.
    assert (X := tilted_nonneg (1 / 4) (2 - (a' + b' * 1)) ltac:(lra)). assert (1 / 2 <= tilted (1 / 4) (0 - (a' + b' * 0)) + (tilted (1 / 4) (1 - (a' + b' * 0)) + tilted (1 / 4) (1 - (a' + b' * 0)))); [|lra]. clear X. cases_lra.
Qed.
Lemma case_sort : Rsort [0; 1; 1; 2] = [0; 1; 1; 2].
Proof. apply Rsort_id. repeat constructor; lra. Qed.
Lemma int_part_is r z : IZR z <= r < IZR z + 1 -> Int_part r = z.
Proof.
  intros [H1 H2]. destruct (base_Int_part r) as [B1 B2]. assert (IZR (Int_part r) < IZR z + 1) by lra. rewrite <- plus_IZR in H. apply lt_IZR in H.
  assert (IZR z < IZR (Int_part r) + 1) by lra. rewrite <- plus_IZR in H0. apply lt_IZR in H0. lia.
Qed.
Lemma case_score_hi : score [0; 1; 1; 2] (3 / 4) = 5 / 4.
Proof.
  unfold score. rewrite case_sort. cbn [List.length]. replace (INR 4) with 4 by (cbn; ring). rewrite (int_part_is (3 / 4 * (4 - 1)) 2) by lra.
  change (Z.to_nat 2) with 2%nat. cbn [nth]. replace (INR 2) with 2 by (cbn; ring). lra.
Qed.
Lemma case_score_lo : score [0; 1; 1; 2] (1 / 4) = 3 / 4.
Proof.
  unfold score. rewrite case_sort. cbn [List.length]. replace (INR 4) with 4 by (cbn; ring). rewrite (int_part_is (1 / 4 * (4 - 1)) 0) by lra.
  change (Z.to_nat 0) with 0%nat. cbn [nth INR]. lra.
Qed.
Lemma case_flat_hi : flat (3 / 4) [0; 1; 1; 2] (5 / 4) = 1.
Proof. unfold flat. cbn [map]. rewrite !Rsum_cons, Rsum_nil. cases_lra. Qed.
Lemma case_flat_lo : flat (1 / 4) [0; 1; 1; 2] (3 / 4) = 1.
Proof. unfold flat. cbn [map]. rewrite !Rsum_cons, Rsum_nil. cases_lra. Qed.
Lemma reported_is o p ab : 0 < p < 1 -> q_fit o Default p = Ok ab -> flat p (q_signals o) (score (q_signals o) p) <> 0 -> reported (Some o) p = Ok (Some (quality o p ab)).
Proof. intros Hp E N. unfold reported, getR2, fit. rewrite E. cbn [bind]. rewrite prsquared_quality by exact Hp. destruct (Reqb_spec (flat p (q_signals o) (score (q_signals o) p)) 0); [contradiction|reflexivity]. Qed.
(** Finding: at the level 3/4 the report shows 1/2, below the advised 0.6, although the line the detection size comes from has the quality 3/4; and the converse. *)
Theorem C90_reported_refuted :
  (exists o ab, exact o /\ size_line (Some o) (3 / 4) = Ok ab /\ drawn_line (Some o) (3 / 4) = Ok ab /\
     reported (Some o) (3 / 4) = Ok (Some (1 / 2)) /\ quality o (1 - 3 / 4) ab = 3 / 4) /\
  (exists o ab, exact o /\ size_line (Some o) (3 / 4) = Ok ab /\ drawn_line (Some o) (3 / 4) = Ok ab /\
     reported (Some o) (3 / 4) = Ok (Some (3 / 4)) /\ quality o (1 - 3 / 4) ab = 1 / 2).
Proof.
  assert (F : forall e hi lo, two_fit hi lo e (1 - 3 / 4) = Ok lo) by (intros e hi lo; unfold two_fit; destruct (Reqb_spec (1 - 3 / 4) (3 / 4)); [lra|]; destruct (Reqb_spec (1 - 3 / 4) (1 / 4)); [reflexivity|lra]).
  assert (T : forall e hi lo, two_fit hi lo e (3 / 4) = Ok hi) by (intros e hi lo; unfold two_fit; now rewrite Reqb_refl).
  split.
  - exists case_low, (0, 1). split; [apply case_low_exact|]. split; [apply F|]. split; [apply F|]. split.
    + rewrite (reported_is case_low (3 / 4) (0, 2)); [|lra|apply T|cbn [case_low q_signals]; rewrite case_score_hi, case_flat_hi; lra].
      do 2 f_equal. unfold quality. cbn [case_low q_signals]. rewrite case_score_hi, case_flat_hi. unfold loss, points. cbn [case_low q_signals q_defects combine map fst snd]. rewrite !Rsum_cons, Rsum_nil. cases_lra.
    + replace (1 - 3 / 4) with (1 / 4) by lra. unfold quality. cbn [case_low q_signals]. rewrite case_score_lo, case_flat_lo. unfold loss, points. cbn [case_low q_signals q_defects combine map fst snd]. rewrite !Rsum_cons, Rsum_nil. cases_lra.
  - exists case_high, (0, 2). split; [apply case_high_exact|]. split; [apply F|]. split; [apply F|]. split.
    + rewrite (reported_is case_high (3 / 4) (1, 1)); [|lra|apply T|cbn [case_high q_signals]; rewrite case_score_hi, case_flat_hi; lra].
      do 2 f_equal. unfold quality. cbn [case_high q_signals]. rewrite case_score_hi, case_flat_hi. unfold loss, points. cbn [case_high q_signals q_defects combine map fst snd]. rewrite !Rsum_cons, Rsum_nil. cases_lra.
    + replace (1 - 3 / 4) with (1 / 4) by lra. unfold quality. cbn [case_high q_signals]. rewrite case_score_lo, case_flat_lo. unfold loss, points. cbn [case_high q_signals q_defects combine map fst snd]. rewrite !Rsum_cons, Rsum_nil. cases_lra.
Qed.
Print Assumptions C90_range.
Print Assumptions C90_before_run.
Print Assumptions C90_units.
Print Assumptions C90_level.
Print Assumptions C90_reported_refuted.
(** Cases: the hypotheses of the theorems hold for the two objects above; the same data in other units. *)
Example C90_case : 0 < 3 / 4 < 1 /\ q_signals case_low <> [] /\ List.length (q_defects case_low) = List.length (q_signals case_low) /\ exact case_low /\
  ~ exists c, forall y, In y (q_signals case_low) -> y = c.
Proof. repeat split; try lra; try discriminate; [apply case_low_exact|]. intros (c & H). assert (A := H 0 ltac:(cbn; auto)). assert (B := H 1 ltac:(cbn; auto)). lra. Qed.
Example C90_level_case : exists o o', q_defects o = q_defects o' /\ q_signals o = q_signals o' /\ q_fit o Default (3 / 4) = q_fit o' Default (3 / 4) /\ size_line (Some o) (3 / 4) <> size_line (Some o') (3 / 4).
Proof.
  exists case_low, {| q_defects := [0; 1; 1; 1]; q_signals := [0; 1; 1; 2]; q_fit := two_fit (0, 2) (5, 1) |}. repeat split; try (cbn; unfold two_fit; now rewrite Reqb_refl).
  unfold size_line, buildModel, fit. cbn [case_low q_fit]. unfold two_fit. destruct (Reqb_spec (1 - 3 / 4) (3 / 4)); [lra|]. destruct (Reqb_spec (1 - 3 / 4) (1 / 4)); [|lra]. intros [= E]. lra.
Qed.
Definition case_units : qr := {| q_defects := map (fun x => 1 + 2 * x) [0; 1; 1; 1]; q_signals := map (fun y => 1 + 2 * y) [0; 1; 1; 2]; q_fit := two_fit (-1, 2) (0, 1) |}.
Example C90_units_case : exact case_units /\ exists r, getR2 (Some case_units) (3 / 4) = Ok (Some r).
Proof.
  split.
  - intros e q a b. unfold case_units, points, two_fit. cbn [q_fit q_defects q_signals combine map].
    destruct (Reqb_spec q (3 / 4)) as [->|]; [intros [= <- <-]|destruct (Reqb_spec q (1 / 4)) as [->|]; [intros [= <- <-]|discriminate]];
      intros a' b'; unfold loss; cbn [map fst snd]; rewrite !Rsum_cons, !Rsum_nil.
    + set (p := 1 + 2 * 0). set (s := 1 + 2 * 1). set (t := 1 + 2 * 2). assert (Ep : p = 1) by (unfold p; ring). assert (Es : s = 3) by (unfold s; ring). assert (Et : t = 5) by (unfold t; ring).
      rewrite Ep, Es, Et. replace (tilted (3 / 4) (1 - (-1 + 2 * 1))) with 0 by cases_lra. replace (tilted (3 / 4) (3 - (-1 + 2 * 3))) with (1 / 2) by cases_lra. replace (tilted (3 / 4) (5 - (-1 + 2 * 3))) with 0 by cases_lra.
      assert (X := tilted_nonneg (3 / 4) (1 - (a' + b' * 1)) ltac:(lra)). assert (1 <= tilted (3 / 4) (3 - (a' + b' * 3)) + (tilted (3 / 4) (3 - (a' + b' * 3)) + tilted (3 / 4) (5 - (a' + b' * 3)))); [|lra]. clear X. cases_lra.
    + set (p := 1 + 2 * 0). set (s := 1 + 2 * 1). set (t := 1 + 2 * 2). assert (Ep : p = 1) by (unfold p; ring). assert (Es : s = 3) by (unfold s; ring). assert (Et : t = 5) by (unfold t; ring).
      rewrite Ep, Es, Et. replace (tilted (1 / 4) (1 - (0 + 1 * 1))) with 0 by cases_lra. replace (tilted (1 / 4) (3 - (0 + 1 * 3))) with 0 by cases_lra. replace (tilted (1 / 4) (5 - (0 + 1 * 3))) with (1 / 2) by cases_lra.
      assert (X := tilted_nonneg (1 / 4) (1 - (a' + b' * 1)) ltac:(lra)). assert (1 / 2 <= tilted (1 / 4) (3 - (a' + b' * 3)) + (tilted (1 / 4) (3 - (a' + b' * 3)) + tilted (1 / 4) (5 - (a' + b' * 3)))); [|lra]. clear X. cases_lra.
  - eexists. apply (reported_is case_units (3 / 4) (-1, 2)); [lra|cbn; unfold two_fit; now rewrite Reqb_refl|].
    intros Z. assert (A := flat_zero (3 / 4) _ _ ltac:(lra) Z). cbn [case_units q_signals map] in A. assert (A1 := A _ (or_introl eq_refl)). assert (A2 := A _ (or_intror (or_introl eq_refl))). lra.
Qed.
