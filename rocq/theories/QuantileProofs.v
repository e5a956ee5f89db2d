(** Lemmas on the empirical quantile and the linear POD object. *)
From Coq Require Import String.
From Verif Require Import RealBase QuantileModel.
Local Open Scope R_scope.

(** Linear interpolation of a sequence at a real index. *)
Definition lerp (s : list R) (t : R) : R :=
  let k := Z.to_nat (Int_part t) in nth k s 0 + (t - INR k) * (nth (S k) s 0 - nth k s 0).

Lemma floor_nat t : 0 <= t -> INR (Z.to_nat (Int_part t)) <= t < INR (Z.to_nat (Int_part t)) + 1.
Proof.
  intros Ht. destruct (base_Int_part t) as [H1 H2].
  assert (H0 : (0 <= Int_part t)%Z).
  { assert (H3 : (-1 < Int_part t)%Z) by (apply lt_IZR; lra). lia. }
  rewrite INR_IZR_INZ, Z2Nat.id by assumption. lra.
Qed.
Lemma floor_unique t k : INR k <= t < INR k + 1 -> Z.to_nat (Int_part t) = k.
Proof.
  intros H. assert (Ht : 0 <= t) by (assert (G := pos_INR k); lra).
  assert (F := floor_nat t Ht). set (j := Z.to_nat (Int_part t)) in *.
  assert (H1 : INR j < INR (S k)) by (rewrite S_INR; lra).
  assert (H2 : INR k < INR (S j)) by (rewrite S_INR; lra).
  apply INR_lt in H1. apply INR_lt in H2. lia.
Qed.

Section Sorted.
  Variable s : list R.
  Hypothesis Hs : Rsorted s.
  Lemma lerp_bounds t : 0 <= t -> t < INR (length s) - 1 ->
    let k := Z.to_nat (Int_part t) in
    (S k < length s)%nat /\ nth k s 0 <= lerp s t <= nth (S k) s 0.
  Proof.
    intros H0 H1 k. assert (F := floor_nat t H0). fold k in F.
    assert (Hk : (S k < length s)%nat).
    { apply INR_lt. rewrite S_INR. lra. }
    split; [exact Hk|]. unfold lerp. fold k.
    assert (G := Rsorted_nth s Hs k (S k) ltac:(lia)).
    assert (P : 0 <= (t - INR k) * (nth (S k) s 0 - nth k s 0)) by (apply Rmult_le_pos; lra).
    assert (Q : 0 <= (1 - (t - INR k)) * (nth (S k) s 0 - nth k s 0)) by (apply Rmult_le_pos; lra).
    lra.
  Qed.
  Lemma lerp_mono t1 t2 : 0 <= t1 -> t1 <= t2 -> t2 < INR (length s) - 1 -> lerp s t1 <= lerp s t2.
  Proof.
    intros H0 H1 H2.
    destruct (lerp_bounds t1) as [L1 B1]; [lra|lra|]. destruct (lerp_bounds t2) as [L2 B2]; [lra|lra|].
    assert (F1 := floor_nat t1 ltac:(lra)). assert (F2 := floor_nat t2 ltac:(lra)).
    set (k1 := Z.to_nat (Int_part t1)) in *. set (k2 := Z.to_nat (Int_part t2)) in *.
    assert (Hk : (k1 < S k2)%nat) by (apply INR_lt; rewrite S_INR; lra).
    destruct (Nat.eq_dec k1 k2) as [E|E].
    - unfold lerp. fold k1 k2. rewrite E.
      assert (G := Rsorted_nth s Hs k2 (S k2) ltac:(lia)).
      assert (P : 0 <= (t2 - t1) * (nth (S k2) s 0 - nth k2 s 0)) by (apply Rmult_le_pos; lra). lra.
    - eapply Rle_trans; [apply B1|]. eapply Rle_trans; [|apply B2].
      apply Rsorted_nth; [exact Hs|lia].
  Qed.
End Sorted.

Lemma quantile_cases l p : l <> [] ->
  (INR (length l) - 1 <= p * INR (length l) - / 2 /\ quantile l p = nth (length l - 1) (Rsort l) 0) \/
  (p * INR (length l) - / 2 < INR (length l) - 1 /\ p * INR (length l) - / 2 <= 0 /\ quantile l p = nth 0 (Rsort l) 0) \/
  (p * INR (length l) - / 2 < INR (length l) - 1 /\ 0 < p * INR (length l) - / 2 /\
   quantile l p = lerp (Rsort l) (p * INR (length l) - / 2)).
Proof.
  intros Hn. unfold quantile.
  destruct (Rleb_spec (INR (length l) - 1) (p * INR (length l) - / 2)); [left; split; auto|right].
  destruct (Rleb_spec (p * INR (length l) - / 2) 0); [left|right]; (split; [lra|]); (split; [lra|]); reflexivity.
Qed.

Lemma quantile_bounds l p : l <> [] -> Rlmin l <= quantile l p <= Rlmax l.
Proof.
  intros Hn.
  assert (Hsn : Rsort l <> []).
  { intros E. apply Hn. apply length_zero_iff_nil. rewrite <- Rsort_length, E. reflexivity. }
  destruct (Rsorted_bounds _ (Rsort_sorted l) Hsn) as [H0 H1].
  rewrite (Rlmin_perm _ _ (Rsort_perm l)) in H0. rewrite (Rlmax_perm _ _ (Rsort_perm l)) in H1.
  rewrite Rsort_length in H1.
  assert (Hm := Rlmin_le_max l).
  destruct (quantile_cases l p Hn) as [[_ ->]|[[_ [_ ->]]|[A [B ->]]]].
  - rewrite H1. lra.
  - rewrite H0. lra.
  - rewrite <- (Rsort_length l) in A at 2.
    destruct (lerp_bounds (Rsort l) (Rsort_sorted l) _ (Rlt_le _ _ B) A) as [Hk Hb].
    rewrite <- H0, <- H1. rewrite Rsort_length in Hk.
    split.
    + eapply Rle_trans; [|apply Hb]. apply Rsorted_nth; [apply Rsort_sorted|]. rewrite Rsort_length. lia.
    + eapply Rle_trans; [apply Hb|]. apply Rsorted_nth; [apply Rsort_sorted|]. rewrite Rsort_length. lia.
Qed.

Lemma quantile_mono l p q : l <> [] -> p <= q -> quantile l p <= quantile l q.
Proof.
  intros Hn Hpq. assert (HL := length_pos l Hn).
  assert (Ht : p * INR (length l) - / 2 <= q * INR (length l) - / 2)
    by (assert (p * INR (length l) <= q * INR (length l)) by (apply Rmult_le_compat_r; lra); lra).
  assert (Hsn : Rsort l <> []).
  { intros E. apply Hn. apply length_zero_iff_nil. rewrite <- Rsort_length, E. reflexivity. }
  destruct (Rsorted_bounds _ (Rsort_sorted l) Hsn) as [H0 H1].
  rewrite (Rlmin_perm _ _ (Rsort_perm l)) in H0. rewrite (Rlmax_perm _ _ (Rsort_perm l)) in H1.
  rewrite Rsort_length in H1.
  destruct (quantile_cases l q Hn) as [[A E]|[[A [B E]]|[A [B E]]]].
  - rewrite E, H1. apply quantile_bounds; auto.
  - destruct (quantile_cases l p Hn) as [[A' E']|[[A' [B' E']]|[A' [B' E']]]]; try lra.
  - destruct (quantile_cases l p Hn) as [[A' E']|[[A' [B' E']]|[A' [B' E']]]]; try lra.
    + rewrite E', H0. apply quantile_bounds; auto.
    + rewrite E, E'. apply lerp_mono; [apply Rsort_sorted|lra|lra|]. rewrite Rsort_length. exact A.
Qed.

Lemma quantile_perm l1 l2 p : Permutation l1 l2 -> quantile l1 p = quantile l2 p.
Proof.
  intros H. unfold quantile. rewrite (Rsort_unique _ _ H), (Permutation_length H). reflexivity.
Qed.

(** At the levels (k + 1/2) / n the quantile is the k-th order statistic. *)
Lemma quantile_order l k : (k < length l)%nat ->
  quantile l ((INR k + / 2) / INR (length l)) = nth k (Rsort l) 0.
Proof.
  intros Hk. assert (Hn : l <> []) by (intros ->; cbn in Hk; lia). assert (HL := length_pos l Hn).
  assert (Ht : (INR k + / 2) / INR (length l) * INR (length l) - / 2 = INR k) by (field; lra).
  destruct (quantile_cases l ((INR k + / 2) / INR (length l)) Hn) as [[A ->]|[[A [B ->]]|[A [B ->]]]];
    rewrite Ht in *.
  - assert (E : (length l <= S k)%nat) by (apply INR_le; rewrite S_INR; lra). f_equal. lia.
  - assert (k = 0%nat) by (destruct k; [reflexivity|]; assert (G := pos_INR k); rewrite S_INR in B; lra). now subst.
  - unfold lerp. rewrite (floor_unique (INR k) k) by lra. lra.
Qed.

(** *** The linear object *)
Lemma collect_ok coll x : forall n i, (i + n <= length coll)%nat ->
  collect coll x (seq i n) = Ok (map (fun c => c x) (firstn n (skipn i coll))).
Proof.
  induction n as [|n IH]; intros i H; cbn [seq collect firstn map]; [reflexivity|].
  destruct (nth_error coll i) as [c|] eqn:E; [|apply nth_error_None in E; lia].
  rewrite IH by lia. cbn [bind].
  assert (Hs : skipn i coll = c :: skipn (S i) coll).
  { clear -E. revert i E. induction coll as [|d coll IHc]; intros i E; [destruct i; discriminate|].
    destruct i; cbn in E; [injection E as ->; reflexivity|]. cbn [skipn]. now apply IHc. }
  rewrite Hs. reflexivity.
Qed.
Lemma collect_fail coll x : forall n i, (i <= length coll < i + n)%nat ->
  collect coll x (seq i n) = Raise IndexError.
Proof.
  induction n as [|n IH]; intros i H; [lia|]. cbn [seq collect].
  destruct (nth_error coll i) as [c|] eqn:E; [|reflexivity].
  assert (Hi : (i < length coll)%nat) by (apply nth_error_Some; congruence).
  rewrite IH by lia. reflexivity.
Qed.
