(** Finite sums and matrices of reals indexed by natural numbers. *)
From Verif Require Import RealBase.
Local Open Scope R_scope.

Fixpoint bigsum (n : nat) (f : nat -> R) : R := match n with O => 0 | S m => bigsum m f + f m end.
Lemma bigsum_ext n f g : (forall i, (i < n)%nat -> f i = g i) -> bigsum n f = bigsum n g.
Proof. induction n; cbn; intros H; [reflexivity|]. rewrite IHn, H; auto. Qed.
Lemma bigsum_plus n f g : bigsum n (fun i => f i + g i) = bigsum n f + bigsum n g.
Proof. induction n; cbn; [ring|]. rewrite IHn. ring. Qed.
Lemma bigsum_minus n f g : bigsum n (fun i => f i - g i) = bigsum n f - bigsum n g.
Proof. induction n; cbn; [ring|]. rewrite IHn. ring. Qed.
Lemma bigsum_opp n f : bigsum n (fun i => - f i) = - bigsum n f.
Proof. induction n; cbn; [ring|]. rewrite IHn. ring. Qed.
Lemma bigsum_scal n c f : bigsum n (fun i => c * f i) = c * bigsum n f.
Proof. induction n; cbn; [ring|]. rewrite IHn. ring. Qed.
Lemma bigsum_scal_r n c f : bigsum n (fun i => f i * c) = bigsum n f * c.
Proof. induction n; cbn; [ring|]. rewrite IHn. ring. Qed.
Lemma bigsum_const n c : bigsum n (fun _ => c) = INR n * c.
Proof. induction n as [|n IH]; [cbn; ring|]. cbn [bigsum]. rewrite IH, S_INR. ring. Qed.
Lemma bigsum_zero n f : (forall i, (i < n)%nat -> f i = 0) -> bigsum n f = 0.
Proof. induction n; cbn; intros H; [reflexivity|]. rewrite IHn, H by auto. ring. Qed.
Lemma bigsum_swap n m f : bigsum n (fun i => bigsum m (fun j => f i j)) = bigsum m (fun j => bigsum n (fun i => f i j)).
Proof.
  induction n; cbn; [symmetry; now apply bigsum_zero|]. rewrite IHn, <- bigsum_plus. reflexivity.
Qed.
Lemma bigsum_first n f : bigsum (S n) f = f O + bigsum n (fun i => f (S i)).
Proof. induction n as [|n IH]; [cbn; ring|]. cbn [bigsum] in *. rewrite IH. ring. Qed.
Lemma bigsum_delta n i f : bigsum n (fun l => if Nat.eqb l i then f l else 0) = if Nat.ltb i n then f i else 0.
Proof.
  induction n as [|n IH]; [reflexivity|]. cbn [bigsum]. rewrite IH.
  destruct (Nat.ltb_spec i n), (Nat.ltb_spec i (S n)), (Nat.eqb_spec n i); subst; try lia; try ring.
Qed.
Lemma bigsum_one n i f : (i < n)%nat -> (forall l, (l < n)%nat -> l <> i -> f l = 0) -> bigsum n f = f i.
Proof.
  intros Hi H. rewrite (bigsum_ext n f (fun l => if Nat.eqb l i then f l else 0)).
  - rewrite bigsum_delta. now rewrite (proj2 (Nat.ltb_lt i n) Hi).
  - intros l Hl. destruct (Nat.eqb_spec l i); [reflexivity|]. now apply H.
Qed.
Lemma bigsum_le n f g : (forall i, (i < n)%nat -> f i <= g i) -> bigsum n f <= bigsum n g.
Proof.
  induction n; cbn; intros H; [lra|]. assert (G := H n ltac:(lia)). assert (bigsum n f <= bigsum n g) by (apply IHn; auto). lra.
Qed.
Lemma bigsum_nonneg n f : (forall i, (i < n)%nat -> 0 <= f i) -> 0 <= bigsum n f.
Proof. intros H. replace 0 with (bigsum n (fun _ => 0)) by (now apply bigsum_zero). now apply bigsum_le. Qed.
Lemma bigsum_nth (l : list R) (f : R -> R) : bigsum (length l) (fun i => f (nth i l 0)) = Rsum (map f l).
Proof.
  induction l as [|x l IH]; [reflexivity|]. cbn [length]. rewrite bigsum_first. cbn [map nth]. rewrite Rsum_cons, IH. reflexivity.
Qed.
Lemma bigsum_app n m f : bigsum (n + m) f = bigsum n f + bigsum m (fun i => f (n + i)%nat).
Proof.
  induction m as [|m IH]; [rewrite Nat.add_0_r; cbn; ring|]. rewrite Nat.add_succ_r. cbn [bigsum]. rewrite IH. ring.
Qed.
(** Removing one index. *)
Definition skip (i j : nat) : nat := if Nat.ltb j i then j else S j.
Lemma bigsum_skip n i f : (i <= n)%nat -> bigsum (S n) f = f i + bigsum n (fun j => f (skip i j)).
Proof.
  revert i. induction n as [|n IH]; intros i Hi.
  - assert (i = O) by lia. subst. cbn. ring.
  - destruct (Nat.eq_dec i (S n)) as [->|Hne].
    + cbn [bigsum]. rewrite (bigsum_ext n (fun j => f (skip (S n) j)) f).
      * unfold skip. rewrite (proj2 (Nat.ltb_lt n (S n))) by lia. ring.
      * intros j Hj. unfold skip. now rewrite (proj2 (Nat.ltb_lt j (S n))) by lia.
    + change (bigsum (S (S n)) f) with (bigsum (S n) f + f (S n)). rewrite (IH i) by lia. cbn [bigsum].
      unfold skip at 3. rewrite (proj2 (Nat.ltb_ge n i)) by lia. ring.
Qed.

(** Matrices. *)
Definition mat := nat -> nat -> R.
Definition mmul (k : nat) (A B : mat) : mat := fun i j => bigsum k (fun l => A i l * B l j).
Definition mtr (A : mat) : mat := fun i j => A j i.
Definition mtrace (n : nat) (A : mat) : R := bigsum n (fun i => A i i).
Definition mid : mat := fun i j => if Nat.eqb i j then 1 else 0.
Definition msub (A B : mat) : mat := fun i j => A i j - B i j.
Definition meq (n m : nat) (A B : mat) : Prop := forall i j, (i < n)%nat -> (j < m)%nat -> A i j = B i j.
Lemma mmul_assoc k l A B C : forall i j, mmul l (mmul k A B) C i j = mmul k A (mmul l B C) i j.
Proof.
  intros i j. unfold mmul.
  rewrite (bigsum_ext l _ (fun x => bigsum k (fun y => A i y * B y x * C x j))) by (intros; now rewrite <- bigsum_scal_r).
  rewrite bigsum_swap. apply bigsum_ext. intros y _. rewrite <- bigsum_scal. apply bigsum_ext. intros; ring.
Qed.
Lemma mtrace_comm n m A B : mtrace n (mmul m A B) = mtrace m (mmul n B A).
Proof.
  unfold mtrace, mmul. rewrite bigsum_swap. apply bigsum_ext. intros i _. apply bigsum_ext. intros; ring.
Qed.
Lemma mtrace_ext n A B : (forall i, (i < n)%nat -> A i i = B i i) -> mtrace n A = mtrace n B.
Proof. apply bigsum_ext. Qed.
Lemma mmul_ext k A A' B B' i j : (forall l, (l < k)%nat -> A i l = A' i l) -> (forall l, (l < k)%nat -> B l j = B' l j) ->
  mmul k A B i j = mmul k A' B' i j.
Proof. intros H1 H2. apply bigsum_ext. intros l Hl. now rewrite H1, H2. Qed.
Lemma mmul_sub_l k A A' B i j : mmul k (msub A A') B i j = mmul k A B i j - mmul k A' B i j.
Proof. unfold mmul, msub. rewrite <- bigsum_minus. apply bigsum_ext. intros; ring. Qed.
Lemma mmul_sub_r k A B B' i j : mmul k A (msub B B') i j = mmul k A B i j - mmul k A B' i j.
Proof. unfold mmul, msub. rewrite <- bigsum_minus. apply bigsum_ext. intros; ring. Qed.
Lemma mmul_id_l k A i j : (i < k)%nat -> mmul k mid A i j = A i j.
Proof.
  intros H. unfold mmul, mid. rewrite (bigsum_one k i).
  - rewrite Nat.eqb_refl. ring.
  - assumption.
  - intros l _ Hl. destruct (Nat.eqb_spec i l); [congruence|ring].
Qed.
Lemma mmul_id_r k A i j : (j < k)%nat -> mmul k A mid i j = A i j.
Proof.
  intros H. unfold mmul, mid. rewrite (bigsum_one k j).
  - rewrite Nat.eqb_refl. ring.
  - assumption.
  - intros l _ Hl. destruct (Nat.eqb_spec l j); [congruence|ring].
Qed.
Lemma mtrace_sub n A B : mtrace n (msub A B) = mtrace n A - mtrace n B.
Proof. unfold mtrace, msub. apply bigsum_minus. Qed.
Lemma mmul_tr k A B i j : mtr (mmul k A B) i j = mmul k (mtr B) (mtr A) i j.
Proof. unfold mtr, mmul. apply bigsum_ext. intros; ring. Qed.
