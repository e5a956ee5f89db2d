(** Lists of real numbers: decidable comparisons, sums, sorting, extrema.  No code is modelled here. *)
From Coq Require Export Reals Lra Psatz.
From Verif Require Export Base.
Local Open Scope R_scope.

(** Boolean comparison x <= y. *)
Definition Rleb (x y : R) : bool := if Rle_dec x y then true else false.
(** Boolean comparison x < y. *)
Definition Rltb (x y : R) : bool := if Rlt_dec x y then true else false.
(** Boolean equality. *)
Definition Reqb (x y : R) : bool := if Req_EM_T x y then true else false.
Lemma Rleb_spec x y : reflect (x <= y) (Rleb x y).
Proof. unfold Rleb. destruct (Rle_dec x y); now constructor. Qed.
Lemma Rltb_spec x y : reflect (x < y) (Rltb x y).
Proof. unfold Rltb. destruct (Rlt_dec x y); now constructor. Qed.
Lemma Reqb_spec x y : reflect (x = y) (Reqb x y).
Proof. unfold Reqb. destruct (Req_EM_T x y); now constructor. Qed.
Lemma Rleb_true x y : Rleb x y = true <-> x <= y.
Proof. destruct (Rleb_spec x y); split; auto; discriminate. Qed.
Lemma Rltb_true x y : Rltb x y = true <-> x < y.
Proof. destruct (Rltb_spec x y); split; auto; discriminate. Qed.
Lemma Rleb_false x y : Rleb x y = false <-> y < x.
Proof. destruct (Rleb_spec x y); split; auto; try discriminate; lra. Qed.
Lemma Rltb_false x y : Rltb x y = false <-> y <= x.
Proof. destruct (Rltb_spec x y); split; auto; try discriminate; lra. Qed.
Lemma Reqb_true x y : Reqb x y = true <-> x = y.
Proof. destruct (Reqb_spec x y); split; auto; discriminate. Qed.
Lemma Reqb_refl x : Reqb x x = true.
Proof. now apply Reqb_true. Qed.

(** *** Sums *)
Definition Rsum (l : list R) : R := fold_right Rplus 0 l.
Lemma Rsum_app l1 l2 : Rsum (l1 ++ l2) = Rsum l1 + Rsum l2.
Proof.
  induction l1 as [|x l1 IH]; cbn [app]; [change (Rsum []) with 0; lra|].
  change (x + Rsum (l1 ++ l2) = x + Rsum l1 + Rsum l2). lra.
Qed.
Lemma Rsum_cons x l : Rsum (x :: l) = x + Rsum l.
Proof. reflexivity. Qed.
Lemma Rsum_nil : Rsum [] = 0.
Proof. reflexivity. Qed.
Lemma Rsum_perm l1 l2 : Permutation l1 l2 -> Rsum l1 = Rsum l2.
Proof. induction 1; rewrite ?Rsum_cons; lra. Qed.
Lemma Rsum_plus {A} (f g : A -> R) l : Rsum (map (fun x => f x + g x) l) = Rsum (map f l) + Rsum (map g l).
Proof. induction l as [|x l IH]; cbn [map]; rewrite ?Rsum_cons, ?Rsum_nil; lra. Qed.
Lemma Rsum_minus {A} (f g : A -> R) l : Rsum (map (fun x => f x - g x) l) = Rsum (map f l) - Rsum (map g l).
Proof. induction l as [|x l IH]; cbn [map]; rewrite ?Rsum_cons, ?Rsum_nil; lra. Qed.
Lemma Rsum_scal {A} c (f : A -> R) l : Rsum (map (fun x => c * f x) l) = c * Rsum (map f l).
Proof. induction l as [|x l IH]; cbn [map]; rewrite ?Rsum_cons, ?Rsum_nil; lra. Qed.
Lemma Rsum_const {A} c (l : list A) : Rsum (map (fun _ => c) l) = INR (length l) * c.
Proof. induction l as [|x l IH]; [cbn; lra|]. cbn [map length]. rewrite Rsum_cons, S_INR, IH. lra. Qed.
Lemma Rsum_ext {A} (f g : A -> R) l : (forall x, In x l -> f x = g x) -> Rsum (map f l) = Rsum (map g l).
Proof. intros H. f_equal. apply map_ext_in, H. Qed.
Lemma Rsum_le {A} (f g : A -> R) l : (forall x, In x l -> f x <= g x) -> Rsum (map f l) <= Rsum (map g l).
Proof.
  induction l as [|x l IH]; intros H; cbn [map]; rewrite ?Rsum_cons, ?Rsum_nil; [lra|].
  assert (H1 := H x (or_introl eq_refl)). assert (H2 := IH (fun y Hy => H y (or_intror Hy))). lra.
Qed.
Lemma Rsum_lt {A} (f g : A -> R) l : l <> [] -> (forall x, In x l -> f x < g x) -> Rsum (map f l) < Rsum (map g l).
Proof.
  destruct l as [|x l]; [congruence|]. intros _ H. cbn [map]. rewrite !Rsum_cons.
  assert (H1 := H x (or_introl eq_refl)).
  assert (H2 := Rsum_le f g l (fun y Hy => Rlt_le _ _ (H y (or_intror Hy)))). lra.
Qed.
Lemma Rsum_nonneg l : (forall x, In x l -> 0 <= x) -> 0 <= Rsum l.
Proof.
  induction l as [|x l IH]; intros H; rewrite ?Rsum_cons, ?Rsum_nil; [lra|].
  assert (H1 := H x (or_introl eq_refl)). assert (H2 := IH (fun y Hy => H y (or_intror Hy))). lra.
Qed.
Lemma Rsum_nonneg_zero l : (forall x, In x l -> 0 <= x) -> Rsum l = 0 -> forall x, In x l -> x = 0.
Proof.
  induction l as [|x l IH]; intros H; rewrite ?Rsum_cons; [intros _ x []|].
  intros H0 y Hy.
  assert (H1 := H x (or_introl eq_refl)).
  assert (H2 := Rsum_nonneg l (fun z Hz => H z (or_intror Hz))).
  destruct Hy as [<-|Hy]; [lra|]. apply IH; auto; [|lra]. intros z Hz; apply H; now right.
Qed.
Lemma Rsum_sqr_nonneg {A} (f : A -> R) l : 0 <= Rsum (map (fun x => f x * f x) l).
Proof.
  apply Rsum_nonneg. intros y Hy. apply in_map_iff in Hy. destruct Hy as [x [<- _]]. nra.
Qed.
Lemma Rsum_sqr_zero {A} (f : A -> R) l : Rsum (map (fun x => f x * f x) l) = 0 -> forall x, In x l -> f x = 0.
Proof.
  intros H x Hx.
  assert (H1 : f x * f x = 0).
  { apply (Rsum_nonneg_zero (map (fun x => f x * f x) l)); auto.
    - intros y Hy. apply in_map_iff in Hy. destruct Hy as [z [<- _]]. nra.
    - now apply (in_map (fun x => f x * f x)). }
  nra.
Qed.

(** np.mean. *)
Definition Rmean (l : list R) : R := Rsum l / INR (length l).
Lemma INR_pos n : (0 < n)%nat -> 0 < INR n.
Proof. apply lt_0_INR. Qed.
Lemma length_pos {A} (l : list A) : l <> [] -> 0 < INR (length l).
Proof. intros H. apply INR_pos. destruct l; [congruence|cbn; lia]. Qed.

(** *** Sorting *)
Definition Rsort : list R -> list R := isort Rleb.
Lemma Rsort_perm l : Permutation (Rsort l) l.
Proof. apply isort_perm. Qed.
Lemma Rsort_length l : length (Rsort l) = length l.
Proof. apply isort_length. Qed.
Lemma Rleb_total a b : Rleb a b = true \/ Rleb b a = true.
Proof. rewrite !Rleb_true. lra. Qed.
Lemma Rleb_trans a b c : Rleb a b = true -> Rleb b c = true -> Rleb a c = true.
Proof. rewrite !Rleb_true. lra. Qed.
Lemma Rleb_anti a b : Rleb a b = true -> Rleb b a = true -> a = b.
Proof. rewrite !Rleb_true. lra. Qed.
(** Sorted lists (specification). *)
Definition Rsorted : list R -> Prop := StronglySorted Rle.
Lemma Rsorted_by l : Sorted_by Rleb l <-> Rsorted l.
Proof.
  unfold Sorted_by, Rsorted. split; induction 1; constructor; auto;
    (eapply Forall_impl; [|eassumption]); intros; now apply Rleb_true.
Qed.
Lemma Rsort_sorted l : Rsorted (Rsort l).
Proof. apply Rsorted_by, isort_sorted; [apply Rleb_total|apply Rleb_trans]. Qed.
Lemma Rsort_unique l1 l2 : Permutation l1 l2 -> Rsort l1 = Rsort l2.
Proof.
  intros H. apply (sorted_perm_unique Rleb Rleb_anti).
  - apply Rsorted_by, Rsort_sorted.
  - apply Rsorted_by, Rsort_sorted.
  - rewrite !Rsort_perm. exact H.
Qed.
Lemma Rsort_id l : Rsorted l -> Rsort l = l.
Proof. intros H. apply isort_id. now apply Rsorted_by. Qed.
Lemma Rsorted_nth l : Rsorted l -> forall i j, (i <= j < length l)%nat -> nth i l 0 <= nth j l 0.
Proof.
  induction 1 as [|x l Hs IH Hall]; intros i j Hij; cbn in Hij; [lia|].
  destruct i as [|i], j as [|j]; cbn [nth]; try lra; [|lia|apply IH; lia].
  rewrite Forall_forall in Hall. apply Hall, nth_In. lia.
Qed.

(** Python's min / max of a list (numpy.min raises on the empty list; 0 stands for that). *)
Definition Rlmin (l : list R) : R := match l with [] => 0 | x :: l' => fold_right Rmin x l' end.
(** Maximum of a list, see Rlmin. *)
Definition Rlmax (l : list R) : R := match l with [] => 0 | x :: l' => fold_right Rmax x l' end.
Lemma fold_min_spec x l : In (fold_right Rmin x l) (x :: l) /\ (forall y, In y (x :: l) -> fold_right Rmin x l <= y).
Proof.
  induction l as [|z l [IH1 IH2]]; cbn [fold_right]; [split; [now left|intros y [->|[]]; lra]|].
  split.
  - unfold Rmin at 1. destruct (Rle_dec z (fold_right Rmin x l)); [right; now left|].
    destruct IH1 as [<-|]; [now left|right; now right].
  - intros y [->|[->|Hy]].
    + eapply Rle_trans; [apply Rmin_r|]. apply IH2. now left.
    + apply Rmin_l.
    + eapply Rle_trans; [apply Rmin_r|]. apply IH2. now right.
Qed.
Lemma fold_max_spec x l : In (fold_right Rmax x l) (x :: l) /\ (forall y, In y (x :: l) -> y <= fold_right Rmax x l).
Proof.
  induction l as [|z l [IH1 IH2]]; cbn [fold_right]; [split; [now left|intros y [->|[]]; lra]|].
  split.
  - unfold Rmax at 1. destruct (Rle_dec z (fold_right Rmax x l)); [|right; now left].
    destruct IH1 as [<-|]; [now left|right; now right].
  - intros y [->|[->|Hy]].
    + eapply Rle_trans; [apply IH2; now left|]. apply Rmax_r.
    + apply Rmax_l.
    + eapply Rle_trans; [apply IH2; now right|]. apply Rmax_r.
Qed.
Lemma Rlmin_in l : l <> [] -> In (Rlmin l) l.
Proof. destruct l as [|x l]; [congruence|]. intros _. apply fold_min_spec. Qed.
Lemma Rlmin_le l y : In y l -> Rlmin l <= y.
Proof. destruct l as [|x l]; [intros []|]. apply fold_min_spec. Qed.
Lemma Rlmax_in l : l <> [] -> In (Rlmax l) l.
Proof. destruct l as [|x l]; [congruence|]. intros _. apply fold_max_spec. Qed.
Lemma Rlmax_ge l y : In y l -> y <= Rlmax l.
Proof. destruct l as [|x l]; [intros []|]. apply fold_max_spec. Qed.
Lemma Rlmin_le_max l : Rlmin l <= Rlmax l.
Proof.
  destruct l as [|x l]; [cbn; lra|]. eapply Rle_trans; [apply (Rlmin_le _ x); now left|apply Rlmax_ge; now left].
Qed.
Lemma Rlmin_perm l1 l2 : Permutation l1 l2 -> Rlmin l1 = Rlmin l2.
Proof.
  intros HP. destruct l1 as [|x l1]; [apply Permutation_nil in HP; now subst|].
  assert (N1 : x :: l1 <> []) by discriminate.
  assert (N2 : l2 <> []) by (intros ->; symmetry in HP; apply Permutation_nil in HP; discriminate).
  apply Rle_antisym; apply Rlmin_le.
  - eapply Permutation_in; [symmetry; exact HP|]. now apply Rlmin_in.
  - eapply Permutation_in; [exact HP|]. now apply Rlmin_in.
Qed.
Lemma Rlmax_perm l1 l2 : Permutation l1 l2 -> Rlmax l1 = Rlmax l2.
Proof.
  intros HP. destruct l1 as [|x l1]; [apply Permutation_nil in HP; now subst|].
  assert (N1 : x :: l1 <> []) by discriminate.
  assert (N2 : l2 <> []) by (intros ->; symmetry in HP; apply Permutation_nil in HP; discriminate).
  apply Rle_antisym; apply Rlmax_ge.
  - eapply Permutation_in; [exact HP|]. now apply Rlmax_in.
  - eapply Permutation_in; [symmetry; exact HP|]. now apply Rlmax_in.
Qed.
Lemma Rsorted_bounds l : Rsorted l -> l <> [] -> nth 0 l 0 = Rlmin l /\ nth (length l - 1) l 0 = Rlmax l.
Proof.
  intros Hs Hn. assert (Hl : (0 < length l)%nat) by (destruct l; [congruence|cbn; lia]).
  split; apply Rle_antisym.
  - destruct (In_nth l (Rlmin l) 0 (Rlmin_in l Hn)) as [i [Hi <-]]. apply Rsorted_nth; [auto|lia].
  - apply Rlmin_le, nth_In. lia.
  - apply Rlmax_ge, nth_In. lia.
  - destruct (In_nth l (Rlmax l) 0 (Rlmax_in l Hn)) as [i [Hi <-]]. apply Rsorted_nth; [auto|lia].
Qed.

(** Number of elements satisfying a test. *)
Definition countb {A} (f : A -> bool) (l : list A) : nat := length (filter f l).
Lemma countb_le {A} (f : A -> bool) l : (countb f l <= length l)%nat.
Proof. unfold countb. induction l as [|x l IH]; cbn; [lia|]. destruct (f x); cbn; lia. Qed.
Lemma countb_mono {A} (f g : A -> bool) l :
  (forall x, In x l -> f x = true -> g x = true) -> (countb f l <= countb g l)%nat.
Proof.
  unfold countb. induction l as [|x l IH]; intros H; cbn; [lia|].
  assert (H1 := H x (or_introl eq_refl)). assert (H2 := IH (fun y Hy => H y (or_intror Hy))).
  destruct (f x); [rewrite (H1 eq_refl); cbn; lia|]. destruct (g x); cbn; lia.
Qed.
Lemma countb_all {A} (f : A -> bool) l : (forall x, In x l -> f x = true) -> countb f l = length l.
Proof.
  unfold countb. induction l as [|x l IH]; intros H; cbn; [reflexivity|].
  rewrite (H x (or_introl eq_refl)). cbn. f_equal. apply IH. intros y Hy; apply H; now right.
Qed.
Lemma countb_none {A} (f : A -> bool) l : (forall x, In x l -> f x = false) -> countb f l = 0%nat.
Proof.
  unfold countb. induction l as [|x l IH]; intros H; cbn; [reflexivity|].
  rewrite (H x (or_introl eq_refl)). apply IH. intros y Hy; apply H; now right.
Qed.
Lemma countb_perm {A} (f : A -> bool) l1 l2 : Permutation l1 l2 -> countb f l1 = countb f l2.
Proof.
  unfold countb. induction 1; cbn; auto.
  - destruct (f x); cbn; lia.
  - destruct (f x), (f y); cbn; lia.
  - lia.
Qed.
Lemma countb_map {A B} (f : B -> bool) (g : A -> B) l : countb f (map g l) = countb (fun x => f (g x)) l.
Proof. unfold countb. induction l as [|x l IH]; cbn; [reflexivity|]. destruct (f (g x)); cbn; lia. Qed.
Lemma countb_ext {A} (f g : A -> bool) l : (forall x, In x l -> f x = g x) -> countb f l = countb g l.
Proof.
  intros H. apply Nat.le_antisymm; apply countb_mono; intros x Hx; rewrite (H x Hx); auto.
Qed.
Lemma countb_app {A} (f : A -> bool) l1 l2 : countb f (l1 ++ l2) = (countb f l1 + countb f l2)%nat.
Proof. unfold countb. rewrite filter_app, app_length. reflexivity. Qed.
Lemma countb_cons {A} (f : A -> bool) x l : countb f (x :: l) = ((if f x then 1 else 0) + countb f l)%nat.
Proof. unfold countb. cbn. destruct (f x); reflexivity. Qed.
