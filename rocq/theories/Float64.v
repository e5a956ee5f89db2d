(** IEEE 754 binary64 numbers as Coq's computable [spec_float] (standard library SpecFloat).
    Python floats and numpy float64 arrays are modelled by this type wherever the code only compares
    (comparisons are exact: NaN compares false with everything, -0 = +0), and by its correctly rounded
    operations where the property depends on rounding. *)
From Coq Require Import SpecFloat.
From Verif Require Import Base.
Local Open Scope Z_scope.

(** Python float and numpy float64. *)
Definition float := spec_float.
Definition fltb (a b : float) : bool := SFltb a b.      (* a < b *)
Definition fleb (a b : float) : bool := SFleb a b.      (* a <= b *)
Definition fgtb (a b : float) : bool := SFltb b a.      (* a > b *)
Definition fgeb (a b : float) : bool := SFleb b a.      (* a >= b *)
(** Not a number. *)
Definition is_nan (a : float) : bool := match a with S754_nan => true | _ => false end.

(** Correctly rounded (nearest even) binary64 operations. *)
Definition fmul := SFmul 53 1024.
(** Python x / y on floats with y not zero (numpy semantics for zero). *)
Definition fdiv := SFdiv 53 1024.
(** Python x + y. *)
Definition fadd := SFadd 53 1024.
(** Python x - y. *)
Definition fsub := SFsub 53 1024.
(** [m * 2^e] rounded to binary64. *)
Definition fofZ (m e : Z) : float := binary_normalize 53 1024 m e false.
(** Python float(n). *)
Definition of_int (n : Z) : float := fofZ n 0.
(** The double nearest to the rational [n/d] when n and d are exactly representable (Python literal). *)
Definition of_ratio (n d : Z) : float := fdiv (of_int n) (of_int d).

(** Literal 0. *)
Definition fzero : float := S754_zero false.
(** Literal 1. *)
Definition fone : float := of_int 1.
(** [sys.float_info.max] and its opposite. *)
Definition fmax : float := S754_finite false 9007199254740991 971.
(** -sys.float_info.max. *)
Definition fneg_max : float := S754_finite true 9007199254740991 971.

(** Order embedding of the non-NaN floats in lexicographic triples. *)
Definition key (f : float) : Z * Z * Z :=
  match f with
  | S754_infinity true => (-2, 0, 0)
  | S754_finite true m e => (-1, - e, - Zpos m)
  | S754_zero _ => (0, 0, 0)
  | S754_finite false m e => (1, e, Zpos m)
  | S754_infinity false => (2, 0, 0)
  | S754_nan => (3, 0, 0)
  end.
(** Lexicographic order of the keys (proof device; no code). *)
Definition klt (a b : Z * Z * Z) : Prop :=
  let '(a1, a2, a3) := a in let '(b1, b2, b3) := b in
  a1 < b1 \/ (a1 = b1 /\ (a2 < b2 \/ (a2 = b2 /\ a3 < b3))).

Lemma fltb_key a b :
  is_nan a = false -> is_nan b = false -> (fltb a b = true <-> klt (key a) (key b)).
Proof.
  intros Ha Hb; unfold fltb, SFltb, klt.
  destruct a as [s|s| |s m e], b as [s'|s'| |s' m' e']; try discriminate; cbn [SFcompare key];
    repeat match goal with s : bool |- _ => destruct s end; cbn; try (split; [intros H; discriminate|lia]);
    try (split; [intros _; lia|intros _; reflexivity]);
    rewrite ?Pos.compare_cont_spec; cbn;
    destruct (Z.compare_spec e e'); cbn;
    try (split; [intros H; discriminate H|lia]); try (split; intros; [lia|reflexivity]);
    change (Pos.compare_cont Eq m m') with (Pos.compare m m') in *;
    destruct (Pos.compare_spec m m'); cbn;
    try (split; [intros H'; discriminate H'|lia]); split; intros; try reflexivity; lia.
Qed.
Lemma fleb_key a b :
  is_nan a = false -> is_nan b = false -> (fleb a b = true <-> ~ klt (key b) (key a)).
Proof.
  intros Ha Hb; unfold fleb, SFleb, klt.
  destruct a as [s|s| |s m e], b as [s'|s'| |s' m' e']; try discriminate; cbn [SFcompare key];
    repeat match goal with s : bool |- _ => destruct s end; cbn; try (split; [intros H; discriminate|lia]);
    try (split; [intros _; lia|intros _; reflexivity]);
    destruct (Z.compare_spec e e'); cbn;
    try (split; [intros H; discriminate H|lia]); try (split; intros; [lia|reflexivity]);
    change (Pos.compare_cont Eq m m') with (Pos.compare m m') in *;
    destruct (Pos.compare_spec m m'); cbn;
    try (split; [intros H'; discriminate H'|lia]); split; intros; try reflexivity; lia.
Qed.

Lemma fltb_nan_l b : fltb S754_nan b = false.  Proof. reflexivity. Qed.
Lemma fltb_nan_r a : fltb a S754_nan = false.  Proof. now destruct a. Qed.
Lemma fleb_nan_l b : fleb S754_nan b = false.  Proof. reflexivity. Qed.
Lemma fleb_nan_r a : fleb a S754_nan = false.  Proof. now destruct a. Qed.

Lemma fltb_not_nan a b : fltb a b = true -> is_nan a = false /\ is_nan b = false.
Proof. destruct a, b; cbn; auto; discriminate. Qed.
Lemma fleb_not_nan a b : fleb a b = true -> is_nan a = false /\ is_nan b = false.
Proof. destruct a, b; cbn; auto; discriminate. Qed.

Ltac kdestr a := let k := fresh "k" in destruct (key a) as [[? ?] ?].

Lemma fleb_negb_fltb a b : is_nan a = false -> is_nan b = false -> fleb a b = negb (fltb b a).
Proof.
  intros Ha Hb. destruct (fleb a b) eqn:E, (fltb b a) eqn:F; cbn; try reflexivity.
  - apply fleb_key in E; auto. apply fltb_key in F; auto. contradiction.
  - assert (H : ~ ~ klt (key b) (key a)) by (intro H; apply fleb_key in H; auto; congruence).
    assert (H' : ~ klt (key b) (key a)) by (intro H'; apply fltb_key in H'; auto; congruence).
    contradiction.
Qed.
Lemma fltb_negb_fleb a b : is_nan a = false -> is_nan b = false -> fltb a b = negb (fleb b a).
Proof. intros Ha Hb. rewrite fleb_negb_fltb by auto. now rewrite negb_involutive. Qed.

Lemma fltb_trans a b c : fltb a b = true -> fltb b c = true -> fltb a c = true.
Proof.
  intros H1 H2. destruct (fltb_not_nan _ _ H1), (fltb_not_nan _ _ H2).
  apply fltb_key in H1; auto. apply fltb_key in H2; auto. apply fltb_key; auto.
  unfold klt in *. kdestr a; kdestr b; kdestr c. lia.
Qed.
Lemma fleb_trans a b c : fleb a b = true -> fleb b c = true -> fleb a c = true.
Proof.
  intros H1 H2. destruct (fleb_not_nan _ _ H1), (fleb_not_nan _ _ H2).
  apply fleb_key in H1; auto. apply fleb_key in H2; auto. apply fleb_key; auto.
  unfold klt in *. kdestr a; kdestr b; kdestr c. lia.
Qed.
Lemma fltb_fleb_trans a b c : fltb a b = true -> fleb b c = true -> fltb a c = true.
Proof.
  intros H1 H2. destruct (fltb_not_nan _ _ H1), (fleb_not_nan _ _ H2).
  apply fltb_key in H1; auto. apply fleb_key in H2; auto. apply fltb_key; auto.
  unfold klt in *. kdestr a; kdestr b; kdestr c. lia.
Qed.
Lemma fleb_fltb_trans a b c : fleb a b = true -> fltb b c = true -> fltb a c = true.
Proof.
  intros H1 H2. destruct (fleb_not_nan _ _ H1), (fltb_not_nan _ _ H2).
  apply fleb_key in H1; auto. apply fltb_key in H2; auto. apply fltb_key; auto.
  unfold klt in *. kdestr a; kdestr b; kdestr c. lia.
Qed.
Lemma fltb_irrefl a : fltb a a = false.
Proof.
  destruct (is_nan a) eqn:E; [now destruct a|].
  destruct (fltb a a) eqn:F; [|reflexivity].
  apply fltb_key in F; auto. unfold klt in F. kdestr a. lia.
Qed.
Lemma fleb_refl a : is_nan a = false -> fleb a a = true.
Proof. intros. rewrite fleb_negb_fltb by auto. now rewrite fltb_irrefl. Qed.
Lemma fltb_fleb a b : fltb a b = true -> fleb a b = true.
Proof.
  intros H. destruct (fltb_not_nan _ _ H). rewrite fleb_negb_fltb by auto.
  destruct (fltb b a) eqn:E; [|reflexivity].
  assert (C := fltb_trans _ _ _ H E). rewrite fltb_irrefl in C. discriminate.
Qed.
Lemma fleb_total a b : is_nan a = false -> is_nan b = false -> fleb a b = true \/ fleb b a = true.
Proof.
  intros Ha Hb. destruct (fleb a b) eqn:E; [now left|right].
  rewrite fleb_negb_fltb in E by auto. apply fltb_fleb. now destruct (fltb b a).
Qed.

(** numpy's sort order on float64: NaN last. *)
Definition np_leb (a b : float) : bool := is_nan b || fleb a b.
Lemma np_leb_total a b : np_leb a b = true \/ np_leb b a = true.
Proof.
  unfold np_leb. destruct (is_nan a) eqn:Ha, (is_nan b) eqn:Hb; cbn; auto. now apply fleb_total.
Qed.
Lemma np_leb_trans a b c : np_leb a b = true -> np_leb b c = true -> np_leb a c = true.
Proof.
  unfold np_leb. destruct (is_nan c) eqn:Hc; [reflexivity|]. cbn.
  destruct (is_nan b) eqn:Hb; cbn.
  - intros _ H. apply fleb_not_nan in H. destruct H; congruence.
  - apply fleb_trans.
Qed.
(** np.sort of a float array: NaN last. *)
Definition fsort : list float -> list float := isort np_leb.
Lemma fsort_sorted l : Sorted_by np_leb (fsort l).
Proof. apply isort_sorted; [apply np_leb_total|apply np_leb_trans]. Qed.
Lemma fsort_perm l : Permutation (fsort l) l.
Proof. apply isort_perm. Qed.

(** numpy [max] / [min] of a non-empty float64 array (NaN propagates). *)
Definition fmax2 (a b : float) : float := if is_nan a then a else if is_nan b then b else if fltb a b then b else a.
(** numpy minimum of two numbers (NaN propagates). *)
Definition fmin2 (a b : float) : float := if is_nan a then a else if is_nan b then b else if fltb b a then b else a.
(** numpy max of x and the elements of l. *)
Fixpoint np_max (x : float) (l : list float) : float :=
  match l with [] => x | y :: l' => np_max (fmax2 x y) l' end.
(** numpy min of x and the elements of l. *)
Fixpoint np_min (x : float) (l : list float) : float :=
  match l with [] => x | y :: l' => np_min (fmin2 x y) l' end.

Lemma np_max_nan l : forall x, is_nan x = true -> is_nan (np_max x l) = true.
Proof.
  induction l as [|y l IH]; cbn; intros x Hx; [assumption|].
  apply IH. unfold fmax2. now rewrite Hx.
Qed.
Lemma np_min_nan l : forall x, is_nan x = true -> is_nan (np_min x l) = true.
Proof.
  induction l as [|y l IH]; cbn; intros x Hx; [assumption|].
  apply IH. unfold fmin2. now rewrite Hx.
Qed.
Lemma np_max_is_nan l : forall x, is_nan (np_max x l) = existsb is_nan (x :: l).
Proof.
  induction l as [|y l IH]; intros x; cbn [np_max existsb]; [now rewrite orb_false_r|].
  rewrite IH. cbn [existsb]. unfold fmax2.
  destruct (is_nan x) eqn:Hx; [now rewrite Hx|].
  destruct (is_nan y) eqn:Hy; [now rewrite Hy|].
  destruct (fltb x y); rewrite ?Hx, ?Hy; reflexivity.
Qed.
Lemma np_min_is_nan l : forall x, is_nan (np_min x l) = existsb is_nan (x :: l).
Proof.
  induction l as [|y l IH]; intros x; cbn [np_min existsb]; [now rewrite orb_false_r|].
  rewrite IH. cbn [existsb]. unfold fmin2.
  destruct (is_nan x) eqn:Hx; [now rewrite Hx|].
  destruct (is_nan y) eqn:Hy; [now rewrite Hy|].
  destruct (fltb y x); rewrite ?Hx, ?Hy; reflexivity.
Qed.
Lemma np_max_in l : forall x, In (np_max x l) (x :: l).
Proof.
  induction l as [|y l IH]; intros x; cbn [np_max]; [now left|].
  destruct (IH (fmax2 x y)) as [H|H]; [|right; now right].
  rewrite <- H. unfold fmax2. destruct (is_nan x), (is_nan y), (fltb x y); cbn; auto.
Qed.
Lemma np_min_in l : forall x, In (np_min x l) (x :: l).
Proof.
  induction l as [|y l IH]; intros x; cbn [np_min]; [now left|].
  destruct (IH (fmin2 x y)) as [H|H]; [|right; now right].
  rewrite <- H. unfold fmin2. destruct (is_nan x), (is_nan y), (fltb y x); cbn; auto.
Qed.
Lemma np_max_ge l : forall x, existsb is_nan (x :: l) = false ->
  forall y, In y (x :: l) -> fleb y (np_max x l) = true.
Proof.
  induction l as [|z l IH]; intros x Hn y Hy; cbn [np_max].
  - destruct Hy as [->|[]]. cbn in Hn. rewrite orb_false_r in Hn. now apply fleb_refl.
  - cbn [existsb] in Hn. apply orb_false_iff in Hn as [Hx Hn]. apply orb_false_iff in Hn as [Hz Hn].
    assert (Hm : is_nan (fmax2 x z) = false).
    { unfold fmax2. rewrite Hx, Hz. destruct (fltb x z); assumption. }
    assert (Hall : existsb is_nan (fmax2 x z :: l) = false) by (cbn; rewrite Hm, Hn; reflexivity).
    destruct Hy as [->|[->|Hy]].
    + eapply fleb_trans; [|apply (IH _ Hall); now left].
      unfold fmax2. rewrite Hx, Hz. destruct (fltb y z) eqn:E; [now apply fltb_fleb|now apply fleb_refl].
    + eapply fleb_trans; [|apply (IH _ Hall); now left].
      unfold fmax2. rewrite Hx, Hz. destruct (fltb x y) eqn:E; [now apply fleb_refl|].
      rewrite fleb_negb_fltb by assumption. now rewrite E.
    + apply (IH _ Hall). now right.
Qed.
Lemma np_min_le l : forall x, existsb is_nan (x :: l) = false ->
  forall y, In y (x :: l) -> fleb (np_min x l) y = true.
Proof.
  induction l as [|z l IH]; intros x Hn y Hy; cbn [np_min].
  - destruct Hy as [->|[]]. cbn in Hn. rewrite orb_false_r in Hn. now apply fleb_refl.
  - cbn [existsb] in Hn. apply orb_false_iff in Hn as [Hx Hn]. apply orb_false_iff in Hn as [Hz Hn].
    assert (Hm : is_nan (fmin2 x z) = false).
    { unfold fmin2. rewrite Hx, Hz. destruct (fltb z x); assumption. }
    assert (Hall : existsb is_nan (fmin2 x z :: l) = false) by (cbn; rewrite Hm, Hn; reflexivity).
    destruct Hy as [->|[->|Hy]].
    + eapply fleb_trans; [apply (IH _ Hall); now left|].
      unfold fmin2. rewrite Hx, Hz. destruct (fltb z y) eqn:E; [now apply fltb_fleb|now apply fleb_refl].
    + eapply fleb_trans; [apply (IH _ Hall); now left|].
      unfold fmin2. rewrite Hx, Hz. destruct (fltb y x) eqn:E; [now apply fleb_refl|].
      rewrite fleb_negb_fltb by assumption. now rewrite E.
    + apply (IH _ Hall). now right.
Qed.

(** Python [int(x)] on a finite float: truncation toward zero. *)
Definition ftrunc (x : float) : option Z :=
  match x with
  | S754_zero _ => Some 0
  | S754_finite s m e =>
      let a := if 0 <=? e then Zpos m * 2 ^ e else Zpos m / 2 ^ (- e) in
      Some (if s then - a else a)
  | _ => None      (* OverflowError for infinities, ValueError for NaN *)
  end.
