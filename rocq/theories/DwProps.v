(** C23: the Durbin-Watson normal approximation. *)
From Verif Require Import RealBase MatBase RegModel RegProofs DwModel.
Local Open Scope R_scope.

(** Specification: the differencing matrix of the Durbin-Watson statistic: 1, 2, ..., 2, 1 on the diagonal, -1 next to it. *)
Definition dw_A (n : nat) : mat := fun i j =>
  if Nat.eqb i j then (if Nat.eqb i 0 || Nat.eqb i (n - 1) then 1 else 2)
  else if Nat.eqb (S i) j || Nat.eqb (S j) i then -1 else 0.
Lemma dw_row n v i : (2 <= n)%nat -> (i < n)%nat ->
  bigsum n (fun l => dw_A n i l * v l)
  = if Nat.eqb i 0 then v 0%nat - v 1%nat else if Nat.eqb i (n - 1) then v (n - 1)%nat - v (n - 2)%nat
    else - v (i - 1)%nat + 2 * v i - v (i + 1)%nat.
Proof.
  intros Hn Hi.
  rewrite (bigsum_ext n _ (fun l => (if Nat.eqb l i then dw_A n i i * v l else 0)
     + ((if Nat.eqb l (S i) then - v l else 0) + (if Nat.eqb l (i - 1) then (if Nat.eqb i 0 then 0 else - v l) else 0)))).
  - rewrite !bigsum_plus, !bigsum_delta. unfold dw_A. rewrite Nat.eqb_refl.
    destruct (Nat.eqb_spec i 0) as [->|N0].
    + cbn [orb]. rewrite (proj2 (Nat.ltb_lt 0 n)), (proj2 (Nat.ltb_lt 1 n)) by lia. destruct (Nat.ltb (0 - 1) n); ring.
    + cbn [orb]. rewrite (proj2 (Nat.ltb_lt i n)), (proj2 (Nat.ltb_lt (i - 1) n)) by lia.
      destruct (Nat.eqb_spec i (n - 1)) as [->|N1].
      * rewrite (proj2 (Nat.ltb_ge (S (n - 1)) n)) by lia. replace (n - 1 - 1)%nat with (n - 2)%nat by lia. ring.
      * rewrite (proj2 (Nat.ltb_lt (S i) n)) by lia. replace (i + 1)%nat with (S i) by lia. ring.
  - intros l Hl. unfold dw_A. rewrite (Nat.eqb_sym i l), Nat.eqb_refl.
    destruct (Nat.eqb_spec l i) as [->|Hne].
    + destruct (Nat.eqb_spec i (S i)); [lia|]. destruct (Nat.eqb_spec i (i - 1)).
      * destruct (Nat.eqb_spec i 0); [ring|lia].
      * ring.
    + destruct (Nat.eqb_spec (S i) l), (Nat.eqb_spec (S l) i), (Nat.eqb_spec l (S i)), (Nat.eqb_spec l (i - 1)), (Nat.eqb_spec i 0);
        cbn [orb]; try lia; try ring.
Qed.
(** B is the product of the differencing matrix with the design matrix. *)
Theorem C23_B_is_AX :
  forall n x i j, (2 <= n)%nat -> (i < n)%nat -> (j < 2)%nat -> dw_B n x i j = mmul n (dw_A n) (design x) i j.
Proof.
  intros n x i j Hn Hi Hj. unfold mmul. rewrite (dw_row n (fun l => design x l j) i Hn Hi). unfold dw_B, design.
  destruct j as [|[|j]]; [|reflexivity|lia]. cbn. destruct (Nat.eqb i 0), (Nat.eqb i (n - 1)); ring.
Qed.
Print Assumptions C23_B_is_AX.
Lemma by_parts (e g : nat -> R) m :
  bigsum (S m) (fun i => e i * (g i - g (S i))) = e 0%nat * g 0%nat - e m * g (S m) + bigsum m (fun i => g (S i) * (e (S i) - e i)).
Proof. induction m as [|m IH]; [cbn; ring|]. change (bigsum (S (S m)) ?f) with (bigsum (S m) f + f (S m)). cbv beta. rewrite IH. cbn [bigsum]. ring. Qed.
Lemma ssq_diffs l : ssq (diffs l) = bigsum (length l - 1) (fun i => (nth (S i) l 0 - nth i l 0) * (nth (S i) l 0 - nth i l 0)).
Proof.
  induction l as [|x l IH]; [reflexivity|]. destruct l as [|y l]; [reflexivity|].
  change (diffs (x :: y :: l)) with ((y - x) :: diffs (y :: l)). rewrite ssq_cons, IH.
  cbn [length]. rewrite !Nat.sub_succ, !Nat.sub_0_r. rewrite (bigsum_first (length l)). reflexivity.
Qed.
(** The statistic is the quotient of quadratic forms e'Ae / e'e. *)
Theorem C23_statistic_is_a_quadratic_form :
  forall e, (2 <= length e)%nat ->
    let n := length e in
    let v := fun i => nth i e 0 in
    dw_stat e = div (bigsum n (fun i => bigsum n (fun j => v i * dw_A n i j * v j))) (bigsum n (fun i => v i * v i)).
Proof.
  intros e He n v. unfold dw_stat. f_equal.
  - rewrite ssq_diffs. fold n. 
    set (g := fun i => if Nat.eqb i 0 || Nat.eqb i n then 0 else v i - v (i - 1)%nat).
    rewrite (bigsum_ext n (fun i => bigsum n (fun j => v i * dw_A n i j * v j)) (fun i => v i * (g i - g (S i)))).
    + destruct n as [|m] eqn:En; [lia|]. rewrite by_parts. unfold g at 1 2. rewrite !Nat.eqb_refl, orb_true_r. cbn [Nat.eqb orb].
      rewrite Nat.sub_succ, Nat.sub_0_r. rewrite !Rmult_0_r.
      rewrite (bigsum_ext m (fun i => g (S i) * (v (S i) - v i)) (fun i => (v (S i) - v i) * (v (S i) - v i))).
      * unfold v. ring.
      * intros i Hi. unfold g. destruct (Nat.eqb_spec (S i) 0); [lia|]. destruct (Nat.eqb_spec (S i) (S m)); [lia|].
        cbn [orb]. replace (S i - 1)%nat with i by lia. ring.
    + intros i Hi. rewrite (bigsum_ext n _ (fun j => v i * (dw_A n i j * v j))) by (intros; ring). rewrite bigsum_scal. f_equal.
      rewrite dw_row by (assumption || exact He). unfold g.
      destruct (Nat.eqb_spec i 0) as [->|N0].
      * destruct (Nat.eqb_spec 1 0); [lia|]. destruct (Nat.eqb_spec 1 n) as [E|]; [unfold n in *; lia|]. cbn [orb]. cbn [Nat.sub]. ring.
      * destruct (Nat.eqb_spec i n); [lia|]. destruct (Nat.eqb_spec (S i) 0); [lia|]. cbn [orb].
        destruct (Nat.eqb_spec i (n - 1)) as [->|N1].
        -- destruct (Nat.eqb_spec (S (n - 1)) n) as [_|N2]; [|lia]. replace (n - 1 - 1)%nat with (n - 2)%nat by lia. ring.
        -- destruct (Nat.eqb_spec (S i) n); [lia|]. replace (S i - 1)%nat with i by lia. replace (i + 1)%nat with (S i) by lia. ring.
  - symmetry. apply (bigsum_nth e (fun x => x * x)).
Qed.
Print Assumptions C23_statistic_is_a_quadratic_form.
Lemma sum_ends n (a b : R) : (2 <= n)%nat ->
  bigsum n (fun i => if Nat.eqb i 0 || Nat.eqb i (n - 1) then a else b) = 2 * a + (INR n - 2) * b.
Proof.
  intros H. destruct n as [|[|m]]; [lia|lia|].
  rewrite bigsum_first. cbn [Nat.eqb orb bigsum]. replace (S (S m) - 1)%nat with (S m) by lia. rewrite Nat.eqb_refl.
  rewrite (bigsum_ext m _ (fun _ => b)).
  - rewrite bigsum_const, !S_INR. ring.
  - intros i Hi. cbn [Nat.eqb]. destruct (Nat.eqb_spec i m); [lia|reflexivity].
Qed.
(** The two constants are the traces of A and A A. *)
Theorem C23_traces :
  forall n, (2 <= n)%nat -> mtrace n (dw_A n) = 2 * (INR n - 1) /\ mtrace n (mmul n (dw_A n) (dw_A n)) = 2 * (3 * INR n - 4).
Proof.
  intros n Hn. split.
  - unfold mtrace. rewrite (bigsum_ext n _ (fun i => if Nat.eqb i 0 || Nat.eqb i (n - 1) then 1 else 2)).
    + rewrite sum_ends by assumption. ring.
    + intros i _. unfold dw_A. now rewrite Nat.eqb_refl.
  - unfold mtrace, mmul. rewrite (bigsum_ext n _ (fun i => if Nat.eqb i 0 || Nat.eqb i (n - 1) then 2 else 6)).
    + rewrite sum_ends by assumption. ring.
    + intros i Hi. rewrite (dw_row n (fun l => dw_A n l i) i Hn Hi). unfold dw_A.
      destruct (Nat.eqb_spec i 0) as [->|N0].
      * cbn. ring.
      * cbn [orb]. destruct (Nat.eqb_spec i (n - 1)) as [->|N1].
        -- rewrite Nat.eqb_refl. destruct (Nat.eqb_spec (n - 2) (n - 1)); [lia|].
           rewrite orb_true_r. destruct (Nat.eqb_spec (S (n - 2)) (n - 1)); [|lia]. cbn [orb]. destruct (Nat.eqb (n - 1) 0 || true); ring.
        -- rewrite Nat.eqb_refl. destruct (Nat.eqb_spec (i - 1) i); [lia|]. destruct (Nat.eqb_spec (i + 1) i); [lia|].
           destruct (Nat.eqb_spec (S (i - 1)) i); [|lia]. destruct (Nat.eqb_spec (S i) (i + 1)); [|lia]. cbn [orb].
           rewrite orb_true_r. ring.
Qed.
Print Assumptions C23_traces.
Lemma dw_A_sym n i j : dw_A n i j = dw_A n j i.
Proof.
  unfold dw_A. rewrite (Nat.eqb_sym j i). destruct (Nat.eqb_spec i j) as [->|]; [reflexivity|]. now rewrite orb_comm.
Qed.
(** P and Q are the traces of M A and (M A)^2, with M the residual projector I - X inv X', so that [dw_mean] and [dw_var]
    are the mean and variance of the statistic for independent normal errors. *)
Theorem C23_mean_and_variance :
  forall n x inv, (2 <= n)%nat ->
    let M := msub mid (mmul 2 (design x) (mmul 2 inv (mtr (design x)))) in
    let MA := mmul n M (dw_A n) in
    dw_P n x inv = mtrace n MA /\ dw_Q n x inv = mtrace n (mmul n MA MA) /\
    dw_mean n x inv = mtrace n MA / (INR n - 2) /\
    dw_var n x inv = 2 * (mtrace n (mmul n MA MA) - mtrace n MA * mtrace n MA / (INR n - 2)) / ((INR n - 2) * INR n).
Proof.
  intros n x inv Hn M MA. set (X := design x) in *. set (A := dw_A n) in *.
  destruct (C23_traces n Hn) as [T1 T2]. fold A in T1, T2.
  set (H := mmul 2 X (mmul 2 inv (mtr X))) in *.
  assert (EMA : forall i j, (i < n)%nat -> MA i j = A i j - mmul n H A i j).
  { intros i j Hi. unfold MA, M. rewrite mmul_sub_l. f_equal. now apply mmul_id_l. }
  (* X'A = B' *)
  assert (EB : forall i j, (i < 2)%nat -> (j < n)%nat -> mmul n (mtr X) A i j = mtr (dw_B n x) i j).
  { intros i j Hi Hj. unfold mtr. rewrite C23_B_is_AX by assumption. unfold mmul. apply bigsum_ext. intros l Hl.
    unfold mtr. fold A. unfold X. rewrite (dw_A_sym n j l : A j l = A l j). ring. }
  (* H A = X (inv B') *)
  assert (EHA : forall i j, (j < n)%nat -> mmul n H A i j = mmul 2 X (mmul 2 inv (mtr (dw_B n x))) i j).
  { intros i j Hj. unfold H. rewrite mmul_assoc. apply mmul_ext; [reflexivity|]. intros l Hl.
    rewrite mmul_assoc. apply mmul_ext; [reflexivity|]. intros l' Hl'. now apply EB. }
  assert (P1 : mtrace n (mmul n H A) = mtrace 2 (dw_XBQt n x inv)).
  { rewrite (mtrace_ext n _ (mmul 2 X (mmul 2 inv (mtr (dw_B n x))))) by (intros; now apply EHA).
    rewrite mtrace_comm. apply mtrace_ext. intros i _. unfold dw_XBQt. apply mmul_assoc. }
  assert (EP : dw_P n x inv = mtrace n MA).
  { unfold dw_P. rewrite <- P1, <- T1. rewrite <- mtrace_sub. apply mtrace_ext. intros i Hi. now rewrite EMA. }
  assert (EQ : dw_Q n x inv = mtrace n (mmul n MA MA)).
  { assert (E1 : mtrace n (mmul n MA MA) = mtrace n (mmul n A A) - mtrace n (mmul n A (mmul n H A))
                   - mtrace n (mmul n (mmul n H A) A) + mtrace n (mmul n (mmul n H A) (mmul n H A))).
    { set (HA := mmul n H A) in *.
      rewrite (mtrace_ext n _ (fun i j => mmul n A A i j - mmul n A HA i j - mmul n HA A i j + mmul n HA HA i j)).
      - unfold mtrace. now rewrite bigsum_plus, !bigsum_minus.
      - intros i Hi. rewrite (mmul_ext n MA (msub A HA) MA (msub A HA)).
        + rewrite mmul_sub_l, !mmul_sub_r. ring.
        + intros l Hl. now apply EMA.
        + intros l Hl. now apply EMA. }
    rewrite E1. rewrite (mtrace_comm n n A (mmul n H A)).
    assert (E2 : mtrace n (mmul n (mmul n H A) A) = mtrace 2 (mmul 2 inv (mmul n (mtr (dw_B n x)) (dw_B n x)))).
    { rewrite (mtrace_ext n _ (mmul 2 X (mmul n (mmul 2 inv (mtr (dw_B n x))) A))).
      - rewrite mtrace_comm. apply mtrace_ext. intros i Hi. rewrite mmul_assoc.
        rewrite mmul_assoc. apply mmul_ext; [reflexivity|]. intros l Hl.
        apply mmul_ext; [reflexivity|]. intros l' Hl'. unfold A, X. now rewrite C23_B_is_AX.
      - intros i Hi. rewrite (mmul_ext n _ (mmul 2 X (mmul 2 inv (mtr (dw_B n x)))) A A); [apply mmul_assoc| |reflexivity].
        intros l Hl. now apply EHA. }
    assert (E3 : mtrace n (mmul n (mmul n H A) (mmul n H A)) = mtrace 2 (mmul 2 (dw_XBQt n x inv) (dw_XBQt n x inv))).
    { set (G := mmul 2 inv (mtr (dw_B n x))) in *.
      rewrite (mtrace_ext n _ (mmul 2 X (mmul n G (mmul 2 X G)))).
      - rewrite mtrace_comm. apply mtrace_ext. intros i Hi. rewrite mmul_assoc. 
        rewrite (mmul_ext 2 (dw_XBQt n x inv) (mmul n G X) (dw_XBQt n x inv) (mmul n G X)).
        + rewrite mmul_assoc. apply mmul_ext; [reflexivity|]. intros l Hl. apply mmul_assoc.
        + intros l Hl. unfold dw_XBQt, G. symmetry. apply mmul_assoc.
        + intros l Hl. unfold dw_XBQt, G. symmetry. apply mmul_assoc.
      - intros i Hi. rewrite (mmul_ext n _ (mmul 2 X G) (mmul n H A) (mmul 2 X G)).
        + apply mmul_assoc.
        + intros l Hl. now apply EHA.
        + intros l Hl. now apply EHA. }
    unfold dw_Q. rewrite E2, E3, T2. ring. }
  split; [exact EP|]. split; [exact EQ|]. unfold dw_var, dw_mean. rewrite EP, EQ. split; [reflexivity|].
  unfold Rdiv. replace (INR n - 2 + 2) with (INR n) by ring. ring.
Qed.
Print Assumptions C23_mean_and_variance.
Example C23_example : (2 <= length [1%R; 3%R; (-2)%R])%nat /\
  mmul 3 (dw_A 3) (design (fun i => nth i [1; 3; -2] 0)) 1%nat 1%nat = 7 /\ dw_stat [1; 3; -2] = Some (29 / 14).
Proof.
  split; [cbn; lia|]. split.
  - rewrite <- C23_B_is_AX by lia. unfold dw_B. cbn. ring.
  - unfold dw_stat, div, ssq. cbn.
    match goal with |- context [Reqb ?x ?y] => destruct (Reqb_spec x y) end; [exfalso; lra|]. f_equal. field.
Qed.
