(** Contract of the scalar root solver used by the code (ot.Brent().solve(f, value, lo, hi), an external library) and a
    concrete solver (bisection) that satisfies it.  Idealisation: the root is exact, Brent's is within its tolerances. *)
From Coq Require Import Reals Lra.
From Verif Require Import RealBase.
Local Open Scope R_scope.

Definition solver := (R -> R) -> R -> R -> R -> res R.

(** Continuity on the interval [lo, hi]. *)
Definition cont_on (f : R -> R) (lo hi : R) : Prop :=
  forall x eps, lo <= x <= hi -> 0 < eps ->
    exists d, 0 < d /\ forall y, lo <= y <= hi -> Rabs (y - x) < d -> Rabs (f y - f x) < eps.
(** The solver raises when the values at the two ends are strictly on the same side, and otherwise returns a root. *)
Definition solver_spec (solve : solver) : Prop :=
  forall f v lo hi, lo <= hi -> cont_on f lo hi ->
    (((f lo - v) * (f hi - v) <= 0) -> exists x, solve f v lo hi = Ok x /\ lo <= x <= hi /\ f x = v) /\
    (0 < (f lo - v) * (f hi - v) -> exists e, solve f v lo hi = Raise e).

Lemma continuity_cont_on f lo hi : continuity f -> cont_on f lo hi.
Proof.
  intros Hc x eps Hx He. destruct (Hc x eps He) as [d [Hd H]]. exists d. split; [exact Hd|].
  intros y Hy Hyx. destruct (Req_dec x y) as [->|Hne].
  - unfold Rminus. rewrite Rplus_opp_r, Rabs_R0. exact He.
  - apply (H y). split; [split; [exact I|exact Hne]|exact Hyx].
Qed.
Lemma cont_on_sub f lo hi a b : cont_on f lo hi -> lo <= a -> b <= hi -> cont_on f a b.
Proof.
  intros Hc Ha Hb x eps Hx He. destruct (Hc x eps ltac:(lra) He) as [d [Hd H]]. exists d. split; [exact Hd|].
  intros y Hy. apply H. lra.
Qed.
Lemma lipschitz_cont_on f lo hi K : (forall x y, lo <= x <= hi -> lo <= y <= hi -> Rabs (f y - f x) <= K * Rabs (y - x)) ->
  cont_on f lo hi.
Proof.
  intros HK x eps Hx He. exists (eps / (Rabs K + 1)).
  assert (HA := Rabs_pos K). split; [apply Rdiv_lt_0_compat; lra|].
  intros y Hy Hyx. eapply Rle_lt_trans; [apply HK; assumption|].
  apply Rle_lt_trans with ((Rabs K + 1) * Rabs (y - x)).
  - apply Rmult_le_compat_r; [apply Rabs_pos|]. assert (G := Rle_abs K). lra.
  - apply Rlt_le_trans with ((Rabs K + 1) * (eps / (Rabs K + 1))); [apply Rmult_lt_compat_l; lra|].
    right. field. lra.
Qed.

(** Bisection on the sign test P (true: the value is on the right side). *)
Definition bisect (f : R -> R) (lo hi : R) (H : lo <= hi) : R :=
  proj1_sig (dicho_up_cv lo hi (fun z => Rleb 0 (f z)) H).
Lemma dicho_lb_spec (P : R -> bool) lo hi : P lo = false -> forall n, P (dicho_lb lo hi P n) = false.
Proof.
  intros H n. induction n as [|n IH]; cbn; [exact H|].
  destruct (P ((Dichotomy_lb lo hi P n + Dichotomy_ub lo hi P n) / 2)) eqn:E; [exact IH|exact E].
Qed.
Lemma dicho_up_spec (P : R -> bool) lo hi : P hi = true -> forall n, P (dicho_up lo hi P n) = true.
Proof.
  intros H n. induction n as [|n IH]; cbn; [exact H|].
  destruct (P ((Dichotomy_lb lo hi P n + Dichotomy_ub lo hi P n) / 2)) eqn:E; [exact E|exact IH].
Qed.
Lemma dicho_lb_in P lo hi n : lo <= hi -> lo <= dicho_lb lo hi P n <= hi.
Proof.
  intros H. split.
  - assert (G := tech9 _ (dicho_lb_growing lo hi P H) 0 n ltac:(lia)). exact G.
  - eapply Rle_trans; [apply dicho_comp; exact H|]. 
    assert (G := decreasing_prop _ 0 n (dicho_up_decreasing lo hi P H) ltac:(lia)). exact G.
Qed.
Lemma dicho_up_in P lo hi n : lo <= hi -> lo <= dicho_up lo hi P n <= hi.
Proof.
  intros H. split.
  - eapply Rle_trans; [apply (dicho_lb_in P lo hi n H)|]. apply dicho_comp, H.
  - assert (G := decreasing_prop _ 0 n (dicho_up_decreasing lo hi P H) ltac:(lia)). exact G.
Qed.
Lemma cv_in (u : nat -> R) l lo hi : Un_cv u l -> (forall n, lo <= u n <= hi) -> lo <= l <= hi.
Proof.
  intros Hu Hb. split.
  - destruct (Rle_dec lo l) as [|Hn]; [assumption|]. exfalso.
    destruct (Hu (lo - l) ltac:(lra)) as [N HN]. assert (G := HN N ltac:(lia)). unfold R_dist in G.
    assert (B := Hb N). rewrite Rabs_right in G by lra. lra.
  - destruct (Rle_dec l hi) as [|Hn]; [assumption|]. exfalso.
    destruct (Hu (l - hi) ltac:(lra)) as [N HN]. assert (G := HN N ltac:(lia)). unfold R_dist in G.
    assert (B := Hb N). rewrite Rabs_left in G by lra. lra.
Qed.
Lemma cont_on_cv f lo hi u l : cont_on f lo hi -> (forall n, lo <= u n <= hi) -> Un_cv u l -> Un_cv (fun n => f (u n)) (f l).
Proof.
  intros Hc Hb Hu eps He. assert (Hl := cv_in u l lo hi Hu Hb).
  destruct (Hc l eps Hl He) as [d [Hd H]]. destruct (Hu d Hd) as [N HN]. exists N. intros n Hn.
  apply H; [apply Hb|]. now apply HN.
Qed.
Lemma bisect_spec f lo hi (H : lo <= hi) : cont_on f lo hi -> f lo < 0 -> 0 <= f hi ->
  lo <= bisect f lo hi H <= hi /\ f (bisect f lo hi H) = 0.
Proof.
  intros Hc H0 H1. unfold bisect. destruct (dicho_up_cv lo hi _ H) as [l Hl]. cbn [proj1_sig].
  set (P := fun z => Rleb 0 (f z)) in *.
  assert (Plo : P lo = false) by (apply Rleb_false; exact H0).
  assert (Phi : P hi = true) by (apply Rleb_true; exact H1).
  split; [apply (cv_in _ _ _ _ Hl); intros n; now apply dicho_up_in|].
  destruct (dicho_lb_cv lo hi P H) as [l' Hl'].
  assert (E : l' = l) by (apply (cv_dicho lo hi l' l P H); assumption). subst l'.
  assert (C1 := cont_on_cv f lo hi _ l Hc (fun n => dicho_lb_in P lo hi n H) Hl').
  assert (C2 := cont_on_cv f lo hi _ l Hc (fun n => dicho_up_in P lo hi n H) Hl).
  apply Rle_antisym.
  - destruct (Rle_dec (f l) 0) as [|Hn]; [assumption|]. exfalso.
    destruct (C1 (f l) ltac:(lra)) as [N HN]. assert (G := HN N ltac:(lia)). unfold R_dist in G.
    assert (B := dicho_lb_spec P lo hi Plo N). apply Rleb_false in B. rewrite Rabs_left in G by lra. lra.
  - destruct (Rle_dec 0 (f l)) as [|Hn]; [assumption|]. exfalso.
    destruct (C2 (- f l) ltac:(lra)) as [N HN]. assert (G := HN N ltac:(lia)). unfold R_dist in G.
    assert (B := dicho_up_spec P lo hi Phi N). apply Rleb_true in B. rewrite Rabs_right in G by lra. lra.
Qed.

(** The concrete solver. *)
Definition bisection : solver := fun f v lo hi =>
  match Rle_dec lo hi with
  | right _ => Raise GenericException
  | left H =>
    if Rltb 0 ((f lo - v) * (f hi - v)) then Raise GenericException
    else if Reqb (f lo) v then Ok lo
    else if Rltb (f lo) v then Ok (bisect (fun x => f x - v) lo hi H)
    else Ok (bisect (fun x => v - f x) lo hi H)
  end.
Lemma bisection_spec : solver_spec bisection.
Proof.
  intros f v lo hi Hle Hc. unfold bisection. destruct (Rle_dec lo hi) as [H|]; [|lra].
  destruct (Rltb_spec 0 ((f lo - v) * (f hi - v))) as [Hp|Hp]; [split; [lra|eauto]|]. split; [|lra]. intros _.
  destruct (Reqb_spec (f lo) v) as [E|E]; [exists lo; repeat split; auto; lra|].
  destruct (Rltb_spec (f lo) v) as [L|L].
  - destruct (bisect_spec (fun x => f x - v) lo hi H) as [B1 B2].
    + intros x eps Hx He. destruct (Hc x eps Hx He) as [d [Hd G]]. exists d. split; [exact Hd|].
      intros y Hy Hyx. replace (f y - v - (f x - v)) with (f y - f x) by ring. now apply G.
    + lra.
    + destruct (Rle_dec 0 (f hi - v)) as [|Hn]; [assumption|]. exfalso. apply Hp. nra.
    + eexists. split; [reflexivity|]. split; [exact B1|]. lra.
  - destruct (bisect_spec (fun x => v - f x) lo hi H) as [B1 B2].
    + intros x eps Hx He. destruct (Hc x eps Hx He) as [d [Hd G]]. exists d. split; [exact Hd|].
      intros y Hy Hyx. replace (v - f y - (v - f x)) with (- (f y - f x)) by ring. rewrite Rabs_Ropp. now apply G.
    + lra.
    + destruct (Rle_dec 0 (v - f hi)) as [|Hn]; [assumption|]. exfalso. apply Hp. nra.
    + eexists. split; [reflexivity|]. split; [exact B1|]. lra.
Qed.
