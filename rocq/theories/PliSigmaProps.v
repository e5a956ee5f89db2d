(** C74: the standard deviation of the index estimator is the delta method applied to the whole Monte Carlo sample. *)
From Coq Require Import Reals Lra.
From Verif Require Import RealBase LooModel PliModel PliProps.
Local Open Scope R_scope.

(** The index as a function of two probabilities. *)
Definition index (p q : R) : R := match pl_index p q with Some i => i | None => 0 end.
Lemma index_below p q : 0 < q -> q <= p -> index p q = 1 - p / q.
Proof.
  intros Hq H. unfold index, pl_index, qdiv. destruct (Rltb_spec q p) as [L|L].
  - destruct (Reqb_spec q 0); [lra|]. field. lra.
  - assert (E : q = p) by lra. subst q. destruct (Reqb_spec p 0); [lra|]. field. lra.
Qed.
Lemma index_above p q : 0 < p -> p <= q -> index p q = q / p - 1.
Proof.
  intros Hp H. unfold index, pl_index, qdiv. destruct (Rltb_spec q p) as [L|L]; [lra|]. destruct (Reqb_spec p 0); [lra|]. field. lra.
Qed.
(** Gluing of two functions with the same derivative. *)
Lemma glue f g h x l r : 0 < r -> (forall t, Rabs (t - x) < r -> t <= x -> f t = g t) -> (forall t, Rabs (t - x) < r -> x <= t -> f t = h t) ->
  derivable_pt_lim g x l -> derivable_pt_lim h x l -> derivable_pt_lim f x l.
Proof.
  intros Hr Hg Hh Dg Dh eps He. destruct (Dg eps He) as [d1 H1]. destruct (Dh eps He) as [d2 H2].
  assert (Hd : 0 < Rmin r (Rmin d1 d2)) by (repeat apply Rmin_glb_lt; [assumption|apply cond_pos|apply cond_pos]).
  exists (mkposreal _ Hd). cbn. intros k Hk Kk. assert (M1 := Rmin_l r (Rmin d1 d2)). assert (M2 := Rmin_r r (Rmin d1 d2)).
  assert (M3 := Rmin_l d1 d2). assert (M4 := Rmin_r d1 d2).
  assert (Ex : forall t, Rabs (t - t) < r) by (intros t; rewrite Rminus_eq_0, Rabs_R0; assumption).
  assert (Ek : Rabs (x + k - x) < r) by (replace (x + k - x) with k by ring; lra).
  destruct (Rle_dec k 0) as [N|P].
  - rewrite (Hg (x + k)), (Hg x) by (auto; lra). apply H1; [assumption|lra].
  - rewrite (Hh (x + k)), (Hh x) by (auto; lra). apply H2; [assumption|lra].
Qed.
Lemma D_lin a x : derivable_pt_lim (fun t => t / a - 1) x (1 / a).
Proof.
  replace (1 / a) with (1 * / a + x * 0 - 0) by (unfold Rdiv; ring).
  apply (derivable_pt_lim_minus (fun t => t / a) (fun _ => 1)); [|apply derivable_pt_lim_const].
  apply (derivable_pt_lim_mult (fun t => t) (fun _ => / a)); [apply derivable_pt_lim_id|apply derivable_pt_lim_const].
Qed.
Lemma D_inv a x : x <> 0 -> derivable_pt_lim (fun t => a / t) x (- a / (x * x)).
Proof.
  intros Hx. replace (- a / (x * x)) with ((0 * x - 1 * a) / Rsqr x) by (unfold Rsqr; field; assumption).
  apply (derivable_pt_lim_div (fun _ => a) (fun t => t)); [apply derivable_pt_lim_const|apply derivable_pt_lim_id|assumption].
Qed.
Lemma D_opp f x l : derivable_pt_lim f x l -> derivable_pt_lim (fun t => 1 - f t) x (- l).
Proof.
  intros H. replace (- l) with (0 - l) by ring. apply (derivable_pt_lim_minus (fun _ => 1) f); [apply derivable_pt_lim_const|assumption].
Qed.
Lemma D_m1 f x l : derivable_pt_lim f x l -> derivable_pt_lim (fun t => f t - 1) x l.
Proof.
  intros H. replace l with (l - 0) by ring. apply (derivable_pt_lim_minus f (fun _ => 1)); [assumption|apply derivable_pt_lim_const].
Qed.
Lemma D_p1 a x : a <> 0 -> derivable_pt_lim (fun t => 1 - t / a) x (- 1 / a).
Proof.
  intros Ha. replace (- 1 / a) with (- (1 / a)) by (field; assumption).
  assert (H := D_lin a x). apply derivable_pt_lim_opp in H.
  intros eps He. destruct (H eps He) as [d Hd]. exists d. intros h H0 H1. assert (X := Hd h H0 H1). unfold opp_fct in X.
  replace ((1 - (x + h) / a - (1 - x / a)) / h) with ((- ((x + h) / a - 1) - - (x / a - 1)) / h) by (field; auto). exact X.
Qed.

(** The gradient of the index, on both sides of equality. *)
Definition grad_p (p q : R) : R := if Rltb q p then - 1 / q else - q / (p * p).
Definition grad_q (p q : R) : R := if Rltb q p then p / (q * q) else 1 / p.
Lemma near t x r : Rabs (t - x) < r -> x - r < t < x + r.
Proof. intros H. apply Rabs_def2 in H. lra. Qed.
Lemma D_below p q : 0 < q -> derivable_pt_lim (fun t => 1 - p / t) q (p / (q * q)).
Proof. intros Hq. replace (p / (q * q)) with (- (- p / (q * q))) by (field; lra). apply D_opp, D_inv. lra. Qed.
Lemma index_grad_q p q : 0 < p -> 0 < q -> derivable_pt_lim (fun t => index p t) q (grad_q p q).
Proof.
  intros Hp Hq. unfold grad_q. destruct (Rltb_spec q p) as [L|L].
  - assert (Hr : 0 < Rmin q (p - q)) by (apply Rmin_glb_lt; lra). assert (M1 := Rmin_l q (p - q)). assert (M2 := Rmin_r q (p - q)).
    apply (glue _ (fun t => 1 - p / t) (fun t => 1 - p / t) q _ _ Hr); try (now apply D_below);
      intros t Ht _; apply near in Ht; apply index_below; lra.
  - destruct (Req_dec q p) as [->|Hne].
    + apply (glue _ (fun t => 1 - p / t) (fun t => t / p - 1) p _ p Hp).
      * intros t Ht Hle. apply near in Ht. apply index_below; lra.
      * intros t Ht Hle. apply index_above; lra.
      * replace (1 / p) with (p / (p * p)) by (field; lra). now apply D_below.
      * apply D_lin.
    + assert (Hr : 0 < q - p) by lra.
      apply (glue _ (fun t => t / p - 1) (fun t => t / p - 1) q _ _ Hr); try apply D_lin; intros t Ht _; apply near in Ht; apply index_above; lra.
Qed.
Lemma index_grad_p p q : 0 < p -> 0 < q -> derivable_pt_lim (fun t => index t q) p (grad_p p q).
Proof.
  intros Hp Hq. unfold grad_p. destruct (Rltb_spec q p) as [L|L].
  - assert (Hr : 0 < p - q) by lra.
    apply (glue _ (fun t => 1 - t / q) (fun t => 1 - t / q) p _ _ Hr); try (apply D_p1; lra); intros t Ht _; apply near in Ht; apply index_below; lra.
  - destruct (Req_dec q p) as [->|Hne].
    + apply (glue _ (fun t => p / t - 1) (fun t => 1 - t / p) p _ p Hp).
      * intros t Ht Hle. apply near in Ht. apply index_above; lra.
      * intros t Ht Hle. apply index_below; lra.
      * apply D_m1, D_inv. lra.
      * replace (- p / (p * p)) with (- 1 / p) by (field; lra). apply D_p1. lra.
    + assert (Hr : 0 < Rmin p (q - p)) by (apply Rmin_glb_lt; lra). assert (M1 := Rmin_l p (q - p)). assert (M2 := Rmin_r p (q - p)).
      apply (glue _ (fun t => q / t - 1) (fun t => q / t - 1) p _ _ Hr); try (apply D_m1, D_inv; lra); intros t Ht _; apply near in Ht; apply index_above; lra.
Qed.

(** One evaluation of the Monte Carlo sample: the point and the output. *)
Definition fails (o : operator) (t : R) (e : list R * R) : R := if event_holds o t (snd e) then 1 else 0.
Definition weighted (o : operator) (t : R) (pdfs : list (R -> R)) (m : nat) (g : R -> R) (e : list R * R) : R :=
  fails o t e * (perturbedPDF pdfs m g (fst e) / product_pdf pdfs (fst e)).

Lemma mask_sum {P} (o : operator) t (r : P -> R) : forall xs outs, length xs = length outs ->
  Rsum (map r (mask (map (event_holds o t) outs) xs)) = Rsum (map (fun e => (if event_holds o t (snd e) then 1 else 0) * r (fst e)) (combine xs outs)).
Proof.
  induction xs as [|x xs IH]; intros [|y outs] H; try discriminate; [reflexivity|]. cbn [map mask combine]. injection H as H.
  rewrite !Rsum_cons. cbn [fst snd]. rewrite <- (IH outs H). destruct (event_holds o t y); cbn [map]; rewrite ?Rsum_cons; lra.
Qed.
Lemma count_sum (o : operator) t : forall (xs : list (list R)) outs, length xs = length outs ->
  INR (countb (event_holds o t) outs) = Rsum (map (fails o t) (combine xs outs)).
Proof.
  induction xs as [|x xs IH]; intros [|y outs] H; try discriminate; [reflexivity|]. injection H as H. rewrite countb_cons. cbn [map combine]. rewrite Rsum_cons.
  unfold fails at 1. cbn [snd]. rewrite <- (IH outs H). destruct (event_holds o t y); [rewrite plus_INR; cbn; lra|cbn; lra].
Qed.

(** C74. The variance that makes the standard deviation is the empirical variance, over the whole sample, of the linearised index. *)
Theorem C74_delta_method :
  forall o threshold xs outs pdfs marginal perturbed cell,
    o = Less \/ o = Greater -> length xs = length outs -> outs <> [] ->
    (forall x, In x xs -> product_pdf pdfs x <> 0) ->
    let pf := mc_probability o threshold outs in
    let pfd := c_pfdelta cell in
    0 < pf -> 0 < pfd ->
    pli_run o threshold xs outs pdfs marginal perturbed = Ok cell ->
    let sample := combine xs outs in
    exists g0 g1,
      derivable_pt_lim (fun p => index p pfd) pf g0 /\ derivable_pt_lim (fun q => index pf q) pfd g1 /\
      pf = Rmean (map (fails o threshold) sample) /\ pfd = Rmean (map (weighted o threshold pdfs marginal perturbed) sample) /\
      c_index cell = index pf pfd /\
      let V := Rmean (map (fun e => let z := g0 * (fails o threshold e - pf) + g1 * (weighted o threshold pdfs marginal perturbed e - pfd) in z * z) sample) in
      (V = 0 -> c_sigma cell = 1 / 10 ^ 30) /\ (V <> 0 -> c_sigma cell * c_sigma cell * INR (length sample) = V /\ 0 <= c_sigma cell).
Proof.
  intros o t xs outs pdfs m g cell Ho Hl Hne Hpdf pf pfd Hpf Hpfd Hrun sample.
  exists (grad_p pf pfd), (grad_q pf pfd). split; [now apply index_grad_p|]. split; [now apply index_grad_q|].
  set (w := weighted o t pdfs m g). set (r := fun x => perturbedPDF pdfs m g x / product_pdf pdfs x).
  assert (LS : length sample = length outs) by (unfold sample; rewrite combine_length; lia).
  assert (PN : 0 < INR (length outs)) by (apply INR_pos; destruct outs; [contradiction|cbn; lia]).
  assert (E1 : pf = Rmean (map (fails o t) sample)).
  { unfold pf, mc_probability, Rmean. rewrite map_length, LS. now rewrite (count_sum o t xs outs Hl). }
  unfold pli_run in Hrun. rewrite failureSample_ok in Hrun by (auto; destruct Ho; congruence). cbn [bind] in Hrun.
  assert (Es : map (strict o t) outs = map (event_holds o t) outs) by (destruct Ho as [-> | ->]; reflexivity). rewrite Es in Hrun.
  set (fail := mask (map (event_holds o t) outs) xs) in *.
  assert (Hin : forall x, In x fail -> In x xs).
  { unfold fail. clear. revert xs. induction outs as [|y outs IH]; intros [|x xs] z Hz; cbn in *; try contradiction.
    destruct (event_holds o t y); [destruct Hz as [->|Hz]; [now left|]|]; right; now apply IH. }
  assert (A : all_some (map (likelihood_ratio pdfs m g) fail) = Some (map r fail)).
  { apply all_some_spec. rewrite map_map. apply map_ext_in. intros x Hx. assert (P1 := Hpdf x (Hin x Hx)). unfold likelihood_ratio, qdiv.
    destruct (Reqb_spec (product_pdf pdfs x) 0); [contradiction|reflexivity]. }
  destruct (Nat.eqb (length fail) 0); [discriminate|]. unfold pli_one in Hrun. rewrite A in Hrun. fold pf in Hrun.
  set (N := length outs) in *.
  assert (S1 : pfdelta N (map r fail) = Rmean (map w sample)).
  { unfold pfdelta, Rmean. rewrite map_length, LS. unfold fail. rewrite (mask_sum o t r xs outs Hl). fold sample. unfold w, weighted, fails, r. field. lra. }
  set (v := varPfdelta N (map r fail)) in *.
  assert (S2 : v = Rmean (map (fun e => w e * w e) sample) - Rmean (map w sample) * Rmean (map w sample)).
  { unfold v, varPfdelta. rewrite S1. f_equal. rewrite map_map. unfold fail. rewrite (mask_sum o t (fun x => r x * r x) xs outs Hl). fold sample.
    unfold Rmean. rewrite map_length, LS. fold N.
    assert (Q : Rsum (map (fun e : list R * R => (if event_holds o t (snd e) then 1 else 0) * (r (fst e) * r (fst e))) sample) = Rsum (map (fun e => w e * w e) sample)).
    { apply Rsum_ext. intros e _. unfold w, weighted, fails. fold (r (fst e)). destruct (event_holds o t (snd e)); ring. }
    rewrite Q. field. lra. }
  destruct (sigma_of N (estimator_var pf (pfdelta N (map r fail)) v)) as [sg|ex] eqn:Esg; [|discriminate]. cbn [bind] in Hrun.
  destruct (pl_index pf (pfdelta N (map r fail))) as [ix|] eqn:Eix; [|discriminate].
  assert (Hc : c_pfdelta cell = pfdelta N (map r fail) /\ c_index cell = ix /\ c_sigma cell = sg).
  { apply (f_equal (fun c => match c with Ok x => x | Raise _ => cell end)) in Hrun. rewrite <- Hrun. cbn. auto. }
  destruct Hc as (C1 & C2 & C3). rewrite <- C1 in *. fold pfd in Esg, Eix, S1.
  split; [exact E1|]. split; [exact S1|]. split; [rewrite C2; unfold index; now rewrite Eix|].
  set (V := Rmean _). rewrite C3.
  assert (EV : estimator_var pf pfd v = Some V).
  { assert (Hf : forall e, fails o t e * fails o t e = fails o t e) by (intros e; unfold fails; destruct (event_holds o t (snd e)); ring).
    assert (Hfw : forall e, fails o t e * w e = w e) by (intros e; unfold w, weighted; rewrite <- Rmult_assoc, Hf; reflexivity).
    assert (G : forall a b, Rmean (map (fun e => (a * (fails o t e - pf) + b * (w e - pfd)) * (a * (fails o t e - pf) + b * (w e - pfd))) sample)
      = a * (pf * (1 - pf) * a + pfd * (1 - pf) * b) + b * (pfd * (1 - pf) * a + v * b)).
    { intros a b. unfold Rmean. rewrite map_length, LS. fold N.
      assert (Q : Rsum (map (fun e => (a * (fails o t e - pf) + b * (w e - pfd)) * (a * (fails o t e - pf) + b * (w e - pfd))) sample)
        = (a * a + 2 * a * b * 0 - 2 * a * (a * pf + b * pfd)) * Rsum (map (fails o t) sample)
          + (2 * a * b - 2 * b * (a * pf + b * pfd)) * Rsum (map w sample) + b * b * Rsum (map (fun e => w e * w e) sample) + INR N * ((a * pf + b * pfd) * (a * pf + b * pfd))).
      { rewrite <- LS. rewrite <- (Rsum_const ((a * pf + b * pfd) * (a * pf + b * pfd)) sample). rewrite <- !Rsum_scal, <- !Rsum_plus. apply Rsum_ext. intros e _.
        replace ((a * (fails o t e - pf) + b * (w e - pfd)) * (a * (fails o t e - pf) + b * (w e - pfd)))
          with (a * a * (fails o t e * fails o t e) + 2 * a * b * (fails o t e * w e) + b * b * (w e * w e) - 2 * (a * pf + b * pfd) * (a * fails o t e + b * w e) + (a * pf + b * pfd) * (a * pf + b * pfd)) by ring.
        rewrite Hf, Hfw. ring. }
      rewrite Q. rewrite S2, <- S1.
      assert (R1 : Rsum (map (fails o t) sample) = INR N * pf) by (rewrite E1; unfold Rmean; rewrite map_length, LS; fold N; field; lra).
      assert (R2 : Rsum (map w sample) = INR N * pfd) by (rewrite S1; unfold Rmean; rewrite map_length, LS; fold N; field; lra).
      assert (R3 : Rmean (map (fun e => w e * w e) sample) = Rsum (map (fun e => w e * w e) sample) / INR N) by (unfold Rmean; now rewrite map_length, LS).
      rewrite R1, R2, R3. field. lra. }
    unfold V. fold w. cbv zeta. rewrite (G (grad_p pf pfd) (grad_q pf pfd)). unfold estimator_var, grad_p, grad_q. destruct (Rltb_spec pfd pf).
    - destruct (Reqb_spec pfd 0); [lra|]. reflexivity.
    - destruct (Reqb_spec pf 0); [lra|]. reflexivity. }
  assert (V0 : 0 <= V).
  { unfold V, Rmean. apply Rmult_le_pos; [|left; apply Rinv_0_lt_compat; rewrite map_length, LS; exact PN].
    apply (Rsum_sqr_nonneg (fun e => grad_p pf pfd * (fails o t e - pf) + grad_q pf pfd * (w e - pfd))). }
  rewrite EV in Esg. unfold sigma_of in Esg. destruct (Rltb_spec V 0); [lra|]. rewrite andb_false_r in Esg. cbn [orb] in Esg.
  rewrite LS. fold N. split.
  - intros Z. destruct (Reqb_spec V 0); [|contradiction]. now injection Esg.
  - intros Z. destruct (Reqb_spec V 0); [contradiction|]. injection Esg as <-. split; [|apply sqrt_pos].
    rewrite sqrt_sqrt; [field; lra|]. apply Rmult_le_pos; [lra|]. left. apply Rinv_0_lt_compat. exact PN.
Qed.
Print Assumptions C74_delta_method.
(** Three evaluations, two failures with likelihood ratios 2 and 3: the hypotheses hold. *)
Example C74_example :
  let f := fun _ : R => 1 in let g := fun v => v + 2 in
  length [[0]; [1]; [2]] = length [6; 6; 4] /\ (forall x, In x [[0]; [1]; [2]] -> product_pdf [f] x <> 0) /\
  0 < mc_probability Greater 5 [6; 6; 4] /\
  exists cell, pli_run Greater 5 [[0]; [1]; [2]] [6; 6; 4] [f] 0 g = Ok cell /\ 0 < c_pfdelta cell.
Proof.
  intros f g. split; [reflexivity|]. split; [intros x [<-|[<-|[<-|[]]]]; cbn; unfold f; lra|]. split.
  - unfold mc_probability, countb. cbn [filter event_holds length]. destruct (Rltb_spec 5 6); [|lra]. destruct (Rltb_spec 5 4); [lra|]. cbn. lra.
  - destruct (C52_interval_exists Greater 5 [[0]; [1]; [2]] [6; 6; 4] [f] 0 g) as (cell & H1 & H2 & _); try discriminate; [reflexivity| | |eauto].
    + exists 6. split; [now left|]. apply Rltb_true. lra.
    + intros x [<-|[<-|[<-|[]]]]; unfold perturbedPDF; cbn; unfold f, g; lra.
Qed.
