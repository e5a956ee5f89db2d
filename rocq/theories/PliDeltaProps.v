(** C51 (locality), C53, C55, C67: deltas of the perturbation law indices and abscissas of their graph. *)
From Verif Require Import RealBase LooModel PliModel.
Local Open Scope R_scope.

(** *** C51: the likelihood ratio only involves the perturbed parameter *)
Lemma product_replace pdfs m g f v x : nth_error pdfs m = Some f -> nth_error x m = Some v ->
  product_pdf (replace_nth m g pdfs) x * f v = product_pdf pdfs x * g v.
Proof.
  revert pdfs x. induction m as [|m IH]; intros [|f0 pdfs] [|v0 x] Hf Hv; try discriminate; cbn in *.
  - injection Hf as <-. injection Hv as <-. ring.
  - rewrite Rmult_assoc, (IH pdfs x Hf Hv). ring.
Qed.
Theorem C51_ratio_of_one_parameter :
  forall pdfs marginal perturbed f x v, nth_error pdfs marginal = Some f -> nth_error x marginal = Some v ->
  product_pdf pdfs x <> 0 -> f v <> 0 ->
  likelihood_ratio pdfs marginal perturbed x = Some (perturbed v / f v).
Proof.
  intros pdfs m g f x v Hf Hv Hp H0. unfold likelihood_ratio, qdiv. destruct (Reqb_spec (product_pdf pdfs x) 0) as [Z|Z]; [contradiction|].
  f_equal. apply (Rmult_eq_reg_r (product_pdf pdfs x * f v)); [|now apply Rmult_integral_contrapositive_currified].
  unfold perturbedPDF. assert (E := product_replace pdfs m g f v x Hf Hv).
  replace (product_pdf (replace_nth m g pdfs) x / product_pdf pdfs x * (product_pdf pdfs x * f v)) with (product_pdf (replace_nth m g pdfs) x * f v) by (field; assumption).
  rewrite E. field. assumption.
Qed.
Example C51_ratio_example : likelihood_ratio [(fun _ => 2); (fun t => t)] 1 (fun t => t + 1) [7; 3] = Some (4 / 3).
Proof. replace (4 / 3) with ((3 + 1) / 3) by field. apply (C51_ratio_of_one_parameter [(fun _ => 2); (fun t => t)] 1 (fun t => t + 1) (fun t => t) [7; 3] 3); cbn; try reflexivity; lra. Qed.

(** *** C53 *)
(** A vector of deltas: row i is delta i repeated for all the parameters. *)
Theorem C53_vector :
  forall dim l, l <> [] ->
  exists v, pli_deltas dim (D1 l) = Ok v /\ length v = length l /\
  forall i d, nth_error l i = Some d -> exists row, nth_error v i = Some row /\ length row = dim /\ forall j, (j < dim)%nat -> nth_error row j = Some d.
Proof.
  intros dim l Hl. destruct l as [|x l]; [contradiction|]. eexists. split.
  { unfold pli_deltas, vstack. cbn [bind Nat.eqb negb andb]. reflexivity. }
  rewrite !map_length. split; [reflexivity|]. intros i d Hi. exists (repeat d dim). rewrite nth_error_map, nth_error_map, Hi. cbn.
  split; [reflexivity|]. split; [apply repeat_length|]. intros j Hj. rewrite nth_error_repeat by assumption. reflexivity.
Qed.
(** A matrix: accepted iff it has one column (then treated as a vector) or one column per parameter (then used as it is). *)
Theorem C53_matrix :
  forall dim c rows, rows <> [] -> (forall row, In row rows -> length row = c) ->
  (c = 1%nat -> exists l, rows = map (fun x => [x]) l /\ pli_deltas dim (D2 c rows) = pli_deltas dim (D1 l)) /\
  (c <> 1%nat -> c = dim -> pli_deltas dim (D2 c rows) = Ok rows) /\
  (c <> 1%nat -> c <> dim -> pli_deltas dim (D2 c rows) = Raise AttributeError).
Proof.
  intros dim c rows Hr Hc. destruct rows as [|r rows]; [contradiction|]. split; [|split].
  - intros ->. exists (map (fun row => nth 0 row 0) (r :: rows)).
    assert (E : r :: rows = map (fun x => [x]) (map (fun row => nth 0 row 0) (r :: rows))).
    { rewrite map_map. rewrite <- (map_id (r :: rows)) at 1. apply map_ext_in. intros row Hrow. specialize (Hc row Hrow).
      destruct row as [|x [|y t]]; cbn in *; try lia. reflexivity. }
    split; [exact E|]. set (l := map (fun row => nth 0 row 0) (r :: rows)) in *. rewrite E. unfold pli_deltas, vstack. unfold l. cbn [map bind Nat.eqb negb andb]. reflexivity.
  - intros N ->. unfold pli_deltas, vstack. cbn [bind]. rewrite Nat.eqb_refl. apply Nat.eqb_neq in N. rewrite N. reflexivity.
  - intros N M. unfold pli_deltas, vstack. cbn [bind]. apply Nat.eqb_neq in N. apply Nat.eqb_neq in M. rewrite N, M. reflexivity.
Qed.
Theorem C53_rejected :
  forall dim, (forall x, pli_deltas dim (D0 x) = Raise TypeError) /\ pli_deltas dim (D1 []) = Raise ValueError /\
  forall c, pli_deltas dim (D2 c []) = Raise ValueError /\ pli_deltas dim (D3 c []) = Raise ValueError.
Proof. intros dim. repeat split. Qed.
(** Every accepted delta array has one column per parameter. *)
Theorem C53_one_column_per_parameter :
  forall dim d v, (forall c rows, d = D2 c rows -> forall row, In row rows -> length row = c) ->
  (forall c l, d = D3 c l -> forall m row, In m l -> In row m -> length row = c) ->
  pli_deltas dim d = Ok v -> forall row, In row v -> length row = dim.
Proof.
  intros dim d v H2 H3 E row Hrow. unfold pli_deltas in E. destruct (vstack d) as [[c rows]|] eqn:V; [|discriminate]. cbn [bind] in E.
  assert (W : forall r, In r rows -> length r = c).
  { destruct d as [x|l|c' rows'|c' l]; cbn in V.
    - discriminate.
    - destruct l; [discriminate|]. injection V as <- <-. intros r1 [<-|Hr]; [reflexivity|]. apply in_map_iff in Hr. destruct Hr as (z & <- & _). reflexivity.
    - destruct rows' as [|r0 rows']; [discriminate|]. injection V as <- <-. intros r Hr. eapply H2; eauto.
    - destruct l as [|m l]; [discriminate|]. injection V as <- <-. intros r Hr. apply (in_concat (m :: l) r) in Hr. destruct Hr as (m0 & Hm & Hr). eapply H3; eauto. }
  destruct (Nat.eqb_spec c 1) as [->|N1]; cbn [negb andb] in E.
  - injection E as <-. apply in_map_iff in Hrow. destruct Hrow as (r & <- & _). apply repeat_length.
  - destruct (Nat.eqb_spec c dim) as [->|N2]; cbn [negb] in E; [|discriminate]. injection E as <-. now apply W.
Qed.
(** Finding: a three dimensional array is not rejected: its matrices are stacked. *)
Theorem C53_three_dimensional_accepted_refuted :
  exists dim d v, (exists c l, d = D3 c l) /\ pli_deltas dim d = Ok v /\ length v = 4%nat.
Proof. exists 2%nat, (D3 2 [[[1; 2]; [3; 4]]; [[5; 6]; [7; 8]]]). eexists. split; [eauto|]. split; [reflexivity|reflexivity]. Qed.
Example C53_example : pli_deltas 3 (D1 [5; 6]) = Ok [[5; 5; 5]; [6; 6; 6]] /\ pli_deltas 2 (D2 2 [[1; 2]; [3; 4]]) = Ok [[1; 2]; [3; 4]] /\
  pli_deltas 3 (D2 2 [[1; 2]]) = Raise AttributeError.
Proof. repeat split. Qed.

(** *** C55 *)
Lemma nth_error_combine {A B} (l1 : list A) (l2 : list B) i a b : nth_error l1 i = Some a -> nth_error l2 i = Some b -> nth_error (combine l1 l2) i = Some (a, b).
Proof.
  revert l1 l2. induction i as [|i IH]; intros [|x l1] [|y l2] H1 H2; try discriminate; cbn in *; [congruence|now apply IH].
Qed.
Lemma nth_error_map3 {A B C D} (f : A -> B -> C -> D) l1 l2 l3 i a b c : nth_error l1 i = Some a -> nth_error l2 i = Some b -> nth_error l3 i = Some c ->
  nth_error (map3 f l1 l2 l3) i = Some (f a b c).
Proof. intros H1 H2 H3. unfold map3. rewrite nth_error_map, (nth_error_combine l1 (combine l2 l3) i a (b, c)); auto using nth_error_combine. Qed.
(** [entry v i j] is the delta of row i and parameter j. *)
Definition entry (v : list (list R)) (i j : nat) : option R := match nth_error v i with Some row => nth_error row j | None => None end.
Theorem C55_mean_conversion :
  forall dim means stds sigmaScaled d v, pli_deltas dim d = Ok v ->
  exists w, mean_deltas dim means stds sigmaScaled d = Ok w /\
  (sigmaScaled = false -> w = v) /\
  (sigmaScaled = true -> forall i j x m s, entry v i j = Some x -> nth_error means j = Some m -> nth_error stds j = Some s ->
     entry w i j = Some (m + s * x) /\ (x = 0 -> entry w i j = Some m)).
Proof.
  intros dim means stds b d v E. unfold mean_deltas. rewrite E. cbn [bind]. eexists. split; [reflexivity|]. split; [intros ->; reflexivity|].
  intros -> i j x m s Hx Hm Hs. unfold entry in *. rewrite nth_error_map. destruct (nth_error v i) as [row|]; [|discriminate]. cbn [option_map].
  rewrite (nth_error_map3 _ row means stds j x m s) by assumption. split; [f_equal; ring|intros ->; f_equal; ring].
Qed.
Theorem C55_variance_rejected :
  forall dim means stds covScaled d v, pli_deltas dim d = Ok v ->
  (variance_deltas dim means stds covScaled d = Raise AttributeError <->
   covScaled = false /\ exists i j x, entry v i j = Some x /\ x <= 0) /\
  (forall e, variance_deltas dim means stds covScaled d = Raise e -> e = AttributeError).
Proof.
  intros dim means stds b d v E. unfold variance_deltas. rewrite E. cbn [bind].
  assert (W : forallb (forallb (Rltb 0)) v = false <-> exists i j x, entry v i j = Some x /\ x <= 0).
  { split.
    - intros F. assert (X : exists row, In row v /\ forallb (Rltb 0) row = false).
      { clear E. induction v as [|r v IH]; [discriminate|]. cbn in F. apply andb_false_iff in F. destruct F as [F|F]; [exists r; split; [now left|assumption]|].
        destruct (IH F) as (row & H1 & H2). exists row. split; [now right|assumption]. }
      destruct X as (row & Hr & F2). assert (X : exists x, In x row /\ Rltb 0 x = false).
      { clear Hr. induction row as [|x row IH]; [discriminate|]. cbn in F2. apply andb_false_iff in F2. destruct F2 as [F2|F2]; [exists x; split; [now left|assumption]|].
        destruct (IH F2) as (z & H1 & H2). exists z. split; [now right|assumption]. }
      destruct X as (x & Hx & Hl). apply In_nth_error in Hr. destruct Hr as [i Hi]. apply In_nth_error in Hx. destruct Hx as [j Hj].
      exists i, j, x. unfold entry. rewrite Hi. split; [assumption|]. destruct (Rltb_spec 0 x); [discriminate|lra].
    - intros (i & j & x & He & Hx). unfold entry in He. destruct (nth_error v i) as [row|] eqn:Hi; [|discriminate].
      destruct (forallb (forallb (Rltb 0)) v) eqn:F; [|reflexivity]. rewrite forallb_forall in F. specialize (F row (nth_error_In _ _ Hi)).
      rewrite forallb_forall in F. specialize (F x (nth_error_In _ _ He)). destruct (Rltb_spec 0 x); [lra|discriminate]. }
  destruct (forallb (forallb (Rltb 0)) v) eqn:F; cbn [negb andb].
  - split; [split; [discriminate|]|discriminate]. intros [_ H]. apply W in H. discriminate.
  - destruct b; cbn [negb andb].
    + split; [split; [discriminate|intros [? _]; discriminate]|discriminate].
    + split; [split; [intros _; split; [reflexivity|now apply W]|reflexivity]|intros e He; congruence].
Qed.
Theorem C55_variance_conversion :
  forall dim means stds covScaled d v w, pli_deltas dim d = Ok v -> variance_deltas dim means stds covScaled d = Ok w ->
  (covScaled = false -> w = v) /\
  (covScaled = true -> forall i j x m s, entry v i j = Some x -> nth_error means j = Some m -> nth_error stds j = Some s ->
     (* the new standard deviation, divided by the mean, is the coefficient of variation plus delta *)
     exists y, entry w i j = Some (y * y) /\ (m <> 0 -> y / m = s / m + x) /\
     (* no perturbation for delta 0; finding: nor for any delta when the mean is 0 *)
     (x = 0 \/ m = 0 -> entry w i j = Some (s * s))).
Proof.
  intros dim means stds b d v w E. unfold variance_deltas. rewrite E. cbn [bind].
  destruct (negb (forallb (forallb (Rltb 0)) v) && negb b) eqn:F; [discriminate|]. intros [= <-]. split; [intros ->; reflexivity|].
  intros -> i j x m s Hx Hm Hs. unfold entry in *. rewrite nth_error_map. destruct (nth_error v i) as [row|]; [|discriminate]. cbn [option_map].
  rewrite (nth_error_map3 _ row means stds j x m s) by assumption. exists (x * m + s). split; [reflexivity|]. split; [intros; field; assumption|].
  intros [->| ->]; f_equal; ring.
Qed.
(** Finding: the documentation of PLIVariance announces variance times delta. *)
Theorem C55_documented_variance_refuted :
  exists dim means stds d v w x s, pli_deltas dim d = Ok v /\ variance_deltas dim means stds true d = Ok w /\
  entry v 0 0 = Some x /\ nth_error stds 0 = Some s /\ entry w 0 0 <> Some (s * s * x).
Proof.
  exists 1%nat, [3], [2], (D1 [1]), [[1]]. eexists. exists 1, 2. split; [reflexivity|]. split; [unfold variance_deltas; replace (pli_deltas 1 (D1 [1])) with (Ok [[1]]) by reflexivity; cbn [bind negb]; rewrite andb_false_r; reflexivity|].
  split; [reflexivity|]. split; [reflexivity|]. cbn. intros [= H]. lra.
Qed.
Example C55_example :
  mean_deltas 2 [10; 20] [1; 2] true (D1 [3]) = Ok [[3 * 1 + 10; 3 * 2 + 20]] /\
  variance_deltas 2 [10; 20] [1; 2] false (D1 [-1]) = Raise AttributeError.
Proof.
  split; [reflexivity|]. unfold variance_deltas. replace (pli_deltas 2 (D1 [-1])) with (Ok [[-1; -1]]) by reflexivity. cbn [bind forallb]. destruct (Rltb_spec 0 (-1)); [lra|reflexivity].
Qed.

(** *** C67 *)
(** Deltas given as a vector and drawn against their own values: every index is drawn at its own delta. *)
Theorem C67_vector :
  forall integer l h below indices, length indices = length l ->
  draw_marginal integer false (map (fun x => [x]) l) h below indices = Ok (combine l indices).
Proof.
  intros integer l h below indices Hl. unfold draw_marginal, abscissas, hstack_rows.
  assert (E : concat (map (fun x : R => [x]) l) = l) by (induction l as [|x l IH] in |- *; cbn; [reflexivity|now rewrite IH]).
  rewrite E, Hl, Nat.eqb_refl. reflexivity.
Qed.
(** Against the Hellinger values: index i is at the value of delta i, on the left when the delta is below the original moment. *)
Theorem C67_hellinger :
  forall l h below indices, length indices = length l ->
  exists pts, draw_marginal false true (map (fun x => [x]) l) h below indices = Ok pts /\ length pts = length l /\
  forall i y, nth_error indices i = Some y -> nth_error pts i = Some (if below i then - h i else h i, y).
Proof.
  intros l h below indices Hl. unfold draw_marginal, abscissas, hstack_rows.
  assert (E : concat (map (fun x : R => [x]) l) = l) by (induction l as [|x l IH] in |- *; cbn; [reflexivity|now rewrite IH]).
  rewrite E, map_length, seq_length, Hl, Nat.eqb_refl. eexists. split; [reflexivity|]. rewrite combine_length, map_length, seq_length, Hl, Nat.min_id.
  split; [reflexivity|]. intros i y Hy. assert (Hi : (i < length l)%nat) by (rewrite <- Hl; apply nth_error_Some; congruence).
  apply nth_error_combine; [|assumption]. rewrite nth_error_map, (nth_error_nth' (seq 0 (length l)) O) by now rewrite seq_length.
  cbn [option_map]. rewrite seq_nth by assumption. cbn [Nat.add]. rewrite map_length. destruct (Nat.ltb_spec i (length l)); [|lia]. reflexivity.
Qed.
(** Finding: deltas given per parameter (two columns or more) can never be drawn. *)
Theorem C67_matrix_never_drawn :
  forall integer hellinger c rows h below indices, (2 <= c)%nat -> rows <> [] -> (forall row, In row rows -> length row = c) ->
  length indices = length rows -> draw_marginal integer hellinger rows h below indices = Raise ValueError.
Proof.
  intros integer hellinger c rows h below indices Hc Hr Hl Hi. unfold draw_marginal, abscissas, hstack_rows.
  assert (E : length (concat rows) = (length rows * c)%nat).
  { clear Hr Hi. induction rows as [|r rows IH]; cbn; [reflexivity|]. rewrite app_length, IH by (intros; apply Hl; now right). rewrite (Hl r) by now left. reflexivity. }
  assert (Hp : (0 < length rows)%nat) by (destruct rows; [contradiction|cbn; lia]).
  assert (L : length (if hellinger then map (fun i => if Nat.ltb i (length rows) then to_dtype integer (if below i then - to_dtype integer (h i) else h i) else nth i (concat rows) 0) (seq 0 (length (concat rows))) else concat rows) = (length rows * c)%nat).
  { destruct hellinger; [rewrite map_length, seq_length|]; exact E. }
  rewrite L, Hi. destruct (Nat.eqb_spec (length rows * c) (length rows)); [nia|reflexivity].
Qed.
(** Finding: deltas given as integers make the abscissas integers; all the Hellinger values below 1 (they never exceed 2) are drawn at 0. *)
Theorem C67_integer_deltas_drawn_at_zero :
  forall l h below indices, length indices = length l -> (forall i, 0 <= h i < 1) ->
  exists pts, draw_marginal true true (map (fun x => [x]) l) h below indices = Ok pts /\ forall p, In p pts -> fst p = 0.
Proof.
  intros l h below indices Hl Hh. unfold draw_marginal, abscissas, hstack_rows.
  assert (E : concat (map (fun x : R => [x]) l) = l) by (induction l as [|x l IH] in |- *; cbn; [reflexivity|now rewrite IH]).
  rewrite E, map_length, seq_length, Hl, Nat.eqb_refl. eexists. split; [reflexivity|]. intros [a y] Hp. apply in_combine_l in Hp.
  apply in_map_iff in Hp. destruct Hp as (i & <- & Hi). apply in_seq in Hi. rewrite map_length. destruct (Nat.ltb_spec i (length l)); [|lia].
  assert (I0 : forall x, 0 <= x < 1 -> Int_part x = 0%Z).
  { intros x Hx. unfold Int_part. rewrite <- (tech_up x 1); [reflexivity| |]; cbn; lra. }
  assert (T : forall x, 0 <= x < 1 -> to_dtype true x = 0). { intros x Hx. unfold to_dtype. destruct (Rltb_spec x 0); [lra|]. now rewrite I0. }
  cbn [fst]. rewrite (T _ (Hh i)). destruct (below i); [|now apply T]. rewrite Ropp_0. apply T. lra.
Qed.
Example C67_example : draw_marginal false false [[1]; [2]] (fun _ => 0) (fun _ => false) [3; 4] = Ok [(1, 3); (2, 4)] /\
  draw_marginal false false [[1; 5]; [2; 6]] (fun _ => 0) (fun _ => false) [3; 4] = Raise ValueError.
Proof. split; reflexivity. Qed.
Print Assumptions C51_ratio_of_one_parameter.
Print Assumptions C53_vector.
Print Assumptions C53_matrix.
Print Assumptions C53_rejected.
Print Assumptions C53_one_column_per_parameter.
Print Assumptions C53_three_dimensional_accepted_refuted.
Print Assumptions C55_mean_conversion.
Print Assumptions C55_variance_rejected.
Print Assumptions C55_variance_conversion.
Print Assumptions C55_documented_variance_refuted.
Print Assumptions C67_vector.
Print Assumptions C67_hellinger.
Print Assumptions C67_matrix_never_drawn.
Print Assumptions C67_integer_deltas_drawn_at_zero.
