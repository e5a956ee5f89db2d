(** C35, C49: every (defect size, Monte Carlo point) is evaluated once and lands in its own cell. *)
From Verif Require Import Base Float64 LayoutModel.

Lemma map2_length {A B C} (f : A -> B -> C) l1 l2 : length (map2 f l1 l2) = Nat.min (length l1) (length l2).
Proof. unfold map2. now rewrite map_length, combine_length. Qed.
Lemma set_slice_blocks {V} (done rows : list (list V)) (rest : list (list V)) (pad : list (list V)) :
  length pad = length rows -> set_slice (done ++ pad ++ rest) (length done) rows = Ok (done ++ rows ++ rest).
Proof.
  intros H. unfold set_slice. rewrite !app_length, H.
  rewrite (proj2 (Nat.leb_le _ _)) by lia. f_equal.
  rewrite firstn_app, Nat.sub_diag, firstn_O, app_nil_r, firstn_all. f_equal. f_equal.
  rewrite skipn_app. rewrite (skipn_all2 done) by lia. cbn [app]. replace (length done + length rows - length done) with (length rows) by lia.
  rewrite skipn_app, <- H, Nat.sub_diag, skipn_all. reflexivity.
Qed.
Lemma repeat_add {A} (x : A) n m : repeat x (n + m) = repeat x n ++ repeat x m.
Proof. apply repeat_app. Qed.
Lemma fill_spec {V} (zrow : list V) N X : length X = N -> forall sizes i done extra,
  length done = N * i ->
  fill N i sizes X (done ++ repeat zrow (N * (length sizes + extra))) = Ok (done ++ flat_map (fun d => mergeDefectInX d X) sizes ++ repeat zrow (N * extra)).
Proof.
  intros HX. induction sizes as [|d l IH]; intros i done extra Hd; cbn [fill flat_map length].
  - reflexivity.
  - replace (N * (S (length l) + extra)) with (N + N * (length l + extra)) by lia. rewrite repeat_add.
    rewrite <- Hd, set_slice_blocks by (rewrite repeat_length; unfold mergeDefectInX; now rewrite map_length).
    cbn [bind]. rewrite app_assoc. rewrite IH.
    + rewrite <- !app_assoc. reflexivity.
    + rewrite app_length. unfold mergeDefectInX. rewrite map_length. lia.
Qed.
Lemma full_spec {V} (zero : V) N number dim sizes X : length X = N -> (length sizes <= number)%nat ->
  fullSamplePred zero N number dim sizes X
  = Ok (flat_map (fun d => mergeDefectInX d X) sizes ++ repeat (repeat zero dim) (N * (number - length sizes))).
Proof.
  intros HX Hn. unfold fullSamplePred.
  pose proof (fill_spec (repeat zero dim) N X HX sizes 0 [] (number - length sizes)) as H.
  cbn [app] in H. replace (length sizes + (number - length sizes)) with number in H by lia. apply H. cbn. lia.
Qed.
Lemma skipn_add {A} n : forall m (l : list A), skipn m (skipn n l) = skipn (n + m) l.
Proof. induction n as [|n IH]; intros m [|x l]; cbn; try reflexivity; [now destruct m|apply IH]. Qed.
Lemma map_repeat' {A B} (f : A -> B) x n : map f (repeat x n) = repeat (f x) n.
Proof. induction n; cbn; congruence. Qed.
Lemma chunks_nth {A} N : forall D (l : list A) i, (i < D)%nat -> nth_error (chunks N D l) i = Some (firstn N (skipn (N * i) l)).
Proof.
  induction D as [|D IH]; intros l i Hi; [lia|]. destruct i as [|i]; cbn [chunks nth_error].
  - now rewrite Nat.mul_0_r.
  - rewrite IH by lia. f_equal. f_equal. rewrite skipn_add. f_equal. lia.
Qed.
Lemma chunks_length {A} N D (l : list A) : length (chunks N D l) = D.
Proof. revert l. induction D; intros; cbn; auto. Qed.
Lemma flat_map_length {A B} (f : A -> list B) n l : (forall x, length (f x) = n) -> length (flat_map f l) = n * length l.
Proof. intros H. induction l as [|x l IH]; cbn; [lia|]. rewrite app_length, H, IH. lia. Qed.
Lemma flat_map_block {A B} (f : A -> list B) n : (forall x, length (f x) = n) -> forall l i x,
  nth_error l i = Some x -> firstn n (skipn (n * i) (flat_map f l)) = f x.
Proof.
  intros H. induction l as [|y l IH]; intros [|i] x Hi; try discriminate; cbn [nth_error] in Hi; cbn [flat_map].
  - injection Hi as ->. rewrite Nat.mul_0_r. cbn [skipn]. rewrite firstn_app, (H x), Nat.sub_diag, firstn_O, app_nil_r. rewrite <- (H x) at 1. apply firstn_all.
  - replace (n * S i) with (n + n * i) by lia. rewrite skipn_app, (H y). rewrite (skipn_all2 (f y)) by (rewrite H; lia). cbn [app].
    replace (n + n * i - n) with (n * i) by lia. now apply IH.
Qed.
Lemma merge_length {V} (d : V) X : length (mergeDefectInX d X) = length X.
Proof. apply map_length. Qed.
Lemma firstn_map2 {A B C} (f : A -> B -> C) n : forall l1 l2, firstn n (map2 f l1 l2) = map2 f (firstn n l1) (firstn n l2).
Proof. unfold map2. intros. rewrite firstn_map, combine_firstn. reflexivity. Qed.
Lemma skipn_combine {A B} n : forall (l1 : list A) (l2 : list B), skipn n (combine l1 l2) = combine (skipn n l1) (skipn n l2).
Proof.
  induction n as [|n IH]; intros [|a l1] [|b l2]; cbn; try reflexivity; [now destruct (skipn n l1)|apply IH].
Qed.
Lemma skipn_map2 {A B C} (f : A -> B -> C) n : forall l1 l2, skipn n (map2 f l1 l2) = map2 f (skipn n l1) (skipn n l2).
Proof. unfold map2. intros. rewrite skipn_map, skipn_combine. reflexivity. Qed.
Lemma map2_map_l {A B C E} (f : A -> B -> C) (g : E -> A) : forall l1 l2, map2 f (map g l1) l2 = map2 (fun x y => f (g x) y) l1 l2.
Proof. unfold map2. induction l1 as [|x l1 IH]; intros [|y l2]; cbn; try reflexivity. now rewrite IH. Qed.
Lemma fraction_map {A B} (t : B -> bool) (g : A -> B) l : fraction t (map g l) = fraction (fun x => t (g x)) l.
Proof.
  unfold fraction. rewrite map_length. f_equal. f_equal. induction l as [|x l IH]; cbn; [reflexivity|].
  destruct (t (g x)); cbn; now rewrite IH.
Qed.

(** What [fraction] is: the binary64 quotient of the number of positions that pass by the number of positions. *)
Inductive passes {A} (test : A -> bool) : list A -> nat -> nat -> Prop :=
| passes_nil : passes test [] 0 0
| passes_yes x l k n : test x = true -> passes test l k n -> passes test (x :: l) (S k) (S n)
| passes_no x l k n : test x = false -> passes test l k n -> passes test (x :: l) k (S n).
Theorem C35_fraction :
  forall A (test : A -> bool) l k n, passes test l k n -> fraction test l = fdiv (of_int (Z.of_nat k)) (of_int (Z.of_nat n)).
Proof.
  intros A test l k n H. unfold fraction, of_ratio. assert (E : length (filter test l) = k /\ length l = n).
  { induction H as [|x l k n Hx H [IH1 IH2]|x l k n Hx H [IH1 IH2]]; cbn; rewrite ?Hx; cbn; auto. }
  destruct E as [-> ->]. reflexivity.
Qed.
Example C35_fraction_case : passes Nat.even [1; 2; 3; 4; 6] 3 5 /\ fraction Nat.even [1; 2; 3; 4; 6] = of_ratio 6 10.
Proof. split; [|reflexivity]. repeat first [apply passes_nil | apply passes_yes; [reflexivity|] | apply passes_no; [reflexivity|]]. Qed.
Print Assumptions C35_fraction.

Section P.
  Context {V : Type} (zero : V) (add : V -> V -> V) (gt : V -> V -> bool).
  (** Value of column i: the fraction of the Monte Carlo points x_j for which the model at (d_i, x_j), plus the residual of
      that evaluation, exceeds the threshold. *)
  Theorem C35_chaos_pod :
    forall N number dim sizes X chaos residuals detection,
      length X = N -> number = length sizes -> length residuals = N * number ->
    exists pods, chaos_pod zero add gt N number dim sizes X chaos residuals detection = Ok pods /\ length pods = length sizes /\
      forall i d, nth_error sizes i = Some d ->
        nth_error pods i = Some (fraction (fun xr => gt (add (chaos (d :: fst xr)) (snd xr)) detection)
                                   (combine X (firstn N (skipn (N * i) residuals)))).
  Proof.
    intros N number dim sizes X chaos residuals detection HX Hn Hr. unfold chaos_pod.
    rewrite full_spec by (assumption || lia). cbn [bind]. rewrite Hn, Nat.sub_diag, Nat.mul_0_r. cbn [repeat]. rewrite app_nil_r.
    assert (Lf : length (flat_map (fun d => mergeDefectInX d X) sizes) = N * length sizes)
      by (apply flat_map_length; intros; now rewrite merge_length).
    unfold reshape. rewrite map2_length, map_length, Lf, Hr, Hn, Nat.min_id, Nat.eqb_refl. cbn [bind].
    eexists. split; [reflexivity|]. rewrite map_length, chunks_length. split; [reflexivity|].
    intros i d Hi. assert (Hlt : (i < length sizes)%nat) by (apply nth_error_Some; rewrite Hi; discriminate).
    rewrite nth_error_map, chunks_nth by assumption. cbn [option_map]. f_equal.
    rewrite skipn_map2, firstn_map2, skipn_map, firstn_map.
    rewrite (flat_map_block _ N) with (x := d) by (try assumption; intros; now rewrite merge_length).
    rewrite map2_map_l. unfold mergeDefectInX. rewrite map2_map_l. unfold map2. now rewrite fraction_map.
  Qed.
  Theorem C35_current_pod :
    forall N number dim sizes X metamodel detection,
      length X = N -> number = length sizes ->
    exists pods, current_pod zero gt N number dim sizes X metamodel detection = Ok pods /\ length pods = length sizes /\
      forall i d, nth_error sizes i = Some d ->
        nth_error pods i = Some (fraction (fun x => gt (metamodel (d :: x)) detection) X).
  Proof.
    intros N number dim sizes X metamodel detection HX Hn. unfold current_pod.
    rewrite full_spec by (assumption || lia). cbn [bind]. rewrite Hn, Nat.sub_diag, Nat.mul_0_r. cbn [repeat]. rewrite app_nil_r.
    assert (Lf : length (flat_map (fun d => mergeDefectInX d X) sizes) = N * length sizes)
      by (apply flat_map_length; intros; now rewrite merge_length).
    unfold reshape. rewrite map_length, Lf, Nat.eqb_refl. cbn [bind].
    eexists. split; [reflexivity|]. rewrite map_length, chunks_length. split; [reflexivity|].
    intros i d Hi. assert (Hlt : (i < length sizes)%nat) by (apply nth_error_Some; rewrite Hi; discriminate).
    rewrite nth_error_map, chunks_nth by assumption. cbn [option_map]. f_equal. rewrite skipn_map, firstn_map.
    rewrite (flat_map_block _ N) with (x := d) by (try assumption; intros; now rewrite merge_length).
    unfold mergeDefectInX. now rewrite !fraction_map.
  Qed.
  (** Hit-miss: cell (j, i) is the probability at (d_i, x_j). *)
  Theorem C35_hitmiss_pod :
    forall N number dim sizes X proba, length X = N -> number = length sizes ->
    exists cols, hitmiss_pod zero N number dim sizes X proba = Ok cols /\ length cols = length sizes /\
      forall i d, nth_error sizes i = Some d -> nth_error cols i = Some (map (fun x => proba (d :: x)) X).
  Proof.
    intros N number dim sizes X proba HX Hn. unfold hitmiss_pod.
    rewrite full_spec by (assumption || lia). cbn [bind]. rewrite Hn, Nat.sub_diag, Nat.mul_0_r. cbn [repeat]. rewrite app_nil_r.
    assert (Lf : length (flat_map (fun d => mergeDefectInX d X) sizes) = N * length sizes)
      by (apply flat_map_length; intros; now rewrite merge_length).
    unfold reshape. rewrite map_length, Lf, Nat.eqb_refl.
    eexists. split; [reflexivity|]. rewrite chunks_length. split; [reflexivity|].
    intros i d Hi. assert (Hlt : (i < length sizes)%nat) by (apply nth_error_Some; rewrite Hi; discriminate).
    rewrite chunks_nth by assumption. f_equal. rewrite skipn_map, firstn_map.
    rewrite (flat_map_block _ N) with (x := d) by (try assumption; intros; now rewrite merge_length).
    unfold mergeDefectInX. now rewrite map_map.
  Qed.
  (** When [_defectNumber] is larger than the number of sizes (after a refused setDefectSizes) the missing columns are
      evaluated at the zero point. *)
  Theorem C35_stale_number :
    forall N number dim sizes X proba, length X = N -> (length sizes <= number)%nat ->
    exists cols, hitmiss_pod zero N number dim sizes X proba = Ok cols /\ length cols = number /\
      forall i, (length sizes <= i < number)%nat -> nth_error cols i = Some (repeat (proba (repeat zero dim)) N).
  Proof.
    intros N number dim sizes X proba HX Hn. unfold hitmiss_pod.
    rewrite full_spec by assumption. cbn [bind].
    assert (Lf : length (flat_map (fun d => mergeDefectInX d X) sizes) = N * length sizes)
      by (apply flat_map_length; intros; now rewrite merge_length).
    unfold reshape. rewrite map_length, app_length, Lf, repeat_length.
    replace (N * length sizes + N * (number - length sizes)) with (N * number) by nia. rewrite Nat.eqb_refl.
    eexists. split; [reflexivity|]. rewrite chunks_length. split; [reflexivity|].
    intros i Hi. rewrite chunks_nth by lia. f_equal. rewrite skipn_map, firstn_map. rewrite skipn_app, Lf.
    rewrite skipn_all2 by (rewrite Lf; nia). cbn [app]. rewrite <- Nat.mul_sub_distr_l.
    assert (E : firstn N (skipn (N * (i - length sizes)) (repeat (repeat zero dim) (N * (number - length sizes)))) = repeat (repeat zero dim) N).
    { replace (N * (number - length sizes)) with (N * (i - length sizes) + (N + N * (number - S i))) by nia.
      rewrite !repeat_add. rewrite skipn_app, repeat_length, Nat.sub_diag, skipn_all2 by (rewrite repeat_length; lia).
      cbn [app skipn]. rewrite firstn_app, repeat_length, Nat.sub_diag, firstn_O, app_nil_r.
      rewrite firstn_all2 by (rewrite repeat_length; lia). reflexivity. }
    rewrite E, map_repeat'. reflexivity.
  Qed.
  Lemma fill_points_spec (zrow : list V) sizes : forall X i done,
    length done = length sizes * i ->
    fill_points (length sizes) i sizes X (done ++ repeat zrow (length X * length sizes)) = Ok (done ++ flat_map (fun x => map (fun d => d :: x) sizes) X).
  Proof.
    induction X as [|x l IH]; intros i done Hd; cbn [fill_points flat_map length].
    - reflexivity.
    - cbn [Nat.mul]. rewrite repeat_add. rewrite <- Hd, set_slice_blocks by (rewrite repeat_length, map_length; reflexivity).
      cbn [bind]. rewrite app_assoc, IH.
      + now rewrite <- app_assoc.
      + rewrite app_length, map_length. lia.
  Qed.
  Lemma nth_flat_repeat (n : nat) : forall (row : list V) i j, (j < n)%nat -> nth (n * i + j) (flat_map (fun r => repeat r n) row) zero = nth i row zero.
  Proof.
    induction row as [|r row IH]; intros i j Hj; cbn [flat_map].
    - destruct (n * i + j), i; reflexivity.
    - destruct i as [|i].
      + rewrite app_nth1 by (rewrite repeat_length; lia). cbn [nth]. rewrite Nat.mul_0_r, Nat.add_0_l.
        rewrite (nth_indep _ zero r) by (rewrite repeat_length; lia). apply nth_repeat.
      + rewrite app_nth2 by (rewrite repeat_length; nia). rewrite repeat_length. replace (n * S i + j - n) with (n * i + j) by nia.
        cbn [nth]. now apply IH.
  Qed.
  (** Row i, column j of the Sobol chaos function on a sample: fraction of the simulated chaos s for which
      chaos_s (d_j, x_i) + r_{s,i} exceeds the threshold. *)
  Theorem C35_sobol_sample :
    forall dim sizes chaos detection residuals X,
    exists probs, exec_sample zero add gt dim sizes chaos detection residuals X = Ok probs /\ length probs = length X /\
      forall i x, nth_error X i = Some x ->
        nth_error probs i = Some (map (fun d => fraction (fun v => gt v detection)
                                       (map2 add (chaos (d :: x)) (map (fun row => nth i row zero) residuals))) sizes).
  Proof.
    intros dim sizes chaos detection residuals X. unfold exec_sample.
    pose proof (fill_points_spec (repeat zero (dim + 1)) sizes X 0 []) as Hf. cbn [app] in Hf. rewrite Hf by (cbn; lia). clear Hf.
    cbn [bind]. set (D := length sizes). set (n := length X).
    assert (Lf : length (flat_map (fun x => map (fun d => d :: x) sizes) X) = D * n) by (apply flat_map_length; intros; apply map_length).
    unfold reshape. rewrite map2_length, map_length, Lf. unfold transpose at 1. rewrite map_length, seq_length, (Nat.mul_comm n D), Nat.min_id, Nat.eqb_refl.
    eexists. split; [reflexivity|]. rewrite chunks_length. split; [reflexivity|]. intros i x Hi.
    assert (Hlt : (i < n)%nat) by (apply nth_error_Some; rewrite Hi; discriminate).
    rewrite chunks_nth by assumption. f_equal. rewrite skipn_map2, firstn_map2, skipn_map, firstn_map.
    rewrite (flat_map_block _ D) with (x := x) by (try assumption; intros; apply map_length).
    assert (E : firstn D (skipn (D * i) (transpose zero (D * n) (map (fun row => flat_map (fun r => repeat r D) row) residuals)))
                = repeat (map (fun row => nth i row zero) residuals) D).
    { unfold transpose. rewrite skipn_map, firstn_map.
      replace (D * n) with (D * i + (D + D * (n - S i))) by nia. rewrite !seq_app.
      rewrite skipn_app, seq_length, Nat.sub_diag, skipn_all2 by (rewrite seq_length; lia). cbn [app skipn Nat.add].
      rewrite firstn_app, seq_length, Nat.sub_diag, firstn_O, app_nil_r, firstn_all2 by (rewrite seq_length; lia).
      rewrite (map_ext_in _ (fun _ => map (fun row => nth i row zero) residuals)).
      - clear. generalize (D * i). induction D as [|D IH]; intros k; cbn; [reflexivity|]. f_equal. apply (IH (S k)).
      - intros c Hc. apply in_seq in Hc. rewrite map_map. apply map_ext. intros row.
        replace c with (D * i + (c - D * i)) at 1 by lia. apply nth_flat_repeat. lia. }
    rewrite E. clear E Lf Hi Hlt. unfold D. clear D n. rewrite map_map. induction sizes as [|d l IH]; [reflexivity|].
    cbn [length repeat map]. unfold map2 at 1. cbn [combine map fst snd]. f_equal. exact IH.
  Qed.
  (** Evaluating the sample row by row with the same residuals gives the same result, if the sizes are those of the POD. *)
  Theorem C49_sample_is_pointwise :
    forall dim sizes chaos detection residuals X probs i x,
      exec_sample zero add gt dim sizes chaos detection residuals X = Ok probs -> nth_error X i = Some x ->
      exists row, nth_error probs i = Some row /\
        exec add gt sizes sizes chaos detection (map (fun r => nth i r zero) residuals) x = Ok row.
  Proof.
    intros dim sizes chaos detection residuals X probs i x H Hi.
    destruct (C35_sobol_sample dim sizes chaos detection residuals X) as (p & H1 & _ & H2). rewrite H in H1. injection H1 as <-.
    eexists. split; [apply H2; exact Hi|]. unfold exec. now rewrite Nat.eqb_refl.
  Qed.
  (** In general the point evaluation is made at the sizes of the POD, and only possible when their number agrees. *)
  Theorem C49_point_uses_the_pod_sizes :
    forall podSizes sizes chaos detection residuals x,
      exec add gt podSizes sizes chaos detection residuals x
      = if Nat.eqb (length podSizes) (length sizes) then exec add gt podSizes podSizes chaos detection residuals x else Raise ValueError.
  Proof. intros. unfold exec. rewrite Nat.eqb_refl. reflexivity. Qed.
End P.
Print Assumptions C35_chaos_pod.
Print Assumptions C35_current_pod.
Print Assumptions C35_hitmiss_pod.
Print Assumptions C35_stale_number.
Print Assumptions C35_sobol_sample.
Print Assumptions C49_sample_is_pointwise.
Print Assumptions C49_point_uses_the_pod_sizes.

Example C35_example :
  chaos_pod 0%Z Z.add Z.gtb 2 3 2 [1; 2; 3]%Z [[10]; [20]]%Z (fun p => fold_right Z.add 0 p)%Z [0; 0; 0; 0; 5; 0]%Z 17%Z
    = Ok [of_ratio 1 2; of_ratio 1 2; of_ratio 2 2] /\
  hitmiss_pod 0%Z 2 3 2 [1; 2; 3]%Z [[10]; [20]]%Z (fun p => fold_right Z.add 0 p)%Z = Ok [[11; 21]; [12; 22]; [13; 23]]%Z.
Proof. split; vm_compute; reflexivity. Qed.
Example C35_stale_example :
  hitmiss_pod 7%Z 2 3 2 [1; 2]%Z [[10]; [20]]%Z (fun p => fold_right Z.add 0 p)%Z = Ok [[11; 21]; [12; 22]; [14; 14]]%Z.
Proof. vm_compute. reflexivity. Qed.
Definition ex_chaos (p : list Z) : list Z := [fold_right Z.add 0 p; 2 * fold_right Z.add 0 p]%Z.
Example C49_example :
  exec_sample 0%Z Z.add Z.gtb 1 [1; 2]%Z ex_chaos 12%Z [[0; 1]; [0; 0]]%Z [[3]; [10]]%Z
    = Ok [[of_ratio 0 2; of_ratio 0 2]; [of_ratio 1 2; of_ratio 2 2]] /\
  exec Z.add Z.gtb [1; 2]%Z [1; 2]%Z ex_chaos 12%Z [1; 0]%Z [10]%Z = Ok [of_ratio 1 2; of_ratio 2 2].
Proof. split; vm_compute; reflexivity. Qed.
(** After setDefectSizes on the Sobol object, point and sample evaluation differ. *)
Theorem C49_other_sizes_refuted :
  exists podSizes sizes x r, length podSizes = length sizes /\
    exists row, exec_sample 0%Z Z.add Z.gtb 1 sizes ex_chaos 12%Z (map (fun v => [v]) r) [x] = Ok [row] /\
      exec Z.add Z.gtb podSizes sizes ex_chaos 12%Z r x <> Ok row.
Proof.
  exists [1; 2]%Z, [100; 200]%Z, [3]%Z, [0; 0]%Z. split; [reflexivity|]. eexists. split; [vm_compute; reflexivity|].
  intros H. vm_compute in H. discriminate.
Qed.
Print Assumptions C49_other_sizes_refuted.
