(** C92: the laws of the Monte Carlo points and the expectation of the estimated POD. *)
From Verif Require Import RealBase MatBase KrigSimModel KrigSimProps LawModel.
Local Open Scope R_scope.

(** *** Laws *)
(** What is used of an expectation: it is linear, that of a constant is the constant, it is monotone and only looks at the values of the function
    on the support. *)
Record is_law {A} (S : A -> Prop) (E : law A) : Prop := {
  law_lin : forall a b f g, E (fun x => a * f x + b * g x) = a * E f + b * E g;
  law_one : forall c, E (fun _ => c) = c;
  law_pos : forall f, (forall x, S x -> 0 <= f x) -> 0 <= E f;
  law_ext : forall f g, (forall x, S x -> f x = g x) -> E f = E g }.
(** A distribution of dimension [dim]. *)
Definition of_dim (dim : nat) (x : list R) : Prop := length x = dim.
Definition anything {A} (x : A) : Prop := True.
Lemma law_ext' {A} S (E : law A) f g : is_law S E -> (forall x, f x = g x) -> E f = E g.
Proof. intros L H. apply (law_ext _ _ L). auto. Qed.
Lemma law_plus {A} S (E : law A) f g : is_law S E -> E (fun x => f x + g x) = E f + E g.
Proof. intros L. rewrite (law_ext' S E (fun x => f x + g x) (fun x => 1 * f x + 1 * g x) L) by (intros; ring). rewrite (law_lin _ _ L). ring. Qed.
Lemma law_scal {A} S (E : law A) c f : is_law S E -> E (fun x => c * f x) = c * E f.
Proof.
  intros L. rewrite (law_ext' S E (fun x => c * f x) (fun x => c * f x + 0 * f x) L) by (intros; ring). rewrite (law_lin _ _ L). ring.
Qed.
Lemma law_sum {A B} S (E : law A) (h : A -> B -> R) l : is_law S E -> E (fun x => Rsum (map (h x) l)) = Rsum (map (fun b => E (fun x => h x b)) l).
Proof.
  intros L. induction l as [|b l IH]; cbn [map]; [apply (law_one _ _ L)|]. rewrite Rsum_cons, <- IH.
  now rewrite <- (law_plus S E (fun x => h x b) (fun x => Rsum (map (h x) l)) L).
Qed.
Lemma law_mean {A B} S (E : law A) (h : A -> B -> R) l : is_law S E -> E (fun x => Rmean (map (h x) l)) = Rmean (map (fun b => E (fun x => h x b)) l).
Proof.
  intros L. unfold Rmean. rewrite map_length.
  rewrite (law_ext' S E _ (fun x => / INR (length l) * Rsum (map (h x) l)) L) by (intros x; rewrite map_length; unfold Rdiv; ring).
  rewrite (law_scal S E _ _ L), (law_sum S E h l L). unfold Rdiv. ring.
Qed.
Lemma sample_ext {A} S (E : law A) n F G : is_law S E -> (forall xs, length xs = n -> Forall S xs -> F xs = G xs) -> sample E n F = sample E n G.
Proof.
  intros L. revert F G. induction n as [|n IH]; intros F G H; cbn [sample]; [apply H; [reflexivity|constructor]|].
  apply (law_ext _ _ L). intros x Hx. apply IH. intros xs H1 H2. apply H; [cbn; now rewrite H1|now constructor].
Qed.
Lemma sample_const {A} S (E : law A) n c : is_law S E -> sample E n (fun _ => c) = c.
Proof. intros L. induction n as [|n IH]; cbn [sample]; [reflexivity|]. rewrite (law_ext' S E _ (fun _ => c) L); [apply (law_one _ _ L)|intros; exact IH]. Qed.
Lemma sample_sum {A} S (E : law A) n a f : is_law S E -> sample E n (fun xs => a + Rsum (map f xs)) = a + INR n * E f.
Proof.
  intros L. revert a. induction n as [|n IH]; intros a; cbn [sample]; [cbn; ring|].
  rewrite (law_ext' S E _ (fun x => (a + INR n * E f) + f x) L).
  - rewrite (law_plus S E (fun _ => a + INR n * E f) f L), (law_one _ _ L), S_INR. ring.
  - intros x. transitivity (sample E n (fun xs => (a + f x) + Rsum (map f xs))).
    + apply (sample_ext S); [exact L|]. intros xs _ _. cbn [map]. rewrite Rsum_cons. ring.
    + rewrite IH. ring.
Qed.
(** The mean of n independent draws has the expectation of one of them. *)
Lemma sample_mean {A} S (E : law A) n f : is_law S E -> (0 < n)%nat -> sample E n (fun xs => Rmean (map f xs)) = E f.
Proof.
  intros L Hn. assert (P := INR_pos n Hn).
  assert (G : sample E n (fun xs => 0 + Rsum (map (fun x => / INR n * f x) xs)) = E f).
  { rewrite (sample_sum S E n 0 _ L), (law_scal S E _ _ L). field. lra. }
  rewrite <- G. apply (sample_ext S); [exact L|]. intros xs H _. unfold Rmean. rewrite map_length, H, Rsum_scal. unfold Rdiv. ring.
Qed.
Lemma dirac_law {A} (a : A) : is_law (fun x => x = a) (dirac a).
Proof. split; unfold dirac; auto. Qed.
Lemma weaken {A} (S S' : A -> Prop) E : (forall x, S x -> S' x) -> is_law S E -> is_law S' E.
Proof. intros H L. split; [apply L|apply L|intros f Hf; apply (law_pos _ _ L); auto|intros f g Hf; apply (law_ext _ _ L); auto]. Qed.
Lemma marginal_law S E i : is_law S E -> is_law anything (marginal i E).
Proof.
  intros L. unfold marginal. split.
  - intros a b f g. apply (law_lin _ _ L (a) b (fun x => f (nth i x 0)) (fun x => g (nth i x 0))).
  - intros c. apply (law_one _ _ L).
  - intros f H. apply (law_pos _ _ L). intros x _. now apply H.
  - intros f g H. apply (law_ext _ _ L). intros x _. now apply H.
Qed.
Lemma joint_law ms : Forall (is_law anything) ms -> is_law (of_dim (length ms)) (joint ms).
Proof.
  induction ms as [|m ms IH]; intros H.
  - split; cbn; auto; [intros f Hf; apply Hf; reflexivity|intros f g Hf; apply Hf; reflexivity].
  - apply Forall_cons_iff in H. destruct H as [L H]. specialize (IH H). cbn [joint]. split.
    + intros a b f g. rewrite <- (law_lin _ _ L). apply (law_ext' anything); [exact L|]. intros x. apply (law_lin _ _ IH a b (fun xs => f (x :: xs)) (fun xs => g (x :: xs))).
    + intros c. rewrite (law_ext' anything m _ (fun _ => c) L); [apply (law_one _ _ L)|]. intros. apply (law_one _ _ IH).
    + intros f Hf. apply (law_pos _ _ L). intros x _. apply (law_pos _ _ IH). intros xs Hx. apply Hf. unfold of_dim in *. cbn. now rewrite Hx.
    + intros f g Hf. apply (law_ext _ _ L). intros x _. apply (law_ext _ _ IH). intros xs Hx. apply Hf. unfold of_dim in *. cbn. now rewrite Hx.
Qed.
Lemma kriging_points_law dim E a S : (1 <= dim)%nat -> is_law S E -> is_law (of_dim dim) (kriging_points dim E a).
Proof.
  intros Hd L. unfold kriging_points. replace (of_dim dim) with (of_dim (length (dirac a :: map (fun i => marginal (1 + i) E) (seq 0 (dim - 1))))).
  - apply joint_law. constructor; [eapply weaken; [|apply dirac_law]; now intros|]. apply Forall_forall. intros m Hm. apply in_map_iff in Hm.
    destruct Hm as (i & <- & _). now apply (marginal_law S).
  - cbn [length]. rewrite map_length, seq_length. f_equal. lia.
Qed.
Lemma merged_points_law dim E a : (1 <= dim)%nat -> is_law (of_dim dim) E -> is_law (of_dim dim) (merged_points E a).
Proof.
  intros Hd L. unfold merged_points. assert (X : forall x, of_dim dim x -> of_dim dim (a :: tl x)).
  { unfold of_dim. intros [|y x] H; cbn in *; lia. }
  split.
  - intros u v f g. apply (law_lin _ _ L u v (fun x => f (a :: tl x)) (fun x => g (a :: tl x))).
  - intros c. apply (law_one _ _ L).
  - intros f H. apply (law_pos _ _ L). intros x Hx. apply H, X, Hx.
  - intros f g H. apply (law_ext _ _ L). intros x Hx. apply H, X, Hx.
Qed.
Lemma mixture_draw_law M Z : (0 < M)%nat -> is_law anything Z -> is_law (fun p => (fst p < M)%nat) (mixture_draw M Z).
Proof.
  intros HM L. assert (P := INR_pos M HM). unfold mixture_draw, Rmean. split.
  - intros a b f g. rewrite !map_length, seq_length. rewrite (Rsum_ext _ (fun i => a * Z (fun z => f (i, z)) + b * Z (fun z => g (i, z)))) by (intros i _; apply (law_lin _ _ L)).
    rewrite Rsum_plus, !Rsum_scal. field. lra.
  - intros c. rewrite (Rsum_ext _ (fun _ => c)) by (intros; apply (law_one _ _ L)). rewrite Rsum_const, map_length, seq_length. field. lra.
  - intros f H. apply Rmult_le_pos; [|rewrite map_length, seq_length; left; now apply Rinv_0_lt_compat]. apply Rsum_nonneg. intros y Hy. apply in_map_iff in Hy.
    destruct Hy as (i & <- & Hi). apply in_seq in Hi. apply (law_pos _ _ L). intros z _. apply H. cbn. lia.
  - intros f g H. rewrite !map_length. f_equal. apply Rsum_ext. intros i Hi. apply in_seq in Hi. apply (law_ext _ _ L). intros z _. apply H. cbn. lia.
Qed.

(** *** The mean curves are unbiased *)
(** The standard draws: any law of mean 0. *)
Definition centred (Z : law R) : Prop := is_law anything Z /\ Z (fun z => z) = 0.
Lemma map_nth_seq {A} (l : list A) d : map (fun i => nth i l d) (seq 0 (length l)) = l.
Proof. induction l as [|x l IH]; [reflexivity|]. cbn [length seq map nth]. f_equal. rewrite <- seq_shift, map_map. exact IH. Qed.
Lemma mixture_mean Z cs K : centred Z -> cs <> [] -> (0 < K)%nat ->
  sample (mixture_draw (length cs) Z) K (fun rnd => Rmean (mixture_sample cs rnd)) = Rmean (map component_mean cs).
Proof.
  intros [L Z0] Hc HK. unfold mixture_sample. assert (HM : (0 < length cs)%nat) by (destruct cs; [congruence|cbn; lia]).
  rewrite (sample_mean _ _ K _ (mixture_draw_law _ Z HM L) HK). unfold mixture_draw. cbn [fst snd]. f_equal.
  rewrite <- (map_nth_seq cs (Dirac 0)) at 2. rewrite map_map. apply map_ext. intros i. set (c := nth i cs (Dirac 0)). destruct c as [mu s|x]; cbn [draw component_mean].
  - rewrite (law_plus anything Z (fun _ => mu) (fun z => s * z) L), (law_one _ _ L), (law_scal anything Z _ _ L), Z0. ring.
  - apply (law_one _ _ L).
Qed.
(** The probability that the signal simulated by the kriging at x exceeds the threshold. *)
Definition exceedance (Z : law R) (detection : R) (m v : list R -> R) (x : list R) : R := Z (fun z => if Rlt_dec detection (m x + z * sqrt (v x)) then 1 else 0).
Theorem C92_kriging_unbiased Z dim E a detection m v N M :
  centred Z -> (1 <= dim)%nat -> is_law (of_dim dim) E -> (0 < N)%nat -> (0 < M)%nat -> (forall x, 0 <= v x) ->
  kriging_node_expectation Z (kriging_points dim E a) detection m v N M = kriging_points dim E a (exceedance Z detection m v).
Proof.
  intros HZ Hd L HN HM Hv. assert (LZ := proj1 HZ). assert (LP := kriging_points_law dim E a _ Hd L). unfold kriging_node_expectation.
  set (h := fun z x => if Rlt_dec detection (m x + z * sqrt (v x)) then 1 else 0).
  transitivity (sample (kriging_points dim E a) N (fun xs => Rmean (map (exceedance Z detection m v) xs))); [|apply (sample_mean _ _ N _ LP HN)].
  apply (sample_ext _ _ N _ _ LP). intros xs Hl _.
  transitivity (Z (fun z => Rmean (map (h z) xs))); [|apply (law_mean anything Z h xs LZ)].
  rewrite <- (sample_mean anything Z M (fun z => Rmean (map (h z) xs)) LZ HM). apply (sample_ext anything Z M _ _ LZ). intros draws Hdr _.
  unfold kriging_node, pod_sample. set (Y := randomVector draws (map m xs) (map v xs)). set (cs := mixture detection Y).
  assert (LY : length cs = M) by (unfold cs, mixture, Y, randomVector; now rewrite !map_length).
  assert (HK : (0 < M * N)%nat) by (apply Nat.mul_pos_pos; assumption). rewrite <- LY at 1. rewrite (mixture_mean Z cs (M * N) HZ); [|intros E0; rewrite E0 in LY; cbn in LY; lia|exact HK].
  unfold cs, mixture, Y, randomVector. rewrite !map_map. f_equal. apply map_ext. intros z.
  assert (C : map (realisation z) (combine (map m xs) (map v xs)) = map (fun x => Some (z * sqrt (v x) + m x)) xs).
  { clear - Hv. induction xs as [|x xs IH]; [reflexivity|]. cbn [map combine]. rewrite IH. f_equal. unfold realisation. now rewrite (proj2 (Rltb_false (v x) 0) (Hv x)). }
  rewrite C. assert (NE : map (fun x => Some (z * sqrt (v x) + m x)) xs <> []) by (destruct xs; [cbn in Hl; lia|discriminate]).
  rewrite component_of_mean; [|rewrite map_length, Hl; exact HN|now apply pod_of_row_range]. unfold pod_of_row. rewrite map_map. f_equal. apply map_ext. intros x. unfold h, exceeds, Rltb.
  replace (m x + z * sqrt (v x)) with (z * sqrt (v x) + m x) by ring. now destruct (Rlt_dec detection (z * sqrt (v x) + m x)).
Qed.
Theorem C92_chaos_unbiased Z dim E a detection chaos stderr N :
  is_law anything Z -> (1 <= dim)%nat -> is_law (of_dim dim) E -> (0 < N)%nat ->
  chaos_node_expectation Z (merged_points E a) detection chaos stderr N =
  E (fun x => Z (fun z => if Rlt_dec detection (chaos (a :: tl x) + z * stderr) then 1 else 0)).
Proof.
  intros LZ Hd L HN. assert (LP := merged_points_law dim E a Hd L). unfold chaos_node_expectation, chaos_node. assert (PN := INR_pos N HN).
  set (h := fun z x => if Rlt_dec detection (chaos x + z * stderr) then 1 else 0). set (g := fun x => Z (fun z => h z x)).
  change (E _) with (merged_points E a g). rewrite <- (sample_mean _ _ N g LP HN). apply (sample_ext _ _ N _ _ LP). intros xs Hl _.
  assert (G : forall xs n b, length xs = n -> sample Z n (fun eps => b + Rsum (map (fun p => h (snd p) (fst p)) (combine xs eps))) = b + Rsum (map g xs)).
  { clear - LZ. induction xs as [|x xs IH]; intros n b <-; cbn [length sample combine map Rsum fold_right]; [reflexivity|].
    rewrite (law_ext' anything Z _ (fun z => (b + Rsum (map g xs)) + h z x) LZ).
    - rewrite (law_plus anything Z (fun _ => b + Rsum (map g xs)) (fun z => h z x) LZ), (law_one _ _ LZ). change (Z (fun z => h z x)) with (g x). fold (Rsum (map g xs)). ring.
    - intros z. transitivity (sample Z (length xs) (fun eps => (b + h z x) + Rsum (map (fun p => h (snd p) (fst p)) (combine xs eps)))).
      + apply (sample_ext anything); [exact LZ|]. intros eps _ _. cbn [fst snd]. unfold Rsum. ring.
      + rewrite (IH _ _ eq_refl). ring. }
  assert (G' : sample Z N (fun eps => / INR N * (0 + Rsum (map (fun p => h (snd p) (fst p)) (combine xs eps)))) = / INR N * Rsum (map g xs)).
  { assert (SC : forall n c F, sample Z n (fun e => c * F e) = c * sample Z n F).
    { clear - LZ. induction n as [|n IH]; intros c F; cbn [sample]; [reflexivity|]. rewrite <- (law_scal anything Z _ _ LZ). apply (law_ext' anything); [exact LZ|]. intros z. apply (IH c (fun xs => F (z :: xs))). }
    rewrite SC, (G xs N 0 Hl). ring. }
  unfold Rmean at 2. rewrite map_length, Hl. unfold Rdiv. rewrite Rmult_comm, <- G'. apply (sample_ext anything); [exact LZ|]. intros eps He _.
  unfold Rmean. rewrite map_length, combine_length, Hl, He, Nat.min_id. unfold Rdiv. rewrite Rmult_comm. f_equal. rewrite Rplus_0_l. apply Rsum_ext. intros p _. unfold h, Rltb.
  now destruct (Rlt_dec detection (chaos (fst p) + snd p * stderr)).
Qed.
Theorem C92_hitmiss_unbiased dim E a proba N :
  (1 <= dim)%nat -> is_law (of_dim dim) E -> (0 < N)%nat -> hitmiss_node_expectation (merged_points E a) proba N = E (fun x => proba (a :: tl x)).
Proof. intros Hd L HN. unfold hitmiss_node_expectation. apply (sample_mean _ _ N proba (merged_points_law dim E a Hd L) HN). Qed.

(** *** Which part of the distribution matters *)
(** The first coordinate of the distribution, its law and its dependence on the others are never used: only the law of the parameters is. *)
Definition same_parameters (E E' : law (list R)) : Prop := forall f, E (fun x => f (tl x)) = E' (fun x => f (tl x)).
Theorem C92_defect_law_unused dim E E' a f :
  is_law (of_dim dim) E -> is_law (of_dim dim) E' -> same_parameters E E' ->
  kriging_points dim E a f = kriging_points dim E' a f /\ merged_points E a f = merged_points E' a f /\ analysis_points (dim - 1) E f = analysis_points (dim - 1) E' f.
Proof.
  intros L L' H. assert (M : forall i g, marginal (S i) E g = marginal (S i) E' g).
  { intros i g. unfold marginal. specialize (H (fun x => g (nth i x 0))). cbv beta in H.
    rewrite (law_ext' _ E (fun x => g (nth (S i) x 0)) (fun x => g (nth i (tl x) 0)) L) by (intros [|y x]; destruct i; reflexivity).
    rewrite H. apply (law_ext' _ E' _ _ L'). intros [|y x]; destruct i; reflexivity. }
  assert (J : forall l g, joint (map (fun i => marginal (S i) E) l) g = joint (map (fun i => marginal (S i) E') l) g).
  { induction l as [|i l IH]; intros g; cbn [map joint]; [reflexivity|]. rewrite M. apply (law_ext' anything); [exact (marginal_law (of_dim dim) E' (S i) L')|]. intros x. apply IH. }
  split; [|split].
  - unfold kriging_points. cbn [joint]. unfold dirac. apply J.
  - unfold merged_points. apply (H (fun x => f (a :: x))).
  - apply J.
Qed.
(** One parameter beside the defect: the two families of classes use the same points. *)
Theorem C92_one_parameter E a f : is_law (of_dim 2) E -> kriging_points 2 E a f = merged_points E a f.
Proof.
  intros L. unfold kriging_points, merged_points. cbn [Nat.sub seq map joint]. unfold dirac, marginal. apply (law_ext _ _ L). intros x Hx. unfold of_dim in Hx.
  destruct x as [|x0 [|x1 [|? ?]]]; cbn in Hx; try lia. reflexivity.
Qed.
(** Independent coordinates: also. *)
Definition independent (dim : nat) (E : law (list R)) : Prop := forall f, E f = joint (map (fun i => marginal i E) (seq 0 dim)) f.
Theorem C92_independent dim E a f : (1 <= dim)%nat -> is_law (of_dim dim) E -> independent dim E -> kriging_points dim E a f = merged_points E a f.
Proof.
  intros Hd L I. unfold merged_points. rewrite I. destruct dim as [|d]; [lia|]. cbn [seq map joint]. unfold kriging_points. cbn [joint Nat.sub tl]. rewrite Nat.sub_0_r. unfold dirac at 1.
  rewrite <- seq_shift, map_map. set (F := joint (map (fun i => marginal (S i) E) (seq 0 d)) (fun xs => f (a :: xs))).
  symmetry. apply (law_one _ _ (marginal_law _ E 0 L) F).
Qed.
(** Finite laws, for the cases. *)
Definition finite {A} (l : list (R * A)) : law A := fun f => Rsum (map (fun p => fst p * f (snd p)) l).
Lemma finite_law {A} (S : A -> Prop) l : (forall p, In p l -> 0 <= fst p /\ S (snd p)) -> Rsum (map fst l) = 1 -> is_law S (finite l).
Proof.
  intros H H1. unfold finite. split.
  - intros a b f g. rewrite <- !Rsum_scal, <- Rsum_plus. apply Rsum_ext. intros; ring.
  - intros c. rewrite (Rsum_ext _ (fun p => c * fst p)) by (intros; ring). rewrite Rsum_scal, H1. ring.
  - intros f Hf. apply Rsum_nonneg. intros y Hy. apply in_map_iff in Hy. destruct Hy as (p & <- & Hp). destruct (H p Hp). apply Rmult_le_pos; auto.
  - intros f g Hf. apply Rsum_ext. intros p Hp. rewrite Hf; [reflexivity|apply (H p Hp)].
Qed.
Definition coin : law R := finite [(1 / 2, -1); (1 / 2, 1)].
Lemma coin_centred : centred coin.
Proof. split; [apply finite_law; [intros p [<-|[<-|[]]]; cbn; split; [lra|exact I|lra|exact I]|cbn; lra]|unfold coin, finite; cbn; lra]. Qed.
Ltac decide_lt := repeat match goal with |- context [Rlt_dec ?x ?y] => destruct (Rlt_dec x y); try lra end.
(** Finding: dependent parameters. The kriging classes draw the parameters independently, the chaos and hit-miss classes, and the criterion of the adaptive
    kriging class for its reference POD, draw them together. For one and the same meta-model without uncertainty the expected POD is 1/4 in one
    case and 1/2 in the other. *)
Theorem C92_dependence_refuted :
  exists E a detection m, is_law (of_dim 3) E /\
    (forall N M, (0 < N)%nat -> (0 < M)%nat -> kriging_node_expectation coin (kriging_points 3 E a) detection m (fun _ => 0) N M = 1 / 4) /\
    (forall N, (0 < N)%nat -> chaos_node_expectation coin (merged_points E a) detection m 0 N = 1 / 2) /\
    analysis_points 2 E (fun x => if Rlt_dec detection (m (a :: x)) then 1 else 0) = 1 / 4.
Proof.
  set (E := finite [(1 / 2, [0; 0; 0]); (1 / 2, [0; 1; 1])]).
  assert (L : is_law (of_dim 3) E) by (apply finite_law; [intros p [<-|[<-|[]]]; cbn; split; [lra|reflexivity|lra|reflexivity]|cbn; lra]).
  exists E, 0, (3 / 2), (fun x => nth 1 x 0 + nth 2 x 0). split; [exact L|]. split; [|split].
  - intros N M HN HM. rewrite (C92_kriging_unbiased coin 3 E) by (auto using coin_centred; try lia; intros; lra).
    unfold kriging_points, exceedance. cbn [Nat.sub seq map joint]. unfold dirac, marginal, E, coin, finite. cbn. rewrite !sqrt_0. decide_lt.
  - intros N HN. rewrite (C92_chaos_unbiased coin 3 E) by (auto; try lia; apply coin_centred). unfold E, coin, finite. cbn. decide_lt.
  - unfold analysis_points, marginal, E, finite. cbn. decide_lt.
Qed.
(** Finding: a parameter that depends on the defect size. No class uses the law of the parameter for the size considered. *)
Definition given_defect (E : law (list R)) (a : R) : law (list R) :=
  fun f => E (fun x => if Req_EM_T (nth 0 x 0) a then f x else 0) / E (fun x => if Req_EM_T (nth 0 x 0) a then 1 else 0).
Theorem C92_conditional_refuted :
  exists E a proba, is_law (of_dim 2) E /\ is_law (fun x => of_dim 2 x /\ nth 0 x 0 = a) (given_defect E a) /\ given_defect E a proba = 1 /\
    forall N, (0 < N)%nat -> hitmiss_node_expectation (merged_points E a) proba N = 1 / 2.
Proof.
  set (E := finite [(1 / 2, [0; 0]); (1 / 2, [1; 1])]).
  assert (L : is_law (of_dim 2) E) by (apply finite_law; [intros p [<-|[<-|[]]]; cbn; split; [lra|reflexivity|lra|reflexivity]|cbn; lra]).
  assert (G : forall f, given_defect E 1 f = f [1; 1]).
  { intros f. unfold given_defect, E, finite. cbn. destruct (Req_EM_T 0 1); [lra|]. destruct (Req_EM_T 1 1); [|lra]. field. }
  exists E, 1, (fun x => nth 1 x 0). split; [exact L|]. split.
  - split; intros; rewrite ?G; auto; apply H; split; reflexivity.
  - split; [rewrite G; reflexivity|]. intros N HN. rewrite (C92_hitmiss_unbiased 2 E) by (auto; lia). unfold E, finite. cbn. lra.
Qed.
(** Cases for the hypotheses: three independent coordinates, two values each. *)
Example C92_case : exists E, is_law (of_dim 3) E /\ independent 3 E /\ same_parameters E (finite [(1 / 2, [7; 0; 0]); (1 / 2, [8; 0; 1])]) /\ centred coin /\
  kriging_node_expectation coin (kriging_points 3 E 5) 6 (fun x => nth 0 x 0 + nth 2 x 0) (fun _ => 1 / 4) 10 20 = 1 / 4.
Proof.
  set (E := finite [(1 / 4, [7; 0; 0]); (1 / 4, [7; 0; 1]); (1 / 4, [9; 0; 0]); (1 / 4, [9; 0; 1])]).
  assert (L : is_law (of_dim 3) E) by (apply finite_law; [intros p [<-|[<-|[<-|[<-|[]]]]]; cbn; (split; [lra|reflexivity])|cbn; lra]).
  exists E. split; [exact L|]. split; [|split; [|split; [apply coin_centred|]]].
  - intros f. unfold E, marginal, finite. cbn. field.
  - intros f. unfold E, finite. cbn. field.
  - rewrite (C92_kriging_unbiased coin 3 E) by (auto using coin_centred; try lia; intros; lra). unfold kriging_points, exceedance. cbn [Nat.sub seq map joint]. unfold dirac, marginal, E, coin, finite. cbn.
    replace (sqrt (1 / 4)) with (1 / 2) by (symmetry; apply sqrt_lem_1; lra). decide_lt.
Qed.
Print Assumptions C92_kriging_unbiased.
Print Assumptions C92_chaos_unbiased.
Print Assumptions C92_hitmiss_unbiased.
Print Assumptions C92_defect_law_unused.
Print Assumptions C92_one_parameter.
Print Assumptions C92_independent.
Print Assumptions C92_dependence_refuted.
Print Assumptions C92_conditional_refuted.
