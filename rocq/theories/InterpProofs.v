(** Lemmas on piecewise linear interpolation. *)
From Verif Require Import RealBase QuantileModel QuantileProofs InterpModel.
Local Open Scope R_scope.

(** Strictly increasing abscissae. *)
Definition increasing (nodes : list (R * R)) : Prop := StronglySorted (fun p q => fst p < fst q) nodes.
Definition first_x (nodes : list (R * R)) : R := match nodes with [] => 0 | p :: _ => fst p end.
Fixpoint last_x (nodes : list (R * R)) : R :=
  match nodes with [] => 0 | [p] => fst p | _ :: rest => last_x rest end.

Lemma increasing_tail p l : increasing (p :: l) -> increasing l.
Proof. now inversion 1. Qed.
Lemma increasing_head p q l : increasing (p :: q :: l) -> fst p < fst q.
Proof. inversion 1 as [|? ? _ H']; subst. now inversion H'. Qed.
Lemma increasing_last_ge nodes p : increasing nodes -> In p nodes -> fst p <= last_x nodes.
Proof.
  revert p. induction nodes as [|[a y] nodes IH]; intros p Hs Hp; [destruct Hp|].
  destruct nodes as [|[b z] rest].
  - destruct Hp as [<-|[]]. cbn. lra.
  - change (last_x ((a, y) :: (b, z) :: rest)) with (last_x ((b, z) :: rest)).
    assert (Hab := increasing_head _ _ _ Hs). cbn in Hab.
    destruct Hp as [<-|Hp]; [|apply (IH p); [now apply increasing_tail in Hs|exact Hp]].
    assert (G := IH (b, z) (increasing_tail _ _ Hs) (or_introl eq_refl)). cbn [fst] in *. lra.
Qed.
Lemma increasing_first_le nodes p : increasing nodes -> In p nodes -> first_x nodes <= fst p.
Proof.
  destruct nodes as [|q nodes]; [intros _ []|]. intros Hs [<-|Hp]; cbn [first_x]; [lra|].
  inversion Hs as [|? ? _ Hall]; subst. rewrite Forall_forall in Hall. apply Rlt_le. now apply Hall.
Qed.

Lemma interp_cons2 a y b z rest t :
  interp ((a, y) :: (b, z) :: rest) t =
  if Rltb t a then Raise ValueError
  else if Rltb t b then Ok (y + (z - y) / (b - a) * (t - a)) else interp ((b, z) :: rest) t.
Proof. reflexivity. Qed.
(** Domain *)
Lemma interp_domain nodes t : nodes <> [] -> increasing nodes ->
  (first_x nodes <= t <= last_x nodes -> exists v, interp nodes t = Ok v) /\
  (~ (first_x nodes <= t <= last_x nodes) -> interp nodes t = Raise ValueError).
Proof.
  induction nodes as [|[a y] nodes IH]; [congruence|]. intros _ Hs.
  destruct nodes as [|[b z] rest].
  - cbn. destruct (Rltb_spec t a); [split; [lra|reflexivity]|].
    destruct (Rltb_spec a t); split; try lra; try reflexivity; eauto.
  - change (last_x ((a, y) :: (b, z) :: rest)) with (last_x ((b, z) :: rest)).
    cbn [first_x fst]. rewrite interp_cons2.
    assert (Hab := increasing_head _ _ _ Hs). cbn in Hab.
    assert (Hl := increasing_last_ge _ (b, z) (increasing_tail _ _ Hs) (or_introl eq_refl)). cbn [fst] in Hl.
    destruct (IH ltac:(discriminate) (increasing_tail _ _ Hs)) as [IH1 IH2]. cbn [first_x fst] in IH1, IH2.
    destruct (Rltb_spec t a); [split; [lra|reflexivity]|].
    destruct (Rltb_spec t b); [split; [eauto|lra]|].
    split; [intros H; apply IH1; lra|intros H; apply IH2; lra].
Qed.

(** The affine function between two consecutive nodes. *)
Lemma interp_between l1 a y b z l2 t : increasing (l1 ++ (a, y) :: (b, z) :: l2) -> a <= t <= b ->
  interp (l1 ++ (a, y) :: (b, z) :: l2) t = Ok (y + (z - y) * ((t - a) / (b - a))).
Proof.
  revert a y b z. induction l1 as [|[c w] l1 IH]; intros a y b z Hs Ht.
  - cbn [app] in *. assert (Hab := increasing_head _ _ _ Hs). cbn [fst] in Hab. rewrite interp_cons2.
    destruct (Rltb_spec t a); [lra|]. destruct (Rltb_spec t b).
    + f_equal. field. lra.
    + assert (t = b) by lra. subst t.
      replace (y + (z - y) * ((b - a) / (b - a))) with z by (field; lra).
      destruct l2 as [|[e v] l2]; [cbn; destruct (Rltb_spec b b); [lra|reflexivity]|].
      rewrite interp_cons2. destruct (Rltb_spec b b); [lra|].
      apply increasing_tail in Hs. assert (Hbe := increasing_head _ _ _ Hs). cbn [fst] in Hbe.
      destruct (Rltb_spec b e); [|lra]. f_equal. field. lra.
  - cbn [app interp] in *.
    assert (Hc : c < a).
    { inversion Hs as [|? ? _ Hall]; subst. rewrite Forall_forall in Hall.
      apply (Hall (a, y)). apply in_or_app. right. now left. }
    destruct (Rltb_spec t c); [lra|].
    assert (IH' := IH a y b z (increasing_tail _ _ Hs) Ht).
    destruct (l1 ++ (a, y) :: (b, z) :: l2) as [|[d v] rest] eqn:E; [destruct l1; discriminate|].
    destruct (Rltb_spec t d) as [Hd|Hd]; [|exact IH'].
    exfalso. assert (Hda : d <= a).
    { apply increasing_tail in Hs. assert (G := increasing_first_le _ (a, y) Hs).
      cbn [first_x fst] in G. apply G. rewrite <- E. apply in_or_app. right. now left. }
    lra.
Qed.

(** Value at a node. *)
Lemma interp_node nodes a y : increasing nodes -> In (a, y) nodes -> interp nodes a = Ok y.
Proof.
  intros Hs Hin. destruct (in_split _ _ Hin) as [l1 [l2 ->]].
  destruct l2 as [|[b z] l2].
  - destruct l1 as [|q l1] using rev_ind.
    + cbn. destruct (Rltb_spec a a); [lra|]. reflexivity.
    + destruct q as [b z]. rewrite <- app_assoc in *. cbn [app] in *.
      assert (Hba : b < a).
      { clear -Hs. induction l1 as [|p l1 IH]; cbn [app] in *; [apply (increasing_head _ _ _ Hs)|].
        apply IH. now apply increasing_tail in Hs. }
      rewrite interp_between by (auto; lra). f_equal. field. lra.
  - assert (Hab : a < b).
    { clear -Hs. induction l1 as [|p l1 IH]; cbn [app] in *; [apply (increasing_head _ _ _ Hs)|].
      apply IH. now apply increasing_tail in Hs. }
    rewrite interp_between by (auto; lra). f_equal. field. lra.
Qed.

(** Every point of the domain is a node or between two consecutive nodes. *)
Lemma interp_locate nodes t : increasing nodes -> nodes <> [] -> first_x nodes <= t <= last_x nodes ->
  (exists y, In (t, y) nodes) \/
  (exists l1 a y b z l2, nodes = l1 ++ (a, y) :: (b, z) :: l2 /\ a < t < b).
Proof.
  induction nodes as [|[a y] nodes IH]; [congruence|]. intros Hs _ Ht.
  destruct nodes as [|[b z] rest].
  - cbn in Ht. left. exists y. left. f_equal. lra.
  - change (last_x ((a, y) :: (b, z) :: rest)) with (last_x ((b, z) :: rest)) in Ht. cbn [first_x fst] in *.
    destruct (Rlt_dec t b) as [Hb|Hb].
    + destruct (Req_dec t a) as [->|Ha]; [left; exists y; now left|].
      right. exists [], a, y, b, z, rest. split; [reflexivity|lra].
    + destruct (IH (increasing_tail _ _ Hs) ltac:(discriminate)) as [[y' Hy]|[l1 [a' [y' [b' [z' [l2 [E Ht']]]]]]]].
      * lra.
      * left. exists y'. now right.
      * right. exists ((a, y) :: l1), a', y', b', z', l2. rewrite E. split; [reflexivity|exact Ht'].
Qed.

Lemma convex_between y z w : 0 <= w <= 1 -> Rmin y z <= y + (z - y) * w <= Rmax y z.
Proof.
  intros Hw. unfold Rmin, Rmax. destruct (Rle_dec y z).
  - assert (0 <= (z - y) * w) by (apply Rmult_le_pos; lra).
    assert (0 <= (z - y) * (1 - w)) by (apply Rmult_le_pos; lra). lra.
  - assert (0 <= (y - z) * w) by (apply Rmult_le_pos; lra).
    assert (0 <= (y - z) * (1 - w)) by (apply Rmult_le_pos; lra). lra.
Qed.
Lemma ratio_unit a b t : a < b -> a <= t <= b -> 0 <= (t - a) / (b - a) <= 1.
Proof.
  intros Hab Ht. split.
  - apply Rmult_le_pos; [lra|]. apply Rlt_le, Rinv_0_lt_compat. lra.
  - apply (Rmult_le_reg_r (b - a)); [lra|]. unfold Rdiv. rewrite Rmult_assoc, Rinv_l by lra. lra.
Qed.

(** Interpolated values are between node values. *)
Lemma interp_range nodes t v lo hi : increasing nodes -> interp nodes t = Ok v ->
  (forall p, In p nodes -> lo <= snd p <= hi) -> lo <= v <= hi.
Proof.
  intros Hs Hv Hall.
  assert (Hn : nodes <> []) by (intros ->; discriminate).
  destruct (interp_domain nodes t Hn Hs) as [_ Hd].
  assert (Ht : first_x nodes <= t <= last_x nodes).
  { destruct (Rle_dec (first_x nodes) t); [destruct (Rle_dec t (last_x nodes)); [auto|]|];
      rewrite Hd in Hv by lra; discriminate. }
  destruct (interp_locate nodes t Hs Hn Ht) as [[y Hy]|[l1 [a [y [b [z [l2 [E Hab]]]]]]]].
  - rewrite (interp_node _ _ _ Hs Hy) in Hv. injection Hv as <-. apply (Hall _ Hy).
  - subst nodes. rewrite interp_between in Hv by (auto; lra). injection Hv as <-.
    assert (H1 := Hall (a, y) ltac:(apply in_or_app; right; now left)).
    assert (H2 := Hall (b, z) ltac:(apply in_or_app; right; right; now left)). cbn in H1, H2.
    assert (C := convex_between y z ((t - a) / (b - a)) (ratio_unit a b t ltac:(lra) ltac:(lra))).
    unfold Rmin, Rmax in C. destruct (Rle_dec y z); lra.
Qed.

(** Monotone ordinates give a monotone curve. *)
Definition nondecreasing (nodes : list (R * R)) : Prop := StronglySorted (fun p q => snd p <= snd q) nodes.
Lemma interp_ge_first a y nodes t v : increasing ((a, y) :: nodes) -> nondecreasing ((a, y) :: nodes) ->
  interp ((a, y) :: nodes) t = Ok v -> y <= v.
Proof.
  intros Hs Hm Hv. 
  assert (B : y <= v <= Rlmax (map snd ((a, y) :: nodes))).
  { apply (interp_range _ t v _ _ Hs Hv). intros p Hp. split.
    - inversion Hm as [|? ? _ Hall]; subst. destruct Hp as [<-|Hp]; [cbn; lra|].
      rewrite Forall_forall in Hall. now apply Hall.
    - apply Rlmax_ge. now apply in_map. }
  lra.
Qed.
Lemma interp_mono nodes : increasing nodes -> nondecreasing nodes ->
  forall t1 t2 v1 v2, t1 <= t2 -> interp nodes t1 = Ok v1 -> interp nodes t2 = Ok v2 -> v1 <= v2.
Proof.
  induction nodes as [|[a y] nodes IH]; intros Hs Hm t1 t2 v1 v2 Ht H1 H2; [discriminate|].
  destruct nodes as [|[b z] rest].
  - cbn in H1, H2. destruct (Rltb t1 a), (Rltb t2 a), (Rltb a t1), (Rltb a t2); try discriminate.
    injection H1 as <-. injection H2 as <-. lra.
  - rewrite interp_cons2 in H1, H2. assert (Hab := increasing_head _ _ _ Hs). cbn [fst] in Hab.
    assert (Hyz : y <= z) by (inversion Hm as [|? ? _ Hall]; subst; inversion Hall; subst; assumption).
    assert (Hm' : nondecreasing ((b, z) :: rest)) by now inversion Hm.
    assert (Hs' := increasing_tail _ _ Hs).
    destruct (Rltb_spec t1 a); [discriminate|]. destruct (Rltb_spec t2 a); [discriminate|].
    assert (Hslope : 0 <= (z - y) / (b - a)).
    { apply Rmult_le_pos; [lra|]. apply Rlt_le, Rinv_0_lt_compat. lra. }
    destruct (Rltb_spec t1 b), (Rltb_spec t2 b); try lra.
    + injection H1 as <-. injection H2 as <-.
      assert ((z - y) / (b - a) * (t1 - a) <= (z - y) / (b - a) * (t2 - a)) by (apply Rmult_le_compat_l; lra). lra.
    + injection H1 as <-. apply Rle_trans with z; [|now apply (interp_ge_first b z rest t2)].
      assert (E : z = y + (z - y) / (b - a) * (b - a)) by (field; lra).
      assert ((z - y) / (b - a) * (t1 - a) <= (z - y) / (b - a) * (b - a)) by (apply Rmult_le_compat_l; lra). lra.
    + apply (IH Hs' Hm' t1 t2); auto.
Qed.

(** *** interp1d: sorting the nodes *)
Lemma node_leb_total p q : node_leb p q = true \/ node_leb q p = true.
Proof. apply Rleb_total. Qed.
Lemma node_leb_trans p q r : node_leb p q = true -> node_leb q r = true -> node_leb p r = true.
Proof. apply Rleb_trans. Qed.
Lemma sorted_nodup_increasing nodes : Sorted_by node_leb nodes -> NoDup (map fst nodes) -> increasing nodes.
Proof.
  induction 1 as [|p nodes Hs IH Hall]; intros Hn; constructor.
  - apply IH. now inversion Hn.
  - inversion Hn as [|? ? Hnot _]; subst. rewrite Forall_forall in *. intros q Hq.
    assert (H1 := Hall q Hq). apply Rleb_true in H1. destruct H1 as [H1|H1]; [exact H1|].
    exfalso. apply Hnot. rewrite H1. now apply in_map.
Qed.
Lemma node_sort_perm nodes : Permutation (node_sort nodes) nodes.
Proof. apply isort_perm. Qed.
Lemma node_sort_increasing nodes : NoDup (map fst nodes) -> increasing (node_sort nodes).
Proof.
  intros Hn. apply sorted_nodup_increasing.
  - apply isort_sorted; [apply node_leb_total|apply node_leb_trans].
  - eapply Permutation_NoDup; [apply Permutation_map, Permutation_sym, node_sort_perm|exact Hn].
Qed.
Lemma increasing_sorted nodes : increasing nodes -> Sorted_by node_leb nodes.
Proof.
  induction 1 as [|p nodes Hs IH Hall]; constructor; auto.
  eapply Forall_impl; [|exact Hall]. intros q Hq. apply Rleb_true. lra.
Qed.
Lemma node_sort_id nodes : increasing nodes -> node_sort nodes = nodes.
Proof. intros H. apply isort_id. now apply increasing_sorted. Qed.
Lemma map_fst_combine' {A B} : forall (l : list A) (l' : list B), length l = length l' -> map fst (combine l l') = l.
Proof.
  induction l as [|x l IH]; intros [|y l'] H; cbn in *; try discriminate; [reflexivity|]. f_equal. apply IH. lia.
Qed.
Lemma map_snd_combine' {A B} : forall (l : list A) (l' : list B), length l = length l' -> map snd (combine l l') = l'.
Proof.
  induction l as [|x l IH]; intros [|y l'] H; cbn in *; try discriminate; [reflexivity|]. f_equal. apply IH. lia.
Qed.
Definition strictly_increasing (xs : list R) : Prop := StronglySorted Rlt xs.
Lemma combine_increasing : forall xs ys, length xs = length ys -> strictly_increasing xs -> increasing (combine xs ys).
Proof.
  induction xs as [|x xs IH]; intros [|y ys] HL Hs; try discriminate; cbn; [constructor|].
  inversion Hs as [|? ? Hs' Hall]; subst. constructor; [apply IH; auto|].
  rewrite Forall_forall in *. intros [a b] Hp. apply in_combine_l in Hp. cbn. now apply Hall.
Qed.
Lemma combine_nondecreasing : forall xs ys, length xs = length ys -> StronglySorted Rle ys -> nondecreasing (combine xs ys).
Proof.
  induction xs as [|x xs IH]; intros [|y ys] HL Hs; try discriminate; cbn; [constructor|].
  inversion Hs as [|? ? Hs' Hall]; subst. constructor; [apply IH; auto|].
  rewrite Forall_forall in *. intros [a b] Hp. apply in_combine_r in Hp. cbn. now apply Hall.
Qed.
Lemma first_x_combine xs ys : length xs = length ys -> first_x (combine xs ys) = nth 0 xs 0.
Proof. destruct xs, ys; intros; try discriminate; reflexivity. Qed.
Lemma last_x_combine : forall xs ys, length xs = length ys -> last_x (combine xs ys) = last xs 0.
Proof.
  induction xs as [|x xs IH]; intros [|y ys] HL; try discriminate; [reflexivity|].
  destruct xs as [|x' xs], ys as [|y' ys]; try discriminate; [reflexivity|].
  cbn [combine] in *. change (last_x ((x', y') :: combine xs ys) = last (x' :: xs) 0).
  apply (IH (y' :: ys)). cbn in *. lia.
Qed.
Lemma interp1d_sorted xs ys t : length xs = length ys -> strictly_increasing xs ->
  interp1d xs ys t = interp (combine xs ys) t.
Proof.
  intros HL Hs. unfold interp1d. rewrite HL, Nat.eqb_refl, node_sort_id; [reflexivity|].
  now apply combine_increasing.
Qed.

(** *** Versions for nodes with equal abscissae *)
Definition weakly_increasing (nodes : list (R * R)) : Prop := StronglySorted (fun p q => fst p <= fst q) nodes.
Lemma sorted_weakly nodes : Sorted_by node_leb nodes -> weakly_increasing nodes.
Proof.
  induction 1 as [|p nodes Hs IH Hall]; constructor; auto.
  eapply Forall_impl; [|exact Hall]. intros q Hq. now apply Rleb_true.
Qed.
Lemma weakly_sorted nodes : weakly_increasing nodes -> Sorted_by node_leb nodes.
Proof.
  induction 1 as [|p nodes Hs IH Hall]; constructor; auto.
  eapply Forall_impl; [|exact Hall]. intros q Hq. now apply Rleb_true.
Qed.
Lemma node_sort_weak nodes : weakly_increasing (node_sort nodes).
Proof. apply sorted_weakly. apply isort_sorted; [apply node_leb_total|apply node_leb_trans]. Qed.
Lemma weak_tail p l : weakly_increasing (p :: l) -> weakly_increasing l.
Proof. now inversion 1. Qed.
Lemma weak_last_ge nodes p : weakly_increasing nodes -> In p nodes -> fst p <= last_x nodes.
Proof.
  revert p. induction nodes as [|[a y] nodes IH]; intros p Hs Hp; [destruct Hp|].
  destruct nodes as [|[b z] rest].
  - destruct Hp as [<-|[]]. cbn. lra.
  - change (last_x ((a, y) :: (b, z) :: rest)) with (last_x ((b, z) :: rest)).
    assert (Hab : a <= b) by (inversion Hs as [|? ? _ Hall]; subst; inversion Hall; subst; assumption).
    destruct Hp as [<-|Hp]; [|apply (IH p); [now apply weak_tail in Hs|exact Hp]].
    assert (G := IH (b, z) (weak_tail _ _ Hs) (or_introl eq_refl)). cbn [fst] in *. lra.
Qed.
Lemma weak_first_le nodes p : weakly_increasing nodes -> In p nodes -> first_x nodes <= fst p.
Proof.
  destruct nodes as [|q nodes]; [intros _ []|]. intros Hs [<-|Hp]; cbn [first_x]; [lra|].
  inversion Hs as [|? ? _ Hall]; subst. rewrite Forall_forall in Hall. now apply Hall.
Qed.
Lemma first_x_in nodes : nodes <> [] -> exists y, In (first_x nodes, y) nodes.
Proof. destruct nodes as [|[a y] nodes]; [congruence|]. intros _. exists y. now left. Qed.
Lemma last_x_in nodes : nodes <> [] -> exists y, In (last_x nodes, y) nodes.
Proof.
  induction nodes as [|[a y] nodes IH]; [congruence|]. intros _.
  destruct nodes as [|q rest]; [exists y; now left|].
  destruct IH as [y' Hy]; [discriminate|]. exists y'. right. exact Hy.
Qed.
Lemma interp_domain_weak nodes t : nodes <> [] -> weakly_increasing nodes ->
  (first_x nodes <= t <= last_x nodes -> exists v, interp nodes t = Ok v) /\
  (~ (first_x nodes <= t <= last_x nodes) -> interp nodes t = Raise ValueError).
Proof.
  induction nodes as [|[a y] nodes IH]; [congruence|]. intros _ Hs.
  destruct nodes as [|[b z] rest].
  - cbn. destruct (Rltb_spec t a); [split; [lra|reflexivity]|].
    destruct (Rltb_spec a t); split; try lra; try reflexivity; eauto.
  - change (last_x ((a, y) :: (b, z) :: rest)) with (last_x ((b, z) :: rest)).
    cbn [first_x fst]. rewrite interp_cons2.
    assert (Hab : a <= b) by (inversion Hs as [|? ? _ Hall]; subst; inversion Hall; subst; assumption).
    assert (Hl := weak_last_ge _ (b, z) (weak_tail _ _ Hs) (or_introl eq_refl)). cbn [fst] in Hl.
    destruct (IH ltac:(discriminate) (weak_tail _ _ Hs)) as [IH1 IH2]. cbn [first_x fst] in IH1, IH2.
    destruct (Rltb_spec t a); [split; [lra|reflexivity]|].
    destruct (Rltb_spec t b); [split; [eauto|lra]|].
    split; [intros H; apply IH1; lra|intros H; apply IH2; lra].
Qed.
Lemma interp_range_any nodes t v lo hi : interp nodes t = Ok v ->
  (forall p, In p nodes -> lo <= snd p <= hi) -> lo <= v <= hi.
Proof.
  induction nodes as [|[a y] nodes IH]; intros Hv Hall; [discriminate|].
  destruct nodes as [|[b z] rest].
  - cbn in Hv. destruct (Rltb t a), (Rltb a t); try discriminate. injection Hv as <-.
    apply (Hall (a, y)). now left.
  - rewrite interp_cons2 in Hv. destruct (Rltb_spec t a); [discriminate|]. destruct (Rltb_spec t b).
    + injection Hv as <-.
      assert (H1 := Hall (a, y) (or_introl eq_refl)). assert (H2 := Hall (b, z) (or_intror (or_introl eq_refl))).
      cbn [snd] in H1, H2.
      assert (C := convex_between y z ((t - a) / (b - a)) (ratio_unit a b t ltac:(lra) ltac:(lra))).
      replace ((z - y) / (b - a) * (t - a)) with ((z - y) * ((t - a) / (b - a))) by (field; lra).
      unfold Rmin, Rmax in C. destruct (Rle_dec y z); lra.
    + apply IH; [exact Hv|]. intros p Hp. apply Hall. now right.
Qed.
Lemma interp_mono_any nodes : nondecreasing nodes ->
  forall t1 t2 v1 v2, t1 <= t2 -> interp nodes t1 = Ok v1 -> interp nodes t2 = Ok v2 -> v1 <= v2.
Proof.
  induction nodes as [|[a y] nodes IH]; intros Hm t1 t2 v1 v2 Ht H1 H2; [discriminate|].
  destruct nodes as [|[b z] rest].
  - cbn in H1, H2. destruct (Rltb t1 a), (Rltb t2 a), (Rltb a t1), (Rltb a t2); try discriminate.
    injection H1 as <-. injection H2 as <-. lra.
  - rewrite interp_cons2 in H1, H2.
    assert (Hyz : y <= z) by (inversion Hm as [|? ? _ Hall]; subst; inversion Hall; subst; assumption).
    assert (Hm' : nondecreasing ((b, z) :: rest)) by now inversion Hm.
    destruct (Rltb_spec t1 a); [discriminate|]. destruct (Rltb_spec t2 a); [discriminate|].
    destruct (Rltb_spec t1 b) as [L1|L1], (Rltb_spec t2 b) as [L2|L2]; try lra.
    + injection H1 as <-. injection H2 as <-.
      assert (Hslope : 0 <= (z - y) / (b - a)).
      { apply Rmult_le_pos; [lra|]. apply Rlt_le, Rinv_0_lt_compat. lra. }
      assert ((z - y) / (b - a) * (t1 - a) <= (z - y) / (b - a) * (t2 - a)) by (apply Rmult_le_compat_l; lra). lra.
    + injection H1 as <-.
      assert (Hslope : 0 <= (z - y) / (b - a)).
      { apply Rmult_le_pos; [lra|]. apply Rlt_le, Rinv_0_lt_compat. lra. }
      assert (E : z = y + (z - y) / (b - a) * (b - a)) by (field; lra).
      assert ((z - y) / (b - a) * (t1 - a) <= (z - y) / (b - a) * (b - a)) by (apply Rmult_le_compat_l; lra).
      assert (B : z <= v2 <= Rlmax (map snd ((b, z) :: rest))).
      { apply (interp_range_any _ t2 v2 _ _ H2). intros p Hp. split.
        - inversion Hm' as [|? ? _ Hall]; subst. destruct Hp as [<-|Hp]; [cbn; lra|].
          rewrite Forall_forall in Hall. now apply Hall.
        - apply Rlmax_ge. now apply in_map. }
      lra.
    + apply (IH Hm' t1 t2); auto.
Qed.
