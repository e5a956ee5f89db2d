(** C10: detection size labels. *)
From Coq Require Import String SpecFloat Reals Lra.
From Flocq Require Import Core.
From Verif Require Import Base Float64 FloatBridge LabelsModel LabelsProofs.
Local Open Scope string_scope.
Local Open Scope list_scope.

(** The levels k/100: the label is k except at k = 29, 57, 58, where it is k-1. *)
Theorem C10_hundredths :
  forall k j : Z, (0 <= k <= 100)%Z -> (0 <= j <= 100)%Z ->
    let show n := if (n =? 29)%Z || (n =? 57)%Z || (n =? 58)%Z then (n - 1)%Z else n in
    labels (of_ratio k 100) None = Ok ["a" ++ dec (show k)]%string /\
    labels (of_ratio k 100) (Some (of_ratio j 100))
    = Ok ["a" ++ dec (show k); "a" ++ dec (show k) ++ "/" ++ dec (show j)]%string.
Proof.
  intros k j Hk Hj. cbv zeta. unfold labels.
  change (of_ratio k 100) with (hundredth k). change (of_ratio j 100) with (hundredth j).
  rewrite (percent_hundredth k Hk), (percent_hundredth j Hj). cbn [bind].
  unfold shown. cbn [existsb]. rewrite !orb_false_r, !orb_assoc. split; reflexivity.
Qed.
Print Assumptions C10_hundredths.
Example C10_hundredths_example :
  labels (of_ratio 90 100) (Some (of_ratio 95 100)) = Ok ["a90"; "a90/95"] /\
  labels (of_ratio 29 100) None = Ok ["a28"].
Proof. split; vm_compute; reflexivity. Qed.

(** Any double level in [0,1]: the label is one of the two integers around 100 p, between 0 and 100, and the labels are
    ordered like the levels. *)
Theorem C10_any_level :
  forall p : float, fin p -> (0 <= fR p <= 1)%R ->
    exists z, labels p None = Ok ["a" ++ dec z]%string /\ (0 <= z <= 100)%Z /\
      (Zfloor (100 * fR p) <= z <= Zceil (100 * fR p))%Z.
Proof.
  intros p Hp Hr. destruct (percent_range p Hp Hr) as [z [E [H1 [H2 _]]]].
  exists z. unfold labels. rewrite E. auto.
Qed.
Print Assumptions C10_any_level.
Theorem C10_labels_ordered :
  forall (p q : float) (a b : Z), fin p -> fin q -> (0 <= fR p <= fR q)%R -> (fR q <= 1)%R ->
    labels p None = Ok ["a" ++ dec a]%string -> labels q None = Ok ["a" ++ dec b]%string -> (a <= b)%Z.
Proof.
  intros p q a b Hp Hq H1 H2 E1 E2. unfold labels in *.
  destruct (percent p) as [a'|] eqn:Ea; [|discriminate]. destruct (percent q) as [b'|] eqn:Eb; [|discriminate].
  cbn in E1, E2. injection E1 as E1. injection E2 as E2. apply dec_inj in E1, E2. subst.
  exact (percent_monotone p q a b Hp Hq (proj1 H1) (proj2 H1) H2 Ea Eb).
Qed.
Print Assumptions C10_labels_ordered.
Example C10_any_level_example : fin (of_ratio 123 1000) /\ labels (of_ratio 123 1000) None = Ok ["a12"].
Proof. split; [split; vm_compute; reflexivity|vm_compute; reflexivity]. Qed.

(** Finding: two different percentages can carry the same label. *)
Theorem C10_labels_distinct_refuted :
  exists k j : Z, (1 <= k < j)%Z /\ (j <= 99)%Z /\
    labels (of_ratio k 100) None = labels (of_ratio j 100) None.
Proof. exists 56%Z, 57%Z. split; [lia|]. split; [lia|]. vm_compute. reflexivity. Qed.
Print Assumptions C10_labels_distinct_refuted.
