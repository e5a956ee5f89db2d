(** C56: bookkeeping of the perturbation law indices over the defect sizes. *)
From Verif Require Import RealBase PliPodModel.
Require Import ZArith.
Local Open Scope R_scope.
Arguments Placeholder {Obj}. Arguments Filled {Obj} o. Arguments sizes {Obj}. Arguments number {Obj}. Arguments indices {Obj}.
Arguments pli {Obj}. Arguments keeped {Obj}. Arguments clock {Obj}. Arguments init {Obj}. Arguments initialize {Obj}.
Arguments setDefectSizes {Obj}. Arguments getPLIObject {Obj}. Arguments run {Obj}. Arguments step {Obj}. Arguments loop {Obj}.

(** *** Slices *)
(** Index i of an axis of length n is the one meant by the Python integer z. *)
Definition denotes (n : nat) (z : Z) (i : nat) : Prop := (i < n)%nat /\ (Z.of_nat i = z \/ Z.of_nat i = z + Z.of_nat n)%Z.
Lemma py_index_spec n z i : py_index n z = Some i <-> denotes n z i.
Proof.
  unfold py_index, denotes. destruct (Z.leb_spec 0 z), (Z.ltb_spec z (Z.of_nat n)); cbn [andb].
  - split; [intros [= <-]; lia|]. intros [? [?|?]]; f_equal; lia.
  - destruct (Z.leb_spec (- Z.of_nat n) z), (Z.ltb_spec z 0); cbn [andb]; try lia; (split; [discriminate|lia]).
  - destruct (Z.leb_spec (- Z.of_nat n) z), (Z.ltb_spec z 0); cbn [andb]; try lia.
    + split; [intros [= <-]; lia|]. intros [? [?|?]]; f_equal; lia.
    + split; [discriminate|lia].
  - destruct (Z.leb_spec (- Z.of_nat n) z), (Z.ltb_spec z 0); cbn [andb]; try lia; (split; [discriminate|lia]).
Qed.
Definition dims (s : slice) : list nat :=
  match s with S3 a => [n_delta a; n_marginal a; n_defect a] | S2 r c _ => [r; c] | S1 n _ => [n] | S0 _ => [] end.
Definition value_at (s : slice) (l : list nat) : option (option R) :=
  match s, l with S3 a, [i; j; k] => Some (at3 a i j k) | S2 _ _ f, [i; j] => Some (f i j) | S1 _ f, [i] => Some (f i) | S0 v, [] => Some v | _, _ => None end.
(** An omitted argument leaves its axis. *)
Definition free (arg : option Z) (i : nat) : list nat := match arg with None => [i] | Some _ => [] end.
Definition selects (n : nat) (arg : option Z) (i : nat) : Prop := match arg with None => (i < n)%nat | Some z => denotes n z i end.
Theorem C56_getIndices :
  forall a idelta marginal idefect,
  match getIndices a idelta marginal idefect with
  | Ok s =>
      dims s = free idelta (n_delta a) ++ free marginal (n_marginal a) ++ free idefect (n_defect a) /\
      (forall i j k, selects (n_delta a) idelta i -> selects (n_marginal a) marginal j -> selects (n_defect a) idefect k ->
       value_at s (free idelta i ++ free marginal j ++ free idefect k) = Some (at3 a i j k))
  | Raise e => e = IndexError /\
      ((exists z, idelta = Some z /\ forall i, ~ denotes (n_delta a) z i) \/ (exists z, marginal = Some z /\ forall i, ~ denotes (n_marginal a) z i) \/
       (exists z, idefect = Some z /\ forall i, ~ denotes (n_defect a) z i))
  end.
Proof.
  assert (N : forall n z, py_index n z = None -> forall i, ~ denotes n z i).
  { intros n z E i D. apply py_index_spec in D. congruence. }
  intros a [i0|] [j0|] [k0|]; cbn [getIndices free app selects];
    repeat match goal with |- context[or_index (py_index ?n ?z)] => let E := fresh "E" in destruct (py_index n z) eqn:E; cbn [or_index bind] end;
    cbn [dims value_at];
    try (split; [reflexivity|]; intros i j k Hi Hj Hk;
         repeat match goal with H : denotes _ _ _ |- _ => apply py_index_spec in H end; cbn; congruence);
    (split; [reflexivity|]);
    first [now left; eexists; split; [reflexivity|apply N] | now right; left; eexists; split; [reflexivity|apply N] | now right; right; eexists; split; [reflexivity|apply N]].
Qed.
Example C56_getIndices_example :
  exists s, getIndices {| n_delta := 2; n_marginal := 3; n_defect := 4; at3 := fun i j k => Some (INR (i + 10 * j + 100 * k)) |} (Some 1%Z) None (Some (-1)%Z) = Ok s /\
  dims s = [3%nat] /\ value_at s [2%nat] = Some (Some (INR 321)).
Proof. eexists. split; [reflexivity|]. split; reflexivity. Qed.

(** Which defects are kept. *)
Theorem C56_kept : forall pf, kept pf = true <-> 1 / 1000 < pf < 999 / 1000.
Proof.
  intros pf. unfold kept. destruct (Rltb_spec (1 / 1000) pf), (Rltb_spec pf (999 / 1000)); cbn; split; intros; try discriminate; try lra; reflexivity.
Qed.
Section Runs.
Context {Obj : Type}.
Variable mc : nat -> R -> R.
Variable define : nat -> R -> res Obj.
Variable solve : Obj -> res (nat -> nat -> option R).

(** As many sizes as matrices and objects. *)
Definition consistent (st : pstate Obj) : Prop :=
  number st = length (sizes st) /\ n_defect (indices st) = length (sizes st) /\ length (pli st) = length (sizes st).
Theorem C56_constructor : forall nd nm l, consistent (init nd nm l) /\ keeped (init nd nm l : pstate Obj) = None.
Proof. intros. unfold consistent, init, initialize. cbn. rewrite repeat_length. auto. Qed.
Theorem C56_setDefectSizes_empty : forall lo hi (st : pstate Obj), setDefectSizes lo hi [] st = (st, Raise ValueError).
Proof. reflexivity. Qed.
Theorem C56_setDefectSizes :
  forall lo hi l st, l <> [] ->
  match setDefectSizes lo hi l st with
  | (st', Ok _) => (forall x, In x l -> lo <= x <= hi) /\ Rsorted (sizes st') /\ Permutation (sizes st') l /\ consistent st' /\
                   (forall d j k, at3 (indices st') d j k = Some 0) /\ keeped st' = keeped st
  | (st', Raise e) => e = ValueError /\ (exists x, In x l /\ ~ lo <= x <= hi) /\ sizes st' = Rsort l /\ number st' = number st
  end.
Proof.
  intros lo hi l st Hl. unfold setDefectSizes. destruct l as [|x0 l0]; [contradiction|]. set (l := x0 :: l0) in *.
  assert (P : Permutation (Rsort l) l) by apply Rsort_perm.
  assert (Ns : Rsort l <> []) by (intros E; rewrite E in P; apply Permutation_nil in P; contradiction).
  destruct (Rltb_spec hi (Rlmax (Rsort l))) as [A|A]; cbn [orb].
  - split; [reflexivity|]. split; [|split; reflexivity]. exists (Rlmax (Rsort l)). split; [|lra]. eapply Permutation_in; [exact P|]. now apply Rlmax_in.
  - destruct (Rltb_spec (Rlmin (Rsort l)) lo) as [B|B].
    + split; [reflexivity|]. split; [|split; reflexivity]. exists (Rlmin (Rsort l)). split; [|lra]. eapply Permutation_in; [exact P|]. now apply Rlmin_in.
    + cbn. split.
      { intros x Hx. assert (Hx' : In x (Rsort l)) by (eapply Permutation_in; [symmetry; exact P|exact Hx]).
        assert (X := Rlmin_le _ _ Hx'). assert (Y := Rlmax_ge _ _ Hx'). lra. }
      split; [exact (Rsort_sorted l)|]. split; [exact P|]. unfold consistent. cbn. rewrite repeat_length. auto.
Qed.

(** *** run *)
Lemma nth_error_split_skipn {A} (l : list A) i d : (i < length l)%nat -> skipn i l = nth i l d :: skipn (S i) l.
Proof. revert i. induction l as [|x l IH]; intros [|i] H; cbn in *; try lia; auto. apply IH. lia. Qed.
Lemma set_nth_length {A} n (v : A) l : length (set_nth n v l) = length l.
Proof. revert l. induction n as [|n IH]; intros [|x l]; cbn; auto. Qed.
Lemma nth_error_set_nth {A} n (v : A) l k : (n < length l)%nat -> nth_error (set_nth n v l) k = if Nat.eqb k n then Some v else nth_error l k.
Proof.
  revert l k. induction n as [|n IH]; intros [|x l] [|k] H; cbn in *; try lia; auto. apply IH. lia.
Qed.
Lemma remove_first_app i l1 l2 : ~ In i l1 -> remove_first i (l1 ++ i :: l2) = Some (l1 ++ l2).
Proof.
  induction l1 as [|j l1 IH]; intros H; cbn; [now rewrite Nat.eqb_refl|]. destruct (Nat.eqb_spec i j) as [->|N]; [exfalso; apply H; now left|].
  rewrite IH by (intros Hi; apply H; now right). reflexivity.
Qed.
Lemma remove_first_in i l l' : remove_first i l = Some l' -> In i l /\ forall j, In j l' -> In j l.
Proof.
  revert l'. induction l as [|j l IH]; intros l' E; [discriminate|]. cbn in E. destruct (Nat.eqb_spec i j) as [->|N].
  - injection E as <-. split; [now left|]. intros; now right.
  - destruct (remove_first i l) as [l1|]; [|discriminate]. injection E as <-. destruct (IH l1 eq_refl) as [A B]. split; [now right|].
    intros k [->|Hk]; [now left|right; auto].
Qed.
(** Everything works for the size at index i. *)
Definition works (c i : nat) (x : R) : Prop := kept (mc (c + i) x) = true -> exists o m, define (c + i) x = Ok o /\ solve o = Ok m.
Definition keepable (c : nat) (l : list R) (i : nat) : bool := kept (mc (c + i) (nth i l 0)).
(** What the state holds for index i after it has been treated. *)
Definition treated (c : nat) (l : list R) (st : pstate Obj) (i : nat) : Prop :=
  if keepable c l i
  then exists o m, define (c + i) (nth i l 0) = Ok o /\ solve o = Ok m /\ nth_error (pli st) i = Some (Filled o) /\ forall d j, at3 (indices st) d j i = m d j
  else forall d j, at3 (indices st) d j i = None.
Lemma loop_ok c l : forall n i st, length l = (i + n)%nat -> sizes st = l -> consistent st -> clock st = (c + i)%nat ->
  keeped st = Some (filter (keepable c l) (seq 0 i) ++ seq i n) -> (forall k, (k < length l)%nat -> works c k (nth k l 0)) ->
  (forall k, (k < i)%nat -> treated c l st k) ->
  exists st', loop mc define solve i (skipn i l) st = (st', Ok tt) /\ sizes st' = l /\ consistent st' /\
    keeped st' = Some (filter (keepable c l) (seq 0 (length l))) /\ forall k, (k < length l)%nat -> treated c l st' k.
Proof.
  induction n as [|n IH]; intros i st Hn Hs Hc Hk Hkp Hw Ht.
  - rewrite Nat.add_0_r in Hn. rewrite <- Hn, skipn_all. cbn. exists st. cbn in Hkp. rewrite app_nil_r, <- Hn in Hkp. rewrite <- Hn in Ht. auto.
  - assert (Hi : (i < length l)%nat) by lia. rewrite (nth_error_split_skipn l i 0 Hi). cbn [loop]. rewrite Hkp. cbn [seq].
    destruct Hc as (C1 & C2 & C3). rewrite Hs in *. unfold step. rewrite Hk.
    assert (QT : keepable c l i = true -> filter (keepable c l) (seq 0 (S i)) = filter (keepable c l) (seq 0 i) ++ [i]).
    { intros T. rewrite seq_S, filter_app. cbn [filter plus]. now rewrite T. }
    assert (QF : keepable c l i = false -> filter (keepable c l) (seq 0 (S i)) = filter (keepable c l) (seq 0 i)).
    { intros T. rewrite seq_S, filter_app. cbn [filter plus]. now rewrite T, app_nil_r. }
    assert (Wi := Hw i Hi). unfold works in Wi. destruct (kept (mc (c + i) (nth i l 0))) eqn:K.
    + destruct (Wi eq_refl) as (o & m & E1 & E2). rewrite E1, E2, C3, C2. destruct (Nat.ltb_spec i (length l)); [|lia]. cbn [negb].
      apply IH; cbn [sizes clock keeped pli indices]; auto; try lia.
      * unfold consistent. cbn. rewrite set_nth_length, Hs. auto.
      * rewrite QT by exact K. now rewrite <- app_assoc.
      * intros k Hk'. unfold treated in *. cbn. destruct (Nat.eq_dec k i) as [->|N].
        { unfold keepable. rewrite K. exists o, m. split; [exact E1|]. split; [exact E2|]. split; [rewrite nth_error_set_nth by lia; now rewrite Nat.eqb_refl|].
          intros d j. now rewrite Nat.eqb_refl. }
        { specialize (Ht k ltac:(lia)). destruct (keepable c l k).
          - destruct Ht as (o' & m' & A1 & A2 & A3 & A4). exists o', m'. split; [exact A1|]. split; [exact A2|].
            apply Nat.eqb_neq in N. split; [rewrite nth_error_set_nth by lia; now rewrite N|]. intros d j. rewrite N. apply A4.
          - intros d j. apply Nat.eqb_neq in N. rewrite N. apply Ht. }
    + rewrite remove_first_app by (intros X; apply filter_In in X; destruct X as [X _]; apply in_seq in X; lia).
      rewrite C2. destruct (Nat.ltb_spec i (length l)); [|lia].
      apply IH; cbn [sizes clock keeped pli indices]; auto; try lia.
      * unfold consistent. cbn. rewrite Hs. auto.
      * now rewrite QF by exact K.
      * intros k Hk'. unfold treated in *. cbn. destruct (Nat.eq_dec k i) as [->|N].
        { unfold keepable. rewrite K. intros d j. now rewrite Nat.eqb_refl. }
        { specialize (Ht k ltac:(lia)). apply Nat.eqb_neq in N. destruct (keepable c l k).
          - destruct Ht as (o' & m' & A1 & A2 & A3 & A4). exists o', m'. repeat split; auto. intros d j. rewrite N. apply A4.
          - intros d j. rewrite N. apply Ht. }
Qed.
(** After run the kept defects are exactly those with a probability strictly between 0.001 and 0.999, in order; their indices are
    those of their own object and the others are NaN. *)
Theorem C56_run :
  forall st, consistent st -> (forall k, (k < length (sizes st))%nat -> works (clock st) k (nth k (sizes st) 0)) ->
  exists st', run mc define solve st = (st', Ok tt) /\ sizes st' = sizes st /\ consistent st' /\
  keeped st' = Some (filter (keepable (clock st) (sizes st)) (seq 0 (length (sizes st)))) /\
  forall k, (k < length (sizes st))%nat -> treated (clock st) (sizes st) st' k.
Proof.
  intros st Hc Hw. unfold run. set (st0 := {| sizes := sizes st |}).
  destruct (loop_ok (clock st) (sizes st) (length (sizes st)) 0 st0) as (st' & E & Hs & Hc' & Hk & Ht); auto.
  - cbn. destruct Hc as (-> & _). reflexivity.
  - intros; lia.
  - cbn [skipn] in E. rewrite E. rewrite Hk. exists st'.
    assert (F : forallb (fun i => Nat.ltb i (length (sizes st'))) (filter (keepable (clock st) (sizes st)) (seq 0 (length (sizes st)))) = true).
    { apply forallb_forall. intros i Hi. apply filter_In in Hi. destruct Hi as [Hi _]. apply in_seq in Hi. apply Nat.ltb_lt. rewrite Hs. lia. }
    rewrite F. destruct (Nat.eqb _ _); auto.
Qed.
(** The converse: a run that comes to its end has computed the indices of every kept size. *)
Lemma loop_works c l : forall n i st st', length l = (i + n)%nat -> clock st = (c + i)%nat ->
  loop mc define solve i (skipn i l) st = (st', Ok tt) -> forall k, (i <= k < length l)%nat -> works c k (nth k l 0).
Proof.
  induction n as [|n IH]; intros i st st' Hn Hk H k Hr; [lia|]. assert (Hi : (i < length l)%nat) by lia.
  rewrite (nth_error_split_skipn l i 0 Hi) in H. cbn [loop] in H. destruct (keeped st) as [ks|]; [|discriminate].
  destruct (step mc define solve i (nth i l 0) ks st) as [st1 [u|e]] eqn:E; [|discriminate].
  assert (S1 : clock st1 = (c + S i)%nat /\ works c i (nth i l 0)).
  { unfold step in E. unfold works. rewrite <- Hk. destruct (kept (mc (clock st) (nth i l 0))).
    - destruct (define (clock st) (nth i l 0)) as [o|]; [|discriminate]. destruct (negb _); [discriminate|]. destruct (solve o) as [m|] eqn:Es; [|discriminate].
      destruct (Nat.ltb _ _); [|discriminate]. injection E as <- _. cbn. split; [lia|]. eauto.
    - destruct (remove_first i ks); [|discriminate]. destruct (Nat.ltb _ _); [|discriminate]. injection E as <- _. cbn. split; [lia|discriminate]. }
  destruct S1 as [S1 W]. destruct (Nat.eq_dec k i) as [->|Ne]; [exact W|]. apply (IH (S i) st1 st' ltac:(lia) S1 H k). lia.
Qed.
Theorem C56_run_iff :
  forall st, consistent st ->
  ((exists st', run mc define solve st = (st', Ok tt)) <-> forall k, (k < length (sizes st))%nat -> works (clock st) k (nth k (sizes st) 0)).
Proof.
  intros st Hc. split.
  - intros [st' H] k Hk. unfold run in H. set (st0 := {| sizes := sizes st |}) in H. destruct (loop mc define solve 0 (sizes st) st0) as [st1 [u|e]] eqn:E; [|discriminate].
    destruct u. apply (loop_works (clock st) (sizes st) (length (sizes st)) 0 st0 st1); [reflexivity|cbn; lia|exact E|lia].
  - intros H. destruct (C56_run st Hc H) as (st' & E & _). eauto.
Qed.
(** A run that fails fails at a kept size, with the exception of its constructor or of its own run, all the sizes before it having been
    treated. *)
Lemma loop_raise c l : forall n i st st' ex, length l = (i + n)%nat -> sizes st = l -> consistent st -> clock st = (c + i)%nat ->
  keeped st = Some (filter (keepable c l) (seq 0 i) ++ seq i n) -> (forall k, (k < i)%nat -> works c k (nth k l 0)) ->
  loop mc define solve i (skipn i l) st = (st', Raise ex) ->
  exists k, (k < length l)%nat /\ keepable c l k = true /\ (forall k', (k' < k)%nat -> works c k' (nth k' l 0)) /\
    (define (c + k) (nth k l 0) = Raise ex \/ exists o, define (c + k) (nth k l 0) = Ok o /\ solve o = Raise ex).
Proof.
  induction n as [|n IH]; intros i st st' ex Hn Hs Hc Hk Hkp Hw H.
  - rewrite Nat.add_0_r in Hn. rewrite <- Hn, skipn_all in H. discriminate.
  - assert (Hi : (i < length l)%nat) by lia. rewrite (nth_error_split_skipn l i 0 Hi) in H. cbn [loop] in H. rewrite Hkp in H. cbn [seq] in H.
    destruct Hc as (C1 & C2 & C3). rewrite Hs in *. unfold step in H. rewrite Hk in H.
    assert (WI : works c i (nth i l 0) -> forall k, (k < S i)%nat -> works c k (nth k l 0)).
    { intros W k Hk'. destruct (Nat.eq_dec k i) as [->|Ne]; [exact W|apply Hw; lia]. }
    destruct (kept (mc (c + i) (nth i l 0))) eqn:K.
    + destruct (define (c + i) (nth i l 0)) as [o|ex1] eqn:E1.
      2:{ injection H as _ <-. exists i. split; [exact Hi|]. split; [exact K|]. split; [exact Hw|]. left. exact E1. }
      rewrite C3 in H. destruct (Nat.ltb_spec i (length l)); [|lia]. cbn [negb] in H. destruct (solve o) as [m|ex1] eqn:E2.
      2:{ injection H as _ <-. exists i. split; [exact Hi|]. split; [exact K|]. split; [exact Hw|]. right. eauto. }
      rewrite C2 in H. destruct (Nat.ltb_spec i (length l)); [|lia].
      eapply (IH (S i)); [lia| | | | | |exact H]; cbn [sizes clock keeped]; auto; try lia.
      * unfold consistent. cbn. rewrite set_nth_length, Hs. auto.
      * rewrite seq_S, filter_app. cbn [filter plus]. change (keepable c l i) with (kept (mc (c + i) (nth i l 0))). rewrite K. now rewrite <- app_assoc.
      * apply WI. intros _. eauto.
    + rewrite remove_first_app in H by (intros X; apply filter_In in X; destruct X as [X _]; apply in_seq in X; lia).
      rewrite C2 in H. destruct (Nat.ltb_spec i (length l)); [|lia].
      eapply (IH (S i)); [lia| | | | | |exact H]; cbn [sizes clock keeped]; auto; try lia.
      * unfold consistent. cbn. rewrite Hs. auto.
      * rewrite seq_S, filter_app. cbn [filter plus]. change (keepable c l i) with (kept (mc (c + i) (nth i l 0))). rewrite K. now rewrite app_nil_r.
      * apply WI. unfold works. congruence.
Qed.
Theorem C56_run_raise :
  forall st st' ex, consistent st -> run mc define solve st = (st', Raise ex) ->
  exists k, (k < length (sizes st))%nat /\ keepable (clock st) (sizes st) k = true /\
    (forall k', (k' < k)%nat -> works (clock st) k' (nth k' (sizes st) 0)) /\
    (define (clock st + k) (nth k (sizes st) 0) = Raise ex \/ exists o, define (clock st + k) (nth k (sizes st) 0) = Ok o /\ solve o = Raise ex).
Proof.
  intros st st' ex Hc H. unfold run in H. set (st0 := {| sizes := sizes st |}) in H.
  destruct (loop mc define solve 0 (sizes st) st0) as [st1 [u|e]] eqn:E.
  - exfalso. destruct u. assert (W : forall k, (k < length (sizes st))%nat -> works (clock st) k (nth k (sizes st) 0)).
    { intros k Hk. apply (loop_works (clock st) (sizes st) (length (sizes st)) 0 st0 st1); [reflexivity|cbn; lia|exact E|lia]. }
    destruct (C56_run st Hc W) as (st2 & E2 & _). unfold run in E2. fold st0 in E2. rewrite E in E2. congruence.
  - injection H as _ <-. apply (loop_raise (clock st) (sizes st) (length (sizes st)) 0 st0 st1 e); auto.
    + cbn. now destruct Hc as (-> & _).
    + intros; lia.
Qed.
(** getPLIObject after that run: the object of that very size, or an exception when it was not kept; negative indices are refused. *)
Theorem C56_getPLIObject :
  forall st st' z, consistent st -> (forall k, (k < length (sizes st))%nat -> works (clock st) k (nth k (sizes st) 0)) ->
  run mc define solve st = (st', Ok tt) ->
  (forall i, z = Z.of_nat i -> (i < length (sizes st))%nat -> kept (mc (clock st + i) (nth i (sizes st) 0)) = true ->
     exists o, define (clock st + i) (nth i (sizes st) 0) = Ok o /\ getPLIObject st' z = Ok (Filled o)) /\
  ((forall i, z = Z.of_nat i -> (i < length (sizes st))%nat -> kept (mc (clock st + i) (nth i (sizes st) 0)) = false) ->
     getPLIObject st' z = Raise GenericException).
Proof.
  intros st st' z Hc Hw Hr. destruct (C56_run st Hc Hw) as (s & E & Hs & Hc' & Hk & Ht). rewrite Hr in E. injection E as <-.
  unfold getPLIObject. rewrite Hk. split.
  - intros i -> Hi K. assert (X : existsb (fun k => Z.eqb (Z.of_nat i) (Z.of_nat k)) (filter (keepable (clock st) (sizes st)) (seq 0 (length (sizes st)))) = true).
    { apply existsb_exists. exists i. split; [|apply Z.eqb_refl]. apply filter_In. split; [apply in_seq; lia|exact K]. }
    rewrite X, Nat2Z.id. specialize (Ht i Hi). unfold treated, keepable in Ht. rewrite K in Ht. destruct Ht as (o & m & A1 & _ & A3 & _).
    exists o. rewrite A3. auto.
  - intros H. destruct (existsb _ _) eqn:X; [|reflexivity]. apply existsb_exists in X. destruct X as (i & Hi & Ei). apply Z.eqb_eq in Ei.
    apply filter_In in Hi. destruct Hi as [Hi K]. apply in_seq in Hi. unfold keepable in K. rewrite H in K; [discriminate|assumption|lia].
Qed.
Theorem C56_before_run : forall st z, keeped st = None -> getPLIObject (st : pstate Obj) z = Raise AttributeError.
Proof. intros st z H. unfold getPLIObject. now rewrite H. Qed.
(** Finding: after an accepted setDefectSizes without a new run, getPLIObject answers from the old bookkeeping: the placeholder
    class for the previously kept indices that still exist, IndexError for the others; getIndices is 0 everywhere. *)
Theorem C56_stale_after_setDefectSizes :
  forall st ks lo hi l st', keeped st = Some ks -> setDefectSizes lo hi l st = (st', Ok tt) ->
  (forall d j k, at3 (indices st') d j k = Some 0) /\
  forall i, In i ks -> getPLIObject (st' : pstate Obj) (Z.of_nat i) = if Nat.ltb i (length l) then Ok Placeholder else Raise IndexError.
Proof.
  intros st ks lo hi l st' Hk E. unfold setDefectSizes in E. destruct l as [|x0 l0]; [discriminate|]. set (l := x0 :: l0) in *.
  assert (LL : length (Rsort l) = length l) by (apply Permutation_length, Rsort_perm). generalize dependent (Rsort l). intros s E LL.
  destruct (Rltb hi (Rlmax s) || Rltb (Rlmin s) lo); [discriminate|]. injection E as <-. split; [reflexivity|].
  intros i Hi. unfold getPLIObject. cbn [keeped initialize pli number]. rewrite Hk.
  assert (X : existsb (fun k => Z.eqb (Z.of_nat i) (Z.of_nat k)) ks = true) by (apply existsb_exists; exists i; split; [assumption|apply Z.eqb_refl]).
  rewrite X, Nat2Z.id. rewrite LL.
  destruct (Nat.ltb_spec i (length l)).
  - assert (Y : nth_error (repeat (@Placeholder Obj) (length l)) i = Some Placeholder) by (apply nth_error_repeat; assumption). rewrite Y. reflexivity.
  - replace (nth_error (repeat (@Placeholder Obj) (length l)) i) with (@None (slot Obj)); [reflexivity|]. symmetry. apply nth_error_None. now rewrite repeat_length.
Qed.
(** Finding: a rejected setDefectSizes keeps the rejected sizes; with more sizes than before no later run succeeds. *)
Theorem C56_rejected_sizes_break_run :
  forall st lo hi l st' e, consistent st -> (number st < length l)%nat -> setDefectSizes lo hi l st = (st', Raise e) ->
  sizes st' = Rsort l /\ forall st'', run mc define solve st' <> (st'', Ok tt).
Proof.
  intros st lo hi l st' e (C1 & C2 & C3) Hl E.
  assert (F : sizes st' = Rsort l /\ number st' = number st /\ indices st' = indices st /\ pli st' = pli st).
  { unfold setDefectSizes in E. destruct l as [|x0 l0]; [cbn in Hl; lia|]. destruct (_ || _); [|discriminate]. injection E as <- <-. auto. }
  destruct F as (F1 & F2 & F3 & F4). split; [exact F1|]. intros st'' R. unfold run in R.
  assert (Len : length (Rsort l) = length l) by (apply Permutation_length, Rsort_perm).
  assert (L : forall xs i s ks s', keeped s = Some ks -> (forall j, In j ks -> (j < number st)%nat) -> length (pli s) = number st ->
              n_defect (indices s) = number st -> (i <= number st)%nat -> (number st < i + length xs)%nat -> loop mc define solve i xs s <> (s', Ok tt)).
  { induction xs as [|x xs IH]; intros i s ks s' Hk Hks Hp Hd Hi Hx; cbn in Hx; [lia|]. cbn [loop]. rewrite Hk. unfold step.
    destruct (kept (mc (clock s) x)).
    - destruct (define (clock s) x) as [o|]; [|discriminate]. rewrite Hp. destruct (Nat.ltb_spec i (number st)); [|discriminate]. cbn [negb].
      destruct (solve o) as [m|]; [|discriminate]. rewrite Hd. destruct (Nat.ltb_spec i (number st)); [|discriminate].
      apply IH with (ks := ks); cbn; auto; try lia. now rewrite set_nth_length.
    - destruct (remove_first i ks) as [ks'|] eqn:Er; [|discriminate]. destruct (remove_first_in _ _ _ Er) as [A B].
      rewrite Hd. destruct (Nat.ltb_spec i (number st)); [|discriminate]. apply IH with (ks := ks'); cbn; auto; lia. }
  match type of R with context[loop mc define solve 0 (sizes st') ?s0] => set (s0' := s0) in R end.
  destruct (loop mc define solve 0 (sizes st') s0') as [s1 [[]|]] eqn:E1; [|discriminate].
  eapply (L (sizes st') 0%nat s0' (seq 0 (number st')) s1); cbn; auto.
  - intros j Hj. apply in_seq in Hj. lia.
  - rewrite F4. lia.
  - rewrite F3. lia.
  - lia.
  - rewrite F1, Len. lia.
Qed.
End Runs.

(** A concrete history: one kept size, a run, other sizes, no run. *)
Theorem C56_placeholder_refuted :
  exists (st : pstate unit) st1 st2, consistent st /\ run (fun _ _ => 1 / 2) (fun _ _ => Ok tt) (fun _ => Ok (fun _ _ => Some 1)) st = (st1, Ok tt) /\
  setDefectSizes 0 10 [3] st1 = (st2, Ok tt) /\ getPLIObject st2 0 = Ok Placeholder.
Proof.
  assert (K : kept (1 / 2) = true) by (unfold kept; destruct (Rltb_spec (1 / 1000) (1 / 2)), (Rltb_spec (1 / 2) (999 / 1000)); try lra; reflexivity).
  exists (init 1 2 [5]). eexists. eexists. split; [apply C56_constructor|]. split.
  - unfold run. cbn [sizes init initialize loop keeped number seq length]. unfold step. cbn [clock]. rewrite K. cbn. reflexivity.
  - split; [unfold setDefectSizes; cbn; destruct (Rltb_spec 10 3); [lra|]; destruct (Rltb_spec 3 0); [lra|]; reflexivity|]. reflexivity.
Qed.
(** Two sizes: the first is detected half of the time, the second always. *)
Example C56_run_example :
  let mc := fun (_ : nat) x => if Rltb x 2 then 1 / 2 else 1 in let st := init 1 2 [1; 3] : pstate unit in
  consistent st /\ (forall k, (k < length (sizes st))%nat -> works mc (fun _ _ => Ok tt) (fun _ => Ok (fun _ _ => Some 1)) (clock st) k (nth k (sizes st) 0)) /\
  keepable mc 0 (sizes st) 0 = true /\ keepable mc 0 (sizes st) 1 = false.
Proof.
  cbv zeta. split; [apply C56_constructor|]. split; [intros k Hk _; do 2 eexists; split; reflexivity|].
  unfold keepable. cbn. destruct (Rltb_spec 1 2), (Rltb_spec 3 2); try lra. split.
  - apply C56_kept. lra.
  - apply Bool.not_true_is_false. rewrite C56_kept. lra.
Qed.
(** Two sizes in place of one, the second outside of the range. *)
Example C56_rejected_example :
  let st := init 1 2 [1] : pstate unit in consistent st /\ (number st < length [2; 20])%nat /\ exists st', setDefectSizes 0 10 [2; 20] st = (st', Raise ValueError) /\ sizes st' = [2; 20].
Proof.
  cbv zeta. split; [apply C56_constructor|]. split; [cbn; lia|]. unfold setDefectSizes.
  assert (E : Rsort [2; 20] = [2; 20]) by (cbn; destruct (Rleb_spec 2 20); [reflexivity|lra]). rewrite E.
  assert (M : Rltb 10 (Rlmax [2; 20]) = true).
  { destruct (Rltb_spec 10 (Rlmax [2; 20])) as [|N]; [reflexivity|]. exfalso. apply N. assert (X := Rlmax_ge [2; 20] 20 ltac:(cbn; auto)). lra. }
  rewrite M. eexists. split; reflexivity.
Qed.
Print Assumptions C56_kept.
Print Assumptions C56_getIndices.
Print Assumptions C56_constructor.
Print Assumptions C56_setDefectSizes_empty.
Print Assumptions C56_setDefectSizes.
Print Assumptions C56_run.
Print Assumptions C56_run_raise.
Print Assumptions C56_run_iff.
Print Assumptions C56_getPLIObject.
Print Assumptions C56_before_run.
Print Assumptions C56_stale_after_setDefectSizes.
Print Assumptions C56_rejected_sizes_break_run.
Print Assumptions C56_placeholder_refuted.
