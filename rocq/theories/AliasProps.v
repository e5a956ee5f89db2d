(** C98: who holds the designs of the adaptive classes. *)
From Verif Require Import Base AliasModel.
Local Open Scope list_scope.

Section Props.
Variable row : Type.
Variable c : cfg row.
Local Arguments read {row}.
Local Arguments write {row}.
Local Arguments is_array {row}.
Local Arguments Samp {row}.
Local Arguments Arr {row}.
Local Arguments rows_of {row}.
Local Arguments enrich {row}.
Local Arguments batches_run {row}.
Local Arguments mem {row}.
Local Arguments a_in {row}.
Local Arguments a_sig {row}.
Local Arguments held {row}.
Local Arguments Run {row}.
Local Arguments GetIn {row}.
Local Arguments GetOut {row}.
Local Arguments Change {row}.
Local Arguments SignalRun {row}.
Local Arguments EarlyFailure {row}.
Local Arguments HitMissRun {row}.
Local Arguments setDefectSizes_fails {row}.
Notation state := (state row).
Notation op := (op row).
Notation init := (init row c).
Notation run := (run row c).
Notation step := (step row c).
Notation play := (play row c).
Notation memory := (memory row).

(** What the client sees: the rows of its k-th reference, and what the getters would give now. *)
Definition look (s : state) (k : nat) : list row := match nth_error (held s) k with Some (_, a) => read (mem s) a | None => [] end.
Definition design (s : state) : list row := read (mem s) (a_in s).
Definition outputs (s : state) : list row := match box row c with Some (_, inv) => inv (read (mem s) (a_sig s)) | None => read (mem s) (a_sig s) end.

(** *** Memory *)
Lemma length_write (m : memory) a l : List.length (write m a l) = List.length m.
Proof. revert a. induction m as [|x m IH]; intros [|a]; cbn; auto. Qed.
Lemma nth_write_other (m : memory) a b l : a <> b -> nth_error (write m a l) b = nth_error m b.
Proof. revert a b. induction m as [|x m IH]; intros [|a] [|b] H; cbn; auto; try congruence. Qed.
Lemma read_write_same (m : memory) a l : a < List.length m -> read (write m a l) a = l.
Proof. unfold read. revert a. induction m as [|x m IH]; intros [|a] H; cbn in *; try lia; [now destruct x|apply IH; lia]. Qed.
Lemma read_write_other (m : memory) a b l : a <> b -> read (write m a l) b = read m b.
Proof. intros H. unfold read. now rewrite nth_write_other. Qed.
Lemma array_write (m : memory) a b l : is_array (write m a l) b = is_array m b.
Proof. unfold is_array. revert a b. induction m as [|x m IH]; intros [|a] [|b]; cbn; auto; now destruct x. Qed.
Lemma nth_app (m n : memory) a : a < List.length m -> nth_error (m ++ n) a = nth_error m a.
Proof. intros H. now apply nth_error_app1. Qed.
Lemma read_app (m n : memory) a : a < List.length m -> read (m ++ n) a = read m a.
Proof. intros H. unfold read. now rewrite nth_app. Qed.
Lemma read_new (m : memory) x n : read (m ++ x :: n) (List.length m) = rows_of x.
Proof. unfold read. rewrite nth_error_app2, Nat.sub_diag by lia. reflexivity. Qed.
Lemma read_new2 (m : memory) x y n : read (m ++ x :: y :: n) (S (List.length m)) = rows_of y.
Proof. unfold read. rewrite nth_error_app2 by lia. replace (S (List.length m) - List.length m) with 1 by lia. reflexivity. Qed.

(** *** Enrichments *)
Lemma length_enrich added : forall (m : memory) i o, List.length (enrich m i o added) = List.length m.
Proof. induction added as [|[x y] l IH]; intros m i o; cbn [AliasModel.enrich]; [reflexivity|]. now rewrite IH, !length_write. Qed.
Lemma enrich_spec added : forall (m : memory) i o, i <> o -> i < List.length m -> o < List.length m ->
  read (enrich m i o added) i = read m i ++ map fst added /\ read (enrich m i o added) o = read m o ++ map snd added /\
  (forall a, a <> i -> a <> o -> nth_error (enrich m i o added) a = nth_error m a).
Proof.
  induction added as [|[x y] l IH]; intros m i o N Hi Ho; cbn [AliasModel.enrich map fst snd]; [now rewrite !app_nil_r|].
  set (m1 := write m i (read m i ++ [x])). destruct (IH (write m1 o (read m1 o ++ [y])) i o N) as (A & B & C).
  { now unfold m1; rewrite !length_write. } { now unfold m1; rewrite !length_write. }
  assert (R1 : read m1 i = read m i ++ [x]) by (unfold m1; now rewrite read_write_same).
  assert (R2 : read m1 o = read m o) by (unfold m1; now rewrite read_write_other). rewrite A, B. split; [|split].
  - rewrite read_write_other, R1 by congruence. now rewrite <- app_assoc.
  - rewrite read_write_same by (unfold m1; now rewrite length_write). now rewrite R2, <- app_assoc.
  - intros a H1 H2. rewrite C by assumption. unfold m1. now rewrite !nth_write_other by congruence.
Qed.
Lemma array_enrich added : forall (m : memory) i o b, is_array (enrich m i o added) b = is_array m b.
Proof. induction added as [|[x y] l IH]; intros m i o b; cbn [AliasModel.enrich]; [reflexivity|]. now rewrite IH, !array_write. Qed.
Lemma batches_spec bs : forall (m : memory) i o, i <> o -> i < List.length m -> o < List.length m -> is_array m i = true ->
  let '(m2, i2, o2) := batches_run m i o bs in
  List.length m <= List.length m2 /\ i2 <> o2 /\ i2 < List.length m2 /\ o2 < List.length m2 /\ is_array m2 i2 = true /\
  (i2 = i /\ o2 = o \/ List.length m <= i2 /\ List.length m <= o2) /\
  read m2 i2 = read m i ++ map fst (List.concat bs) /\ read m2 o2 = read m o ++ map snd (List.concat bs) /\
  (forall a, a < List.length m -> nth_error m2 a = nth_error m a).
Proof.
  induction bs as [|b bs IH]; intros m i o N Hi Ho Ha; cbn [AliasModel.batches_run List.concat map].
  - rewrite !app_nil_r. repeat (split; [auto with arith|]). intros a _. reflexivity.
  - set (m1 := m ++ [Arr (read m i ++ map fst b); Arr (read m o ++ map snd b)]).
    assert (L1 : List.length m1 = List.length m + 2) by (unfold m1; now rewrite app_length).
    specialize (IH m1 (List.length m) (S (List.length m)) ltac:(lia) ltac:(lia) ltac:(lia)).
    assert (Ar : is_array m1 (List.length m) = true) by (unfold is_array, m1; rewrite nth_error_app2, Nat.sub_diag by lia; reflexivity).
    specialize (IH Ar). destruct (batches_run m1 (List.length m) (S (List.length m)) bs) as [[m2 i2] o2].
    destruct IH as (A & B & C & D & E & F & G & H & K). rewrite G, H. unfold m1 at 1 2. rewrite read_new, read_new2. cbn [AliasModel.rows_of].
    rewrite !map_app, !app_assoc. repeat (split; [first [lia|assumption|reflexivity]|]). intros a Ha2. rewrite K by lia. unfold m1. now rewrite nth_app.
Qed.

(** *** The invariant of all histories *)
Definition wf (s : state) : Prop :=
  2 <= a_in s < List.length (mem s) /\ 2 <= a_sig s < List.length (mem s) /\ a_in s <> a_sig s /\
  exists r, held s = (FromClient, 0) :: (FromClient, 1) :: r /\ forall t a, In (t, a) r -> 2 <= a < List.length (mem s).
Lemma wf_init xin xout : wf (init xin xout).
Proof.
  unfold AliasModel.init, wf. destruct (censored row c) as [f|]; [destruct (f xin xout) as [fi fo]|]; (destruct (box row c) as [[t inv]|]; destruct (labels row c) as [g|]; cbn;
    repeat (split; [lia|]); exists []; (split; [reflexivity|]); intros ? ? []).
Qed.
Lemma wf_grow s m' i o h' : wf s -> List.length (mem s) <= List.length m' -> 2 <= i < List.length m' -> 2 <= o < List.length m' -> i <> o ->
  (h' = held s \/ exists t a, h' = held s ++ [(t, a)] /\ 2 <= a < List.length m') -> wf {| mem := m'; a_in := i; a_sig := o; held := h' |}.
Proof.
  intros (A & B & C & r & D & E) L Hi Ho N H. split; [exact Hi|]. split; [exact Ho|]. split; [exact N|]. cbn [AliasModel.held AliasModel.mem].
  destruct H as [->|(t & a & -> & Ha)].
  - exists r. split; [exact D|]. intros t a X. specialize (E t a X). lia.
  - exists (r ++ [(t, a)]). split; [now rewrite D|]. intros t' a' X. apply in_app_or in X. destruct X as [X|[X|[]]]; [specialize (E t' a' X); lia|].
    injection X as <- <-. exact Ha.
Qed.
Lemma wf_step s o : wf s -> wf (step s o).
Proof.
  intros W. pose proof W as (A & B & C & r & D & E). destruct o as [w| | |k l]; cbn [AliasModel.step].
  - unfold AliasModel.run. destruct (signal_class row c), w as [added lone rr|e|bs rr]; try exact W.
    + cbn [fst]. apply (wf_grow s); auto; destruct lone; rewrite ?length_write, length_enrich; auto.
    + destruct (is_array (mem s) (a_in s)); [exact W|]. set (m0 := mem s) in *.
      set (m1 := m0 ++ [Arr (read m0 (a_in s)); Arr (read m0 (a_sig s))]). assert (L1 : List.length m1 = List.length m0 + 2) by (unfold m1; now rewrite app_length).
      assert (Ar : is_array m1 (List.length m0) = true) by (unfold is_array, m1; rewrite nth_error_app2, Nat.sub_diag by lia; reflexivity).
      assert (BS := batches_spec bs m1 (List.length m0) (S (List.length m0)) ltac:(lia) ltac:(lia) ltac:(lia) Ar).
      destruct (batches_run m1 (List.length m0) (S (List.length m0)) bs) as [[m2 i] o]. destruct BS as (S1 & S2 & S3 & S4 & S5 & S6 & _).
      destruct rr as [u|e]; cbn [fst]; apply (wf_grow s); auto; fold m0; rewrite ?app_length; cbn; lia.
  - unfold getInputDOE. apply (wf_grow s); auto. right. exists FromInput, (a_in s). auto.
  - unfold getOutputDOE. destruct (box row c) as [[t inv]|]; apply (wf_grow s); auto; rewrite ?app_length; cbn; try lia; right.
    + exists FromOutput, (List.length (mem s)). split; [reflexivity|lia].
    + exists FromOutput, (a_sig s). auto.
  - unfold change. destruct (nth_error (held s) k) as [[t a]|]; [|exact W]. apply (wf_grow s); auto; now rewrite ?length_write.
Qed.
Lemma wf_fold l : forall s, wf s -> wf (fold_left step l s).
Proof. induction l as [|o l IH]; intros s W; [exact W|]. cbn. apply IH. now apply wf_step. Qed.
Lemma wf_play xin xout l : wf (play xin xout l).
Proof. apply wf_fold, wf_init. Qed.

(** References are never taken away and keep their address; the memory never shrinks. *)
Lemma held_step s o : wf s -> exists r, held (step s o) = held s ++ r.
Proof.
  intros W. destruct o as [w| | |k l]; cbn [AliasModel.step].
  - exists []. rewrite app_nil_r. unfold AliasModel.run. destruct (signal_class row c), w; try reflexivity.
    destruct (is_array (mem s) (a_in s)); [reflexivity|]. destruct (batches_run _ _ _ _) as [[m2 i] o]. now destruct r.
  - eexists. reflexivity.
  - unfold getOutputDOE. destruct (box row c) as [[t inv]|]; eexists; reflexivity.
  - exists []. rewrite app_nil_r. unfold change. now destruct (nth_error (held s) k) as [[t a]|].
Qed.
Lemma held_fold l : forall s, wf s -> forall k x, nth_error (held s) k = Some x -> nth_error (held (fold_left step l s)) k = Some x.
Proof.
  induction l as [|o l IH]; intros s W k x H; [exact H|]. cbn. apply IH; [now apply wf_step|]. destruct (held_step s o W) as [r ->].
  rewrite nth_error_app1; [exact H|]. apply nth_error_Some. now rewrite H.
Qed.

(** *** The arguments of the constructor *)
Definition on_arguments (o : op) : bool := match o with Change k _ => Nat.ltb k 2 | _ => false end.
Definition alike (s s' : state) : Prop :=
  a_in s = a_in s' /\ a_sig s = a_sig s' /\ held s = held s' /\ List.length (mem s) = List.length (mem s') /\
  forall a, 2 <= a -> nth_error (mem s) a = nth_error (mem s') a.
Definition same_from_2 (m m' : memory) : Prop := List.length m = List.length m' /\ forall a, 2 <= a -> nth_error m a = nth_error m' a.
Lemma same_read m m' a : same_from_2 m m' -> 2 <= a -> read m a = read m' a.
Proof. intros [_ H] Ha. unfold read. now rewrite H. Qed.
Lemma same_write m m' a l : same_from_2 m m' -> same_from_2 (write m a l) (write m' a l).
Proof.
  intros [L H]. split; [now rewrite !length_write|]. intros b Hb. destruct (Nat.eq_dec a b) as [->|N].
  - specialize (H b Hb). revert b m' L H Hb. clear. intros b m' L H _. revert m' b L H. induction m as [|x m IH]; intros [|x' m'] [|b] L H; cbn in *; try discriminate; auto.
    now injection H as ->.
  - rewrite !nth_write_other by assumption. now apply H.
Qed.
Lemma same_app m m' n : same_from_2 m m' -> same_from_2 (m ++ n) (m' ++ n).
Proof.
  intros [L H]. split; [now rewrite !app_length, L|]. intros a Ha. destruct (Nat.lt_ge_cases a (List.length m)) as [G|G].
  - rewrite !nth_error_app1 by lia. now apply H.
  - rewrite !nth_error_app2 by lia. now rewrite L.
Qed.
Lemma same_enrich added : forall m m' i o, same_from_2 m m' -> 2 <= i -> 2 <= o -> same_from_2 (enrich m i o added) (enrich m' i o added).
Proof.
  induction added as [|[x y] l IH]; intros m m' i o H Hi Ho; cbn [AliasModel.enrich]; [exact H|]. apply IH; try assumption.
  rewrite (same_read m m' i H Hi). set (l1 := read m' i ++ [x]). assert (X := same_write m m' i l1 H). rewrite (same_read _ _ o X Ho). now apply same_write.
Qed.
Lemma same_batches bs : forall m m' i o, same_from_2 m m' -> 2 <= i < List.length m -> 2 <= o < List.length m ->
  let '(m2, i2, o2) := batches_run m i o bs in let '(m2', i2', o2') := batches_run m' i o bs in same_from_2 m2 m2' /\ i2 = i2' /\ o2 = o2' /\ 2 <= i2 /\ 2 <= o2.
Proof.
  induction bs as [|b bs IH]; intros m m' i o H Hi Ho; cbn [AliasModel.batches_run]; [repeat split; try apply H; lia|].
  rewrite <- (same_read m m' i H) by lia. rewrite <- (same_read m m' o H) by lia. rewrite <- (proj1 H).
  apply IH; [now apply same_app|rewrite app_length; cbn; lia|rewrite app_length; cbn; lia].
Qed.
Lemma same_array m m' a : same_from_2 m m' -> 2 <= a -> is_array m a = is_array m' a.
Proof. intros [_ H] Ha. unfold is_array. now rewrite H. Qed.
Lemma alike_step s s' o : wf s -> alike s s' -> alike (step s o) (step s' o).
Proof.
  intros (A & B & C & r & D & E) (H1 & H2 & H3 & H4). assert (SM : same_from_2 (mem s) (mem s')) by exact H4.
  destruct o as [w| | |k l]; cbn [AliasModel.step].
  - unfold AliasModel.run. destruct (signal_class row c), w as [added lone rr|e|bs rr]; try (repeat split; assumption || apply H4).
    + cbn [fst]. unfold alike. cbn. rewrite <- H1, <- H2. repeat (split; [reflexivity || assumption|]).
      assert (X := same_enrich added (mem s) (mem s') (a_in s) (a_sig s) SM ltac:(lia) ltac:(lia)).
      destruct lone as [x|]; [|exact X]. rewrite (same_read _ _ (a_in s) X) by lia. now apply same_write.
    + rewrite <- H1, <- H2, <- (same_array _ _ (a_in s) SM) by lia. destruct (is_array (mem s) (a_in s)); [cbn [fst]; repeat split; try assumption; apply H4|].
      rewrite <- (same_read _ _ (a_in s) SM), <- (same_read _ _ (a_sig s) SM) by lia. rewrite <- (proj1 SM).
      set (n := [Arr (read (mem s) (a_in s)); Arr (read (mem s) (a_sig s))]).
      assert (X := same_batches bs (mem s ++ n) (mem s' ++ n) (List.length (mem s)) (S (List.length (mem s))) (same_app _ _ _ SM)).
      rewrite app_length in X. specialize (X ltac:(unfold n; cbn; lia) ltac:(unfold n; cbn; lia)).
      destruct (batches_run (mem s ++ n) _ _ bs) as [[m2 i] o]. destruct (batches_run (mem s' ++ n) _ _ bs) as [[m2' i'] o']. destruct X as (X & <- & <- & X1 & X2).
      destruct rr as [u|e]; cbn [fst].
      * rewrite <- (same_read m2 m2' i X X1), <- (same_read m2 m2' o X X2), <- (proj1 X). unfold alike. cbn. repeat (split; [reflexivity || assumption|]).
        now apply same_app.
      * unfold alike. cbn. repeat (split; [reflexivity || assumption|]). exact X.
  - unfold getInputDOE, alike. cbn. rewrite H1, H3. auto.
  - unfold getOutputDOE. destruct (box row c) as [[t inv]|]; unfold alike; cbn.
    + rewrite <- H2, <- (same_read _ _ (a_sig s) SM) by lia. rewrite H1, H3, (proj1 SM). repeat (split; [reflexivity|]). now apply same_app.
    + rewrite H1, H2, H3. auto.
  - unfold change. rewrite <- H3. destruct (nth_error (held s) k) as [[t a]|]; [|repeat split; try assumption; apply H4].
    unfold alike. cbn. repeat (split; [assumption || reflexivity|]). now apply same_write.
Qed.
Lemma alike_arguments s s' o : wf s -> on_arguments o = true -> alike s s' -> alike (step s o) s'.
Proof.
  intros (A & B & C & r & D & E) Ho (H1 & H2 & H3 & H4). destruct o as [w| | |k l]; try discriminate. cbn [on_arguments] in Ho. apply Nat.ltb_lt in Ho.
  cbn [AliasModel.step]. unfold change. rewrite D. assert (X : exists b, nth_error ((FromClient, 0) :: (FromClient, 1) :: r) k = Some (FromClient, b) /\ b < 2).
  { destruct k as [|[|k]]; [exists 0|exists 1|lia]; cbn; split; auto. }
  destruct X as (b & -> & Hb). unfold alike. cbn. rewrite <- H3, D. repeat (split; [assumption || reflexivity|]). rewrite length_write. split; [apply H4|].
  intros a Ha. rewrite nth_write_other by lia. now apply H4.
Qed.
(** What a client does with the samples it gave to the constructor has no effect on the object: the getters give the same as without. *)
Theorem C98_arguments xin xout l :
  let s := play xin xout l in let s' := play xin xout (filter (fun o => negb (on_arguments o)) l) in
  design s = design s' /\ outputs s = outputs s' /\ (forall k, 2 <= k -> look s k = look s' k) /\ setDefectSizes_fails s = setDefectSizes_fails s'.
Proof.
  cbn zeta. assert (X : forall l s s', wf s -> alike s s' -> alike (fold_left step l s) (fold_left step (filter (fun o => negb (on_arguments o)) l) s')).
  { clear l. induction l as [|o l IH]; intros s s' W H; [exact H|]. cbn [fold_left filter]. destruct (on_arguments o) eqn:E; cbn [negb].
    - apply IH; [now apply wf_step|]. now apply alike_arguments.
    - cbn [fold_left]. apply IH; [now apply wf_step|]. now apply alike_step. }
  assert (Y := X l (init xin xout) (init xin xout) (wf_init _ _) ltac:(repeat split)). assert (W := wf_play xin xout l).
  unfold AliasModel.play in *. set (s := fold_left step l _) in *. set (s' := fold_left step (filter _ l) _) in *.
  destruct W as (A & B & C & r & D & E). destruct Y as (H1 & H2 & H3 & H4). assert (SM : same_from_2 (mem s) (mem s')) by exact H4.
  unfold design, outputs, look, setDefectSizes_fails. rewrite <- H1, <- H2, <- H3. rewrite <- !(same_read _ _ _ SM), <- (same_array _ _ _ SM) by lia.
  repeat split. intros k Hk. rewrite D. destruct k as [|[|k]]; [lia|lia|]. cbn [nth_error]. destruct (nth_error r k) as [[t a]|] eqn:F; [|reflexivity].
  apply nth_error_In in F. apply E in F. apply same_read; [exact SM|lia].
Qed.
Lemma low_step s o b : wf s -> b < 2 -> on_arguments o = false -> read (mem (step s o)) b = read (mem s) b.
Proof.
  intros (A & B & C & r & D & E) Hb Ho. destruct o as [w| | |k l]; cbn [AliasModel.step].
  - unfold AliasModel.run. destruct (signal_class row c), w as [added lone rr|e|bs rr]; try reflexivity.
    + destruct (enrich_spec added (mem s) (a_in s) (a_sig s) C ltac:(lia) ltac:(lia)) as (_ & _ & X). cbn [fst AliasModel.mem].
      destruct lone; [rewrite read_write_other by lia|]; unfold read; now rewrite X by lia.
    + destruct (is_array (mem s) (a_in s)); [reflexivity|]. set (m0 := mem s) in *.
      set (m1 := m0 ++ [Arr (read m0 (a_in s)); Arr (read m0 (a_sig s))]). assert (L1 : List.length m1 = List.length m0 + 2) by (unfold m1; now rewrite app_length).
      assert (Ar : is_array m1 (List.length m0) = true) by (unfold is_array, m1; rewrite nth_error_app2, Nat.sub_diag by lia; reflexivity).
      assert (BS := batches_spec bs m1 (List.length m0) (S (List.length m0)) ltac:(lia) ltac:(lia) ltac:(lia) Ar).
      destruct (batches_run m1 (List.length m0) (S (List.length m0)) bs) as [[m2 i] o]. destruct BS as (S1 & S2 & S3 & S4 & S5 & S6 & S7 & S8 & S9).
      assert (Z : read m2 b = read m0 b) by (unfold read; rewrite S9 by lia; unfold m1; now rewrite nth_app by lia).
      destruct rr as [u|e]; cbn [fst AliasModel.mem]; rewrite ?read_app by lia; exact Z.
  - reflexivity.
  - unfold getOutputDOE. destruct (box row c) as [[t inv]|]; [|reflexivity]. cbn. apply read_app. lia.
  - cbn [on_arguments] in Ho. apply Nat.ltb_ge in Ho. unfold change. rewrite D. destruct k as [|[|k]]; [lia|lia|]. cbn [nth_error].
    destruct (nth_error r k) as [[t a]|] eqn:F; [|reflexivity]. apply nth_error_In in F. apply E in F. cbn. apply read_write_other. lia.
Qed.
(** The object never changes the samples given to the constructor. *)
Theorem C98_arguments_kept xin xout l :
  (forall o, In o l -> on_arguments o = false) -> look (play xin xout l) 0 = xin /\ look (play xin xout l) 1 = xout.
Proof.
  intros H. assert (X : forall l s, wf s -> (forall o, In o l -> on_arguments o = false) -> forall b, b < 2 -> read (mem (fold_left step l s)) b = read (mem s) b).
  { clear. induction l as [|o l IH]; intros s W H b Hb; [reflexivity|]. cbn. rewrite IH; [|now apply wf_step|intros; apply H; now right|exact Hb].
    apply low_step; try assumption. apply H. now left. }
  assert (W := wf_play xin xout l). destruct W as (_ & _ & _ & r & D & _). unfold look. rewrite D. cbn [nth_error]. unfold AliasModel.play.
  rewrite !X by (apply wf_init || assumption || lia). unfold AliasModel.init. destruct (censored row c) as [f|]; [destruct (f xin xout)|];
    (destruct (box row c) as [[t inv]|]; destruct (labels row c) as [g|]; split; reflexivity).
Qed.

(** *** AdaptiveSignalPOD: the designs are live *)
Definition position (l : list op) : nat := 2 + List.length (filter (fun o => match o with GetIn | GetOut => true | _ => false end) l).
Lemma held_position xin xout l : List.length (held (play xin xout l)) = position l.
Proof.
  induction l as [|o l IH] using rev_ind; [unfold AliasModel.play; cbn; unfold AliasModel.init; destruct (censored row c) as [f|]; [destruct (f xin xout)|];
    (destruct (box row c) as [[t inv]|]; destruct (labels row c) as [g|]; reflexivity)|].
  unfold AliasModel.play, position in *. rewrite fold_left_app, filter_app, app_length. cbn [fold_left]. set (s := fold_left step l _) in *.
  destruct o as [w| | |k m]; cbn [AliasModel.step filter List.length].
  - rewrite Nat.add_0_r, <- IH. unfold AliasModel.run. destruct (signal_class row c), w; try reflexivity.
    destruct (is_array (mem s) (a_in s)); [reflexivity|]. destruct (batches_run _ _ _ _) as [[m2 i] o]. now destruct r.
  - cbn. rewrite app_length, IH. cbn. lia.
  - unfold getOutputDOE. destruct (box row c) as [[t inv]|]; cbn; rewrite app_length, IH; cbn; lia.
  - rewrite Nat.add_0_r, <- IH. unfold change. now destruct (nth_error (held s) k) as [[t a]|].
Qed.
Local Opaque position.
Lemma signal_addresses l : signal_class row c = true -> forall s, a_in (fold_left step l s) = a_in s /\ a_sig (fold_left step l s) = a_sig s.
Proof.
  intros Hc. induction l as [|o l IH]; intros s; [auto|]. cbn. destruct (IH (step s o)) as [-> ->]. destruct o as [w| | |k m]; cbn [AliasModel.step].
  - unfold AliasModel.run. rewrite Hc. destruct w; auto.
  - auto.
  - unfold getOutputDOE. destruct (box row c) as [[t inv]|]; auto.
  - unfold change. destruct (nth_error (held s) k) as [[t a]|]; auto.
Qed.
(** A design obtained at any moment is the design of the object: whatever happens later, runs or changes by the client, it shows what
    getInputDOE would give then.  Without Box-Cox the same holds for getOutputDOE. *)
Theorem C98_signal_live xin xout l1 l2 :
  signal_class row c = true ->
  look (play xin xout (l1 ++ GetIn :: l2)) (position l1) = design (play xin xout (l1 ++ GetIn :: l2)) /\
  (box row c = None -> look (play xin xout (l1 ++ GetOut :: l2)) (position l1) = outputs (play xin xout (l1 ++ GetOut :: l2))).
Proof.
  intros Hc. assert (W := wf_play xin xout l1). assert (P := held_position xin xout l1). unfold AliasModel.play in *. rewrite !fold_left_app. cbn [fold_left].
  set (s := fold_left step l1 _) in *. split.
  - destruct (signal_addresses l2 Hc (step s GetIn)) as [E _]. unfold look, design. rewrite (held_fold l2 (step s GetIn) (wf_step s GetIn W) (position l1) (FromInput, a_in s)).
    + now rewrite E.
    + cbn. rewrite nth_error_app2 by lia. rewrite P, Nat.sub_diag. reflexivity.
  - intros Hb. destruct (signal_addresses l2 Hc (step s GetOut)) as [_ E]. unfold look, outputs. rewrite (held_fold l2 (step s GetOut) (wf_step s GetOut W) (position l1) (FromOutput, a_sig s)).
    + rewrite Hb, E. cbn [AliasModel.step]. unfold getOutputDOE. now rewrite Hb.
    + cbn [AliasModel.step]. unfold getOutputDOE. rewrite Hb. cbn. rewrite nth_error_app2 by lia. rewrite P, Nat.sub_diag. reflexivity.
Qed.
(** With Box-Cox what getOutputDOE returns is a copy: it keeps the signals of the moment of the call until the client changes it, and
    changing it has no effect on the object. *)
Definition changes_ref (k : nat) (o : op) : bool := match o with Change k' _ => Nat.eqb k' k | _ => false end.
Definition private (a k : nat) (s : state) : Prop :=
  a < List.length (mem s) /\ a <> a_in s /\ a <> a_sig s /\ forall k' t a', nth_error (held s) k' = Some (t, a') -> (k' = k <-> a' = a).
Lemma private_step a k s o : wf s -> private a k s -> changes_ref k o = false ->
  (exists x, nth_error (held s) k = Some x) -> private a k (step s o) /\ read (mem (step s o)) a = read (mem s) a.
Proof.
  intros W (P1 & P2 & P3 & P4) Ho (x & Hx). assert (W' := wf_step s o W). pose proof W as (A & B & C & r & D & E). destruct o as [w| | |k2 l]; cbn [AliasModel.step].
  - unfold AliasModel.run. destruct (signal_class row c), w as [added lone rr|e|bs rr]; try (split; [exact (conj P1 (conj P2 (conj P3 P4)))|reflexivity]).
    + destruct (enrich_spec added (mem s) (a_in s) (a_sig s) C ltac:(lia) ltac:(lia)) as (_ & _ & X). cbn [fst]. unfold private. cbn [AliasModel.mem AliasModel.a_in AliasModel.a_sig AliasModel.held]. split.
      * split; [|auto]. destruct lone; rewrite ?length_write, length_enrich; assumption.
      * destruct lone; [rewrite read_write_other by auto|]; unfold read; now rewrite X.
    + destruct (is_array (mem s) (a_in s)); [split; [exact (conj P1 (conj P2 (conj P3 P4)))|reflexivity]|]. set (m0 := mem s) in *.
      set (m1 := m0 ++ [Arr (read m0 (a_in s)); Arr (read m0 (a_sig s))]). assert (L1 : List.length m1 = List.length m0 + 2) by (unfold m1; now rewrite app_length).
      assert (Ar : is_array m1 (List.length m0) = true) by (unfold is_array, m1; rewrite nth_error_app2, Nat.sub_diag by lia; reflexivity).
      assert (BS := batches_spec bs m1 (List.length m0) (S (List.length m0)) ltac:(lia) ltac:(lia) ltac:(lia) Ar).
      destruct (batches_run m1 (List.length m0) (S (List.length m0)) bs) as [[m2 i] o]. destruct BS as (S1 & S2 & S3 & S4 & S5 & S6 & S7 & S8 & S9).
      assert (Z : read m2 a = read m0 a) by (unfold read; rewrite S9 by lia; unfold m1; now rewrite nth_app by lia).
      destruct rr as [u|e]; cbn [fst]; unfold private; cbn [AliasModel.mem AliasModel.a_in AliasModel.a_sig AliasModel.held]; rewrite ?read_app by lia; rewrite ?app_length; cbn;
        (split; [|exact Z]); repeat (split; [lia|]); exact P4.
  - split; [|reflexivity]. unfold private, getInputDOE. cbn. repeat (split; [assumption|]). intros k' t a' F. destruct (Nat.lt_ge_cases k' (List.length (held s))) as [G|G].
    + rewrite nth_error_app1 in F by exact G. eapply P4; exact F.
    + rewrite nth_error_app2 in F by exact G. assert (Hk : k < List.length (held s)) by (apply nth_error_Some; now rewrite Hx).
      destruct (k' - List.length (held s)) as [|n]; [|destruct n; discriminate]. injection F as <- <-. split; intros; [lia|congruence].
  - unfold getOutputDOE. destruct (box row c) as [[t0 inv]|].
    + cbn. split; [|now apply read_app]. unfold private. cbn. rewrite app_length. cbn. repeat (split; [lia|]). intros k' t a' F. destruct (Nat.lt_ge_cases k' (List.length (held s))) as [G|G].
      * rewrite nth_error_app1 in F by exact G. eapply P4; exact F.
      * rewrite nth_error_app2 in F by exact G. assert (Hk : k < List.length (held s)) by (apply nth_error_Some; now rewrite Hx).
        destruct (k' - List.length (held s)) as [|n]; [|destruct n; discriminate]. injection F as <- <-. split; intros; lia.
    + split; [|reflexivity]. unfold private. cbn. repeat (split; [assumption|]). intros k' t a' F. destruct (Nat.lt_ge_cases k' (List.length (held s))) as [G|G].
      * rewrite nth_error_app1 in F by exact G. eapply P4; exact F.
      * rewrite nth_error_app2 in F by exact G. assert (Hk : k < List.length (held s)) by (apply nth_error_Some; now rewrite Hx).
        destruct (k' - List.length (held s)) as [|n]; [|destruct n; discriminate]. injection F as <- <-. split; intros; [lia|congruence].
  - unfold change. cbn in Ho. apply Nat.eqb_neq in Ho. destruct (nth_error (held s) k2) as [[t a']|] eqn:F; [|split; [exact (conj P1 (conj P2 (conj P3 P4)))|reflexivity]].
    assert (N : a' <> a) by (intros X; apply Ho; now apply (P4 k2 t a' F)). cbn. split; [|now apply read_write_other].
    unfold private. cbn. rewrite length_write. auto.
Qed.
Lemma private_start xin xout l1 : box row c <> None -> let s := play xin xout l1 in private (List.length (mem s)) (position l1) (step s GetOut) /\
  nth_error (held (step s GetOut)) (position l1) = Some (FromOutput, List.length (mem s)) /\ read (mem (step s GetOut)) (List.length (mem s)) = outputs s.
Proof.
  intros Hb s. assert (W := wf_play xin xout l1). fold s in W. assert (P := held_position xin xout l1). fold s in P. destruct W as (A & B & C & r & D & E).
  cbn [AliasModel.step]. unfold getOutputDOE, outputs. destruct (box row c) as [[t inv]|]; [|congruence]. unfold private. cbn [AliasModel.mem AliasModel.a_in AliasModel.a_sig AliasModel.held].
  rewrite read_new. split; [|split; [|reflexivity]].
  - rewrite app_length. cbn. repeat (split; [lia|]). intros k' t' a' F. destruct (Nat.lt_ge_cases k' (List.length (held s))) as [G|G].
    + rewrite nth_error_app1 in F by exact G. split; intros X; [lia|]. exfalso. rewrite D in F. destruct k' as [|[|k']]; cbn in F; [injection F as _ <-; lia|injection F as _ <-; lia|].
      apply nth_error_In, E in F. lia.
    + rewrite nth_error_app2 in F by exact G. destruct (k' - List.length (held s)) as [|n] eqn:Ek; [|destruct n; discriminate]. injection F as <- <-. split; intros; [reflexivity|lia].
  - rewrite nth_error_app2 by lia. rewrite P, Nat.sub_diag. reflexivity.
Qed.
Theorem C98_boxcox_copy xin xout l1 l2 :
  box row c <> None -> (forall o, In o l2 -> changes_ref (position l1) o = false) ->
  look (play xin xout (l1 ++ GetOut :: l2)) (position l1) = outputs (play xin xout l1).
Proof.
  intros Hb H. destruct (private_start xin xout l1 Hb) as (P1 & P2 & P3). assert (W := wf_play xin xout l1).
  unfold AliasModel.play in *. rewrite fold_left_app. cbn [fold_left]. set (s := fold_left step l1 _) in *. set (a := List.length (mem s)) in *.
  assert (X : forall l s1, wf s1 -> (forall o, In o l -> changes_ref (position l1) o = false) -> private a (position l1) s1 -> nth_error (held s1) (position l1) = Some (FromOutput, a) ->
    read (mem (fold_left step l s1)) a = read (mem s1) a).
  { clear. induction l as [|o l IH]; intros s1 W H P F; [reflexivity|]. cbn. destruct (private_step a (position l1) s1 o W P (H o (or_introl eq_refl)) (ex_intro _ _ F)) as [Q1 Q2].
    rewrite IH; [exact Q2|now apply wf_step|intros; apply H; now right|exact Q1|]. exact (held_fold [o] s1 W _ _ F). }
  unfold look. rewrite (held_fold l2 _ (wf_step s GetOut W) _ _ P2). rewrite X; try assumption. now apply wf_step.
Qed.
Theorem C98_boxcox_copy_is_private xin xout l1 l2 m :
  box row c <> None ->
  (forall o, In o l2 -> changes_ref (position l1) o = false) ->
  let s := play xin xout (l1 ++ GetOut :: l2) in let s' := step s (Change (position l1) m) in
  design s' = design s /\ outputs s' = outputs s /\ look s' (position l1) = m.
Proof.
  intros Hb H. cbn zeta. destruct (private_start xin xout l1 Hb) as (P1 & P2 & P3). assert (W := wf_play xin xout l1).
  unfold AliasModel.play in *. rewrite fold_left_app. cbn [fold_left]. set (s := fold_left step l1 _) in *. set (a := List.length (mem s)) in *.
  assert (X : forall l s1, wf s1 -> (forall o, In o l -> changes_ref (position l1) o = false) -> private a (position l1) s1 -> nth_error (held s1) (position l1) = Some (FromOutput, a) ->
    private a (position l1) (fold_left step l s1)).
  { clear. induction l as [|o l IH]; intros s1 W H P F; [exact P|]. cbn. destruct (private_step a (position l1) s1 o W P (H o (or_introl eq_refl)) (ex_intro _ _ F)) as [Q1 Q2].
    apply IH; [now apply wf_step|intros; apply H; now right|exact Q1|]. exact (held_fold [o] s1 W _ _ F). }
  assert (W1 := wf_step s GetOut W). assert (F := held_fold l2 _ W1 _ _ P2). destruct (X l2 _ W1 H P1 P2) as (Q1 & Q2 & Q3 & _). set (s2 := fold_left step l2 _) in *.
  cbn [AliasModel.step]. unfold change. rewrite F. unfold design, outputs, look. cbn. rewrite F. rewrite !read_write_other by congruence. rewrite read_write_same by exact Q1. auto.
Qed.

(** *** Pairing *)
Definition no_change (l : list op) : Prop := forall k m, ~ In (Change k m) l.
(** What the runs of AdaptiveSignalPOD in a history added. *)
Fixpoint added_in (l : list op) : list row := match l with
  | Run (SignalRun ad lone _) :: l' => map fst ad ++ (match lone with Some x => [x] | None => [] end) ++ added_in l' | _ :: l' => added_in l' | [] => [] end.
Fixpoint added_out (l : list op) : list row := match l with
  | Run (SignalRun ad _ _) :: l' => map snd ad ++ added_out l' | _ :: l' => added_out l' | [] => [] end.
(** As long as the client only reads, the design is the initial one followed by the added points, the same for the signals. *)
Theorem C98_signal_contents xin xout l :
  signal_class row c = true -> no_change l ->
  let s := play xin xout l in let s0 := init xin xout in
  design s = design s0 ++ added_in l /\ read (mem s) (a_sig s) = read (mem s0) (a_sig s0) ++ added_out l.
Proof.
  intros Hc. cbn zeta. assert (W := wf_init xin xout). unfold AliasModel.play. revert W. generalize (init xin xout).
  induction l as [|o l IH]; intros s W N; cbn [fold_left added_in added_out]; [now rewrite !app_nil_r|].
  assert (N' : no_change l) by (intros k m X; apply (N k m); now right). destruct (IH (step s o) (wf_step s o W) N') as [-> ->]. destruct W as (A & B & C & r & D & E).
  destruct o as [w| | |k m]; cbn [AliasModel.step].
  - unfold AliasModel.run. rewrite Hc. destruct w as [ad lone rr|e|bs rr]; [|now split|now split].
    destruct (enrich_spec ad (mem s) (a_in s) (a_sig s) C ltac:(lia) ltac:(lia)) as (X1 & X2 & _). unfold design. cbn.
    destruct lone as [x|].
    + rewrite read_write_same by (rewrite length_enrich; lia). rewrite read_write_other, X1, X2 by assumption. now rewrite <- !app_assoc.
    + rewrite X1, X2. now rewrite <- !app_assoc.
  - now split.
  - unfold getOutputDOE. destruct (box row c) as [[t inv]|]; [|now split]. unfold design. cbn. rewrite !read_app by lia. now split.
  - exfalso. apply (N k m). now left.
Qed.

(** *** AdaptiveHitMissPOD *)
(** What the client read before is not touched by runs: a design read is a snapshot as long as the client changes nothing. *)
Theorem C98_hitmiss_snapshot xin xout l1 l2 :
  signal_class row c = false -> no_change l2 ->
  look (play xin xout (l1 ++ GetIn :: l2)) (position l1) = design (play xin xout l1) /\
  look (play xin xout (l1 ++ GetOut :: l2)) (position l1) = outputs (play xin xout l1).
Proof.
  intros Hc N. assert (W := wf_play xin xout l1). assert (P := held_position xin xout l1). unfold AliasModel.play in *. rewrite !fold_left_app. cbn [fold_left]. set (s := fold_left step l1 _) in *.
  assert (X : forall l s, wf s -> no_change l -> forall a, a < List.length (mem s) -> read (mem (fold_left step l s)) a = read (mem s) a).
  { clear - Hc. induction l as [|o l IH]; intros s W N a Ha; [reflexivity|]. cbn. assert (N' : no_change l) by (intros k m X; apply (N k m); now right).
    assert (Y : List.length (mem s) <= List.length (mem (step s o)) /\ read (mem (step s o)) a = read (mem s) a).
    { destruct W as (A & B & C & r & D & E). destruct o as [w| | |k m]; cbn [AliasModel.step].
      - unfold AliasModel.run. rewrite Hc. destruct w as [ad lone rr|e|bs rr]; [now split|now split|]. destruct (is_array (mem s) (a_in s)); [now split|]. set (m0 := mem s) in *.
        set (m1 := m0 ++ [Arr (read m0 (a_in s)); Arr (read m0 (a_sig s))]). assert (L1 : List.length m1 = List.length m0 + 2) by (unfold m1; now rewrite app_length).
        assert (Ar : is_array m1 (List.length m0) = true) by (unfold is_array, m1; rewrite nth_error_app2, Nat.sub_diag by lia; reflexivity).
        assert (BS := batches_spec bs m1 (List.length m0) (S (List.length m0)) ltac:(lia) ltac:(lia) ltac:(lia) Ar).
        destruct (batches_run m1 (List.length m0) (S (List.length m0)) bs) as [[m2 i] o]. destruct BS as (S1 & S2 & S3 & S4 & S5 & S6 & S7 & S8 & S9).
        assert (Z : read m2 a = read m0 a) by (unfold read; rewrite S9 by lia; unfold m1; now rewrite nth_app by lia).
        destruct rr as [u|e]; cbn [fst AliasModel.mem]; rewrite ?app_length, ?read_app by lia; cbn; split; try lia; exact Z.
      - now split.
      - unfold getOutputDOE. destruct (box row c) as [[t inv]|]; [|now split]. cbn. rewrite app_length, read_app by assumption. split; [lia|reflexivity].
      - exfalso. apply (N k m). now left. }
    destruct Y as [Y1 Y2]. rewrite IH; [exact Y2|now apply wf_step|exact N'|lia]. }
  pose proof W as (A & B & C & r & D & E). split.
  - unfold look. rewrite (held_fold l2 (step s GetIn) (wf_step s GetIn W) (position l1) (FromInput, a_in s)).
    + rewrite X; [reflexivity|now apply wf_step|exact N|cbn; lia].
    + cbn. rewrite nth_error_app2 by lia. rewrite P, Nat.sub_diag. reflexivity.
  - unfold look, outputs. assert (W' := wf_step s GetOut W). revert W'. cbn [AliasModel.step]. unfold getOutputDOE. destruct (box row c) as [[t inv]|]; intros W'.
    + rewrite (held_fold l2 _ W' (position l1) (FromOutput, List.length (mem s))); [|cbn; rewrite nth_error_app2 by lia; rewrite P, Nat.sub_diag; reflexivity].
      rewrite X; [|exact W'|exact N|cbn; rewrite app_length; cbn; lia]. cbn. apply read_new.
    + rewrite (held_fold l2 _ W' (position l1) (FromOutput, a_sig s)); [|cbn; rewrite nth_error_app2 by lia; rewrite P, Nat.sub_diag; reflexivity].
      rewrite X; [reflexivity|exact W'|exact N|cbn; lia].
Qed.
(** A run that gets to the end leaves samples, so the next one can start; one that fails in the loop keeps its points and leaves an array. *)
Theorem C98_hitmiss_run xin xout l bs r :
  signal_class row c = false -> let s := play xin xout l in setDefectSizes_fails s = None ->
  let s' := fst (run (HitMissRun bs r) s) in
  snd (run (HitMissRun bs r) s) = r /\ design s' = design s ++ map fst (List.concat bs) /\ read (mem s') (a_sig s') = read (mem s) (a_sig s) ++ map snd (List.concat bs) /\
  setDefectSizes_fails s' = match r with Ok _ => None | Raise _ => Some AttributeError end.
Proof.
  intros Hc s Hs. assert (W := wf_play xin xout l). fold s in W. pose proof W as (A & B & C & rr & D & E). cbn zeta. unfold setDefectSizes_fails in Hs.
  unfold AliasModel.run. rewrite Hc. destruct (is_array (mem s) (a_in s)); [discriminate|]. set (m0 := mem s) in *.
  set (m1 := m0 ++ [Arr (read m0 (a_in s)); Arr (read m0 (a_sig s))]). assert (L1 : List.length m1 = List.length m0 + 2) by (unfold m1; now rewrite app_length).
  assert (Ar : is_array m1 (List.length m0) = true) by (unfold is_array, m1; rewrite nth_error_app2, Nat.sub_diag by lia; reflexivity).
  assert (BS := batches_spec bs m1 (List.length m0) (S (List.length m0)) ltac:(lia) ltac:(lia) ltac:(lia) Ar).
  destruct (batches_run m1 (List.length m0) (S (List.length m0)) bs) as [[m2 i] o]. destruct BS as (S1 & S2 & S3 & S4 & S5 & S6 & S7 & S8 & S9).
  unfold m1 in S7, S8. rewrite read_new in S7. rewrite read_new2 in S8. cbn [AliasModel.rows_of] in S7, S8.
  destruct r as [[]|e]; cbn [fst snd]; unfold design, setDefectSizes_fails; cbn [AliasModel.mem AliasModel.a_in AliasModel.a_sig]; fold m0.
  - rewrite read_new, read_new2. cbn [AliasModel.rows_of]. rewrite S7, S8. repeat split. unfold is_array. rewrite nth_error_app2, Nat.sub_diag by lia. reflexivity.
  - rewrite S7, S8, S5. repeat split.
Qed.
(** Finding: after a run that failed in the loop the object cannot run again, whatever is done with it: every later run and every
    setDefectSizes raises AttributeError. *)
Theorem C98_hitmiss_stuck xin xout l bs e l2 :
  signal_class row c = false -> setDefectSizes_fails (play xin xout l) = None ->
  let s := play xin xout (l ++ Run (HitMissRun bs (Raise e)) :: l2) in
  setDefectSizes_fails s = Some AttributeError /\ forall bs' r', run (HitMissRun bs' r') s = (s, Raise AttributeError).
Proof.
  intros Hc Hs. cbn zeta. assert (Z : is_array (mem (play xin xout (l ++ Run (HitMissRun bs (Raise e)) :: l2))) (a_in (play xin xout (l ++ Run (HitMissRun bs (Raise e)) :: l2))) = true).
  { destruct (C98_hitmiss_run xin xout l bs (Raise e) Hc Hs) as (_ & _ & _ & X). assert (W := wf_play xin xout l). unfold AliasModel.play in *. rewrite fold_left_app. cbn [fold_left]. set (s := fold_left step l _) in *.
    assert (W1 := wf_step s (Run (HitMissRun bs (Raise e))) W). cbn [AliasModel.step] in W1 |- *. set (s1 := fst (run _ s)) in *.
    assert (Y : is_array (mem s1) (a_in s1) = true) by (unfold setDefectSizes_fails in X; now destruct (is_array (mem s1) (a_in s1))). clearbody s1. clear - Y W1 Hc.
    revert s1 Y W1. induction l2 as [|o l2 IH]; intros s Y W; [exact Y|]. cbn. apply IH; [|now apply wf_step]. destruct W as (A & B & C & r & D & E). destruct o as [w| | |k m]; cbn [AliasModel.step].
    - unfold AliasModel.run. rewrite Hc. destruct w as [ad lone rr|x|b rr]; try exact Y. now rewrite Y.
    - exact Y.
    - unfold getOutputDOE. destruct (box row c) as [[t inv]|]; [|exact Y]. cbn. unfold is_array in *. now rewrite nth_app by lia.
    - unfold change. destruct (nth_error (held s) k) as [[t a]|]; [|exact Y]. cbn. now rewrite array_write. }
  split; [unfold setDefectSizes_fails; now rewrite Z|]. intros bs' r'. unfold AliasModel.run. now rewrite Hc, Z.
Qed.
End Props.
Print Assumptions C98_arguments.
Print Assumptions C98_arguments_kept.
Print Assumptions C98_signal_live.
Print Assumptions C98_boxcox_copy.
Print Assumptions C98_boxcox_copy_is_private.
Print Assumptions C98_signal_contents.
Print Assumptions C98_hitmiss_snapshot.
Print Assumptions C98_hitmiss_run.
Print Assumptions C98_hitmiss_stuck.

(** Findings, on numbers as rows: the transformation adds one, its inverse takes one away. *)
Definition signal_cfg (b : bool) : cfg nat := {| signal_class := true; censored := None; box := if b then Some (map S, map pred) else None; labels := None |}.
Definition hitmiss_cfg : cfg nat := {| signal_class := false; censored := Some (fun i o => (tl i, tl o)); box := None; labels := Some (map (fun y => if Nat.ltb 5 y then 1 else 0)) |}.
Definition ran : op nat := Run nat (SignalRun nat [(7, 70); (8, 80)] None (Ok tt)).
(** Designs read before a run: with Box-Cox the inputs have grown and the signals have not, without they have grown both. *)
Theorem C98_read_before_run_refuted :
  let s b := play nat (signal_cfg b) [1; 2; 3] [10; 20; 30] [GetIn nat; GetOut nat; ran] in
  look nat (s true) 2 = [1; 2; 3; 7; 8] /\ look nat (s true) 3 = [10; 20; 30] /\ look nat (s false) 2 = [1; 2; 3; 7; 8] /\ look nat (s false) 3 = [10; 20; 30; 70; 80].
Proof. vm_compute. repeat split. Qed.
(** A client that removes a point from the design it was given changes the design of the object, but not its signals: points and signals
    are no longer paired. *)
Theorem C98_erase_refuted :
  let s := play nat (signal_cfg false) [1; 2; 3] [10; 20; 30] [GetIn nat; Change nat 2 [1; 3]] in
  design nat s = [1; 3] /\ outputs nat (signal_cfg false) s = [10; 20; 30].
Proof. vm_compute. repeat split. Qed.
(** Hit-miss: the graph directory is missing, run fails after its first points; created or not, no later run works. *)
Theorem C98_stuck_refuted :
  let l := [Run nat (HitMissRun nat [[(7, 1); (8, 0)]] (Raise OSError))] in let s := play nat hitmiss_cfg [1; 2; 3] [4; 5; 6] l in
  setDefectSizes_fails nat (play nat hitmiss_cfg [1; 2; 3] [4; 5; 6] []) = None /\ design nat s = [2; 3; 7; 8] /\ outputs nat hitmiss_cfg s = [0; 1; 1; 0] /\
  snd (run nat hitmiss_cfg (HitMissRun nat [[(9, 1)]] (Ok tt)) s) = Raise AttributeError.
Proof. vm_compute. repeat split. Qed.
(** The hypotheses of the theorems above: histories with runs and reads, and changes of the own samples. *)
Example C98_case :
  signal_class nat (signal_cfg true) = true /\ box nat (signal_cfg true) <> None /\ (forall o, In o [ran; GetIn nat; ran] -> changes_ref nat (position nat [GetIn nat]) o = false) /\
  no_change nat [ran; GetOut nat] /\ signal_class nat hitmiss_cfg = false /\
  design nat (play nat (signal_cfg true) [1; 2; 3] [10; 20; 30] [Change nat 0 []; ran; ran]) = [1; 2; 3; 7; 8; 7; 8].
Proof.
  split; [reflexivity|]. split; [discriminate|]. split; [intros o [<-|[<-|[<-|[]]]]; reflexivity|]. split; [intros k m [H|[H|[]]]; discriminate|]. split; reflexivity.
Qed.
Print Assumptions C98_read_before_run_refuted.
Print Assumptions C98_erase_refuted.
Print Assumptions C98_stuck_refuted.
