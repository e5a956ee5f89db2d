(** C102: who holds the probability levels of a QuantileRegressionPOD. *)
From Verif Require Import Base Float64 SettersModel SettersProofs SettersProps ShareModel QrShareModel ShareProps.
Local Open Scope list_scope.

Section Props.
Variables A B : Type.
Variable default : list float.
Local Arguments arrays {A B}.
Local Arguments q {A B}.
Local Arguments podmodel {A B}.
Local Arguments rows {A B}.
Local Arguments held {A B}.
Local Arguments functions {A B}.
Local Arguments levels {A B}.
Local Arguments content {A B}.
Local Arguments keep_curve {A B}.
Local Arguments set_levels {A B}.
Local Arguments getPODModel {A B}.
Local Arguments getPODCLModel {A B}.
Local Arguments Own {A B}.
Local Arguments GetQuantile {A B}.
Local Arguments SetQuantile {A B}.
Local Arguments Run {A B}.
Local Arguments GetPod {A B}.
Local Arguments GetCl {A B}.
Local Arguments Change {A B}.
Local Arguments Pod {A B}.
Local Arguments Cl {A B}.
Notation state := (state A B).
Notation op := (op A B).
Notation step := (step A B).
Notation play := (play A B default).

(** *** Reading a history *)
(** The arrays the client gets, in order: [true] for its own ones, [false] for those of getQuantile. *)
Definition origins (l : list op) : list bool :=
  flat_map (fun o : op => match o with QrShareModel.Own _ => [true] | QrShareModel.GetQuantile => [false] | _ => [] end) l.
Definition is_set (o : op) : bool := match o with QrShareModel.SetQuantile _ => true | _ => false end.
Definition is_run (o : op) : bool := match o with QrShareModel.Run _ _ => true | _ => false end.

(** *** Invariant of the memory *)
Definition inv (l : list op) (s : state) : Prop :=
  q s < List.length (arrays s) /\ List.length (held s) = List.length (origins l) /\
  (forall h a, nth_error (held s) h = Some a -> a < List.length (arrays s)) /\
  (forall h a, nth_error (origins l) h = Some true -> nth_error (held s) h = Some a ->
     a <> q s /\ forall h' a', nth_error (held s) h' = Some a' -> h' <> h -> a' <> a).
Lemma origins_app l m : origins (l ++ m) = origins l ++ origins m.
Proof. unfold origins. now rewrite flat_map_app. Qed.
Lemma play_app l m : play (l ++ m) = fold_left step m (play l).
Proof. unfold QrShareModel.play. now rewrite fold_left_app. Qed.
Lemma play_snoc l o : play (l ++ [o]) = step (play l) o.
Proof. now rewrite play_app. Qed.
Lemma nth_snoc {T} (l : list T) x h y : nth_error (l ++ [x]) h = Some y -> nth_error l h = Some y \/ (h = List.length l /\ y = x).
Proof.
  intros H. destruct (Nat.lt_ge_cases h (List.length l)) as [L|L].
  - left. now rewrite nth_error_app1 in H.
  - right. rewrite nth_error_app2 in H by assumption. destruct (h - List.length l) as [|n] eqn:E; cbn in H; [injection H as ->; split; [lia|reflexivity]|]. now destruct n.
Qed.
Lemma nth_lt {T} (l : list T) h y : nth_error l h = Some y -> h < List.length l.
Proof. intros H. apply nth_error_Some. congruence. Qed.
Lemma set_levels_cases arg (s : state) :
  (set_levels arg s = (s, Raise ValueError)) \/
  (set_levels arg s = ({| arrays := arrays s ++ [fsort arg]; q := List.length (arrays s); podmodel := podmodel s; rows := rows s; held := held s; functions := functions s |}, Ok tt)).
Proof.
  unfold QrShareModel.set_levels. destruct (setQuantile (levels s) arg) as [l r] eqn:E. destruct (C24_setQuantile_effect _ _ _ _ E) as (H1 & H2 & _).
  destruct r as [[]|e]; [right|left].
  - destruct (H2 eq_refl) as [-> _]. reflexivity.
  - destruct (H1 ltac:(discriminate)) as [_ H]. now injection H as ->.
Qed.
Lemma inv_step l (s : state) o : inv l s -> inv (l ++ [o]) (step s o).
Proof.
  intros (I1 & I2 & I3 & I4). unfold inv. rewrite origins_app.
  assert (NN : forall o', origins [o'] = [] -> forall s' : state, q s' = q s -> held s' = held s -> List.length (arrays s') = List.length (arrays s) ->
     q s' < List.length (arrays s') /\ List.length (held s') = List.length (origins l ++ origins [o']) /\
     (forall h a, nth_error (held s') h = Some a -> a < List.length (arrays s')) /\
     (forall h a, nth_error (origins l ++ origins [o']) h = Some true -> nth_error (held s') h = Some a ->
       a <> q s' /\ forall h' a', nth_error (held s') h' = Some a' -> h' <> h -> a' <> a)).
  { intros o' Ho s' E1 E2 E3. rewrite Ho, app_nil_r, E1, E2, E3. auto. }
  destruct o as [x| |h|a b| |c|h x]; cbn [QrShareModel.step].
  - unfold QrShareModel.keep_array. cbn [QrShareModel.q QrShareModel.held QrShareModel.arrays]. rewrite app_length. cbn [List.length].
    split; [lia|]. split; [rewrite !app_length; cbn; lia|]. split.
    + intros h a H. apply nth_snoc in H as [H|[_ ->]]; [|lia]. apply I3 in H. lia.
    + intros h a Ho H. apply nth_snoc in H as [H|[-> ->]].
      * assert (L := nth_lt _ _ _ H). rewrite nth_error_app1 in Ho by lia. destruct (I4 h a Ho H) as [J1 J2]. split; [exact J1|].
        intros h' a' H' Hn. apply nth_snoc in H' as [H'|[_ ->]]; [now apply (J2 h')|]. apply I3 in H. lia.
      * split; [lia|]. intros h' a' H' Hn. apply nth_snoc in H' as [H'|[-> ->]]; [apply I3 in H'; lia|congruence].
  - unfold QrShareModel.keep_array. cbn [QrShareModel.q QrShareModel.held QrShareModel.arrays].
    split; [lia|]. split; [rewrite !app_length; cbn; lia|]. split.
    + intros h a H. apply nth_snoc in H as [H|[_ ->]]; [now apply I3 in H|assumption].
    + intros h a Ho H. apply nth_snoc in H as [H|[-> ->]].
      * assert (L := nth_lt _ _ _ H). rewrite nth_error_app1 in Ho by lia. destruct (I4 h a Ho H) as [J1 J2]. split; [exact J1|].
        intros h' a' H' Hn. apply nth_snoc in H' as [H'|[_ ->]]; [now apply (J2 h')|]. congruence.
      * rewrite nth_error_app2, I2, Nat.sub_diag in Ho by lia. discriminate.
  - destruct (nth_error (held s) h) as [a|] eqn:Eh; [|now apply NN].
    destruct (set_levels_cases (content h s) s) as [-> | ->]; cbn [fst]; [now apply NN|].
    cbn [QrShareModel.q QrShareModel.held QrShareModel.arrays]. cbn [origins flat_map]. rewrite !app_nil_r, app_length. cbn [List.length].
    split; [lia|]. split; [lia|]. split; [intros h' a' H; apply I3 in H; lia|]. intros h' a' Ho H. destruct (I4 h' a' Ho H) as [J1 J2]. split; [|exact J2]. apply I3 in H. lia.
  - destruct a as [a|]; now apply NN.
  - unfold QrShareModel.keep_curve. destruct (getPODModel s); now apply NN.
  - unfold QrShareModel.keep_curve. destruct (getPODCLModel c s); now apply NN.
  - destruct (nth_error (held s) h) as [a|] eqn:Eh; [|now apply NN]. apply NN; try reflexivity. cbn [QrShareModel.arrays]. apply length_put.
Qed.
Lemma inv_play l : inv l (play l).
Proof.
  induction l as [|o l IH] using rev_ind; [|rewrite play_snoc; now apply inv_step].
  unfold inv. cbn. split; [lia|]. split; [reflexivity|]. split; [intros [|?]; discriminate|intros [|?]; discriminate].
Qed.

(** *** Theorems *)
(** An array of the client's own is never shared: changed in place, it changes itself and nothing else. *)
Theorem C102_own_arrays_are_copied :
  forall l h x, nth_error (origins l) h = Some true ->
    let s := play l in let s' := play (l ++ [Change h x]) in
    levels s' = levels s /\ getPODModel s' = getPODModel s /\ (forall c, getPODCLModel c s' = getPODCLModel c s) /\ functions s' = functions s /\
    (List.length x = List.length (content h s) -> content h s' = x) /\ (forall h', h' <> h -> content h' s' = content h' s).
Proof.
  intros l h x Ho s s'. subst s'. rewrite play_snoc. fold s. destruct (inv_play l) as (I1 & I2 & I3 & I4). fold s in I1, I2, I3, I4. cbn [QrShareModel.step].
  assert (L : h < List.length (held s)) by (rewrite I2; now apply nth_lt in Ho).
  destruct (nth_error (held s) h) as [a|] eqn:Eh; [|apply nth_error_None in Eh; lia].
  destruct (I4 h a Ho Eh) as [J1 J2]. assert (La := I3 _ _ Eh).
  assert (E : at_ (put (arrays s) a x) (q s) = at_ (arrays s) (q s)) by now apply at_put_other.
  unfold QrShareModel.levels, QrShareModel.getPODModel, QrShareModel.getPODCLModel, QrShareModel.levels, QrShareModel.content.
  cbn [QrShareModel.arrays QrShareModel.q QrShareModel.podmodel QrShareModel.rows QrShareModel.held QrShareModel.functions]. rewrite E, Eh.
  repeat split.
  - intros Hl. clear - La Hl. revert a La Hl. unfold at_. induction (arrays s) as [|y m IH]; intros [|a] La Hl; cbn in *; try lia; [|apply IH; [lia|exact Hl]].
    now rewrite Hl, Nat.eqb_refl.
  - intros h' Hn. destruct (nth_error (held s) h') as [a'|] eqn:E'; [|reflexivity]. apply at_put_other. intros <-. now apply (J2 h' a E' Hn).
Qed.

Lemma at_put_same (m : list (list float)) a x : a < List.length m -> List.length x = List.length (at_ m a) -> at_ (put m a x) a = x.
Proof.
  unfold at_. revert a. induction m as [|y m IH]; intros [|a] La Hl; cbn in *; try lia; [|apply IH; [lia|exact Hl]]. now rewrite Hl, Nat.eqb_refl.
Qed.

(** The array of getQuantile is the one of the object: until setQuantile is called it shows the levels, and changed in place (same length)
    it changes them, without a check. *)
Theorem C102_returned_array_is_live :
  forall l m x, forallb (fun o => negb (is_set o)) m = true ->
    let h := List.length (origins l) in
    let s := play (l ++ GetQuantile :: m) in
    content h s = levels s /\ (List.length x = List.length (levels s) -> levels (play (l ++ GetQuantile :: m ++ [Change h x])) = x).
Proof.
  intros l m x Hm h s.
  assert (K : nth_error (held s) h = Some (q s)).
  { subst s. clear x. induction m as [|o m IH] using rev_ind.
    - rewrite play_snoc. cbn [QrShareModel.step]. unfold QrShareModel.keep_array. cbn [QrShareModel.held QrShareModel.q].
      destruct (inv_play l) as (_ & I2 & _). rewrite nth_error_app2; subst h; rewrite I2; [|lia]. now rewrite Nat.sub_diag.
    - rewrite forallb_app in Hm. apply andb_true_iff in Hm as [Hm Ho]. specialize (IH Hm).
      change (l ++ GetQuantile :: m ++ [o]) with (l ++ (GetQuantile :: m) ++ [o]). rewrite app_assoc, play_snoc.
      revert IH. generalize (play (l ++ GetQuantile :: m)). intros s IH.
      assert (Ex : forall y, nth_error (held s ++ [y]) h = Some (q s)) by (intros y; rewrite nth_error_app1; [exact IH|now apply nth_lt in IH]).
      destruct o as [y| |h'|a b| |c|h' y]; cbn [QrShareModel.step is_set forallb andb negb] in *; try discriminate; try exact IH; try apply Ex.
      + now destruct a.
      + unfold QrShareModel.keep_curve. now destruct (getPODModel s).
      + unfold QrShareModel.keep_curve. now destruct (getPODCLModel c s).
      + destruct (nth_error (held s) h'); exact IH. }
  split; [unfold QrShareModel.content; rewrite K; reflexivity|]. intros Hl.
  change (l ++ GetQuantile :: m ++ [Change h x]) with (l ++ (GetQuantile :: m) ++ [Change h x]). rewrite app_assoc, play_snoc. fold s. cbn [QrShareModel.step]. rewrite K.
  unfold QrShareModel.levels. cbn [QrShareModel.arrays QrShareModel.q]. apply at_put_same; [|exact Hl]. apply (inv_play (l ++ GetQuantile :: m)).
Qed.

(** setQuantile works on a copy: once the levels are accepted, the argument and every array got before have no effect on them. *)
Theorem C102_accepted_levels_are_detached :
  forall l h m, h < List.length (origins l) -> snd (set_levels (content h (play l)) (play l)) = Ok tt ->
    forallb (fun o => negb (is_set o)) m = true -> (forall h' x, In (Change h' x) m -> h' < List.length (origins l)) ->
    levels (play (l ++ SetQuantile h :: m)) = fsort (content h (play l)).
Proof.
  intros l h m Hh Hok Hm Hc.
  enough (K : levels (play (l ++ SetQuantile h :: m)) = fsort (content h (play l)) /\
              forall h', h' < List.length (origins l) -> nth_error (held (play (l ++ SetQuantile h :: m))) h' <> Some (q (play (l ++ SetQuantile h :: m)))) by apply K.
  induction m as [|o m IH] using rev_ind.
  - rewrite play_snoc. destruct (inv_play l) as (I1 & I2 & I3 & I4). cbn [QrShareModel.step].
    destruct (nth_error (held (play l)) h) as [a|] eqn:Eh; [|apply nth_error_None in Eh; lia].
    destruct (set_levels_cases (content h (play l)) (play l)) as [E|E]; rewrite E in *; [discriminate|]. cbn [fst].
    unfold QrShareModel.levels. cbn [QrShareModel.arrays QrShareModel.q QrShareModel.held]. split; [apply at_new|].
    intros h' _ H. apply I3 in H. lia.
  - rewrite forallb_app in Hm. apply andb_true_iff in Hm as [Hm Ho]. specialize (IH Hm (fun h' x H => Hc h' x (in_or_app _ _ _ (or_introl H)))).
    change (l ++ SetQuantile h :: m ++ [o]) with (l ++ (SetQuantile h :: m) ++ [o]). rewrite app_assoc, play_snoc.
    assert (LEN : List.length (origins l) <= List.length (held (play (l ++ SetQuantile h :: m)))).
    { destruct (inv_play (l ++ SetQuantile h :: m)) as (_ & I2 & _). rewrite I2, origins_app, app_length. lia. }
    destruct (inv_play (l ++ SetQuantile h :: m)) as (I1 & _).
    revert IH LEN I1. generalize (play (l ++ SetQuantile h :: m)). intros s [IH1 IH2] LEN I1.
    assert (Ex : forall y h', h' < List.length (origins l) -> nth_error (held s ++ [y]) h' <> Some (q s)) by (intros y h' H; rewrite nth_error_app1 by lia; now apply IH2).
    destruct o as [y| |h'|a b| |c|h' y]; cbn [QrShareModel.step is_set forallb andb negb] in *; try discriminate.
    + split; [|apply Ex]. unfold QrShareModel.levels, QrShareModel.keep_array. cbn [QrShareModel.arrays QrShareModel.q]. rewrite at_app by assumption. exact IH1.
    + split; [exact IH1|apply Ex].
    + destruct a; now split.
    + unfold QrShareModel.keep_curve. destruct (getPODModel s); now split.
    + unfold QrShareModel.keep_curve. destruct (getPODCLModel c s); now split.
    + destruct (nth_error (held s) h') as [a|] eqn:E; [|now split]. split; [|exact IH2].
      unfold QrShareModel.levels. cbn [QrShareModel.arrays QrShareModel.q]. rewrite at_put_other; [exact IH1|]. intros ->.
      apply (IH2 h'); [|exact E]. apply (Hc h' y). apply in_or_app. right. now left.
Qed.

(** As long as the client only changes its own arrays, and gives no NaN, the levels are sorted and strictly between 0 and 1. *)
Theorem C102_levels_stay_valid :
  forall l, Sorted_by np_leb default /\ Forall in01_open default ->
    (forall l1 h x l2, l = l1 ++ Change h x :: l2 -> nth_error (origins l1) h = Some true) ->
    (forall l1 h l2, l = l1 ++ SetQuantile h :: l2 -> existsb is_nan (content h (play l1)) = false) ->
    Sorted_by np_leb (levels (play l)) /\ Forall in01_open (levels (play l)).
Proof.
  intros l Hd Hc Hs. induction l as [|o l IH] using rev_ind; [exact Hd|].
  assert (IH' : Sorted_by np_leb (levels (play l)) /\ Forall in01_open (levels (play l))).
  { apply IH; [intros l1 h x l2 ->; apply (Hc l1 h x (l2 ++ [o])); now rewrite <- app_assoc|intros l1 h l2 ->; apply (Hs l1 h (l2 ++ [o])); now rewrite <- app_assoc]. }
  clear IH. destruct (inv_play l) as (I1 & I2 & I3 & I4). destruct o as [y| |h|a b| |c|h y].
  - rewrite play_snoc. cbn [QrShareModel.step]. unfold QrShareModel.levels, QrShareModel.keep_array. cbn [QrShareModel.arrays QrShareModel.q]. rewrite at_app by assumption. exact IH'.
  - rewrite play_snoc. exact IH'.
  - specialize (Hs l h [] eq_refl). rewrite play_snoc. cbn [QrShareModel.step]. destruct (nth_error (held (play l)) h) as [a|] eqn:E; [|exact IH'].
    pose proof (C24_history_invariant [content h (play l)] (levels (play l)) (Forall_cons _ Hs (Forall_nil _)) IH') as G. unfold quantile_history in G. cbn [fold_left] in G.
    unfold QrShareModel.set_levels. destruct (setQuantile (levels (play l)) (content h (play l))) as [x [[]|e]]; cbn [fst] in *; [|exact IH'].
    unfold QrShareModel.levels. cbn [QrShareModel.arrays QrShareModel.q]. rewrite at_new. exact G.
  - rewrite play_snoc. destruct a; exact IH'.
  - rewrite play_snoc. cbn [QrShareModel.step]. unfold QrShareModel.keep_curve. now destruct (getPODModel (play l)).
  - rewrite play_snoc. cbn [QrShareModel.step]. unfold QrShareModel.keep_curve. now destruct (getPODCLModel c (play l)).
  - destruct (C102_own_arrays_are_copied l h y (Hc l h y [] eq_refl)) as [E _]. rewrite E. exact IH'.
Qed.

(** After a run that ends: the POD curve is the one of the levels of the run until the next run; a confidence curve takes the levels of the moment it is asked for. *)
Theorem C102_curves :
  forall l a b m, forallb (fun o => negb (is_run o)) m = true ->
    let s := play (l ++ Run (Some a) (Some b) :: m) in
    getPODModel s = Ok (Pod (levels (play l)) a) /\
    (forall c, getPODCLModel c s = if Nat.eqb (List.length (levels (play l))) (List.length (levels s)) then Ok (Cl (levels s) c b) else Raise ValueError) /\
    (forallb (fun o => negb (is_set o)) m = true -> forall c, getPODCLModel c s = Ok (Cl (levels s) c b)).
Proof.
  intros l a b m Hm s.
  assert (K : podmodel s = Some (Pod (levels (play l)) a) /\ rows s = Some (b, List.length (levels (play l))) /\
              (forallb (fun o => negb (is_set o)) m = true -> List.length (levels s) = List.length (levels (play l)))).
  { subst s. induction m as [|o m IH] using rev_ind.
    - rewrite play_snoc. now repeat split.
    - rewrite forallb_app in Hm. apply andb_true_iff in Hm as [Hm Ho]. specialize (IH Hm). rewrite forallb_app.
      change (l ++ Run (Some a) (Some b) :: m ++ [o]) with (l ++ (Run (Some a) (Some b) :: m) ++ [o]). rewrite app_assoc, play_snoc.
      destruct (inv_play (l ++ Run (Some a) (Some b) :: m)) as (I1 & _ & I3 & _).
      revert IH I1 I3. generalize (play (l ++ Run (Some a) (Some b) :: m)). intros s (K1 & K2 & K3) I1 I3.
      destruct o as [y| |h'|a' b'| |c|h' y]; cbn [QrShareModel.step is_run is_set forallb andb negb] in *; try discriminate; rewrite ?andb_true_r.
      + split; [exact K1|]. split; [exact K2|]. intros H. unfold QrShareModel.levels at 1, QrShareModel.keep_array. cbn [QrShareModel.arrays QrShareModel.q]. rewrite at_app by assumption. now apply K3.
      + now repeat split.
      + rewrite andb_false_r. destruct (nth_error (held s) h') as [x|]; [|now repeat split].
        destruct (set_levels_cases (content h' s) s) as [-> | ->]; cbn [fst]; now repeat split.
      + unfold QrShareModel.keep_curve. destruct (getPODModel s); now repeat split.
      + unfold QrShareModel.keep_curve. destruct (getPODCLModel c s); now repeat split.
      + destruct (nth_error (held s) h') as [x|]; [|now repeat split]. split; [exact K1|]. split; [exact K2|]. intros H. rewrite <- (K3 H).
        unfold QrShareModel.levels. cbn [QrShareModel.arrays QrShareModel.q]. apply length_at_put. }
  destruct K as (K1 & K2 & K3). unfold QrShareModel.getPODModel, QrShareModel.getPODCLModel. rewrite K1, K2. split; [reflexivity|]. split; [reflexivity|].
  intros H c. now rewrite (K3 H), Nat.eqb_refl.
Qed.

(** A function that was returned stays what it was, whatever is done afterwards. *)
Theorem C102_returned_functions_are_frozen :
  forall l m k c, nth_error (functions (play l)) k = Some c -> nth_error (functions (play (l ++ m))) k = Some c.
Proof.
  intros l m k c H. induction m as [|o m IH] using rev_ind; [now rewrite app_nil_r|].
  rewrite app_assoc, play_snoc. revert IH. generalize (play (l ++ m)). intros s IH.
  destruct o as [y| |h|a b| |cl|h y]; cbn [QrShareModel.step]; try exact IH.
  - destruct (nth_error (held s) h); [|exact IH]. destruct (set_levels_cases (content h s) s) as [-> | ->]; exact IH.
  - now destruct a.
  - unfold QrShareModel.keep_curve. destruct (getPODModel s); [|exact IH]. cbn [QrShareModel.functions]. rewrite nth_error_app1; [exact IH|now apply nth_lt in IH].
  - unfold QrShareModel.keep_curve. destruct (getPODCLModel cl s); [|exact IH]. cbn [QrShareModel.functions]. rewrite nth_error_app1; [exact IH|now apply nth_lt in IH].
  - destruct (nth_error (held s) h); exact IH.
Qed.
(** Before the first run that reaches them there is neither curve. *)
Theorem C102_before_run :
  forall l, (forall a b, In (Run (Some a) b) l -> False) -> getPODModel (play l) = Raise AttributeError /\ forall c, getPODCLModel c (play l) = Raise AttributeError.
Proof.
  intros l H. assert (K : podmodel (play l) = None /\ rows (play l) = None).
  { induction l as [|o l IH] using rev_ind; [now split|]. specialize (IH (fun a b Hi => H a b (in_or_app _ _ _ (or_introl Hi)))). rewrite play_snoc.
    assert (Ho : forall a b, o = Run (Some a) b -> False) by (intros a b ->; apply (H a b), in_or_app; right; now left).
    revert IH. generalize (play l). intros s [K1 K2]. destruct o as [y| |h|[a|] b| |cl|h y]; cbn [QrShareModel.step]; try now split.
    - destruct (nth_error (held s) h); [|now split]. destruct (set_levels_cases (content h s) s) as [-> | ->]; now split.
    - now destruct (Ho a b).
    - unfold QrShareModel.keep_curve, QrShareModel.getPODModel. rewrite K1. now split.
    - unfold QrShareModel.keep_curve, QrShareModel.getPODCLModel. rewrite K2. now split.
    - destruct (nth_error (held s) h); now split. }
  destruct K as [K1 K2]. unfold QrShareModel.getPODModel, QrShareModel.getPODCLModel. rewrite K1, K2. now split.
Qed.
(** A run that stops in the regressions of the data leaves the object and everything the client holds as they were; one that stops in the
    bootstrap has replaced the POD curve and left the rows of the confidence curves. *)
Theorem C102_failed_run :
  forall l, (forall b, play (l ++ [Run None b]) = play l) /\
    (forall a, rows (play (l ++ [Run (Some a) None])) = rows (play l) /\
       podmodel (play (l ++ [Run (Some a) None])) = Some (Pod (levels (play l)) a)).
Proof. intros l. split; [intros b; now rewrite play_snoc|]. intros a. rewrite play_snoc. now repeat split. Qed.
End Props.
Print Assumptions C102_own_arrays_are_copied.
Print Assumptions C102_returned_array_is_live.
Print Assumptions C102_accepted_levels_are_detached.
Print Assumptions C102_levels_stay_valid.
Print Assumptions C102_curves.
Print Assumptions C102_returned_functions_are_frozen.
Print Assumptions C102_before_run.
Print Assumptions C102_failed_run.

(** The default levels are valid, so [C102_levels_stay_valid] applies to the object as it is made. *)
Theorem C102_default_levels_are_valid : Sorted_by np_leb default_levels /\ Forall in01_open default_levels /\ List.length default_levels = 21.
Proof. split; [|split; [repeat constructor|reflexivity]]. repeat constructor. Qed.
Print Assumptions C102_default_levels_are_valid.

(** The checks of setQuantile do not bind the object: after a run, one assignment into the array of getQuantile gives levels that are not sorted and not below 1,
    with no exception, and the next confidence curve takes them while the POD curve does not. *)
Theorem C102_levels_always_valid_refuted :
  exists l : list (op nat nat),
    let s := play nat nat default_levels l in
    levels _ _ s = [of_int 2; of_ratio 1 2] /\ ~ Sorted_by np_leb (levels _ _ s) /\ snd (setQuantile [] (levels _ _ s)) = Raise ValueError /\
    getPODCLModel _ _ (of_ratio 19 20) s = Ok (Cl _ _ [of_int 2; of_ratio 1 2] (of_ratio 19 20) 7) /\
    getPODModel _ _ s = Ok (Pod _ _ [of_ratio 1 4; of_ratio 1 2] 5).
Proof.
  exists [Own _ _ [of_ratio 1 2; of_ratio 1 4]; SetQuantile _ _ 0; Run _ _ (Some 5) (Some 7); GetQuantile _ _; Change _ _ 1 [of_int 2; of_ratio 1 2]].
  split; [vm_compute; reflexivity|]. split; [|split; [vm_compute; reflexivity|split; vm_compute; reflexivity]].
  intros H. match type of H with Sorted_by _ ?l => change l with [of_int 2; of_ratio 1 2] in H end. apply StronglySorted_inv in H as [_ H]. apply Forall_inv in H. vm_compute in H. discriminate.
Qed.
Print Assumptions C102_levels_always_valid_refuted.

(** The hypotheses are met: own arrays, arrays of getQuantile, accepted and refused levels, two runs. *)
Example C102_example :
  let h := [Own nat nat [of_ratio 1 2; of_ratio 1 4]; GetQuantile _ _; SetQuantile _ _ 0; Change _ _ 0 [of_int 3; of_int 4]; SetQuantile _ _ 0;
            Change _ _ 1 [of_int 9]; Run _ _ (Some 5) (Some 7); GetCl _ _ (of_ratio 19 20); GetQuantile _ _; Own _ _ [of_ratio 3 4]] in
  let s := play nat nat default_levels h in
  origins _ _ h = [true; false; false; true] /\ levels _ _ s = [of_ratio 1 4; of_ratio 1 2] /\
  snd (set_levels _ _ (content _ _ 3 s) s) = Ok tt /\
  functions _ _ s = [Cl _ _ [of_ratio 1 4; of_ratio 1 2] (of_ratio 19 20) 7] /\
  functions _ _ (play nat nat default_levels (h ++ [SetQuantile _ _ 3; GetCl _ _ (of_ratio 19 20); GetPod _ _])) =
    [Cl _ _ [of_ratio 1 4; of_ratio 1 2] (of_ratio 19 20) 7; Pod _ _ [of_ratio 1 4; of_ratio 1 2] 5] /\
  getPODCLModel _ _ (of_ratio 19 20) (play nat nat default_levels (h ++ [SetQuantile _ _ 3])) = Raise ValueError.
Proof. vm_compute. repeat split. Qed.
