(** C57, C58, C69, C70: PODSummary. *)
From Verif Require Import Base Float64 LabelsModel TableModel TableProps CtorModel SummaryModel.
From Coq Require Import Ascii String SpecFloat.
Local Open Scope string_scope.
Local Open Scope list_scope.

(** *** Specification vocabulary *)
Definition methods : list meth := [Gauss; Bin; KS; QR; Chaos; Kriging].
Definition same (a b : meth) : bool := if (fun x y : meth => ltac:(decide equality) : {x = y} + {x <> y}) a b then true else false.
(** The documented names of the methods. *)
Definition name (m : meth) : string :=
  match m with
  | Gauss => "LinearGauss" | Bin => "LinearBinomial" | KS => "LinearKernelSmoothing" | QR => "QuantileRegression"
  | Chaos => "PolynomialChaos" | Kriging => "Kriging"
  end.
Definition method_named (k : string) : option meth := find (fun m => String.eqb (name m) k) methods.
(** The labels of the report. *)
Definition label (m : meth) : string :=
  match m with
  | Gauss => "Gaussian residuals :" | Bin => "No residuals hypothesis :" | KS => "Kernel smoothing on residuals :"
  | QR => "Quantile Regression :" | Chaos => "Polynomial chaos :" | Kriging => "Kriging :"
  end.
(** The calls that go through the documented interface. *)
Definition documented (o : op) : Prop := match o with WriteFlag _ _ => False | _ => True end.

Section Spec.
Variable Obj : Type.
Variable dim : nat.
Variable build : nat -> meth -> option Z -> option Z -> res Obj.
Variable exec : Obj -> res unit.
Variable Analysis : Type.
Variable analyse : nat -> res Analysis.
(** All is read off the calls made so far, newest first. *)
Fixpoint flag (m : meth) (past : list op) : bool :=
  match past with
  | [] => true
  | SetActive k (PBool b) :: past' => if String.eqb k (name m) then b else flag m past'
  | _ :: past' => flag m past'
  end.
Fixpoint simulation (past : list op) : Z := match past with [] => 1000%Z | SetSim n :: _ => n | _ :: past' => simulation past' end.
Fixpoint sampling (past : list op) : Z := match past with [] => 5000%Z | SetSamp n :: _ => n | _ :: past' => sampling past' end.
Fixpoint run_number (past : list op) : nat := match past with [] => 0 | Run :: past' => S (run_number past') | _ :: past' => run_number past' end.
(** A method takes part in a run. *)
Definition wanted (past : list op) (m : meth) : bool := flag m past && match m with Kriging => Nat.ltb 1 dim | _ => true end.
(** The object a run makes: the sizes are those in force, the binomial method has none, sampling is for chaos and kriging. *)
Definition made (past : list op) (m : meth) : res Obj :=
  build (run_number past) m (if same m Bin then None else Some (simulation past)) (if same m Chaos || same m Kriging then Some (sampling past) else None).
Definition succeeds (past : list op) (m : meth) : bool :=
  if wanted past m then match made past m with Ok o => is_ok (exec o) | Raise _ => false end else true.
Fixpoint before (m : meth) (l : list meth) : list meth :=
  match l with [] => [] | x :: l' => if same x m then [] else x :: before m l' end.
(** The object a run leaves for a method: all that comes before must have succeeded. *)
Definition left_by (past : list op) (m : meth) : option Obj :=
  if is_ok (analyse (run_number past)) && forallb (succeeds past) (before m methods) && wanted past m
  then match made past m with Ok o => Some o | Raise _ => None end else None.
(** The object of the latest run that made one. *)
Fixpoint latest (m : meth) (past : list op) : option Obj :=
  match past with
  | [] => None
  | Run :: past' => match left_by past' m with Some o => Some o | None => latest m past' end
  | _ :: past' => latest m past'
  end.
End Spec.

Lemma same_spec a b : same a b = true <-> a = b.
Proof. unfold same. match goal with |- context [if ?x then _ else _] => destruct x end; intuition congruence. Qed.
Lemma same_refl a : same a a = true. Proof. now apply same_spec. Qed.
Lemma meth_eqb_same a b : meth_eqb a b = same a b. Proof. destruct a, b; reflexivity. Qed.
Lemma name_key m : name m = key_of m. Proof. now destruct m. Qed.
Lemma name_inj a b : name a = name b -> a = b. Proof. destruct a, b; cbn; congruence. Qed.
Lemma method_named_spec k m : method_named k = Some m <-> name m = k.
Proof.
  split; unfold method_named.
  - intros H. apply find_some in H. now apply String.eqb_eq.
  - intros <-. destruct m; reflexivity.
Qed.

Section Facts.
Variable Obj : Type.
Variable dim : nat.
Variable build : nat -> meth -> option Z -> option Z -> res Obj.
Variable exec : Obj -> res unit.
Variable Analysis : Type.
Variable analyse : nat -> res Analysis.
Notation state := (state Obj Analysis).
Notation history := (history Obj dim build exec Analysis analyse).
Notation run := (run Obj dim build exec Analysis analyse).
Notation run_methods := (run_methods Obj dim build exec Analysis).
Notation run_method := (run_method Obj dim build exec Analysis).
Notation getPOD := (getPOD Obj dim Analysis).
Notation setMethodActive := (setMethodActive Obj Analysis).
Notation acts := (acts Obj Analysis).
Notation objs := (objs Obj Analysis).
Notation sims := (sims Obj Analysis).
Notation samps := (samps Obj Analysis).
Notation runs := (runs Obj Analysis).
Notation latest := (latest Obj dim build exec Analysis analyse).
Notation wanted := (wanted dim).
Notation succeeds := (succeeds Obj dim build exec).
Notation made := (made Obj build).
Notation left_by := (left_by Obj dim build exec Analysis analyse).

(** The attributes of a state are those of a history. *)
Definition agrees (past : list op) (s : state) : Prop :=
  (forall m, acts s (name m) = Some (PBool (flag m past))) /\ (forall k, method_named k = None -> acts s k = None) /\
  sims s = simulation past /\ samps s = sampling past.
Lemma agrees_active past s m : agrees past s -> active (acts s) m = Ok (flag m past).
Proof. intros (H & _). unfold active. now rewrite <- name_key, H. Qed.
Lemma run_method_spec past s m s' r :
  agrees past s -> run_method (run_number past) m s = (s', r) ->
  agrees past s' /\ runs s' = runs s /\ analysis Obj Analysis s' = analysis Obj Analysis s /\ is_ok r = succeeds past m /\
  (forall m', objs s' m' = if same m' m && wanted past m then match made past m with Ok o => Some o | Raise _ => objs s m' end else objs s m').
Proof.
  intros HA. pose proof HA as (H1 & H2 & H3 & H4). unfold SummaryModel.run_method. rewrite (agrees_active past) by assumption.
  assert (HW : wanted past m = flag m past && negb (match m with Kriging => Nat.leb dim 1 | _ => false end)).
  { unfold SummaryProps.wanted. f_equal. destruct m; try reflexivity. rewrite Nat.ltb_antisym. reflexivity. }
  assert (HM : build (run_number past) m (given_simulation Obj Analysis m s) (given_sampling Obj Analysis m s) = made past m).
  { unfold SummaryProps.made. rewrite <- H3, <- H4. destruct m; reflexivity. }
  unfold SummaryProps.succeeds. rewrite HW, HM.
  destruct (match m with Kriging => Nat.leb dim 1 | _ => false end).
  - intros [= <- <-]. rewrite andb_false_r. repeat split; auto. intros m'. now rewrite andb_false_r.
  - rewrite andb_true_r. destruct (flag m past).
    + destruct (made past m) as [o|e]; [|intros [= <- <-]; repeat split; auto; intros m'; now rewrite andb_true_r; destruct (same m' m)].
      destruct (exec o); intros [= <- <-]; (split; [|split; [reflexivity|split; [reflexivity|split; [reflexivity|]]]]);
        try (intros m'; cbn; rewrite meth_eqb_same, andb_true_r; reflexivity); repeat split; assumption.
    + intros [= <- <-]. repeat split; auto. intros m'. now rewrite andb_false_r.
Qed.
Lemma run_methods_spec past l : forall s s' r,
  NoDup l -> agrees past s -> run_methods (run_number past) l s = (s', r) ->
  agrees past s' /\ runs s' = runs s /\ analysis Obj Analysis s' = analysis Obj Analysis s /\ is_ok r = forallb (succeeds past) l /\
  (forall m, objs s' m = if existsb (same m) l && forallb (succeeds past) (before m l) && wanted past m
                         then match made past m with Ok o => Some o | Raise _ => objs s m end else objs s m).
Proof.
  induction l as [|x l IH]; intros s s' r HN HA; cbn [SummaryModel.run_methods].
  - intros [= <- <-]. repeat split; try apply HA.
  - inversion HN as [|? ? Hx HN']; subst. destruct (run_method _ x s) as [s1 r1] eqn:E.
    destruct (run_method_spec past s x s1 r1 HA E) as (A1 & A2 & A3 & A4 & A5).
    assert (Hnx : forall m, same m x = true -> existsb (same m) l = false).
    { intros m Hm. apply same_spec in Hm. subst x. destruct (existsb (same m) l) eqn:He; [|reflexivity].
      apply existsb_exists in He. destruct He as (y & Hy & Hs). apply same_spec in Hs. subst y. contradiction. }
    assert (Hsym : forall m, same x m = same m x).
    { intros m. destruct (same x m) eqn:E1, (same m x) eqn:E2; try reflexivity; [apply same_spec in E1; subst; now rewrite same_refl in E2|apply same_spec in E2; subst; now rewrite same_refl in E1]. }
    cbn [before forallb existsb]. rewrite <- A4. destruct r1 as [u|e].
    + intros H. destruct (IH _ _ _ HN' A1 H) as (B1 & B2 & B3 & B4 & B5).
      split; [assumption|]. split; [congruence|]. split; [congruence|]. split; [assumption|].
      intros m. rewrite B5, A5, Hsym. cbn [is_ok andb]. destruct (same m x) eqn:Em; cbn [orb andb forallb is_ok].
      * rewrite Hnx by assumption. cbn [andb]. apply same_spec in Em. subst. reflexivity.
      * cbn in A4. rewrite <- A4. reflexivity.
    + intros [= <- <-]. split; [assumption|]. split; [assumption|]. split; [assumption|]. split; [reflexivity|].
      intros m. rewrite A5, Hsym. destruct (same m x) eqn:Em; cbn [orb andb forallb].
      * apply same_spec in Em. subst. reflexivity.
      * rewrite <- A4. cbn [is_ok andb]. now rewrite andb_false_r.
Qed.
Lemma run_spec past s s' r :
  agrees past s -> runs s = run_number past -> run s = (s', r) ->
  agrees past s' /\ runs s' = S (run_number past) /\ is_ok r = is_ok (analyse (run_number past)) && forallb (succeeds past) methods /\
  (forall m, objs s' m = match left_by past m with Some o => Some o | None => objs s m end) /\
  analysis Obj Analysis s' = match analyse (run_number past) with Ok a => Some a | Raise _ => analysis Obj Analysis s end.
Proof.
  intros HA HR. unfold SummaryModel.run. rewrite HR. unfold SummaryProps.left_by. destruct (analyse (run_number past)) as [a|e]; cbn [is_ok andb].
  - intros H. apply run_methods_spec with (past := past) in H; [|repeat constructor; cbn; intuition discriminate|repeat split; apply HA].
    destruct H as (B1 & B2 & B3 & B4 & B5). cbn in B2. repeat split; try assumption; try apply B1.
    intros m. rewrite B5. change [Gauss; Bin; KS; QR; Chaos; Kriging] with methods.
    replace (existsb (same m) methods) with true by (destruct m; reflexivity). cbn [andb SummaryModel.objs].
    destruct (forallb _ _ && wanted past m); [|reflexivity]. now destruct (made past m).
  - intros [= <- <-]. repeat split; apply HA.
Qed.
Lemma flags_known past s k : agrees past s -> acts s k = match method_named k with Some m => Some (PBool (flag m past)) | None => None end.
Proof. intros (H1 & H2 & _). destruct (method_named k) as [m|] eqn:E; [apply method_named_spec in E; subst; apply H1|now apply H2]. Qed.
Lemma history_spec l : Forall documented l ->
  agrees (rev l) (history l) /\ runs (history l) = run_number (rev l) /\ forall m, objs (history l) m = latest m (rev l).
Proof.
  induction l as [|o l IH] using rev_ind; intros HD.
  - repeat split. + intros []; reflexivity. + intros k Hk. cbn. unfold default_flags.
      assert (G : existsb (fun m => String.eqb k (key_of m)) [Gauss; Bin; KS; QR; Chaos; Kriging] = false).
      { destruct (existsb _ _) eqn:E; [|reflexivity]. apply existsb_exists in E. destruct E as (m & _ & Hm). apply String.eqb_eq in Hm.
        exfalso. enough (method_named k = Some m) by congruence. apply method_named_spec. now rewrite name_key. }
      now rewrite G.
  - apply Forall_app in HD. destruct HD as [HD Ho]. inversion Ho as [|? ? Ho' _]; subst. destruct (IH HD) as (A & R & O).
    unfold SummaryModel.history in *. rewrite fold_left_app, rev_app_distr. cbn [fold_left rev app]. set (s := fold_left _ l _) in *.
    destruct o as [k v| |n|n|k v]; cbn [step]; [| | | |destruct Ho'].
    + unfold SummaryModel.setMethodActive. rewrite (flags_known (rev l)) by assumption.
      destruct (method_named k) as [m|] eqn:E.
      * apply method_named_spec in E. subst k. destruct v as [b|b]; cbn [fst run_number SummaryProps.latest].
        -- split; [|split; assumption]. destruct A as (A1 & A2 & A3 & A4). split; [|split; [|split; assumption]].
           ++ intros m'. cbn [SummaryModel.acts flag]. unfold assign. rewrite (String.eqb_sym (name m) (name m')).
              destruct (String.eqb (name m') (name m)); [reflexivity|apply A1].
           ++ intros k Hk. cbn [SummaryModel.acts]. unfold assign. destruct (String.eqb k (name m)) eqn:Ek; [|now apply A2].
              apply String.eqb_eq in Ek. subst. exfalso. enough (method_named (name m) = Some m) by congruence. now apply method_named_spec.
        -- split; [|split; assumption]. destruct A as (A1 & A2 & A3 & A4). repeat split; assumption.
      * cbn [fst run_number SummaryProps.latest]. split; [|split; [destruct v|]; assumption]. destruct A as (A1 & A2 & A3 & A4).
        split; [|split; [|split]]; try assumption. intros m'. rewrite A1. cbn [flag]. destruct v; [|reflexivity].
        destruct (String.eqb k (name m')) eqn:Ek; [|reflexivity]. apply String.eqb_eq in Ek. subst.
        exfalso. enough (method_named (name m') = Some m') by congruence. now apply method_named_spec.
    + destruct (run s) as [s' r] eqn:E. destruct (run_spec (rev l) s s' r A R E) as (B1 & B2 & B3 & B4 & _).
      cbn [fst]. split; [|split; [assumption|]].
      * destruct B1 as (C1 & C2 & C3 & C4). repeat split; assumption.
      * intros m. cbn [SummaryProps.latest]. now rewrite B4, O.
    + cbn. split; [|split; assumption]. destruct A as (A1 & A2 & A3 & A4). repeat split; assumption.
    + cbn. split; [|split; assumption]. destruct A as (A1 & A2 & A3 & A4). repeat split; assumption.
Qed.
Lemma wanted_flag past m : wanted past m = true -> flag m past = true.
Proof. unfold SummaryProps.wanted. now destruct (flag m past). Qed.
Lemma latest_kriging past : Nat.leb dim 1 = true -> latest Kriging past = None.
Proof.
  intros H. induction past as [|[| | | |] past IH]; cbn [SummaryProps.latest]; try assumption; [reflexivity|].
  unfold SummaryProps.left_by, SummaryProps.wanted. rewrite Nat.ltb_antisym, H. cbn [negb]. now rewrite !andb_false_r.
Qed.

(** *** C57 *)
(** The flags seen through getMethodActive: six boolean flags, each the last accepted value. *)
Theorem C57_flags : forall l k, Forall documented l ->
  acts (history l) k = match method_named k with Some m => Some (PBool (flag m (rev l))) | None => None end.
Proof. intros l k H. apply flags_known. now apply history_spec. Qed.
(** setMethodActive: NameError first, then ValueError, nothing changed in both cases; otherwise one flag changes and nothing else. *)
Theorem C57_setMethodActive : forall l k v s' r, Forall documented l -> setMethodActive k v (history l) = (s', r) ->
  (r = Raise NameError <-> (forall m, name m <> k)) /\
  (r = Raise ValueError <-> (exists m, name m = k) /\ (forall b, v <> PBool b)) /\
  (r = Ok tt <-> (exists m, name m = k) /\ (exists b, v = PBool b)) /\
  (r = Raise NameError \/ r = Raise ValueError \/ r = Ok tt) /\
  (r <> Ok tt -> s' = history l) /\
  (r = Ok tt -> (forall k', acts s' k' = if String.eqb k' k then Some v else acts (history l) k') /\ objs s' = objs (history l) /\
                sims s' = sims (history l) /\ samps s' = samps (history l) /\ analysis Obj Analysis s' = analysis Obj Analysis (history l)).
Proof.
  intros l k v s' r HD. unfold SummaryModel.setMethodActive. rewrite C57_flags by assumption.
  destruct (method_named k) as [m|] eqn:E.
  - apply method_named_spec in E. destruct v as [b|b]; intros [= <- <-].
    + split; [split; [discriminate|intros H; now destruct (H m)]|].
      split; [split; [discriminate|intros [_ H]; now destruct (H b)]|].
      split; [split; [intros _; split; eauto|reflexivity]|]. split; [auto|]. split; [congruence|]. intros _. repeat split.
    + split; [split; [discriminate|intros H; now destruct (H m)]|].
      split; [split; [intros _; split; [eauto|discriminate]|reflexivity]|].
      split; [split; [discriminate|intros [_ [b' H]]; discriminate]|]. split; [auto|]. split; [reflexivity|discriminate].
  - assert (N : forall m, name m <> k) by (intros m Hm; apply method_named_spec in Hm; congruence).
    intros [= <- <-]. split; [split; auto|]. split; [split; [discriminate|intros [[m Hm] _]; now destruct (N m)]|].
    split; [split; [discriminate|intros [[m Hm] _]; now destruct (N m)]|]. split; [auto|]. split; [reflexivity|discriminate].
Qed.
(** The accessors. *)
Theorem C57_getters : forall l m, Forall documented l ->
  getPOD m (history l) = if wanted (rev l) m then match latest m (rev l) with Some o => Ok o | None => Raise GenericException end
                         else Raise GenericException.
Proof.
  intros l m HD. destruct (history_spec l HD) as (A & R & O). unfold SummaryModel.getPOD. rewrite (agrees_active (rev l)) by assumption.
  cbn [bind]. rewrite O. unfold SummaryProps.wanted. destruct (flag m (rev l)); [|reflexivity]. cbn [negb andb].
  destruct m; try reflexivity. destruct (Nat.ltb_spec 1 dim).
  - now replace (Nat.eqb dim 1) with false by (symmetry; apply Nat.eqb_neq; lia).
  - rewrite latest_kriging by now apply Nat.leb_le. now destruct (Nat.eqb dim 1).
Qed.
(** A run succeeds when the analysis and every method that takes part succeed ... *)
Theorem C57_run_outcome : forall l, Forall documented l ->
  is_ok (snd (run (history l))) = is_ok (analyse (run_number (rev l))) && forallb (succeeds (rev l)) methods.
Proof.
  intros l HD. destruct (history_spec l HD) as (A & R & O). destruct (run (history l)) as [s' r] eqn:E.
  now apply (run_spec (rev l)) in E.
Qed.
(** ... and then every method that takes part is returned as made by this run, with the sizes in force, and has been run. *)
Theorem C57_after_run : forall l m, Forall documented l -> is_ok (snd (run (history l))) = true -> wanted (rev l) m = true ->
  exists o, getPOD m (history (l ++ [Run])) = Ok o /\ made (rev l) m = Ok o /\ is_ok (exec o) = true.
Proof.
  intros l m HD HR HW. rewrite C57_run_outcome in HR by assumption. apply andb_true_iff in HR. destruct HR as [H1 H2].
  rewrite C57_getters by (apply Forall_app; split; [assumption|repeat constructor]).
  rewrite rev_app_distr. cbn [rev app]. change (wanted (Run :: rev l) m) with (wanted (rev l) m). rewrite HW.
  assert (Hb : forallb (succeeds (rev l)) (before m methods) = true).
  { apply forallb_forall. intros x Hx. rewrite forallb_forall in H2. apply H2. destruct x; unfold methods; cbn; tauto. }
  assert (Hm : succeeds (rev l) m = true) by (rewrite forallb_forall in H2; apply H2; destruct m; cbn; tauto).
  unfold SummaryProps.succeeds in Hm. rewrite HW in Hm.
  cbn [SummaryProps.latest]. unfold SummaryProps.left_by. rewrite H1, Hb, HW. cbn [andb].
  destruct (made (rev l) m) as [o|]; [|discriminate]. eauto.
Qed.
(** The dictionary can be written without its checks (findings below).  Whatever was written, the accessor goes by the truth of the value
    under the documented name, and raises KeyError when the name is gone. *)
Theorem C57_written_flag : forall l m,
  match acts (history l) (name m) with
  | None => getPOD m (history l) = Raise KeyError
  | Some (PBool true) | Some (POther true) =>
      (m = Kriging -> dim <> 1) -> getPOD m (history l) = match objs (history l) m with Some o => Ok o | None => Raise GenericException end
  | Some _ => getPOD m (history l) = Raise GenericException
  end.
Proof.
  intros l m. unfold SummaryModel.getPOD, active. replace (key_of m) with (name m) by (now destruct m).
  destruct (acts (history l) (name m)) as [[[]|[]]|]; try reflexivity; cbn [bind truth negb]; intros H;
    (destruct m; try reflexivity; destruct (Nat.eqb_spec dim 1); [now destruct H|reflexivity]).
Qed.
End Facts.

(** Findings.  A run that fails leaves an object that was never run, and the accessor returns it. *)
Definition demo_build (n : nat) (m : meth) (a b : option Z) : res (nat * meth * option Z * option Z) := Ok (n, m, a, b).
Definition demo_exec (bad : meth) (o : nat * meth * option Z * option Z) : res unit :=
  let '(_, m, _, _) := o in if same m bad then Raise ValueError else Ok tt.
Definition demo_analyse (n : nat) : res unit := Ok tt.
Theorem C57_returned_object_was_run_refuted :
  exists l m o, Forall documented l /\ getPOD _ 2 unit m (history _ 2 demo_build (demo_exec Chaos) unit demo_analyse l) = Ok o /\
                is_ok (demo_exec Chaos o) = false.
Proof. exists [Run], Chaos, (0, Chaos, Some 1000%Z, Some 5000%Z). repeat split. repeat constructor. Qed.
(** getMethodActive returns the dictionary itself: writing in it skips both checks, and setMethodActive then accepts the new name. *)
Theorem C57_dictionary_checks_refuted :
  exists l k, (forall m, name m <> k) /\
    let s := history (nat * meth * option Z * option Z) 2 demo_build (demo_exec Chaos) unit demo_analyse l in
    acts _ _ s (name Gauss) = Some (POther true) /\ snd (setMethodActive _ _ k (PBool true) s) = Ok tt.
Proof.
  exists [WriteFlag "LinearGauss" (POther true); WriteFlag "HitMiss" (PBool true)], "HitMiss". split; [intros []; discriminate|]. now split.
Qed.
(** The hypotheses are met: two runs, a size and a flag changed in between. *)
Example C57_example :
  let l := [Run; SetActive "LinearGauss" (PBool false); SetSim 50; SetActive "Kriging" (POther true); Run; SetActive "LinearGauss" (PBool true); SetSamp 7] in
  let s := history _ 2 demo_build (demo_exec Bin) unit demo_analyse in
  Forall documented l /\
  getPOD _ 2 unit Gauss (s l) = Ok (0, Gauss, Some 1000%Z, None) /\
  getPOD _ 2 unit Bin (s l) = Ok (1, Bin, None, None) /\
  getPOD _ 2 unit KS (s l) = Raise GenericException /\
  getPOD _ 2 unit Kriging (history _ 2 demo_build (fun _ => Ok tt) unit demo_analyse l) = Ok (1, Kriging, Some 50%Z, Some 5000%Z) /\
  getPOD _ 1 unit Kriging (history _ 1 demo_build (fun _ => Ok tt) unit demo_analyse l) = Raise GenericException.
Proof. repeat split; repeat constructor. Qed.

Print Assumptions C57_flags.
Print Assumptions C57_setMethodActive.
Print Assumptions C57_getters.
Print Assumptions C57_run_outcome.
Print Assumptions C57_after_run.
Print Assumptions C57_returned_object_was_run_refuted.
Print Assumptions C57_dictionary_checks_refuted.
Print Assumptions C57_written_flag.
