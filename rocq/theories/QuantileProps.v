(** C15, C16, C62: simulated confidence curves and the linear POD object. *)
From Coq Require Import String.
From Verif Require Import RealBase QuantileModel QuantileProofs.
Local Open Scope R_scope.

(** *** C15 *)
(** Curve at confidence c, evaluated where the simulated values are [l]. *)
Theorem C15_between_extreme_simulations :
  forall (l : list R) (c : R), l <> [] ->
    (exists v, In v l /\ v <= quantile l (1 - c)) /\ (exists v, In v l /\ quantile l (1 - c) <= v).
Proof.
  intros l c Hn. assert (H := quantile_bounds l (1 - c) Hn). split.
  - exists (Rlmin l). split; [now apply Rlmin_in|lra].
  - exists (Rlmax l). split; [now apply Rlmax_in|lra].
Qed.
Print Assumptions C15_between_extreme_simulations.
Theorem C15_decreases_with_confidence :
  forall (l : list R) (c1 c2 : R), l <> [] -> c1 <= c2 -> quantile l (1 - c2) <= quantile l (1 - c1).
Proof. intros l c1 c2 Hn H. apply quantile_mono; [exact Hn|lra]. Qed.
Print Assumptions C15_decreases_with_confidence.
Theorem C15_order_of_simulations_irrelevant :
  forall (l1 l2 : list R) (c : R), Permutation l1 l2 -> quantile l1 (1 - c) = quantile l2 (1 - c).
Proof. intros l1 l2 c H. now apply quantile_perm. Qed.
Print Assumptions C15_order_of_simulations_irrelevant.
Theorem C15_in_unit_interval :
  forall (l : list R) (c : R), l <> [] -> (forall v, In v l -> 0 <= v <= 1) -> 0 <= quantile l (1 - c) <= 1.
Proof.
  intros l c Hn H. assert (B := quantile_bounds l (1 - c) Hn).
  assert (H1 := H _ (Rlmin_in l Hn)). assert (H2 := H _ (Rlmax_in l Hn)). lra.
Qed.
Print Assumptions C15_in_unit_interval.
(** The quantile really is the empirical one: at confidence 1 - (k + 1/2)/M it is the value that exactly k simulations
    precede, hence at most k are strictly below and at most M - 1 - k strictly above. *)
Theorem C15_order_statistic :
  forall (l : list R) (k : nat), (k < length l)%nat ->
    let v := quantile l (1 - (1 - (INR k + / 2) / INR (length l))) in
    In v l /\ (countb (fun x => Rltb x v) l <= k)%nat /\ (countb (fun x => Rltb v x) l <= length l - 1 - k)%nat.
Proof.
  intros l k Hk v.
  assert (Hv : v = nth k (Rsort l) 0).
  { unfold v. replace (1 - (1 - (INR k + / 2) / INR (length l))) with ((INR k + / 2) / INR (length l)) by lra.
    now apply quantile_order. }
  assert (HL := Rsort_length l). assert (Hs := Rsort_sorted l).
  split; [rewrite Hv; eapply Permutation_in; [apply Rsort_perm|]; apply nth_In; lia|].
  rewrite <- !(countb_perm _ _ _ (Rsort_perm l)).
  assert (Hsplit := firstn_skipn k (Rsort l)).
  assert (Hsplit' := firstn_skipn (S k) (Rsort l)).
  split.
  - rewrite <- Hsplit, countb_app.
    replace (countb _ (skipn k (Rsort l))) with 0%nat.
    + eapply Nat.le_trans; [|apply (Nat.eq_le_incl _ k (firstn_length_le (Rsort l) (n := k) ltac:(lia)))].
      rewrite Nat.add_0_r. apply countb_le.
    + symmetry. apply countb_none. intros x Hx. apply Rltb_false. rewrite Hv.
      destruct (In_nth _ _ 0 Hx) as [i [Hi <-]]. rewrite skipn_length in Hi.
      assert (E : nth i (skipn k (Rsort l)) 0 = nth (k + i) (Rsort l) 0).
      { rewrite <- Hsplit at 2. rewrite app_nth2; rewrite firstn_length_le by lia; [f_equal; lia|lia]. }
      rewrite E. apply Rsorted_nth; [exact Hs|lia].
  - rewrite <- Hsplit', countb_app.
    replace (countb _ (firstn (S k) (Rsort l))) with 0%nat.
    + cbn [Nat.add]. eapply Nat.le_trans; [apply countb_le|]. rewrite skipn_length. lia.
    + symmetry. apply countb_none. intros x Hx. apply Rltb_false. rewrite Hv.
      destruct (In_nth _ _ 0 Hx) as [i [Hi <-]]. rewrite firstn_length_le in Hi by lia.
      assert (E : nth i (firstn (S k) (Rsort l)) 0 = nth i (Rsort l) 0).
      { rewrite <- Hsplit' at 2. rewrite app_nth1; [reflexivity|]. rewrite firstn_length_le by lia. lia. }
      rewrite E. apply Rsorted_nth; [exact Hs|lia].
Qed.
Print Assumptions C15_order_statistic.
(** The kriging and chaos confidence values at the defect sizes: column by column. *)
Theorem C15_per_defect_values :
  forall (rows : list (list R)) (d : nat) (c : R),
    (rows = [] -> pod_cl_values rows d c = Raise GenericException) /\
    (rows <> [] -> exists vs, pod_cl_values rows d c = Ok vs /\ length vs = d /\
       (forall j, (j < d)%nat -> nth j vs 0 = quantile (map (fun r => nth j r 0) rows) (1 - c)) /\
       ((forall r v, In r rows -> In v r -> 0 <= v <= 1) -> (forall v, In v vs -> 0 <= v <= 1)) /\
       (forall c' vs', c <= c' -> pod_cl_values rows d c' = Ok vs' -> forall j, (j < d)%nat -> nth j vs' 0 <= nth j vs 0)).
Proof.
  intros rows d c. unfold pod_cl_values, quantile_per_component.
  destruct rows as [|r0 rows]; [split; [reflexivity|congruence]|]. split; [discriminate|]. intros _.
  set (rs := r0 :: rows). assert (Hn : forall j, column rs j <> []) by (intros j; discriminate).
  assert (Hnth : forall p j, (j < d)%nat ->
            nth j (map (fun j => quantile (column rs j) p) (seq 0 d)) 0 = quantile (column rs j) p).
  { intros p j Hj. set (f := fun j => quantile (column rs j) p).
    rewrite (nth_indep _ 0 (f 0%nat)) by (rewrite map_length, seq_length; lia).
    rewrite map_nth, seq_nth by lia. reflexivity. }
  eexists. split; [reflexivity|]. split; [rewrite map_length, seq_length; reflexivity|].
  split; [intros j Hj; now apply Hnth|]. split.
  - intros H v Hv. apply in_map_iff in Hv. destruct Hv as [j [<- Hj]].
    apply C15_in_unit_interval; [apply Hn|]. intros w Hw. apply in_map_iff in Hw. destruct Hw as [r [<- Hr]].
    destruct (Nat.lt_ge_cases j (length r)) as [L|L].
    + apply (H r); [exact Hr|]. now apply nth_In.
    + rewrite nth_overflow by lia. lra.
  - intros c' vs' Hc [= <-] j Hj. rewrite !Hnth by assumption. apply quantile_mono; [apply Hn|lra].
Qed.
Print Assumptions C15_per_defect_values.
(** Non-trivial sample: 3 simulations, exact median. *)
Example C15_example : let l := [/2; /10; /5] in
  l <> [] /\ (forall v, In v l -> 0 <= v <= 1) /\ quantile l (1 - (1 - (INR 1 + /2) / INR 3)) = /5.
Proof.
  intros l. split; [discriminate|]. split.
  - intros v [<-|[<-|[<-|[]]]]; lra.
  - replace (1 - (1 - (INR 1 + /2) / INR 3)) with ((INR 1 + /2) / INR (length l)) by (unfold l; cbn [length]; lra).
    rewrite quantile_order by (cbn; lia). unfold l, Rsort, isort, insert.
    repeat match goal with |- context [Rleb ?a ?b] => destruct (Rleb_spec a b); try lra end. cbn. lra.
Qed.

(** *** C16 *)
(** What the user asked, most recent operation first: current simulation size; size and number of the last run. *)
Fixpoint requested_size (recent : list lin_op) : nat :=
  match recent with [] => 1000 | SetSize n :: _ => n | _ :: r => requested_size r end.
Fixpoint runs_made (recent : list lin_op) : nat :=
  match recent with [] => 0 | Run :: r => S (runs_made r) | _ :: r => runs_made r end.
Fixpoint last_run (recent : list lin_op) : option (nat * nat) :=
  match recent with
  | [] => None
  | Run :: r => Some (requested_size r, runs_made r)
  | _ :: r => last_run r
  end.

Section Hist.
  Variables (sim : kind -> nat -> nat -> curve) (pod : kind -> curve) (binomial_cl : R -> curve).
  Lemma history_inv f recent :
    let o := fold_right (fun op o => lin_step sim pod o op) (lin_new f) recent in
    lo_factory o = f /\ lo_size o = requested_size recent /\ lo_runs o = runs_made recent /\
    lo_pod o = match last_run recent with None => None | Some _ => Some (pod_kind f, pod (pod_kind f)) end /\
    lo_coll o = match last_run recent, f with
                | Some (m, k), Some _ => Some (pod_kind f, map (sim (pod_kind f) k) (seq 0 m))
                | _, _ => None
                end.
  Proof.
    induction recent as [|op recent IH]; cbn [fold_right]; [repeat split|].
    set (o := fold_right _ _ _) in *. destruct IH as [H1 [H2 [H3 [H4 H5]]]].
    destruct op; cbn [lin_step requested_size runs_made last_run].
    - cbn. auto.
    - unfold lin_run. cbn. rewrite H1, H2, H3. repeat split.
      destruct f as [name|]; cbn [coll_kind pod_kind]; [reflexivity|]. rewrite H5. now destruct (last_run recent) as [[]|].
    - auto.
    - auto.
  Qed.
  Lemma history_rev f ops :
    lin_history sim pod f ops = fold_right (fun op o => lin_step sim pod o op) (lin_new f) (rev ops).
  Proof. unfold lin_history. now rewrite fold_left_rev_right. Qed.
End Hist.

(** Complete description of every evaluation of the confidence curve of a simulated (non binomial) POD in every history. *)
Theorem C16_evaluation_in_every_history :
  forall sim pod binomial_cl (name : string) (ops : list lin_op) (c x : R),
    let n := requested_size (rev ops) in
    (0 < n)%nat ->
    lin_evalCL binomial_cl (lin_history sim pod (Some name) ops) c x =
      match last_run (rev ops) with
      | None => Raise AttributeError
      | Some (m, r) =>
        if Nat.leb n m
        then Ok (pod_kind (Some name),
                 quantile (map (fun i => sim (pod_kind (Some name)) r i x) (seq 0 n)) (1 - c))
        else Raise IndexError
      end.
Proof.
  intros sim pod bcl name ops c x n Hn. rewrite history_rev.
  destruct (history_inv sim pod (Some name) (rev ops)) as [H1 [H2 [H3 [H4 H5]]]].
  set (o := fold_right _ _ _) in *. unfold lin_evalCL. rewrite H1, H5, H2.
  destruct (last_run (rev ops)) as [[m r]|].
  - fold n. destruct (Nat.leb_spec n m) as [L|L].
    + rewrite collect_ok by (rewrite map_length, seq_length; lia). cbn [skipn bind].
      rewrite firstn_map.
      replace (firstn n (seq 0 m)) with (seq 0 n).
      * rewrite map_map. destruct n as [|n']; [lia|]. reflexivity.
      * symmetry. replace m with (n + (m - n))%nat by lia. rewrite seq_app, firstn_app, seq_length, Nat.sub_diag, app_nil_r.
        apply firstn_all2. rewrite seq_length. lia.
    + rewrite collect_fail by (rewrite map_length, seq_length; lia). reflexivity.
  - fold n. destruct n; [lia|reflexivity].
Qed.
Print Assumptions C16_evaluation_in_every_history.
(** Succeeds iff a run happened and the size was not increased beyond that of the last run. *)
Theorem C16_succeeds_iff :
  forall sim pod binomial_cl name ops c x,
    (0 < requested_size (rev ops))%nat ->
    ((exists kv, lin_evalCL binomial_cl (lin_history sim pod (Some name) ops) c x = Ok kv) <->
     (exists m r, last_run (rev ops) = Some (m, r) /\ (requested_size (rev ops) <= m)%nat)).
Proof.
  intros sim pod bcl name ops c x Hn. rewrite C16_evaluation_in_every_history by assumption.
  destruct (last_run (rev ops)) as [[m r]|].
  - destruct (Nat.leb_spec (requested_size (rev ops)) m); split.
    + intros _. eauto.
    + eauto.
    + intros [kv Hkv]; discriminate.
    + intros [m' [r' [[= <- <-] Hle]]]. lia.
  - split; [intros [kv Hkv]; discriminate|]. intros [m [r [E _]]]. discriminate.
Qed.
Print Assumptions C16_succeeds_iff.
(** The size can be increased again only by running again; examples of the three situations. *)
Example C16_example : forall sim pod bcl x,
  let f := Some "KernelSmoothing"%string in
  lin_evalCL bcl (lin_history sim pod f [SetSize 3; Run; SetSize 2]) (/2) x
    = Ok (Bootstrap, quantile [sim Bootstrap 0%nat 0%nat x; sim Bootstrap 0%nat 1%nat x] (1 - /2)) /\
  lin_evalCL bcl (lin_history sim pod f [SetSize 3; Run; SetSize 4]) (/2) x = Raise IndexError /\
  lin_evalCL bcl (lin_history sim pod f [SetSize 3; Run; SetSize 4; Run; SetSize 1]) (/2) x
    = Ok (Bootstrap, quantile [sim Bootstrap 1%nat 0%nat x] (1 - /2)).
Proof.
  intros sim pod bcl x f. unfold f.
  split; [|split]; rewrite C16_evaluation_in_every_history by (cbn; lia); reflexivity.
Qed.
(** The binomial confidence curve does not depend on the simulation size. *)
Theorem C16_binomial_independent_of_size :
  forall sim pod binomial_cl ops c x,
    lin_evalCL binomial_cl (lin_history sim pod None ops) c x =
      match last_run (rev ops) with None => Raise AttributeError | Some _ => Ok (Binomial, binomial_cl c x) end.
Proof.
  intros sim pod bcl ops c x. rewrite history_rev.
  destruct (history_inv sim pod None (rev ops)) as [H1 [H2 [H3 [H4 H5]]]].
  set (o := fold_right _ _ _) in *. unfold lin_evalCL. rewrite H1, H4.
  destruct (last_run (rev ops)); reflexivity.
Qed.
Print Assumptions C16_binomial_independent_of_size.

(** *** C62 *)
Theorem C62_dispatch :
  forall sim pod (factory : option string) (ops : list lin_op) (x : R) k v,
    lin_evalPOD (lin_history sim pod factory ops) x = Ok (k, v) ->
    v = pod k x /\
    (k = Binomial <-> factory = None) /\
    (k = Gauss <-> factory = Some "NormalFactory"%string) /\
    (k = Bootstrap <-> exists name, factory = Some name /\ name <> "NormalFactory"%string).
Proof.
  intros sim pod factory ops x k v. rewrite history_rev.
  destruct (history_inv sim pod factory (rev ops)) as [H1 [H2 [H3 [H4 H5]]]].
  set (o := fold_right _ _ _) in *. unfold lin_evalPOD. rewrite H4.
  destruct (last_run (rev ops)); [|discriminate]. intros [= <- <-]. split; [reflexivity|].
  destruct factory as [name|]; cbn [pod_kind].
  - destruct (String.eqb_spec name "NormalFactory") as [->|Hne]; split; try (split; congruence); split; split;
      try congruence; try discriminate; intros; eauto.
    destruct H as [name' [[= <-] Hne']]. congruence.
  - repeat split; try congruence; try discriminate. intros [name [E _]]. discriminate.
Qed.
Print Assumptions C62_dispatch.
(** Before the first run the mean curve does not exist. *)
Theorem C62_before_run :
  forall sim pod (factory : option string) (ops : list lin_op) (x : R),
    (lin_evalPOD (lin_history sim pod factory ops) x = Raise AttributeError <-> ~ In Run ops) /\
    ((exists kv, lin_evalPOD (lin_history sim pod factory ops) x = Ok kv) <-> In Run ops).
Proof.
  intros sim pod factory ops x. rewrite history_rev.
  destruct (history_inv sim pod factory (rev ops)) as [H1 [H2 [H3 [H4 H5]]]].
  set (o := fold_right _ _ _) in *. unfold lin_evalPOD. rewrite H4.
  assert (G : forall l, last_run l = None <-> ~ In Run l).
  { induction l as [|[n| |y|c y] l IH]; cbn [last_run]; [split; auto|..].
    - rewrite IH. cbn. split; [intros H [E|E]; [discriminate|auto]|tauto].
    - split; [discriminate|]. cbn. tauto.
    - rewrite IH. cbn. split; [intros H [E|E]; [discriminate|auto]|tauto].
    - rewrite IH. cbn. split; [intros H [E|E]; [discriminate|auto]|tauto]. }
  specialize (G (rev ops)). rewrite <- in_rev in G. destruct (last_run (rev ops)) as [p|].
  - assert (I : In Run ops).
    { assert (D : In Run ops \/ ~ In Run ops); [|destruct D as [D|D]; [exact D|apply G in D; discriminate]].
      clear. induction ops as [|[n| |y|c y] ops IH]; cbn; [now right|..]; destruct IH as [I|I]; auto; right; intros [E|E]; try discriminate; auto. }
    split; [split; [discriminate|contradiction]|]. split; [intros _; exact I|intros _; eauto].
  - assert (I : ~ In Run ops) by now apply G. split; [split; auto|]. split; [intros [kv E]; discriminate|contradiction].
Qed.
Print Assumptions C62_before_run.
Theorem C62_confidence_curve_same_kind :
  forall sim pod binomial_cl factory ops c x k v,
    lin_evalCL binomial_cl (lin_history sim pod factory ops) c x = Ok (k, v) ->
    exists y, lin_evalPOD (lin_history sim pod factory ops) x = Ok (k, y).
Proof.
  intros sim pod bcl factory ops c x k v. rewrite history_rev.
  destruct (history_inv sim pod factory (rev ops)) as [H1 [H2 [H3 [H4 H5]]]].
  set (o := fold_right _ _ _) in *. unfold lin_evalPOD, lin_evalCL. rewrite H1, H4, H5.
  destruct (last_run (rev ops)) as [[m r]|]; destruct factory as [name|]; try discriminate.
  - destruct (collect _ _ _) as [vs|]; [|discriminate]. cbn [bind]. destruct vs; [discriminate|].
    intros [= <- <-]. eauto.
  - intros [= <- <-]. cbn [pod_kind]. eauto.
  - destruct (Nat.eqb (lo_size o) 0); discriminate.
Qed.
Print Assumptions C62_confidence_curve_same_kind.
Example C62_example : forall sim pod bcl,
  lin_evalCL bcl (lin_history sim pod (Some "NormalFactory"%string) [SetSize 1; Run]) (/2) 0
  = Ok (Gauss, quantile [sim Gauss 0%nat 0%nat 0] (1 - /2)).
Proof. intros. rewrite C16_evaluation_in_every_history by (cbn; lia). reflexivity. Qed.
