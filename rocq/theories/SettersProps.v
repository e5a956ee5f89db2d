(** C24, C27, C45: validating setters. *)
From Coq Require Import SpecFloat String.
From Verif Require Import Base Float64 SettersModel SettersProofs.
Local Open Scope list_scope.

Ltac dec_all := repeat first [ match goal with |- _ = _ => vm_compute; reflexivity end | constructor ].

(** C27: what one call of setDefectSizes does, success or failure, for every list of doubles. *)
Theorem C27_setDefectSizes_effect :
  forall lo hi st arg st' r,
    is_nan lo = false -> is_nan hi = false ->
    setDefectSizes lo hi st arg = (st', r) ->
    (arg = [] -> st' = st /\ r = Raise ValueError) /\
    (arg <> [] -> existsb is_nan arg = false ->
       (r = Ok tt <-> Forall (within lo hi) arg) /\ (r = Raise ValueError <-> ~ Forall (within lo hi) arg)) /\
    (arg <> [] -> existsb is_nan arg = true -> r = Ok tt) /\
    (arg <> [] -> st_sizes st' = fsort arg) /\
    (r = Ok tt -> st_number st' = List.length (st_sizes st')) /\
    (r <> Ok tt -> st_number st' = st_number st).
Proof. exact setDefectSizes_spec. Qed.
Print Assumptions C27_setDefectSizes_effect.

(** The result of the sort is the sorted permutation of the argument. *)
Theorem C27_sort_is_sorted_permutation :
  forall l, Permutation (fsort l) l /\ Sorted_by np_leb (fsort l).
Proof. intros l. split; [exact (fsort_perm l)|exact (fsort_sorted l)]. Qed.
Print Assumptions C27_sort_is_sorted_permutation.

(** Every history of in-range calls keeps sizes sorted, in range and counted. *)
Theorem C27_history_invariant :
  forall lo hi args st,
    is_nan lo = false -> is_nan hi = false ->
    sizes_inv lo hi st -> Forall (Forall (within lo hi)) args ->
    sizes_inv lo hi (set_history lo hi st args).
Proof. intros lo hi args st Hlo Hhi. exact (history_inv lo hi Hlo Hhi args st). Qed.
Print Assumptions C27_history_invariant.

(** After any history (exceptions caught), getDefectSizes shows the last non-empty argument, accepted or not. *)
Theorem C27_history_shows_last_argument :
  forall lo hi args st,
    st_sizes (set_history lo hi st args) = last_nonempty (st_sizes st) args.
Proof. intros lo hi args st. exact (history_sizes lo hi args st). Qed.
Print Assumptions C27_history_shows_last_argument.

(** run goes through its array assignments iff the stored number is the number of sizes. *)
Theorem C27_run_needs_consistent_number :
  forall st, run_shapes st = Ok tt <-> st_number st = List.length (st_sizes st).
Proof. exact run_shapes_ok. Qed.
Print Assumptions C27_run_needs_consistent_number.
(** What is raised otherwise: IndexError with more sizes than columns, ValueError with fewer. *)
Theorem C27_run_outcome :
  forall st, (st_number st < List.length (st_sizes st) -> run_shapes st = Raise IndexError)%nat /\
    (List.length (st_sizes st) < st_number st -> run_shapes st = Raise ValueError)%nat.
Proof.
  intros st. unfold run_shapes. split; intros H.
  - assert (X : forall l i, (i <= st_number st < i + List.length l)%nat -> assign_columns (st_number st) i l = Raise IndexError).
    { induction l as [|x l IH]; intros i Hi; cbn [assign_columns List.length] in *; [lia|]. destruct (Nat.ltb_spec i (st_number st)); [|reflexivity]. apply IH. lia. }
    now rewrite X by lia.
  - assert (C : assign_columns (st_number st) 0 (st_sizes st) = Ok tt) by (apply assign_columns_ok; right; cbn; lia). rewrite C. cbn [bind].
    destruct (Nat.eqb_spec (List.length (st_sizes st)) (st_number st)); [lia|reflexivity].
Qed.
Print Assumptions C27_run_outcome.

Definition ex_state : sizes_state := {| st_sizes := [of_int 1; of_int 2; of_int 5]; st_number := 3 |}.
Example C27_hypotheses_met :
  sizes_inv (of_int 1) (of_int 5) ex_state /\
  Forall (Forall (within (of_int 1) (of_int 5))) [[of_int 4; of_int 2]; [of_int 5; of_int 1; of_int 3; of_int 2]] /\
  st_sizes (set_history (of_int 1) (of_int 5) ex_state [[of_int 4; of_int 2]; [of_int 5; of_int 1; of_int 3; of_int 2]])
  = [of_int 1; of_int 2; of_int 3; of_int 5].
Proof.
  split; [|split].
  - split; [reflexivity|]. split; dec_all.
  - dec_all.
  - vm_compute. reflexivity.
Qed.

(** "A rejected call leaves the object unchanged" is false: the rejected sizes are kept, the count is stale,
    and a later run fails. *)
Theorem C27_atomicity_refuted :
  exists lo hi st arg st',
    sizes_inv lo hi st /\ setDefectSizes lo hi st arg = (st', Raise ValueError) /\
    st_sizes st' <> st_sizes st /\ st_sizes st' = fsort arg /\ run_shapes st' <> Ok tt.
Proof.
  exists (of_int 1), (of_int 5), ex_state, [of_int 7; of_int 2].
  eexists. split; [apply C27_hypotheses_met|]. split; [vm_compute; reflexivity|].
  split; [vm_compute; discriminate|]. split; [vm_compute; reflexivity|vm_compute; discriminate].
Qed.
Print Assumptions C27_atomicity_refuted.

(** A rejected call with the right number of sizes makes run accept sizes that were rejected. *)
Theorem C27_rejected_sizes_can_be_run :
  exists lo hi st arg st',
    sizes_inv lo hi st /\ setDefectSizes lo hi st arg = (st', Raise ValueError) /\
    run_shapes st' = Ok tt /\ ~ Forall (within lo hi) (st_sizes st').
Proof.
  exists (of_int 1), (of_int 5), ex_state, [of_int 7; of_int 2; of_int 3].
  eexists. split; [apply C27_hypotheses_met|]. split; [vm_compute; reflexivity|].
  split; [vm_compute; reflexivity|].
  intros H. rewrite Forall_forall in H.
  destruct (H (of_int 7)) as [_ H7]; [vm_compute; tauto|vm_compute in H7; discriminate].
Qed.
Print Assumptions C27_rejected_sizes_can_be_run.

(** NaN anywhere disables the range check: out of range sizes are accepted. *)
Theorem C27_range_check_refuted_by_nan :
  exists lo hi st arg st',
    setDefectSizes lo hi st arg = (st', Ok tt) /\ In (of_int 100) arg /\ fltb hi (of_int 100) = true.
Proof.
  exists (of_int 1), (of_int 5), ex_state, [of_int 100; S754_nan].
  eexists. split; [vm_compute; reflexivity|]. split; [now left|vm_compute; reflexivity].
Qed.
Print Assumptions C27_range_check_refuted_by_nan.

(** C24: setQuantile is atomic, sorts, and accepts exactly the values of the open unit interval. *)
Theorem C24_setQuantile_effect :
  forall st arg st' r,
    setQuantile st arg = (st', r) ->
    (r <> Ok tt -> st' = st /\ r = Raise ValueError) /\
    (r = Ok tt -> st' = fsort arg /\ arg <> []) /\
    (existsb is_nan arg = false -> (r = Ok tt <-> arg <> [] /\ Forall in01_open arg)) /\
    (existsb is_nan arg = true -> r = Ok tt).
Proof. exact setQuantile_spec. Qed.
Print Assumptions C24_setQuantile_effect.

Theorem C24_history_invariant :
  forall args st,
    Forall (fun a => existsb is_nan a = false) args ->
    Sorted_by np_leb st /\ Forall in01_open st ->
    Sorted_by np_leb (quantile_history st args) /\ Forall in01_open (quantile_history st args).
Proof. exact quantile_history_inv. Qed.
Print Assumptions C24_history_invariant.

Example C24_hypotheses_met :
  let args := [[of_ratio 9 10; of_ratio 1 10]; [of_int 1; of_ratio 1 2]; [of_ratio 1 2; of_ratio 1 4; of_ratio 3 4]] in
  Forall (fun a => existsb is_nan a = false) args /\
  (Sorted_by np_leb [of_ratio 1 20; of_ratio 49 50] /\ Forall in01_open [of_ratio 1 20; of_ratio 49 50]) /\
  quantile_history [of_ratio 1 20; of_ratio 49 50] args = [of_ratio 1 4; of_ratio 1 2; of_ratio 3 4] /\
  quantile_history [of_ratio 1 20; of_ratio 49 50] (firstn 2 args) = [of_ratio 1 10; of_ratio 9 10].
Proof.
  cbv zeta. split; [dec_all|]. split; [split|split].
  - dec_all.
  - dec_all.
  - vm_compute; reflexivity.
  - vm_compute; reflexivity.
Qed.

(** NaN disables the check (finding). *)
Theorem C24_range_refuted_by_nan :
  exists st arg st', setQuantile st arg = (st', Ok tt) /\ In (of_int 2) st'.
Proof.
  exists [], [of_int 2; S754_nan]. eexists. split; [vm_compute; reflexivity|vm_compute; tauto].
Qed.
Print Assumptions C24_range_refuted_by_nan.

(** C45: setPMin / setPMax. *)
Theorem C45_band_setters :
  forall b o b' r,
    band_step b o = (b', r) ->
    (r <> Ok tt -> b' = b /\ r = Raise ValueError) /\
    (r = Ok tt <-> is_nan (op_value o) = true \/ in01 (op_value o)) /\
    (r = Ok tt -> match o with
                  | SetPMin p => pmin b' = p /\ pmax b' = pmax b
                  | SetPMax p => pmin b' = pmin b /\ pmax b' = p
                  end).
Proof. exact band_step_spec. Qed.
Print Assumptions C45_band_setters.

Theorem C45_band_history :
  forall ops b,
    Forall (fun o => is_nan (op_value o) = false) ops ->
    in01 (pmin b) /\ in01 (pmax b) ->
    in01 (pmin (band_history b ops)) /\ in01 (pmax (band_history b ops)).
Proof. exact band_history_inv. Qed.
Print Assumptions C45_band_history.

Definition default_band : band := {| pmin := of_ratio 45 100; pmax := of_ratio 52 100 |}.
Example C45_hypotheses_met :
  in01 (pmin default_band) /\ in01 (pmax default_band) /\
  Forall (fun o => is_nan (op_value o) = false) [SetPMin (of_int 2); SetPMax (of_ratio 3 4); SetPMin fzero] /\
  band_history default_band [SetPMin (of_int 2); SetPMax (of_ratio 3 4); SetPMin fzero]
  = {| pmin := fzero; pmax := of_ratio 3 4 |}.
Proof. dec_all. Qed.

(** An empty band (pmin > pmax) is accepted, and then no probability is ever selected. *)
Theorem C45_empty_band_refuted :
  exists ops b, b = band_history default_band ops /\ in01 (pmin b) /\ in01 (pmax b) /\
    forall p, (fleb (pmin b) p && fltb p (pmax b))%bool = false.
Proof.
  exists [SetPMin (of_ratio 9 10)]. eexists. split; [reflexivity|].
  split; [dec_all|]. split; [dec_all|].
  intros p. destruct (fleb _ p) eqn:A; [|reflexivity]. destruct (fltb p _) eqn:B; [|reflexivity].
  assert (C := fleb_fltb_trans _ _ _ A B). vm_compute in C. discriminate.
Qed.
Print Assumptions C45_empty_band_refuted.

Theorem C45_classifier_type :
  forall (P : Type) (rf svc : P) s name s' r,
    classifier_step rf svc s (SetType name) = (s', r) ->
    (name = "rf"%string -> r = Ok tt /\ s' = {| c_type := "rf"%string; c_params := rf |}) /\
    (name = "svc"%string -> r = Ok tt /\ s' = {| c_type := "svc"%string; c_params := svc |}) /\
    (name <> "rf"%string -> name <> "svc"%string -> r = Raise ValueError /\ s' = s).
Proof. intros P. exact classifier_step_spec. Qed.
Print Assumptions C45_classifier_type.
Example C45_classifier_example :
  fst (classifier_step 1 2 {| c_type := "rf"%string; c_params := 7 |} (SetType "svc"%string))
  = {| c_type := "svc"%string; c_params := 2 |}.
Proof. reflexivity. Qed.
