(** C01, C02: properties of DataHandling.filterCensoredData. *)
From Coq Require Import SpecFloat.
From Verif Require Import Base Float64 FilterModel FilterSpec FilterProofs.

(** C01: every observation goes to exactly one area, order and pairing are kept. *)
Theorem C01_censoring_partition :
  forall (Row : Type) (rows : list Row) (signals : list float) (noise sat : option float),
    length rows = length signals -> signals <> [] ->
    Forall in_range signals -> thresholds_ok noise sat ->
    exists iu ino isat su,
      filterCensoredData rows signals noise sat = Ok (iu, ino, isat, su) /\
      length iu = length su /\
      combine iu su = filter (fun p => inside noise sat (snd p)) (combine rows signals) /\
      ino = map fst (filter (fun p => below noise (snd p)) (combine rows signals)) /\
      isat = map fst (filter (fun p => above sat (snd p)) (combine rows signals)) /\
      Permutation (iu ++ ino ++ isat) rows /\
      subseq iu rows /\ subseq ino rows /\ subseq isat rows /\ subseq su signals.
Proof. intros Row rows signals noise sat. exact (partition_lemma rows signals noise sat). Qed.
Print Assumptions C01_censoring_partition.

(** Inputs of different sizes are rejected, as is an empty sample. *)
Theorem C01_censoring_bad_sizes :
  forall (Row : Type) (rows : list Row) (signals : list float) (noise sat : option float),
    (length rows <> length signals -> signals <> [] ->
     filterCensoredData rows signals noise sat = Raise IndexError) /\
    filterCensoredData rows [] noise sat = Raise ValueError.
Proof. intros. split; [exact (filter_mismatch rows signals noise sat)|reflexivity]. Qed.
Print Assumptions C01_censoring_bad_sizes.

Definition ex_signals : list float := [of_int 5; of_int 60; of_int 100; of_int 60; of_int 1700; of_int 2].
Example C01_hypotheses_met :
  length [1; 2; 3; 4; 5; 6] = length ex_signals /\ ex_signals <> [] /\
  Forall in_range ex_signals /\ thresholds_ok (Some (of_int 60)) (Some (of_int 1700)) /\
  filterCensoredData [1; 2; 3; 4; 5; 6] ex_signals (Some (of_int 60)) (Some (of_int 1700))
  = Ok ([3], [1; 2; 4; 6], [5], [of_int 100]).
Proof.
  split; [reflexivity|]. split; [discriminate|]. split.
  - repeat constructor.
  - split; vm_compute; reflexivity.
Qed.
Example C01_one_sided :
  thresholds_ok (Some (of_int 60)) None /\
  filterCensoredData [1; 2; 3; 4; 5; 6] ex_signals (Some (of_int 60)) None
  = Ok ([3; 5], [1; 2; 4; 6], [], [of_int 100; of_int 1700]).
Proof. split; vm_compute; reflexivity. Qed.

(** C02: the fate of one observation for arbitrary doubles (row labels distinct so that rows can be traced). *)
Theorem C02_fate_of_an_observation :
  forall (Row : Type) (rows : list Row) (signals : list float) (noise sat : option float)
         i r s iu ino isat su,
    length rows = length signals -> NoDup rows ->
    nth_error rows i = Some r -> nth_error signals i = Some s ->
    filterCensoredData rows signals noise sat = Ok (iu, ino, isat, su) ->
    let nt := match noise with None => fneg_max | Some t => t end in
    let st := match sat with None => fmax | Some t => t end in
    ((~ In r iu /\ ~ In r ino /\ ~ In r isat) <->
       (is_nan s = true \/ (is_nan nt = true /\ fleb st s = false) \/ (is_nan st = true /\ fleb s nt = false))) /\
    ((In r ino /\ In r isat) <-> (fleb st s = true /\ fleb s nt = true)) /\
    ~ (In r iu /\ In r ino) /\ ~ (In r iu /\ In r isat).
Proof. intros Row rows signals noise sat. exact (fate_lemma rows signals noise sat). Qed.
Print Assumptions C02_fate_of_an_observation.

Example C02_hypotheses_met :
  exists iu ino isat su,
    NoDup [1; 2; 3] /\
    filterCensoredData [1; 2; 3] [of_int 7; S754_nan; of_int 9] (Some (of_int 8)) (Some (of_int 5))
    = Ok (iu, ino, isat, su).
Proof. do 4 eexists. split; [repeat constructor; cbn; intuition congruence|vm_compute; reflexivity]. Qed.

(** "Every observation is in exactly one area" is false without the hypotheses of C01: a NaN signal is lost. *)
Theorem C02_partition_refuted_nan :
  exists rows signals noise sat iu ino isat su,
    filterCensoredData (Row := nat) rows signals noise sat = Ok (iu, ino, isat, su) /\
    length rows = length signals /\ thresholds_ok noise sat /\
    length (iu ++ ino ++ isat) < length rows.
Proof.
  exists [1; 2; 3], [of_int 7; S754_nan; of_int 9], (Some (of_int 5)), (Some (of_int 8)).
  do 4 eexists. split; [vm_compute; reflexivity|]. split; [reflexivity|]. split; [vm_compute; reflexivity|cbn; lia].
Qed.
Print Assumptions C02_partition_refuted_nan.

(** ... and with crossed thresholds an observation is returned twice. *)
Theorem C02_partition_refuted_crossed :
  exists rows signals noise sat iu ino isat su,
    filterCensoredData (Row := nat) rows signals noise sat = Ok (iu, ino, isat, su) /\
    length rows = length signals /\ Forall in_range signals /\
    length (iu ++ ino ++ isat) > length rows.
Proof.
  exists [1; 2; 3], [of_int 7; of_int 6; of_int 9], (Some (of_int 8)), (Some (of_int 5)).
  do 4 eexists. split; [vm_compute; reflexivity|]. split; [reflexivity|]. split; [repeat constructor|cbn; lia].
Qed.
Print Assumptions C02_partition_refuted_crossed.

(** One-sided censoring still censors the extreme doubles on the side without threshold. *)
Theorem C02_one_sided_extremes :
  forall (Row : Type) (rows : list Row) (signals : list float) t i r s iu ino isat su,
    length rows = length signals -> NoDup rows ->
    nth_error rows i = Some r -> nth_error signals i = Some s ->
    filterCensoredData rows signals (Some t) None = Ok (iu, ino, isat, su) ->
    (In r isat <-> fleb fmax s = true).
Proof.
  intros Row rows signals t i r s iu ino isat su Hl Hnd Hr Hs Hf.
  assert (Hne : signals <> []) by (intros ->; destruct i; discriminate).
  rewrite filter_closed in Hf by auto. injection Hf as <- <- <- <-.
  exact (in_filter_nodup (fun s => fleb fmax s) rows signals i r s Hl Hnd Hr Hs).
Qed.
Print Assumptions C02_one_sided_extremes.
Example C02_infinite_signal_saturates_without_threshold :
  exists iu ino su, filterCensoredData [1; 2] [of_int 7; S754_infinity false] (Some (of_int 5)) None
                    = Ok (iu, ino, [2], su) /\ iu = [1].
Proof. do 3 eexists. split; vm_compute; reflexivity. Qed.
