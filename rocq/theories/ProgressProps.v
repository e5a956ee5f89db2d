(** C59: progress bar. *)
From Verif Require Import Base ProgressModel ProgressProofs.
Local Open Scope Z_scope.

Theorem C59_never_fails :
  forall i nIter nFlush barLength, 1 <= nIter -> 1 <= nFlush ->
    exists o, updateProgress i nIter nFlush barLength = Ok o.
Proof. exact never_fails. Qed.
Print Assumptions C59_never_fails.

Theorem C59_zero_iterations :
  forall i nFlush barLength, 0 <= nFlush -> updateProgress i 0 nFlush barLength = Raise ZeroDivisionError.
Proof. exact zero_iterations. Qed.
Print Assumptions C59_zero_iterations.

(** Every printed line has a bar of full length, a progress in (0,1], and says Done exactly at the end. *)
Theorem C59_bar_shape :
  forall i nIter nFlush barLength l,
    1 <= nIter -> 1 <= nFlush -> 0 <= i -> 0 <= barLength ->
    updateProgress i nIter nFlush barLength = Ok (Some l) ->
    eqs l + dashes l = barLength /\ 0 <= eqs l <= barLength /\
    0 < prog_num l <= prog_den l /\ (is_done l = true <-> nIter <= i + 1) /\
    (is_done l = true -> eqs l = barLength /\ prog_num l = prog_den l).
Proof. exact bar_shape. Qed.
Print Assumptions C59_bar_shape.

(** What is printed: the progress is (i+1)/nIter (1 once the last iteration is reached) and the number of '=' is the
    multiple barLength * progress rounded to the nearest integer, the even one in case of a tie. *)
Theorem C59_bar_is_the_rounded_progress :
  forall i nIter nFlush barLength l,
    1 <= nIter -> 1 <= nFlush -> 0 <= i -> 0 <= barLength ->
    updateProgress i nIter nFlush barLength = Ok (Some l) ->
    prog_num l * nIter = Z.min (i + 1) nIter * prog_den l /\
    2 * Z.abs (eqs l * prog_den l - barLength * prog_num l) <= prog_den l /\
    (2 * Z.abs (eqs l * prog_den l - barLength * prog_num l) = prog_den l -> Z.even (eqs l) = true).
Proof.
  intros i nIter nFlush barLength l H1 H2 Hi Hb H. rewrite update_ok in H by assumption.
  destruct (_ || _); [|discriminate]. injection H as <-. cbn [eqs prog_den prog_num].
  set (num := if nIter <=? i + 1 then 1 else i + 1). set (den := if nIter <=? i + 1 then 1 else nIter).
  assert (Hd : 0 < den) by (subst den; destruct (nIter <=? i + 1); lia).
  assert (Hn : 0 < num) by (subst num; destruct (nIter <=? i + 1); lia).
  split; [subst num den; destruct (Z.leb_spec nIter (i + 1)); lia|].
  clearbody num den. assert (Hp : 0 <= barLength * num) by nia.
  assert (Hr : 0 <= round_half_even (barLength * num) den).
  { rewrite <- (rhe_exact 0 den) by lia. apply rhe_mono; lia. }
  rewrite Z.max_r by exact Hr. assert (B := rhe_bounds (barLength * num) den Hd). split; [lia|].
  intros E. revert E. unfold round_half_even.
  assert (D := Z.div_mod (barLength * num) den ltac:(lia)). assert (Hm := Z.mod_pos_bound (barLength * num) den Hd).
  set (q := barLength * num / den) in *. set (r := (barLength * num) mod den) in *. rewrite D.
  destruct (Z.ltb_spec (2 * r) den) as [L|L]; [intros E; nia|].
  destruct (Z.ltb_spec den (2 * r)) as [L2|L2]; [intros E; nia|].
  destruct (Z.even q) eqn:Eq; [auto|]. intros _. rewrite Z.even_add, Eq. reflexivity.
Qed.
Print Assumptions C59_bar_is_the_rounded_progress.

Theorem C59_last_call_prints_done :
  forall nIter nFlush barLength, 1 <= nIter -> 1 <= nFlush ->
    exists l, updateProgress (nIter - 1) nIter nFlush barLength = Ok (Some l) /\ is_done l = true.
Proof. exact last_call. Qed.
Print Assumptions C59_last_call_prints_done.

Theorem C59_progress_monotone :
  forall i j nIter nFlush barLength l l',
    1 <= nIter -> 1 <= nFlush -> 0 <= i -> i <= j -> 0 <= barLength ->
    updateProgress i nIter nFlush barLength = Ok (Some l) ->
    updateProgress j nIter nFlush barLength = Ok (Some l') ->
    eqs l <= eqs l' /\ prog_num l * prog_den l' <= prog_num l' * prog_den l.
Proof. exact bar_monotone. Qed.
Print Assumptions C59_progress_monotone.

(** A complete loop prints at most 1.5 nFlush + 1 lines. *)
Theorem C59_number_of_lines :
  forall nIter nFlush barLength, 1 <= nIter -> 1 <= nFlush ->
    2 * Z.of_nat (length (printed (loop_calls nIter nFlush barLength))) <= 3 * nFlush + 2.
Proof. exact printed_count. Qed.
Print Assumptions C59_number_of_lines.

Example C59_concrete :
  length (printed (loop_calls 70 50 50)) = 70%nat /\ length (printed (loop_calls 125 50 50)) = 63%nat /\
  map eqs (printed (loop_calls 4 50 50)) = [12; 25; 38; 50].
Proof. vm_compute. auto. Qed.

(** "At most nFlush lines" is false because of the rounding of nIter / nFlush. *)
Theorem C59_at_most_nFlush_lines_refuted :
  exists nIter nFlush, 1 <= nIter /\ 1 <= nFlush /\
    nFlush + 1 < Z.of_nat (length (printed (loop_calls nIter nFlush 50))).
Proof. exists 70, 50. vm_compute. repeat split; congruence. Qed.
Print Assumptions C59_at_most_nFlush_lines_refuted.

(** The hit-miss enrichment calls updateProgress(n_added - 1, nMorePoints) with n_added = 5, 10, 15, ...
    (/repo/otpod/_adaptive_hitmiss_pod.py 261-301); with 123 points "Done" is never printed. *)
Theorem C59_done_with_overshoot_refuted :
  exists nMore, 1 <= nMore /\
    forall k, In k (seq 1 25) ->
      match updateProgress (5 * Z.of_nat k - 1) nMore 50 50 with
      | Ok (Some l) => is_done l = false
      | _ => True
      end.
Proof.
  exists 123. split; [lia|]. intros k Hk.
  assert (H : forallb (fun k => match updateProgress (5 * Z.of_nat k - 1) 123 50 50 with
      | Ok (Some l) => negb (is_done l) | _ => true end) (seq 1 25) = true) by (vm_compute; reflexivity).
  rewrite forallb_forall in H. specialize (H k Hk).
  destruct (updateProgress _ _ _ _) as [[l|]|]; auto. now destruct (is_done l).
Qed.
Print Assumptions C59_done_with_overshoot_refuted.
