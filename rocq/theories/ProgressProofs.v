From Verif Require Import Base ProgressModel.
Local Open Scope Z_scope.

Lemma rhe_bounds n d : 0 < d -> 2 * n - d <= 2 * d * round_half_even n d <= 2 * n + d.
Proof.
  intros Hd. unfold round_half_even.
  assert (H := Z.div_mod n d ltac:(lia)). assert (Hm := Z.mod_pos_bound n d Hd).
  destruct (Z.ltb_spec (2 * (n mod d)) d); [nia|].
  destruct (Z.ltb_spec d (2 * (n mod d))); [nia|].
  destruct (Z.even (n / d)); nia.
Qed.
Lemma rhe_mono n m d : 0 < d -> n <= m -> round_half_even n d <= round_half_even m d.
Proof.
  intros Hd Hnm. unfold round_half_even.
  assert (H1 := Z.div_mod n d ltac:(lia)). assert (Hm1 := Z.mod_pos_bound n d Hd).
  assert (H2 := Z.div_mod m d ltac:(lia)). assert (Hm2 := Z.mod_pos_bound m d Hd).
  assert (Hq : n / d <= m / d) by (apply Z.div_le_mono; lia).
  destruct (Z.eq_dec (n / d) (m / d)) as [E|E].
  - rewrite E in *.
    destruct (Z.ltb_spec (2 * (n mod d)) d), (Z.ltb_spec d (2 * (n mod d))),
             (Z.ltb_spec (2 * (m mod d)) d), (Z.ltb_spec d (2 * (m mod d))); destruct (Z.even (m / d)); try lia; nia.
  - destruct (Z.ltb_spec (2 * (n mod d)) d), (Z.ltb_spec d (2 * (n mod d))),
             (Z.ltb_spec (2 * (m mod d)) d), (Z.ltb_spec d (2 * (m mod d)));
      destruct (Z.even (m / d)), (Z.even (n / d)); lia.
Qed.
Lemma rhe_exact k d : 0 < d -> round_half_even (k * d) d = k.
Proof.
  intros Hd. unfold round_half_even. rewrite Z.div_mul, Z.mod_mul by lia.
  destruct (Z.ltb_spec (2 * 0) d); lia.
Qed.
Lemma rhe_cross k n m : 0 < n -> 0 < m -> 0 <= k ->
  forall i j, 0 <= i <= j -> j * 1 <= n -> round_half_even (k * i) n <= round_half_even (k * j) n.
Proof. intros. apply rhe_mono; nia. Qed.

Definition flush (nIter nFlush : Z) : Z := if nIter <? nFlush then nIter else nFlush.
Definition every (nIter nFlush : Z) : Z := round_half_even nIter (flush nIter nFlush).

Lemma flush_pos nIter nFlush : 1 <= nIter -> 1 <= nFlush -> 1 <= flush nIter nFlush <= nIter /\ flush nIter nFlush <= nFlush.
Proof. unfold flush. intros. destruct (Z.ltb_spec nIter nFlush); lia. Qed.
Lemma every_pos nIter nFlush : 1 <= nIter -> 1 <= nFlush -> 1 <= every nIter nFlush.
Proof.
  intros H1 H2. destruct (flush_pos nIter nFlush H1 H2) as [Hf _]. unfold every.
  rewrite <- (rhe_exact 1 (flush nIter nFlush)) by lia. apply rhe_mono; lia.
Qed.
Lemma every_lower nIter nFlush : 1 <= nIter -> 1 <= nFlush -> 2 * nIter <= 3 * every nIter nFlush * nFlush.
Proof.
  intros H1 H2. destruct (flush_pos nIter nFlush H1 H2) as [Hf Hf2].
  assert (He := every_pos nIter nFlush H1 H2).
  assert (Hb := rhe_bounds nIter (flush nIter nFlush) ltac:(lia)). fold (every nIter nFlush) in Hb.
  assert (2 * nIter <= 3 * every nIter nFlush * flush nIter nFlush) by nia. nia.
Qed.

Lemma update_ok i nIter nFlush barLength :
  1 <= nIter -> 1 <= nFlush ->
  updateProgress i nIter nFlush barLength =
    if ((i + 1) mod (every nIter nFlush) =? 0) || (i + 1 =? nIter) then
      let full := nIter <=? i + 1 in
      let num := if full then 1 else i + 1 in
      let den := if full then 1 else nIter in
      let block := round_half_even (barLength * num) den in
      Ok (Some {| eqs := Z.max 0 block; dashes := Z.max 0 (barLength - block);
                  prog_num := num; prog_den := den; is_done := full |})
    else Ok None.
Proof.
  intros H1 H2. unfold updateProgress. fold (flush nIter nFlush).
  destruct (flush_pos nIter nFlush H1 H2) as [Hf _]. assert (He := every_pos nIter nFlush H1 H2).
  destruct (Z.eqb_spec (flush nIter nFlush) 0); [lia|].
  fold (every nIter nFlush). destruct (Z.eqb_spec (every nIter nFlush) 0); [lia|].
  destruct (Z.eqb_spec nIter 0); [lia|]. reflexivity.
Qed.

Lemma never_fails i nIter nFlush barLength :
  1 <= nIter -> 1 <= nFlush -> exists o, updateProgress i nIter nFlush barLength = Ok o.
Proof. intros. rewrite update_ok by auto. destruct (_ || _)%bool; eauto. Qed.
Lemma zero_iterations i nFlush barLength : 0 <= nFlush -> updateProgress i 0 nFlush barLength = Raise ZeroDivisionError.
Proof.
  intros. unfold updateProgress. destruct (Z.ltb_spec 0 nFlush); cbn; [reflexivity|].
  now replace nFlush with 0 by lia.
Qed.
Lemma bar_shape i nIter nFlush barLength l :
  1 <= nIter -> 1 <= nFlush -> 0 <= i -> 0 <= barLength ->
  updateProgress i nIter nFlush barLength = Ok (Some l) ->
  eqs l + dashes l = barLength /\ 0 <= eqs l <= barLength /\
  0 < prog_num l <= prog_den l /\ (is_done l = true <-> nIter <= i + 1) /\
  (is_done l = true -> eqs l = barLength /\ prog_num l = prog_den l).
Proof.
  intros H1 H2 Hi Hb. rewrite update_ok by auto. destruct (_ || _)%bool; [|discriminate].
  intros H. injection H as <-. cbn [eqs dashes prog_num prog_den is_done].
  destruct (Z.leb_spec nIter (i + 1)) as [Hle|Hlt].
  - rewrite rhe_exact by lia. rewrite !Z.max_r by lia. repeat split; try lia; try tauto.
  - assert (Hlo : 0 <= round_half_even (barLength * (i + 1)) nIter).
    { rewrite <- (rhe_exact 0 nIter) by lia. apply rhe_mono; nia. }
    assert (Hhi : round_half_even (barLength * (i + 1)) nIter <= barLength).
    { rewrite <- (rhe_exact barLength nIter) at 2 by lia. apply rhe_mono; nia. }
    rewrite !Z.max_r by lia. repeat split; try lia; try discriminate.
Qed.
Lemma last_call nIter nFlush barLength :
  1 <= nIter -> 1 <= nFlush ->
  exists l, updateProgress (nIter - 1) nIter nFlush barLength = Ok (Some l) /\ is_done l = true.
Proof.
  intros H1 H2. rewrite update_ok by auto.
  replace (nIter - 1 + 1) with nIter by lia. rewrite Z.eqb_refl, orb_true_r, Z.leb_refl. cbv zeta.
  eexists. split; [reflexivity|]. reflexivity.
Qed.
Lemma bar_monotone i j nIter nFlush barLength l l' :
  1 <= nIter -> 1 <= nFlush -> 0 <= i -> i <= j -> 0 <= barLength ->
  updateProgress i nIter nFlush barLength = Ok (Some l) ->
  updateProgress j nIter nFlush barLength = Ok (Some l') ->
  eqs l <= eqs l' /\ prog_num l * prog_den l' <= prog_num l' * prog_den l.
Proof.
  intros H1 H2 Hi Hij Hb E E'.
  destruct (bar_shape i nIter nFlush barLength l) as (S1 & S2 & S3 & S4 & S5); auto.
  destruct (bar_shape j nIter nFlush barLength l') as (T1 & T2 & T3 & T4 & T5); auto; [lia|].
  rewrite update_ok in E, E' by auto.
  destruct (_ || _)%bool in E; [|discriminate]. destruct (_ || _)%bool in E'; [|discriminate].
  injection E as <-; injection E' as <-. cbn [eqs dashes prog_num prog_den is_done] in *.
  destruct (Z.leb_spec nIter (j + 1)) as [Hj|Hj].
  - destruct (T5 eq_refl) as [-> T6]. split; [lia|]. nia.
  - destruct (Z.leb_spec nIter (i + 1)); [lia|].
    split; [|nia]. apply Z.max_le_compat_l. apply rhe_mono; nia.
Qed.

(** *** Number of lines printed *)
Lemma count_multiples e : 1 <= e -> forall n,
  Z.of_nat (length (filter (fun k => (Z.of_nat k + 1) mod e =? 0) (seq 0 n))) = Z.of_nat n / e.
Proof.
  intros He. induction n as [|n IH]; [reflexivity|].
  rewrite seq_S, filter_app, app_length, Nat2Z.inj_add, IH. cbn [filter Nat.add].
  replace (Z.of_nat (S n)) with (Z.of_nat n + 1) by lia.
  assert (H1 := Z.div_mod (Z.of_nat n) e ltac:(lia)). assert (B1 := Z.mod_pos_bound (Z.of_nat n) e ltac:(lia)).
  assert (H2 := Z.div_mod (Z.of_nat n + 1) e ltac:(lia)). assert (B2 := Z.mod_pos_bound (Z.of_nat n + 1) e ltac:(lia)).
  destruct (Z.eqb_spec ((Z.of_nat n + 1) mod e) 0) as [E|E]; cbn [length]; nia.
Qed.
Lemma filter_length_or {A} (f g : A -> bool) l :
  (length (filter (fun x => f x || g x) l) <= length (filter f l) + length (filter g l))%nat.
Proof. induction l as [|x l IH]; cbn; [lia|]. destruct (f x), (g x); cbn; lia. Qed.
Lemma filter_last (n : nat) (P : Z) :
  (length (filter (fun k : nat => (Z.of_nat k + 1 =? P)%Z) (seq 0 n)) <= 1)%nat.
Proof.
  assert (H : forall m s, (length (filter (fun k : nat => (Z.of_nat k + 1 =? P)%Z) (seq s m)) <= 1)%nat /\
             (P <= Z.of_nat s -> filter (fun k : nat => (Z.of_nat k + 1 =? P)%Z) (seq s m) = [])).
  { induction m as [|m IH]; intros s; [cbn; split; [lia|reflexivity]|].
    cbn [seq filter]. destruct (IH (S s)) as [A B].
    destruct (Z.eqb_spec (Z.of_nat s + 1) P); split; intros.
    - rewrite B by lia. cbn; lia.
    - lia.
    - exact A.
    - apply B. lia. }
  apply H.
Qed.
Lemma printed_count nIter nFlush barLength :
  1 <= nIter -> 1 <= nFlush ->
  2 * Z.of_nat (length (printed (loop_calls nIter nFlush barLength))) <= 3 * nFlush + 2.
Proof.
  intros H1 H2. unfold printed, loop_calls.
  set (e := every nIter nFlush). set (n := Z.to_nat nIter).
  assert (HL : length (flat_map (fun r => match r with Ok (Some x) => [x] | _ => [] end)
     (map (fun k => updateProgress (Z.of_nat k) nIter nFlush barLength) (seq 0 n)))
     = length (filter (fun k => ((Z.of_nat k + 1) mod e =? 0) || (Z.of_nat k + 1 =? nIter))%bool (seq 0 n))).
  { induction (seq 0 n) as [|k l IH]; [reflexivity|]. cbn [map flat_map filter].
    rewrite app_length, IH, update_ok by auto. fold e.
    destruct (((Z.of_nat k + 1) mod e =? 0) || (Z.of_nat k + 1 =? nIter))%bool; reflexivity. }
  rewrite HL.
  assert (A := filter_length_or (fun k => (Z.of_nat k + 1) mod e =? 0) (fun k => Z.of_nat k + 1 =? nIter) (seq 0 n)).
  assert (B := filter_last n nIter).
  assert (He : 1 <= e) by now apply every_pos.
  assert (C := count_multiples e He n).
  assert (D := every_lower nIter nFlush H1 H2). fold e in D.
  assert (Hn : Z.of_nat n = nIter) by (unfold n; lia). rewrite Hn in C.
  assert (E : 2 * (nIter / e) <= 3 * nFlush).
  { assert (nIter / e * e <= nIter) by (assert (X := Z.div_mod nIter e ltac:(lia)); assert (Y := Z.mod_pos_bound nIter e ltac:(lia)); nia).
    assert (0 <= nIter / e) by (apply Z.div_pos; lia). nia. }
  lia.
Qed.
