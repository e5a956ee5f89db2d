From Verif Require Import Base Float64 FilterModel FilterSpec.

Lemma bool_index_map {A B} (f : B -> bool) (rows : list A) (signals : list B) :
  length rows = length signals ->
  bool_index (map f signals) rows = Ok (map fst (filter (fun p => f (snd p)) (combine rows signals))).
Proof.
  intros H. unfold bool_index. rewrite map_length, H, Nat.eqb_refl. f_equal.
  revert signals H; induction rows as [|r rows IH]; intros [|s signals] H; try discriminate; [reflexivity|].
  cbn. injection H as H. rewrite (IH _ H). now destruct (f s).
Qed.
Lemma bool_index_self {B} (f : B -> bool) (l : list B) : bool_index (map f l) l = Ok (filter f l).
Proof. unfold bool_index. rewrite map_length, Nat.eqb_refl. now rewrite mask_filter. Qed.

Lemma filter_snd_combine {A B} (f : B -> bool) (rows : list A) (signals : list B) :
  length rows = length signals ->
  filter f signals = map snd (filter (fun p => f (snd p)) (combine rows signals)).
Proof.
  revert signals; induction rows as [|r rows IH]; intros [|s signals] H; try discriminate; [reflexivity|].
  cbn. injection H as H. rewrite (IH _ H). now destruct (f s).
Qed.

(** Closed form of the function. *)
Lemma filter_closed {Row} (rows : list Row) signals noise sat :
  length rows = length signals -> signals <> [] ->
  let nt := low_threshold noise in let st := high_threshold sat in
  let obs := combine rows signals in
  let u := fun p : Row * float => fgtb (snd p) nt && fltb (snd p) st in
  filterCensoredData rows signals noise sat =
    Ok (map fst (filter u obs),
        map fst (filter (fun p => fleb (snd p) nt) obs),
        map fst (filter (fun p => fgeb (snd p) st) obs),
        map snd (filter u obs)).
Proof.
  intros Hl Hne nt st obs u. unfold filterCensoredData. fold nt st.
  assert (Hm : forall T (a b : T), match signals with [] => a | _ => b end = b)
    by (intros; destruct signals; [congruence|reflexivity]).
  rewrite Hm. clear Hm.
  unfold unc_mask, noise_mask, sat_mask.
  rewrite (bool_index_map (fun s => fgtb s nt && fltb s st)) by auto. cbn [bind].
  rewrite (bool_index_map (fun s => fleb s nt)) by auto. cbn [bind].
  rewrite (bool_index_map (fun s => fgeb s st)) by auto. cbn [bind].
  rewrite bool_index_self. cbn [bind].
  unfold u, obs. now rewrite (filter_snd_combine _ rows signals Hl).
Qed.

Lemma filter_mismatch {Row} (rows : list Row) signals noise sat :
  length rows <> length signals -> signals <> [] ->
  filterCensoredData rows signals noise sat = Raise IndexError.
Proof.
  intros Hl Hne. unfold filterCensoredData. destruct signals as [|s ss]; [congruence|].
  unfold bool_index at 1. unfold unc_mask at 1. rewrite map_length.
  destruct (Nat.eqb_spec (length (s :: ss)) (length rows)); [congruence|reflexivity].
Qed.

Lemma filter_perm3 {A} (f g h : A -> bool) (l : list A) :
  (forall x, In x l -> (if f x then 1 else 0) + (if g x then 1 else 0) + (if h x then 1 else 0) = 1) ->
  Permutation (filter f l ++ filter g l ++ filter h l) l.
Proof.
  induction l as [|x l IH]; intros H; [reflexivity|].
  assert (Hx := H x (or_introl eq_refl)).
  assert (IH' : Permutation (filter f l ++ filter g l ++ filter h l) l)
    by (apply IH; intros; apply H; now right).
  cbn [filter]. destruct (f x), (g x), (h x); try lia; cbn [app].
  - now constructor.
  - rewrite <- Permutation_middle. now constructor.
  - rewrite app_assoc, <- Permutation_middle, <- app_assoc. now constructor.
Qed.

Lemma combine_fst {A B} (l1 : list A) (l2 : list B) : length l1 = length l2 -> map fst (combine l1 l2) = l1.
Proof. revert l2; induction l1 as [|a l1 IH]; intros [|b l2] H; try discriminate; cbn; [reflexivity|]. injection H as H. now rewrite IH. Qed.
Lemma combine_fst_snd {A B} (l : list (A * B)) : combine (map fst l) (map snd l) = l.
Proof. induction l as [|[a b] l IH]; cbn; congruence. Qed.

Lemma not_le_lt a b : is_nan a = false -> is_nan b = false -> fltb b a = negb (fleb a b).
Proof. intros. now rewrite fltb_negb_fleb. Qed.

Lemma areas_model noise sat s :
  in_range s -> thresholds_ok noise sat ->
  fleb s (low_threshold noise) = below noise s /\
  fgeb s (high_threshold sat) = above sat s /\
  (fgtb s (low_threshold noise) && fltb s (high_threshold sat))%bool = inside noise sat s /\
  (below noise s && above sat s)%bool = false.
Proof.
  intros [Hlo Hhi] Hth.
  assert (Hs : is_nan s = false) by apply (fltb_not_nan _ _ Hhi).
  assert (Hna : is_nan (low_threshold noise) = false /\ is_nan (high_threshold sat) = false).
  { destruct noise, sat; cbn in *; auto. now apply fltb_not_nan in Hth. }
  destruct Hna as [Hn1 Hn2].
  assert (E1 : fleb s (low_threshold noise) = below noise s).
  { destruct noise; cbn; [reflexivity|]. rewrite fleb_negb_fltb by auto. now rewrite Hlo. }
  assert (E2 : fgeb s (high_threshold sat) = above sat s).
  { destruct sat; cbn; [reflexivity|]. unfold fgeb. change (fleb fmax s = false).
    rewrite fleb_negb_fltb by auto. now rewrite Hhi. }
  split; [exact E1|]. split; [exact E2|]. split.
  - unfold inside, fgtb. rewrite <- E1, <- E2. unfold fgeb. change (SpecFloat.SFleb ?a ?b) with (fleb a b). change (SpecFloat.SFltb ?a ?b) with (fltb a b).
    rewrite (fleb_negb_fltb s (low_threshold noise)), (fleb_negb_fltb (high_threshold sat) s) by auto.
    now rewrite !negb_involutive.
  - destruct noise as [a|], sat as [b|]; cbn; rewrite ?andb_false_r; try reflexivity.
    destruct (fleb s a) eqn:A, (fleb b s) eqn:B; try reflexivity.
    cbn in Hth. assert (C := fleb_trans _ _ _ B A). apply fltb_fleb in Hth as D.
    assert (E := fltb_fleb_trans _ _ _ Hth C). now rewrite fltb_irrefl in E.
Qed.

Lemma partition_lemma {Row} (rows : list Row) signals noise sat :
  length rows = length signals -> signals <> [] ->
  Forall in_range signals -> thresholds_ok noise sat ->
  exists iu ino isat su,
    filterCensoredData rows signals noise sat = Ok (iu, ino, isat, su) /\
    length iu = length su /\
    combine iu su = filter (fun p => inside noise sat (snd p)) (combine rows signals) /\
    ino = map fst (filter (fun p => below noise (snd p)) (combine rows signals)) /\
    isat = map fst (filter (fun p => above sat (snd p)) (combine rows signals)) /\
    Permutation (iu ++ ino ++ isat) rows /\
    subseq iu rows /\ subseq ino rows /\ subseq isat rows /\ subseq su signals.
Proof.
  intros Hl Hne Hr Hth. rewrite filter_closed by auto.
  set (obs := combine rows signals).
  assert (Hin : forall p, In p obs -> in_range (snd p)).
  { intros [r s] Hp. apply in_combine_r in Hp. rewrite Forall_forall in Hr. now apply Hr. }
  assert (Eu : filter (fun p => fgtb (snd p) (low_threshold noise) && fltb (snd p) (high_threshold sat)) obs
             = filter (fun p => inside noise sat (snd p)) obs).
  { apply filter_ext_in. intros p Hp. now apply areas_model; [apply Hin|]. }
  assert (En : filter (fun p => fleb (snd p) (low_threshold noise)) obs = filter (fun p => below noise (snd p)) obs).
  { apply filter_ext_in. intros p Hp. now apply (areas_model noise sat); [apply Hin|]. }
  assert (Es : filter (fun p => fgeb (snd p) (high_threshold sat)) obs = filter (fun p => above sat (snd p)) obs).
  { apply filter_ext_in. intros p Hp. now apply (areas_model noise sat); [apply Hin|]. }
  cbv zeta. fold obs. rewrite Eu, En, Es.
  do 4 eexists. split; [reflexivity|]. split; [now rewrite !map_length|].
  split; [apply combine_fst_snd|]. split; [reflexivity|]. split; [reflexivity|].
  assert (Hrows : map fst obs = rows) by now apply combine_fst.
  assert (Hsig : map snd obs = signals).
  { unfold obs. clear -Hl. revert signals Hl. induction rows; intros [|s signals] H; try discriminate; cbn; [reflexivity|].
    injection H as H. now rewrite IHrows. }
  split; [|split; [|split; [|split]]].
  - transitivity (map fst obs); [|now rewrite Hrows]. rewrite <- !map_app. apply Permutation_map.
    apply filter_perm3. intros p Hp. unfold inside.
    destruct (areas_model noise sat (snd p) (Hin p Hp) Hth) as (_ & _ & _ & Hx).
    destruct (below noise (snd p)), (above sat (snd p)); cbn in *; congruence || lia.
  - rewrite <- Hrows. apply subseq_map, filter_subseq.
  - rewrite <- Hrows. apply subseq_map, filter_subseq.
  - rewrite <- Hrows. apply subseq_map, filter_subseq.
  - rewrite <- Hsig. apply subseq_map, filter_subseq.
Qed.

(** *** Arbitrary doubles: where does observation [r] with signal [s] go? *)
Lemma in_filter_nodup {Row} (f : float -> bool) (rows : list Row) signals i r s :
  length rows = length signals -> NoDup rows ->
  nth_error rows i = Some r -> nth_error signals i = Some s ->
  (In r (map fst (filter (fun p => f (snd p)) (combine rows signals))) <-> f s = true).
Proof.
  intros Hl Hnd Hr Hs. split.
  - intros Hin. apply in_map_iff in Hin as ([r' s'] & E & Hf). cbn in E; subst r'.
    apply filter_In in Hf as [Hc Hf]. cbn in Hf.
    apply In_nth_error in Hc as [j Hj].
    assert (Hrj : nth_error rows j = Some r /\ nth_error signals j = Some s').
    { clear -Hj Hl. revert signals Hl j Hj. induction rows as [|x rows IH]; intros [|y signals] H [|j] Hj; try discriminate; cbn in *.
      - injection Hj as -> ->. auto.
      - apply IH; auto. }
    destruct Hrj as [Hrj Hsj].
    assert (i = j).
    { eapply NoDup_nth_error; eauto; [|congruence]. apply nth_error_Some. congruence. }
    subst j. congruence.
  - intros Hf. apply in_map_iff. exists (r, s). split; [reflexivity|]. apply filter_In. split; [|exact Hf].
    clear -Hr Hs Hl. revert signals i Hl Hr Hs. induction rows as [|x rows IH]; intros [|y signals] [|i] H Hr Hs; try discriminate; cbn in *.
    + injection Hr as ->; injection Hs as ->. now left.
    + right. eapply IH; eauto.
Qed.

Lemma lost_iff s nt st :
  ((fgtb s nt && fltb s st)%bool = false /\ fleb s nt = false /\ fgeb s st = false)
  <-> (is_nan s = true \/ (is_nan nt = true /\ fleb st s = false) \/ (is_nan st = true /\ fleb s nt = false)).
Proof.
  unfold fgtb, fgeb. change SpecFloat.SFltb with fltb. change SpecFloat.SFleb with fleb.
  destruct (is_nan s) eqn:Hs.
  { assert (s = SpecFloat.S754_nan) as -> by (destruct s; cbn in Hs; congruence).
    rewrite ?fltb_nan_r, ?fltb_nan_l, ?fleb_nan_l, ?fleb_nan_r. cbn. intuition. }
  destruct (is_nan nt) eqn:Hn.
  { assert (nt = SpecFloat.S754_nan) as -> by (destruct nt; cbn in Hn; congruence).
    assert (Hst : is_nan st = true -> fleb st s = false) by (destruct st; cbn; congruence || reflexivity).
    rewrite ?fltb_nan_r, ?fltb_nan_l, ?fleb_nan_l, ?fleb_nan_r. cbn. intuition congruence. }
  destruct (is_nan st) eqn:Ht.
  { assert (st = SpecFloat.S754_nan) as -> by (destruct st; cbn in Ht; congruence).
    rewrite ?fltb_nan_r, ?fltb_nan_l, ?fleb_nan_l, ?fleb_nan_r, ?andb_false_r. cbn. intuition congruence. }
  rewrite (fltb_negb_fleb nt s), (fltb_negb_fleb s st) by auto.
  destruct (fleb s nt), (fleb st s); cbn; intuition congruence.
Qed.

Lemma fate_lemma {Row} (rows : list Row) signals noise sat i r s iu ino isat su :
  length rows = length signals -> NoDup rows ->
  nth_error rows i = Some r -> nth_error signals i = Some s ->
  filterCensoredData rows signals noise sat = Ok (iu, ino, isat, su) ->
  let nt := low_threshold noise in let st := high_threshold sat in
  ((~ In r iu /\ ~ In r ino /\ ~ In r isat) <->
     (is_nan s = true \/ (is_nan nt = true /\ fleb st s = false) \/ (is_nan st = true /\ fleb s nt = false))) /\
  ((In r ino /\ In r isat) <-> (fleb st s = true /\ fleb s nt = true)) /\
  ~ (In r iu /\ In r ino) /\ ~ (In r iu /\ In r isat).
Proof.
  intros Hl Hnd Hr Hs Hf nt st.
  assert (Hne : signals <> []) by (intros ->; destruct i; discriminate).
  rewrite filter_closed in Hf by auto. injection Hf as <- <- <- <-. fold nt st.
  assert (A1 := in_filter_nodup (fun s => fgtb s nt && fltb s st)%bool rows signals i r s Hl Hnd Hr Hs).
  assert (A2 := in_filter_nodup (fun s => fleb s nt) rows signals i r s Hl Hnd Hr Hs).
  assert (A3 := in_filter_nodup (fun s => fgeb s st) rows signals i r s Hl Hnd Hr Hs).
  rewrite A1, A2, A3. clear A1 A2 A3. split; [|split; [|split]].
  - rewrite <- lost_iff, !not_true_iff_false. reflexivity.
  - unfold fgeb. change SpecFloat.SFleb with fleb. tauto.
  - intros [H1 H2]. apply andb_prop in H1 as [H1 _]. unfold fgtb in H1. change (fltb nt s = true) in H1.
    assert (C := fltb_fleb_trans _ _ _ H1 H2). now rewrite fltb_irrefl in C.
  - intros [H1 H2]. apply andb_prop in H1 as [_ H1]. unfold fgeb in H2. change (fleb st s = true) in H2.
    assert (C := fltb_fleb_trans _ _ _ H1 H2). now rewrite fltb_irrefl in C.
Qed.
