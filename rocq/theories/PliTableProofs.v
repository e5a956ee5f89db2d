(** The turns of the loops of PLI.run (used by PliTableProps.v). *)
From Verif Require Import RealBase LooModel KrigAttrModel PliModel PliProps PliDensityModel PliTableModel.
Local Open Scope R_scope.

(** *** The list of the turns *)
(** (marginal, delta) comes before (marginal', delta') in the loops. *)
Definition earlier (c c' : nat * nat) : Prop := (fst c < fst c')%nat \/ (fst c = fst c' /\ (snd c < snd c')%nat).

Section Props.
Variable G : Type.
Variable k : kind.
Variable margs : list marginal_dist.
Variable dl : list (list R).
Notation obj := (obj G).
Notation world := (world G).
Notation step := (step G k margs dl).
Notation steps := (steps G k margs dl).
Notation run := (run G k margs dl).
Notation turns := (turns margs dl).
Notation fresh := (fresh G).

Lemma turns_in m d : In (m, d) turns <-> (m < length margs)%nat /\ (d < length dl)%nat.
Proof.
  unfold PliTableModel.turns. rewrite in_flat_map. split.
  - intros (x & H1 & H2). apply in_map_iff in H2. destruct H2 as (y & [= -> ->] & H2). apply in_seq in H1, H2. lia.
  - intros [H1 H2]. exists m. split; [apply in_seq; lia|]. apply in_map_iff. exists d. split; [reflexivity|apply in_seq; lia].
Qed.
Lemma row_sorted m a n : StronglySorted earlier (map (fun d => (m, d)) (seq a n)).
Proof.
  revert a. induction n as [|n IH]; intros a; [constructor|]. cbn. constructor; [apply IH|].
  apply Forall_forall. intros x Hx. apply in_map_iff in Hx. destruct Hx as (d & <- & Hd). apply in_seq in Hd. right. cbn. lia.
Qed.
Lemma sorted_app {A} (R : A -> A -> Prop) l1 l2 : StronglySorted R l1 -> StronglySorted R l2 ->
  (forall x y, In x l1 -> In y l2 -> R x y) -> StronglySorted R (l1 ++ l2).
Proof.
  induction 1 as [|x l1 H IH F]; intros H2 C; [exact H2|]. cbn. constructor; [apply IH; [exact H2|intros; apply C; [now right|assumption]]|].
  apply Forall_app. split; [exact F|]. apply Forall_forall. intros y Hy. apply C; [now left|exact Hy].
Qed.
Lemma turns_sorted : StronglySorted earlier turns.
Proof.
  unfold PliTableModel.turns.
  enough (H : forall n a, StronglySorted earlier (flat_map (fun m => map (fun d => (m, d)) (seq 0 (length dl))) (seq a n))) by apply H.
  induction n as [|n IH]; intros a; [constructor|].
  cbn [seq flat_map]. apply sorted_app; [apply row_sorted|apply IH|]. intros x y Hx Hy.
  apply in_map_iff in Hx. destruct Hx as (d & <- & _). apply in_flat_map in Hy. destruct Hy as (m & Hm & Hy). apply in_map_iff in Hy.
  destruct Hy as (d' & <- & _). apply in_seq in Hm. left. cbn. lia.
Qed.
Lemma sorted_split {A} (R : A -> A -> Prop) l1 c l2 : StronglySorted R (l1 ++ c :: l2) -> (forall x, In x l1 -> R x c) /\ (forall x, In x l2 -> R c x).
Proof.
  induction l1 as [|a l1 IH]; cbn; intros H; inversion H as [|? ? H1 F]; subst.
  - split; [intros x []|]. intros x Hx. rewrite Forall_forall in F. now apply F.
  - destruct (IH H1) as [I1 I2]. split; [|exact I2]. intros x [<-|Hx]; [|now apply I1]. rewrite Forall_forall in F. apply F.
    apply in_or_app. right. now left.
Qed.

(** *** One turn *)
(** Everything but the cell (d, m) of the tables is the same. *)
Definition same_but (s s' : obj) (P : nat -> nat -> Prop) : Prop :=
  o_gk G s' = o_gk G s /\ o_pf G s' = o_pf G s /\ o_size G s' = o_size G s /\ o_fail G s' = o_fail G s /\
  forall d m, ~ P d m -> o_pfd G s' d m = o_pfd G s d m /\ o_var G s' d m = o_var G s d m /\ o_idx G s' d m = o_idx G s d m /\ o_est G s' d m = o_est G s d m.
(** The ratios of a turn. *)
Definition ratios_of (w : world) (g : G) (fail : list (list R)) (m d : nat) : res (list (option R)) :=
  table_ratios G k margs w g m (nth m (nth d dl []) 0) fail.
(** The numbers of a turn. *)
Definition num_pfd N rs := option_map (pfdelta N) (all_some rs).
Definition numbers (N : nat) (pf : R) (rs : list (option R)) (s : obj) (m d : nat) : Prop :=
  o_pfd G s d m = num_pfd N rs /\ o_var G s d m = table_var N rs (num_pfd N rs) /\ o_idx G s d m = table_index pf (num_pfd N rs).
Definition law_of N pf rs := table_law N pf (num_pfd N rs) (table_var N rs (num_pfd N rs)) (table_index pf (num_pfd N rs)).
Lemma put_same {V} d m (v : V) t : put d m v t d m = v.
Proof. unfold put. now rewrite !Nat.eqb_refl. Qed.
Lemma put_other {V} d m (v : V) t d' m' : ~ (d' = d /\ m' = m) -> put d m v t d' m' = t d' m'.
Proof. unfold put. intros H. destruct (Nat.eqb_spec d' d), (Nat.eqb_spec m' m); cbn; try reflexivity. now destruct H. Qed.

Lemma step_spec w N pf fail m d s s' r : step w N pf fail m d s = (s', r) ->
  match ratios_of w (o_gk G s) fail m d with
  | Raise e => s' = s /\ r = Raise e
  | Ok rs =>
      same_but s s' (fun d' m' => d' = d /\ m' = m) /\ numbers N pf rs s' m d /\
      match law_of N pf rs with
      | Raise e => o_est G s' d m = o_est G s d m /\ r = Raise e
      | Ok l => o_est G s' d m = l /\ r = Ok tt
      end
  end.
Proof.
  unfold PliTableModel.step, ratios_of. destruct (table_ratios G k margs w (o_gk G s) m (nth m (nth d dl []) 0) fail) as [rs|e]; [|intros [= <- <-]; auto].
  rewrite !put_same. fold (num_pfd N rs). fold (law_of N pf rs). unfold numbers, same_but.
  destruct (law_of N pf rs) as [l|e]; intros [= <- <-]; cbn; rewrite !put_same; (split; [|split; [auto|auto]]);
    repeat (split; [reflexivity|]); intros d' m' H; rewrite !put_other by assumption; auto.
Qed.

(** What the turn of (m, d) leaves when it succeeds. *)
Definition done (w : world) (g : G) (N : nat) (pf : R) (fail : list (list R)) (s' : obj) (c : nat * nat) : Prop :=
  let '(m, d) := c in
  exists rs l, ratios_of w g fail m d = Ok rs /\ numbers N pf rs s' m d /\ law_of N pf rs = Ok l /\ o_est G s' d m = l.
(** What it leaves when it fails, from the state s. *)
Definition broken (w : world) (g : G) (N : nat) (pf : R) (fail : list (list R)) (s s' : obj) (c : nat * nat) (e : exn) : Prop :=
  let '(m, d) := c in
  o_est G s' d m = o_est G s d m /\
  (ratios_of w g fail m d = Raise e /\ o_pfd G s' d m = o_pfd G s d m /\ o_var G s' d m = o_var G s d m /\ o_idx G s' d m = o_idx G s d m \/
   exists rs, ratios_of w g fail m d = Ok rs /\ law_of N pf rs = Raise e /\ numbers N pf rs s' m d).

Lemma same_but_trans s1 s2 s3 P Q : same_but s1 s2 P -> same_but s2 s3 Q -> same_but s1 s3 (fun d m => P d m \/ Q d m).
Proof.
  intros (A1 & A2 & A3 & A4 & A5) (B1 & B2 & B3 & B4 & B5). repeat (split; [congruence|]). intros d m H.
  destruct (A5 d m) as (E1 & E2 & E3 & E4); [tauto|]. destruct (B5 d m) as (F1 & F2 & F3 & F4); [tauto|]. repeat split; congruence.
Qed.
Lemma same_but_weaken s s' (P Q : nat -> nat -> Prop) : (forall d m, P d m -> Q d m) -> same_but s s' P -> same_but s s' Q.
Proof. intros H (A1 & A2 & A3 & A4 & A5). repeat (split; [assumption|]). intros d m N. apply A5. intros X. apply N, H, X. Qed.
Lemma done_kept w g N pf fail s s' P c : same_but s s' P -> ~ P (snd c) (fst c) -> done w g N pf fail s c -> done w g N pf fail s' c.
Proof.
  destruct c as [m d]. intros (_ & _ & _ & _ & A5) H (rs & l & E1 & (E2 & E3 & E4) & E5 & E6). destruct (A5 d m H) as (F1 & F2 & F3 & F4).
  exists rs, l. repeat split; congruence.
Qed.

Lemma steps_spec w N pf fail cells : forall s s' r, steps w N pf fail cells s = (s', r) -> StronglySorted earlier cells ->
  exists before, (forall c, In c before -> done w (o_gk G s) N pf fail s' c) /\
    match r with
    | Ok _ => cells = before /\ same_but s s' (fun d m => In (m, d) before)
    | Raise e => exists c after, cells = before ++ c :: after /\ broken w (o_gk G s) N pf fail s s' c e /\
                   same_but s s' (fun d m => In (m, d) before \/ (m, d) = c)
    end.
Proof.
  induction cells as [|[m d] cells IH]; intros s s' r H HS.
  - injection H as <- <-. exists []. split; [intros c []|]. split; [reflexivity|]. repeat (split; [reflexivity|]). auto.
  - inversion HS as [|? ? HS' F]; subst. rewrite Forall_forall in F. cbn in H. destruct (step w N pf fail m d s) as [s1 r1] eqn:E.
    assert (SP := step_spec _ _ _ _ _ _ _ _ _ E). destruct (ratios_of w (o_gk G s) fail m d) as [rs|e] eqn:ER.
    + destruct SP as (SB & NU & SL). destruct (law_of N pf rs) as [l|e] eqn:EL; destruct SL as [SL ->].
      * assert (EG : o_gk G s1 = o_gk G s) by apply SB. destruct (IH _ _ _ H HS') as (before & HB & HR). rewrite EG in HB, HR.
        assert (D1 : done w (o_gk G s) N pf fail s1 (m, d)) by (exists rs, l; auto).
        exists ((m, d) :: before). assert (FR : forall c, In c cells -> c <> (m, d)).
        { intros c Hc ->. apply F in Hc. destruct Hc as [Hc|[_ Hc]]; cbn in Hc; lia. }
        destruct r as [u|e].
        -- destruct HR as (-> & SB2). split.
           ++ intros c [<-|Hc]; [|now apply HB]. eapply done_kept; [exact SB2| |exact D1]. cbn. intros X. now apply (FR (m, d) X).
           ++ split; [reflexivity|]. eapply same_but_weaken; [|exact (same_but_trans _ _ _ _ _ SB SB2)]. cbn. intros d' m' [[-> ->]|X]; auto.
        -- destruct HR as (c & after & -> & BR & SB2). assert (NC : c <> (m, d)) by (apply FR, in_or_app; right; now left). split.
           ++ intros c' [<-|Hc]; [|now apply HB]. eapply done_kept; [exact SB2| |exact D1]. cbn. intros [X|X]; [|congruence].
              apply (FR (m, d)); [apply in_or_app; now left|reflexivity].
           ++ exists c, after. split; [reflexivity|]. split.
              ** destruct c as [mc dc]. destruct SB as (_ & _ & _ & _ & SB). destruct (SB dc mc) as (A1 & A2 & A3 & A4); [intros [-> ->]; now apply NC|].
                 destruct BR as [B1 B2]. split; [congruence|]. destruct B2 as [(B2 & B3 & B4 & B5)|B2]; [left; repeat split; congruence|now right].
              ** eapply same_but_weaken; [|exact (same_but_trans _ _ _ _ _ SB SB2)]. cbn. intros d' m' [[-> ->]|[X|X]]; auto.
      * injection H as <- <-. exists []. split; [intros c []|]. exists (m, d), cells. split; [reflexivity|]. split.
        -- split; [exact SL|]. right. exists rs. auto.
        -- eapply same_but_weaken; [|exact SB]. cbn. intros d' m' [-> ->]. now right.
    + destruct SP as [-> ->]. injection H as <- <-. exists []. split; [intros c []|]. exists (m, d), cells. split; [reflexivity|]. split.
      * split; [reflexivity|]. left. auto.
      * repeat (split; [reflexivity|]). auto.
Qed.
End Props.
