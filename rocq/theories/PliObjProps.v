(** C79: the objects PLIMean and PLIVariance over the calls made on them. *)
From Coq Require Import Reals Lra.
From Verif Require Import RealBase KrigAttrModel PliModel PliPodModel PliPodProps PliObjModel.
Require Import ZArith.
Local Open Scope R_scope.

(** *** Contour positions *)
Lemma nth_mapped {A B} (f : A -> B) l j a b : (j < length l)%nat -> nth j (map f l) b = f (nth j l a).
Proof. intros H. rewrite nth_indep with (d' := f a) by (now rewrite map_length). apply map_nth. Qed.
Lemma even_length a b n : length (even a b n) = n.
Proof. unfold even. now rewrite map_length, seq_length. Qed.
Lemma nth_even a b n j : (j < n)%nat -> nth j (even a b n) 0 = a + INR j * ((b - a) / INR (n - 1)).
Proof.
  intros H. unfold even. rewrite (nth_mapped _ _ _ 0%nat) by (now rewrite seq_length). now rewrite seq_nth.
Qed.
(** Values in arithmetic progression, not decreasing. *)
Definition evenly (l : list R) : Prop := exists a h, 0 <= h /\ forall j, (j < length l)%nat -> nth j l 0 = a + INR j * h.
Lemma Rlmin_evenly l a h : l <> [] -> 0 <= h -> (forall j, (j < length l)%nat -> nth j l 0 = a + INR j * h) ->
  Rlmin l = a /\ Rlmax l = a + INR (length l - 1) * h.
Proof.
  intros Hl Hh H. assert (S : Rsorted l).
  { assert (G : forall i j, (i < j < length l)%nat -> nth i l 0 <= nth j l 0).
    { intros i j [Hij Hj]. rewrite !H by lia. assert (INR i <= INR j) by (apply le_INR; lia). nra. }
    clear -G. induction l as [|x l IH]; [constructor|]. constructor.
    - apply IH. intros i j Hij. exact (G (S i) (S j) ltac:(cbn; lia)).
    - apply Forall_forall. intros y Hy. destruct (In_nth _ _ 0 Hy) as (j & Hj & <-). exact (G 0%nat (S j) ltac:(cbn; lia)). }
  assert (L : (0 < length l)%nat) by (destruct l; [contradiction|cbn; lia]).
  destruct (Rsorted_bounds l S Hl) as [<- <-]. rewrite !H by lia. cbn [INR]. split; [ring|reflexivity].
Qed.
Lemma even_iff_evenly l : (2 <= length l)%nat -> even (Rlmin l) (Rlmax l) (length l) = l <-> evenly l.
Proof.
  intros L. assert (Hl : l <> []) by (destruct l; [cbn in L; lia|discriminate]).
  assert (P : 0 < INR (length l - 1)) by (apply lt_0_INR; lia). split.
  - intros E. exists (Rlmin l), ((Rlmax l - Rlmin l) / INR (length l - 1)). split.
    + apply Rmult_le_pos; [|left; now apply Rinv_0_lt_compat]. generalize (Rlmin_le_max l). lra.
    + intros j Hj. rewrite <- E at 1. now apply nth_even.
  - intros (a & h & Hh & H). destruct (Rlmin_evenly l a h Hl Hh H) as [-> ->].
    apply nth_ext with (d := 0) (d' := 0); [apply even_length|]. intros j Hj. rewrite even_length in Hj.
    rewrite nth_even by assumption. rewrite H by assumption. f_equal. f_equal. field. lra.
Qed.
Lemma take_at_ok {A} (l : list A) d : forall ks, (forall k, In k ks -> (k < length l)%nat) -> take_at l ks = Ok (map (fun k => nth k l d) ks).
Proof.
  induction ks as [|k ks IH]; intros H; [reflexivity|]. cbn [take_at map].
  rewrite (nth_error_nth' l d) by (apply H; now left). rewrite IH by (intros; apply H; now right). reflexivity.
Qed.

Section Spec.
Variables D N G Obj : Type.
Variable is_joint : D -> bool.
Variable dimension : D -> nat.
Variable dim : nat.
Variable delta : list (list R).
Variable class : pli_class.
Variables lo hi : R.
Local Arguments core {D N G Obj}.
Local Arguments dist {D N G Obj}.
Local Arguments sampling {D N G Obj}.
Local Arguments gk {D N G Obj}.
Local Arguments w_mc {D N G Obj}.
Local Arguments w_define {D N G Obj}.
Local Arguments w_solve {D N G Obj}.
Local Arguments Run {D N G Obj}.
Local Arguments SetDist {D N G Obj}.
Local Arguments SetSampling {D N G Obj}.
Local Arguments SetGK {D N G Obj}.
Local Arguments SetSizes {D N G Obj}.
Notation world := (world D N G Obj).
Notation state := (state D N G Obj).
Notation op := (op D N G Obj).
Notation init := (init D N G Obj dim delta).
Notation run := (run D N G Obj delta class).
Notation call := (call D N G Obj is_joint dimension dim delta class lo hi).
Notation after := (after D N G Obj is_joint dimension dim delta class lo hi).
Notation drawIndices := (drawIndices D N G Obj).
Notation drawContourIndices := (drawContourIndices D N G Obj dim delta).

(** The settings in force after the calls [past], newest first. *)
Definition fits (d : D) : Prop := is_joint d = true /\ dimension d = dim.
Fixpoint dist_of (d0 : D) (past : list op) : D :=
  match past with
  | [] => d0
  | SetDist d :: past' => if is_joint d && Nat.eqb (dimension d) dim then d else dist_of d0 past'
  | _ :: past' => dist_of d0 past'
  end.
Fixpoint sampling_of (n0 : N) (past : list op) : N :=
  match past with [] => n0 | SetSampling n :: _ => n | _ :: past' => sampling_of n0 past' end.
Fixpoint gk_of (g0 : G) (past : list op) : G :=
  match past with [] => g0 | SetGK (Accepted g) :: _ => g | _ :: past' => gk_of g0 past' end.

(** Refused arguments change nothing. *)
Theorem C79_setters s :
  (forall d, fits d -> snd (call (SetDist d) s) = Ok tt /\ dist (fst (call (SetDist d) s)) = d) /\
  (forall d, is_joint d = false -> call (SetDist d) s = (s, Raise ValueError)) /\
  (forall d, is_joint d = true -> dimension d <> dim -> call (SetDist d) s = (s, Raise AttributeError)) /\
  (forall g, snd (call (SetGK (Accepted g)) s) = Ok tt /\ gk (fst (call (SetGK (Accepted g)) s)) = g) /\
  call (SetGK Unaccepted) s = (s, Raise AttributeError) /\
  (forall e, call (SetGK (Fails e)) s = (s, Raise e)).
Proof.
  cbn [PliObjModel.call]. unfold setDistribution, setGaussKronrod, fits. repeat split.
  - destruct H as [-> ->]. now rewrite Nat.eqb_refl.
  - destruct H as [-> ->]. now rewrite Nat.eqb_refl.
  - now intros d ->.
  - intros d -> H. apply Nat.eqb_neq in H. now rewrite H.
Qed.

(** The shape of the matrix of results never changes on the first two axes. *)
Definition shaped (st : pstate Obj) : Prop := n_delta (indices st) = length delta /\ n_marginal (indices st) = dim.
Lemma step_shaped mc define solve i x ks st : shaped st -> shaped (fst (step mc define solve i x ks st)).
Proof.
  intros H. unfold step. destruct (kept _).
  - destruct (define _ _); [|exact H]. destruct (negb _); [exact H|]. destruct (solve _); [|exact H]. destruct (Nat.ltb _ _); exact H.
  - destruct (remove_first _ _); [|exact H]. destruct (Nat.ltb _ _); exact H.
Qed.
Lemma loop_shaped mc define solve : forall xs i (st : pstate Obj), shaped st -> shaped (fst (loop mc define solve i xs st)).
Proof.
  induction xs as [|x xs IH]; intros i st H; [exact H|]. cbn [loop]. destruct (keeped st) as [ks|]; [|exact H].
  pose proof (step_shaped mc define solve i x ks st H) as G'. destruct (step mc define solve i x ks st) as [st' [u|e]]; [now apply IH|exact G'].
Qed.
Lemma run_shaped mc define solve (st : pstate Obj) : shaped st -> shaped (fst (PliPodModel.run mc define solve st)).
Proof.
  intros H. unfold PliPodModel.run. match goal with |- context [loop _ _ _ _ _ ?s0] => pose proof (loop_shaped mc define solve (sizes st) 0%nat s0 H) as G'; destruct (loop mc define solve 0 (sizes st) s0) as [st' [u|e]] end; [|exact G'].
  destruct (keeped st'); [|exact G']. destruct (Nat.eqb _ _); [exact G'|]. destruct (forallb _ _); exact G'.
Qed.
Theorem C79_settings zs d0 n0 g0 past :
  let s := after (init zs d0 n0 g0) past in
  dist s = dist_of d0 past /\ sampling s = sampling_of n0 past /\ gk s = gk_of g0 past /\ (fits d0 -> fits (dist s)) /\ shaped (core s).
Proof.
  cbn zeta. assert (H : let s := after (init zs d0 n0 g0) past in
     dist s = dist_of d0 past /\ sampling s = sampling_of n0 past /\ gk s = gk_of g0 past /\ shaped (core s)).
  { cbn zeta. induction past as [|o past (IH1 & IH2 & IH3 & IH4)]; [repeat split|].
    cbn [PliObjModel.after]. set (s := after (init zs d0 n0 g0) past) in *. destruct o as [w|d|n|g|l]; cbn [dist_of sampling_of gk_of PliObjModel.call].
    - unfold PliObjModel.run. match goal with |- context [PliPodModel.run ?a ?b ?c ?x] => pose proof (run_shaped a b c x IH4) as G'; destruct (PliPodModel.run a b c x) as [c' r] end.
      cbn. auto.
    - unfold setDistribution. destruct (is_joint d); cbn; [|auto]. destruct (Nat.eqb _ _); cbn; auto.
    - cbn. auto.
    - destruct g; cbn; auto.
    - unfold setSizes. destruct (setDefectSizes lo hi l (core s)) as [c' r] eqn:E. cbn. repeat split; auto.
      + unfold setDefectSizes in E. destruct l; [injection E as <- <-; apply IH4|]. destruct (_ || _); injection E as <- <-; apply IH4.
      + unfold setDefectSizes in E. destruct l; [injection E as <- <-; apply IH4|]. destruct (_ || _); injection E as <- <-; apply IH4. }
  destruct H as (H1 & H2 & H3 & H4). rewrite H1, H2, H3. repeat split; try (apply H4).
  - clear -H. induction past as [|[w|d|n|g|l] past IH]; cbn [dist_of]; try exact IH; [apply H|].
    destruct (is_joint d && _)%bool eqn:E; [apply andb_prop in E; tauto|exact IH].
  - clear -H. induction past as [|[w|d|n|g|l] past IH]; cbn [dist_of]; try exact IH; [apply H|].
    destruct (is_joint d && _)%bool eqn:E; [apply andb_prop in E; destruct E as [_ E]; now apply Nat.eqb_eq in E|exact IH].
Qed.

(** A run uses the settings in force when it is called: the probability of every size is the one of the distribution and sampling size of
    now, and every kept size gets the object of the distribution of now, solved with the integration algorithm of now. *)
Theorem C79_run_uses_the_settings zs d0 n0 g0 past w :
  let s := after (init zs d0 n0 g0) past in
  let mc := w_mc w (dist_of d0 past) (sampling_of n0 past) in
  let define := w_define w (dist_of d0 past) delta class in let solve := w_solve w (gk_of g0 past) in
  let l := sizes (core s) in let c := clock (core s) in
  consistent (core s) -> (forall k, (k < length l)%nat -> works mc define solve c k (nth k l 0)) ->
  exists s', call (Run w) s = (s', Ok tt) /\ sizes (core s') = l /\
    keeped (core s') = Some (filter (keepable mc c l) (seq 0 (length l))) /\ forall k, (k < length l)%nat -> treated mc define solve c l (core s') k.
Proof.
  cbn zeta. set (s := after (init zs d0 n0 g0) past). intros Hc Hw.
  destruct (C79_settings zs d0 n0 g0 past) as (E1 & E2 & E3 & _). fold s in E1, E2, E3. rewrite <- E1, <- E2, <- E3 in *.
  destruct (C56_run _ _ _ _ Hc Hw) as (st' & E & A1 & _ & A2 & A3). cbn [PliObjModel.call]. unfold PliObjModel.run. rewrite E.
  eexists. split; [reflexivity|]. cbn. auto.
Qed.

(** drawIndices(i) draws the indices of the i-th size and names that size, or raises when it was not kept. *)
Theorem C79_drawIndices zs d0 n0 g0 past w s' z :
  let s := after (init zs d0 n0 g0) past in
  let mc := w_mc w (dist_of d0 past) (sampling_of n0 past) in
  let define := w_define w (dist_of d0 past) delta class in let solve := w_solve w (gk_of g0 past) in
  let l := sizes (core s) in let c := clock (core s) in
  consistent (core s) -> (forall k, (k < length l)%nat -> works mc define solve c k (nth k l 0)) -> call (Run w) s = (s', Ok tt) ->
  (forall i, z = Z.of_nat i -> (i < length l)%nat -> kept (mc (c + i)%nat (nth i l 0)) = true ->
     exists o, define (c + i)%nat (nth i l 0) = Ok o /\ drawIndices s' z = Ok (o, nth i l 0)) /\
  ((forall i, z = Z.of_nat i -> (i < length l)%nat -> kept (mc (c + i)%nat (nth i l 0)) = false) -> drawIndices s' z = Raise GenericException).
Proof.
  cbn zeta. set (s := after (init zs d0 n0 g0) past). intros Hc Hw Hr.
  destruct (C79_run_uses_the_settings zs d0 n0 g0 past w Hc Hw) as (s1 & Hr1 & Hs & _).
  fold s in Hr1, Hs. rewrite Hr in Hr1. injection Hr1 as <-.
  destruct (C79_settings zs d0 n0 g0 past) as (E1 & E2 & E3 & _). fold s in E1, E2, E3. rewrite <- E1, <- E2, <- E3 in *.
  cbn [PliObjModel.call] in Hr. unfold PliObjModel.run in Hr. destruct (PliPodModel.run _ _ _ (core s)) as [c' r] eqn:E. injection Hr as <- ->.
  destruct (C56_getPLIObject _ _ _ _ _ z Hc Hw E) as [A B]. cbn [core] in Hs. unfold PliObjModel.drawIndices. cbn [core]. split.
  - intros i -> Hi K. destruct (A i eq_refl Hi K) as (o & Ho & ->). cbn [bind]. exists o. split; [exact Ho|].
    rewrite Nat2Z.id, Hs. now rewrite (nth_error_nth' _ 0 Hi).
  - intros H. now rewrite (B H).
Qed.

(** drawContourIndices after a run: at least two kept sizes and two deltas are needed, the parameter is given by its position or by a
    negative position, the figure at row i and column j is the index for delta i and the j-th kept size. *)
Definition shown (s : state) (z : Z) : res contour := drawContourIndices s z.
Theorem C79_contour s ks z :
  shaped (core s) -> keeped (core s) = Some ks -> (forall k, In k ks -> (k < length (sizes (core s)))%nat /\ (k < n_defect (indices (core s)))%nat) ->
  ks <> [] ->
  ((Z.of_nat dim <= z)%Z -> shown s z = Raise AttributeError) /\
  ((z < - Z.of_nat dim)%Z -> shown s z = Raise IndexError) /\
  (forall m, denotes dim z m -> (z < Z.of_nat dim)%Z -> (length ks < 2 \/ length delta < 2)%nat -> shown s z = Raise TypeError) /\
  (forall m, denotes dim z m -> (z < Z.of_nat dim)%Z -> (2 <= length ks)%nat -> (2 <= length delta)%nat ->
     exists c, shown s z = Ok c /\
       length (cx c) = length ks /\ length (cy c) = length delta /\ length (cz c) = length delta /\
       (forall i j, (i < length delta)%nat -> (j < length ks)%nat -> nth j (nth i (cz c) []) None = at3 (indices (core s)) i m (nth j ks 0%nat)) /\
       (cx c = map (fun k => nth k (sizes (core s)) 0) ks <-> evenly (map (fun k => nth k (sizes (core s)) 0) ks)) /\
       cy c = even (Rlmin (concat delta)) (Rlmax (concat delta)) (length delta) /\
       (forall col, concat delta = col -> length col = length delta -> (cy c = col <-> evenly col))).
Proof.
  intros [S1 S2] Hk Hin Hne. unfold shown, PliObjModel.drawContourIndices. rewrite Hk, S1, S2.
  rewrite (take_at_ok _ 0) by (intros; now apply Hin).
  destruct (map (fun k => nth k (sizes (core s)) 0) ks) as [|x0 xs] eqn:Em; [destruct ks; [contradiction|discriminate]|]. cbn [bind]. assert (Lm : length (x0 :: xs) = length ks) by (rewrite <- Em; apply map_length).
  assert (F : forallb (fun k => Nat.ltb k (n_defect (indices (core s)))) ks = true) by (apply forallb_forall; intros k Hk'; apply Nat.ltb_lt, Hin, Hk').
  assert (P : forall m, denotes dim z m -> py_index dim z = Some m) by (intros m; apply py_index_spec).
  repeat split.
  - intros H. destruct (Z.ltb_spec (Z.of_nat dim - 1) z); [reflexivity|lia].
  - intros H. destruct (Z.ltb_spec (Z.of_nat dim - 1) z); [lia|]. unfold py_index.
    destruct (Z.leb_spec 0 z); [lia|]. destruct (Z.leb_spec (- Z.of_nat dim) z); [lia|]. reflexivity.
  - intros m Hm Hz H. destruct (Z.ltb_spec (Z.of_nat dim - 1) z); [lia|]. rewrite (P m Hm). cbn [or_index bind]. rewrite F. cbn [negb].
    destruct (Nat.ltb_spec (length ks) 2); [reflexivity|]. destruct (Nat.ltb_spec (length delta) 2); [reflexivity|lia].
  - intros m Hm Hz H1 H2. destruct (Z.ltb_spec (Z.of_nat dim - 1) z); [lia|]. rewrite (P m Hm). cbn [or_index bind]. rewrite F. cbn [negb].
    destruct (Nat.ltb_spec (length ks) 2); [lia|]. destruct (Nat.ltb_spec (length delta) 2); [lia|]. cbn [orb].
    eexists. split; [reflexivity|]. cbn [cx cy cz fst snd].
    split; [apply even_length|]. split; [apply even_length|]. split; [now rewrite map_length, seq_length|]. split; [|split; [|split; [reflexivity|]]].
    + intros i j Hi Hj.
      rewrite (nth_mapped _ _ _ 0%nat) by (now rewrite seq_length). rewrite seq_nth by assumption. now rewrite (nth_mapped _ _ _ 0%nat).
    + rewrite <- (even_iff_evenly (x0 :: xs)) by lia. now rewrite Lm.
    + intros col <- Hcol. rewrite <- (even_iff_evenly (concat delta)) by lia. now rewrite Hcol.
Qed.

(** Deltas in decreasing progression are drawn upside down: the row of the first delta is at the height of the last one. *)
Theorem C79_contour_decreasing s ks z m c :
  shaped (core s) -> keeped (core s) = Some ks -> (forall k, In k ks -> (k < length (sizes (core s)))%nat /\ (k < n_defect (indices (core s)))%nat) ->
  denotes dim z m -> (z < Z.of_nat dim)%Z -> (2 <= length ks)%nat -> (2 <= length delta)%nat -> length (concat delta) = length delta ->
  evenly (rev (concat delta)) -> shown s z = Ok c ->
  cy c = rev (concat delta) /\
  forall i j, (i < length delta)%nat -> (j < length ks)%nat ->
    nth i (cy c) 0 = nth (length delta - 1 - i) (concat delta) 0 /\ nth j (nth i (cz c) []) None = at3 (indices (core s)) i m (nth j ks 0%nat).
Proof.
  intros S Hk Hin Hm Hz H1 H2 Hcol Hev Hc. assert (Hne : ks <> []) by (destruct ks; [cbn in H1; lia|discriminate]).
  destruct (C79_contour s ks z S Hk Hin Hne) as (_ & _ & _ & H). destruct (H m Hm Hz H1 H2) as (c' & E & _ & _ & _ & Hcz & _ & Hcy & _).
  rewrite Hc in E. injection E as <-. assert (X : cy c = rev (concat delta)).
  { rewrite Hcy. rewrite <- Hcol, <- (rev_length (concat delta)). rewrite (Rlmin_perm _ _ (Permutation_rev (concat delta))), (Rlmax_perm _ _ (Permutation_rev (concat delta))).
    apply even_iff_evenly; [rewrite rev_length; lia|exact Hev]. }
  split; [exact X|]. intros i j Hi Hj. split; [|now apply Hcz]. rewrite X, rev_nth by lia. f_equal. lia.
Qed.

(** After new sizes have been accepted and before the next run, the contour of the old positions is drawn with zeros everywhere. *)
Theorem C79_contour_stale s ks z m l s' :
  shaped (core s) -> keeped (core s) = Some ks -> (2 <= length ks)%nat -> (2 <= length delta)%nat -> (forall k, In k ks -> (k < length l)%nat) -> l <> [] ->
  denotes dim z m -> (z < Z.of_nat dim)%Z -> call (SetSizes l) s = (s', Ok tt) ->
  exists c, shown s' z = Ok c /\ forall i j, (i < length delta)%nat -> (j < length ks)%nat -> nth j (nth i (cz c) []) None = Some 0.
Proof.
  intros S Hk H1 H2 Hin Hl Hm Hz Hc. cbn [PliObjModel.call] in Hc. unfold setSizes in Hc. pose proof (C56_setDefectSizes (Obj := Obj) lo hi l (core s) Hl) as P.
  assert (S' : shaped (fst (setDefectSizes lo hi l (core s)))).
  { unfold setDefectSizes. destruct l; [contradiction|]. destruct (_ || _); exact S. }
  destruct (setDefectSizes lo hi l (core s)) as [c' r] eqn:E. injection Hc as <- ->. cbn [fst] in S'.
  destruct P as (_ & _ & Pp & (_ & C2 & _) & P0 & Pk). assert (Hne : ks <> []) by (destruct ks; [cbn in H1; lia|discriminate]).
  pose proof (Permutation_length Pp) as Pl.
  destruct (C79_contour {| PliObjModel.core := c'; PliObjModel.dist := dist s; PliObjModel.sampling := sampling s; PliObjModel.gk := gk s |} ks z S') as (_ & _ & _ & H).
  - cbn. congruence.
  - cbn. intros k I. specialize (Hin k I). split; lia.
  - exact Hne.
  - destruct (H m Hm Hz H1 H2) as (c & Ec & _ & _ & _ & Hcz & _). exists c. split; [exact Ec|]. intros i j Hi Hj. rewrite Hcz by assumption. apply P0.
Qed.
(** After new sizes have been accepted and before the next run, drawIndices raises at every position that was kept; so it does before the first run. *)
Theorem C79_drawIndices_stale s ks l s' :
  keeped (core s) = Some ks -> call (SetSizes l) s = (s', Ok tt) ->
  forall i, In i ks -> drawIndices s' (Z.of_nat i) = Raise (if Nat.ltb i (length l) then AttributeError else IndexError).
Proof.
  intros Hk Hc i Hi. cbn [PliObjModel.call] in Hc. unfold setSizes in Hc.
  destruct (setDefectSizes lo hi l (core s)) as [c' r] eqn:E. injection Hc as <- ->.
  destruct (C56_stale_after_setDefectSizes (core s) ks lo hi l c' Hk E) as [_ H].
  unfold PliObjModel.drawIndices. cbn [PliObjModel.core]. rewrite (H i Hi). destruct (Nat.ltb i (length l)); reflexivity.
Qed.
Theorem C79_drawIndices_before_run s z : keeped (core s) = None -> drawIndices s z = Raise AttributeError.
Proof. intros H. unfold PliObjModel.drawIndices, getPLIObject. now rewrite H. Qed.
End Spec.
Print Assumptions C79_drawIndices_stale.
Print Assumptions C79_drawIndices_before_run.
Print Assumptions C79_setters.
Print Assumptions C79_settings.
Print Assumptions C79_run_uses_the_settings.
Print Assumptions C79_drawIndices.
Print Assumptions C79_contour.

(** Left out, the flag scales: what is passed on is mean + sigma * delta for PLIMean, in every dimension and for every delta; and PLIVariance
    does not check the sign of the deltas. *)
Theorem C79_default_scaling dim means stds l :
  l <> [] -> length means = dim -> length stds = dim -> (0 < dim)%nat ->
  (exists rows, class_deltas (PLIMean None) dim means stds (D1 l) = Ok rows /\ length rows = length l /\
     forall i j, (i < length l)%nat -> (j < dim)%nat -> nth j (nth i rows []) 0 = nth j means 0 + nth j stds 0 * nth i l 0) /\
  (forall o, class_deltas (PLIMean o) dim means stds (D1 l) = class_deltas (PLIMean None) dim means stds (D1 l) \/ o = Some false) /\
  (exists rows, class_deltas (PLIVariance None) dim means stds (D1 l) = Ok rows) /\
  ((exists x, In x l /\ x <= 0) -> class_deltas (PLIVariance (Some false)) dim means stds (D1 l) = Raise AttributeError).
Proof.
  intros Hl Hm Hs Hd. destruct l as [|x0 l0]; [contradiction|]. set (l := x0 :: l0) in *.
  assert (E : pli_deltas dim (D1 l) = Ok (map (fun x => repeat x dim) l)) by (unfold pli_deltas, l; cbn [vstack bind]; cbn [Nat.eqb negb andb]; now rewrite map_map).
  unfold class_deltas, mean_deltas, variance_deltas. rewrite E. cbn [bind scaled]. repeat split.
  - eexists. split; [reflexivity|]. split; [now rewrite !map_length|]. intros i j Hi Hj.
    rewrite (nth_mapped _ _ _ []) by (now rewrite map_length). rewrite (nth_mapped _ _ _ 0) by assumption. unfold map3.
    rewrite (nth_mapped _ _ _ (0, (0, 0))) by (rewrite !combine_length, repeat_length; lia).
    rewrite combine_nth by (rewrite repeat_length, combine_length; lia). cbn [fst snd]. rewrite combine_nth by lia. cbn [fst snd].
    rewrite nth_indep with (d' := nth i l 0) by (now rewrite repeat_length). rewrite nth_repeat. ring.
  - intros [[|]|]; auto.
  - rewrite andb_false_r. eexists. reflexivity.
  - intros (x & Hx & Hx0). cbn [negb]. rewrite andb_true_r.
    assert (F : forallb (forallb (Rltb 0)) (map (fun x => repeat x dim) l) = false).
    { apply not_true_is_false. intros F. rewrite forallb_forall in F. specialize (F (repeat x dim) (in_map _ _ _ Hx)). rewrite forallb_forall in F.
      assert (I : In x (repeat x dim)) by (destruct dim; [lia|now left]). specialize (F x I). apply Rltb_true in F. lra. }
    now rewrite F.
Qed.
(** The documentation (430, 462) says the default is False. *)
Theorem C79_default_scaling_refuted :
  (exists dim means stds d, class_deltas (PLIMean None) dim means stds d <> class_deltas (PLIMean (Some false)) dim means stds d) /\
  (exists dim means stds d rows, class_deltas (PLIVariance None) dim means stds d = Ok rows /\
     class_deltas (PLIVariance (Some false)) dim means stds d = Raise AttributeError).
Proof.
  split.
  - exists 1%nat, [1], [1], (D1 [1]). cbn. intros [= E]. lra.
  - destruct (C79_default_scaling 1 [1] [1] [-1]) as (_ & _ & (rows & E) & H); [discriminate|reflexivity|reflexivity|lia|].
    exists 1%nat, [1], [1], (D1 [-1]), rows. split; [exact E|apply H]. exists (-1). split; [now left|lra].
Qed.


(** *** A case: two parameters, two deltas, three sizes of which the middle one is not kept *)
Section Demo.
Definition demo_init : state nat nat nat nat := init nat nat nat nat 2 [[1]; [2]] [1; 2; 3] 2%nat 100%nat 15%nat.
Definition demo_world : world nat nat nat nat :=
  {| w_mc := fun d n k x => if Nat.eqb k 1 then 0 else 1 / 2; w_define := fun d rows c k x => Ok (d + k)%nat;
     w_solve := fun g o => Ok (fun i j => Some (INR (g + o) + INR i)) |}.
Notation demo_call := (call nat nat nat nat (fun _ => true) (fun d => d) 2 [[1]; [2]] (PLIMean None) 0 10).
Notation demo_after := (after nat nat nat nat (fun _ => true) (fun d => d) 2 [[1]; [2]] (PLIMean None) 0 10).
Definition demo_past : list (op nat nat nat nat) :=
  [SetDist nat nat nat nat 3%nat; SetGK nat nat nat nat (Accepted 7%nat); SetSampling nat nat nat nat 50%nat; SetGK nat nat nat nat Unaccepted].
Example C79_settings_example : let s := demo_after demo_init demo_past in dist _ _ _ _ s = 2%nat /\ sampling _ _ _ _ s = 50%nat /\ gk _ _ _ _ s = 7%nat.
Proof. cbn. auto. Qed.
Lemma kept_half : kept (1 / 2) = true. Proof. unfold kept. rewrite (proj2 (Rltb_true _ _)), (proj2 (Rltb_true _ _)); try lra; reflexivity. Qed.
Lemma kept_zero : kept 0 = false. Proof. unfold kept. rewrite (proj2 (Rltb_false _ _)); [reflexivity|lra]. Qed.
Example C79_run_example : exists s', demo_call (Run nat nat nat nat demo_world) (demo_after demo_init demo_past) = (s', Ok tt) /\
  keeped (core _ _ _ _ s') = Some [0%nat; 2%nat] /\ drawIndices nat nat nat nat s' 2 = Ok (4%nat, 3) /\ drawIndices nat nat nat nat s' 1 = Raise GenericException.
Proof.
  destruct (C79_run_uses_the_settings nat nat nat nat (fun _ => true) (fun d => d) 2 [[1]; [2]] (PLIMean None) 0 10 [1; 2; 3] 2%nat 100%nat 15%nat demo_past demo_world)
    as (s' & E & _ & K & _).
  - cbn. repeat split.
  - intros k Hk _. eexists _, _. split; reflexivity.
  - exists s'. split; [exact E|]. split.
    + rewrite K. cbn [sizes core demo_past PliObjModel.after PliObjModel.call]. cbn. unfold keepable. cbn. now rewrite !kept_half, kept_zero.
    + destruct (C79_drawIndices nat nat nat nat (fun _ => true) (fun d => d) 2 [[1]; [2]] (PLIMean None) 0 10 [1; 2; 3] 2%nat 100%nat 15%nat demo_past demo_world s' 2)
        as [A _]; [cbn; repeat split| |exact E|].
      { intros k Hk _. eexists _, _. split; reflexivity. }
      destruct (A 2%nat eq_refl) as (o & Ho & ->); [cbn; lia|cbn; apply kept_half|]. cbn in Ho. injection Ho as <-. split; [reflexivity|].
      destruct (C79_drawIndices nat nat nat nat (fun _ => true) (fun d => d) 2 [[1]; [2]] (PLIMean None) 0 10 [1; 2; 3] 2%nat 100%nat 15%nat demo_past demo_world s' 1)
        as [_ B]; [cbn; repeat split| |exact E|].
      { intros k Hk _. eexists _, _. split; reflexivity. }
      apply B. intros i Hi _. replace i with 1%nat by lia. cbn. apply kept_zero.
Qed.
Example evenly_example : evenly [1; 2; 3] /\ evenly (rev [3; 2; 1]) /\ ~ evenly [3; 2; 1] /\ ~ evenly [1; 2; 4].
Proof.
  assert (A : evenly [1; 2; 3]).
  { exists 1, 1. split; [lra|]. intros [|[|[|j]]] Hj; cbn in *; try lra. lia. }
  split; [exact A|]. split; [exact A|]. split.
  - intros (a & h & Hh & H). pose proof (H 0%nat ltac:(cbn; lia)). pose proof (H 1%nat ltac:(cbn; lia)). cbn in *. lra.
  - intros (a & h & Hh & H). pose proof (H 0%nat ltac:(cbn; lia)). pose proof (H 1%nat ltac:(cbn; lia)). pose proof (H 2%nat ltac:(cbn; lia)). cbn in *. lra.
Qed.
Definition demo_done : state nat nat nat nat :=
  {| core := {| sizes := [1; 2; 3]; number := 3; indices := {| n_delta := 3; n_marginal := 2; n_defect := 3; at3 := fun i j k => Some (INR (100 * i + 10 * j + k)) |};
                pli := []; keeped := Some [0%nat; 2%nat]; clock := 3 |}; dist := 2%nat; sampling := 50%nat; gk := 7%nat |}.
(** The second parameter, asked for as -1: drawn, deltas upside down, the last kept size in the second column. *)
Example C79_contour_example : exists c, drawContourIndices nat nat nat nat 2 [[3]; [2]; [1]] demo_done (-1) = Ok c /\ cy c = [1; 2; 3] /\
  nth 1 (nth 0 (cz c) []) None = Some (INR 12).
Proof.
  assert (S : shaped nat 2 [[3]; [2]; [1]] (core _ _ _ _ demo_done)) by (split; reflexivity).
  assert (I : forall k, In k [0%nat; 2%nat] -> (k < length (sizes (core _ _ _ _ demo_done)))%nat /\ (k < n_defect (indices (core _ _ _ _ demo_done)))%nat)
    by (cbn; intros k [<-|[<-|[]]]; lia).
  assert (Dn : denotes 2 (-1) 1) by (split; lia).
  destruct (C79_contour nat nat nat nat 2 [[3]; [2]; [1]] demo_done [0%nat; 2%nat] (-1) S eq_refl I ltac:(discriminate)) as (_ & _ & _ & H).
  destruct (H 1%nat Dn ltac:(lia) ltac:(cbn; lia) ltac:(cbn; lia)) as (c & E & _).
  destruct (C79_contour_decreasing nat nat nat nat 2 [[3]; [2]; [1]] demo_done [0%nat; 2%nat] (-1) 1 c S eq_refl I Dn ltac:(lia) ltac:(cbn; lia) ltac:(cbn; lia) eq_refl) as [A B];
    [apply evenly_example|exact E|].
  exists c. split; [exact E|]. split; [exact A|]. destruct (B 0%nat 1%nat ltac:(cbn; lia) ltac:(cbn; lia)) as [_ ->]. reflexivity.
Qed.
Example C79_contour_stale_example : exists s' c, call nat nat nat nat (fun _ => true) (fun d => d) 2 [[3]; [2]; [1]] (PLIMean None) 0 10 (SetSizes nat nat nat nat [4; 5; 6]) demo_done = (s', Ok tt) /\
  drawContourIndices nat nat nat nat 2 [[3]; [2]; [1]] s' 0 = Ok c /\ nth 1 (nth 0 (cz c) []) None = Some 0 /\
  drawIndices nat nat nat nat s' 2 = Raise AttributeError.
Proof.
  assert (X : exists s', call nat nat nat nat (fun _ => true) (fun d => d) 2 [[3]; [2]; [1]] (PLIMean None) 0 10 (SetSizes nat nat nat nat [4; 5; 6]) demo_done = (s', Ok tt)).
  { cbn [call]. unfold setSizes. pose proof (C56_setDefectSizes (Obj := nat) 0 10 [4; 5; 6] (core _ _ _ _ demo_done) ltac:(discriminate)) as P.
    destruct (setDefectSizes 0 10 [4; 5; 6] _) as [c' [[]|e]]; [eexists; reflexivity|].
    destruct P as (_ & (x & Hx & Hn) & _). exfalso. apply Hn. cbn in Hx. destruct Hx as [<-|[<-|[<-|[]]]]; lra. }
  destruct X as (s' & E). exists s'.
  destruct (C79_contour_stale nat nat nat nat (fun _ => true) (fun d => d) 2 [[3]; [2]; [1]] (PLIMean None) 0 10 demo_done [0%nat; 2%nat] 0 0 [4; 5; 6] s') as (c & Ec & Hc);
    [split; reflexivity|reflexivity|cbn; lia|cbn; lia|cbn; intros k [<-|[<-|[]]]; lia|discriminate|split; lia|lia|exact E|].
  exists c. split; [exact E|]. split; [exact Ec|]. split; [apply Hc; cbn; lia|].
  apply (C79_drawIndices_stale nat nat nat nat (fun _ => true) (fun d => d) 2 [[3]; [2]; [1]] (PLIMean None) 0 10 demo_done [0%nat; 2%nat] [4; 5; 6] s' eq_refl E 2%nat). cbn. auto.
Qed.
End Demo.
Print Assumptions C79_default_scaling.
Print Assumptions C79_default_scaling_refuted.
Print Assumptions C79_contour_decreasing.
Print Assumptions C79_contour_stale.
