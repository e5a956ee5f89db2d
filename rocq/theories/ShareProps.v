(** C99: who holds the defect sizes and the indices of the sensitivity objects. *)
From Verif Require Import Base Float64 SettersModel ShareModel.
Local Open Scope list_scope.

Section Props.
Variables V W : Type.
Variable zero : V.
Variables lo hi : float.
Local Arguments arrays {V W}.
Local Arguments tables {V W}.
Local Arguments the_pod {V W}.
Local Arguments the_sens {V W}.
Local Arguments held {V W}.
Local Arguments p_sizes {W}.
Local Arguments p_number {W}.
Local Arguments p_curve {W}.
Local Arguments Own {V W}.
Local Arguments GetPod {V W}.
Local Arguments SetPod {V W}.
Local Arguments RunPod {V W}.
Local Arguments New {V W}.
Local Arguments GetSens {V W}.
Local Arguments SetSens {V W}.
Local Arguments RunSobol {V W}.
Local Arguments RunPli {V W}.
Local Arguments GetIndices {V W}.
Local Arguments ChangeSizes {V W}.
Local Arguments ChangeIndices {V W}.
Local Arguments content {V W}.
Local Arguments give {V W}.
Notation state := (state V W).
Notation op := (op V W).
Notation step := (step V W zero lo hi).
Notation play := (play V W zero lo hi).
Notation pod_set := (pod_set V W lo hi).
Notation sens_set := (sens_set V W zero lo hi).
Notation sobol_run := (sobol_run V W zero lo hi).
Notation assign := (assign lo hi).

(** What the client sees: the sizes of the POD, those of the k-th sensitivity object, its indices, the content of what it holds. *)
Definition pod_sizes (s : state) : list float := at_ (arrays s) (p_sizes (the_pod s)).
Definition sens_sizes (k : nat) (s : state) : option (list float) := option_map (fun o => at_ (arrays s) (s_sizes o)) (nth_error (the_sens s) k).
Definition indices (k : nat) (s : state) : option (list V) :=
  match nth_error (the_sens s) k with Some o => match s_kind o with Pli => Some (at_ (tables s) (s_indices o)) | Sobol => None end | None => None end.
Definition look (h : nat) (s : state) : option (list float) := match nth_error (held s) h with Some (RSizes a) => Some (at_ (arrays s) a) | _ => None end.
Definition look_indices (h : nat) (s : state) : option (list V) := match nth_error (held s) h with Some (RIndices a) => Some (at_ (tables s) a) | _ => None end.

(** *** Memory *)
Lemma length_put {A} (m : list (list A)) a l : List.length (put m a l) = List.length m.
Proof. revert a. induction m as [|x m IH]; intros [|a]; cbn; auto. Qed.
Lemma at_put_other {A} (m : list (list A)) a b l : a <> b -> at_ (put m a l) b = at_ m b.
Proof. unfold at_. revert a b. induction m as [|x m IH]; intros [|a] [|b] H; cbn; auto; congruence. Qed.
Lemma length_at_put {A} (m : list (list A)) a b l : List.length (at_ (put m a l) b) = List.length (at_ m b).
Proof.
  unfold at_. revert a b. induction m as [|x m IH]; intros [|a] [|b]; cbn; auto.
  destruct (Nat.eqb_spec (List.length l) (List.length x)); auto.
Qed.
Lemma at_app {A} (m n : list (list A)) a : a < List.length m -> at_ (m ++ n) a = at_ m a.
Proof. intros H. unfold at_. now apply app_nth1. Qed.
Lemma at_new {A} (m : list (list A)) x : at_ (m ++ [x]) (List.length m) = x.
Proof. unfold at_. now rewrite app_nth2, Nat.sub_diag by lia. Qed.
Lemma nth_update {A} k j (x : A) l : nth_error (update k x l) j = if Nat.eqb j k then (match nth_error l k with Some _ => Some x | None => None end) else nth_error l j.
Proof.
  revert k j. induction l as [|y l IH]; intros [|k] [|j]; cbn; auto; try (now destruct j); try (now destruct (Nat.eqb j k)).
Qed.
Lemma length_update {A} k (x : A) l : List.length (update k x l) = List.length l.
Proof. revert k. induction l as [|y l IH]; intros [|k]; cbn; auto. Qed.

(** *** setDefectSizes *)
Lemma assign_nil m a n : assign m a n [] = (m, a, n, Raise ValueError).
Proof. reflexivity. Qed.
Lemma fsort_nonempty x l : fsort (x :: l) <> [].
Proof. intros E. pose proof (fsort_perm (x :: l)) as P. rewrite E in P. now apply Permutation_nil_cons in P. Qed.
Lemma assign_cons m a n x l : exists n' r, assign m a n (x :: l) = (m ++ [fsort (x :: l)], List.length m, n', r).
Proof.
  unfold ShareModel.assign, setDefectSizes. pose proof (fsort_nonempty x l) as N.
  destruct (fsort (x :: l)) as [|y ys]; [congruence|].
  destruct (fgtb (np_max y ys) hi || fltb (np_min y ys) lo); cbn [st_sizes]; eauto.
Qed.

(** Everything is at an address of the memory. *)
Definition wf (s : state) : Prop :=
  p_sizes (the_pod s) < List.length (arrays s) /\ (forall k o, nth_error (the_sens s) k = Some o -> s_sizes o < List.length (arrays s) /\ (s_kind o = Pli -> s_indices o < List.length (tables s)))
  /\ (forall h a, nth_error (held s) h = Some (RSizes a) -> a < List.length (arrays s)) /\ (forall h a, nth_error (held s) h = Some (RIndices a) -> a < List.length (tables s)).

(** The effect of sens_set, in one place. *)
Lemma sens_set_cases k arg s :
  fst (sens_set k arg s) = s \/ (exists o, nth_error (the_sens s) k = Some o /\ arg = [] /\ fst (sens_set k arg s) =
     {| arrays := arrays s; tables := tables s; the_pod := the_pod s; the_sens := update k o (the_sens s); held := held s |}) \/
  exists o n' t i, nth_error (the_sens s) k = Some o /\ arg <> [] /\
    fst (sens_set k arg s) = {| arrays := arrays s ++ [fsort arg]; tables := tables s ++ t; the_pod := the_pod s;
      the_sens := update k {| s_kind := s_kind o; s_sizes := List.length (arrays s); s_number := n'; s_indices := i |} (the_sens s); held := held s |} /\
    ((t = [] /\ i = s_indices o /\ (s_kind o = Sobol \/ exists e, snd (sens_set k arg s) = Raise e)) \/ (exists z, t = [z] /\ i = List.length (tables s) /\ s_kind o = Pli /\ snd (sens_set k arg s) = Ok tt)).
Proof.
  unfold ShareModel.sens_set. destruct (nth_error (the_sens s) k) as [o|] eqn:E; [|now left]. destruct arg as [|x l].
  - right; left. exists o. split; [reflexivity|]. split; [reflexivity|]. rewrite assign_nil. destruct o as [[|] a n i]; reflexivity.
  - right; right. destruct (assign_cons (arrays s) (s_sizes o) (s_number o) x l) as (n' & r & ->).
    destruct (s_kind o) eqn:K, r as [[]|e]; cbn [fst snd].
    + exists o, n', [], (s_indices o). rewrite K, app_nil_r. split; [reflexivity|]. split; [discriminate|]. split; [reflexivity|]. left. auto.
    + exists o, n', [], (s_indices o). rewrite K, app_nil_r. split; [reflexivity|]. split; [discriminate|]. split; [reflexivity|]. left. auto.
    + exists o, n', [repeat zero n'], (List.length (tables s)). rewrite K. split; [reflexivity|]. split; [discriminate|]. split; [reflexivity|]. right. eauto.
    + exists o, n', [], (s_indices o). rewrite K, app_nil_r. split; [reflexivity|]. split; [discriminate|]. split; [reflexivity|]. left. eauto 6.
Qed.
Lemma pod_set_cases arg s :
  (arg = [] /\ fst (pod_set arg s) = {| arrays := arrays s; tables := tables s; the_pod := the_pod s; the_sens := the_sens s; held := held s |}) \/
  exists n', arg <> [] /\ fst (pod_set arg s) = {| arrays := arrays s ++ [fsort arg]; tables := tables s;
    the_pod := {| p_sizes := List.length (arrays s); p_number := n'; p_curve := p_curve (the_pod s) |}; the_sens := the_sens s; held := held s |}.
Proof.
  unfold ShareModel.pod_set. destruct arg as [|x l].
  - left. rewrite assign_nil. split; [reflexivity|]. cbn [fst]. now destruct (the_pod s).
  - right. destruct (assign_cons (arrays s) (p_sizes (the_pod s)) (p_number (the_pod s)) x l) as (n' & r & ->). exists n'. split; [discriminate|reflexivity].
Qed.
Lemma update_same {A} k (o : A) l : nth_error l k = Some o -> update k o l = l.
Proof. revert k. induction l as [|y l IH]; intros [|k] H; cbn in *; try congruence. now rewrite IH. Qed.
Lemma sobol_run_is_set k keep s : fst (sobol_run k keep s) = s \/ exists o, nth_error (the_sens s) k = Some o /\ s_kind o = Sobol /\
  List.length keep <> List.length (at_ (arrays s) (s_sizes o)) /\ sobol_run k keep s = sens_set k (map (fun i => nth i (at_ (arrays s) (s_sizes o)) fzero) keep) s.
Proof.
  unfold ShareModel.sobol_run. destruct (nth_error (the_sens s) k) as [o|] eqn:E; [|now left].
  destruct (s_kind o) eqn:K; [|now left]. destruct (Nat.eqb_spec (List.length keep) (List.length (at_ (arrays s) (s_sizes o)))); [now left|].
  right. exists o. auto.
Qed.
Lemma state_eta (s : state) : {| arrays := arrays s; tables := tables s; the_pod := the_pod s; the_sens := the_sens s; held := held s |} = s.
Proof. now destruct s. Qed.
Lemma nth_snoc {A} (l : list A) x k y : nth_error (l ++ [x]) k = Some y -> nth_error l k = Some y \/ (k = List.length l /\ y = x).
Proof.
  intros H. destruct (Nat.lt_ge_cases k (List.length l)) as [L|L]; [left; now rewrite nth_error_app1 in H|].
  rewrite nth_error_app2 in H by assumption. destruct (k - List.length l) as [|d] eqn:E; cbn in H; [right; split; [lia|congruence]|now destruct d].
Qed.

Lemma wf_sens_set k arg s : wf s -> wf (fst (sens_set k arg s)).
Proof.
  intros H. destruct (sens_set_cases k arg s) as [-> | [(o & E & _ & ->) | (o & n' & t & i & E & _ & -> & T)]]; [assumption| |].
  - now rewrite (update_same _ _ _ E), state_eta.
  - destruct H as (A & B & C & D). unfold wf; cbn [arrays tables the_pod the_sens held]. rewrite !app_length; cbn [List.length].
    split; [lia|]. split; [|split; intros h a Hh; [apply C in Hh|apply D in Hh]; lia].
    intros j x Hx. rewrite nth_update, E in Hx. destruct (Nat.eqb_spec j k).
    + injection Hx as <-. cbn [s_sizes s_kind s_indices]. split; [lia|]. intros K. destruct T as [(-> & -> & _)|(z & -> & -> & _ & _)]; cbn; [|lia].
      specialize (proj2 (B k o E) K). lia.
    + destruct (B j x Hx) as [B1 B2]. split; [lia|]. intros K. specialize (B2 K). lia.
Qed.
Lemma wf_step s o : wf s -> wf (step s o).
Proof.
  intros H. destruct o; cbn [ShareModel.step].
  - destruct H as (A & B & C & D). unfold wf, give; cbn [arrays tables the_pod the_sens held]. rewrite app_length; cbn [List.length].
    split; [lia|]. split; [intros k o E; destruct (B k o E); split; [lia|assumption]|]. split; intros h a E; apply nth_snoc in E; destruct E as [E|[_ E]].
    + apply C in E. lia. + injection E as ->. lia. + now apply D in E. + discriminate.
  - destruct H as (A & B & C & D). unfold wf, give; cbn [arrays tables the_pod the_sens held]. split; [assumption|]. split; [assumption|].
    split; intros h a E; apply nth_snoc in E; destruct E as [E|[_ E]]; eauto; [injection E as ->; assumption|discriminate].
  - destruct (pod_set_cases (content h s) s) as [[_ ->]|(n' & _ & ->)]; [now rewrite state_eta|].
    destruct H as (A & B & C & D). unfold wf; cbn [arrays tables the_pod the_sens held p_sizes]. rewrite app_length; cbn [List.length]. split; [lia|].
    split; [intros k o E; destruct (B k o E); split; [lia|assumption]|]. split; [|assumption]. intros h0 a E. apply C in E. lia.
  - exact H.
  - destruct H as (A & B & C & D). unfold wf, make; cbn [arrays tables the_pod the_sens held]. split; [assumption|]. split; [|split; [assumption|]].
    + intros k o E. apply nth_snoc in E. destruct E as [E|[_ ->]].
      * destruct (B k o E) as [B1 B2]. split; [assumption|]. intros K. specialize (B2 K). destruct q; [assumption|]. rewrite app_length; lia.
      * cbn [s_sizes s_kind s_indices]. split; [assumption|]. intros ->. rewrite app_length; cbn; lia.
    + intros h a E. apply D in E. destruct q; [assumption|]. rewrite app_length. lia.
  - destruct (nth_error (the_sens s) k) as [x|] eqn:E; [|assumption]. destruct H as (A & B & C & D). unfold wf, give; cbn [arrays tables the_pod the_sens held].
    split; [assumption|]. split; [assumption|]. split; intros h a F; apply nth_snoc in F; destruct F as [F|[_ F]]; eauto; [injection F as ->; now apply (B k x)|discriminate].
  - now apply wf_sens_set.
  - destruct (sobol_run_is_set k keep s) as [-> | (o & _ & _ & _ & ->)]; [assumption|now apply wf_sens_set].
  - unfold pli_run. destruct (nth_error (the_sens s) k) as [x|]; [|assumption]. destruct (s_kind x); [assumption|].
    unfold wf in *; cbn [arrays tables the_pod the_sens held]. now rewrite length_put.
  - destruct (nth_error (the_sens s) k) as [x|] eqn:E; [|assumption]. destruct (s_kind x) eqn:K; [assumption|].
    destruct H as (A & B & C & D). unfold wf, give; cbn [arrays tables the_pod the_sens held].
    split; [assumption|]. split; [assumption|]. split; intros h a F; apply nth_snoc in F; destruct F as [F|[_ F]]; eauto; [discriminate|injection F as ->; now apply (B k x)].
  - destruct (nth_error (held s) h) as [[a|a]|]; try assumption. unfold wf in *; cbn [arrays tables the_pod the_sens held]. now rewrite length_put.
  - destruct (nth_error (held s) h) as [[a|a]|]; try assumption. unfold wf in *; cbn [arrays tables the_pod the_sens held]. now rewrite length_put.
Qed.
Lemma wf_fold l : forall s, wf s -> wf (fold_left step l s).
Proof. induction l as [|o l IH]; intros s H; cbn [fold_left]; [assumption|]. now apply IH, wf_step. Qed.
Lemma wf_play z l : wf (play z l).
Proof.
  apply wf_fold. unfold wf, init; cbn. split; [lia|]. split; [intros [|k] o E; discriminate|]. split; intros [|h] a E; discriminate.
Qed.
Lemma play_app z l l' : play z (l ++ l') = fold_left step l' (play z l).
Proof. unfold ShareModel.play. apply fold_left_app. Qed.

(** *** A client that only reads: every object has its own sizes, and what was read stays *)
(** The specification has no addresses: the sizes of the POD, the sizes of every sensitivity object, the sizes the client was given. *)
Record values := { v_pod : list float; v_sens : list (kind * list float); v_held : list (option (list float)) }.
Definition chosen (old arg : list float) : list float := match arg with [] => old | _ => fsort arg end.
Definition spec_step (v : values) (o : op) : values :=
  let arg h := match nth_error (v_held v) h with Some (Some l) => l | _ => [] end in
  let hold l := {| v_pod := v_pod v; v_sens := v_sens v; v_held := v_held v ++ [l] |} in
  let set k z := {| v_pod := v_pod v; v_sens := update k z (v_sens v); v_held := v_held v |} in
  match o with
  | Own l => hold (Some l)
  | GetPod => hold (Some (v_pod v))
  | SetPod h => {| v_pod := chosen (v_pod v) (arg h); v_sens := v_sens v; v_held := v_held v |}
  | New q => {| v_pod := v_pod v; v_sens := v_sens v ++ [(q, v_pod v)]; v_held := v_held v |}
  | GetSens k => match nth_error (v_sens v) k with Some (_, z) => hold (Some z) | None => v end
  | SetSens k h => match nth_error (v_sens v) k with Some (q, z) => set k (q, chosen z (arg h)) | None => v end
  | RunSobol k keep =>
      match nth_error (v_sens v) k with
      | Some (Sobol, z) => if Nat.eqb (List.length keep) (List.length z) then v else set k (Sobol, chosen z (map (fun i => nth i z fzero) keep))
      | _ => v
      end
  | GetIndices k => match nth_error (v_sens v) k with Some (Pli, _) => hold None | _ => v end
  | RunPod _ | RunPli _ _ | ChangeSizes _ _ | ChangeIndices _ _ => v
  end.
Definition spec_play (sizes : list float) (l : list op) : values := fold_left spec_step l {| v_pod := sizes; v_sens := []; v_held := [] |}.
Definition reads_only (o : op) : Prop := match o with ChangeSizes _ _ => False | _ => True end.

Definition abs (s : state) : values :=
  {| v_pod := pod_sizes s; v_sens := map (fun o => (s_kind o, at_ (arrays s) (s_sizes o))) (the_sens s);
     v_held := map (fun r => match r with RSizes a => Some (at_ (arrays s) a) | RIndices _ => None end) (held s) |}.
Lemma abs_content s h : content h s = match nth_error (v_held (abs s)) h with Some (Some l) => l | _ => [] end.
Proof. unfold content, abs; cbn [v_held]. rewrite nth_error_map. destruct (nth_error (held s) h) as [[a|a]|]; reflexivity. Qed.
Lemma in_nth {A} (l : list A) x : In x l -> exists k, nth_error l k = Some x.
Proof. apply In_nth_error. Qed.
(** The same sizes seen in a memory with one more array. *)
Lemma abs_grow (s : state) z : wf s ->
  map (fun o => (s_kind o, at_ (arrays s ++ [z]) (s_sizes o))) (the_sens s) = v_sens (abs s) /\
  map (fun r => match r with RSizes a => Some (at_ (arrays s ++ [z]) a) | RIndices _ => None end) (held s) = v_held (abs s) /\
  at_ (arrays s ++ [z]) (p_sizes (the_pod s)) = v_pod (abs s).
Proof.
  intros (A & B & C & D). unfold abs; cbn [v_sens v_held v_pod]. split; [|split].
  - apply map_ext_in. intros o Ho. destruct (in_nth _ _ Ho) as [k E]. now rewrite at_app by (apply (B k o E)).
  - apply map_ext_in. intros [a|a] Ho; [|reflexivity]. destruct (in_nth _ _ Ho) as [k E]. now rewrite at_app by (apply (C k a E)).
  - now apply at_app.
Qed.
Lemma map_update {A B} (f : A -> B) k x l : map f (update k x l) = update k (f x) (map f l).
Proof. revert k. induction l as [|y l IH]; intros [|k]; cbn; auto. now rewrite IH. Qed.
Lemma nth_abs s k : nth_error (v_sens (abs s)) k = option_map (fun o => (s_kind o, at_ (arrays s) (s_sizes o))) (nth_error (the_sens s) k).
Proof. unfold abs; cbn [v_sens]. apply nth_error_map. Qed.
Lemma values_ext (v w : values) : v_pod v = v_pod w -> v_sens v = v_sens w -> v_held v = v_held w -> v = w.
Proof. destruct v, w; cbn; congruence. Qed.
Lemma abs_sens_set k arg s : wf s ->
  abs (fst (sens_set k arg s)) =
  match nth_error (v_sens (abs s)) k with
  | Some (q, z) => {| v_pod := v_pod (abs s); v_sens := update k (q, chosen z arg) (v_sens (abs s)); v_held := v_held (abs s) |}
  | None => abs s
  end.
Proof.
  intros H. rewrite nth_abs. destruct (nth_error (the_sens s) k) as [o|] eqn:E; cbn [option_map].
  2:{ unfold ShareModel.sens_set. now rewrite E. }
  destruct (sens_set_cases k arg s) as [X | [(o' & E' & -> & ->) | (o' & n' & t & i & E' & N & -> & _)]].
  - (* nothing happened: only possible when the argument is empty *)
    destruct arg as [|x l].
    + rewrite X. cbn [chosen]. symmetry. apply values_ext; cbn [v_pod v_sens v_held]; try reflexivity.
      apply update_same. now rewrite nth_abs, E.
    + exfalso. unfold ShareModel.sens_set in X. rewrite E in X. destruct (assign_cons (arrays s) (s_sizes o) (s_number o) x l) as (n' & r & F). rewrite F in X.
      assert (L : List.length (arrays s) = List.length (arrays s ++ [fsort (x :: l)])). { destruct (s_kind o), r as [[]|e]; cbn [fst] in X; rewrite <- X at 1; reflexivity. }
      rewrite app_length in L; cbn in L; lia.
  - rewrite E in E'. injection E' as <-. rewrite (update_same _ _ _ E), state_eta. cbn [chosen]. symmetry. apply values_ext; cbn [v_pod v_sens v_held]; try reflexivity.
    apply update_same. now rewrite nth_abs, E.
  - rewrite E in E'. injection E' as <-. destruct (abs_grow s (fsort arg) H) as (A & B & C). apply values_ext; cbn [v_pod v_sens v_held].
    + unfold abs, pod_sizes; cbn [v_pod arrays the_pod]. exact C.
    + unfold abs at 1; cbn [v_sens arrays the_sens]. rewrite map_update, A; cbn [s_kind s_sizes]. rewrite at_new. destruct arg; [congruence|reflexivity].
    + unfold abs at 1; cbn [v_held arrays held]. exact B.
Qed.
Lemma abs_step s o : wf s -> reads_only o -> abs (step s o) = spec_step (abs s) o.
Proof.
  intros H R. destruct o; cbn [ShareModel.step spec_step reads_only] in *.
  - destruct (abs_grow s l H) as (A & B & C). apply values_ext; cbn [v_pod v_sens v_held]; unfold abs at 1, give, pod_sizes; cbn [v_pod v_sens v_held arrays the_sens the_pod held].
    + exact C. + exact A. + rewrite map_app, B. cbn [map]. now rewrite at_new.
  - apply values_ext; cbn [v_pod v_sens v_held]; try reflexivity. unfold abs, give; cbn [v_held held arrays]. rewrite map_app. reflexivity.
  - rewrite <- abs_content. destruct (pod_set_cases (content h s) s) as [[-> ->]|(n' & N & ->)].
    + rewrite state_eta. reflexivity.
    + destruct (abs_grow s (fsort (content h s)) H) as (A & B & C). apply values_ext; cbn [v_pod v_sens v_held].
      * unfold abs, pod_sizes; cbn [v_pod arrays the_pod p_sizes]. rewrite at_new. destruct (content h s); [congruence|reflexivity].
      * exact A. * exact B.
  - reflexivity.
  - apply values_ext; cbn [v_pod v_sens v_held]; try reflexivity. unfold abs, make; cbn [v_sens the_sens arrays]. rewrite map_app. reflexivity.
  - rewrite nth_abs. destruct (nth_error (the_sens s) k) as [x|] eqn:E; cbn [option_map]; [|reflexivity].
    apply values_ext; cbn [v_pod v_sens v_held]; try reflexivity. unfold abs, give; cbn [v_held held arrays]. rewrite map_app. reflexivity.
  - rewrite <- abs_content. rewrite abs_sens_set by assumption. destruct (nth_error (v_sens (abs s)) k) as [[q z]|]; reflexivity.
  - rewrite nth_abs. unfold ShareModel.sobol_run. destruct (nth_error (the_sens s) k) as [x|] eqn:E; cbn [option_map]; [|reflexivity].
    destruct (s_kind x) eqn:K; [|reflexivity]. destruct (Nat.eqb (List.length keep) (List.length (at_ (arrays s) (s_sizes x)))); [reflexivity|].
    rewrite abs_sens_set by assumption. rewrite nth_abs, E. cbn [option_map]. now rewrite K.
  - unfold pli_run. destruct (nth_error (the_sens s) k) as [x|] eqn:E; [|reflexivity]. destruct (s_kind x); reflexivity.
  - rewrite nth_abs. destruct (nth_error (the_sens s) k) as [x|] eqn:E; cbn [option_map]; [|reflexivity]. destruct (s_kind x) eqn:K; [reflexivity|].
    apply values_ext; cbn [v_pod v_sens v_held]; try reflexivity. unfold abs, give; cbn [v_held held arrays]. rewrite map_app. reflexivity.
  - contradiction.
  - destruct (nth_error (held s) h) as [[a|a]|]; reflexivity.
Qed.
Theorem C99_values :
  forall (sizes : list float) (l : list op), Forall reads_only l ->
    let v := spec_play sizes l in let s := play sizes l in
    pod_sizes s = v_pod v /\ (forall k, sens_sizes k s = option_map snd (nth_error (v_sens v) k)) /\
    (forall h, look h s = match nth_error (v_held v) h with Some x => x | None => None end).
Proof.
  intros sizes l F. assert (E : abs (play sizes l) = spec_play sizes l).
  { unfold spec_play, ShareModel.play. set (s0 := init V W sizes). change {| v_pod := sizes; v_sens := []; v_held := [] |} with (abs s0).
    assert (H : wf s0) by apply (wf_play sizes []). revert H. generalize s0. induction F as [|o l Ho F IH]; intros s H; cbn [fold_left]; [reflexivity|].
    rewrite <- abs_step by assumption. apply IH. now apply wf_step. }
  cbn zeta. rewrite <- E. split; [reflexivity|]. split.
  - intros k. rewrite nth_abs. unfold sens_sizes. now destruct (nth_error (the_sens (play sizes l)) k).
  - intros h. unfold look, abs; cbn [v_held]. rewrite nth_error_map. destruct (nth_error (held (play sizes l)) h) as [[a|a]|]; reflexivity.
Qed.
(** What was read stays, whatever calls follow, as long as the client changes no array of sizes. *)
Theorem C99_read_stays :
  forall (sizes : list float) (l l' : list op) (h : nat) (z : list float), Forall reads_only l' ->
    look h (play sizes l) = Some z -> look h (play sizes (l ++ l')) = Some z.
Proof.
  intros sizes l l' h z F. rewrite play_app. pose proof (wf_play sizes l) as H. revert H. generalize (play sizes l).
  induction F as [|o l' Ho F IH]; intros s H L; cbn [fold_left]; [assumption|]. apply IH; [now apply wf_step|].
  assert (A : forall s', look h s' = match nth_error (v_held (abs s')) h with Some x => x | None => None end).
  { intros s'. unfold look, abs; cbn [v_held]. rewrite nth_error_map. destruct (nth_error (held s') h) as [[a|a]|]; reflexivity. }
  rewrite A, abs_step by assumption. rewrite A in L.
  assert (G : forall x, nth_error (v_held (abs s) ++ [x]) h = nth_error (v_held (abs s)) h).
  { intros x. apply nth_error_app1. apply nth_error_Some. destruct (nth_error (v_held (abs s)) h); congruence. }
  destruct o; cbn [spec_step];
    repeat (match goal with |- context [nth_error (v_sens (abs s)) ?k] => destruct (nth_error (v_sens (abs s)) k) as [[[|] ?]|] end);
    try (match goal with |- context [if ?b then _ else _] => destruct b end); cbn [v_held]; try rewrite G; assumption.
Qed.

(** *** Until one of them is given sizes, a sensitivity object and the POD show the same sizes, whatever the client changes *)
Definition keeps_shared (k : nat) (o : op) : Prop :=
  match o with SetPod _ => False | SetSens j _ => j <> k | RunSobol j _ => j <> k | _ => True end.
Lemma other_sens_set k j arg s : j <> k -> nth_error (the_sens (fst (sens_set j arg s))) k = nth_error (the_sens s) k /\ the_pod (fst (sens_set j arg s)) = the_pod s.
Proof.
  intros N. assert (Nb : Nat.eqb k j = false) by (apply Nat.eqb_neq; congruence).
  destruct (sens_set_cases j arg s) as [-> | [(o & E & _ & ->) | (o & n' & t & i & E & _ & -> & T)]]; cbn [the_sens the_pod]; [split; reflexivity| |]; rewrite nth_update, Nb; split; reflexivity.
Qed.
Theorem C99_shared :
  forall (sizes : list float) (l l' : list op) (q : kind),
    let k := List.length (the_sens (play sizes l)) in
    Forall (keeps_shared k) l' ->
    sens_sizes k (play sizes (l ++ New q :: l')) = Some (pod_sizes (play sizes (l ++ New q :: l'))).
Proof.
  intros sizes l l' q k F. rewrite play_app. cbn [fold_left]. set (s := play sizes l) in *.
  assert (I : exists o, nth_error (the_sens (step s (New q))) k = Some o /\ s_sizes o = p_sizes (the_pod (step s (New q)))).
  { cbn [ShareModel.step make the_sens the_pod]. eexists. split; [unfold k; rewrite nth_error_app2, Nat.sub_diag by lia; reflexivity|reflexivity]. }
  revert I. generalize (step s (New q)). clearbody k s. induction F as [|o l' Ho F IH]; intros t (x & E & A); cbn [fold_left].
  - unfold sens_sizes, pod_sizes. now rewrite E, <- A.
  - apply IH. exists x. destruct o; cbn [ShareModel.step keeps_shared] in *; try contradiction.
    + split; assumption. + split; assumption. + split; assumption.
    + cbn [make the_sens the_pod]. split; [|assumption]. rewrite nth_error_app1; [assumption|]. apply nth_error_Some. congruence.
    + destruct (nth_error (the_sens t) k0); split; assumption.
    + destruct (other_sens_set k k0 (content h t) t Ho) as [-> ->]. split; assumption.
    + destruct (sobol_run_is_set k0 keep t) as [-> | (y & _ & _ & _ & ->)]; [split; assumption|].
      destruct (other_sens_set k k0 (map (fun i => nth i (at_ (arrays t) (s_sizes y)) fzero) keep) t Ho) as [-> ->]. split; assumption.
    + unfold pli_run. destruct (nth_error (the_sens t) k0) as [y|]; [|split; assumption]. destruct (s_kind y); split; assumption.
    + destruct (nth_error (the_sens t) k0) as [y|]; [|split; assumption]. destruct (s_kind y); split; assumption.
    + destruct (nth_error (held t) h) as [[a|a]|]; split; assumption.
    + destruct (nth_error (held t) h) as [[a|a]|]; split; assumption.
Qed.

(** *** An array held by one party only *)
Inductive holder := HPod | HSens (k : nat) | HRef (h : nat).
Definition address (s : state) (x : holder) : option nat :=
  match x with
  | HPod => Some (p_sizes (the_pod s))
  | HSens k => option_map s_sizes (nth_error (the_sens s) k)
  | HRef h => match nth_error (held s) h with Some (RSizes a) => Some a | _ => None end
  end.
(** Calls that neither hand out the array of x nor replace or change it. *)
Definition leaves (x : holder) (o : op) : Prop :=
  match x, o with
  | HPod, (GetPod | New _ | SetPod _) => False
  | HSens k, (GetSens j | SetSens j _ | RunSobol j _) => j <> k
  | HRef h, ChangeSizes j _ => j <> h
  | _, _ => True
  end.
Definition private (s : state) (a : nat) (x : holder) : Prop :=
  address s x = Some a /\ a < List.length (arrays s) /\ forall y, address s y = Some a -> y = x.
Lemma private_give s a x b : private s a x -> b <> a -> private (give (RSizes b) s) a x.
Proof.
  intros (A & L & P) N. unfold private, give; cbn [arrays]. split; [|split; [assumption|]].
  - destruct x as [|k|h]; cbn [address the_pod the_sens held] in *; try assumption.
    destruct (nth_error (held s) h) as [r|] eqn:E; [|discriminate]. rewrite nth_error_app1, E by (apply nth_error_Some; congruence). assumption.
  - intros [|k|h] H; cbn [address the_pod the_sens held] in H; [now apply (P HPod)|now apply (P (HSens k))|]. apply (P (HRef h)). cbn [address].
    destruct (nth_error (held s ++ [RSizes b]) h) as [r|] eqn:E; [|discriminate]. apply nth_snoc in E. destruct E as [->|[_ ->]]; [assumption|congruence].
Qed.
Lemma private_giveI s a x b : private s a x -> private (give (RIndices b) s) a x.
Proof.
  intros (A & L & P). unfold private, give; cbn [arrays]. split; [|split; [assumption|]].
  - destruct x as [|k|h]; cbn [address the_pod the_sens held] in *; try assumption.
    destruct (nth_error (held s) h) as [r|] eqn:E; [|discriminate]. rewrite nth_error_app1, E by (apply nth_error_Some; congruence). assumption.
  - intros [|k|h] H; cbn [address the_pod the_sens held] in H; [now apply (P HPod)|now apply (P (HSens k))|]. apply (P (HRef h)). cbn [address].
    destruct (nth_error (held s ++ [RIndices b]) h) as [r|] eqn:E; [|discriminate]. apply nth_snoc in E. destruct E as [->|[_ ->]]; [assumption|congruence].
Qed.
Lemma private_sens_set s a x k arg : private s a x -> x <> HSens k ->
  private (fst (sens_set k arg s)) a x /\ at_ (arrays (fst (sens_set k arg s))) a = at_ (arrays s) a.
Proof.
  intros H N. destruct (sens_set_cases k arg s) as [-> | [(o & E & _ & ->) | (o & n' & t & i & E & _ & -> & _)]]; [split; [assumption|reflexivity]| |].
  - rewrite (update_same _ _ _ E), state_eta. split; [assumption|reflexivity].
  - destruct H as (A & L & P). cbn [arrays]. split; [|now apply at_app]. unfold private; cbn [arrays]. rewrite app_length. split; [|split; [lia|]].
    + destruct x as [|j|h]; cbn [address the_pod the_sens held] in *; try assumption. rewrite nth_update. destruct (Nat.eqb_spec j k); [congruence|assumption].
    + intros [|j|h] H; cbn [address the_pod the_sens held] in H; [now apply (P HPod)| |now apply (P (HRef h))]. rewrite nth_update, E in H.
      destruct (Nat.eqb_spec j k); [cbn in H; injection H as H; lia|now apply (P (HSens j))].
Qed.
Lemma private_step s a x o : private s a x -> leaves x o -> private (step s o) a x /\ at_ (arrays (step s o)) a = at_ (arrays s) a.
Proof.
  intros H Lv. pose proof H as (A & L & P).
  assert (NP : x <> HPod -> p_sizes (the_pod s) <> a). { intros N E. apply N. symmetry. apply P. cbn. now rewrite E. }
  assert (NS : forall k y, nth_error (the_sens s) k = Some y -> x <> HSens k -> s_sizes y <> a).
  { intros k y E N F. apply N. symmetry. apply P. cbn. now rewrite E; cbn; rewrite F. }
  destruct o; cbn [ShareModel.step].
  - split; [|cbn [arrays give]; now apply at_app]. apply private_give; [|lia]. unfold private; cbn [arrays]. rewrite app_length. split; [|split; [lia|]].
    + destruct x; assumption. + intros [|k|h] Hy; [now apply (P HPod)|now apply (P (HSens k))|now apply (P (HRef h))].
  - split; [|reflexivity]. apply private_give; [assumption|]. apply NP. intros ->. exact Lv.
  - destruct (pod_set_cases (content h s) s) as [[_ ->]|(n' & _ & ->)]; [now rewrite state_eta|]. cbn [arrays]. split; [|now apply at_app].
    unfold private; cbn [arrays]. rewrite app_length. split; [|split; [lia|]].
    + destruct x; cbn [address the_pod the_sens held] in *; [contradiction|assumption|assumption].
    + intros [|k|h'] Hy; cbn [address the_pod the_sens held p_sizes] in Hy; [injection Hy as Hy; lia|now apply (P (HSens k))|now apply (P (HRef h'))].
  - split; [|reflexivity]. unfold private, pod_run; cbn [arrays]. split; [destruct x; assumption|]. split; [assumption|].
    intros [|k|h'] Hy; [now apply (P HPod)|now apply (P (HSens k))|now apply (P (HRef h'))].
  - split; [|reflexivity]. assert (Np : x <> HPod) by (intros ->; exact Lv). unfold private, make; cbn [arrays]. split; [|split; [assumption|]].
    + destruct x as [|k|h]; cbn [address the_pod the_sens held] in *; try assumption.
      destruct (nth_error (the_sens s) k) as [y|] eqn:E; [|discriminate]. rewrite nth_error_app1, E by (apply nth_error_Some; congruence). assumption.
    + intros [|k|h'] Hy; cbn [address the_pod the_sens held] in Hy; [now apply (P HPod)| |now apply (P (HRef h'))].
      destruct (nth_error (the_sens s ++ [_]) k) as [y|] eqn:E; [|discriminate]. apply nth_snoc in E. destruct E as [E|[_ ->]].
      * apply (P (HSens k)). cbn. now rewrite E.
      * cbn in Hy. injection Hy as Hy. now apply NP in Np.
  - destruct (nth_error (the_sens s) k) as [y|] eqn:E; [|split; [assumption|reflexivity]]. split; [|reflexivity]. apply private_give; [assumption|].
    apply (NS k y E). intros ->. cbn in Lv. congruence.
  - apply private_sens_set; [assumption|]. intros ->. cbn in Lv. congruence.
  - destruct (sobol_run_is_set k keep s) as [-> | (y & _ & _ & _ & ->)]; [split; [assumption|reflexivity]|]. apply private_sens_set; [assumption|]. intros ->. cbn in Lv. congruence.
  - unfold pli_run. destruct (nth_error (the_sens s) k) as [y|] eqn:E; [|split; [assumption|reflexivity]]. destruct (s_kind y); [split; [assumption|reflexivity]|].
    split; [|reflexivity]. unfold private; cbn [arrays]. split; [destruct x; assumption|]. split; [assumption|].
    intros [|j|h'] Hy; [now apply (P HPod)|now apply (P (HSens j))|now apply (P (HRef h'))].
  - destruct (nth_error (the_sens s) k) as [y|] eqn:E; [|split; [assumption|reflexivity]]. destruct (s_kind y); [split; [assumption|reflexivity]|].
    split; [|reflexivity]. now apply private_giveI.
  - destruct (nth_error (held s) h) as [[b|b]|] eqn:E; try (split; [assumption|reflexivity]).
    assert (N : b <> a). { intros ->. assert (F : HRef h = x) by (apply P; cbn; now rewrite E). subst x. cbn in Lv. congruence. }
    cbn [arrays]. split; [|now apply at_put_other]. unfold private; cbn [arrays]. rewrite length_put. split; [destruct x; assumption|]. split; [assumption|].
    intros [|j|h'] Hy; [now apply (P HPod)|now apply (P (HSens j))|now apply (P (HRef h'))].
  - destruct (nth_error (held s) h) as [[b|b]|] eqn:E; try (split; [assumption|reflexivity]).
Qed.
Lemma private_fold l x a : Forall (leaves x) l -> forall s, private s a x ->
  private (fold_left step l s) a x /\ at_ (arrays (fold_left step l s)) a = at_ (arrays s) a.
Proof.
  induction 1 as [|o l Ho F IH]; intros s H; cbn [fold_left]; [split; [assumption|reflexivity]|].
  destruct (private_step s a x o H Ho) as [A B]. destruct (IH _ A) as [C D]. now rewrite D, B.
Qed.

(** After setDefectSizes an object has an array of its own: nothing reaches it until it hands it out (getDefectSizes; for the POD also
    building a sensitivity object) or is given other sizes.  A call that was refused because of the range is no exception. *)
Theorem C99_own_sizes_of_the_pod :
  forall (sizes : list float) (l l' : list op) (h : nat), content h (play sizes l) <> [] -> Forall (leaves HPod) l' ->
    pod_sizes (play sizes (l ++ SetPod h :: l')) = fsort (content h (play sizes l)).
Proof.
  intros sizes l l' h N F. rewrite play_app. cbn [fold_left ShareModel.step]. pose proof (wf_play sizes l) as (A & B & C & D).
  destruct (pod_set_cases (content h (play sizes l)) (play sizes l)) as [[E _]|(n' & _ & E)]; [contradiction|]. rewrite E.
  set (s := play sizes l) in *. set (s1 := {| arrays := _ |}).
  assert (P : private s1 (List.length (arrays s)) HPod).
  { unfold private, s1; cbn [arrays address the_pod p_sizes]. rewrite app_length; cbn [List.length]. split; [reflexivity|]. split; [lia|].
    intros [|k|r] H; cbn [address the_pod the_sens held] in H; [reflexivity| |].
    - destruct (nth_error (the_sens s) k) as [y|] eqn:Ey; [|discriminate]. injection H as H. destruct (B k y Ey). lia.
    - destruct (nth_error (held s) r) as [[b|b]|] eqn:Ey; try discriminate. injection H as H. specialize (C r b Ey). lia. }
  destruct (private_fold l' HPod _ F s1 P) as [(G & _ & _) R]. unfold pod_sizes. cbn [address] in G. injection G as ->. rewrite R. unfold s1; cbn [arrays]. apply at_new.
Qed.
Theorem C99_own_sizes_of_an_object :
  forall (sizes : list float) (l l' : list op) (k h : nat), k < List.length (the_sens (play sizes l)) -> content h (play sizes l) <> [] -> Forall (leaves (HSens k)) l' ->
    sens_sizes k (play sizes (l ++ SetSens k h :: l')) = Some (fsort (content h (play sizes l))).
Proof.
  intros sizes l l' k h K N F. rewrite play_app. cbn [fold_left ShareModel.step]. pose proof (wf_play sizes l) as (A & B & C & D).
  set (s := play sizes l) in *. destruct (nth_error (the_sens s) k) as [o|] eqn:E; [|apply nth_error_None in E; lia].
  destruct (assign_cons (arrays s) (s_sizes o) (s_number o)) with (x := hd fzero (content h s)) (l := tl (content h s)) as (n0 & r & Ea).
  assert (Ec : hd fzero (content h s) :: tl (content h s) = content h s) by (destruct (content h s); [contradiction|reflexivity]). rewrite Ec in Ea.
  assert (X : exists t n1 i q, fst (sens_set k (content h s) s) = {| arrays := arrays s ++ [fsort (content h s)]; tables := t; the_pod := the_pod s;
      the_sens := update k {| s_kind := q; s_sizes := List.length (arrays s); s_number := n1; s_indices := i |} (the_sens s); held := held s |}).
  { unfold ShareModel.sens_set. rewrite E, Ea. destruct (s_kind o), r as [[]|e]; cbn [fst]; eauto 6. }
  destruct X as (t & n1 & i & q & ->). set (s1 := {| arrays := _ |}).
  assert (P : private s1 (List.length (arrays s)) (HSens k)).
  { unfold private, s1; cbn [arrays address the_sens]. rewrite app_length; cbn [List.length]. rewrite nth_update, Nat.eqb_refl, E. split; [reflexivity|]. split; [lia|].
    intros [|j|r'] H; cbn [address the_pod the_sens held] in H; [injection H as H; lia| |].
    - rewrite nth_update, E in H. destruct (Nat.eqb_spec j k) as [Nj|Nj]; [now rewrite Nj|]. destruct (nth_error (the_sens s) j) as [y|] eqn:Ey; [|discriminate]. injection H as H. destruct (B j y Ey). lia.
    - destruct (nth_error (held s) r') as [[b|b]|] eqn:Ey; try discriminate. injection H as H. specialize (C r' b Ey). lia. }
  destruct (private_fold l' (HSens k) _ F s1 P) as [(G & _ & _) R]. unfold sens_sizes. cbn [address] in G.
  destruct (nth_error (the_sens (fold_left step l' s1)) k) as [y|]; [|discriminate]. cbn in G |- *. injection G as ->. rewrite R. unfold s1; cbn [arrays]. now rewrite at_new.
Qed.
(** The arrays of the client are never changed by the objects, whatever they were used for. *)
Theorem C99_arguments_kept :
  forall (sizes : list float) (l l' : list op) (z : list float),
    let h := List.length (held (play sizes l)) in
    Forall (leaves (HRef h)) l' -> look h (play sizes (l ++ Own z :: l')) = Some z.
Proof.
  intros sizes l l' z h F. rewrite play_app. cbn [fold_left]. pose proof (wf_play sizes l) as (A & B & C & D). set (s := play sizes l) in *.
  assert (P : private (step s (Own z)) (List.length (arrays s)) (HRef h)).
  { unfold private, ShareModel.step, give; cbn [arrays address the_sens the_pod held]. rewrite app_length; cbn [List.length]. unfold h.
    split; [now rewrite nth_error_app2, Nat.sub_diag by lia|]. split; [lia|].
    intros [|j|r'] H; cbn [address the_pod the_sens held] in H; [injection H as H; lia| |].
    - destruct (nth_error (the_sens s) j) as [y|] eqn:Ey; [|discriminate]. injection H as H. destruct (B j y Ey). lia.
    - destruct (nth_error (held s ++ _) r') as [[b|b]|] eqn:Ey; try discriminate. injection H as H. apply nth_snoc in Ey. destruct Ey as [Ey|[-> _]]; [|reflexivity].
      specialize (C r' b Ey). lia. }
  destruct (private_fold l' (HRef h) _ F _ P) as [(G & _ & _) R]. unfold look. cbn [address] in G.
  destruct (nth_error (held (fold_left step l' (step s (Own z)))) h) as [[b|b]|]; try discriminate. injection G as ->. rewrite R.
  cbn [ShareModel.step give arrays]. now rewrite at_new.
Qed.

(** *** The curve of a run does not follow the sizes *)
Lemma curve_sens_set k arg s : the_pod (fst (sens_set k arg s)) = the_pod s.
Proof. destruct (sens_set_cases k arg s) as [-> | [(o & E & _ & ->) | (o & n' & t & i & E & _ & -> & _)]]; reflexivity. Qed.
Theorem C99_curve :
  forall (sizes : list float) (l l' : list op) (w : W), Forall (fun o => match o with RunPod _ => False | _ => True end) l' ->
    p_curve (the_pod (play sizes (l ++ RunPod w :: l'))) = Some (pod_sizes (play sizes l), w).
Proof.
  intros sizes l l' w F. rewrite play_app. cbn [fold_left].
  assert (E : p_curve (the_pod (step (play sizes l) (RunPod w))) = Some (pod_sizes (play sizes l), w)) by reflexivity.
  rewrite <- E. generalize (step (play sizes l) (RunPod w)). clear E. induction F as [|o l' Ho F IH]; intros s; cbn [fold_left]; [reflexivity|]. rewrite IH.
  destruct o; cbn [ShareModel.step]; try reflexivity; try contradiction.
  - destruct (pod_set_cases (content h s) s) as [[_ ->]|(n' & _ & ->)]; reflexivity.
  - destruct (nth_error (the_sens s) k); reflexivity.
  - now rewrite curve_sens_set.
  - destruct (sobol_run_is_set k keep s) as [-> | (y & _ & _ & _ & ->)]; [reflexivity|now rewrite curve_sens_set].
  - unfold pli_run. destruct (nth_error (the_sens s) k) as [y|]; [|reflexivity]. destruct (s_kind y); reflexivity.
  - destruct (nth_error (the_sens s) k) as [y|]; [|reflexivity]. destruct (s_kind y); reflexivity.
  - destruct (nth_error (held s) h) as [[a|a]|]; reflexivity.
  - destruct (nth_error (held s) h) as [[a|a]|]; reflexivity.
Qed.

(** *** The indices *)
(** The table at address b belongs to no object but the k-th, and the reference r of the client is this table. *)
Definition table_of (k r b : nat) (s : state) : Prop :=
  nth_error (held s) r = Some (RIndices b) /\ b < List.length (tables s) /\
  forall j o, nth_error (the_sens s) j = Some o -> s_kind o = Pli -> s_indices o = b -> j = k.
Lemma table_sens_set k r b j arg s : table_of k r b s -> table_of k r b (fst (sens_set j arg s)) /\ at_ (tables (fst (sens_set j arg s))) b = at_ (tables s) b.
Proof.
  intros H. destruct (sens_set_cases j arg s) as [-> | [(o & E & _ & ->) | (o & n' & t & i & E & _ & -> & T)]]; [split; [assumption|reflexivity]| |].
  - rewrite (update_same _ _ _ E), state_eta. split; [assumption|reflexivity].
  - destruct H as (A & L & U). cbn [tables]. split; [|now apply at_app]. unfold table_of; cbn [held tables the_sens]. split; [assumption|]. rewrite app_length. split; [lia|].
    intros j' o' E' K I. rewrite nth_update, E in E'. destruct (Nat.eqb_spec j' j) as [->|N]; [|now apply (U j' o')].
    injection E' as <-. cbn [s_kind s_indices] in K, I. destruct T as [(_ & -> & _)|(z & _ & -> & _)]; [now apply (U j o)|lia].
Qed.
Lemma table_step k r b s o : table_of k r b s -> table_of k r b (step s o).
Proof.
  intros H. pose proof H as (A & L & U). assert (G : forall x, nth_error (held s ++ [x]) r = Some (RIndices b)).
  { intros x. rewrite nth_error_app1; [assumption|]. apply nth_error_Some. congruence. }
  destruct o; cbn [ShareModel.step].
  - split; [apply G|]. split; assumption.
  - split; [apply G|]. split; assumption.
  - destruct (pod_set_cases (content h s) s) as [[_ ->]|(n' & _ & ->)]; [now rewrite state_eta|]. exact H.
  - exact H.
  - unfold table_of, make; cbn [held tables the_sens]. split; [assumption|]. split; [destruct q; [assumption|rewrite app_length; lia]|].
    intros j o E K I. apply nth_snoc in E. destruct E as [E|[_ ->]]; [now apply (U j o)|]. cbn in I. lia.
  - destruct (nth_error (the_sens s) k0); [|assumption]. split; [apply G|]. split; assumption.
  - now apply table_sens_set.
  - destruct (sobol_run_is_set k0 keep s) as [-> | (y & _ & _ & _ & ->)]; [assumption|now apply table_sens_set].
  - unfold pli_run. destruct (nth_error (the_sens s) k0) as [y|]; [|assumption]. destruct (s_kind y); [assumption|].
    unfold table_of; cbn [held tables the_sens]. now rewrite length_put.
  - destruct (nth_error (the_sens s) k0) as [y|]; [|assumption]. destruct (s_kind y); [assumption|]. split; [apply G|]. split; assumption.
  - destruct (nth_error (held s) h) as [[a|a]|]; assumption.
  - destruct (nth_error (held s) h) as [[a|a]|]; try assumption. unfold table_of; cbn [held tables the_sens]. now rewrite length_put.
Qed.
Lemma table_fold k r b l : forall s, table_of k r b s -> table_of k r b (fold_left step l s).
Proof. induction l as [|o l IH]; intros s H; cbn [fold_left]; [assumption|]. now apply IH, table_step. Qed.
(** Distinct objects have distinct tables. *)
Definition distinct (s : state) : Prop :=
  forall i j o p, nth_error (the_sens s) i = Some o -> nth_error (the_sens s) j = Some p -> s_kind o = Pli -> s_kind p = Pli -> s_indices o = s_indices p -> i = j.
Lemma distinct_sens_set j arg s : wf s -> distinct s -> distinct (fst (sens_set j arg s)).
Proof.
  intros (_ & B & _ & _) H. destruct (sens_set_cases j arg s) as [-> | [(o & E & _ & ->) | (o & n' & t & i & E & _ & -> & T)]]; [assumption| |].
  - now rewrite (update_same _ _ _ E), state_eta.
  - intros a b x y Ex Ey Kx Ky I. cbn [the_sens] in Ex, Ey. rewrite nth_update, E in Ex, Ey.
    destruct (Nat.eqb_spec a j) as [->|Na]; destruct (Nat.eqb_spec b j) as [->|Nb]; [reflexivity| | |now apply (H a b x y)].
    + injection Ex as <-. cbn in Kx, I. destruct T as [(_ & -> & _)|(z & _ & -> & _)]; [now apply (H j b o y)|]. destruct (B b y Ey) as [_ B2]. specialize (B2 Ky). lia.
    + injection Ey as <-. cbn in Ky, I. destruct T as [(_ & -> & _)|(z & _ & -> & _)]; [now apply (H a j x o)|]. destruct (B a x Ex) as [_ B2]. specialize (B2 Kx). lia.
Qed.
Lemma distinct_step s o : wf s -> distinct s -> distinct (step s o).
Proof.
  intros Hw H. destruct o; cbn [ShareModel.step]; try exact H.
  - destruct (pod_set_cases (content h s) s) as [[_ ->]|(n' & _ & ->)]; exact H.
  - intros a b x y Ex Ey Kx Ky I. cbn [make the_sens] in Ex, Ey. destruct Hw as (_ & B & _ & _). apply nth_snoc in Ex, Ey.
    destruct Ex as [Ex|[-> ->]], Ey as [Ey|[-> ->]]; [now apply (H a b x y)| | |reflexivity].
    + cbn in I. destruct (B a x Ex) as [_ B2]. specialize (B2 Kx). lia.
    + cbn in I. destruct (B b y Ey) as [_ B2]. specialize (B2 Ky). lia.
  - destruct (nth_error (the_sens s) k); exact H.
  - now apply distinct_sens_set.
  - destruct (sobol_run_is_set k keep s) as [-> | (y & _ & _ & _ & ->)]; [assumption|now apply distinct_sens_set].
  - unfold pli_run. destruct (nth_error (the_sens s) k) as [y|]; [|assumption]. destruct (s_kind y); exact H.
  - destruct (nth_error (the_sens s) k) as [y|]; [|assumption]. destruct (s_kind y); exact H.
  - destruct (nth_error (held s) h) as [[a|a]|]; exact H.
  - destruct (nth_error (held s) h) as [[a|a]|]; exact H.
Qed.
Lemma distinct_play z l : distinct (play z l).
Proof.
  unfold ShareModel.play. assert (W0 : wf (init V W z)) by apply (wf_play z []). assert (D0 : distinct (init V W z)) by (intros [|a] b x y E; discriminate).
  revert W0 D0. generalize (init V W z). induction l as [|o l IH]; intros s Hw Hd; cbn [fold_left]; [assumption|]. apply IH; [now apply wf_step|now apply distinct_step].
Qed.
Lemma get_indices_table sizes l k : indices k (play sizes l) <> None ->
  exists o, nth_error (the_sens (play sizes l)) k = Some o /\ s_kind o = Pli /\
    table_of k (List.length (held (play sizes l))) (s_indices o) (step (play sizes l) (GetIndices k)).
Proof.
  unfold indices. destruct (nth_error (the_sens (play sizes l)) k) as [o|] eqn:E; [|congruence]. destruct (s_kind o) eqn:K; [congruence|]. intros _.
  exists o. split; [reflexivity|]. split; [assumption|]. cbn [ShareModel.step]. rewrite E, K. unfold table_of, give; cbn [held tables the_sens].
  split; [now rewrite nth_error_app2, Nat.sub_diag by lia|]. pose proof (wf_play sizes l) as (_ & B & _ & _). split; [now apply (B k o E)|].
  intros j p Ej Kj I. now apply (distinct_play sizes l j k p o).
Qed.
(** What getIndices returned is the table of the object itself: until the object is given other sizes it shows what getIndices would
    give now, after any runs and changes. *)
Theorem C99_indices_live :
  forall (sizes : list float) (l l' : list op) (k : nat), indices k (play sizes l) <> None ->
    let r := List.length (held (play sizes l)) in
    Forall (fun o => match o with SetSens j _ => j <> k | _ => True end) l' ->
    look_indices r (play sizes (l ++ GetIndices k :: l')) = indices k (play sizes (l ++ GetIndices k :: l')).
Proof.
  intros sizes l l' k H r F. destruct (get_indices_table sizes l k H) as (o & E & K & T). fold r in T. rewrite play_app. cbn [fold_left].
  set (s1 := step (play sizes l) (GetIndices k)) in *. assert (E1 : nth_error (the_sens s1) k = Some o) by (unfold s1; cbn [ShareModel.step]; rewrite E, K; exact E).
  assert (G : exists o', nth_error (the_sens (fold_left step l' s1)) k = Some o' /\ s_kind o' = Pli /\ s_indices o' = s_indices o).
  { clearbody s1. clear E T H r. assert (X : exists o', nth_error (the_sens s1) k = Some o' /\ s_kind o' = Pli /\ s_indices o' = s_indices o) by eauto. clear E1. revert s1 X.
    induction F as [|c l' Hc F IH]; intros s1 (o' & A & B & C); cbn [fold_left]; [eauto|]. apply IH. exists o'. split; [|split; assumption].
    destruct c; cbn [ShareModel.step]; try exact A.
    - destruct (pod_set_cases (content h s1) s1) as [[_ ->]|(n' & _ & ->)]; exact A.
    - cbn [make the_sens]. rewrite nth_error_app1; [assumption|]. apply nth_error_Some. congruence.
    - destruct (nth_error (the_sens s1) k0); exact A.
    - now rewrite (proj1 (other_sens_set k k0 (content h s1) s1 Hc)).
    - destruct (sobol_run_is_set k0 keep s1) as [-> | (y & Ey & Ky & _ & ->)]; [assumption|].
      assert (N : k0 <> k) by (intros ->; congruence). now rewrite (proj1 (other_sens_set k k0 _ s1 N)).
    - unfold pli_run. destruct (nth_error (the_sens s1) k0) as [y|]; [|assumption]. destruct (s_kind y); exact A.
    - destruct (nth_error (the_sens s1) k0) as [y|]; [|assumption]. destruct (s_kind y); exact A.
    - destruct (nth_error (held s1) h) as [[a|a]|]; exact A.
    - destruct (nth_error (held s1) h) as [[a|a]|]; exact A. }
  destruct G as (o' & A & B & C). destruct (table_fold k r (s_indices o) l' s1 T) as (R & _ & _). unfold look_indices, indices. now rewrite R, A, B, C.
Qed.
(** A run of the PLI writes the blocks it computed over those of the table, from the first defect on, as far as the table goes; the
    other blocks, and the tables of the other objects, stay. *)
Lemma at_put_same {A} (m : list (list A)) a l : a < List.length m -> List.length l = List.length (at_ m a) -> at_ (put m a l) a = l.
Proof.
  unfold at_. revert a. induction m as [|x m IH]; intros [|a] H E; cbn in *; try lia; [now rewrite E, Nat.eqb_refl|apply IH; [lia|assumption]].
Qed.
Lemma blocks_spec {A} (new old : list A) : blocks new old = firstn (List.length old) new ++ skipn (List.length new) old.
Proof. revert old. induction new as [|x new IH]; intros [|y old]; cbn; auto; now rewrite IH. Qed.
Lemma length_blocks {A} (new old : list A) : List.length (blocks new old) = List.length old.
Proof. revert old. induction new as [|x new IH]; intros [|y old]; cbn; auto. Qed.
Theorem C99_run_writes :
  forall (sizes : list float) (l : list op) (k : nat) (new old : list V), indices k (play sizes l) = Some old ->
    indices k (play sizes (l ++ [RunPli k new])) = Some (firstn (List.length old) new ++ skipn (List.length new) old) /\
    forall j, j <> k -> indices j (play sizes (l ++ [RunPli k new])) = indices j (play sizes l).
Proof.
  intros sizes l k new old H. rewrite play_app. cbn [fold_left ShareModel.step]. pose proof (wf_play sizes l) as (_ & B & _ & _). pose proof (distinct_play sizes l) as D.
  set (s := play sizes l) in *. unfold indices in H. destruct (nth_error (the_sens s) k) as [o|] eqn:E; [|discriminate]. destruct (s_kind o) eqn:K; [discriminate|]. injection H as <-.
  unfold pli_run. rewrite E, K. split.
  - unfold indices; cbn [the_sens tables]. rewrite E, K. rewrite at_put_same, blocks_spec; [reflexivity|now apply (B k o E)|apply length_blocks].
  - intros j N. unfold indices; cbn [the_sens tables]. destruct (nth_error (the_sens s) j) as [p|] eqn:Ej; [|reflexivity]. destruct (s_kind p) eqn:Kp; [reflexivity|].
    rewrite at_put_other; [reflexivity|]. intros I. apply N. now apply (D j k p o).
Qed.
(** Once the object was given sizes in the range, what getIndices returned before stays as it is, as long as the client changes no indices. *)
Theorem C99_indices_frozen :
  forall (sizes : list float) (l l1 l2 : list op) (k h : nat), indices k (play sizes l) <> None ->
    let r := List.length (held (play sizes l)) in
    let s1 := play sizes (l ++ GetIndices k :: l1) in
    snd (sens_set k (content h s1) s1) = Ok tt -> Forall (fun o => match o with ChangeIndices _ _ => False | _ => True end) l2 ->
    look_indices r (play sizes (l ++ GetIndices k :: l1 ++ SetSens k h :: l2)) = look_indices r s1.
Proof.
  intros sizes l l1 l2 k h H r s1 Hok F. destruct (get_indices_table sizes l k H) as (o & E & K & T). fold r in T.
  assert (T1 : table_of k r (s_indices o) s1). { unfold s1. rewrite play_app. cbn [fold_left]. now apply table_fold. }
  replace (play sizes (l ++ GetIndices k :: l1 ++ SetSens k h :: l2)) with (fold_left step l2 (fst (sens_set k (content h s1) s1))).
  2:{ assert (Es : s1 = fold_left step l1 (step (play sizes l) (GetIndices k))) by (unfold s1; now rewrite play_app).
      rewrite play_app. cbn [fold_left]. rewrite fold_left_app. cbn [fold_left]. now rewrite <- Es. }
  set (b := s_indices o) in *.
  assert (X : table_of (List.length (the_sens s1)) r b (fst (sens_set k (content h s1) s1)) /\ at_ (tables (fst (sens_set k (content h s1) s1))) b = at_ (tables s1) b
              /\ (forall j p, nth_error (the_sens (fst (sens_set k (content h s1) s1))) j = Some p -> s_kind p = Pli -> s_indices p <> b)).
  { destruct (table_sens_set k r b k (content h s1) s1 T1) as [A B]. assert (U : forall j p, nth_error (the_sens (fst (sens_set k (content h s1) s1))) j = Some p -> s_kind p = Pli -> s_indices p <> b).
    { intros j p Ej Kp I. pose proof (proj2 (proj2 A) j p Ej Kp I) as ->.
      destruct (sens_set_cases k (content h s1) s1) as [X | [(y & Ey & N & X) | (y & n' & t & i & Ey & _ & X & TT)]].
      - rewrite X in Ej. unfold ShareModel.sens_set in X, Hok. destruct (nth_error (the_sens s1) k) as [y|] eqn:Ey; [|congruence]. injection Ej as ->.
        destruct (content h s1) as [|c0 cs]; [rewrite assign_nil in Hok; destruct (s_kind p); discriminate|].
        destruct (assign_cons (arrays s1) (s_sizes p) (s_number p) c0 cs) as (n' & q & F1). rewrite F1 in X.
        assert (L : List.length (arrays s1) = List.length (arrays s1 ++ [fsort (c0 :: cs)])). { destruct (s_kind p), q as [[]|e]; cbn [fst] in X; rewrite <- X at 1; reflexivity. }
        rewrite app_length in L; cbn in L; lia.
      - rewrite N in Hok. unfold ShareModel.sens_set in Hok. rewrite Ey, assign_nil in Hok. destruct (s_kind y); discriminate.
      - rewrite X in Ej. cbn [the_sens] in Ej. rewrite nth_update, Nat.eqb_refl, Ey in Ej. injection Ej as <-. cbn in I, Kp.
        destruct TT as [(_ & _ & [Q|[e Q]])|(z & _ & -> & _)]; [congruence|congruence|]. destruct T1 as (_ & L1 & _). lia. }
    split; [|split; assumption]. destruct A as (A1 & A2 & A3). split; [assumption|]. split; [assumption|]. intros j p Ej Kp I. exfalso. now apply (U j p). }
  destruct X as (A & B & U). set (k' := List.length (the_sens s1)) in *.
  assert (R : forall s, table_of k' r b s -> (forall j p, nth_error (the_sens s) j = Some p -> s_kind p = Pli -> s_indices p <> b) ->
            at_ (tables (fold_left step l2 s)) b = at_ (tables s) b).
  { clearbody k' b r. clear - F. induction F as [|c l2 Hc F IH]; intros s T Us; cbn [fold_left]; [reflexivity|].
    assert (Tc : forall x, at_ (tables s ++ x) b = at_ (tables s) b) by (intros x; apply at_app; apply T).
    assert (S1 : forall j arg, (forall i p, nth_error (the_sens (fst (sens_set j arg s))) i = Some p -> s_kind p = Pli -> s_indices p <> b)).
    { intros j arg i p Ei Kp I. destruct (sens_set_cases j arg s) as [X | [(y & Ey & N & X) | (y & n' & t & ii & Ey & _ & X & TT)]]; rewrite X in Ei.
      - now apply (Us i p). - cbn [the_sens] in Ei. rewrite (update_same _ _ _ Ey) in Ei. now apply (Us i p).
      - cbn [the_sens] in Ei. rewrite nth_update, Ey in Ei. destruct (Nat.eqb_spec i j); [|now apply (Us i p)]. injection Ei as <-. cbn in I, Kp.
        destruct TT as [(_ & -> & _)|(z & _ & -> & _)]; [now apply (Us j y)|]. destruct T as (_ & L & _). lia. }
    assert (G : at_ (tables (step s c)) b = at_ (tables s) b /\ (forall j p, nth_error (the_sens (step s c)) j = Some p -> s_kind p = Pli -> s_indices p <> b)).
    { destruct c; cbn [ShareModel.step]; try (split; [reflexivity|exact Us]); try contradiction.
      - destruct (pod_set_cases (content h s) s) as [[_ ->]|(n' & _ & ->)]; (split; [reflexivity|exact Us]).
      - cbn [make tables the_sens]. split; [destruct q; [reflexivity|apply Tc]|]. intros j p Ej Kp. apply nth_snoc in Ej. destruct Ej as [Ej|[_ ->]]; [now apply (Us j p)|].
        cbn. destruct T as (_ & L & _). lia.
      - destruct (nth_error (the_sens s) k); (split; [reflexivity|exact Us]).
      - split; [now apply (table_sens_set k' r b)|apply S1].
      - destruct (sobol_run_is_set k keep s) as [-> | (y & Ey & Ky & _ & ->)]; [split; [reflexivity|exact Us]|]. split; [now apply (table_sens_set k' r b)|apply S1].
      - unfold pli_run. destruct (nth_error (the_sens s) k) as [y|] eqn:Ey; [|split; [reflexivity|exact Us]]. destruct (s_kind y) eqn:Ky; [split; [reflexivity|exact Us]|].
        cbn [tables the_sens]. split; [|exact Us]. apply at_put_other. now apply (Us k y).
      - destruct (nth_error (the_sens s) k) as [y|]; [|split; [reflexivity|exact Us]]. destruct (s_kind y); (split; [reflexivity|exact Us]).
      - destruct (nth_error (held s) h) as [[a|a]|]; (split; [reflexivity|exact Us]). }
    destruct G as [G1 G2]. rewrite IH; [assumption|now apply table_step|assumption]. }
  pose proof (table_fold k' r b l2 _ A) as (Q & _ & _). unfold look_indices. rewrite Q, (proj1 T1). now rewrite R, B.
Qed.
(** A new PLI object, and one that was given sizes in the range, has a table of zeros with one block for each of its sizes. *)
Theorem C99_new_table :
  forall (sizes : list float) (l : list op),
    (let s := play sizes (l ++ [New Pli]) in let k := List.length (the_sens (play sizes l)) in
     indices k s = Some (repeat zero (List.length (pod_sizes (play sizes l))))) /\
    (forall k h, indices k (play sizes l) <> None -> snd (sens_set k (content h (play sizes l)) (play sizes l)) = Ok tt ->
       indices k (play sizes (l ++ [SetSens k h])) = Some (repeat zero (List.length (content h (play sizes l))))).
Proof.
  intros sizes l. split.
  - cbn zeta. rewrite play_app. cbn [fold_left ShareModel.step]. unfold indices, make; cbn [the_sens tables arrays].
    rewrite nth_error_app2, Nat.sub_diag by lia. cbn [nth_error s_kind s_indices]. rewrite at_new. reflexivity.
  - intros k h H Hok. rewrite play_app. cbn [fold_left ShareModel.step]. set (s := play sizes l) in *. unfold indices in H.
    destruct (nth_error (the_sens s) k) as [o|] eqn:E; [|congruence]. destruct (s_kind o) eqn:K; [congruence|].
    unfold ShareModel.sens_set in Hok |- *. rewrite E, K in *. unfold ShareModel.assign, setDefectSizes in *. pose proof (fsort_perm (content h s)) as P.
    destruct (content h s) as [|x c]; [discriminate|]. pose proof (fsort_nonempty x c) as N. destruct (fsort (x :: c)) as [|y ys]; [congruence|].
    destruct (fgtb (np_max y ys) hi || fltb (np_min y ys) lo); [discriminate|]. cbn [fst snd st_sizes st_number]. unfold indices; cbn [the_sens tables].
    rewrite nth_update, Nat.eqb_refl, E. cbn [s_kind s_indices]. rewrite at_new. apply Permutation_length in P. now rewrite P.
Qed.
End Props.

Print Assumptions C99_values.
Print Assumptions C99_read_stays.
Print Assumptions C99_shared.
Print Assumptions C99_own_sizes_of_the_pod.
Print Assumptions C99_own_sizes_of_an_object.
Print Assumptions C99_arguments_kept.
Print Assumptions C99_curve.
Print Assumptions C99_indices_live.
Print Assumptions C99_indices_frozen.
Print Assumptions C99_run_writes.
Print Assumptions C99_new_table.

(** *** Findings *)
Definition f (z : Z) : float := of_int z.
(** A client that fills the array it was given by SobolIndices changes the sizes of the POD, here out of the range [1, 3] that
    setDefectSizes imposes, and no call was refused. *)
Theorem C99_foreign_change_refuted :
  exists (lo hi x : float) (l : list (op Z unit)),
    Forall (fun o => match o with SetPod _ _ _ | SetSens _ _ _ _ => False | _ => True end) l /\
    In x (pod_sizes Z unit (play Z unit 0%Z lo hi [f 1; f 2; f 3] l)) /\ fgtb x hi = true.
Proof.
  exists (f 1), (f 3), (f 9), [New Z unit Sobol; GetSens Z unit 0; ChangeSizes Z unit 0 [f 1; f 2; f 9]].
  split; [repeat constructor|]. split; [vm_compute; auto|reflexivity].
Qed.
(** Indices kept from a first run are those of the second run afterwards. *)
Theorem C99_kept_indices_refuted :
  exists (l : list (op Z unit)) (h : nat) (a b : list Z),
    look_indices Z unit h (play Z unit 0%Z (f 1) (f 3) [f 1; f 2; f 3] l) = Some a /\
    look_indices Z unit h (play Z unit 0%Z (f 1) (f 3) [f 1; f 2; f 3] (l ++ [RunPli Z unit 0 b])) = Some b /\ a <> b.
Proof.
  exists [New Z unit Pli; RunPli Z unit 0 [5; 6; 7]%Z; GetIndices Z unit 0], 0, [5; 6; 7]%Z, [8; 9; 10]%Z.
  split; [reflexivity|]. split; [reflexivity|discriminate].
Qed.
Print Assumptions C99_foreign_change_refuted.
Print Assumptions C99_kept_indices_refuted.

(** A case: two objects of one POD; the client sets the sizes of the first and of the POD. *)
Definition case_calls : list (op Z unit) :=
  [RunPod Z unit tt; New Z unit Sobol; New Z unit Pli; Own Z unit [f 3; f 2]; SetSens Z unit 0 0; GetSens Z unit 1; Own Z unit [f 2; f 1];
   SetPod Z unit 2; RunPli Z unit 1 [4; 5; 6]%Z; GetIndices Z unit 1; RunPli Z unit 1 [7]%Z].
Example C99_case :
  let s := play Z unit 0%Z (f 1) (f 3) [f 1; f 2; f 3] case_calls in
  Forall (reads_only Z unit) case_calls /\
  pod_sizes Z unit s = [f 1; f 2] /\ sens_sizes Z unit 0 s = Some [f 2; f 3] /\ sens_sizes Z unit 1 s = Some [f 1; f 2; f 3] /\
  look Z unit 0 s = Some [f 3; f 2] /\ look Z unit 1 s = Some [f 1; f 2; f 3] /\
  look_indices Z unit 3 s = Some [7; 5; 6]%Z /\ p_curve unit (the_pod Z unit s) = Some ([f 1; f 2; f 3], tt).
Proof. split; [repeat constructor|]. repeat split; vm_compute; reflexivity. Qed.
(** A case with changes by the client: sizes of an object that was given its own, an object that shares those of the POD, indices read before new sizes. *)
Definition change_calls : list (op Z unit) :=
  [New Z unit Pli; New Z unit Sobol; GetPod Z unit; Own Z unit [f 2]; RunPli Z unit 0 [4; 5; 6]%Z; GetIndices Z unit 0; SetSens Z unit 0 1;
   ChangeSizes Z unit 0 [f 1; f 2; f 2]; ChangeSizes Z unit 1 [f 1]; RunPli Z unit 0 [8]%Z].
Example C99_case_changes :
  let s := play Z unit 0%Z (f 1) (f 3) [f 1; f 2; f 3] change_calls in
  sens_sizes Z unit 0 s = Some [f 2] /\ sens_sizes Z unit 1 s = Some [f 1; f 2; f 2] /\ pod_sizes Z unit s = [f 1; f 2; f 2] /\
  look Z unit 1 s = Some [f 1] /\ look_indices Z unit 2 s = Some [4; 5; 6]%Z /\ indices Z unit 0 s = Some [8]%Z.
Proof. repeat split; vm_compute; reflexivity. Qed.
