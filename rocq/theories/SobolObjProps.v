(** C78: the SobolIndices object over the calls made on it. *)
From Coq Require Import String.
From Verif Require Import RealBase Float64 SettersModel SettersProofs HitMissModel SobolModel SobolProps SobolObjModel.
Local Open Scope string_scope.
Local Open Scope list_scope.

Section Spec.
Variables D Col Alg N V : Type.
Variable is_joint : D -> bool.
Variable dimension : D -> nat.
Variable chaos : bool.
Variable dim : nat.
Variables lo hi : float.
Variable index : order -> Alg -> nat -> res (list V).
Local Arguments w_design {D Col Alg N}.
Local Arguments w_nonzero {D Col Alg N}.
Local Arguments w_algo {D Col Alg N}.
Local Arguments sizes {D Alg N}.
Local Arguments method {D Alg N}.
Local Arguments dist {D Alg N}.
Local Arguments sims {D Alg N}.
Local Arguments sa {D Alg N}.
Local Arguments Run {D Col Alg N}.
Local Arguments SetMethod {D Col Alg N}.
Local Arguments SetDist {D Col Alg N}.
Local Arguments SetSims {D Col Alg N}.
Local Arguments SetSizes {D Col Alg N}.
Local Arguments init {D Alg N}.
Notation world := (world D Col Alg N).
Notation state := (state D Alg N).
Notation op := (op D Col Alg N).
Notation run := (run D Col Alg N chaos lo hi).
Notation call := (call D Col Alg N is_joint dimension chaos dim lo hi).
Notation after := (after D Col Alg N is_joint dimension chaos dim lo hi).
Notation getSensitivityResult := (getSensitivityResult D Alg N).
Notation drawIndices := (drawIndices D Alg N V dim index).
Notation drawAggregatedIndices := (drawAggregatedIndices D Alg N dim).
Notation points := (points Alg V dim index).

(** The settings in force after the calls [past], newest first: the last accepted value of each. *)
Definition names := ["Saltelli"; "Martinez"; "Jansen"; "MauntzKucherenko"].
Fixpoint method_of (past : list op) : string :=
  match past with
  | [] => "Saltelli"
  | SetMethod m :: past' => if in_dec string_dec m names then m else method_of past'
  | _ :: past' => method_of past'
  end.
Definition fits (d : D) : Prop := is_joint d = true /\ dimension d = dim.
Fixpoint dist_of (d0 : D) (past : list op) : D :=
  match past with
  | [] => d0
  | SetDist d :: past' => if is_joint d && Nat.eqb (dimension d) dim then d else dist_of d0 past'
  | _ :: past' => dist_of d0 past'
  end.
Fixpoint sims_of (n0 : N) (past : list op) : N :=
  match past with [] => n0 | SetSims n :: _ => n | _ :: past' => sims_of n0 past' end.
(** The most recent call of run that returned, with the calls made before it. *)
Fixpoint last_run (s0 : state) (past : list op) : option (world * list op) :=
  match past with
  | [] => None
  | Run w :: past' => match snd (call (Run w) (after s0 past')) with Ok _ => Some (w, past') | Raise _ => last_run s0 past' end
  | _ :: past' => last_run s0 past'
  end.

Lemma known_names m : existsb (String.eqb m) ["Saltelli"; "Jansen"; "Martinez"; "MauntzKucherenko"] = true <-> In m names.
Proof.
  rewrite existsb_exists. unfold names. cbn [In]. split.
  - intros (x & Hx & E). apply String.eqb_eq in E. subst x. tauto.
  - intros H. exists m. split; [tauto|apply String.eqb_refl].
Qed.

(** Outcome of a successful run. *)
Lemma sobol_run_ok outs nz (z z' : sizes_state) cols :
  sobol_run lo hi (fun _ => outs) nz {| sb_sizes := z; sb_sa := None |} = ({| sb_sizes := z'; sb_sa := Some cols |}, Ok tt) ->
  cols = filter nz (outs : list Col).
Proof.
  unfold sobol_run. cbn [sb_sizes sb_sa]. rewrite filter_seq_length.
  destruct (Nat.eqb_spec (List.length (filter nz outs)) (List.length outs)) as [E|E]; cbn [negb].
  - intros [= <- <-]. symmetry. now apply filter_length_all.
  - destruct (fancy (st_sizes z) _) as [arg|e]; [|discriminate].
    destruct (setDefectSizes lo hi z arg) as [st1 [u|e]]; [|discriminate].
    rewrite fancy_filter by reflexivity. intros [= _ <-].
    clear. induction outs as [|x l IH]; cbn; [reflexivity|]. destruct (nz x); cbn; now rewrite IH.
Qed.
Lemma run_fields w s : let s' := fst (run w s) in method s' = method s /\ dist s' = dist s /\ sims s' = sims s.
Proof.
  unfold SobolObjModel.run. destruct (w_design w _ _ _) as [outs|e]; [|repeat split].
  destruct (sobol_run _ _ _ _ _) as [b r]. destruct r as [u|e]; destruct (sb_sa b) as [cols|]; try (repeat split; fail).
  destruct (w_algo w _ _); repeat split.
Qed.
Lemma run_sa w s : match snd (run w s) with
  | Ok _ => exists outs a, w_design w (dist s) (if chaos then Some (sims s) else None) (st_sizes (sizes s)) = Ok outs /\
              w_algo w (method s) (filter (w_nonzero w) outs) = Ok a /\ sa (fst (run w s)) = Some a
  | Raise _ => sa (fst (run w s)) = sa s
  end.
Proof.
  unfold SobolObjModel.run. destruct (w_design w _ _ _) as [outs|e] eqn:Ed; [|reflexivity].
  destruct (sobol_run _ _ _ _ _) as [b r] eqn:Eb. destruct r as [[]|e].
  - destruct b as [z' [cols|]]; cbn [sb_sa sb_sizes]; [|reflexivity].
    pose proof (sobol_run_ok _ _ _ _ _ Eb) as ->.
    destruct (w_algo w _ _) as [a|e] eqn:Ea; [|reflexivity]. cbn. exists outs, a. auto.
  - reflexivity.
Qed.
Lemma call_other o s : (forall w, o <> Run w) -> sa (fst (call o s)) = sa s.
Proof.
  intros H. destruct o as [w|m|d|n|l]; cbn [SobolObjModel.call].
  - destruct (H w eq_refl).
  - unfold setSensitivityMethod. now destruct (existsb _ _).
  - unfold setDistribution. destruct (negb _); [reflexivity|]. now destruct (negb _).
  - reflexivity.
  - unfold setSizes. now destruct (setDefectSizes _ _ _ _).
Qed.

(** The outcomes of the setters: refused arguments change nothing. *)
Theorem C78_setters s :
  (forall m, In m names -> snd (call (SetMethod m) s) = Ok tt /\ method (fst (call (SetMethod m) s)) = m) /\
  (forall m, ~ In m names -> call (SetMethod m) s = (s, Raise AttributeError)) /\
  (forall d, fits d -> snd (call (SetDist d) s) = Ok tt /\ dist (fst (call (SetDist d) s)) = d) /\
  (forall d, is_joint d = false -> call (SetDist d) s = (s, Raise ValueError)) /\
  (forall d, is_joint d = true -> dimension d <> dim -> call (SetDist d) s = (s, Raise AttributeError)).
Proof.
  cbn [SobolObjModel.call]. unfold setSensitivityMethod, setDistribution, fits. repeat split.
  - intros. now rewrite (proj2 (known_names m)).
  - intros. now rewrite (proj2 (known_names m)).
  - intros m H. destruct (existsb _ _) eqn:E; [|reflexivity]. destruct H. now apply known_names.
  - destruct H as [-> ->]. now rewrite Nat.eqb_refl.
  - destruct H as [-> ->]. now rewrite Nat.eqb_refl.
  - now intros d ->.
  - intros d -> H. apply Nat.eqb_neq in H. now rewrite H.
Qed.

(** setDefectSizes: accepted exactly when all sizes are in the range of the POD; the sizes are stored (sorted) even when refused, the
    method, the distribution, the simulation size and the result are never touched. *)
Theorem C78_setSizes s l :
  is_nan lo = false -> is_nan hi = false -> l <> [] -> existsb is_nan l = false ->
  (Forall (within lo hi) l -> snd (call (SetSizes l) s) = Ok tt) /\
  (~ Forall (within lo hi) l -> snd (call (SetSizes l) s) = Raise ValueError) /\
  st_sizes (sizes (fst (call (SetSizes l) s))) = fsort l /\
  method (fst (call (SetSizes l) s)) = method s /\ dist (fst (call (SetSizes l) s)) = dist s /\ sims (fst (call (SetSizes l) s)) = sims s /\
  sa (fst (call (SetSizes l) s)) = sa s.
Proof.
  intros Nl Nh Ne Nn. cbn [SobolObjModel.call]. unfold setSizes. destruct (setDefectSizes lo hi (sizes s) l) as [z r] eqn:E.
  destruct (setDefectSizes_spec lo hi (sizes s) l z r Nl Nh E) as (_ & A & _ & B & _). destruct (A Ne Nn) as [A1 A2]. cbn.
  repeat split; [intros X; now apply A1|intros X; now apply A2|now apply B].
Qed.

(** The settings after every history: the last accepted values, whatever runs and refused calls happened since. *)
Theorem C78_settings zs d0 n0 past :
  let s := after (init zs d0 n0) past in
  method s = method_of past /\ dist s = dist_of d0 past /\ sims s = sims_of n0 past /\
  In (method s) names /\ (fits d0 -> fits (dist s)).
Proof.
  cbn zeta. assert (H : let s := after (init zs d0 n0) past in method s = method_of past /\ dist s = dist_of d0 past /\ sims s = sims_of n0 past).
  { cbn zeta. induction past as [|o past (IH1 & IH2 & IH3)]; [repeat split|].
    cbn [SobolObjModel.after]. set (s := after (init zs d0 n0) past) in *. destruct o as [w|m|d|n|l]; cbn [method_of dist_of sims_of].
    - cbn [SobolObjModel.call]. destruct (run_fields w s) as (-> & -> & ->). auto.
    - destruct (C78_setters s) as (A & B & _). destruct (in_dec string_dec m names) as [i|i].
      + destruct (A m i) as [_ ->]. split; [reflexivity|]. rewrite <- IH2, <- IH3. cbn. unfold setSensitivityMethod.
        now destruct (existsb _ _).
      + rewrite (B m i). auto.
    - cbn. unfold setDistribution. destruct (is_joint d); cbn; [|auto]. destruct (Nat.eqb _ _); cbn; auto.
    - cbn. auto.
    - cbn. unfold setSizes. destruct (setDefectSizes _ _ _ _). cbn. auto. }
  destruct H as (H1 & H2 & H3). rewrite H1, H2, H3. repeat split.
  - clear. induction past as [|[w|m|d|n|l] past IH]; cbn [method_of]; try exact IH; [cbn; tauto|].
    destruct (in_dec string_dec m names); assumption.
  - clear -H. induction past as [|[w|m|d|n|l] past IH]; cbn [dist_of]; try exact IH; [apply H|].
    destruct (is_joint d && _)%bool eqn:E; [apply andb_prop in E; tauto|exact IH].
  - clear -H. induction past as [|[w|m|d|n|l] past IH]; cbn [dist_of]; try exact IH; [apply H|].
    destruct (is_joint d && _)%bool eqn:E; [apply andb_prop in E; destruct E as [_ E]; now apply Nat.eqb_eq in E|exact IH].
Qed.

(** The result: the one of the most recent successful run, computed by the method, on the distribution, with the simulation size (chaos
    only) and at the defect sizes in force when that run was called; an exception when no run succeeded. *)
Theorem C78_result zs d0 n0 past :
  let s0 := init zs d0 n0 in
  match last_run s0 past with
  | None => getSensitivityResult (after s0 past) = Raise GenericException
  | Some (w, before) =>
      exists outs a,
        w_design w (dist_of d0 before) (if chaos then Some (sims_of n0 before) else None) (st_sizes (sizes (after s0 before))) = Ok outs /\
        w_algo w (method_of before) (filter (w_nonzero w) outs) = Ok a /\ getSensitivityResult (after s0 past) = Ok a
  end.
Proof.
  cbn zeta. set (s0 := init zs d0 n0).
  assert (G : match last_run s0 past with
    | None => sa (after s0 past) = None
    | Some (w, before) => exists outs a,
        w_design w (dist_of d0 before) (if chaos then Some (sims_of n0 before) else None) (st_sizes (sizes (after s0 before))) = Ok outs /\
        w_algo w (method_of before) (filter (w_nonzero w) outs) = Ok a /\ sa (after s0 past) = Some a end).
  { induction past as [|o past IH]; [reflexivity|]. cbn [last_run SobolObjModel.after].
    destruct o as [w|m|d|n|l]; try (rewrite call_other by discriminate; exact IH).
    pose proof (run_sa w (after s0 past)) as H. cbn [SobolObjModel.call] in *.
    destruct (C78_settings zs d0 n0 past) as (E1 & E2 & E3 & _). fold s0 in E1, E2, E3.
    destruct (snd (run w (after s0 past))) as [u|e].
    - rewrite <- E1, <- E2, <- E3. exact H.
    - rewrite H. exact IH. }
  unfold SobolObjModel.getSensitivityResult. destruct (last_run s0 past) as [[w before]|].
  - destruct G as (outs & a & G1 & G2 & ->). exists outs, a. auto.
  - now rewrite G.
Qed.

(** Which points are drawn by drawFirstOrderIndices and drawTotalOrderIndices: the indices of output i at the i-th defect size of now,
    when they can be computed. *)
Definition title (k : order) (m : string) : string :=
  ((match k with First => "First" | Total => "Total" end) ++ " order sensitivity indices - " ++ m ++ " Algorithm")%string.
Lemma points_in k a : forall l i x v,
  In (x, v) (points k (Some a) i l) <-> exists j, nth_error l j = Some x /\ index k a (i + j) = Ok v /\ List.length v = dim.
Proof.
  induction l as [|y l IH]; intros i x v; cbn [SobolObjModel.points].
  - split; [intros []|]. intros (j & H & _). destruct j; discriminate.
  - assert (Hs : (exists j, nth_error l j = Some x /\ index k a (S i + j) = Ok v /\ List.length v = dim) <->
                 (exists j, nth_error (y :: l) (S j) = Some x /\ index k a (i + S j) = Ok v /\ List.length v = dim)).
    { split; intros (j & H1 & H2 & H3); exists j; cbn [nth_error] in *; repeat split; try assumption.
      - now rewrite <- plus_n_Sm. - now rewrite <- plus_n_Sm in H2. }
    destruct (index k a i) as [u|e] eqn:E.
    + destruct (Nat.eqb_spec (List.length u) dim) as [El|El].
      * cbn [In]. rewrite IH, Hs. split.
        -- intros [[= -> ->]|(j & H)]; [exists 0; rewrite Nat.add_0_r; cbn; auto|exists (S j); exact H].
        -- intros ([|j] & H1 & H2 & H3); [left; cbn in H1; rewrite Nat.add_0_r in H2; congruence|right; exists j; auto].
      * rewrite IH, Hs. split; [intros (j & H); exists (S j); exact H|].
        intros ([|j] & H1 & H2 & H3); [rewrite Nat.add_0_r in H2; congruence|exists j; auto].
    + rewrite IH, Hs. split; [intros (j & H); exists (S j); exact H|].
      intros ([|j] & H1 & H2 & H3); [rewrite Nat.add_0_r in H2; congruence|exists j; auto].
Qed.
Lemma points_all k a (ind : nat -> list V) : forall l i,
  (forall j, j < List.length l -> index k a (i + j) = Ok (ind (i + j)) /\ List.length (ind (i + j)) = dim) ->
  points k (Some a) i l = combine l (map ind (seq i (List.length l))).
Proof.
  induction l as [|y l IH]; intros i H; [reflexivity|]. cbn [SobolObjModel.points List.length seq map combine].
  destruct (H 0 ltac:(cbn; lia)) as [H1 H2]. rewrite Nat.add_0_r in *. rewrite H1, H2, Nat.eqb_refl. f_equal.
  apply IH. intros j Hj. specialize (H (S j) ltac:(cbn; lia)). now rewrite <- plus_n_Sm in H.
Qed.
Lemma points_none k : forall l i, points k None i l = [].
Proof. induction l as [|x l IH]; intros i; [reflexivity|apply IH]. Qed.

Theorem C78_drawn zs d0 n0 past k label :
  let s0 := init zs d0 n0 in let s := after s0 past in
  (forall l, label = Some l -> List.length l <> dim -> drawIndices k label s = Raise AttributeError /\ drawAggregatedIndices label s = Raise AttributeError) /\
  ((forall l, label = Some l -> List.length l = dim) ->
   exists pts, drawIndices k label s = Ok (pts, title k (method_of past)) /\
     match getSensitivityResult s with
     | Raise _ => pts = [] /\ drawAggregatedIndices label s = Raise AttributeError
     | Ok a =>
         drawAggregatedIndices label s = Ok a /\
         (forall x v, In (x, v) pts <-> exists i, nth_error (st_sizes (sizes s)) i = Some x /\ index k a i = Ok v /\ List.length v = dim) /\
         forall ind, (forall i, i < List.length (st_sizes (sizes s)) -> index k a i = Ok (ind i) /\ List.length (ind i) = dim) ->
                     pts = combine (st_sizes (sizes s)) (map ind (seq 0 (List.length (st_sizes (sizes s)))))
     end).
Proof.
  cbn zeta. set (s := after (init zs d0 n0) past). split.
  - intros l -> H. apply Nat.eqb_neq in H. unfold SobolObjModel.drawIndices, SobolObjModel.drawAggregatedIndices, check_label.
    now rewrite H.
  - intros H. assert (Ec : check_label dim label = Ok tt).
    { unfold check_label. destruct label as [l|]; [|reflexivity]. now rewrite (H l eq_refl), Nat.eqb_refl. }
    exists (points k (sa s) 0 (st_sizes (sizes s))). split.
    { unfold SobolObjModel.drawIndices. rewrite Ec. cbn [bind]. unfold title.
      destruct (C78_settings zs d0 n0 past) as (E & _). fold s in E. now rewrite E. }
    unfold SobolObjModel.getSensitivityResult, SobolObjModel.drawAggregatedIndices. rewrite Ec. cbn [bind].
    destruct (sa s) as [a|].
    + split; [reflexivity|]. split.
      * intros x v. exact (points_in k a _ 0 x v).
      * intros ind Hi. apply points_all. intros j Hj. apply Hi. exact Hj.
    + split; [apply points_none|reflexivity].
Qed.
End Spec.
Print Assumptions C78_setters.
Print Assumptions C78_setSizes.
Example C78_setSizes_case : is_nan fone = false /\ is_nan (of_int 5) = false /\ existsb is_nan [of_int 4; of_int 2] = false /\ Forall (within fone (of_int 5)) [of_int 4; of_int 2] /\
  ~ Forall (within fone (of_int 5)) [of_int 4; of_int 7].
Proof.
  repeat split; try reflexivity; [repeat constructor|]. intros H. inversion H as [|? ? _ H2]. inversion H2 as [|? ? H3 _]. destruct H3 as [_ H3]. vm_compute in H3. discriminate.
Qed.
Print Assumptions C78_settings.
Print Assumptions C78_result.
Print Assumptions C78_drawn.

(** A concrete object on two parameters: distributions are (joint, dimension), a column is the list of its values and its variance is null
    when they are equal, a sensitivity object remembers method and columns. *)
Definition demo_alg := (string * list (list Z))%type.
Definition demo_world : world (bool * nat) (list Z) demo_alg nat :=
  {| w_design := fun _ _ l => Ok (map (fun x => if fltb x (of_int 2) then [1; 1]%Z else [1; 2]%Z) l);
     w_nonzero := fun c => match c with [a; b] => negb (Z.eqb a b) | _ => false end;
     w_algo := fun m c => Ok (m, c) |}.
Definition demo_index (k : order) (a : demo_alg) (i : nat) : res (list Z) :=
  if Nat.ltb i (List.length (snd a)) then Ok [1; 0]%Z else Raise GenericException.
Notation demo_after := (after (bool * nat) (list Z) demo_alg nat fst snd false 2 (of_int 1) (of_int 3)).
Definition demo_init := init (bool * nat) demo_alg nat [of_int 1; of_int 2; of_int 3] (true, 2) 1000.

(** Finding: the title of the graph names the method chosen last, not the one that computed the indices on it. *)
Theorem C78_title_refuted :
  exists past a pts,
    let s := demo_after demo_init past in
    getSensitivityResult _ _ _ s = Ok a /\ fst a = "Saltelli" /\
    drawIndices _ _ _ _ 2 demo_index First None s = Ok (pts, title First "Jansen").
Proof.
  exists [SetMethod _ _ _ _ "Jansen"; Run _ _ _ _ demo_world].
  eexists. eexists. split; [vm_compute; reflexivity|]. split; reflexivity.
Qed.
Print Assumptions C78_title_refuted.

(** The first size has a null variance: two sizes and two columns remain; a wrong name and a wrong distribution change nothing. *)
Example C78_example :
  let past := [SetMethod _ _ _ _ "Sobol"; SetDist _ _ _ _ (true, 3); SetDist _ _ _ _ (false, 2); Run _ _ _ _ demo_world; SetMethod _ _ _ _ "Martinez"] in
  let s := demo_after demo_init past in
  getSensitivityResult _ _ _ s = Ok ("Martinez", [[1; 2]; [1; 2]]%Z) /\ st_sizes (sizes _ _ _ s) = [of_int 2; of_int 3] /\
  last_run _ _ _ _ fst snd false 2 (of_int 1) (of_int 3) demo_init past = Some (demo_world, [SetMethod _ _ _ _ "Martinez"]) /\
  drawIndices _ _ _ _ 2 demo_index Total (Some ["a"; "b"]) s = Ok ([(of_int 2, [1; 0]%Z); (of_int 3, [1; 0]%Z)], title Total "Martinez").
Proof.
  cbn zeta. split; [vm_compute; reflexivity|]. split; [vm_compute; reflexivity|]. split; [reflexivity|vm_compute; reflexivity].
Qed.
