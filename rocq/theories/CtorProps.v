(** C06, C07, C08: constructors and Box-Cox parameter. *)
From Coq Require Import SpecFloat.
From Verif Require Import Base Float64 CtorModel.

(** C07: what each class requires of the two samples. *)
Definition base_ok (i o : sample) : Prop := 3 <= s_size i /\ s_size i = s_size o /\ s_dim o = 1.
Definition input_dim_ok (c : pod_class) (d : nat) : Prop :=
  match c with
  | LinearPOD | QuantilePOD => d = 1
  | KrigingClass | AdaptiveSignalClass => 2 <= d
  | ChaosClass | HitMissClass => True
  end.

Lemma asserts_spec l : asserts l = None <-> Forall (fun bc => fst bc = true) l.
Proof.
  induction l as [|[b c] l IH]; cbn; [split; [constructor|reflexivity]|].
  destruct b; cbn.
  - rewrite IH. split; [now constructor|]. now inversion 1.
  - split; [discriminate|]. inversion 1; subst; cbn in *; discriminate.
Qed.
Lemma asserts_first l c : asserts l = Some c ->
  exists l1 l2, l = l1 ++ (false, c) :: l2 /\ Forall (fun bc => fst bc = true) l1.
Proof.
  induction l as [|[b c'] l IH]; cbn; [discriminate|]. destruct b; intros H.
  - destruct (IH H) as [l1 [l2 [-> Hf]]]. exists ((true, c') :: l1), l2. split; [reflexivity|]. now constructor.
  - injection H as <-. exists [], l. split; [reflexivity|constructor].
Qed.

Theorem C07_accepted_shapes :
  forall (c : pod_class) (i o : sample),
    pod_checks c i o = None <-> (base_ok i o /\ input_dim_ok c (s_dim i)).
Proof.
  intros c i o. unfold pod_checks. rewrite asserts_spec, Forall_app. unfold pod_asserts, base_ok.
  rewrite !Forall_cons_iff. cbn [fst]. rewrite Nat.leb_le, !Nat.eqb_eq.
  destruct c; cbn [class_asserts input_dim_ok]; rewrite ?Forall_cons_iff; cbn [fst];
    rewrite ?Nat.eqb_eq, ?Nat.ltb_lt; firstorder.
Qed.
Print Assumptions C07_accepted_shapes.

(** The message is that of the first violated requirement in this order: at least 3 observations, equal sizes, scalar
    output, input dimension. *)
Theorem C07_first_violation :
  forall (c : pod_class) (i o : sample) (k : check),
    pod_checks c i o = Some k ->
    match k with
    | NotEnoughObservations => s_size i < 3
    | SizesDiffer => 3 <= s_size i /\ s_size i <> s_size o
    | OutputDimension => 3 <= s_size i /\ s_size i = s_size o /\ s_dim o <> 1
    | InputDimension => base_ok i o /\ ~ input_dim_ok c (s_dim i)
    end.
Proof.
  intros c i o k. unfold pod_checks, pod_asserts, base_ok. cbn [app asserts fold_right fst snd].
  destruct (Nat.leb_spec 3 (s_size i)); [|intros [= <-]; lia].
  destruct (Nat.eqb_spec (s_size i) (s_size o)); [|intros [= <-]; auto].
  destruct (Nat.eqb_spec (s_dim o) 1); [|intros [= <-]; auto].
  destruct c; cbn [class_asserts fold_right fst snd input_dim_ok]; try discriminate;
    try (destruct (Nat.eqb_spec (s_dim i) 1); [discriminate|intros [= <-]; auto]);
    destruct (Nat.ltb_spec 1 (s_dim i)); try discriminate; intros [= <-]; split; auto; lia.
Qed.
Print Assumptions C07_first_violation.

(** The analysis accepts exactly what the linear POD accepts (with another message order). *)
Theorem C07_analysis_accepts_same_data :
  forall i o : sample, analysis_checks i o = None <-> pod_checks LinearPOD i o = None.
Proof.
  intros i o. rewrite C07_accepted_shapes. unfold analysis_checks. rewrite asserts_spec.
  rewrite !Forall_cons_iff. cbn [fst]. rewrite Nat.leb_le, !Nat.eqb_eq. unfold base_ok, input_dim_ok.
  split; [|firstorder]. tauto.
Qed.
Print Assumptions C07_analysis_accepts_same_data.

(** Finding: the chaos and hit-miss classes, multivariate as the kriging ones, accept a single input. *)
Theorem C07_chaos_hitmiss_accept_one_input :
  forall i o : sample, base_ok i o -> s_dim i = 1 ->
    pod_checks ChaosClass i o = None /\ pod_checks HitMissClass i o = None /\
    pod_checks KrigingClass i o = Some InputDimension /\ pod_checks AdaptiveSignalClass i o = Some InputDimension.
Proof.
  intros i o Hb Hd. rewrite !C07_accepted_shapes. cbn [input_dim_ok]. split; [auto|]. split; [auto|].
  destruct Hb as [H1 [H2 H3]]. unfold pod_checks, pod_asserts. cbn [app asserts fold_right fst snd class_asserts].
  rewrite <- H2, H3, Hd, Nat.eqb_refl. apply Nat.leb_le in H1. rewrite H1. split; reflexivity.
Qed.
Print Assumptions C07_chaos_hitmiss_accept_one_input.

Definition ex_col (l : list Z) : sample := {| s_data := map (fun z => [of_int z]) l; s_dim := 1 |}.
Example C07_examples :
  pod_checks LinearPOD (ex_col [1; 2; 3]%Z) (ex_col [4; 5; 6]%Z) = None /\
  pod_checks KrigingClass (ex_col [1; 2; 3]%Z) (ex_col [4; 5]%Z) = Some SizesDiffer /\
  base_ok (ex_col [1; 2; 3]%Z) (ex_col [4; 5; 6]%Z).
Proof. split; [reflexivity|]. split; [reflexivity|]. split; [cbn; lia|]. split; reflexivity. Qed.

(** C08 *)
Theorem C08_with_an_analysis :
  forall (F : Type) (optimise : sample -> sample -> float) (normalFactory : F)
         i o noise sat res box (a : analysis F) (g : args F),
    analysis_ctor optimise normalFactory i o noise sat res box = Ok a -> g_analysis g = Some a ->
    ((g_in g = None /\ g_out g = None /\ g_noise g = None /\ g_sat g = None /\ g_res g = None /\
      g_detection g <> None) ->
     exists p, linear_ctor g = Ok p /\
       p_in p = i /\ p_out p = o /\ p_noise p = noise /\ p_sat p = sat /\ p_detection p = g_detection g /\
       p_res p = Some (match res with None => normalFactory | Some f => f end) /\
       p_boxCox p = box_flag box) /\
    (~ (g_in g = None /\ g_out g = None /\ g_noise g = None /\ g_sat g = None /\ g_res g = None /\
        g_detection g <> None) ->
     linear_ctor g = Raise AttributeError).
Proof.
  intros F optimise normalFactory i o noise sat res box a g Ha Hg. unfold linear_ctor. rewrite Hg.
  unfold analysis_ctor in Ha. destruct (analysis_checks i o) eqn:E; [discriminate|].
  apply C07_analysis_accepts_same_data in E. injection Ha as <-.
  split.
  - intros [-> [-> [-> [-> [-> Hd]]]]]. destruct (g_detection g) as [d|] eqn:Ed; [|congruence]. cbn [is_none andb negb].
    unfold linear_init. cbn [a_in a_out a_noise a_sat a_res a_lambda]. rewrite E. eexists. split; [reflexivity|].
    cbn. repeat split. destruct box as [l|[]]; reflexivity.
  - intros H. match goal with |- (if ?b then _ else _) = _ => destruct b eqn:Eb; [|reflexivity] end.
    exfalso. apply H. rewrite !andb_true_iff in Eb. destruct Eb as [[[[[H1 H2] H3] H4] H5] H6].
    destruct (g_in g), (g_out g), (g_noise g), (g_sat g), (g_res g), (g_detection g); try discriminate.
    repeat split; discriminate.
Qed.
Print Assumptions C08_with_an_analysis.

Theorem C08_without_analysis :
  forall (F : Type) (g : args F), g_analysis g = None ->
    ((exists p, linear_ctor g = Ok p) <->
     (exists i o, g_in g = Some i /\ g_out g = Some o /\ base_ok i o /\ s_dim i = 1)) /\
    (forall p, linear_ctor g = Ok p ->
       g_in g = Some (p_in p) /\ g_out g = Some (p_out p) /\ p_detection p = g_detection g /\
       p_noise p = g_noise g /\ p_sat p = g_sat g /\ p_res p = g_res g /\ p_boxCox p = box_flag (g_box g)).
Proof.
  intros F g Hg. unfold linear_ctor. rewrite Hg. unfold linear_init.
  destruct (g_in g) as [i|]; [destruct (g_out g) as [o|]|].
  - assert (HC := C07_accepted_shapes LinearPOD i o). cbn [input_dim_ok] in HC. split.
    + destruct (pod_checks LinearPOD i o) eqn:E.
      * split; [intros [p Hp]; discriminate|]. intros [i' [o' [[= <-] [[= <-] H]]]].
        assert (HH := proj2 HC H). discriminate.
      * split; [|eauto]. intros _. exists i, o. split; [reflexivity|]. split; [reflexivity|]. now apply HC.
    + intros p Hp. destruct (pod_checks LinearPOD i o); [discriminate|]. injection Hp as <-. cbn. repeat split.
  - split; [|discriminate]. split; [intros [p Hp]; discriminate|]. intros [i' [o' [_ [H _]]]]. discriminate.
  - split; [|discriminate]. split; [intros [p Hp]; discriminate|]. intros [i' [o' [H _]]]. discriminate.
Qed.
Print Assumptions C08_without_analysis.

(** Findings: boxCox given together with an analysis is silently ignored; a missing detection threshold is accepted when no
    analysis is given; a POD built from an analysis never uses the default (binomial, no factory) hypothesis. *)
Theorem C08_boxCox_silently_overridden :
  forall (F : Type) (g : args F) (a : analysis F) (box : boxarg),
    g_analysis g = Some a ->
    linear_ctor {| g_in := g_in g; g_out := g_out g; g_detection := g_detection g; g_noise := g_noise g;
                   g_sat := g_sat g; g_res := g_res g; g_box := box; g_analysis := g_analysis g |} = linear_ctor g.
Proof. intros F g a box Hg. unfold linear_ctor. cbn. rewrite Hg. reflexivity. Qed.
Print Assumptions C08_boxCox_silently_overridden.
Theorem C08_missing_detection_refuted :
  exists (F : Type) (g : args F) p, g_detection g = None /\ linear_ctor g = Ok p.
Proof.
  exists unit, {| g_in := Some (ex_col [1; 2; 3]%Z); g_out := Some (ex_col [4; 5; 6]%Z); g_detection := None;
                  g_noise := None; g_sat := None; g_res := None; g_box := BTruth false; g_analysis := None |}.
  eexists. split; reflexivity.
Qed.
Print Assumptions C08_missing_detection_refuted.
Theorem C08_analysis_never_binomial :
  forall (F : Type) (g : args F) (a : analysis F) p,
    g_analysis g = Some a -> linear_ctor g = Ok p -> p_res p <> None.
Proof.
  intros F g a p Hg. unfold linear_ctor. rewrite Hg.
  match goal with |- (if ?b then _ else _) = _ -> _ => destruct b; [|discriminate] end.
  unfold linear_init. destruct (pod_checks _ _ _); [discriminate|]. intros [= <-]. discriminate.
Qed.
Print Assumptions C08_analysis_never_binomial.
(** Hypotheses met. *)
Definition ex_analysis : analysis unit :=
  {| a_in := ex_col [1; 2; 3]%Z; a_out := ex_col [4; 5; 6]%Z; a_noise := Some (of_int 2); a_sat := None;
     a_res := tt; a_lambda := Some (of_ratio 1 2) |}.
Example C08_example :
  analysis_ctor (fun _ _ => of_int 7) tt (ex_col [1; 2; 3]%Z) (ex_col [4; 5; 6]%Z) (Some (of_int 2)) None None
                (BFloat (of_ratio 1 2)) = Ok ex_analysis /\
  (exists p, linear_ctor {| g_in := None; g_out := None; g_detection := Some (of_int 5); g_noise := None; g_sat := None;
                            g_res := None; g_box := BTruth false; g_analysis := Some ex_analysis |} = Ok p /\
             p_noise p = Some (of_int 2) /\ p_boxCox p = true) /\
  linear_ctor {| g_in := None; g_out := None; g_detection := Some (of_int 5); g_noise := Some (of_int 1); g_sat := None;
                 g_res := None; g_box := BTruth false; g_analysis := Some ex_analysis |} = Raise AttributeError.
Proof. split; [reflexivity|]. split; [eexists; split; [reflexivity|split; reflexivity]|reflexivity]. Qed.

(** C06: the analysis uses the given lambda, or the optimised one, or none. *)
Theorem C06_analysis_uses_given_lambda :
  forall (F : Type) optimise (nf : F) i o noise sat res box a,
    analysis_ctor optimise nf i o noise sat res box = Ok a ->
    a_lambda a = match box with
                 | BFloat l => Some l
                 | BTruth true => Some (optimise i o)
                 | BTruth false => None
                 end.
Proof.
  intros F optimise nf i o noise sat res box a. unfold analysis_ctor.
  destruct (analysis_checks i o); [discriminate|]. intros [= <-]. cbn. now destruct box as [l|[]].
Qed.
Print Assumptions C06_analysis_uses_given_lambda.
(** Finding: after run the lambda of a POD is the optimised one whenever Box-Cox is enabled, whatever value was given;
    it is None when Box-Cox is disabled. *)
Theorem C06_pod_ignores_given_lambda :
  forall (F : Type) optimise (g : args F) p, g_analysis g = None -> linear_ctor g = Ok p ->
    p_lambda (linear_run optimise p)
    = if box_flag (g_box g) then Some (optimise (p_in p) (p_out p)) else None.
Proof.
  intros F optimise g p Hg Hp. destruct (C08_without_analysis F g Hg) as [_ H].
  destruct (H p Hp) as [_ [_ [_ [_ [_ [_ Hb]]]]]]. unfold linear_run, pod_run_lambda. cbn. now rewrite Hb.
Qed.
Print Assumptions C06_pod_ignores_given_lambda.
(** run computes lambda and leaves the data, the thresholds and the options of the constructor as they are. *)
Theorem C06_run_keeps_the_rest :
  forall (F : Type) optimise (p : linear_pod F), let q := linear_run optimise p in
    p_in q = p_in p /\ p_out q = p_out p /\ p_detection q = p_detection p /\ p_noise q = p_noise p /\ p_sat q = p_sat p /\
    p_res q = p_res p /\ p_boxCox q = p_boxCox p.
Proof. intros F optimise p. repeat split. Qed.
Print Assumptions C06_run_keeps_the_rest.
Theorem C06_given_lambda_refuted :
  exists (F : Type) optimise (g : args F) p l,
    g_analysis g = None /\ g_box g = BFloat l /\ linear_ctor g = Ok p /\
    p_lambda p = Some l /\ p_lambda (linear_run optimise p) <> Some l.
Proof.
  exists unit, (fun _ _ => of_int 7),
    {| g_in := Some (ex_col [1; 2; 3]%Z); g_out := Some (ex_col [4; 5; 6]%Z); g_detection := Some (of_int 5);
       g_noise := None; g_sat := None; g_res := None; g_box := BFloat (of_ratio 1 2); g_analysis := None |}.
  eexists. exists (of_ratio 1 2). split; [reflexivity|]. split; [reflexivity|]. split; [reflexivity|].
  split; [reflexivity|]. intros H. vm_compute in H. discriminate.
Qed.
Print Assumptions C06_given_lambda_refuted.
(** Finding: a POD built from an analysis agrees with it on whether Box-Cox is used, but uses another lambda unless the
    optimiser happens to return the analysis' one. *)
Theorem C06_pod_from_analysis :
  forall (F : Type) optimise (nf : F) i o noise sat res box a (g : args F) p,
    analysis_ctor optimise nf i o noise sat res box = Ok a -> g_analysis g = Some a -> linear_ctor g = Ok p ->
    p_lambda (linear_run optimise p) = match a_lambda a with Some _ => Some (optimise i o) | None => None end.
Proof.
  intros F optimise nf i o noise sat res box a g p Ha Hg Hp.
  destruct (C08_with_an_analysis F optimise nf i o noise sat res box a g Ha Hg) as [H1 H2].
  rewrite (C06_analysis_uses_given_lambda _ _ _ _ _ _ _ _ _ _ Ha).
  assert (Hd : (g_in g = None /\ g_out g = None /\ g_noise g = None /\ g_sat g = None /\ g_res g = None /\
                g_detection g <> None) \/
               ~ (g_in g = None /\ g_out g = None /\ g_noise g = None /\ g_sat g = None /\ g_res g = None /\
                  g_detection g <> None)).
  { destruct (g_in g), (g_out g), (g_noise g), (g_sat g), (g_res g), (g_detection g);
      try (right; intuition congruence); left; intuition congruence. }
  destruct Hd as [Hd|Hd]; [|rewrite (H2 Hd) in Hp; discriminate].
  destruct (H1 Hd) as [p' [Hp' [Hi [Ho [_ [_ [_ [_ Hb]]]]]]]]. rewrite Hp in Hp'. injection Hp' as <-.
  unfold linear_run, pod_run_lambda. cbn. rewrite Hb, Hi, Ho. destruct box as [l|[]]; reflexivity.
Qed.
Print Assumptions C06_pod_from_analysis.
