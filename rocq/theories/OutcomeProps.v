(** Outcomes of refused calls and of calls before run, and the binding of arguments (C08, C28, C39, C64, C71). *)
From Coq Require Import String Reals Lra.
From Verif Require Import Base Float64 RealBase QuantileModel InterpModel.
From Verif Require CtorModel CtorProps DocModel KrigAttrModel ChaosAttrModel HitMissModel HitMissSpec HitMissProps AccessModel.

(** *** C28: before the first run the curves do not exist *)
Theorem C28_no_curve_before_run :
  forall (sizes : list R) (c t : R),
    meta_evalPOD (meta_new sizes) t = Raise AttributeError /\ meta_evalCL (meta_new sizes) c t = Raise AttributeError /\
    forall l, meta_evalPOD (fold_left meta_setSizes l (meta_new sizes)) t = Raise AttributeError /\
              meta_evalCL (fold_left meta_setSizes l (meta_new sizes)) c t = Raise AttributeError.
Proof.
  intros sizes c t. split; [reflexivity|]. split; [reflexivity|]. intros l.
  assert (G : forall l o, mo_curve o = None -> mo_rows o = None ->
            mo_curve (fold_left meta_setSizes l o) = None /\ mo_rows (fold_left meta_setSizes l o) = None).
  { clear. induction l as [|z l IH]; intros o A B; [auto|]. cbn [fold_left]. apply IH; assumption. }
  destruct (G l (meta_new sizes) eq_refl eq_refl) as [A B]. unfold meta_evalPOD, meta_evalCL. now rewrite A, B.
Qed.
Print Assumptions C28_no_curve_before_run.

(** *** C39: what getOutputDOE gives back after a run: the labels themselves, those of the data then those of the physical model at
    the points added (the constructor sets _boxCox to False, so that nothing is transformed back) *)
Theorem C39_output_doe :
  forall (X : Type) argsort fit phys (candidates : list X) b nMore input labels fuel s inverse,
    HitMissSpec.argsort_spec argsort -> List.length labels = List.length input -> (nMore <= 5 * fuel)%nat ->
    HitMissModel.hm_run argsort fit phys candidates b nMore fuel input labels = Some (s, Ok tt) ->
    exists added, List.length added = nMore /\ HitMissModel.h_input s = input ++ added /\
      AccessModel.hitmiss_outputDOE false inverse (HitMissModel.h_labels s) = labels ++ map phys added.
Proof.
  intros X argsort fit phys candidates b nMore input labels fuel s inverse Has Hl Hf Hr.
  destruct (HitMissProps.C39_exact_growth X argsort fit phys candidates b nMore input labels fuel Has Hl Hf) as (s' & r' & E & H).
  rewrite Hr in E. injection E as <- <-. destruct (H eq_refl) as (rounds & A & B & C & _). eexists. split; [exact B|]. split; [exact A|exact C].
Qed.
Print Assumptions C39_output_doe.

(** *** C08: the two ways the constructor of the linear POD refuses data given without an analysis *)
Theorem C08_refusals :
  forall (F : Type) (g : CtorModel.args F), CtorModel.g_analysis g = None ->
    (CtorModel.linear_ctor g = Raise TypeError <-> CtorModel.g_in g = None \/ CtorModel.g_out g = None) /\
    (CtorModel.linear_ctor g = Raise AssertionError <->
       exists i o, CtorModel.g_in g = Some i /\ CtorModel.g_out g = Some o /\ ~ (CtorProps.base_ok i o /\ CtorModel.s_dim i = 1%nat)).
Proof.
  intros F g Hg. unfold CtorModel.linear_ctor. rewrite Hg. unfold CtorModel.linear_init.
  destruct (CtorModel.g_in g) as [i|]; [destruct (CtorModel.g_out g) as [o|]|].
  - assert (HC := CtorProps.C07_accepted_shapes CtorModel.LinearPOD i o). cbn [CtorProps.input_dim_ok] in HC.
    destruct (CtorModel.pod_checks CtorModel.LinearPOD i o) eqn:E.
    + split; [split; [discriminate|intros [H|H]; discriminate]|]. split; [|reflexivity]. intros _. exists i, o. split; [reflexivity|]. split; [reflexivity|].
      intros H. apply HC in H. discriminate.
    + split; [split; [discriminate|intros [H|H]; discriminate]|]. split; [discriminate|]. intros (i' & o' & [= <-] & [= <-] & H). destruct H. now apply HC.
  - split; [split; auto|]. split; [discriminate|]. intros (i' & o' & _ & H & _). discriminate.
  - split; [split; auto|]. split; [discriminate|]. intros (i' & o' & H & _). discriminate.
Qed.
Print Assumptions C08_refusals.

(** *** C64: what the arguments of a call are bound to *)
(** [vs] are the values the parameters [ps] receive: positional arguments first and each parameter once, then keywords, then defaults. *)
Definition bound {V} (ps : list (string * option V)) (args : list V) (kw : list (string * V)) (vs : list V) : Prop :=
  (forall n, In n (map fst kw) -> In n (map fst ps)) /\ (List.length args <= List.length ps)%nat /\ List.length vs = List.length ps /\
    forall i n d, nth_error ps i = Some (n, d) ->
    ((i < List.length args)%nat -> ~ In n (map fst kw) /\ nth_error vs i = nth_error args i) /\
    ((List.length args <= i)%nat -> exists v, nth_error vs i = Some v /\ (In (n, v) kw \/ (~ In n (map fst kw) /\ d = Some v))).
Lemma keyword_spec {V} n (kw : list (string * V)) :
  NoDup (map fst kw) ->
  match DocModel.keyword n kw with Some v => In (n, v) kw | None => ~ In n (map fst kw) end /\
    forall v, In (n, v) kw -> DocModel.keyword n kw = Some v.
Proof.
  induction kw as [|[k v] kw IH]; intros H; [split; [intros []|intros _ []]|]. cbn [DocModel.keyword map fst] in *.
  apply NoDup_cons_iff in H as [H1 H2]. destruct (IH H2) as [A B]. destruct (String.eqb_spec n k) as [->|N].
  - split; [now left|]. intros w [[= ->]|Hw]; [reflexivity|]. exfalso. apply H1. now apply (in_map fst) in Hw.
  - split.
    + destruct (DocModel.keyword n kw); [now right|]. intros [E|E]; [now apply N|now apply A].
    + intros w [[= -> ->]|Hw]; [contradiction|now apply B].
Qed.
Lemma known_spec {V} (ps : list (string * option V)) kw :
  DocModel.known ps kw = true <-> forall n, In n (map fst kw) -> In n (map fst ps).
Proof.
  unfold DocModel.known. rewrite forallb_forall. split.
  - intros H n Hn. apply in_map_iff in Hn as ([k v] & <- & Hk). specialize (H _ Hk). apply existsb_exists in H as (p & Hp & E).
    apply String.eqb_eq in E. cbn [fst] in *. rewrite E. now apply in_map.
  - intros H [k v] Hk. apply existsb_exists. specialize (H k (in_map fst _ _ Hk)). apply in_map_iff in H as (p & E & Hp). exists p. split; [exact Hp|].
    now apply String.eqb_eq.
Qed.
Definition bound_rest {V} (ps : list (string * option V)) (args : list V) (kw : list (string * V)) (vs : list V) : Prop :=
  (List.length args <= List.length ps)%nat /\ List.length vs = List.length ps /\
    forall i n d, nth_error ps i = Some (n, d) ->
    ((i < List.length args)%nat -> ~ In n (map fst kw) /\ nth_error vs i = nth_error args i) /\
    ((List.length args <= i)%nat -> exists v, nth_error vs i = Some v /\ (In (n, v) kw \/ (~ In n (map fst kw) /\ d = Some v))).
Lemma bind_spec {V} (kw : list (string * V)) : NoDup (map fst kw) -> forall ps args,
  match DocModel.bind_params ps args kw with
  | Ok vs => forall ws, bound_rest ps args kw ws <-> ws = vs
  | Raise e => e = TypeError /\ forall ws, ~ bound_rest ps args kw ws
  end.
Proof.
  intros Hk. induction ps as [|[n d] ps IH]; intros args.
  - destruct args as [|a args]; cbn [DocModel.bind_params].
    + intros ws. split.
      * intros (_ & L & _). now destruct ws.
      * intros ->. split; [cbn; lia|]. split; [reflexivity|]. intros [|i] m e; discriminate.
    + split; [reflexivity|]. intros ws (L & _). cbn in L. lia.
  - destruct (keyword_spec n kw Hk) as [K1 K2]. destruct args as [|a args]; cbn [DocModel.bind_params].
    + assert (Step : forall ws v, (forall w, (In (n, w) kw \/ (~ In n (map fst kw) /\ d = Some w)) <-> w = v) ->
         (bound_rest ((n, d) :: ps) [] kw ws <-> exists ws', ws = v :: ws' /\ bound_rest ps [] kw ws')).
      { intros ws v Hv. split.
        - intros (_ & L & H). destruct ws as [|w ws]; [discriminate|]. exists ws. split.
          + destruct (H 0%nat n d eq_refl) as [_ H0]. destruct (H0 ltac:(cbn; lia)) as (v' & [= <-] & C). f_equal. now apply Hv.
          + split; [cbn; lia|]. split; [now injection L|]. intros i m e Hi. destruct (H (S i) m e Hi) as [_ H0]. split; [cbn; lia|].
            intros _. apply H0. cbn. lia.
        - intros (ws' & -> & _ & L & H). split; [cbn; lia|]. split; [cbn; now rewrite L|]. intros [|i] m e Hi.
          + injection Hi as <- <-. split; [cbn; lia|]. intros _. exists v. split; [reflexivity|]. now apply Hv.
          + destruct (H i m e Hi) as [_ H0]. split; [cbn; lia|]. intros _. apply H0. cbn. lia. }
      specialize (IH []). destruct (DocModel.keyword n kw) as [v|] eqn:Ek.
      * assert (Hv : forall w, (In (n, w) kw \/ (~ In n (map fst kw) /\ d = Some w)) <-> w = v).
        { intros w. split; [|intros ->; now left]. intros [C|[C _]]; [apply K2 in C; congruence|]. exfalso. apply C. now apply (in_map fst) in K1. }
        destruct (DocModel.bind_params ps [] kw) as [vs|e]; cbn [bind].
        -- intros ws. rewrite (Step ws v Hv). split; [intros (ws' & -> & H); apply IH in H; now subst|]. intros ->. exists vs. split; [reflexivity|]. now apply IH.
        -- destruct IH as [-> IH]. split; [reflexivity|]. intros ws H. apply (Step ws v Hv) in H as (ws' & _ & H). now apply (IH ws').
      * destruct d as [v|].
        -- assert (Hv : forall w, (In (n, w) kw \/ (~ In n (map fst kw) /\ Some v = Some w)) <-> w = v).
           { intros w. split; [|intros ->; right; now split]. intros [C|[_ [= C]]]; [apply K2 in C; congruence|congruence]. }
           destruct (DocModel.bind_params ps [] kw) as [vs|e]; cbn [bind].
           ++ intros ws. rewrite (Step ws v Hv). split; [intros (ws' & -> & H); apply IH in H; now subst|]. intros ->. exists vs. split; [reflexivity|]. now apply IH.
           ++ destruct IH as [-> IH]. split; [reflexivity|]. intros ws H. apply (Step ws v Hv) in H as (ws' & _ & H). now apply (IH ws').
        -- split; [reflexivity|]. intros ws (_ & L & H). destruct ws as [|w ws]; [discriminate|].
           destruct (H 0%nat n None eq_refl) as [_ H0]. destruct (H0 ltac:(cbn; lia)) as (v' & _ & [C|[_ C]]); [apply K2 in C; congruence|discriminate].
    + destruct (DocModel.keyword n kw) as [v|] eqn:Ek.
      * split; [reflexivity|]. intros ws (_ & _ & H). destruct (H 0%nat n d eq_refl) as [H0 _]. destruct (H0 ltac:(cbn; lia)) as [C _].
        apply C. now apply (in_map fst) in K1.
      * specialize (IH args).
        assert (Step : forall ws, bound_rest ((n, d) :: ps) (a :: args) kw ws <-> exists ws', ws = a :: ws' /\ bound_rest ps args kw ws').
        { intros ws. split.
          - intros (La & L & H). destruct ws as [|w ws]; [discriminate|]. exists ws. split.
            + destruct (H 0%nat n d eq_refl) as [H0 _]. destruct (H0 ltac:(cbn; lia)) as [_ [= ->]]. reflexivity.
            + split; [cbn in La; lia|]. split; [now injection L|]. intros i m e Hi. destruct (H (S i) m e Hi) as [H0 H1]. split.
              * intros Hl. apply H0. cbn. lia.
              * intros Hl. apply H1. cbn. lia.
          - intros (ws' & -> & La & L & H). split; [cbn; lia|]. split; [cbn; now rewrite L|]. intros [|i] m e Hi.
            + injection Hi as <- <-. split; [|cbn; lia]. intros _. split; [exact K1|reflexivity].
            + destruct (H i m e Hi) as [H0 H1]. split.
              * intros Hl. apply H0. cbn in Hl. lia.
              * intros Hl. apply H1. cbn in Hl. lia. }
        destruct (DocModel.bind_params ps args kw) as [vs|e]; cbn [bind].
        -- intros ws. rewrite Step. split; [intros (ws' & -> & H); apply IH in H; now subst|]. intros ->. exists vs. split; [reflexivity|]. now apply IH.
        -- destruct IH as [-> IH]. split; [reflexivity|]. intros ws H. apply Step in H as (ws' & _ & H). now apply (IH ws').
Qed.
Theorem C64_binding :
  forall (V : Type) (m : DocModel.method V) args kw, NoDup (map fst kw) ->
    (forall vs, bound (DocModel.m_params m) args kw vs -> DocModel.call m args kw = DocModel.m_body m vs) /\
    ((forall vs, ~ bound (DocModel.m_params m) args kw vs) -> DocModel.call m args kw = Raise TypeError).
Proof.
  intros V m args kw Hk. unfold DocModel.call. assert (B := bind_spec kw Hk (DocModel.m_params m) args). assert (K := known_spec (DocModel.m_params m) kw).
  destruct (DocModel.known (DocModel.m_params m) kw).
  - destruct (DocModel.bind_params (DocModel.m_params m) args kw) as [vs|e]; cbn [Base.bind].
    + split; [intros ws (_ & H); apply B in H; now subst|]. intros H. exfalso. apply (H vs). split; [now apply K|]. now apply B.
    + destruct B as [-> B]. split; [intros ws (_ & H); now apply B in H|reflexivity].
  - split; [|reflexivity]. intros vs (H & _). apply K in H. discriminate.
Qed.
Print Assumptions C64_binding.
Example C64_binding_case :
  let m := {| DocModel.m_name := "drawPOD"; DocModel.m_module := "otpod"; DocModel.m_params := [("self", None); ("probabilityLevel", Some 0); ("name", Some 9)];
              DocModel.m_body := fun vs => Ok (list_sum vs) |}%string in
  NoDup (map fst [("name", 5)]%string) /\ bound (DocModel.m_params m) [1] [("name", 5)]%string [1; 0; 5] /\
  DocModel.call m [1] [("name", 5)]%string = Ok 6 /\ (forall vs, ~ bound (DocModel.m_params m) [1] [("title", 5)]%string vs).
Proof.
  split; [repeat constructor; intros []|]. split.
  - split; [intros n [<-|[]]; cbn; auto|]. split; [cbn; lia|]. split; [reflexivity|].
    intros [|[|[|i]]] n d; cbn [nth_error]; try (destruct i; discriminate); intros [= <- <-].
    + split; [|cbn; lia]. intros _. split; [intros [E|[]]; discriminate|reflexivity].
    + split; [cbn; lia|]. intros _. exists 0. split; [reflexivity|]. right. split; [intros [E|[]]; discriminate|reflexivity].
    + split; [cbn; lia|]. intros _. exists 5. split; [reflexivity|]. left. now left.
  - split; [reflexivity|]. intros vs (H & _). specialize (H "title"%string (or_introl eq_refl)). cbn in H. intuition discriminate.
Qed.
