(** C64: the decorators DocInherit and keepingArgs. *)
From Coq Require Import String.
From Verif Require Import Base DocModel.
Local Open Scope string_scope.
Local Open Scope list_scope.

Section Spec.
Variable C : Type.
Variable mro : C -> list C.
Variable own : C -> string -> option pyval.
Variable V : Type.
Notation get := (get mro own).

(** [c] is the first class of the list that has the attribute, with value [v]. *)
Definition first_owner (l : list C) (n : string) (c : C) (v : pyval) : Prop :=
  exists l1 l2, l = l1 ++ c :: l2 /\ (forall x, In x l1 -> own x n = None) /\ own c n = Some v.
Definition no_owner (l : list C) (n : string) : Prop := forall x, In x l -> own x n = None.

Lemma lookup_spec l n : (no_owner l n /\ lookup own l n = PyNone) \/ (exists c v, first_owner l n c v /\ lookup own l n = v).
Proof.
  induction l as [|c l IH]; cbn [lookup]; [left; split; [intros x []|reflexivity]|].
  destruct (own c n) as [v|] eqn:E.
  - right. exists c, v. split; [|reflexivity]. exists [], l. repeat split; [intros x []|exact E].
  - destruct IH as [[H1 H2]|(c' & v & (l1 & l2 & -> & H1 & H2) & H3)].
    + left. split; [|exact H2]. intros x [<-|Hx]; auto.
    + right. exists c', v. split; [|exact H3]. exists (c :: l1), l2. repeat split; [|exact H2]. intros x [<-|Hx]; auto.
Qed.
Lemma first_owner_lookup l n c v : first_owner l n c v -> lookup own l n = v.
Proof.
  intros (l1 & l2 & -> & H1 & H2). induction l1 as [|x l1 IH]; cbn [app lookup]; [now rewrite H2|].
  rewrite (H1 x (or_introl eq_refl)). apply IH. intros y Hy. apply H1. now right.
Qed.
Lemma no_owner_lookup l n : no_owner l n -> lookup own l n = PyNone.
Proof. induction l as [|x l IH]; intros H; cbn [lookup]; [reflexivity|]. rewrite (H x (or_introl eq_refl)). apply IH. intros y Hy. apply H. now right. Qed.

(** C64: through an instance. The search starts after the class of the instance, whichever class defines the method. *)
Theorem C64_instance_access :
  forall (m : method V) (i : instance C V), i_truth i = true ->
    let n := ("_" ++ m_name m)%string in
    let parents := tl (mro (i_class i)) in
    (forall c t d, first_owner parents n c (Obj t d) ->
       exists f, get m (Some i) (i_class i) = Ok f /\ f_doc f = d /\ f_name f = m_name m /\ f_module f = m_module m /\
                 forall args kw, f_call f args kw = call m (i_obj i :: args) kw) /\
    (no_owner parents n -> get m (Some i) (i_class i) = Raise NameError) /\
    (forall c, first_owner parents n c PyNone -> get m (Some i) (i_class i) = Raise NameError).
Proof.
  intros m i Ht n parents. unfold DocModel.get, get_with_inst, getattr_super, parent_name. fold n parents. rewrite Ht. repeat split.
  - intros c t d H. rewrite (first_owner_lookup _ _ _ _ H). cbn [use_parent_doc]. eexists. split; [reflexivity|]. repeat split.
  - intros H. now rewrite (no_owner_lookup _ _ H).
  - intros c H. now rewrite (first_owner_lookup _ _ _ _ H).
Qed.

Lemma first_parent_spec n : forall ps a,
  (forall v, first_parent mro own ps n a = Some v -> truthy v = true ->
     a = Some v \/ exists p1 p p2, ps = p1 ++ p :: p2 /\ (forall q, In q p1 -> truthy (getattr_class mro own q n) = false) /\ getattr_class mro own p n = v) /\
  ((forall q, In q ps -> truthy (getattr_class mro own q n) = false) ->
     first_parent mro own ps n a = match rev ps with [] => a | p :: _ => Some (getattr_class mro own p n) end) /\
  (forall p1 p p2, ps = p1 ++ p :: p2 -> (forall q, In q p1 -> truthy (getattr_class mro own q n) = false) -> truthy (getattr_class mro own p n) = true ->
     first_parent mro own ps n a = Some (getattr_class mro own p n)).
Proof.
  induction ps as [|p ps IH]; intros a.
  - repeat split.
    + cbn. intros v H _. now left.
    + intros [|x p1] p p2 H; discriminate.
  - destruct (IH (Some (getattr_class mro own p n))) as (I1 & I2 & I3). cbn [first_parent]. repeat split.
    + intros v. destruct (truthy (getattr_class mro own p n)) eqn:E.
      * intros [= <-] _. right. exists [], p, ps. repeat split. intros q [].
      * intros H Hv. destruct (I1 v H Hv) as [[= <-]|(p1 & q & p2 & -> & H1 & H2)]; [congruence|].
        right. exists (p :: p1), q, p2. repeat split; [|exact H2]. intros x [<-|Hx]; auto.
    + intros H. rewrite (H p (or_introl eq_refl)). rewrite I2 by (intros q Hq; apply H; now right). cbn [rev].
      destruct (rev ps) as [|x l]; reflexivity.
    + intros [|x p1] q p2 [= -> ->] H1 H2.
      * now rewrite H2.
      * rewrite (H1 x (or_introl eq_refl)). apply (I3 p1 q p2 eq_refl); [|exact H2]. intros y Hy. apply H1. now right.
Qed.
(** Through a class (or a false instance): the first parent whose own resolution order has a true attribute; the function then takes the
    arguments as they are. If there is none, the last parent's attribute is used, which is none for the root class. *)
Theorem C64_class_access :
  forall (m : method V) (o : option (instance C V)) (c : C), (o = None \/ exists i, o = Some i /\ i_truth i = false) ->
    let n := ("_" ++ m_name m)%string in
    let parents := tl (mro c) in
    (forall p1 p p2 k d, parents = p1 ++ p :: p2 -> (forall q, In q p1 -> no_owner (mro q) n) -> first_owner (mro p) n k (Obj true d) ->
       exists f, get m o c = Ok f /\ f_doc f = d /\ f_name f = m_name m /\ f_module f = m_module m /\
                 forall args kw, f_call f args kw = call m args kw) /\
    (parents <> [] -> (forall q, In q parents -> no_owner (mro q) n) -> get m o c = Raise NameError).
Proof.
  intros m o c Ho n parents.
  assert (E : get m o c = get_no_inst C mro own V m c).
  { destruct Ho as [->|(i & -> & Hi)]; [reflexivity|]. unfold DocModel.get. now rewrite Hi. }
  rewrite E. unfold get_no_inst, parent_name. fold n parents. destruct (first_parent_spec n parents None) as (_ & I2 & I3). split.
  - intros p1 p p2 k d H H1 H2. rewrite (I3 p1 p p2 H).
    + unfold getattr_class. rewrite (first_owner_lookup _ _ _ _ H2). cbn [use_parent_doc]. eexists. split; [reflexivity|]. repeat split.
    + intros q Hq. unfold getattr_class. now rewrite (no_owner_lookup _ _ (H1 q Hq)).
    + unfold getattr_class. now rewrite (first_owner_lookup _ _ _ _ H2).
  - intros Hne H. rewrite I2 by (intros q Hq; unfold getattr_class; now rewrite (no_owner_lookup _ _ (H q Hq))).
    destruct (rev parents) as [|p l] eqn:Er.
    + apply (f_equal (@rev C)) in Er. rewrite rev_involutive in Er. contradiction.
    + unfold getattr_class. rewrite (no_owner_lookup _ _ (H p ltac:(apply in_rev; rewrite Er; now left))). reflexivity.
Qed.

(** Single inheritance: both accesses give the same documentation, or both raise NameError. *)
(** A class without parent has no documentation to inherit: the access from the class raises UnboundLocalError. *)
Theorem C64_no_parent :
  forall (m : method V) (o : option (instance C V)) (c : C), (o = None \/ exists i, o = Some i /\ i_truth i = false) -> tl (mro c) = [] -> get m o c = Raise UnboundLocalError.
Proof.
  intros m o c Ho H. assert (E : get m o c = get_no_inst C mro own V m c).
  { destruct Ho as [->|(i & -> & Hi)]; [reflexivity|]. unfold DocModel.get. now rewrite Hi. }
  rewrite E. unfold get_no_inst. now rewrite H.
Qed.
Theorem C64_same_documentation_in_a_chain :
  forall (m : method V) (i : instance C V), i_truth i = true ->
    (forall l1 p l2, mro (i_class i) = l1 ++ p :: l2 -> mro p = p :: l2) -> tl (mro (i_class i)) <> [] ->
    (forall c v, own c ("_" ++ m_name m)%string = Some v -> truthy v = true) ->
    match get m (Some i) (i_class i), get m None (i_class i) with
    | Ok f, Ok g => f_doc f = f_doc g /\ forall args kw, f_call f args kw = f_call g (i_obj i :: args) kw
    | Raise e, Raise e' => e = NameError /\ e' = NameError
    | _, _ => False
    end.
Proof.
  intros m i Ht Hm Hne Hown. set (n := ("_" ++ m_name m)%string) in *.
  destruct (mro (i_class i)) as [|x parents] eqn:Em; [contradiction|]. cbn [tl] in Hne.
  assert (Hp : forall l1 p l2, parents = l1 ++ p :: l2 -> mro p = p :: l2) by (intros l1 p l2 ->; exact (Hm (x :: l1) p l2 eq_refl)).
  destruct (C64_instance_access m i Ht) as (A1 & A2 & A3). destruct (C64_class_access m None (i_class i) (or_introl eq_refl)) as (B1 & B2).
  fold n in A1, A2, A3, B1, B2. rewrite Em in *. cbn [tl] in *.
  destruct (lookup_spec parents n) as [[Hno _]|(c & v & Ho & _)].
  - rewrite (A2 Hno). rewrite B2; [split; reflexivity|exact Hne|].
    intros q Hq. apply in_split in Hq as (l1 & l2 & ->). rewrite (Hp l1 q l2 eq_refl). intros y Hy. apply Hno. apply in_or_app. now right.
  - destruct Ho as (l1 & l2 & Hs & H1 & H2). assert (Hv := Hown _ _ H2). destruct v as [|t d]; [discriminate|]. cbn in Hv. subst t.
    destruct parents as [|p0 ps]; [contradiction|].
    destruct (A1 c true d) as (f & -> & F1 & _ & _ & F2); [exists l1, l2; repeat split; assumption|].
    destruct (B1 [] p0 ps c d eq_refl) as (g & -> & G1 & _ & _ & G2); [intros q []| |split; [congruence|intros; now rewrite F2, G2]].
    rewrite (Hp [] p0 ps eq_refl). exists l1, l2. repeat split; assumption.
Qed.
End Spec.
Print Assumptions C64_instance_access.
Print Assumptions C64_class_access.
Print Assumptions C64_same_documentation_in_a_chain.

(** keepingArgs changes neither the result nor the exception of any call, nor the signature. *)
Lemma bind_length {V} (ps : list (string * option V)) : forall args kw vs, bind_params ps args kw = Ok vs -> List.length vs = List.length ps.
Proof.
  induction ps as [|[n d] ps IH]; intros [|a args] kw vs; cbn [bind_params].
  - intros [= <-]. reflexivity.
  - discriminate.
  - destruct (keyword n kw) as [v|]; [|destruct d as [v|]; [|discriminate]]; destruct (bind_params ps [] kw) as [r|e] eqn:E; cbn [bind]; try discriminate;
      intros [= <-]; cbn; f_equal; exact (IH _ _ _ E).
  - destruct (keyword n kw); [discriminate|]. destruct (bind_params ps args kw) as [r|e] eqn:E; cbn [bind]; [|discriminate]. intros [= <-]. cbn. f_equal. exact (IH _ _ _ E).
Qed.
Lemma bind_positional {V} (ps : list (string * option V)) : forall vs, List.length vs = List.length ps -> bind_params ps vs [] = Ok vs.
Proof.
  induction ps as [|[n d] ps IH]; intros [|v vs]; try discriminate; [reflexivity|]. intros [= H]. cbn [bind_params keyword]. now rewrite (IH vs H).
Qed.
Theorem C64_keepingArgs :
  forall (V : Type) (m : method V) args kw,
    call (keepingArgs m) args kw = call m args kw /\ m_params (keepingArgs m) = m_params m /\ m_name (keepingArgs m) = m_name m.
Proof.
  intros V m args kw. split; [|split; reflexivity]. unfold keepingArgs, call. cbn [m_params m_body]. destruct (known (m_params m) kw); [|reflexivity].
  destruct (bind_params (m_params m) args kw) as [vs|e] eqn:E; [|reflexivity]. cbn [bind]. cbn [known forallb].
  rewrite (bind_positional _ _ (bind_length _ _ _ _ E)). reflexivity.
Qed.
Print Assumptions C64_keepingArgs.

(** The classes of otpod. *)
Definition mixin (c : otclass) : bool := match c with KrigingBaseC => true | _ => false end.
(** Every decorated method of a class that users build, accessed on an instance or on the class: the documentation of POD's method, and calls
    do what the method does. *)
Theorem C64_otpod_methods :
  forall (V : Type) doc c k (m : method V) (i : instance otclass V),
    In k (ot_mro c) -> In (m_name m) (ot_decorated k) -> mixin c = false -> i_class i = c -> i_truth i = true ->
    (exists f, get ot_mro (ot_own doc) (keepingArgs m) (Some i) c = Ok f /\ f_doc f = doc ("_" ++ m_name m)%string /\ f_name f = m_name m /\
               forall args kw, f_call f args kw = call m (i_obj i :: args) kw) /\
    (exists f, get ot_mro (ot_own doc) (keepingArgs m) None c = Ok f /\ f_doc f = doc ("_" ++ m_name m)%string /\ f_name f = m_name m /\
               forall args kw, f_call f args kw = call m args kw).
Proof.
  intros V doc c k m i Hk Hm Hx Hc Ht. unfold get. rewrite Ht.
  assert (O : ot_own doc PodC ("_" ++ m_name m)%string = Some (Obj true (doc ("_" ++ m_name m)%string))).
  { destruct k; cbn in Hm; try contradiction; repeat (destruct Hm as [<-|Hm]; [reflexivity|]); contradiction. }
  assert (M : exists rest, tl (ot_mro c) = PodC :: rest).
  { destruct c; try discriminate; cbn; try (eexists; reflexivity); cbn in Hk; repeat (destruct Hk as [<-|Hk]; [contradiction|]); contradiction. }
  destruct M as [rest M]. split.
  - unfold get_with_inst, getattr_super, parent_name. cbn [keepingArgs m_name]. rewrite M. cbn [lookup]. rewrite O. cbn [use_parent_doc f_call f_name f_module].
    eexists. split; [reflexivity|]. cbn [f_doc f_name f_call]. repeat split. intros args kw. apply C64_keepingArgs.
  - unfold get_no_inst, parent_name. cbn [keepingArgs m_name]. rewrite M. cbn [first_parent]. unfold getattr_class. cbn [ot_mro lookup]. rewrite O.
    cbn [truthy use_parent_doc f_call f_name f_module].
    eexists. split; [reflexivity|]. cbn [f_doc f_name f_call]. repeat split. intros args kw. apply C64_keepingArgs.
Qed.
Print Assumptions C64_otpod_methods.
(** Finding: on the mixin KrigingBase itself even looking at a decorated method raises NameError. *)
Theorem C64_mixin_access_fails :
  forall (V : Type) doc (m : method V) o, In (m_name m) (ot_decorated KrigingBaseC) ->
    get ot_mro (ot_own doc) (keepingArgs m) o KrigingBaseC = Raise NameError.
Proof. intros V doc m [i|] _; [|reflexivity]. unfold get. destruct (i_truth i); reflexivity. Qed.
Print Assumptions C64_mixin_access_fails.
(** Finding: the method of a false instance is not bound to the instance; here a call that the undecorated method accepts raises TypeError. *)
Definition ex_method : method nat :=
  {| m_name := "drawPOD"; m_module := "otpod._quantile_regression_pod"; m_params := [("self", None); ("n", None)];
     m_body := fun vs => match vs with [s; n] => Ok (s + n) | _ => Raise TypeError end |}.
Theorem C64_false_instance_refuted :
  exists (i : instance otclass nat) f args,
    i_truth i = false /\ get ot_mro (ot_own (fun _ => None)) (keepingArgs ex_method) (Some i) (i_class i) = Ok f /\
    call ex_method (i_obj i :: args) [] = Ok 5 /\ f_call f args [] = Raise TypeError.
Proof. exists {| i_obj := 2; i_class := QuantileC; i_truth := false |}. eexists. exists [3]. repeat split; reflexivity. Qed.
Print Assumptions C64_false_instance_refuted.
(** Finding: with multiple inheritance the documentation can differ between the class and its instances. Classes 0 (object), 1 (owns _drawPOD),
    2 and 3 derived from 1, 3 owns another _drawPOD, 4 derived from 2 and 3. *)
Definition ex_mro (c : nat) : list nat := match c with 4 => [4; 2; 3; 1; 0] | 3 => [3; 1; 0] | 2 => [2; 1; 0] | 1 => [1; 0] | _ => [0] end.
Definition ex_own (c : nat) (n : string) : option pyval :=
  if String.eqb n "_drawPOD" then match c with 1 => Some (Obj true (Some "root")) | 3 => Some (Obj true (Some "third")) | _ => None end else None.
Theorem C64_same_documentation_refuted :
  exists (i : instance nat nat) f g, i_truth i = true /\
    get ex_mro ex_own ex_method (Some i) (i_class i) = Ok f /\ get ex_mro ex_own ex_method None (i_class i) = Ok g /\ f_doc f <> f_doc g.
Proof.
  exists {| i_obj := 2; i_class := 4; i_truth := true |}. eexists. eexists. split; [reflexivity|]. split; [reflexivity|]. split; [reflexivity|].
  cbn. discriminate.
Qed.
Print Assumptions C64_same_documentation_refuted.
(** The hypotheses of the theorems hold for the quantile regression class. *)
Example C64_example :
  let i := {| i_obj := 2; i_class := QuantileC; i_truth := true |} in
  let own := ot_own (fun n => Some n) in
  In (m_name ex_method) (ot_decorated QuantileC) /\ mixin QuantileC = false /\
  first_owner otclass own (tl (ot_mro QuantileC)) ("_" ++ m_name ex_method)%string PodC (Obj true (Some "_drawPOD")) /\
  (forall l1 p l2, ot_mro (i_class i) = (l1 ++ p :: l2)%list -> ot_mro p = p :: l2) /\
  (forall c v, own c ("_" ++ m_name ex_method)%string = Some v -> truthy v = true) /\
  match get ot_mro own (keepingArgs ex_method) (Some i) QuantileC with Ok f => f_call f [3] [] = Ok 5 /\ f_call f [] [("n", 4)] = Ok 6 | _ => False end.
Proof.
  cbn [i_class]. split; [right; now left|]. split; [reflexivity|]. split; [exists [], [ObjectC]; repeat split; intros x []|].
  split; [|split; [|split; reflexivity]].
  - intros [|a [|b [|x l1]]] p l2 H; injection H; intros; subst; try reflexivity. destruct l1; discriminate.
  - intros c v. destruct c; cbn; try discriminate. now intros [= <-].
Qed.
