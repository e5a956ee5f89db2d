(** C104: the classifiers of AdaptiveHitMissPOD and their parameters. *)
From Verif Require Import Base Float64 ClassifierModel.
From Coq Require Import String.
Local Open Scope string_scope.
Local Open Scope list_scope.

(** *** What is built *)
Definition known (name : string) : Prop := name = "rf" \/ name = "svc".
Definition no_values (e : entry) : Prop := e = Values [].
(** Something that cannot be taken apart into lists of values. *)
Definition malformed (p : params) : Prop := match p with NotIterable => True | Entries l => l = [] \/ In NoIter l end.

Lemma all_values_spec l : (In NoIter l /\ all_values l = Raise TypeError) \/ (exists cs, l = map Values cs /\ all_values l = Ok cs).
Proof.
  induction l as [|e l IH]; [right; now exists []|]. destruct e as [v|]; [|left; split; [now left|reflexivity]]. cbn [all_values].
  destruct IH as [[H ->]|(cs & -> & ->)]; [left; split; [now right|reflexivity]|right; now exists (v :: cs)].
Qed.
Lemma heads_none cs : In [] cs -> heads cs = None.
Proof.
  induction cs as [|c cs IH]; [easy|]. intros [->|H]; [reflexivity|]. destruct c; [reflexivity|]. cbn. now rewrite (IH H).
Qed.
Lemma heads_some cs : ~ In [] cs -> heads cs = Some (map (hd VNone) cs).
Proof.
  induction cs as [|c cs IH]; intros H; [reflexivity|]. destruct c as [|v c]; [destruct H; now left|]. cbn. rewrite IH; [reflexivity|]. intros K. apply H. now right.
Qed.
Lemma in_nil_dec (cs : list (list value)) : In [] cs \/ ~ In [] cs.
Proof.
  induction cs as [|c cs [H|H]]; [now right|left; now right|]. destruct c as [|v c]; [left; now left|right]. intros [K|K]; [discriminate|now apply H].
Qed.
Lemma tuples_length n cs : Forall (fun r => List.length r = List.length cs) (tuples n cs).
Proof.
  revert cs. induction n as [|n IH]; intros cs; [constructor|]. cbn. destruct (in_nil_dec cs) as [H|H]; [rewrite heads_none by assumption; constructor|].
  rewrite heads_some by assumption. constructor; [apply map_length|]. specialize (IH (map (@tl value) cs)). now rewrite map_length in IH.
Qed.
Lemma make_all_four kind l : Forall (fun r : list value => List.length r = 4) l -> exists cs, make_all kind l = Ok cs /\ List.length cs = List.length l.
Proof.
  induction 1 as [|r l Hr _ (cs & E & L)]; [now exists []|]. destruct r as [|a [|b [|c [|d [|? ?]]]]]; try discriminate. cbn [make_all make]. destruct (String.eqb kind "svc"); cbn [bind]; rewrite E; cbn; eexists; (split; [reflexivity|cbn; now rewrite L]).
Qed.

(** Four lists that are not empty: the classifier of the type in force, with the first value of each list in that order; whatever follows in the
    lists is not used. *)
Theorem C104_first_values : forall a b c d ta tb tc td,
  let p := Entries [Values (a :: ta); Values (b :: tb); Values (c :: tc); Values (d :: td)] in
  build "svc" p = Ok (SVC a b c d) /\ build "rf" p = Ok (Trees a b c d).
Proof.
  intros a b c d ta tb tc td p. unfold p, build. cbn [String.eqb Ascii.eqb Bool.eqb negb andb columns all_values bind hd List.length tuples heads make_all map tl].
  assert (H := tuples_length (List.length ta) [ta; tb; tc; td]). cbn [List.length] in H.
  split; [destruct (make_all_four "svc" _ H) as (cs & E & _)|destruct (make_all_four "rf" _ H) as (cs & E & _)];
    cbn [make String.eqb Ascii.eqb Bool.eqb bind]; rewrite E; reflexivity.
Qed.
(** Everything else is refused, at run: TypeError for something that cannot be taken apart, IndexError as soon as one list is empty, TypeError for
    another number of lists. *)
Theorem C104_refused : forall name p, known name ->
  (malformed p -> build name p = Raise TypeError) /\
  (forall l, p = Entries (map Values l) -> l <> [] -> In [] l -> build name p = Raise IndexError) /\
  (forall l, p = Entries (map Values l) -> l <> [] -> ~ In [] l -> List.length l <> 4 -> build name p = Raise TypeError).
Proof.
  intros name p Hk.
  assert (K : negb (String.eqb name "svc") && negb (String.eqb name "rf") = false) by (destruct Hk as [-> | ->]; reflexivity).
  assert (V : forall l, all_values (map Values l) = Ok l) by (induction l as [|x l IH]; cbn; [reflexivity|now rewrite IH]).
  assert (Co : forall l, l <> [] -> columns (Entries (map Values l)) = Ok l) by (intros [|x l] H; [easy|]; apply (V (x :: l))).
  unfold build. rewrite K. split; [|split].
  - destruct p as [l|]; [|reflexivity]. cbn. intros [->|H]; [reflexivity|]. destruct l as [|e l]; [easy|].
    destruct (all_values_spec (e :: l)) as [[_ ->]|(cs & E & _)]; [reflexivity|]. exfalso. rewrite E in H. apply in_map_iff in H as (x & X & _). discriminate.
  - intros l -> Hn Hi. rewrite Co by assumption. cbn [bind]. replace (tuples (List.length (hd [] l)) l) with (@nil (list value)); [reflexivity|].
    destruct (List.length (hd [] l)); [reflexivity|]. cbn. now rewrite heads_none.
  - intros l -> Hn Hi H4. rewrite Co by assumption. cbn [bind]. destruct l as [|x l]; [easy|]. destruct x as [|v x]; [destruct Hi; now left|].
    cbn [hd List.length]. cbn [tuples]. rewrite heads_some by assumption. cbn [make_all].
    assert (M : forall r, List.length r <> 4 -> make name r = Raise TypeError) by (intros [|? [|? [|? [|? [|? ?]]]]] H; try reflexivity; now destruct H).
    rewrite M; [reflexivity|]. now rewrite map_length.
Qed.

(** *** Histories *)
Lemma play_app l m : play (l ++ m) = fold_left step m (play l).
Proof. unfold play. now rewrite fold_left_app. Qed.
Lemma play_snoc l o : play (l ++ [o]) = step (play l) o.
Proof. now rewrite play_app. Qed.
Lemma nth_snoc {T} (l : list T) x h y : nth_error (l ++ [x]) h = Some y -> nth_error l h = Some y \/ (h = List.length l /\ y = x).
Proof.
  intros H. destruct (Nat.lt_ge_cases h (List.length l)) as [L|L].
  - left. now rewrite nth_error_app1 in H.
  - right. rewrite nth_error_app2 in H by assumption. destruct (h - List.length l) as [|n] eqn:E; cbn in H; [injection H as ->; split; [lia|reflexivity]|]. now destruct n.
Qed.
Lemma length_store m a p : List.length (store m a p) = List.length m.
Proof. revert a. induction m as [|x m IH]; intros [|a]; cbn; auto. Qed.
Lemma load_store_same m a p : a < List.length m -> load (store m a p) a = p.
Proof. unfold load. revert a. induction m as [|x m IH]; intros [|a] H; cbn in *; try lia; auto with arith. Qed.
Lemma load_store_other m a b p : a <> b -> load (store m a p) b = load m b.
Proof. unfold load. revert a b. induction m as [|x m IH]; intros [|a] [|b] H; cbn; auto; congruence. Qed.
Lemma load_app m n a : a < List.length m -> load (m ++ n) a = load m a.
Proof. intros H. unfold load. now apply app_nth1. Qed.
Definition inv (s : state) : Prop := ref s < List.length (memory s) /\ known (kind s) /\ forall h a, nth_error (held s) h = Some a -> a < List.length (memory s).
Lemma set_type_cases name s :
  (~ known name /\ set_type name s = (s, Raise ValueError)) \/
  (known name /\ set_type name s = ({| memory := memory s ++ [if String.eqb name "svc" then svc_default else rf_default]; ref := List.length (memory s); kind := name;
           held := held s; spoiled := spoiled s |}, Ok tt)).
Proof.
  unfold set_type, known. destruct (String.eqb_spec name "rf"), (String.eqb_spec name "svc"); cbn [negb andb]; auto. left. tauto.
Qed.
Lemma run_cases k s : (exists l, run k s = (s, Ok l)) \/
  (exists e, run k s = ({| memory := memory s; ref := ref s; kind := kind s; held := held s; spoiled := true |}, Raise e)).
Proof.
  unfold run. destruct (spoiled s) eqn:E; [right; exists AttributeError; destruct s; cbn in *; now rewrite E|]. destruct (builds _ _ _); eauto.
Qed.
Lemma inv_step s o : inv s -> inv (step s o).
Proof.
  intros (I1 & I2 & I3). unfold inv. destruct o as [p| |h|name|h p|k]; cbn [step].
  - cbn. rewrite app_length. cbn. split; [lia|]. split; [exact I2|]. intros h a H. apply nth_snoc in H as [H|[_ ->]]; [apply I3 in H; lia|lia].
  - cbn. split; [exact I1|]. split; [exact I2|]. intros h a H. apply nth_snoc in H as [H|[_ ->]]; [now apply I3 in H|exact I1].
  - destruct (nth_error (held s) h) as [a|] eqn:E; [|auto]. cbn. split; [now apply I3 in E|auto].
  - destruct (set_type_cases name s) as [[_ ->]|[Hk ->]]; cbn [fst]; [auto|]. cbn. rewrite app_length. cbn. split; [lia|]. split; [exact Hk|]. intros h a H. apply I3 in H. lia.
  - destruct (nth_error (held s) h) as [a|]; [|auto]. cbn. rewrite length_store. auto.
  - destruct (run_cases k s) as [[l ->]|[e ->]]; cbn; auto.
Qed.
Lemma inv_play l : inv (play l).
Proof.
  induction l as [|o l IH] using rev_ind; [|rewrite play_snoc; now apply inv_step].
  unfold inv. cbn. split; [lia|]. split; [now left|]. intros [|?]; discriminate.
Qed.

(** The lists the client gets: one per list of its own and one per getClassifierParameters. *)
Definition handles (l : list op) : nat := List.length (filter (fun o => match o with Own _ | GetParams => true | _ => false end) l).
Lemma handles_play l : List.length (held (play l)) = handles l.
Proof.
  induction l as [|o l IH] using rev_ind; [reflexivity|]. rewrite play_snoc. unfold handles. rewrite filter_app, app_length. fold (handles l). rewrite <- IH.
  destruct o as [p| |h|name|h p|k]; cbn [step filter List.length]; rewrite ?Nat.add_0_r.
  - cbn. now rewrite app_length.
  - cbn. now rewrite app_length.
  - now destruct (nth_error (held (play l)) h).
  - now destruct (set_type_cases name (play l)) as [[_ ->]|[_ ->]].
  - now destruct (nth_error (held (play l)) h).
  - now destruct (run_cases k (play l)) as [[r ->]|[e ->]].
Qed.
(** Calls that put other parameters in force. *)
Definition replaces (o : op) : Prop := match o with SetParams _ => True | SetType name => known name | _ => False end.
Lemma known_dec name : known name \/ ~ known name.
Proof. unfold known. destruct (String.eqb_spec name "rf"), (String.eqb_spec name "svc"); tauto. Qed.
Lemma keeps_ref m : forall s, Forall (fun o => ~ replaces o) m -> ref (fold_left step m s) = ref s /\ kind (fold_left step m s) = kind s /\
  (forall h a, nth_error (held s) h = Some a -> nth_error (held (fold_left step m s)) h = Some a).
Proof.
  induction m as [|o m IH]; intros s H; [auto|]. inversion H as [|? ? Ho Hm]; subst. cbn [fold_left]. destruct (IH (step s o) Hm) as (E1 & E2 & E3).
  assert (S0 : ref (step s o) = ref s /\ kind (step s o) = kind s /\ (forall h a, nth_error (held s) h = Some a -> nth_error (held (step s o)) h = Some a)).
  { clear - Ho. destruct o as [p| |h|name|h p|k]; cbn [step] in *.
    - cbn. repeat split; auto. intros h a Hh. rewrite nth_error_app1; [assumption|]. apply nth_error_Some. congruence.
    - cbn. repeat split; auto. intros h a Hh. rewrite nth_error_app1; [assumption|]. apply nth_error_Some. congruence.
    - now destruct Ho.
    - destruct (set_type_cases name s) as [[_ ->]|[Hk _]]; [auto|now destruct Ho].
    - now destruct (nth_error (held s) h).
    - now destruct (run_cases k s) as [[l ->]|[e ->]]. }
  destruct S0 as (F1 & F2 & F3). split; [congruence|]. split; [congruence|]. auto.
Qed.

(** The list of getClassifierParameters is the one of the object: until other parameters are put in force it shows them, and changed in place it
    changes them, without a check. *)
Theorem C104_returned_list_is_live : forall l m p, Forall (fun o => ~ replaces o) m ->
  let h := handles l in let s := play (l ++ GetParams :: m) in
  content h s = Some (in_force s) /\ in_force (play (l ++ GetParams :: m ++ [Change h p])) = p.
Proof.
  intros l m p Hm h s.
  assert (Hn : nth_error (held s) h = Some (ref s)).
  { unfold s. rewrite play_app. cbn [fold_left]. destruct (keeps_ref m (step (play l) GetParams) Hm) as (-> & _ & K). apply K. cbn. unfold h. rewrite <- handles_play.
    rewrite nth_error_app2 by lia. now rewrite Nat.sub_diag. }
  split; [unfold content; now rewrite Hn|].
  replace (l ++ GetParams :: m ++ [Change h p]) with ((l ++ GetParams :: m) ++ [Change h p]) by now rewrite <- app_assoc.
  rewrite play_snoc. fold s. cbn [step]. rewrite Hn. unfold in_force. cbn [memory ref]. apply load_store_same. apply inv_play.
Qed.
(** setClassifierParameters keeps the list it is given: what the client does to it later is in force. *)
Theorem C104_given_list_is_live : forall l h m p, h < handles l -> Forall (fun o => ~ replaces o) m ->
  let s := play (l ++ SetParams h :: m) in
  content h s = Some (in_force s) /\ content h (play (l ++ [SetParams h])) = content h (play l) /\
  in_force (play (l ++ SetParams h :: m ++ [Change h p])) = p.
Proof.
  intros l h m p Hh Hm s. rewrite <- handles_play in Hh. destruct (nth_error (held (play l)) h) as [a|] eqn:E; [|apply nth_error_None in E; lia].
  assert (Hn : nth_error (held s) h = Some (ref s)).
  { unfold s. rewrite play_app. cbn [fold_left]. destruct (keeps_ref m (step (play l) (SetParams h)) Hm) as (-> & _ & K). cbn [step] in *. rewrite E in *. cbn [ref held] in *. now apply K. }
  split; [unfold content; now rewrite Hn|]. split; [rewrite play_snoc; unfold content; cbn [step]; rewrite E; cbn; now rewrite E|].
  replace (l ++ SetParams h :: m ++ [Change h p]) with ((l ++ SetParams h :: m) ++ [Change h p]) by now rewrite <- app_assoc.
  rewrite play_snoc. fold s. cbn [step]. rewrite Hn. unfold in_force. cbn [memory ref]. apply load_store_same. apply inv_play.
Qed.
(** An accepted type puts its default parameters in force, even when it is the type already set, in a list nobody else has: until the client asks for
    it or puts others in force, nothing the client changes reaches them. A refused name changes nothing. *)
Definition default_of (name : string) : params :=
  if String.eqb name "svc" then Entries [Values [VFloat fone]; Values [VStr "poly"]; Values [VInt 3]; Values [VBool true]]
  else Entries [Values [VInt 100]; Values [VNone]; Values [VInt 2]; Values [VInt 0]].
Lemma untouched name m : forall s, Forall (fun o => ~ replaces o /\ o <> GetParams) m ->
  in_force s = default_of name /\ inv s /\ kind s = name /\ (forall h a, nth_error (held s) h = Some a -> a <> ref s) ->
  in_force (fold_left step m s) = default_of name /\ kind (fold_left step m s) = name.
Proof.
  intros s Hm P. revert s P. induction m as [|o m IH]; intros s P; [cbn; tauto|]. inversion Hm as [|? ? [Ho Hg] Hm']; subst. cbn [fold_left]. apply IH; [assumption|].
  destruct P as (P1 & P2 & P3 & P4). assert (I := inv_step s o P2). split; [|split; [exact I|]]; clear I; destruct P2 as (J1 & J2 & J3); destruct o as [p| |h|nm|h p|k]; cbn [step replaces] in *; try easy.
  - unfold in_force in *. cbn [memory ref]. now rewrite load_app.
  - destruct (set_type_cases nm s) as [[_ ->]|[Hk' _]]; [assumption|easy].
  - destruct (nth_error (held s) h) as [a|] eqn:E; [|assumption]. unfold in_force in *. cbn [memory ref]. rewrite load_store_other; [assumption|]. now apply (P4 h).
  - now destruct (run_cases k s) as [[r ->]|[e ->]].
  - cbn. split; [assumption|]. intros h a H. apply nth_snoc in H as [H|[_ ->]]; [now apply (P4 h)|lia].
  - destruct (set_type_cases nm s) as [[_ ->]|[Hk' _]]; [now split|easy].
  - destruct (nth_error (held s) h) as [a|]; now split.
  - destruct (run_cases k s) as [[r ->]|[e ->]]; now split.
Qed.
Theorem C104_type_resets : forall l name m, known name -> Forall (fun o => ~ replaces o /\ o <> GetParams) m ->
  in_force (play (l ++ SetType name :: m)) = default_of name /\ kind (play (l ++ SetType name :: m)) = name.
Proof.
  intros l name m Hk Hm. rewrite play_app. cbn [fold_left step].
  destruct (set_type_cases name (play l)) as [[N _]|[_ ->]]; [easy|]. cbn [fst].
  set (s := {| memory := _; ref := _; kind := _; held := _; spoiled := _ |}).
  assert (P : in_force s = default_of name /\ inv s /\ kind s = name /\ forall h a, nth_error (held s) h = Some a -> a <> ref s).
  { destruct (inv_play l) as (J1 & J2 & J3). unfold inv. cbn. repeat split; auto.
    - unfold in_force, load. cbn. rewrite app_nth2, Nat.sub_diag by lia. reflexivity.
    - rewrite app_length. cbn. lia.
    - rewrite app_length. intros h a H. apply J3 in H. lia.
    - intros h a H. apply J3 in H. lia. }
  now apply untouched.
Qed.
(** A new object: trees, with their default parameters. *)
Theorem C104_at_first : forall m, Forall (fun o => ~ replaces o /\ o <> GetParams) m ->
  in_force (play m) = default_of "rf" /\ kind (play m) = "rf".
Proof.
  intros m Hm. apply untouched; [assumption|]. split; [reflexivity|]. split; [apply (inv_play [])|]. split; [reflexivity|]. intros [|h]; discriminate.
Qed.
Theorem C104_refused_type : forall name s, ~ known name -> set_type name s = (s, Raise ValueError).
Proof. intros name s H. destruct (set_type_cases name s) as [[_ E]|[K _]]; [assumption|easy]. Qed.

(** *** Runs *)
(** All classifiers of a run are built alike, from the type and parameters in force when it starts. *)
Theorem C104_run : forall l k cs, snd (run k (play l)) = Ok cs ->
  List.length cs = S k /\ forall c, In c cs -> build (kind (play l)) (in_force (play l)) = Ok c.
Proof.
  intros l k cs. unfold run. destruct (spoiled (play l)); [discriminate|].
  assert (B : forall n r, builds n (kind (play l)) (in_force (play l)) = Ok r -> List.length r = n /\ forall c, In c r -> build (kind (play l)) (in_force (play l)) = Ok c).
  { induction n as [|n IH]; intros r H; cbn in H; [injection H as <-; now split|].
    destruct (build (kind (play l)) (in_force (play l))) as [c|]; [|discriminate]. cbn in H. destruct (builds n _ _) as [r'|]; [|discriminate]. injection H as <-.
    destruct (IH r' eq_refl) as [H1 H2]. split; [cbn; now rewrite H1|]. intros x [<-|Hx]; [reflexivity|now apply H2]. }
  destruct (builds (S k) _ _) as [r|] eqn:E; [|discriminate]. cbn [snd]. intros [= <-]. now apply B.
Qed.
(** A run fails when its parameters are refused, with that exception; finding: from then on every run raises AttributeError, also after correct parameters
    have been given. *)
Definition failed_before (l : list op) : Prop := exists l1 k l2, l = l1 ++ Run k :: l2 /\ is_ok (snd (run k (play l1))) = false.
Lemma spoiled_step s o : spoiled (step s o) = spoiled s \/ (exists k, o = Run k /\ is_ok (snd (run k s)) = false /\ spoiled (step s o) = true).
Proof.
  destruct o as [p| |h|name|h p|k]; cbn [step]; auto.
  - destruct (nth_error (held s) h); auto.
  - destruct (set_type_cases name s) as [[_ ->]|[_ ->]]; auto.
  - destruct (nth_error (held s) h); auto.
  - destruct (run_cases k s) as [[l E]|[e E]]; rewrite E; [auto|]. right. exists k. rewrite E. auto.
Qed.
Lemma spoiled_play l : spoiled (play l) = true <-> failed_before l.
Proof.
  induction l as [|o l IH] using rev_ind; [split; [discriminate|intros (l1 & k & l2 & E & _); now destruct l1]|]. rewrite play_snoc. split.
  - destruct (spoiled_step (play l) o) as [->|(k & -> & H & _)].
    + intros H. apply IH in H as (l1 & k & l2 & -> & H). exists l1, k, (l2 ++ [o]). split; [now rewrite <- app_assoc|assumption].
    + intros _. now exists l, k, [].
  - intros (l1 & k & l2 & E & H). destruct l2 as [|x l2 _] using rev_ind.
    + apply app_inj_tail in E as [-> ->]. cbn [step]. destruct (run_cases k (play l1)) as [[r X]|[e X]]; rewrite X in *; [discriminate|reflexivity].
    + rewrite app_comm_cons, app_assoc in E. apply app_inj_tail in E as [-> ->].
      assert (K : spoiled (play (l1 ++ Run k :: l2)) = true) by (apply IH; now exists l1, k, l2).
      destruct (spoiled_step (play (l1 ++ Run k :: l2)) x) as [->|(? & _ & _ & ->)]; auto.
Qed.
Theorem C104_run_outcome : forall l k,
  (failed_before l -> snd (run k (play l)) = Raise AttributeError) /\
  (~ failed_before l -> match build (kind (play l)) (in_force (play l)) with
                        | Ok _ => is_ok (snd (run k (play l))) = true
                        | Raise e => snd (run k (play l)) = Raise e
                        end).
Proof.
  intros l k. rewrite <- spoiled_play. unfold run. destruct (spoiled (play l)).
  - split; [reflexivity|]. intros H. now destruct H.
  - split; [discriminate|]. intros _. cbn [builds]. destruct (build (kind (play l)) (in_force (play l))) as [c|e] eqn:E; [|reflexivity]. cbn [bind].
    assert (B : forall n, exists r, builds n (kind (play l)) (in_force (play l)) = Ok r).
    { induction n as [|n [r IH]]; cbn; [eauto|]. rewrite E. cbn. rewrite IH. cbn. eauto. }
    destruct (B k) as [r ->]. reflexivity.
Qed.
(** A type and parameters in force always give a classifier as long as the parameters given are four lists that are not empty and changes keep them so. *)
Definition sound (p : params) : Prop :=
  match p with Entries [Values (_ :: _); Values (_ :: _); Values (_ :: _); Values (_ :: _)] => True | _ => False end.
Theorem C104_sound_client_never_fails : forall l k, Forall (fun o => match o with Own p | Change _ p => sound p | _ => True end) l ->
  is_ok (snd (run k (play l))) = true.
Proof.
  intros l k Hl.
  assert (P : Forall sound (memory (play l)) /\ spoiled (play l) = false).
  { induction l as [|o l IH] using rev_ind; [split; [repeat constructor|reflexivity]|]. apply Forall_app in Hl as [Hl Ho]. inversion Ho as [|? ? Ho' _]; subst.
    destruct (IH Hl) as [I1 I2]. clear IH. rewrite play_snoc.
    assert (St : forall m a p, Forall sound m -> sound p -> Forall sound (store m a p)).
    { induction m as [|x m IHm]; intros [|a] p Hm Hp; cbn; auto; inversion Hm; subst; constructor; auto. }
    assert (inv0 := inv_play l). destruct o as [p| |h|name|h p|j]; cbn [step].
    - cbn. split; [|assumption]. apply Forall_app. split; [assumption|now constructor].
    - now split.
    - destruct (nth_error (held (play l)) h); now split.
    - destruct (set_type_cases name (play l)) as [[_ ->]|[_ ->]]; cbn; [now split|]. split; [|assumption]. apply Forall_app. split; [assumption|]. constructor; [|constructor].
      now destruct (String.eqb name "svc").
    - destruct (nth_error (held (play l)) h); [|now split]. cbn. split; [|assumption]. now apply St.
    - assert (R := C104_run_outcome l j). destruct (run_cases j (play l)) as [[r ->]|[e E]]; [now split|]. exfalso.
      assert (N : ~ failed_before l) by (rewrite <- spoiled_play, I2; discriminate). apply (proj2 R) in N.
      destruct inv0 as (J1 & J2 & _). assert (So : sound (in_force (play l))) by (rewrite Forall_forall in I1; apply I1; unfold in_force, load; now apply nth_In).
      destruct (in_force (play l)) as [[|[[|? ?]|] [|[[|? ?]|] [|[[|? ?]|] [|[[|? ?]|] [|? ?]]]]]|]; try easy.
      destruct (C104_first_values v v0 v1 v2 l0 l1 l2 l3) as [B1 B2]. destruct J2 as [Ek|Ek]; rewrite Ek in N; [rewrite B2 in N|rewrite B1 in N]; rewrite E in N; discriminate. }
  destruct P as [I1 I2]. assert (N : ~ failed_before l) by (rewrite <- spoiled_play, I2; discriminate). apply (proj2 (C104_run_outcome l k)) in N.
  destruct (inv_play l) as (J1 & J2 & _). assert (So : sound (in_force (play l))) by (rewrite Forall_forall in I1; apply I1; unfold in_force, load; now apply nth_In).
  destruct (in_force (play l)) as [[|[[|? ?]|] [|[[|? ?]|] [|[[|? ?]|] [|[[|? ?]|] [|? ?]]]]]|]; try easy.
  destruct (C104_first_values v v0 v1 v2 l0 l1 l2 l3) as [B1 B2]. destruct J2 as [Ek|Ek]; rewrite Ek in N; [rewrite B2 in N|rewrite B1 in N]; exact N.
Qed.

(** *** Findings and cases *)
Definition svc_params : params := Entries [Values [VFloat fone]; Values [VStr "rbf"]; Values [VInt 2]; Values [VBool true]].
(** The order of the two setters matters: the parameters given first are lost; given last they are used, and not checked against the type. *)
Theorem C104_setters_commute_refuted :
  exists p name, snd (run 0 (play [Own p; SetParams 0; SetType name])) <> snd (run 0 (play [Own p; SetType name; SetParams 0])) /\
    snd (run 0 (play [Own p; SetParams 0])) = Ok [Trees (VFloat fone) (VStr "rbf") (VInt 2) (VBool true)].
Proof. exists svc_params, "svc". split; [discriminate|reflexivity]. Qed.
(** Correct parameters do not repair an object whose run failed. *)
Theorem C104_repaired_refuted :
  exists l p, in_force (play l) = p /\ build (kind (play l)) p = Ok (Trees (VInt 100) VNone (VInt 2) (VInt 0)) /\ forall k, snd (run k (play l)) = Raise AttributeError.
Proof. exists [Own (Entries [Values [VInt 100]]); SetParams 0; Run 3; SetType "rf"], rf_default. repeat split. Qed.
Example C104_new_object_case : snd (run 2 (play [])) = Ok (repeat (Trees (VInt 100) VNone (VInt 2) (VInt 0)) 3) /\
  snd (run 0 (play [SetType "svc"])) = Ok [SVC (VFloat fone) (VStr "poly") (VInt 3) (VBool true)].
Proof. split; reflexivity. Qed.
(** Hypotheses: a list given, read and changed; lists of other shapes. *)
Example C104_history_case :
  let l := [Own svc_params; SetType "svc"; SetParams 0; GetParams] in
  known "svc" /\ 0 < handles l /\ handles l = 2 /\ Forall (fun o => ~ replaces o) [Own rf_default; Run 1; SetType "knn"] /\
  content 1 (play (l ++ [Change 0 rf_default])) = Some rf_default /\
  Forall (fun o => ~ replaces o /\ o <> GetParams) [Change 0 NotIterable; Run 4] /\ ~ known "knn".
Proof.
  cbn zeta. assert (K : ~ known "knn") by (intros [H|H]; discriminate).
  split; [now right|]. split; [cbn; lia|]. split; [reflexivity|]. split; [repeat constructor; cbn; auto|]. split; [reflexivity|].
  split; [|exact K]. repeat constructor; cbn; auto; discriminate.
Qed.
Example C104_refused_case :
  malformed (Entries [Values [VInt 1]; NoIter]) /\ build "rf" (Entries [Values [VInt 1]; Values []; Values [VInt 1]]) = Raise IndexError /\
  build "svc" (Entries [Values [VInt 1; VInt 2]; Values [VInt 3]; Values [VInt 1]]) = Raise TypeError /\
  failed_before [Own NotIterable; SetParams 0; Run 0] /\ ~ failed_before [Own svc_params; Run 0].
Proof.
  split; [right; cbn; auto|]. split; [reflexivity|]. split; [reflexivity|]. split; [now exists [Own NotIterable; SetParams 0], 0, []|].
  rewrite <- spoiled_play. discriminate.
Qed.
Example C104_sound_case : Forall (fun o => match o with Own p | Change _ p => sound p | _ => True end) [Own svc_params; SetParams 0; Run 2; Change 0 rf_default; SetType "svc"; Run 1].
Proof. repeat constructor. Qed.

Print Assumptions C104_first_values.
Print Assumptions C104_refused.
Print Assumptions C104_returned_list_is_live.
Print Assumptions C104_given_list_is_live.
Print Assumptions C104_type_resets.
Print Assumptions C104_at_first.
Print Assumptions C104_refused_type.
Print Assumptions C104_run.
Print Assumptions C104_run_outcome.
Print Assumptions C104_sound_client_never_fails.
Print Assumptions C104_setters_commute_refuted.
Print Assumptions C104_repaired_refuted.
