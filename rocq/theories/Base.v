(** Python outcomes, numpy boolean masks and stable sorting.
    These are the shared carriers of the model; each topic file cites the code it models. *)
From Coq Require Export List Arith ZArith Lia Bool Permutation Sorted.
Export ListNotations.

(** Exceptions raised by the code of /repo/otpod (Python class of the exception; messages are dropped). *)
Inductive exn :=
| AssertionError | ValueError | TypeError | AttributeError | NameError
| UnboundLocalError | IndexError | ZeroDivisionError | KeyError | OSError
| GenericException.   (* a bare [raise Exception(...)], or an exception of an external library *)

(** Outcome of a Python call: a value or an exception. *)
Inductive res (A : Type) := Ok (a : A) | Raise (e : exn).
Arguments Ok {A} a.
Arguments Raise {A} e.

(** Sequencing of Python statements: an exception skips the rest. *)
Definition bind {A B} (r : res A) (f : A -> res B) : res B :=
  match r with Ok a => f a | Raise e => Raise e end.
Notation "'do' x <- r ; k" := (bind r (fun x => k)) (at level 200, x pattern, r at level 100, k at level 200).

(** Python [assert]. *)
Definition assert_ (b : bool) : res unit := if b then Ok tt else Raise AssertionError.

(** Whether a call returned (reading aid; no code). *)
Definition is_ok {A} (r : res A) : bool := match r with Ok _ => true | Raise _ => false end.

(** numpy boolean indexing [l[m]]: IndexError when the lengths differ. *)
Fixpoint mask {A} (m : list bool) (l : list A) : list A :=
  match m, l with
  | b :: m', x :: l' => if b then x :: mask m' l' else mask m' l'
  | _, _ => []
  end.
(** numpy boolean indexing, e.g. /repo/otpod/_math_tools.py 280-290: IndexError when the lengths differ. *)
Definition bool_index {A} (m : list bool) (l : list A) : res (list A) :=
  if Nat.eqb (length m) (length l) then Ok (mask m l) else Raise IndexError.

(** Stable insertion sort for an arbitrary comparison (numpy [sort] / mergesort argsort). *)
Section Sort.
  Context {A : Type} (leb : A -> A -> bool).
  (** Insertion in a sorted list (no code of its own). *)
  Fixpoint insert (x : A) (l : list A) : list A :=
    match l with
    | [] => [x]
    | y :: l' => if leb x y then x :: y :: l' else y :: insert x l'
    end.
  (** np.sort with a stable algorithm, e.g. /repo/otpod/_quantile_regression_pod.py 285. *)
  Fixpoint isort (l : list A) : list A :=
    match l with [] => [] | x :: l' => insert x (isort l') end.

  Lemma insert_perm x l : Permutation (insert x l) (x :: l).
  Proof.
    induction l as [|y l IH]; cbn; [reflexivity|].
    destruct (leb x y); [reflexivity|].
    rewrite IH. apply perm_swap.
  Qed.
  Lemma isort_perm l : Permutation (isort l) l.
  Proof.
    induction l as [|x l IH]; cbn; [reflexivity|].
    rewrite insert_perm. now constructor.
  Qed.
  Lemma isort_length l : length (isort l) = length l.
  Proof. apply Permutation_length, isort_perm. Qed.

  (** Sorted lists (specification; no code). *)
  Definition Sorted_by : list A -> Prop := StronglySorted (fun a b => leb a b = true).

  Hypothesis leb_total : forall a b, leb a b = true \/ leb b a = true.
  Hypothesis leb_trans : forall a b c, leb a b = true -> leb b c = true -> leb a c = true.

  Lemma insert_sorted x l : Sorted_by l -> Sorted_by (insert x l).
  Proof.
    induction l as [|y l IH]; cbn; intros Hs.
    - repeat constructor.
    - inversion Hs as [|? ? Hs' Hall]; subst.
      destruct (leb x y) eqn:E.
      + constructor; [assumption|]. constructor; [assumption|].
        eapply Forall_impl; [|exact Hall]. intros z Hz. eapply leb_trans; eauto.
      + constructor; [now apply IH|].
        assert (Hyx : leb y x = true) by (destruct (leb_total x y); congruence).
        eapply Permutation_Forall; [symmetry; apply insert_perm|].
        constructor; assumption.
  Qed.
  Lemma isort_sorted l : Sorted_by (isort l).
  Proof. induction l; cbn; [constructor|now apply insert_sorted]. Qed.

  Lemma isort_id l : Sorted_by l -> isort l = l.
  Proof.
    induction 1 as [|x l Hs IH Hall]; cbn; [reflexivity|].
    rewrite IH. destruct l as [|y l]; cbn; [reflexivity|].
    inversion Hall; subst. now rewrite H1.
  Qed.
End Sort.

(** The sorted permutation is unique for an antisymmetric order. *)
Lemma sorted_perm_unique {A} (leb : A -> A -> bool)
      (anti : forall a b, leb a b = true -> leb b a = true -> a = b) :
  forall l1 l2, Sorted_by leb l1 -> Sorted_by leb l2 -> Permutation l1 l2 -> l1 = l2.
Proof.
  induction l1 as [|x l1 IH]; intros l2 H1 H2 HP.
  - now apply Permutation_nil in HP.
  - destruct l2 as [|y l2]; [symmetry in HP; now apply Permutation_nil in HP|].
    inversion H1 as [|? ? S1 F1]; inversion H2 as [|? ? S2 F2]; subst.
    assert (x = y).
    { assert (Hx : In x (y :: l2)) by (eapply Permutation_in; [exact HP|now left]).
      assert (Hy : In y (x :: l1)) by (eapply Permutation_in; [symmetry; exact HP|now left]).
      destruct Hx as [->|Hx]; [reflexivity|]. destruct Hy as [->|Hy]; [reflexivity|].
      rewrite Forall_forall in F1, F2. apply anti; auto. }
    subst y. f_equal. apply IH; auto. eapply Permutation_cons_inv; eassumption.
Qed.

(** *** Facts on masks *)
Lemma mask_map_filter {A B} (f : B -> bool) (l : list (A * B)) :
  mask (map (fun p => f (snd p)) l) (map fst l) = map fst (filter (fun p => f (snd p)) l).
Proof.
  induction l as [|[a b] l IH]; cbn; [reflexivity|].
  destruct (f b); cbn; now rewrite IH.
Qed.
Lemma mask_filter {B} (f : B -> bool) (l : list B) : mask (map f l) l = filter f l.
Proof. induction l as [|b l IH]; cbn; [reflexivity|]. destruct (f b); now rewrite IH. Qed.

Lemma filter_length_split {A} (f g h : A -> bool) (l : list A) :
  (forall x, In x l -> (if f x then 1 else 0) + (if g x then 1 else 0) + (if h x then 1 else 0) = 1) ->
  length (filter f l) + length (filter g l) + length (filter h l) = length l.
Proof.
  induction l as [|x l IH]; cbn [filter length]; intros H; [reflexivity|].
  assert (Hx := H x (or_introl eq_refl)).
  assert (IH' : length (filter f l) + length (filter g l) + length (filter h l) = length l)
    by (apply IH; intros y Hy; apply H; now right).
  destruct (f x), (g x), (h x); cbn [length] in *; lia.
Qed.

(** Order preserving selections. *)
Inductive subseq {A} : list A -> list A -> Prop :=
| subseq_nil : subseq [] []
| subseq_skip x l1 l2 : subseq l1 l2 -> subseq l1 (x :: l2)
| subseq_take x l1 l2 : subseq l1 l2 -> subseq (x :: l1) (x :: l2).
Lemma filter_subseq {A} (f : A -> bool) l : subseq (filter f l) l.
Proof. induction l as [|x l IH]; cbn; [constructor|]. destruct (f x); now constructor. Qed.
Lemma subseq_map {A B} (f : A -> B) l1 l2 : subseq l1 l2 -> subseq (map f l1) (map f l2).
Proof. induction 1; cbn; now constructor. Qed.
