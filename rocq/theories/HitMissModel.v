(** Model of AdaptiveHitMissPOD.run and the constructor labels, /repo/otpod/_adaptive_hitmiss_pod.py. *)
From Verif Require Import Base Float64 SettersModel.

(** *** Small numeric interface, so that the same formulas can be read in binary64 (as executed) and in
    exact real arithmetic. *)
Record num (T : Type) := {
  n_add : T -> T -> T; n_sub : T -> T -> T; n_mul : T -> T -> T; n_div : T -> T -> T;
  n_lt : T -> T -> bool; n_nan : T -> bool; n_ofZ : Z -> T }.
Arguments n_add {T}. Arguments n_sub {T}. Arguments n_mul {T}. Arguments n_div {T}.
Arguments n_lt {T}. Arguments n_nan {T}. Arguments n_ofZ {T}.
(** The instance that is executed: binary64. *)
Definition num64 : num float :=
  {| n_add := fadd; n_sub := fsub; n_mul := fmul; n_div := fdiv;
     n_lt := fltb; n_nan := is_nan; n_ofZ := of_int |}.

(** *** Confusion matrix, lines 340-352 *)
Section Confusion.
  Context {T : Type} (N : num T).
  (** Entry [t][p] of sklearn's confusion_matrix: observations of true class t predicted as p. Lines 342-344. *)
  Definition count (t p : bool) (truth pred : list bool) : Z :=
    Z.of_nat (length (filter (fun tp => Bool.eqb (fst tp) t && Bool.eqb (snd tp) p) (combine truth pred))).
  (** A 2 x 2 confusion matrix, entry m_tp for true class t predicted as p (lines 340-352). *)
  Record cm := { m00 : T; m01 : T; m10 : T; m11 : T }.
  (** Line 345: counts divided by the column sums.  When the labels and the predictions together
      contain one single class, sklearn returns a 1 x 1 matrix, normalised to [[1]] and broadcast to 2 x 2. *)
  Definition all_same (c : bool) (l : list bool) : bool := forallb (Bool.eqb c) l.
  (** Lines 342-345: conf_temp. *)
  Definition conf_temp (truth pred : list bool) : cm :=
    if (all_same true truth && all_same true pred) || (all_same false truth && all_same false pred)
    then let n := n_ofZ N (Z.of_nat (length truth)) in
         let v := n_div N n n in {| m00 := v; m01 := v; m10 := v; m11 := v |}
    else
      let c t p := n_ofZ N (count t p truth pred) in
      let s0 := n_add N (c false false) (c true false) in
      let s1 := n_add N (c false true) (c true true) in
      {| m00 := n_div N (c false false) s0; m01 := n_div N (c false true) s1;
         m10 := n_div N (c true false) s0;  m11 := n_div N (c true true) s1 |}.
  (** Line 346: the sum of two matrices. *)
  Definition cm_add (a b : cm) : cm :=
    {| m00 := n_add N (m00 a) (m00 b); m01 := n_add N (m01 a) (m01 b);
       m10 := n_add N (m10 a) (m10 b); m11 := n_add N (m11 a) (m11 b) |}.
  (** Line 340: np.zeros. *)
  Definition cm_zero : cm :=
    let z := n_ofZ N 0 in {| m00 := z; m01 := z; m10 := z; m11 := z |}.
  (** Line 348: division by the number of classifiers. *)
  Definition cm_scale (k : Z) (a : cm) : cm :=
    let d := n_ofZ N k in
    {| m00 := n_div N (m00 a) d; m01 := n_div N (m01 a) d;
       m10 := n_div N (m10 a) d; m11 := n_div N (m11 a) d |}.
  (** Lines 340-348: sum over the classifiers, divided by their number; [preds] are their predictions. *)
  Definition confMat (truth : list bool) (preds : list (list bool)) : cm :=
    cm_scale (Z.of_nat (length preds))
      (fold_left (fun acc pred => cm_add (conf_temp truth pred) acc) preds cm_zero).

  (** Lines 354-371, agg_classifier on one point: [raw] is classif_algo_temp(x)[1]; numpy max/min
      propagate NaN.  The returned row is [1 - p, p]. *)
  Definition np_max2 (a b : T) : T := if n_nan N a then a else if n_nan N b then b else if n_lt N a b then b else a.
  (** numpy minimum with NaN propagation, lines 358-369. *)
  Definition np_min2 (a b : T) : T := if n_nan N a then a else if n_nan N b then b else if n_lt N b a then b else a.
  (** Lines 355-370: the probability of class 1 given by agg_classifier. *)
  Definition agg (p11 p10 raw : T) : T :=
    let c := n_sub N p11 p10 in
    let p1 := n_mul N (n_div N (n_ofZ N 1) c) (n_sub N raw p10) in
    np_min2 (np_max2 p1 (n_ofZ N 0)) (n_ofZ N 1).
  (** Line 371: the returned row. *)
  Definition agg_row (p11 p10 raw : T) : T * T :=
    let p := agg p11 p10 raw in (n_sub N (n_ofZ N 1) p, p).
End Confusion.
Arguments m00 {T}. Arguments m01 {T}. Arguments m10 {T}. Arguments m11 {T}.

(** *** Candidate selection, lines 267-294 *)
Fixpoint all_some {A} (l : list (option A)) : option (list A) :=
  match l with
  | [] => Some []
  | Some x :: l' => match all_some l' with Some r => Some (x :: r) | None => None end
  | None :: _ => None
  end.
(** numpy fancy indexing with non-negative indices; an index out of range raises IndexError. Lines 292-293. *)
Definition fancy {A} (l : list A) (idx : list nat) : res (list A) :=
  match all_some (map (nth_error l) idx) with Some r => Ok r | None => Raise IndexError end.

(** Indices i with lo <= probs[i] < hi (lines 271-273: np.intersect1d of the two np.where). *)
Definition band_indices (lo hi : float) (probs : list float) : list nat :=
  map fst (filter (fun ip => fgeb (snd ip) lo && fltb (snd ip) hi) (combine (seq 0 (length probs)) probs)).
(** Lines 284-290. *)
Definition quant (n : nat) : list nat := [0; n / 4; n / 2; 3 * n / 4; n - 1].
(** Literals 0.1 and 0.8 of lines 278-279. *)
Definition f01 : float := of_ratio 1 10.
(** Literal 0.8, line 279. *)
Definition f08 : float := of_ratio 8 10.

Section Select.
  (** np.argsort (introsort: the order of ties is unspecified, so it stays an oracle). *)
  Variable argsort : list float -> list nat.
  (** Lines 270-293: indices of the candidates that are evaluated. *)
  Definition select (b : band) (probs : list float) : res (list nat) :=
    let ind := band_indices (pmin b) (pmax b) probs in
    let ind := match ind with
               | [] => band_indices f08 f01 probs       (* lines 277-281: probs < 0.1 and probs >= 0.8 *)
               | _ => ind
               end in
    do sub <- fancy probs ind;
    let rank := argsort sub in
    match ind with
    | [] => Raise IndexError                            (* ind_rank[quant] on an empty array, line 292 *)
    | _ => do bis <- fancy rank (quant (length ind)); fancy ind bis
    end.
End Select.

(** *** The enrichment loop, lines 214-377 *)
Section Loop.
  Context {X : Type}.
  Variable argsort : list float -> list nat.
  (** [fit k input labels]: the predict_proba(.)[1] of the classifier fitted at iteration k
      (k = 0: line 256).  Simplification: prediction is pointwise and returns the probability of class 1. *)
  Variable fit : nat -> list X -> list bool -> X -> float.
  (** Binary physical model. *)
  Variable phys : X -> bool.
  Variable candidates : list X.
  Variable b : band.
  Variable nMore : nat.

  (** Function objects stored in list_classifiers: the initial predict_proba, or a closure agg_classifier
      that reads the variables p11, p10, classif_algo_temp of run at call time (Python late binding). *)
  Inductive clf := CInit | CAgg.
  (** Local variables and attributes of the loop of run, lines 214-377. *)
  Record hm_state := {
    h_input : list X; h_labels : list bool;
    h_added : nat;                       (* n_added_points *)
    h_iter : nat;                        (* algo_iteration *)
    h_init : X -> float;                 (* the initial predict_proba *)
    h_p11 : float; h_p10 : float;        (* closure variables *)
    h_algo : X -> float;                 (* classif_algo_temp *)
    h_list : list clf; h_cur : clf;      (* list_classifiers, f_iter = self._classifierModel *)
    h_conf : option (cm (T := float));   (* self._confMat *)
    h_evals : list X                     (* ghost: points given to the physical model *)
  }.
  (** Call of a classifier stored in list_classifiers (lines 343, 354-371). *)
  Definition eval_clf (s : hm_state) (c : clf) (x : X) : float :=
    match c with
    | CInit => h_init s x
    | CAgg => agg num64 (h_p11 s) (h_p10 s) (h_algo s x)
    end.
  (** Predicted class, line 343: probability >= 0.5. *)
  Definition half : float := of_ratio 1 2.
  (** Line 343 on a list of points. *)
  Definition predict (f : X -> float) (xs : list X) : list bool := map (fun x => fgeb (f x) half) xs.

  (** Lines 214-262. *)
  Definition hm_start (input : list X) (labels : list bool) : hm_state :=
    let a := fit 0 input labels in
    {| h_input := input; h_labels := labels; h_added := 0; h_iter := 0; h_init := a;
       h_p11 := fzero; h_p10 := fzero; h_algo := a;        (* unbound until the first iteration; unused *)
       h_list := [CInit]; h_cur := CInit; h_conf := None; h_evals := [] |}.

  (** One iteration, lines 265-378 (without the graphs). *)
  Definition hm_step (n_ini : nat) (s : hm_state) : hm_state * res unit :=
    let probs := map (eval_clf s (h_cur s)) candidates in
    match (do idx <- select argsort b probs; fancy candidates idx) with
    | Raise e => (s, Raise e)
    | Ok x_new =>
      let z_new := map phys x_new in
      let n_new_temp := length (h_input s) + length x_new in
      let over := Nat.ltb (n_ini + nMore) n_new_temp in
      let keep := nMore + n_ini - length (h_input s) in
      let x_add := if over then firstn keep x_new else x_new in
      let z_add := if over then firstn keep z_new else z_new in
      let input := h_input s ++ x_add in
      let labels := h_labels s ++ z_add in
      let it := S (h_iter s) in
      let algo := fit it input labels in
      let conf := confMat num64 labels (map (fun c => predict (eval_clf s c) input) (h_list s)) in
      ({| h_input := input; h_labels := labels; h_added := n_new_temp - n_ini; h_iter := it;
          h_init := h_init s; h_p11 := m11 conf; h_p10 := m10 conf; h_algo := algo;
          h_list := h_list s ++ [CAgg]; h_cur := CAgg; h_conf := Some conf;
          h_evals := h_evals s ++ x_new |}, Ok tt)
    end.

  (** [while n_added_points < self._nMorePoints]; None: out of fuel. Lines 265-399. *)
  Fixpoint hm_loop (fuel n_ini : nat) (s : hm_state) : option (hm_state * res unit) :=
    if Nat.ltb (h_added s) nMore then
      match fuel with
      | O => None
      | S f => match hm_step n_ini s with
               | (s', Ok _) => hm_loop f n_ini s'
               | (s', Raise e) => Some (s', Raise e)
               end
      end
    else Some (s, Ok tt).
  (** run up to the end of the loop, lines 186-377, with a bound [fuel] on the turns. *)
  Definition hm_run (fuel : nat) (input : list X) (labels : list bool) : option (hm_state * res unit) :=
    hm_loop fuel (length input) (hm_start input labels).
End Loop.
Arguments h_input {X}. Arguments h_labels {X}. Arguments h_added {X}. Arguments h_iter {X}.
Arguments h_init {X}. Arguments h_p11 {X}. Arguments h_p10 {X}. Arguments h_algo {X}.
Arguments h_list {X}. Arguments h_cur {X}. Arguments h_conf {X}. Arguments h_evals {X}.

(** *** Type of [_input] across runs
    Lines 190-212 and 399-401: the loop works on numpy arrays ([self._input = np.array(...)], line 213) and turns
    them back into ot.Sample only after the loop; [getSize], [getMin], [getMax] exist on Sample only. *)
Inductive doe_kind := IsSample | IsArray.
(** Kind of [_input] after a call of run, and its outcome. Lines 190-213 and 399-401. *)
Definition hm_run_guard (kind : doe_kind) (loop_ok : bool) : doe_kind * res unit :=
  match kind with
  | IsArray => (IsArray, Raise AttributeError)          (* self._input.getSize() / getMin() *)
  | IsSample => if loop_ok then (IsSample, Ok tt) else (IsArray, Raise IndexError)
  end.

(** *** Labels, lines 150-175: signals > detection as 0/1, and the indicator of {g > detection}. *)
Definition label_signals (detection : float) (signals : list float) : list bool :=
  map (fun s => fgtb s detection) signals.
(** Lines 165-175: the indicator of {g > detection}. *)
Definition label_model {X} (detection : float) (g : X -> float) : X -> bool :=
  fun x => fgtb (g x) detection.
