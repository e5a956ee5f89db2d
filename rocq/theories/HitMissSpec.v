(** Independent vocabulary for the hit-miss enrichment properties. *)
From Verif Require Import Base Float64 SettersModel HitMissModel.

(** Contract of np.argsort: a permutation of the positions, in non-decreasing order of the values
    (NaN last). *)
Definition argsort_spec (argsort : list float -> list nat) : Prop :=
  forall l, Permutation (argsort l) (seq 0 (length l)) /\
            forall i j a b, i < j -> nth_error (argsort l) i = Some a -> nth_error (argsort l) j = Some b ->
              np_leb (nth a l fzero) (nth b l fzero) = true.

(** A probability in the half open band. *)
Definition in_band (b : band) (p : float) : Prop := fleb (pmin b) p = true /\ fltb p (pmax b) = true.

(** The probability model in force at round [k], when [data] has been added to the initial DOE: the classifier
    fitted on the initial DOE, then a rescaled version of the classifier fitted on the data so far. *)
Definition current_classifier {X} (fit : nat -> list X -> list bool -> X -> float) (phys : X -> bool)
    (input : list X) (labels : list bool) (k : nat) (data : list X) (f : X -> float) : Prop :=
  match k with
  | O => f = fit 0 input labels
  | S _ => exists p11 p10, f = fun x => agg num64 p11 p10 (fit k (input ++ data) (labels ++ map phys data) x)
  end.

(** Five candidates of the band. *)
Definition round_ok {X} (candidates : list X) (b : band) (f : X -> float) (xs : list X) : Prop :=
  length xs = 5 /\ Forall (fun x => In x candidates /\ in_band b (f x)) xs.

(** Number of iterations: nMore/5 rounded up. *)
Definition ceil5 (n : nat) : nat := (n + 4) / 5.

(** A concrete argsort (stable) that meets the contract. *)
Definition stable_argsort (l : list float) : list nat :=
  isort (fun i j => np_leb (nth i l fzero) (nth j l fzero)) (seq 0 (length l)).

(** [order] lists, without repetition and by non-decreasing probability, exactly the positions whose probability is
    in the band, and [idx] takes the first, quartile, median, third quartile and last ones. *)
Definition quartile_choice (b : band) (probs : list float) (order idx : list nat) : Prop :=
  let n := length order in
  NoDup order /\
  (forall i, In i order <-> exists p, nth_error probs i = Some p /\ in_band b p) /\
  (forall i j, i < j < n -> np_leb (nth (nth i order 0) probs fzero) (nth (nth j order 0) probs fzero) = true) /\
  idx = [nth 0 order 0; nth (n / 4) order 0; nth (n / 2) order 0; nth (3 * n / 4) order 0; nth (n - 1) order 0].

(** Some candidate has a probability in the band for the model in force in state [s]. *)
Definition some_candidate_in_band {X} (candidates : list X) (b : band) (s : hm_state) : Prop :=
  exists x, In x candidates /\ in_band b (eval_clf s (h_cur s) x).

(** Both classes occur. *)
Definition both_classes (l : list bool) : Prop := In true l /\ In false l.
