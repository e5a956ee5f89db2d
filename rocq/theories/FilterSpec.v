(** Specification of the censoring split, independent of the model's masks. *)
From Verif Require Import Base Float64.

(** Specification predicates: the area a signal belongs to, as documented. *)
Definition below (noise : option float) (s : float) : bool :=
  match noise with None => false | Some t => fleb s t end.
Definition above (sat : option float) (s : float) : bool :=
  match sat with None => false | Some t => fleb t s end.
Definition inside (noise sat : option float) (s : float) : bool := negb (below noise s) && negb (above sat s).
(** A signal strictly inside the range of doubles (in particular not NaN, not infinite). *)
Definition in_range (s : float) : Prop := fltb fneg_max s = true /\ fltb s fmax = true.
(** Thresholds as a user gives them: not NaN, and noise < saturation when both are given. *)
Definition thresholds_ok (noise sat : option float) : Prop :=
  match noise, sat with
  | None, None => True
  | Some a, None => is_nan a = false
  | None, Some b => is_nan b = false
  | Some a, Some b => fltb a b = true
  end.

