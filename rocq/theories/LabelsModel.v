(** Model of the labels attached to detection sizes: /repo/otpod/_pod.py 125 and 139-145 (the same expressions:
    _quantile_regression_pod.py 308, 323-329, _pod_summary.py 572-576). *)
From Coq Require Import String DecimalString SpecFloat.
From Verif Require Import Base Float64.
Local Open Scope string_scope.
Local Open Scope list_scope.

(** Python [str] of an int. General Python or numpy semantics, no line of its own. *)
Definition dec (z : Z) : string := NilEmpty.string_of_int (Z.to_int z).
(** [int(level * 100)]: binary64 product, then truncation.  Simplification: the OverflowError raised for an infinite
    product is not distinguished from the ValueError raised for NaN. *)
Definition percent (level : float) : res Z :=
  match ftrunc (fmul level (of_int 100)) with Some z => Ok z | None => Raise ValueError end.
(** The description of the returned point. /repo/otpod/_pod.py 125 and 139-145. *)
Definition labels (p : float) (gamma : option float) : res (list string) :=
  do a <- percent p;
  match gamma with
  | None => Ok ["a" ++ dec a]%string
  | Some g => do b <- percent p; do c <- percent g; Ok ["a" ++ dec a; "a" ++ dec b ++ "/" ++ dec c]%string
  end.
