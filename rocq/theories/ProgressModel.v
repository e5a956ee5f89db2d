(** Model of updateProgress, /repo/otpod/_progress_bar.py 26-43. *)
From Verif Require Import Base.
Local Open Scope Z_scope.

(** Python 3 [round] to an integer: nearest, ties to even; here of the exact rational n/d (d > 0).
    Simplification: the code rounds the binary64 quotient, which is the same integer unless the numbers
    exceed the precision of doubles. *)
Definition round_half_even (n d : Z) : Z :=
  let q := n / d in
  let r := n mod d in
  if 2 * r <? d then q
  else if d <? 2 * r then q + 1
  else if Z.even q then q else q + 1.

(** What is written to the terminal: number of '=' and '-' characters, the progress as a fraction,
    and whether the status "Done" is appended. _progress_bar.py 26-43. *)
Record line := { eqs : Z; dashes : Z; prog_num : Z; prog_den : Z; is_done : bool }.

(** _progress_bar.py 26-43.  [None]: nothing printed.  ZeroDivisionError when nIter (hence nFlush) is 0.
    ['-' * k] is empty for k < 0. *)
Definition updateProgress (i nIter nFlush barLength : Z) : res (option line) :=
  let nFlush := if nIter <? nFlush then nIter else nFlush in
  if nFlush =? 0 then Raise ZeroDivisionError else
  let everyCheck := round_half_even nIter nFlush in
  if everyCheck =? 0 then Raise ZeroDivisionError else
  if ((i + 1) mod everyCheck =? 0) || (i + 1 =? nIter) then
    if nIter =? 0 then Raise ZeroDivisionError else
    let full := nIter <=? i + 1 in
    let num := if full then 1 else i + 1 in
    let den := if full then 1 else nIter in
    let block := round_half_even (barLength * num) den in
    Ok (Some {| eqs := Z.max 0 block; dashes := Z.max 0 (barLength - block);
                prog_num := num; prog_den := den; is_done := full |})
  else Ok None.

(** The calls of a loop [for i in range(nIter): updateProgress(i, nIter, ...)]. E.g. _kriging_pod.py 212. *)
Definition loop_calls (nIter nFlush barLength : Z) : list (res (option line)) :=
  map (fun k => updateProgress (Z.of_nat k) nIter nFlush barLength) (seq 0 (Z.to_nat nIter)).
(** The lines written by these calls. No line of its own: the calls of a client. *)
Definition printed (l : list (res (option line))) : list line :=
  flat_map (fun r => match r with Ok (Some x) => [x] | _ => [] end) l.
