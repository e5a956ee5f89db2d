(** Model of SobolIndices.run and of the kriging POD function, /repo/otpod/_sobol_indices.py. *)
From Verif Require Import RealBase Float64 SettersModel HitMissModel.
Local Open Scope list_scope.

(** Attributes: _defectSizes / _defectNumber and the sensitivity object _sa (None before run), which keeps the output
    columns it was built from. _sobol_indices.py 59-98. *)
Record sobol_state (Col : Type) := { sb_sizes : sizes_state; sb_sa : option (list Col) }.
Arguments sb_sizes {Col}. Arguments sb_sa {Col}.
(** SobolIndices.run, lines 99-169.  [design sizes] is the output design, one column per defect size;
    [nonzero col] tells whether the variance of the first N values of the column is not 0 (lines 132-139).
    Simplification: the sensitivity algorithm itself (152-169) is only recorded by its columns. *)
Definition sobol_run {Col} (lo hi : float) (design : list float -> list Col) (nonzero : Col -> bool) (st : sobol_state Col)
  : sobol_state Col * res unit :=
  let outs := design (st_sizes (sb_sizes st)) in
  let selected := filter (fun i => match nth_error outs i with Some c => nonzero c | None => false end) (seq 0 (length outs)) in
  if negb (Nat.eqb (length selected) (length outs)) then
    match fancy (st_sizes (sb_sizes st)) selected with
    | Raise e => (st, Raise e)
    | Ok arg =>
        let '(st1, r) := setDefectSizes lo hi (sb_sizes st) arg in
        match r with
        | Raise e => ({| sb_sizes := st1; sb_sa := sb_sa st |}, Raise e)
        | Ok _ =>
            match fancy outs selected with
            | Raise e => ({| sb_sizes := st1; sb_sa := sb_sa st |}, Raise e)
            | Ok sel => ({| sb_sizes := st1; sb_sa := Some sel |}, Ok tt)
            end
        end
    end
  else ({| sb_sizes := sb_sizes st; sb_sa := Some outs |}, Ok tt).
(** setDefectSizes, lines 372-393. *)
Definition sobol_setSizes {Col} (lo hi : float) (st : sobol_state Col) (arg : list float) : sobol_state Col * res unit :=
  let '(s, r) := setDefectSizes lo hi (sb_sizes st) arg in ({| sb_sizes := s; sb_sa := sb_sa st |}, r).
(** _drawIndices, lines 300-311: the plotted pairs (size, column its index is computed from); every exception of the
    loop (no sensitivity object, no i-th index) is swallowed. *)
Definition drawn {Col} (st : sobol_state Col) : list (float * Col) :=
  combine (st_sizes (sb_sizes st)) (match sb_sa st with Some l => l | None => [] end).

Local Open Scope R_scope.
(** *** PODaggrKriging._exec, lines 487-522 *)
(** 1 - pNormal((detection - mean) / sqrt(var)): None is NaN (negative variance, or 0/0); an infinite quotient gives
    0 or 1. Lines 519-522. *)
Definition kr_prob (Phi : R -> R) (detection m var : R) : option R :=
  if Rltb var 0 then None
  else if Reqb var 0 then
    if Reqb (detection - m) 0 then None else Some (if Rltb 0 (detection - m) then 0 else 1)
  else Some (1 - Phi ((detection - m) / sqrt var)).
(** The variance check, lines 503-517. *)
Definition check_var (vars : list R) : res (list R) :=
  if forallb (fun v => Rltb v 0) vars then
    if forallb (fun v => Rltb v (1 / 100)) (filter (fun v => Rltb v 0) vars) then Raise ValueError
    else Ok (map Rabs vars)
  else Ok vars.
(** Lines 519-522: (detection - mean) has shape (D, 1) and sqrt(var) shape (D,), so their quotient is a D x D matrix
    whose first column is kept: row i uses mean i and variance 0. *)
Definition kr_exec (Phi : R -> R) (detection : R) (means vars : list R) : res (list (option R)) :=
  do v <- check_var vars;
  match v with
  | [] => Ok []
  | v0 :: _ => Ok (map (fun m => kr_prob Phi detection m v0) means)
  end.
(** The whole function at parameters x: the kriging is evaluated at (size, x), without the normalisation. Lines 487-522. *)
Definition kr_point {P} (Phi : R -> R) (detection : R) (kmean kvar : P -> R) (point : R -> P) (sizes : list R)
  : res (list (option R)) :=
  kr_exec Phi detection (map (fun a => kmean (point a)) sizes) (map (fun a => kvar (point a)) sizes).
