(** The text of the exception of setDefectSizes, in binary64: /repo/otpod/_kriging_tools.py 262-267, _adaptive_hitmiss_pod.py 743-748,
    _pli_pod.py 160-165, _polynomial_chaos_pod.py 486-491, _sobol_indices.py 387-392 (the same code). *)
From Coq Require Import SpecFloat.
From Verif Require Import Base Float64 SettersModel.
Local Open Scope Z_scope.

(** np.floor as an integer, _kriging_tools.py 266; None for infinities and NaN (which np.floor returns as they are). *)
Definition ffloorZ (x : float) : option Z :=
  match x with
  | S754_zero _ => Some 0
  | S754_finite s m e => let z := if s then Zneg m else Zpos m in Some (if 0 <=? e then z * 2 ^ e else z / 2 ^ (- e))
  | _ => None
  end.
(** np.ceil as an integer, _kriging_tools.py 265. *)
Definition fceilZ (x : float) : option Z := option_map Z.opp (ffloorZ (SFopp x)).
(** np.ceil(minMin * 10000) / 10000, _kriging_tools.py 265. Simplification: a zero has no sign. *)
Definition named_lower (lo : float) : float :=
  let x := fmul lo (of_int 10000) in
  match fceilZ x with Some k => fdiv (of_int k) (of_int 10000) | None => fdiv x (of_int 10000) end.
(** np.floor(maxMax * 10000) / 10000, _kriging_tools.py 266. *)
Definition named_upper (hi : float) : float :=
  let x := fmul hi (of_int 10000) in
  match ffloorZ x with Some k => fdiv (of_int k) (of_int 10000) | None => fdiv x (of_int 10000) end.
(** The two numbers written in the text of the exception raised for sizes out of range (262-267); the numpy error for no size has no such text. *)
Definition complaint (lo hi : float) (st : sizes_state) (arg : list float) : option (float * float) :=
  match arg with
  | [] => None
  | _ => match snd (setDefectSizes lo hi st arg) with Ok _ => None | Raise _ => Some (named_lower lo, named_upper hi) end
  end.
