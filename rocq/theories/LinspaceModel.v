(** The default defect sizes, in binary64: numpy.linspace as called by the constructors. *)
From Verif Require Import Base Float64 SettersModel.

(** numpy.linspace(start, stop, num) with the endpoint, in doubles (external library, as written in numpy/core/function_base.py;
    the multiplication of start and stop by 1.0 is dropped): delta = stop - start; step = delta / (num - 1); y = arange(num) * step, or
    arange(num) / (num - 1) * delta when step is 0; y += start; y[-1] = stop when num > 1. *)
Definition linspace_point (start stop : float) (num i : nat) : float :=
  let delta := fsub stop start in
  let div := of_int (Z.of_nat (num - 1)) in
  let step := fdiv delta div in
  let y := if fleb step fzero && fleb fzero step then fmul (fdiv (of_int (Z.of_nat i)) div) delta
           else fmul (of_int (Z.of_nat i)) step in
  fadd y start.
(** The whole array; for num = 1 numpy gives [0 * delta + start]. General Python or numpy semantics, no line of its own. *)
Definition linspace (start stop : float) (num : nat) : list float :=
  match num with
  | O => []
  | 1 => [fadd (fmul (of_int 0) (fsub stop start)) start]
  | _ => map (linspace_point start stop num) (seq 0 (num - 1)) ++ [stop]
  end.

(** The classes with default defect sizes. The constructors cited below. *)
Inductive sized_class := SKriging | SAdaptiveSignal | SHitMiss | SChaos.
(** _defectNumber: _kriging_pod.py 135, _adaptive_signal_pod.py 164, _adaptive_hitmiss_pod.py 156, _polynomial_chaos_pod.py 134. *)
Definition default_number (c : sized_class) : nat := match c with SAdaptiveSignal => 10 | _ => 20 end.
(** _defectSizes and _defectNumber at the end of the constructor: _kriging_pod.py 135-140, _adaptive_signal_pod.py 164-169,
    _adaptive_hitmiss_pod.py 156-161, _polynomial_chaos_pod.py 133-139; [lo] and [hi] are the extreme uncensored defects. *)
Definition default_sizes (c : sized_class) (lo hi : float) : sizes_state :=
  {| st_sizes := linspace lo hi (default_number c); st_number := default_number c |}.
