(** Model of DataHandling.filterCensoredData, /repo/otpod/_math_tools.py 238-298. *)
From Verif Require Import Base Float64.

(** _math_tools.py 271-274: a missing threshold is replaced by -/+ sys.float_info.max. *)
Definition low_threshold (noise : option float) : float :=
  match noise with None => fneg_max | Some t => t end.
(** _math_tools.py 273-274. *)
Definition high_threshold (sat : option float) : float :=
  match sat with None => fmax | Some t => t end.

(** _math_tools.py 280-282, 284, 286: the three numpy masks, one boolean per signal. *)
Definition unc_mask (nt st : float) (signals : list float) : list bool :=
  map (fun s => fgtb s nt && fltb s st) signals.
(** _math_tools.py 284. *)
Definition noise_mask (nt : float) (signals : list float) : list bool :=
  map (fun s => fleb s nt) signals.
(** _math_tools.py 286. *)
Definition sat_mask (st : float) (signals : list float) : list bool :=
  map (fun s => fgeb s st) signals.

(** _math_tools.py 239-298.  [rows] are the rows of inputSample (any type), [signals] the single column of
    the signals.  [np.hstack] on an empty array raises ValueError (no observation); a mask whose length
    differs from the number of rows raises IndexError.  Simplification: the conversion to ot.Sample
    (293-296) is the identity. *)
Definition filterCensoredData {Row : Type} (rows : list Row) (signals : list float)
           (noise sat : option float)
  : res (list Row * list Row * list Row * list float) :=
  let nt := low_threshold noise in
  let st := high_threshold sat in
  match signals with
  | [] => Raise ValueError
  | _ =>
    do iu <- bool_index (unc_mask nt st signals) rows;
    do ino <- bool_index (noise_mask nt signals) rows;
    do isat <- bool_index (sat_mask st signals) rows;
    do su <- bool_index (unc_mask nt st signals) signals;
    Ok (iu, ino, isat, su)
  end.
