(** C44: labels of AdaptiveHitMissPOD and range of its curves. *)
From Coq Require Import SpecFloat.
From Verif Require Import RealBase Float64 SettersModel HitMissModel HitMissSpec HitMissProofs HitMissConf LayoutModel LayoutProps QuantileModel InterpModel InterpProps.
Local Open Scope list_scope.

(** Whatever the outcome of the run, observation i is labelled 1 iff its signal (given, or returned by the physical
    model for an added point) is strictly greater than the detection threshold. *)
Theorem C44_labels :
  forall (X : Type) argsort fit (g : X -> float) (candidates : list X) b nMore inputs signals detection fuel,
    argsort_spec argsort -> length signals = length inputs -> nMore <= 5 * fuel ->
    exists s r added, hm_run argsort fit (label_model detection g) candidates b nMore fuel inputs (label_signals detection signals) = Some (s, r) /\
      h_input s = inputs ++ added /\ incl added candidates /\ length (h_labels s) = length (h_input s) /\
      forall i v, nth_error (signals ++ map g added) i = Some v -> nth_error (h_labels s) i = Some (fltb detection v).
Proof.
  intros X argsort fit g candidates b nMore inputs signals detection fuel Has Hl Hf.
  assert (Hl' : length (label_signals detection signals) = length inputs) by (unfold label_signals; now rewrite map_length).
  destruct (growth_lemma argsort fit (label_model detection g) candidates b nMore Has inputs (label_signals detection signals) fuel Hl' Hf)
    as [rounds [s [r [E [Ht [He [Hi [Hin [Hla [Hr H]]]]]]]]]].
  exists s, r, (firstn nMore (concat rounds)). split; [exact E|]. split; [exact Hin|]. split.
  - intros x Hx. assert (Hc : In x (concat rounds)).
    { rewrite <- (firstn_skipn nMore). apply in_or_app. now left. }
    apply in_concat in Hc. destruct Hc as (xs & Hxs & Hx'). apply In_nth_error in Hxs. destruct Hxs as (k & Hk).
    destruct (Hr k xs Hk) as (f & _ & Hok).
    destruct Hok as [_ Hok]. rewrite Forall_forall in Hok. now apply Hok.
  - rewrite Hla, Hin, !app_length, map_length, Hl'. split; [reflexivity|].
    intros i v Hv. unfold label_signals. change (map (label_model detection g)) with (map (fun x => fgtb (g x) detection)).
    rewrite <- (map_map g (fun w => fgtb w detection)), <- map_app, nth_error_map, Hv. reflexivity.
Qed.
Print Assumptions C44_labels.

Local Open Scope R_scope.
(** The POD values at each defect size, computed from any probabilities in [0,1] (a classifier, or the corrected one, see
    below), and every value of the POD and confidence curves, are in [0,1]. *)
Definition hitmiss_simulation (dim : nat) (X : list (list R)) (proba : list R -> R) (sizes : list R) : list (list R) :=
  match hitmiss_pod 0 (length X) (length sizes) dim sizes X proba with
  | Ok cols => transpose 0 (length X) cols
  | Raise _ => []
  end.
Lemma hitmiss_simulation_value dim X proba sizes j x : nth_error X j = Some x ->
  nth_error (hitmiss_simulation dim X proba sizes) j = Some (map (fun d => proba (d :: x)) sizes).
Proof.
  intros Hj. unfold hitmiss_simulation.
  destruct (C35_hitmiss_pod 0 (length X) (length sizes) dim sizes X proba eq_refl eq_refl) as (cols & -> & Hlen & Hc).
  unfold transpose. rewrite nth_error_map.
  assert (Lj : (j < length X)%nat) by (apply nth_error_Some; rewrite Hj; discriminate).
  rewrite (nth_error_nth' _ 0%nat) by (now rewrite seq_length). rewrite seq_nth by assumption. cbn [option_map Nat.add]. f_equal.
  assert (Hcols : cols = map (fun d => map (fun y => proba (d :: y)) X) sizes).
  { apply nth_ext with (d := []) (d' := []); [now rewrite map_length|]. intros i Hi.
    destruct (nth_error sizes i) as [d|] eqn:Ed; [|apply nth_error_None in Ed; lia].
    rewrite (nth_error_nth _ _ _ (Hc i d Ed)). symmetry. apply nth_error_nth. now rewrite nth_error_map, Ed. }
  rewrite Hcols, map_map. apply map_ext. intros d. apply nth_error_nth. now rewrite nth_error_map, Hj.
Qed.
Theorem C44_curves_in_unit_interval :
  forall dim (X : list (list R)) (proba : list R -> R) sizes t c v,
    X <> [] -> (forall p, 0 <= proba p <= 1) ->
    let o := meta_run (hitmiss_simulation dim X proba) col_means (meta_new sizes) in
    (meta_evalPOD o t = Ok v -> 0 <= v <= 1) /\ (meta_evalCL o c t = Ok v -> 0 <= v <= 1) /\
    (forall j x, nth_error X j = Some x ->
       nth_error (hitmiss_simulation dim X proba sizes) j = Some (map (fun d => proba (d :: x)) sizes)).
Proof.
  intros dim X proba sizes t c v HX Hp o.
  assert (L : forall s, length (hitmiss_simulation dim X proba s) = length X).
  { intros s. unfold hitmiss_simulation.
    destruct (C35_hitmiss_pod 0 (length X) (length s) dim s X proba eq_refl eq_refl) as (cols & -> & _ & _).
    unfold transpose. now rewrite map_length, seq_length. }
  destruct (C28_curves_in_unit_interval (hitmiss_simulation dim X proba) sizes t c v) as [A B].
  - intros s r p Hr Hpr. apply In_nth_error in Hr. destruct Hr as (j & Hj).
    assert (Lj : (j < length X)%nat) by (rewrite <- (L s); apply nth_error_Some; rewrite Hj; discriminate).
    destruct (nth_error X j) as [x|] eqn:Ex; [|apply nth_error_None in Ex; lia].
    rewrite (hitmiss_simulation_value dim X proba s j x Ex) in Hj. injection Hj as <-.
    apply in_map_iff in Hpr. destruct Hpr as (d & <- & _). apply Hp.
  - intros E. apply HX. apply length_zero_iff_nil. rewrite <- (L sizes), E. reflexivity.
  - split; [exact A|]. split; [exact B|]. intros j x Hj. now apply hitmiss_simulation_value.
Qed.
Print Assumptions C44_curves_in_unit_interval.
(** The corrected classifier meets the hypothesis. *)
Theorem C44_corrected_curves_in_unit_interval :
  forall dim (X : list (list R)) (raw : list R -> R) p11 p10 sizes t c v,
    X <> [] -> p11 <> p10 ->
    let o := meta_run (hitmiss_simulation dim X (fun x => agg numR p11 p10 (raw x))) col_means (meta_new sizes) in
    (meta_evalPOD o t = Ok v -> 0 <= v <= 1) /\ (meta_evalCL o c t = Ok v -> 0 <= v <= 1).
Proof.
  intros dim X raw p11 p10 sizes t c v HX _ o.
  destruct (C44_curves_in_unit_interval dim X (fun x => agg numR p11 p10 (raw x)) sizes t c v HX (fun p => aggR_range p11 p10 (raw p)))
    as (A & B & _). split; assumption.
Qed.
Print Assumptions C44_corrected_curves_in_unit_interval.
Example C44_example :
  label_signals (of_int 3) [of_int 2; of_int 3; of_int 4] = [false; false; true] /\
  (exists s, hm_run stable_argsort (fun _ _ _ _ => of_ratio 1 2) (label_model (of_int 3) (fun x => x))
     [of_int 2; of_int 3; of_int 4] {| pmin := of_ratio 45 100; pmax := of_ratio 52 100 |} 2 1
     [of_int 1; of_int 5; of_int 9] (label_signals (of_int 3) [of_int 1; of_int 5; of_int 9]) = Some (s, Ok tt) /\
     h_labels s = [false; true; true; false; false]) /\
  meta_evalPOD (meta_run (hitmiss_simulation 2 [[1]; [2]] (fun p => match p with d :: _ => if Rltb d 2 then 0 else 1 | [] => 0 end))
     col_means (meta_new [1; 3])) 2 = Ok (1 / 2).
Proof.
  split; [vm_compute; reflexivity|]. split.
  - eexists. split; vm_compute; reflexivity.
  - cbn [meta_evalPOD meta_run meta_new mo_curve mo_sizes].
    assert (E : hitmiss_simulation 2 [[1]; [2]] (fun p => match p with d :: _ => if Rltb d 2 then 0 else 1 | [] => 0 end) [1; 3] = [[0; 1]; [0; 1]]).
    { unfold hitmiss_simulation, hitmiss_pod, fullSamplePred, fill, set_slice, mergeDefectInX, reshape, transpose. cbn.
      destruct (Rltb_spec 1 2); [|lra]. destruct (Rltb_spec 3 2); [lra|]. reflexivity. }
    rewrite E. unfold col_means, column. cbn [map seq length nth]. unfold Rmean, interp1d, node_sort. cbn [length Nat.eqb combine isort].
    cbn [insert]. unfold node_leb at 1. cbn [fst]. rewrite (proj2 (Rleb_true 1 3)) by lra. cbn [interp].
    destruct (Rltb_spec 2 1); [lra|]. destruct (Rltb_spec 2 3); [|lra]. f_equal. unfold Rsum. cbn [fold_right length INR]. field.
Qed.
