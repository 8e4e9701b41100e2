(** Specification vocabulary: the exemplars of exponential histograms. *)
From Verif Require Export Spec_ExpHist Spec_ExemplarPipeline Model_ExpExemplar.
Local Open Scope Z_scope.

(** What was measured before each collection, since the one before it *)
Fixpoint x_intervals (since : list (mcall * Z)) (h : list xop) : list (list (mcall * Z)) :=
  match h with
  | [] => []
  | XMeasure c d :: h' => x_intervals (since ++ [(c, d)]) h'
  | XCollect _ :: h' => since :: x_intervals [] h'
  end.
(** What the calls measured *)
Definition amounts (since : list (mcall * Z)) : list Z := map (fun cd => mc_value (fst cd)) since.
(** The same history without regard to exemplars *)
Definition x_plain (o : xop) : mop := match o with XMeasure c _ => Measure (mc_value c) | XCollect now => Collect now end.
Definition point_in (r : ecollected) : option epoint := match r with EPoint p => Some p | _ => None end.
(** The measurements that can become exemplars: let through by the filter, and not zero *)
Definition is_zero (c : mcall) : bool := mc_value c =? 0.
Definition candidates (f : efilter) (since : list (mcall * Z)) : list (meas * Z) :=
  filter (fun md => lets_through f (fst md)) (map (fun cd => (as_meant (fst cd), snd cd)) (filter (fun cd => negb (is_zero (fst cd))) since)).
(** The exemplars of a point: of different candidates, as many as there are, or nearly as many as there is room for. *)
Definition exp_exemplars_are (f : efilter) (attrs : mattrs) (room : Z) (since : list (mcall * Z)) (es : list exemplar) : Prop :=
  let offered := map fst (candidates f since) in
  taken_with (span_rule offered) attrs offered es
  /\ Z.of_nat (length es) <= room /\ Z.min (Z.of_nat (length offered)) (room - 1) <= Z.of_nat (length es) /\ (offered <> [] -> es <> []).
