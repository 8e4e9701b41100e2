(** Exemplars of an exponential histogram: one aggregation with its reservoir.

    Source: opentelemetry-sdk/src/opentelemetry/sdk/metrics/_internal/aggregation.py 94-148, 628-1060. *)
From Verif Require Export Model_ExpHist Model_ExemplarPipeline.
Local Open Scope Z_scope.

(** A measurement, with the answer of [randrange] if the reservoir asks for it; a collection. *)
Inductive xop := XMeasure (c : mcall) (draw : Z) | XCollect (now : Z).
(** [xe_ok]: no call raised; [xe_out]: what the collections returned *)
Record xestate := XE { xe_hist : ehist; xe_res : reservoir; xe_ok : bool; xe_out : list (option (epoint * list exemplar)) }.
(** 675-680 and view.py 37-45: the default reservoir, with room for min(20, max_size).  Custom factories are left out. *)
Definition xe_new (h : ehist) : xestate := XE h (simple_new (Z.min 20 (eh_max_size h))) true [].

Section ExpExemplar.
Variable log_floor : Z -> Z -> Z.
Variable f : efilter.
Variable t : temporality.
(** 711-822: line 737 returns for a zero before [_sample_exemplar] (822, 133-148) is reached, and so does an exception.
    824-1060: [_collect_exemplars] is called where a point is made. *)
Definition xe_step (s : xestate) (o : xop) : xestate :=
  match o with
  | XMeasure c draw =>
      let m := measurement_of c in
      let (h, ok) := eh_aggregate log_floor (xe_hist s) (me_value m) in
      XE h (if (me_value m =? 0) || negb ok then xe_res s else sample_exemplar f m draw (xe_res s)) (xe_ok s && ok) (xe_out s)
  | XCollect now =>
      let (h, r) := eh_collect (xe_hist s) t now in
      match r with
      | EPoint p => let (res, es) := rcollect (eh_attrs (xe_hist s)) (xe_res s) in XE h res (xe_ok s) (xe_out s ++ [Some (p, es)])
      | ENone => XE h (xe_res s) (xe_ok s) (xe_out s ++ [None])
      | ERaised => XE h (xe_res s) false (xe_out s ++ [None])
      end
  end.
Definition xe_run (s : xestate) (l : list xop) : xestate := fold_left xe_step l s.
End ExpExemplar.
