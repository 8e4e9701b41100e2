(** Specification vocabulary: exponential histograms with exemplars in what a collection delivers. *)
From Verif Require Export Spec_ExpPipeline Model_ExpExemplarPipeline Spec_ExpExemplar.
From Verif Require Import Spec_ExemplarPipeline Model_ExemplarPipeline Model_Exemplar.
Local Open Scope Z_scope.

(** An exponential histogram for [i], as [v] sees it, with these points and exemplars is in what a collection delivers. *)
Definition m_reports {Scope G0 D0 : Type} `{EqDec Scope} (obj : N -> instr) (scope_of : N -> Scope) (out : dict Scope (list (@metric (mpoint D0))))
    (i : N) (v : @view (xconf G0)) (t : temporality) (points : list (epoint * list exemplar)) : Prop :=
  exists l m, dget (scope_of i) out = Some l /\ In m l
  /\ m_name m = renamed (v_name v) (in_name (obj i)) /\ m_descr m = renamed (v_descr v) (in_descr (obj i)) /\ m_unit m = in_unit (obj i)
  /\ m_shape m = ShExponential /\ m_temporality m = t /\ m_points m = map MExpPoint points.
(** The start of an interval that follows the calls [h0] and consists of the calls [part] (compare [interval_start]): the reader's last
    collection if there were such attributes before it, otherwise the first measurement with them. *)
Definition e_starts (float_int : Z -> option Z) (obj_hash : N -> bool) (obj : N -> instr) (the_call : N -> mcall) (ks : option (list str))
    (r : nat) (i : N) (a : option mattrs) (h0 part : list ecall) (s : Z) : Prop :=
  (exists l h1 obs, e_with float_int obj_hash the_call ks a (e_gets obj the_call r i h0) l /\ l <> [] /\ h0 = h1 ++ [ECollect r obs false s])
  \/ (e_with float_int obj_hash the_call ks a (e_gets obj the_call r i h0) []
      /\ exists p1 k p2, part = p1 ++ ECall i k s :: p2 /\ takes (in_kind (obj i)) (mc_value (the_call k)) = true
         /\ same_stream float_int obj_hash ks a (mc_attrs (the_call k)) /\ e_with float_int obj_hash the_call ks a (e_gets obj the_call r i p1) []).
(** The draws play no part in [exp_exemplars_are]. *)
Definition no_draws (l : list mcall) : list (mcall * Z) := map (fun c => (c, 0)) l.
(** The exemplar of a message: compare [exemplar_message]; the value is a double. *)
Definition double_exemplar_message (dbl : Z -> Z) (e : exemplar) (m : pb_exemplar) : Prop :=
  attributes_read (match ex_filtered e with Some d => d | None => [] end) (px_attrs m)
  /\ px_time m = Model_Exemplar.ex_time e /\ px_value m = NFloat (dbl (Model_Exemplar.ex_value e))
  /\ match ex_span_id e, ex_trace_id e with
     | Some s, Some t => id_read 8 (Some (Z.of_N s)) (px_span m) /\ id_read 16 (Some (Z.of_N t)) (px_trace m)
     | _, _ => px_span m = [] /\ px_trace m = []
     end.
(** The same metric and points without the exemplars *)
Definition point_alone {D0 : Type} (p : mpoint D0) : xpoint D0 := match p with MOtherPoint d => OtherPoint d | MExpPoint pe => ExpPoint (fst pe) end.
Definition metric_alone {D0 : Type} (m : @metric (mpoint D0)) : @metric (xpoint D0) :=
  Metric (m_name m) (m_descr m) (m_unit m) (m_shape m) (m_temporality m) (m_monotonic m) (map point_alone (m_points m)).
