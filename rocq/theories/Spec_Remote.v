(** A trace that goes on in another process. *)
From Verif Require Export Spec_Sampling.

(** [s2] goes on with the trace of [s], which is its remote parent: same trace id; [s2] records, and is sampled, if and only if [s] is sampled. *)
Definition goes_on (s s2 : started) : Prop :=
  sc_trace_id (started_context s2) = sc_trace_id (started_context s)
  /\ sc_is_valid (started_context s2) = true
  /\ flags_sampled (sc_flags (started_context s2)) = flags_sampled (sc_flags (started_context s))
  /\ ((exists w, s2 = Recording w) <-> flags_sampled (sc_flags (started_context s)) = true)
  /\ (forall w, s2 = Recording w -> exists p, sp_parent (w_span w) = Some p
        /\ sc_trace_id p = sc_trace_id (started_context s) /\ sc_span_id p = sc_span_id (started_context s) /\ sc_is_remote p = true).
