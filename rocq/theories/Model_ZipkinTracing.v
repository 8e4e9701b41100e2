(** Tracing from the calls of a program to what is posted to Zipkin: the program, its batch processor (Model_Tracing) and
    the Zipkin exporter (Model_Zipkin) put together.

    Sources: opentelemetry-sdk/src/opentelemetry/sdk/trace/export/__init__.py ("export") and
    exporter/opentelemetry-exporter-zipkin-json/src/opentelemetry/exporter/zipkin/json/__init__.py. *)
From Verif Require Export Model_Tracing Model_Zipkin.

(** export 346-368 [_export_batch], 398-404 [shutdown]: the processor's calls of the exporter, in order, and what the collector
    answers to the n-th of them.  The result of an export is ignored, an exception is logged, and the next batch follows. *)
Section Calls.
Variable answers : nat -> reply.
Variable enc : rspan -> outcome_of zspan.
(** The posts after the first [n] calls, by an exporter [e] *)
Fixpoint posted (n : nat) (e : zexporter) (log : list (xev item)) : list (pyval * list zspan) :=
  match log with
  | [] => []
  | XExport b :: log' =>
      let '(p, _, e1) := zexport enc e (map snd b) (answers n) in
      match p with Some p => [p] | None => [] end ++ posted (S n) e1 log'
  | XShutdown :: log' => posted (S n) (zshutdown e) log'
  end.
End Calls.
