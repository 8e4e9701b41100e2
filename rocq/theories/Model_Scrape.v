(** Metrics from the program's calls to a Prometheus scrape: the pipeline up to a collection (Model_Pipeline) and the
    Prometheus reader with its collector (Model_Prometheus) put together.

    Sources: exporter/opentelemetry-exporter-prometheus/src/opentelemetry/exporter/prometheus/__init__.py ("init") and
    opentelemetry-sdk/src/opentelemetry/sdk/metrics/_internal/metric_reader_storage.py ("storage"). *)
From Verif Require Export Model_Prometheus Model_Pipeline.
Local Open Scope Z_scope.

(** init 133-144 with export 246-320: cumulative for all kinds of instruments (Gauge is not named: the reader's default),
    the default aggregations *)
Definition prometheus_reader : @reader aggregation := RD (fun _ => CUMULATIVE) (fun _ => Default).

Section Scrape.
Variable float_int : Z -> option Z.
Variable obj_hash : N -> bool.
Variable fnmatch : str -> str -> bool.
Context {Scope : Type} `{EqDec Scope}.
Variable the_scope : Scope -> scope.
Variable obj : N -> instr.
Variable scope_of : N -> Scope.
Variable views : list (@view aggregation).
Variable readers : list (@reader aggregation).
Variable infty : bool -> Z.
Variable other_digit : N -> bool.
Variable dumps : pyval -> str.
Variable res : resource.   (* the provider's *)
Variable r : nat.          (* the number of the Prometheus reader among the readers *)
Notation output_after := (output_after float_int obj_hash fnmatch the_scope obj scope_of views readers).
Notation otlp_metric := (otlp_metric infty).

(** storage 235-251: nothing is delivered if there is no metric *)
Definition delivered (out : dict Scope (list (@metric point))) : option metrics_data :=
  match out with
  | [] => None
  | _ => Some [(res, map (fun e => (the_scope (fst e), map otlp_metric (snd e))) out)]
  end.
(** A call of the program.  For a collection by the Prometheus reader the flag says who asked for it: a scrape (init
    187-188, 147 [_callback]), or somebody who called collect or force_flush on the reader (init 149-157).  A collection
    that raises does so before the collector is touched. *)
Definition prom_step (before : list pcall) (cb : pcall * bool) (c : collector) : collector :=
  match output_after before (before ++ [fst cb]) with
  | Some (CMetrics r' out) =>
      if Nat.eqb r' r then (if snd cb then fst (scrape other_digit dumps (delivered out) c) else receive (delivered out) c) else c
  | _ => c
  end.
Fixpoint prom_run (before : list pcall) (rest : list (pcall * bool)) (c : collector) : collector :=
  match rest with
  | [] => c
  | cb :: rest' => prom_run (before ++ [fst cb]) rest' (prom_step before cb c)
  end.
(** What a scrape after these calls shows; None: it raises *)
Definition scraped (disabled : bool) (h : list (pcall * bool)) (obs : list observation) (now : Z) : option (list pyield) :=
  match output_after (map fst h) (map fst h ++ [PCollect r obs false now]) with
  | Some (CMetrics _ out) => snd (scrape other_digit dumps (delivered out) (prom_run [] h (Collector disabled None [])))
  | _ => None
  end.
End Scrape.
