(** The metrics SDK with threads, with the aggregations of the SDK.

    Sources: opentelemetry-sdk/src/opentelemetry/sdk/metrics/_internal/_view_instrument_match.py 40-153 and aggregation.py. *)
From Verif Require Export Model_View Model_MetricThreads.
Local Open Scope Z_scope.

(** What does not change in a match (_view_instrument_match.py 40-64): the view's attribute keys and aggregation, the
    instrument's kind and advisory boundaries, the reader's temporality for the kind (metric_reader_storage.py 149-151). *)
Record sview := SView {
  sv_keys : option (list str); sv_aggregation : aggregation; sv_kind : ikind; sv_advisory : option (list Z); sv_temporality : temporality }.
Section Sdk.
(** As in Model_View.v *)
Variable float_int : Z -> option Z.
Variable obj_hash : N -> bool.
(** 93-105 *)
Definition sdk_key (w : sview) (attrs : option mattrs) : option fset := frozen float_int obj_hash (stream_attrs (sv_keys w) attrs).
(** 110-129 *)
Definition sdk_new (w : sview) (attrs : option mattrs) (now : Z) : agg :=
  create (sv_aggregation w) (sv_kind w) (sv_advisory w) (stream_attrs (sv_keys w) attrs) now.
(** 136-153 *)
Definition sdk_collect (w : sview) (x : agg) (now : Z) : agg * option point := Model_Metrics.collect x (sv_temporality w) now.
Definition sdk_run (views_of : nat -> N -> list sview) (readers : nat) (es : list yev) : sys :=
  yrun fs_eqb sdk_key sdk_new Model_Metrics.aggregate sdk_collect views_of readers es sys0.
Definition sdk_run_from (views_of : nat -> N -> list sview) (readers : nat) (es : list yev) (y : sys) : sys :=
  yrun fs_eqb sdk_key sdk_new Model_Metrics.aggregate sdk_collect views_of readers es y.
End Sdk.
