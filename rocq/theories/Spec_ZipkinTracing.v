(** What the posts to Zipkin should say about a program's spans. *)
From Verif Require Export Spec_Zipkin Spec_Tracing Model_ZipkinTracing.

Section Shows.
Variable int_text float_text : Z -> str.
Variable maxlen : option Z.

(** The tag [k] of a Zipkin span: one of those every span has, or else the resource's attribute, or else the span's. *)
Definition tag_read (x : rspan) (k : str) (t : option (option str)) : Prop :=
  exists of_resource of_span,
    attr_tag int_text float_text maxlen (r_attrs (rs_resource x)) k of_resource
    /\ attr_tag int_text float_text maxlen (ba_dict (sp_attrs (rs_span x))) k of_span
    /\ t = match special_tag int_text x k, of_resource with
           | Some v, _ => Some v
           | None, Some r => Some (Some r)
           | None, None => option_map Some of_span
           end.
(** A Zipkin span says what the span is. *)
Definition shows (x : rspan) (z : zspan) : Prop :=
  zipkin_read maxlen (rs_span x) z
  /\ nth_error kind_names (Z.to_nat (sp_kind (rs_span x))) = Some (z_kind z)
  /\ NoDup (keys (z_tags z)) /\ forall k, tag_read x k (dget k (z_tags z)).
End Shows.

(** The kinds of spans: INTERNAL, SERVER, CLIENT, PRODUCER, CONSUMER. *)
Definition kinds_known (h : list tev) : Prop := forall n a later, started_by h n a later -> (0 <= c_kind a <= 4)%Z.
(** The name of the service in the resource. *)
Definition service_of (res : resource) (svc : pyval) : Prop :=
  dget (lit "service.name") (r_attrs res) = Some svc /\ exists b c s, svc = PStr b (c :: s).

(** The batches that the exporter got, in order. *)
Definition exports (log : list (xev item)) : list (list item) := flat_map (fun e => match e with XExport b => [b] | XShutdown => [] end) log.
(** When post k is for batch k, and its j-th span for the batch's j-th: the Zipkin span for span [n] of the program. *)
Definition sent_as (batches : list (list item)) (posts : list (pyval * list zspan)) (n : nat) (z : zspan) : Prop :=
  exists b p x, In (b, p) (combine batches posts) /\ In ((n, x), z) (combine b (snd p)).
