(** The Zipkin exporters: opentelemetry-exporter-zipkin-json/src/opentelemetry/exporter/zipkin/encoder/__init__.py
    ("encoder"), json/v2/__init__.py, json/v1/__init__.py, json/__init__.py ("exporter"), and
    opentelemetry-exporter-zipkin-proto-http/.../zipkin/proto/http/v2/__init__.py ("proto"). *)
From Verif Require Export Model_Otlp.

(** ** json.dumps of a list of strings and None, with ensure_ascii and separators (",", ":") *)

(** json/encoder.py [py_encode_basestring_ascii] of the standard library *)
Definition json_char (c : N) : str :=
  if N.eqb c 34 then lit "\""" else if N.eqb c 92 then lit "\\"
  else if N.eqb c 10 then lit "\n" else if N.eqb c 13 then lit "\r" else if N.eqb c 9 then lit "\t"
  else if N.eqb c 12 then lit "\f" else if N.eqb c 8 then lit "\b"
  else if N.leb 32 c && N.leb c 126 then [c]
  else if N.ltb c 65536 then lit "\u" ++ hex_pad 4 c
  else lit "\u" ++ hex_pad 4 (55296 + N.modulo (N.div (c - 65536) 1024) 1024)
       ++ lit "\u" ++ hex_pad 4 (56320 + N.modulo (c - 65536) 1024).
Definition json_string (s : str) : str := [34%N] ++ flat_map json_char s ++ [34%N].
Definition json_item (e : option str) : str := match e with Some s => json_string s | None => lit "null" end.
Definition json_array (l : list (option str)) : str := lit "[" ++ join (lit ",") (map json_item l) ++ lit "]".

Section Zipkin.
(** [str] of an int and of a float *)
Variable int_text float_text : Z -> str.

(** [str(v).lower()] of a bool, [str(v)] of the other scalars (encoder 129-132, 168-171); subclasses of these types
    are taken to have the text of their base. *)
Definition scalar_text (v : pyval) : option str :=
  match v with
  | PBool b => Some (if b then lit "true" else lit "false")
  | PInt _ z => Some (int_text z)
  | PFloat _ f => Some (float_text f)
  | PStr _ s => Some s
  | _ => None
  end.

(** [self.max_tag_value_length is not None and self.max_tag_value_length > 0] *)
Definition bounded (maxlen : option Z) : bool := match maxlen with Some z => (0 <? z)%Z | None => false end.
Definition cut (maxlen : option Z) (s : str) : str :=
  match maxlen with Some z => if (0 <? z)%Z then firstn (Z.to_nat z) s else s | None => s end.

(** encoder 155-194 [_extract_tag_value_string_from_sequence]: the loop, with the elements taken so far and the
    running length *)
Fixpoint seq_loop (maxlen : option Z) (acc : list (option str)) (run : Z) (l : list pyval) : list (option str) :=
  match l with
  | [] => acc
  | v :: l' =>
      let take (e : option str) :=
        match maxlen with
        | Some z =>
            if (0 <? z)%Z then
              let run1 := (run + match e with None => 4 | Some s => Z.of_nat (length s) + 2 end)%Z in
              let run2 := (run1 + match acc with [] => 0 | _ => 1 end)%Z in
              if (z <? run2)%Z then acc else seq_loop maxlen (acc ++ [e]) run2 l'
            else seq_loop maxlen (acc ++ [e]) run l'
        | None => seq_loop maxlen (acc ++ [e]) run l'
        end in
      match v with
      | PNone => take None
      | _ => match scalar_text v with
             | Some s => take (Some s)
             | None => seq_loop maxlen acc run l'
             end
      end
  end.
Definition seq_text (maxlen : option Z) (l : list pyval) : option str :=
  match maxlen with
  | Some 1%Z => None
  | _ => Some (json_array (seq_loop maxlen [] 2 l))
  end.

(** encoder 127-151: the value of one tag; [None]: the attribute is skipped with a warning.  Bytes are a sequence
    of ints; other objects are taken to be no sequences. *)
Definition tag_text (maxlen : option Z) (v : pyval) : option str :=
  match scalar_text v with
  | Some s => Some (cut maxlen s)
  | None =>
      match v with
      | PSeq _ l => option_map (cut maxlen) (seq_text maxlen l)
      | PBytes _ b => option_map (cut maxlen) (seq_text maxlen (map (fun c => PInt false (Z.of_N c)) b))
      | _ => None
      end
  end.
(** encoder 120-153 [_extract_tags_from_dict] *)
Definition tags_of_dict (maxlen : option Z) (d : dict str pyval) : dict str (option str) :=
  fold_left (fun t kv => match tag_text maxlen (snd kv) with Some s => dset (fst kv) (Some s) t | None => t end) d [].

Definition opt_tag (b : bool) (k : str) (v : option str) : list (str * option str) := if b then [(k, v)] else [].
Definition count_text (n : nat) : option str := Some (int_text (Z.of_nat n)).
(** encoder 198-234, the tags besides attributes, in the order of the update calls.  [status.description or ""]:
    a true description is a string (C25). *)
Definition fixed_tags (s : rspan) : list (str * option str) :=
  let sp := rs_span s in
  match rs_scope s with
  | Some sc => [(lit "otel.library.name", Some (sco_name sc)); (lit "otel.library.version", sco_version sc);
                (lit "otel.scope.name", Some (sco_name sc)); (lit "otel.scope.version", sco_version sc)]
  | None => []
  end
  ++ match st_code (sp_status sp) with
     | UNSET => []
     | OK => [(lit "otel.status_code", Some (lit "OK"))]
     | ERROR => [(lit "otel.status_code", Some (lit "ERROR"));
                 (lit "error", Some (match st_desc (sp_status sp) with PStr _ d => d | _ => [] end))]
     end
  ++ opt_tag (negb (Nat.eqb (ba_dropped (sp_attrs sp)) 0)) (lit "otel.dropped_attributes_count") (count_text (ba_dropped (sp_attrs sp)))
  ++ opt_tag (negb (Nat.eqb (bl_dropped (sp_events sp)) 0)) (lit "otel.dropped_events_count") (count_text (bl_dropped (sp_events sp)))
  ++ opt_tag (negb (Nat.eqb (bl_dropped (sp_links sp)) 0)) (lit "otel.dropped_links_count") (count_text (bl_dropped (sp_links sp))).
(** encoder 196-234 [_extract_tags_from_span] (a Resource is true) *)
Definition tags_of_span (maxlen : option Z) (s : rspan) : dict str (option str) :=
  dupdate
    (dupdate (tags_of_dict maxlen (ba_dict (sp_attrs (rs_span s)))) (tags_of_dict maxlen (r_attrs (rs_resource s))))
    (fixed_tags s).

(** encoder 264-271 [_nsec_to_usec_round] *)
Definition usec (n : Z) : Z := ((n + 500) / 1000)%Z.

(** encoder 236-262 [_extract_annotations_from_events]: time, and the object [{name: attributes}] whose json.dumps
    is the value (not modelled further). *)
Record annotation := An { an_time : Z; an_name : str; an_attrs : dict str pyval }.
Definition cut_val (maxlen : option Z) (v : pyval) : pyval := match v with PStr sub s => PStr sub (cut maxlen s) | _ => v end.
Definition annotations_of (maxlen : option Z) (l : list event) : list annotation :=
  map (fun e => An (usec (ev_ts e)) (ev_name e) (map (fun kv => (fst kv, cut_val maxlen (snd kv))) (ba_dict (ev_attrs e)))) l.

(** The JSON object of a span; absent members are [None], [[]] or [false]; a v1 span has binary annotations in
    place of tags, and no kind. *)
Record zspan := ZSpan {
  z_trace : str; z_id : str; z_name : str; z_time : Z; z_duration : Z; z_kind : option str;
  z_tags : dict str (option str); z_annotations : list annotation; z_debug : bool; z_parent : option str }.

(** v2 25-31 *)
Definition kind_text (k : Z) : option (option str) :=
  match k with
  | 0 => Some None | 1 => Some (Some (lit "SERVER")) | 2 => Some (Some (lit "CLIENT"))
  | 3 => Some (Some (lit "PRODUCER")) | 4 => Some (Some (lit "CONSUMER")) | _ => None
  end%Z.
(** v2 33-67 [JsonV2Encoder._encode_span]; the local endpoint, the same for all spans, is left out. *)
Definition encode_v2 (maxlen : option Z) (s : rspan) : outcome_of zspan :=
  let sp := rs_span s in
  match sp_start sp, sp_end sp with
  | Some st, Some en =>
      match kind_text (sp_kind sp) with
      | None => Raises "KeyError"
      | Some k =>
          Ok (ZSpan (format_trace_id (sc_trace_id (sp_ctx sp))) (format_span_id (sc_span_id (sp_ctx sp))) (sp_name sp)
                (usec st) (usec (en - st)) k (tags_of_span maxlen s) (annotations_of maxlen (bl_items (sp_events sp)))
                (flags_sampled (sc_flags (sp_ctx sp))) (option_map (fun p => format_span_id (sc_span_id p)) (sp_parent sp)))
      end
  | _, _ => Raises "TypeError"
  end.

(** v1 23-41 [_extract_binary_annotations]: [None > 0] raises TypeError *)
Fixpoint v1_tags (maxlen : option Z) (d : dict str (option str)) : outcome_of (list (str * option str)) :=
  match d with
  | [] => Ok []
  | (k, v) :: d' =>
      let next v' := match v1_tags maxlen d' with Ok l => Ok ((k, v') :: l) | Raises e => Raises e end in
      match v, maxlen with
      | Some _, None => Raises "TypeError"
      | Some s, Some z => next (Some (cut maxlen s))
      | None, _ => next None
      end
  end.
(** v1 50-83 [JsonV1Encoder._encode_span] *)
Definition encode_v1 (maxlen : option Z) (s : rspan) : outcome_of zspan :=
  let sp := rs_span s in
  match sp_start sp, sp_end sp with
  | Some st, Some en =>
      match v1_tags maxlen (tags_of_span maxlen s) with
      | Raises e => Raises e
      | Ok t =>
          Ok (ZSpan (format_trace_id (sc_trace_id (sp_ctx sp))) (format_span_id (sc_span_id (sp_ctx sp))) (sp_name sp)
                (usec st) (usec (en - st)) None t (annotations_of maxlen (bl_items (sp_events sp)))
                (flags_sampled (sc_flags (sp_ctx sp))) (option_map (fun p => format_span_id (sc_span_id p)) (sp_parent sp)))
      end
  | _, _ => Raises "TypeError"
  end.

(** encoder 279-289 [JsonEncoder.serialize], before json.dumps *)
Fixpoint encode_each (enc : rspan -> outcome_of zspan) (l : list rspan) : outcome_of (list zspan) :=
  match l with
  | [] => Ok []
  | s :: l' => match enc s with
               | Raises e => Raises e
               | Ok z => match encode_each enc l' with Ok zs => Ok (z :: zs) | Raises e => Raises e end
               end
  end.

(** ** The exporter: exporter 82-191 *)

Record zexporter := ZExp { ze_service : pyval; ze_closed : bool }.
(** What the collector answers to a POST: a status code; or the session raises. *)
Inductive reply := Status (code : Z) | Fails (e : string).
(** What one export call does: the POST it sends (service name of the endpoint, spans), its result (True: SUCCESS)
    and the exporter after it. *)
Definition zexport (enc : rspan -> outcome_of zspan) (e : zexporter) (l : list rspan) (r : reply)
    : option (pyval * list zspan) * outcome_of bool * zexporter :=
  if ze_closed e then (None, Ok false, e)
  else
    let e1 := match l with
              | [] => e
              | s :: _ => match dget (lit "service.name") (r_attrs (rs_resource s)) with
                          | Some v => if Model_Span.truthy v then ZExp v (ze_closed e) else e
                          | None => e
                          end
              end in
    match encode_each enc l with
    | Raises x => (None, Raises x, e1)
    | Ok zs => (Some (ze_service e1, zs),
                match r with Status c => Ok ((c =? 200)%Z || (c =? 202)%Z) | Fails x => Raises x end, e1)
    end.
(** exporter 182-187 [shutdown] *)
Definition zshutdown (e : zexporter) : zexporter := ZExp (ze_service e) true.

(** ** proto *)

Record zpb := ZPb {
  zp_trace : list N; zp_id : list N; zp_name : str; zp_time : Z; zp_duration : Z; zp_kind : Z;
  zp_tags : list (str * str); zp_annotations : list annotation; zp_debug : bool; zp_parent : option (list N) }.
(** proto 33-39 and zipkin.proto: CLIENT 1, SERVER 2 *)
Definition kind_pb (k : Z) : option Z :=
  match k with 0 => Some 0 | 1 => Some 2 | 2 => Some 1 | 3 => Some 3 | 4 => Some 4 | _ => None end%Z.
(** proto 57-91 [_encode_span]: [None] when it raises; a tag whose value is None makes [tags.update] raise. *)
Definition encode_proto (maxlen : option Z) (s : rspan) : option zpb :=
  let sp := rs_span s in
  let? st := sp_start sp in
  let? en := sp_end sp in
  let? t := encode_trace_id (sc_trace_id (sp_ctx sp)) in
  let? i := encode_span_id (sc_span_id (sp_ctx sp)) in
  let? n := pb_str (sp_name sp) in
  let? ts := pb_uint64 (usec st) in
  let? d := pb_uint64 (usec (en - st)) in
  let? k := kind_pb (sp_kind sp) in
  let? tags := map_opt (fun kv => match snd kv with
                                  | Some v => let? k' := pb_str (fst kv) in let? v' := pb_str v in Some (k', v')
                                  | None => None
                                  end) (tags_of_span maxlen s) in
  let? p := match sp_parent sp with
            | None => Some None
            | Some p => match encode_span_id (sc_span_id p) with Some b => Some (Some b) | None => None end
            end in
  let? an := map_opt (fun a => let? t' := pb_uint64 (an_time a) in Some a) (annotations_of maxlen (bl_items (sp_events sp))) in
  Some (ZPb t i n ts d k tags an (flags_sampled (sc_flags (sp_ctx sp))) p).
End Zipkin.
