(** Encoding of telemetry as OTLP protobuf messages.

    Source: exporter/opentelemetry-exporter-otlp-proto-common/src/opentelemetry/exporter/otlp/proto/common/_internal/
    __init__.py, trace_encoder/__init__.py, _log_encoder/__init__.py and metrics_encoder/__init__.py.

    Protobuf messages are records here; what the generated classes check is written out: strings have to be
    encodable in UTF-8, integers have to be in the range of their field, None leaves the field unset, and reading
    an unset field gives its default.  [None] as a result is an exception.  The encoding of the messages as bytes is
    not modelled. *)
From Verif Require Export Model_Span Model_Resource Model_View.
Local Open Scope Z_scope.

Definition bind {A B} (o : option A) (f : A -> option B) : option B := match o with Some a => f a | None => None end.
Notation "'let?' x ':=' e 'in' b" := (bind e (fun x => b)) (at level 200, x pattern, e at level 100, b at level 200).
(** A list comprehension; the first exception ends it. *)
Fixpoint map_opt {A B} (f : A -> option B) (l : list A) : option (list B) :=
  match l with
  | [] => Some []
  | x :: l' => let? y := f x in let? ys := map_opt f l' in Some (y :: ys)
  end.

(** ** Fields of protobuf messages *)
Definition pb_str (s : str) : option str := match utf8_encode s with Some _ => Some s | None => None end.
Definition pb_range (lo hi z : Z) : option Z := if (lo <=? z) && (z <=? hi) then Some z else None.
Definition pb_int64 := pb_range (- 2 ^ 63) (2 ^ 63 - 1).
Definition pb_uint64 := pb_range 0 (2 ^ 64 - 1).         (* fixed64 and uint64 *)
Definition pb_uint32 := pb_range 0 (2 ^ 32 - 1).
Definition pb_sint32 := pb_range (- 2 ^ 31) (2 ^ 31 - 1).
(** An argument that may be None *)
Definition pb_opt {A B} (f : A -> option B) (default : B) (o : option A) : option B :=
  match o with Some a => f a | None => Some default end.

(** ** _internal/__init__.py *)

(** Values offered for encoding; the keys of a mapping are given as [str(k)]. *)
Inductive anyv :=
| ANone | ABool (b : bool) | AStr (s : str) | AInt (z : Z) | AFloat (f : Z) | ABytes (b : list N)
| ASeq (l : list anyv) | AMap (l : list (str * anyv)) | AOther.
(** common.proto AnyValue; [AVEmpty] has no value set.  KeyValue is a pair. *)
Inductive any_value :=
| AVEmpty | AVBool (b : bool) | AVStr (s : str) | AVInt (z : Z) | AVDouble (f : Z) | AVBytes (b : list N)
| AVArray (l : list any_value) | AVKvlist (l : list (str * any_value)).

(** 72-127 [_encode_value], [_encode_key_value], [_encode_array]; [Some None]: returns None. An unset [value]
    field of a KeyValue reads as an empty AnyValue. *)
Fixpoint encode_value (allow_null : bool) (v : anyv) : option (option any_value) :=
  match v with
  | ANone => if allow_null then Some None else None
  | ABool b => Some (Some (AVBool b))
  | AStr s => let? s := pb_str s in Some (Some (AVStr s))
  | AInt z => let? z := pb_int64 z in Some (Some (AVInt z))
  | AFloat f => Some (Some (AVDouble f))
  | ABytes b => Some (Some (AVBytes b))
  | ASeq l =>
      let? vs := (fix go (l : list anyv) : option (list any_value) :=
                    match l with
                    | [] => Some []
                    | x :: l' =>
                        let? y := encode_value allow_null x in
                        let? ys := go l' in
                        Some (match y with Some y => y | None => AVEmpty end :: ys)
                    end) l in
      Some (Some (AVArray vs))
  | AMap l =>
      let? vs := (fix go (l : list (str * anyv)) : option (list (str * any_value)) :=
                    match l with
                    | [] => Some []
                    | (k, x) :: l' =>
                        let? y := encode_value allow_null x in
                        let? k := pb_str k in
                        let? ys := go l' in
                        Some ((k, match y with Some y => y | None => AVEmpty end) :: ys)
                    end) l in
      Some (Some (AVKvlist vs))
  | AOther => None
  end.
(** Attribute values as values to encode *)
Fixpoint of_pyval (v : pyval) : anyv :=
  match v with
  | PNone => ANone
  | PBool b => ABool b
  | PInt _ z => AInt z
  | PFloat _ f => AFloat f
  | PStr _ s => AStr s
  | PBytes _ b => ABytes b
  | PSeq _ l => ASeq (map of_pyval l)
  | PObj _ => AOther
  end.
(** 105-110 *)
Definition encode_key_value (k : str) (v : anyv) : option (str * any_value) :=
  let? y := encode_value false v in
  let? k := pb_str k in
  Some (k, match y with Some y => y | None => AVEmpty end).
(** 138-151 [_encode_attributes]: an exception drops the attribute.  None and an empty list both leave the
    repeated field empty. *)
Definition encode_attributes (attrs : dict str pyval) : list (str * any_value) :=
  flat_map (fun kv => match encode_key_value (fst kv) (of_pyval (snd kv)) with Some p => [p] | None => [] end) attrs.

(** [int.to_bytes(length, "big", signed=False)]; OverflowError if it does not fit. *)
Fixpoint be_bytes (n : nat) (z : Z) : list N :=
  match n with O => [] | S n' => be_bytes n' (z / 256) ++ [Z.to_N (z mod 256)] end.
Definition to_bytes (n : nat) (z : Z) : option (list N) :=
  if (0 <=? z) && (z <? 256 ^ Z.of_nat n) then Some (be_bytes n z) else None.
(** 130-135 *)
Definition encode_span_id := to_bytes 8.
Definition encode_trace_id := to_bytes 16.

(** util/instrumentation.py 80-104 [InstrumentationScope] *)
Record scope := Scope { sco_name : str; sco_version : option str; sco_schema : str; sco_attrs : dict str pyval }.
(** common.proto InstrumentationScope, resource.proto Resource *)
Record pb_scope := PbScope { ps_name : str; ps_version : str; ps_attrs : list (str * any_value) }.
(** 56-69; a resource becomes the list of its attributes. *)
Definition encode_scope (s : option scope) : option pb_scope :=
  match s with
  | None => Some (PbScope [] [] [])
  | Some s =>
      let? n := pb_str (sco_name s) in
      let? v := pb_opt pb_str [] (sco_version s) in
      Some (PbScope n v (encode_attributes (sco_attrs s)))
  end.

(** ** Equality of resources and scopes as dict keys (hash and ==) *)

Fixpoint anyv_eqb (a b : anyv) : bool :=
  match a, b with
  | ANone, ANone | AOther, AOther => true       (* resources hold no other objects *)
  | ABool x, ABool y => Bool.eqb x y
  | AStr x, AStr y => str_eqb x y
  | AInt x, AInt y => Z.eqb x y
  | AFloat x, AFloat y => Z.eqb x y
  | ABytes x, ABytes y => str_eqb x y
  | ASeq l, ASeq m =>
      (fix go (l m : list anyv) : bool :=
         match l, m with [], [] => true | x :: l', y :: m' => anyv_eqb x y && go l' m' | _, _ => false end) l m
  | AMap l, AMap m =>
      (fix go (l m : list (str * anyv)) : bool :=
         match l, m with
         | [], [] => true
         | (k, x) :: l', (k', y) :: m' => str_eqb k k' && anyv_eqb x y && go l' m'
         | _, _ => false
         end) l m
  | _, _ => false
  end.
(** The comparison of two dicts, [veq] being that of the values *)
Definition dict_eqb (veq : pyval -> pyval -> bool) (a b : dict str pyval) : bool :=
  Nat.eqb (length a) (length b)
  && forallb (fun kv => match dget (fst kv) b with Some w => veq (snd kv) w | None => false end) a.
(** sdk/resources/__init__.py 287-298 [Resource.__eq__], [__hash__]: the hash is that of the attributes as JSON,
    where 1, 1.0 and true are different texts.  Different texts are taken to have different hashes. *)
Definition same_resource_key (a b : resource) : bool :=
  dict_eqb (fun v w => anyv_eqb (of_pyval v) (of_pyval w)) (r_attrs a) (r_attrs b) && str_eqb (r_schema a) (r_schema b).
Section Keys.
(** The integer that equals a float, and whether an object can be hashed (as in Model_View) *)
Variable float_int : Z -> option Z.
(** sdk/util/instrumentation.py 107-124: the hash ignores the attributes, == compares them as Python values. *)
Definition same_scope_key (a b : option scope) : bool :=
  match a, b with
  | None, None => true
  | Some a, Some b =>
      str_eqb (sco_name a) (sco_name b)
      && match sco_version a, sco_version b with Some v, Some w => str_eqb v w | None, None => true | _, _ => false end
      && str_eqb (sco_schema a) (sco_schema b)
      && dict_eqb (fun v w => match canon float_int (fun _ => true) v, canon float_int (fun _ => true) w with
                              | Some c, Some d => ckey_eqb c d | _, _ => false end) (sco_attrs a) (sco_attrs b)
  | _, _ => false
  end.
End Keys.

(** ** Grouping by resource and scope (trace_encoder 60-105, _log_encoder 66-98) *)

(** A Python dict with keys that are compared by [same] ("equal hash and =="): [d.setdefault(k, new)] followed by
    an update of the value. *)
Section Group.
Context {K V : Type}.
Variable same : K -> K -> bool.
Fixpoint at_key (k : K) (new : V) (f : V -> V) (d : list (K * V)) : list (K * V) :=
  match d with
  | [] => [(k, f new)]
  | (k', v) :: d' => if same k' k then (k', f v) :: d' else (k', v) :: at_key k new f d'
  end.
End Group.
(** ResourceSpans and ScopeSpans (or -Logs), as far as they are common *)
Record pb_group_scope (M : Type) := PbScopeGroup { pg_scope : pb_scope; pg_schema : str; pg_items : list M }.
Arguments PbScopeGroup {M}. Arguments pg_scope {M}. Arguments pg_schema {M}. Arguments pg_items {M}.
Record pb_group (M : Type) := PbGroup { pr_attrs : list (str * any_value); pr_schema : str; pr_scopes : list (pb_group_scope M) }.
Arguments PbGroup {M}. Arguments pr_attrs {M}. Arguments pr_schema {M}. Arguments pr_scopes {M}.
Section Grouping.
(** The equality tests of the two kinds of dict keys, and how an item is encoded. *)
Variable same_res : resource -> resource -> bool.
Variable same_sco : option scope -> option scope -> bool.
Context {T M : Type}.
Variable res_of : T -> resource.
Variable sco_of : T -> option scope.
Variable encode : T -> option M.

Definition groups := list (resource * list (option scope * list M)).
(** first loop *)
Definition put_item (g : groups) (t : T) (m : M) : groups :=
  at_key same_res (res_of t) [] (at_key same_sco (sco_of t) [] (fun ms => ms ++ [m])) g.
Fixpoint group_items (ts : list T) (g : groups) : option groups :=
  match ts with
  | [] => Some g
  | t :: ts' => let? m := encode t in group_items ts' (put_item g t m)
  end.
(** second loop *)
Definition encode_groups (g : groups) : option (list (pb_group M)) :=
  map_opt (fun rg : resource * list (option scope * list M) =>
    let? scopes := map_opt (fun sg : option scope * list M =>
      let? s := encode_scope (fst sg) in
      let? u := pb_opt pb_str [] (option_map sco_schema (fst sg)) in
      Some (PbScopeGroup s u (snd sg))) (snd rg) in
    let? u := pb_str (r_schema (fst rg)) in
    Some (PbGroup (encode_attributes (r_attrs (fst rg))) u scopes)) g.
Definition encode_all (ts : list T) : option (list (pb_group M)) :=
  let? g := group_items ts [] in encode_groups g.
End Grouping.

(** ** trace_encoder/__init__.py *)

(** trace.proto Span.Event, Span.Link, Status, Span *)
Record pb_event := PbEvent { pe_time : Z; pe_name : str; pe_attrs : list (str * any_value); pe_dropped : Z }.
Record pb_link := PbLink {
  pl_trace_id : list N; pl_span_id : list N; pl_state : str; pl_attrs : list (str * any_value); pl_dropped : Z; pl_flags : Z }.
Record pb_span := PbSpan {
  pb_trace_id : list N; pb_span_id : list N; pb_state : str; pb_parent : list N; pb_name : str; pb_kind : Z;
  pb_start : Z; pb_end : Z; pb_attrs : list (str * any_value); pb_dropped_attrs : Z;
  pb_events : list pb_event; pb_dropped_events : Z; pb_links : list pb_link; pb_dropped_links : Z;
  pb_status_code : Z; pb_status_message : str; pb_flags : Z }.

(** trace_encoder 41-47: from SpanKind to the protobuf enum; other values raise KeyError *)
Definition span_kind_map (k : Z) : option Z := if (0 <=? k) && (k <=? 4) then Some (k + 1) else None.
(** 108-112 *)
Definition span_flags (parent : option span_context) : Z :=
  match parent with
  | Some c => if sc_is_remote c then Z.lor 256 512 else 256
  | None => 256
  end.
(** 180-186: the same text as the header *)
Definition encode_trace_state (ts : tracestate) : option str := pb_str (join [44%N] (map (fun kv => fst kv ++ [61%N] ++ snd kv) ts)).
(** 170-177; a description that is neither a string nor None raises TypeError *)
Definition encode_status (st : status) : option (Z * str) :=
  let? m := match st_desc st with
            | PNone => Some []
            | PStr _ s => pb_str s
            | PBytes _ b => strict_decode b
            | _ => None
            end in
  Some (match st_code st with UNSET => 0 | OK => 1 | ERROR => 2 end, m).
(** 137-151 *)
Definition encode_event (e : event) : option pb_event :=
  let? n := pb_str (ev_name e) in
  let? t := pb_uint64 (ev_ts e) in
  let? d := pb_uint32 (Z.of_nat (ba_dropped (ev_attrs e))) in
  Some (PbEvent t n (encode_attributes (ba_dict (ev_attrs e))) d).
(** 154-167; the trace state is not set *)
Definition encode_link (l : link) : option pb_link :=
  let? t := encode_trace_id (sc_trace_id (lk_ctx l)) in
  let? s := encode_span_id (sc_span_id (lk_ctx l)) in
  let? d := pb_uint32 (Z.of_nat (ba_dropped (lk_attrs l))) in
  Some (PbLink t s [] (encode_attributes (ba_dict (lk_attrs l))) d (span_flags (Some (lk_ctx l)))).
(** 115-134, 189-192 *)
Definition encode_span (s : sdk_span) : option pb_span :=
  let? t := encode_trace_id (sc_trace_id (sp_ctx s)) in
  let? i := encode_span_id (sc_span_id (sp_ctx s)) in
  let? ts := encode_trace_state (sc_state (sp_ctx s)) in
  let? p := match sp_parent s with Some c => encode_span_id (sc_span_id c) | None => Some [] end in
  let? n := pb_str (sp_name s) in
  let? k := span_kind_map (sp_kind s) in
  let? st := pb_opt pb_uint64 0 (sp_start s) in
  let? en := pb_opt pb_uint64 0 (sp_end s) in
  let? ev := map_opt encode_event (bl_items (sp_events s)) in
  let? lk := map_opt encode_link (bl_items (sp_links s)) in
  let? stt := encode_status (sp_status s) in
  let? da := pb_uint32 (Z.of_nat (ba_dropped (sp_attrs s))) in
  let? de := pb_uint32 (Z.of_nat (bl_dropped (sp_events s))) in
  let? dl := pb_uint32 (Z.of_nat (bl_dropped (sp_links s))) in
  Some (PbSpan t i ts p n k st en (encode_attributes (ba_dict (sp_attrs s))) da ev de lk dl (fst stt) (snd stt) (span_flags (sp_parent s))).

(** A ReadableSpan with its resource and scope, and 52-57 [encode_spans] *)
Record rspan := RSpan { rs_span : sdk_span; rs_resource : resource; rs_scope : option scope }.
Definition encode_spans (same_res : resource -> resource -> bool) (same_sco : option scope -> option scope -> bool) (l : list rspan)
    : option (list (pb_group pb_span)) :=
  encode_all same_res same_sco rs_resource rs_scope (fun s => encode_span (rs_span s)) l.

(** ** _log_encoder/__init__.py *)

(** sdk/_logs LogRecord (with its resource) and LogData *)
Record log_record := LogRec {
  lr_time : option Z; lr_observed : option Z; lr_trace_id : option Z; lr_span_id : option Z; lr_flags : option Z;
  lr_severity_text : option str; lr_severity : option Z; lr_body : anyv; lr_attrs : dict str pyval; lr_dropped : Z;
  lr_resource : resource }.
Record log_data := LogData { ld_record : log_record; ld_scope : option scope }.
(** logs.proto LogRecord; [pb_body] unset reads as an empty AnyValue *)
Record pb_log := PbLog {
  pbl_time : Z; pbl_observed : Z; pbl_severity : Z; pbl_severity_text : str; pbl_body : any_value;
  pbl_attrs : list (str * any_value); pbl_dropped : Z; pbl_flags : Z; pbl_trace_id : list N; pbl_span_id : list N }.
(** 40-63.  A trace id, span id, severity number or trace flags that are None raise. *)
Definition encode_log (r : log_record) : option pb_log :=
  let? i := lr_span_id r in
  let? i := if Z.eqb i 0 then Some [] else encode_span_id i in
  let? t := lr_trace_id r in
  let? t := if Z.eqb t 0 then Some [] else encode_trace_id t in
  let? ti := pb_opt pb_uint64 0 (lr_time r) in
  let? ob := pb_opt pb_uint64 0 (lr_observed r) in
  let? f := lr_flags r in
  let? f := pb_uint32 f in
  let? b := encode_value true (lr_body r) in
  let? tx := pb_opt pb_str [] (lr_severity_text r) in
  let? d := pb_uint32 (lr_dropped r) in
  let? sv := lr_severity r in
  let? sv := pb_sint32 sv in
  Some (PbLog ti ob sv tx (match b with Some b => b | None => AVEmpty end) (encode_attributes (lr_attrs r)) d f t i).
(** 36-38 *)
Definition encode_logs (same_res : resource -> resource -> bool) (same_sco : option scope -> option scope -> bool) (l : list log_data)
    : option (list (pb_group pb_log)) :=
  encode_all same_res same_sco (fun d => lr_resource (ld_record d)) ld_scope (fun d => encode_log (ld_record d)) l.

(** ** metrics_encoder/__init__.py *)

(** Numbers are ints or floats (bool is an int). *)
Inductive number := NInt (z : Z) | NFloat (f : Z).
Record sdk_exemplar := Exm { ex_attrs : dict str pyval; ex_value : number; ex_time : Z; ex_span : option Z; ex_trace : option Z }.
Record num_point := NumPt { n_attrs : dict str pyval; n_start : option Z; n_time : Z; n_value : number; n_exemplars : list sdk_exemplar }.
Record hist_point := HistPt {
  h_attrs : dict str pyval; h_start : option Z; h_time : Z; h_count : Z; h_sum : number; h_buckets : list Z; h_bounds : list number;
  h_min : option number; h_max : option number; h_exemplars : list sdk_exemplar }.
Record ebuckets := EB { eb_offset : Z; eb_counts : list Z }.
Record exp_point := ExpPt {
  e_attrs : dict str pyval; e_start : option Z; e_time : Z; e_count : Z; e_sum : number; e_scale : Z; e_zero : Z;
  e_pos : ebuckets; e_neg : ebuckets; e_flags : Z; e_min : option number; e_max : option number; e_exemplars : list sdk_exemplar }.
Inductive mdata :=
| MGauge (l : list num_point)
| MSum (l : list num_point) (temporality : Z) (monotonic : bool)
| MHistogram (l : list hist_point) (temporality : Z)
| MExponential (l : list exp_point) (temporality : Z)
| MUnknown.
Record sdk_metric := SMetric { sm_name : str; sm_descr : option str; sm_unit : option str; sm_data : mdata }.

(** metrics.proto.  Floats as in [PFloat]; optional fields as options. *)
Record pb_exemplar := PbEx { px_attrs : list (str * any_value); px_time : Z; px_value : number; px_span : list N; px_trace : list N }.
Record pb_num := PbNum { pn_attrs : list (str * any_value); pn_start : Z; pn_time : Z; pn_value : number; pn_exemplars : list pb_exemplar }.
Record pb_hist := PbHist {
  ph_attrs : list (str * any_value); ph_start : Z; ph_time : Z; ph_count : Z; ph_sum : Z; ph_buckets : list Z; ph_bounds : list Z;
  ph_exemplars : list pb_exemplar; ph_min : option Z; ph_max : option Z }.
Record pb_exp := PbExp {
  px_at : list (str * any_value); px_start : Z; px_ti : Z; px_count : Z; px_sum : Z; px_scale : Z; px_zero : Z;
  px_pos : option ebuckets; px_neg : option ebuckets; px_flags : Z; px_exemplars : list pb_exemplar; px_min : option Z; px_max : option Z }.
Inductive pb_data :=
| PbGauge (l : list pb_num)
| PbSum (l : list pb_num) (temporality : Z) (monotonic : bool)
| PbHistogram (l : list pb_hist) (temporality : Z)
| PbExponential (l : list pb_exp) (temporality : Z)
| PbNothing.
Record pb_metric := PbMetric { pm_name : str; pm_descr : str; pm_unit : str; pm_data : pb_data }.

Section Metrics.
(** [float(z)] of an int; None: OverflowError. *)
Variable to_float : Z -> option Z.
Definition pb_double (n : number) : option Z := match n with NInt z => to_float z | NFloat f => Some f end.
(** as_int or as_double *)
Definition pb_number (n : number) : option number := match n with NInt z => let? z := pb_int64 z in Some (NInt z) | NFloat f => Some (NFloat f) end.
(** 346-387 *)
Definition encode_exemplar (e : sdk_exemplar) : option pb_exemplar :=
  let? t := pb_uint64 (ex_time e) in
  let? ids := match ex_span e, ex_trace e with
              | Some s, Some t => let? s := encode_span_id s in let? t := encode_trace_id t in Some (s, t)
              | _, _ => Some ([], [])
              end in
  let? v := pb_number (ex_value e) in
  Some (PbEx (encode_attributes (ex_attrs e)) t v (fst ids) (snd ids)).
(** 248-259 (a gauge has no start time) and 279-297 *)
Definition encode_num (with_start : bool) (p : num_point) : option pb_num :=
  let? s := if with_start then pb_opt pb_uint64 0 (n_start p) else Some 0 in
  let? t := pb_uint64 (n_time p) in
  let? ex := map_opt encode_exemplar (n_exemplars p) in
  let? v := pb_number (n_value p) in
  Some (PbNum (encode_attributes (n_attrs p)) s t v ex).
Definition opt_double (o : option number) : option (option Z) :=
  match o with Some n => let? d := pb_double n in Some (Some d) | None => Some None end.
(** 261-275 *)
Definition encode_hist (p : hist_point) : option pb_hist :=
  let? t := pb_uint64 (h_time p) in
  let? s := pb_opt pb_uint64 0 (h_start p) in
  let? ex := map_opt encode_exemplar (h_exemplars p) in
  let? c := pb_uint64 (h_count p) in
  let? sm := pb_double (h_sum p) in
  let? bs := map_opt pb_uint64 (h_buckets p) in
  let? bo := map_opt pb_double (h_bounds p) in
  let? mx := opt_double (h_max p) in
  let? mn := opt_double (h_min p) in
  Some (PbHist (encode_attributes (h_attrs p)) s t c sm bs bo ex mn mx).
(** 301-316 *)
Definition encode_buckets (b : ebuckets) : option (option ebuckets) :=
  match eb_counts b with
  | [] => Some None
  | cs => let? o := pb_sint32 (eb_offset b) in let? cs := map_opt pb_uint64 cs in Some (Some (EB o cs))
  end.
(** 299-336 *)
Definition encode_exp (p : exp_point) : option pb_exp :=
  let? po := encode_buckets (e_pos p) in
  let? ne := encode_buckets (e_neg p) in
  let? t := pb_uint64 (e_time p) in
  let? s := pb_opt pb_uint64 0 (e_start p) in
  let? ex := map_opt encode_exemplar (e_exemplars p) in
  let? c := pb_uint64 (e_count p) in
  let? sm := pb_double (e_sum p) in
  let? sc := pb_sint32 (e_scale p) in
  let? z := pb_uint64 (e_zero p) in
  let? f := pb_uint32 (e_flags p) in
  let? mx := opt_double (e_max p) in
  let? mn := opt_double (e_min p) in
  Some (PbExp (encode_attributes (e_attrs p)) s t c sm sc z po ne f ex mn mx).
(** 247-343 [_encode_metric]: without points the field is not set at all. *)
Definition encode_data (d : mdata) : option pb_data :=
  match d with
  | MGauge l => let? ps := map_opt (encode_num false) l in Some (match ps with [] => PbNothing | _ => PbGauge ps end)
  | MSum l t m => let? ps := map_opt (encode_num true) l in Some (match ps with [] => PbNothing | _ => PbSum ps t m end)
  | MHistogram l t => let? ps := map_opt encode_hist l in Some (match ps with [] => PbNothing | _ => PbHistogram ps t end)
  | MExponential l t => let? ps := map_opt encode_exp l in Some (match ps with [] => PbNothing | _ => PbExponential ps t end)
  | MUnknown => Some PbNothing
  end.
Definition encode_metric (m : sdk_metric) : option pb_metric :=
  let? n := pb_str (sm_name m) in
  let? d := pb_opt pb_str [] (sm_descr m) in
  let? u := pb_opt pb_str [] (sm_unit m) in
  let? x := encode_data (sm_data m) in
  Some (PbMetric n d u x).
(** 189-244: the scopes of one resource come grouped already; a second entry for a scope replaces the first, at
    its place, and so for resources. *)
Definition encode_scope_metrics (sm : scope * list sdk_metric) : option (pb_group_scope pb_metric) :=
  let? s := encode_scope (Some (fst sm)) in
  let? u := pb_str (sco_schema (fst sm)) in
  let? ms := map_opt encode_metric (snd sm) in
  Some (PbScopeGroup s u ms).
Section Same.
Variable same_res : resource -> resource -> bool.
Variable same_sco : scope -> scope -> bool.
Fixpoint scope_dict (l : list (scope * list sdk_metric)) (d : list (scope * pb_group_scope pb_metric))
    : option (list (scope * pb_group_scope pb_metric)) :=
  match l with
  | [] => Some d
  | sm :: l' => let? g := encode_scope_metrics sm in scope_dict l' (at_key same_sco (fst sm) g (fun _ => g) d)
  end.
Fixpoint resource_dict (l : list (resource * list (scope * list sdk_metric))) (d : list (resource * list (pb_group_scope pb_metric)))
    : option (list (resource * list (pb_group_scope pb_metric))) :=
  match l with
  | [] => Some d
  | (r, sms) :: l' => let? g := scope_dict sms [] in resource_dict l' (at_key same_res r (map snd g) (fun _ => map snd g) d)
  end.
Definition encode_metrics (l : list (resource * list (scope * list sdk_metric))) : option (list (pb_group pb_metric)) :=
  let? d := resource_dict l [] in
  map_opt (fun rg : resource * list (pb_group_scope pb_metric) =>
    let? u := pb_str (r_schema (fst rg)) in
    Some (PbGroup (encode_attributes (r_attrs (fst rg))) u (snd rg))) d.
End Same.
End Metrics.
