(** What OTLP messages say, independently of how they are made. *)
From Verif Require Export Spec_Context Model_Otlp.
From Verif Require Import Spec_Utf8.
From Coq Require Import Permutation.
Local Open Scope Z_scope.

(** ** Values *)

Definition int64 (z : Z) : Prop := - 2 ^ 63 <= z < 2 ^ 63.
(** What OTLP can carry: UTF-8 text, integers of 64 bits, floats, bytes, lists and string-keyed mappings of such,
    and nothing at all if [null]. *)
Inductive carried (null : bool) : anyv -> Prop :=
| car_none : null = true -> carried null ANone
| car_bool b : carried null (ABool b)
| car_str s : unicode_text s -> carried null (AStr s)
| car_int z : int64 z -> carried null (AInt z)
| car_float f : carried null (AFloat f)
| car_bytes b : carried null (ABytes b)
| car_seq l : Forall (carried null) l -> carried null (ASeq l)
| car_map l : Forall (fun kv => unicode_text (fst kv) /\ carried null (snd kv)) l -> carried null (AMap l).
(** What a receiver reads *)
Fixpoint read_value (v : any_value) : anyv :=
  match v with
  | AVEmpty => ANone
  | AVBool b => ABool b
  | AVStr s => AStr s
  | AVInt z => AInt z
  | AVDouble f => AFloat f
  | AVBytes b => ABytes b
  | AVArray l => ASeq (map read_value l)
  | AVKvlist l => AMap (map (fun kv => (fst kv, read_value (snd kv))) l)
  end.
(** Big-endian number *)
Definition number_of_bytes (bs : list N) : Z := fold_left (fun acc b => acc * 256 + Z.of_N b) bs 0.
Definition is_bytes (n : nat) (bs : list N) : Prop := length bs = n /\ Forall (fun b => (b < 256)%N) bs.
(** [out] says what [attrs] says, without the attributes that cannot be carried. *)
Definition attribute_ok (kv : str * pyval) : Prop := unicode_text (fst kv) /\ carried false (of_pyval (snd kv)).
Inductive attributes_read : dict str pyval -> list (str * any_value) -> Prop :=
| ar_nil : attributes_read [] []
| ar_keep k v e attrs out : attribute_ok (k, v) -> read_value e = of_pyval v -> attributes_read attrs out ->
    attributes_read ((k, v) :: attrs) ((k, e) :: out)
| ar_drop k v attrs out : ~ attribute_ok (k, v) -> attributes_read attrs out -> attributes_read ((k, v) :: attrs) out.

(** ** Groups *)

(** The first occurrences *)
Fixpoint firsts {A} (same : A -> A -> bool) (l : list A) : list A :=
  match l with [] => [] | x :: l' => x :: filter (fun y => negb (same x y)) (firsts same l') end.
(** Dicts with string keys and tuples as sequences, as [BoundedAttributes] keeps them *)
Inductive stored : pyval -> Prop :=
| sto_prim v : match v with PSeq _ _ => False | _ => True end -> stored v
| sto_seq l : Forall stored l -> stored (PSeq true l).
Definition kept_attrs (d : dict str pyval) : Prop := NoDup (keys d) /\ Forall (fun kv => stored (snd kv)) d.
Definition resource_ok (r : resource) : Prop := kept_attrs (r_attrs r).
Definition scope_ok (s : option scope) : Prop := match s with Some s => kept_attrs (sco_attrs s) | None => True end.
(** The same attributes, as a receiver sees them, up to their order *)
Definition same_attributes (a b : dict str pyval) : Prop :=
  forall k, option_map of_pyval (dget k a) = option_map of_pyval (dget k b).
Definition equal_resources (a b : resource) : Prop := same_attributes (r_attrs a) (r_attrs b) /\ r_schema a = r_schema b.
Definition equal_scopes (a b : option scope) : Prop :=
  match a, b with
  | Some a, Some b => sco_name a = sco_name b /\ sco_version a = sco_version b /\ sco_schema a = sco_schema b
                      /\ same_attributes (sco_attrs a) (sco_attrs b)
  | None, None => True
  | _, _ => False
  end.

(** Equality in Python: 1, True and 1.0 are the same. *)
Definition python_equal (float_int : Z -> option Z) (a b : dict str pyval) : Prop := forall k, option_map (canon float_int (fun _ => true)) (dget k a) = option_map (canon float_int (fun _ => true)) (dget k b).
Definition python_equal_scopes (float_int : Z -> option Z) (a b : option scope) : Prop :=
  match a, b with
  | Some a, Some b => sco_name a = sco_name b /\ sco_version a = sco_version b /\ sco_schema a = sco_schema b
                      /\ python_equal float_int (sco_attrs a) (sco_attrs b)
  | None, None => True
  | _, _ => False
  end.

(** What a receiver reads of a group's resource and scope *)
Definition resource_read (r : resource) {M} (g : pb_group M) : Prop :=
  attributes_read (r_attrs r) (pr_attrs g) /\ pr_schema g = r_schema r.
Definition scope_read (s : option scope) {M} (g : pb_group_scope M) : Prop :=
  match s with
  | Some s => ps_name (pg_scope g) = sco_name s
              /\ ps_version (pg_scope g) = match sco_version s with Some v => v | None => [] end
              /\ attributes_read (sco_attrs s) (ps_attrs (pg_scope g))
              /\ pg_schema g = sco_schema s
  | None => pg_scope g = PbScope [] [] [] /\ pg_schema g = []
  end.
Definition items_ok {T} (res_of : T -> resource) (sco_of : T -> option scope) (l : list T) : Prop :=
  Forall (fun t => resource_ok (res_of t) /\ scope_ok (sco_of t)) l.
(** [req] consists of one group per resource, in the order of their first occurrence, each with one group per scope,
    each with the encoded items of this resource and scope in the order of the batch. *)
Section Request.
Context {T M : Type}.
Variable same_sco : option scope -> option scope -> bool.
Variable res_of : T -> resource.
Variable sco_of : T -> option scope.
Variable encodes : T -> M -> Prop.
Definition of_resource (r : resource) (batch : list T) : list T := filter (fun t => same_resource_key r (res_of t)) batch.
Definition of_scope (s : option scope) (batch : list T) : list T := filter (fun t => same_sco s (sco_of t)) batch.
Definition request_of (batch : list T) (req : list (pb_group M)) : Prop :=
  Forall2 (fun r g =>
    resource_read r g
    /\ Forall2 (fun s h => scope_read s h /\ Forall2 encodes (of_scope s (of_resource r batch)) (pg_items h))
         (firsts same_sco (map sco_of (of_resource r batch))) (pr_scopes g))
    (firsts same_resource_key (map res_of batch)) req.
(** Every item with the resource and scope it is under *)
Definition flatten (req : list (pb_group M)) : list (pb_group M * pb_group_scope M * M) :=
  flat_map (fun g => flat_map (fun h => map (fun m => (g, h, m)) (pg_items h)) (pr_scopes g)) req.
End Request.

(** ** Spans *)

(** A reader's view of an encoded id that may be absent *)
Definition id_read (n : nat) (o : option Z) (bs : list N) : Prop :=
  match o with Some z => is_bytes n bs /\ number_of_bytes bs = z | None => bs = [] end.
Definition or_zero (o : option Z) : Z := match o with Some z => z | None => 0 end.
Definition or_empty (o : option str) : str := match o with Some s => s | None => [] end.
(** The bits of the flags of OTLP: 8 says that bit 9 is known, 9 that the context is remote. *)
Definition remote_flags (remote : bool) (flags : Z) : Prop :=
  Z.testbit flags 8 = true /\ Z.testbit flags 9 = remote.
Definition event_read (e : event) (p : pb_event) : Prop :=
  pe_time p = ev_ts e /\ pe_name p = ev_name e /\ attributes_read (ba_dict (ev_attrs e)) (pe_attrs p)
  /\ pe_dropped p = Z.of_nat (ba_dropped (ev_attrs e)).
(** (the trace state and the W3C flags of the link's context are not in the message) *)
Definition link_read (l : link) (p : pb_link) : Prop :=
  id_read 16 (Some (sc_trace_id (lk_ctx l))) (pl_trace_id p) /\ id_read 8 (Some (sc_span_id (lk_ctx l))) (pl_span_id p)
  /\ attributes_read (ba_dict (lk_attrs l)) (pl_attrs p) /\ pl_dropped p = Z.of_nat (ba_dropped (lk_attrs l))
  /\ remote_flags (sc_is_remote (lk_ctx l)) (pl_flags p).
Definition code_number (c : status_code) : Z := match c with UNSET => 0 | OK => 1 | ERROR => 2 end.
Definition description_read (d : pyval) (m : str) : Prop :=
  match d with
  | PNone => m = []
  | PStr _ s => m = s
  | PBytes _ b => utf8_text m b
  | _ => False
  end.
Definition span_read (s : sdk_span) (p : pb_span) : Prop :=
  (id_read 16 (Some (sc_trace_id (sp_ctx s))) (pb_trace_id p)
   /\ id_read 8 (Some (sc_span_id (sp_ctx s))) (pb_span_id p)
   /\ id_read 8 (option_map sc_span_id (sp_parent s)) (pb_parent p)
   /\ pb_state p = ts_to_header (sc_state (sp_ctx s))
   /\ remote_flags (match sp_parent s with Some c => sc_is_remote c | None => false end) (pb_flags p))
  /\ (pb_name p = sp_name s /\ pb_kind p = sp_kind s + 1
      /\ pb_start p = or_zero (sp_start s) /\ pb_end p = or_zero (sp_end s)
      /\ pb_status_code p = code_number (st_code (sp_status s))
      /\ description_read (st_desc (sp_status s)) (pb_status_message p))
  /\ (attributes_read (ba_dict (sp_attrs s)) (pb_attrs p) /\ pb_dropped_attrs p = Z.of_nat (ba_dropped (sp_attrs s))
      /\ Forall2 event_read (bl_items (sp_events s)) (pb_events p) /\ pb_dropped_events p = Z.of_nat (bl_dropped (sp_events s))
      /\ Forall2 link_read (bl_items (sp_links s)) (pb_links p) /\ pb_dropped_links p = Z.of_nat (bl_dropped (sp_links s))).
(** Which spans can be encoded: text is Unicode, numbers fit. *)
Definition fits (bits : Z) (z : Z) : Prop := 0 <= z < 2 ^ bits.
Definition opt_fits (bits : Z) (o : option Z) : Prop := match o with Some z => fits bits z | None => True end.
Definition count_fits (n : nat) : Prop := fits 32 (Z.of_nat n).
Definition description_ok (d : pyval) : Prop :=
  match d with
  | PNone => True
  | PStr _ s => unicode_text s
  | PBytes _ b => exists s, utf8_text s b
  | _ => False
  end.
Definition span_encodable (s : sdk_span) : Prop :=
  (fits 128 (sc_trace_id (sp_ctx s)) /\ fits 64 (sc_span_id (sp_ctx s)) /\ opt_fits 64 (option_map sc_span_id (sp_parent s))
   /\ unicode_text (ts_to_header (sc_state (sp_ctx s))))
  /\ (unicode_text (sp_name s) /\ 0 <= sp_kind s <= 4 /\ opt_fits 64 (sp_start s) /\ opt_fits 64 (sp_end s)
      /\ description_ok (st_desc (sp_status s)))
  /\ Forall (fun e => unicode_text (ev_name e) /\ fits 64 (ev_ts e) /\ count_fits (ba_dropped (ev_attrs e))) (bl_items (sp_events s))
  /\ Forall (fun l => fits 128 (sc_trace_id (lk_ctx l)) /\ fits 64 (sc_span_id (lk_ctx l)) /\ count_fits (ba_dropped (lk_attrs l)))
       (bl_items (sp_links s))
  /\ count_fits (ba_dropped (sp_attrs s)) /\ count_fits (bl_dropped (sp_events s)) /\ count_fits (bl_dropped (sp_links s)).

(** ** Log records *)
Definition log_id_read (n : nat) (o : option Z) (bs : list N) : Prop :=
  match o with Some 0 => bs = [] | Some z => is_bytes n bs /\ number_of_bytes bs = z | None => False end.
Definition log_read (r : log_record) (p : pb_log) : Prop :=
  (log_id_read 16 (lr_trace_id r) (pbl_trace_id p) /\ log_id_read 8 (lr_span_id r) (pbl_span_id p) /\ Some (pbl_flags p) = lr_flags r)
  /\ pbl_time p = or_zero (lr_time r) /\ pbl_observed p = or_zero (lr_observed r)
  /\ Some (pbl_severity p) = lr_severity r /\ pbl_severity_text p = or_empty (lr_severity_text r)
  /\ read_value (pbl_body p) = lr_body r
  /\ attributes_read (lr_attrs r) (pbl_attrs p) /\ pbl_dropped p = lr_dropped r.
Definition opt_text (o : option str) : Prop := match o with Some s => unicode_text s | None => True end.
Definition log_encodable (r : log_record) : Prop :=
  ((exists t, lr_trace_id r = Some t /\ fits 128 t) /\ (exists i, lr_span_id r = Some i /\ fits 64 i)
   /\ (exists f, lr_flags r = Some f /\ fits 32 f) /\ (exists v, lr_severity r = Some v /\ - 2 ^ 31 <= v < 2 ^ 31))
  /\ opt_fits 64 (lr_time r) /\ opt_fits 64 (lr_observed r) /\ opt_text (lr_severity_text r)
  /\ carried true (lr_body r) /\ fits 32 (lr_dropped r).

(** Resources and scopes that can be encoded: their text is Unicode. *)
Definition resource_encodable (r : resource) : Prop := unicode_text (r_schema r).
Definition scope_encodable (s : option scope) : Prop :=
  match s with Some s => unicode_text (sco_name s) /\ opt_text (sco_version s) /\ unicode_text (sco_schema s) | None => True end.

(** ** Metrics *)
Section Metrics.
(** The float of an int *)
Variable to_float : Z -> option Z.
Definition double_read (n : number) (f : Z) : Prop := match n with NInt z => to_float z = Some f | NFloat g => f = g end.
Definition opt_double_read (o : option number) (p : option Z) : Prop :=
  match o, p with Some n, Some f => double_read n f | None, None => True | _, _ => False end.
(** An exemplar without both ids has none. *)
Definition exemplar_read (e : sdk_exemplar) (p : pb_exemplar) : Prop :=
  attributes_read (ex_attrs e) (px_attrs p) /\ px_time p = ex_time e /\ px_value p = ex_value e
  /\ match ex_span e, ex_trace e with
     | Some s, Some t => id_read 8 (Some s) (px_span p) /\ id_read 16 (Some t) (px_trace p)
     | _, _ => px_span p = [] /\ px_trace p = []
     end.
Definition num_read (with_start : bool) (d : num_point) (p : pb_num) : Prop :=
  attributes_read (n_attrs d) (pn_attrs p) /\ pn_start p = (if with_start then or_zero (n_start d) else 0) /\ pn_time p = n_time d
  /\ pn_value p = n_value d /\ Forall2 exemplar_read (n_exemplars d) (pn_exemplars p).
Definition hist_read (d : hist_point) (p : pb_hist) : Prop :=
  attributes_read (h_attrs d) (ph_attrs p) /\ ph_start p = or_zero (h_start d) /\ ph_time p = h_time d
  /\ ph_count p = h_count d /\ double_read (h_sum d) (ph_sum p) /\ ph_buckets p = h_buckets d
  /\ Forall2 double_read (h_bounds d) (ph_bounds p) /\ Forall2 exemplar_read (h_exemplars d) (ph_exemplars p)
  /\ opt_double_read (h_min d) (ph_min p) /\ opt_double_read (h_max d) (ph_max p).
(** Buckets without counts are left out, with their offset. *)
Definition buckets_read (b : ebuckets) (p : option ebuckets) : Prop :=
  match eb_counts b with [] => p = None | _ => p = Some b end.
Definition exp_read (d : exp_point) (p : pb_exp) : Prop :=
  attributes_read (e_attrs d) (px_at p) /\ px_start p = or_zero (e_start d) /\ px_ti p = e_time d
  /\ px_count p = e_count d /\ double_read (e_sum d) (px_sum p) /\ px_scale p = e_scale d /\ px_zero p = e_zero d
  /\ buckets_read (e_pos d) (px_pos p) /\ buckets_read (e_neg d) (px_neg p) /\ px_flags p = e_flags d
  /\ Forall2 exemplar_read (e_exemplars d) (px_exemplars p)
  /\ opt_double_read (e_min d) (px_min p) /\ opt_double_read (e_max d) (px_max p).
(** The type of the data is lost if there are no points. *)
Definition data_read (d : mdata) (p : pb_data) : Prop :=
  match d with
  | MGauge [] | MSum [] _ _ | MHistogram [] _ | MExponential [] _ | MUnknown => p = PbNothing
  | MGauge l => exists ps, p = PbGauge ps /\ Forall2 (num_read false) l ps
  | MSum l t m => exists ps, p = PbSum ps t m /\ Forall2 (num_read true) l ps
  | MHistogram l t => exists ps, p = PbHistogram ps t /\ Forall2 hist_read l ps
  | MExponential l t => exists ps, p = PbExponential ps t /\ Forall2 exp_read l ps
  end.
Definition metric_read (m : sdk_metric) (p : pb_metric) : Prop :=
  pm_name p = sm_name m /\ pm_descr p = or_empty (sm_descr m) /\ pm_unit p = or_empty (sm_unit m) /\ data_read (sm_data m) (pm_data p).
Definition scope_metrics_read (sm : scope * list sdk_metric) (g : pb_group_scope pb_metric) : Prop :=
  scope_read (Some (fst sm)) g /\ Forall2 metric_read (snd sm) (pg_items g).
Definition resource_metrics_read (rm : resource * list (scope * list sdk_metric)) (g : pb_group pb_metric) : Prop :=
  resource_read (fst rm) g /\ Forall2 scope_metrics_read (snd rm) (pr_scopes g).
(** Which metrics can be encoded *)
Definition number_ok (n : number) : Prop := match n with NInt z => int64 z | NFloat _ => True end.
Definition double_ok (n : number) : Prop := match n with NInt z => exists f, to_float z = Some f | NFloat _ => True end.
Definition opt_double_ok (o : option number) : Prop := match o with Some n => double_ok n | None => True end.
Definition exemplar_ok (e : sdk_exemplar) : Prop :=
  fits 64 (ex_time e) /\ number_ok (ex_value e) /\ opt_fits 64 (ex_span e) /\ opt_fits 128 (ex_trace e).
Definition num_ok (d : num_point) : Prop :=
  opt_fits 64 (n_start d) /\ fits 64 (n_time d) /\ number_ok (n_value d) /\ Forall exemplar_ok (n_exemplars d).
Definition hist_ok (d : hist_point) : Prop :=
  (opt_fits 64 (h_start d) /\ fits 64 (h_time d) /\ fits 64 (h_count d) /\ Forall (fits 64) (h_buckets d))
  /\ (double_ok (h_sum d) /\ Forall double_ok (h_bounds d) /\ opt_double_ok (h_min d) /\ opt_double_ok (h_max d))
  /\ Forall exemplar_ok (h_exemplars d).
Definition buckets_ok (b : ebuckets) : Prop := - 2 ^ 31 <= eb_offset b < 2 ^ 31 /\ Forall (fits 64) (eb_counts b).
Definition exp_ok (d : exp_point) : Prop :=
  (opt_fits 64 (e_start d) /\ fits 64 (e_time d) /\ fits 64 (e_count d) /\ fits 64 (e_zero d) /\ fits 32 (e_flags d))
  /\ (double_ok (e_sum d) /\ opt_double_ok (e_min d) /\ opt_double_ok (e_max d))
  /\ (- 2 ^ 31 <= e_scale d < 2 ^ 31 /\ buckets_ok (e_pos d) /\ buckets_ok (e_neg d)) /\ Forall exemplar_ok (e_exemplars d).
Definition data_ok (d : mdata) : Prop :=
  match d with
  | MGauge l | MSum l _ _ => Forall num_ok l
  | MHistogram l _ => Forall hist_ok l
  | MExponential l _ => Forall exp_ok l
  | MUnknown => True
  end.
Definition metric_ok (m : sdk_metric) : Prop :=
  unicode_text (sm_name m) /\ opt_text (sm_descr m) /\ opt_text (sm_unit m) /\ data_ok (sm_data m).
Definition resource_metrics_ok (rm : resource * list (scope * list sdk_metric)) : Prop :=
  resource_encodable (fst rm) /\ Forall (fun sm => scope_encodable (Some (fst sm)) /\ Forall metric_ok (snd sm)) (snd rm).
End Metrics.
(** No two of them are the same. *)
Definition all_different {A} (same : A -> A -> bool) (l : list A) : Prop := ForallOrdPairs (fun a b => same a b = false) l.
