(** What a Zipkin payload says: a small grammar of JSON arrays of strings and nulls (RFC 8259), independent of the
    encoder; rounding; which tag wins. *)
From Verif Require Export Model_Zipkin Spec_Otlp.

(** The characters between the quotes of a JSON string, and the string they denote. *)
Inductive jchars : str -> str -> Prop :=
| jc_end : jchars [] []
| jc_plain c t s : (32 <= c)%N -> c <> 34%N -> c <> 92%N -> jchars t s -> jchars (c :: t) (c :: s)
| jc_short e c t s :
    In (e, c) [(34, 34); (92, 92); (47, 47); (98, 8); (102, 12); (110, 10); (114, 13); (116, 9)]%N ->
    jchars t s -> jchars (92%N :: e :: t) (c :: s)
| jc_unit h n t s : length h = 4%nat -> forallb is_hex h = true -> hex_value h = n ->
    ~ (55296 <= n < 57344)%N -> jchars t s -> jchars (lit "\u" ++ h ++ t) (n :: s)
| jc_pair h1 h2 n1 n2 t s : length h1 = 4%nat -> forallb is_hex h1 = true -> hex_value h1 = n1 ->
    length h2 = 4%nat -> forallb is_hex h2 = true -> hex_value h2 = n2 ->
    (55296 <= n1 < 56320)%N -> (56320 <= n2 < 57344)%N -> jchars t s ->
    jchars (lit "\u" ++ h1 ++ lit "\u" ++ h2 ++ t) ((65536 + (n1 - 55296) * 1024 + (n2 - 56320))%N :: s).
Inductive jvalue : str -> option str -> Prop :=
| jv_null : jvalue (lit "null") None
| jv_string t s : jchars t s -> jvalue ([34%N] ++ t ++ [34%N]) (Some s).
(** The text of a JSON array with these elements. *)
Definition jarray (t : str) (es : list (option str)) : Prop :=
  exists parts, Forall2 jvalue parts es /\ t = lit "[" ++ join (lit ",") parts ++ lit "]".

(** A string of Unicode scalar values: no surrogates. *)
Definition scalars (s : str) : Prop := Forall (fun c => (c < 1114112)%N /\ ~ (55296 <= c < 57344)%N) s.
(** A string that JSON shows as it is: printable ASCII without quotes and backslashes. *)
Definition plain (s : str) : Prop := Forall (fun c => (32 <= c <= 126)%N /\ c <> 34%N /\ c <> 92%N) s.

(** The same for the element of a sequence, where [None] is null. *)
Definition scalar_item (e : option str) : Prop := match e with Some s => scalars s | None => True end.
Definition plain_item (e : option str) : Prop := match e with Some s => plain s | None => True end.

(** The room an array of these elements takes when no character needs an escape. *)
Definition item_room (e : option str) : Z := match e with None => 4 | Some s => Z.of_nat (length s) + 2 end.
Definition array_room (es : list (option str)) : Z :=
  (2 + fold_right Z.add 0 (map item_room es) + match es with [] => 0 | _ => Z.of_nat (length es) - 1 end)%Z.

Section Spec.
Variable int_text float_text : Z -> str.

(** The texts of the elements of a sequence attribute that have one. *)
Inductive texts : list pyval -> list (option str) -> Prop :=
| tx_nil : texts [] []
| tx_none l es : texts l es -> texts (PNone :: l) (None :: es)
| tx_true l es : texts l es -> texts (PBool true :: l) (Some (lit "true") :: es)
| tx_false l es : texts l es -> texts (PBool false :: l) (Some (lit "false") :: es)
| tx_int b z l es : texts l es -> texts (PInt b z :: l) (Some (int_text z) :: es)
| tx_float b f l es : texts l es -> texts (PFloat b f :: l) (Some (float_text f) :: es)
| tx_str b s l es : texts l es -> texts (PStr b s :: l) (Some s :: es)
| tx_other v l es : (match v with PBytes _ _ | PSeq _ _ | PObj _ => True | _ => False end) -> texts l es -> texts (v :: l) es.

(** A text cut to the maximal length, if there is one. *)
Definition shortened (maxlen : option Z) (s : str) : str :=
  match maxlen with Some z => if (0 <? z)%Z then firstn (Z.to_nat z) s else s | None => s end.
(** The tag of a sequence: none if only one character is allowed; without a limit a JSON array of the texts; with one,
    a JSON array of the longest prefix for which there is room, room being counted without escapes, and then cut. *)
Definition sequence_tag (maxlen : option Z) (l : list pyval) (t : option str) : Prop :=
  if match maxlen with Some z => Z.eqb z 1 | None => false end then t = None
  else exists tag es, t = Some tag /\ texts l es /\
    (Forall scalar_item es ->
     match maxlen with
     | Some z => if (0 <? z)%Z
                 then exists n whole, jarray whole (firstn n es) /\ tag = firstn (Z.to_nat z) whole
                      /\ (array_room (firstn n es) <= z)%Z /\ (n = length es \/ (n < length es)%nat /\ (z < array_room (firstn (S n) es))%Z)
                 else jarray tag es
     | None => jarray tag es
     end).
(** The tag of an attribute value, if it has one. *)
Definition value_tag (maxlen : option Z) (v : pyval) (t : option str) : Prop :=
  match v with
  | PBool b => t = Some (shortened maxlen (if b then lit "true" else lit "false"))
  | PInt _ z => t = Some (shortened maxlen (int_text z))
  | PFloat _ f => t = Some (shortened maxlen (float_text f))
  | PStr _ s => t = Some (shortened maxlen s)
  | PSeq _ l => sequence_tag maxlen l t
  | PBytes _ b => sequence_tag maxlen (map (fun c => PInt false (Z.of_N c)) b) t
  | PNone | PObj _ => t = None
  end.
(** The tag of the attribute [k] of these attributes, if it has one. *)
Definition attr_tag (maxlen : option Z) (d : dict str pyval) (k : str) (t : option str) : Prop :=
  match dget k d with Some v => value_tag maxlen v t | None => t = None end.
(** The tags a span has besides those of its attributes and resource. *)
Definition special_tag (s : rspan) (k : str) : option (option str) :=
  let sp := rs_span s in
  let scope_tag f := match rs_scope s with Some sc => Some (f sc) | None => None end in
  let count n := if Nat.eqb n 0 then None else Some (Some (int_text (Z.of_nat n))) in
  if str_eqb k (lit "otel.library.name") || str_eqb k (lit "otel.scope.name") then scope_tag (fun sc => Some (sco_name sc))
  else if str_eqb k (lit "otel.library.version") || str_eqb k (lit "otel.scope.version") then scope_tag sco_version
  else if str_eqb k (lit "otel.status_code") then
    match st_code (sp_status sp) with UNSET => None | OK => Some (Some (lit "OK")) | ERROR => Some (Some (lit "ERROR")) end
  else if str_eqb k (lit "error") then
    match st_code (sp_status sp) with
    | ERROR => Some (Some (match st_desc (sp_status sp) with PStr _ d => d | _ => [] end))
    | _ => None
    end
  else if str_eqb k (lit "otel.dropped_attributes_count") then count (ba_dropped (sp_attrs sp))
  else if str_eqb k (lit "otel.dropped_events_count") then count (bl_dropped (sp_events sp))
  else if str_eqb k (lit "otel.dropped_links_count") then count (bl_dropped (sp_links sp))
  else None.
End Spec.

(** An identifier as [w] lower-case hexadecimal digits. *)
Definition hex_id (w : nat) (z : Z) (t : str) : Prop :=
  length t = w /\ forallb is_lhex t = true /\ Z.of_N (hex_value t) = z.
(** Microseconds [us] are nanoseconds [ns] rounded to the nearest, halves up. *)
Definition rounded (us ns : Z) : Prop := (-500 < 1000 * us - ns <= 500)%Z.
Definition ids_in_range (s : sdk_span) : Prop :=
  (0 <= sc_trace_id (sp_ctx s) < 2 ^ 128 /\ 0 <= sc_span_id (sp_ctx s) < 2 ^ 64
   /\ forall p, sp_parent s = Some p -> 0 <= sc_span_id p < 2 ^ 64)%Z.
(** Event attributes are kept, long strings cut to the first [z] characters. *)
Definition cut_attr (maxlen : option Z) (v w : pyval) : Prop :=
  match v with
  | PStr _ s => exists s', w = PStr (match v with PStr b _ => b | _ => false end) s'
      /\ match maxlen with
         | Some z => if (0 <? z)%Z then s' = firstn (Z.to_nat z) s else s' = s
         | None => s' = s
         end
  | _ => w = v
  end.
Definition annotation_read (maxlen : option Z) (e : event) (a : annotation) : Prop :=
  rounded (an_time a) (ev_ts e) /\ an_name a = ev_name e
  /\ Forall2 (fun kv kw => fst kw = fst kv /\ cut_attr maxlen (snd kv) (snd kw)) (ba_dict (ev_attrs e)) (an_attrs a).
(** The zipkin name of a span kind (INTERNAL, SERVER, CLIENT, PRODUCER, CONSUMER are 0 to 4). *)
Definition kind_names : list (option str) :=
  [None; Some (lit "SERVER"); Some (lit "CLIENT"); Some (lit "PRODUCER"); Some (lit "CONSUMER")].
(** What a zipkin span says about the members that v1, v2 and proto share. *)
Definition zipkin_read (maxlen : option Z) (s : sdk_span) (z : zspan) : Prop :=
  hex_id 32 (sc_trace_id (sp_ctx s)) (z_trace z) /\ hex_id 16 (sc_span_id (sp_ctx s)) (z_id z)
  /\ z_name z = sp_name s
  /\ (exists st en, sp_start s = Some st /\ sp_end s = Some en /\ rounded (z_time z) st /\ rounded (z_duration z) (en - st))
  /\ Forall2 (annotation_read maxlen) (bl_items (sp_events s)) (z_annotations z)
  /\ z_debug z = Z.testbit (sc_flags (sp_ctx s)) 0
  /\ match sp_parent s, z_parent z with
     | None, None => True
     | Some p, Some t => hex_id 16 (sc_span_id p) t
     | _, _ => False
     end.

(** A history of an exporter: the batches posted, and the results returned. *)
Inductive zcall := ZExport (l : list rspan) (r : reply) | ZShutdown.
Fixpoint zrun (enc : rspan -> outcome_of zspan) (e : zexporter) (h : list zcall)
    : list (pyval * list zspan) * list (outcome_of bool) * zexporter :=
  match h with
  | [] => ([], [], e)
  | ZShutdown :: h' => zrun enc (zshutdown e) h'
  | ZExport l r :: h' =>
      let '(p, x, e1) := zexport enc e l r in
      let '(ps, xs, e2) := zrun enc e1 h' in
      (match p with Some p => p :: ps | None => ps end, x :: xs, e2)
  end.
Definition posts (enc : rspan -> outcome_of zspan) (e : zexporter) (h : list zcall) : list (pyval * list zspan) := fst (fst (zrun enc e h)).
Definition results (enc : rspan -> outcome_of zspan) (e : zexporter) (h : list zcall) : list (outcome_of bool) := snd (fst (zrun enc e h)).
Fixpoint exports_in (h : list zcall) : nat :=
  match h with [] => O | ZExport _ _ :: h' => S (exports_in h') | ZShutdown :: h' => exports_in h' end.
