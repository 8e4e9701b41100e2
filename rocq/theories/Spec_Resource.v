(** Specification vocabulary for resources. *)
From Verif Require Export Spec_Attr Spec_Context Model_Resource.

(** The attributes that a resource made from [attrs] should have: of each key the last valid assignment. *)
Definition attributes_of (attrs : list (pyval * pyval)) (d : dict str pyval) : Prop :=
  exists t, takes None attrs t /\ d = latest t.
(** A resource that the constructor can make. *)
Definition is_resource (r : resource) : Prop := exists attrs schema, r = res_new attrs schema.

(** The attributes of every resource of this SDK. *)
Definition sdk_attributes (version : str) : dict str pyval :=
  [(lit "telemetry.sdk.language", PStr false (lit "python")); (lit "telemetry.sdk.name", PStr false (lit "opentelemetry"));
   (lit "telemetry.sdk.version", PStr false version)].

(** Schema urls that can be merged. *)
Definition compatible_schemas (a b : str) : Prop := a = [] \/ b = [] \/ a = b.
(** [Resource.__eq__] with equality of the values themselves (finer than Python's, where 1 == True). *)
Definition same_resource (a b : resource) : Prop := dict_equiv (r_attrs a) (r_attrs b) /\ r_schema a = r_schema b.

(** The resources that the detectors found. *)
Definition found (ds : list detector) : list resource := flat_map (fun d => match det_result d with Some r => [r] | None => [] end) ds.
(** Empty or the url [u] *)
Definition among (u s : str) : Prop := s = [] \/ s = u.
(** The value for a key in layers of attributes, where later layers win. *)
Fixpoint top (layers : list (dict str pyval)) (k : str) : option pyval :=
  match layers with
  | [] => None
  | d :: ds => match top ds k with Some v => Some v | None => dget k d end
  end.

(** The items of OTEL_RESOURCE_ATTRIBUTES and what they say: key=value with the value percent encoded and blanks
    around both; items without "=" say nothing. *)
Definition blanks (s : str) : Prop := forallb py_space s = true.
Definition item_key (k : str) : Prop := k <> [] /\ strip py_space k = k /\ ~ In (chr "=") k /\ ~ In (chr ",") k.
Inductive env_items : list str -> list (str * str) -> Prop :=
| ei_nil : env_items [] []
| ei_pair b1 k b2 b3 q v b4 items pairs : blanks b1 -> blanks b2 -> blanks b3 -> blanks b4 ->
    ~ In (chr ",") b1 -> item_key k -> unicode_text v -> quote v = Some q -> env_items items pairs ->
    env_items ((b1 ++ k ++ b2 ++ lit "=" ++ b3 ++ q ++ b4) :: items) ((k, v) :: pairs)
| ei_none x items pairs : ~ In (chr "=") x -> ~ In (chr ",") x -> env_items items pairs -> env_items (x :: items) pairs.

(** The values that Python takes as false: no name. *)
Definition empty_value (fzero : Z -> bool) (v : pyval) : Prop :=
  v = PNone \/ v = PBool false \/ (exists sub, v = PInt sub 0) \/ (exists sub f, v = PFloat sub f /\ fzero f = true)
  \/ (exists sub, v = PStr sub []) \/ (exists sub, v = PBytes sub []) \/ (exists tup, v = PSeq tup []).
(** The detectors asked for when OTEL_EXPERIMENTAL_RESOURCE_DETECTORS has these items. *)
Definition asked (items : list str) (n : str) : Prop :=
  n = lit "otel" \/ exists item, In item items /\ item <> [] /\ n = strip py_space item.
