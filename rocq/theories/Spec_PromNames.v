(** What names, units and the target become in Prometheus, exactly. *)
From Verif Require Export Spec_Prometheus.
Local Open Scope Z_scope.

(** A text in which each longest run of characters that are not allowed became one underscore *)
Inductive replaced (allowed : N -> Prop) : str -> str -> Prop :=
| RNil : replaced allowed [] []
| RKeep c s t : allowed c -> replaced allowed s t -> replaced allowed (c :: s) (c :: t)
| RRun r s t : r <> [] -> Forall (fun c => ~ allowed c) r -> (forall c s', s = c :: s' -> allowed c) -> replaced allowed s t ->
    replaced allowed (r ++ s) (chr "_" :: t).
Definition in_names (c : N) : Prop := letter c \/ digit c \/ colon c.
Definition in_labels (c : N) : Prop := letter c \/ digit c.
(** A digit at the beginning gives way to an underscore. *)
Definition led (s s' : str) : Prop :=
  (s' = s /\ forall c t, s = c :: t -> ~ digit c) \/ exists c t, s = c :: t /\ digit c /\ s' = chr "_" :: t.

(** A unit without its annotations: an annotation goes from an opening brace to the last closing brace of the line. *)
Inductive unannotated : str -> str -> Prop :=
| UNil : unannotated [] []
| UKeep c s t : (c = chr "{" -> forall note b, s = note ++ lit "}" ++ b -> In 10%N note) -> unannotated s t -> unannotated (c :: s) (c :: t)
| UNote note s t : ~ In 10%N note -> (forall x y, s = x ++ lit "}" ++ y -> In 10%N x) -> unannotated s t ->
    unannotated (lit "{" ++ note ++ lit "}" ++ s) t.

(** The names of units *)
Definition named (unit : str) (name : str) : Prop :=
  In (unit, name) (map (fun p : string * string => (lit (fst p), lit (snd p)))
    [("s", "seconds"); ("ms", "milliseconds"); ("us", "microseconds"); ("ns", "nanoseconds");
     ("min", "minutes"); ("h", "hours"); ("d", "days");
     ("By", "bytes"); ("KBy", "kilobytes"); ("MBy", "megabytes"); ("GBy", "gigabytes"); ("TBy", "terabytes");
     ("KiBy", "kibibytes"); ("MiBy", "mebibytes"); ("GiBy", "gibibytes"); ("TiBy", "tibibytes");
     ("m", "meters"); ("g", "grams"); ("V", "volts"); ("A", "amperes"); ("J", "joules"); ("W", "watts");
     ("Hz", "hertz"); ("Cel", "celsius"); ("%", "percent"); ("1", "")]%string).
(** After "per" *)
Definition named_per (unit : str) (name : str) : Prop :=
  In (unit, name) (map (fun p : string * string => (lit (fst p), lit (snd p)))
    [("s", "second"); ("m", "minute"); ("h", "hour"); ("d", "day"); ("w", "week"); ("mo", "month"); ("y", "year")]%string).
Definition by_name (names : str -> str -> Prop) (unit name : str) : Prop :=
  names unit name \/ ((forall n, ~ names unit n) /\ name = unit).
(** Without the underscores at both ends *)
Definition trimmed (s t : str) : Prop :=
  exists a b, s = a ++ t ++ b /\ Forall underscore a /\ Forall underscore b /\ (forall c t', t = c :: t' -> ~ underscore c) /\ (forall c t', t = t' ++ [c] -> ~ underscore c).
(** What a unit without annotations becomes: a known unit its name; a ratio, the names of its two parts, the second one in
    the singular; anything else, itself with other characters replaced *)
Inductive shown_unit : str -> str -> Prop :=
| SKnown u n : named u n -> shown_unit u n
| SRatio a b a' b' top bottom : (forall n, ~ named (a ++ lit "/" ++ b) n) -> ~ In (chr "/") a -> b <> [] ->
    replaced in_names a a' -> replaced in_names b b' -> by_name named a' top -> by_name named_per b' bottom ->
    shown_unit (a ++ lit "/" ++ b) (match top with [] => lit "per_" ++ bottom | _ => top ++ lit "_per_" ++ bottom end)
| SOther u u' n : (forall n, ~ named u n) -> (forall a b, u = a ++ lit "/" ++ b -> b = []) -> replaced in_names u u' -> trimmed u' n ->
    shown_unit u n.

(** ** The target *)
(** The attributes of the resources: of two resources with the same attribute, the later one counts. *)
Definition said (d : metrics_data) (k : str) (v : pyval) : Prop :=
  exists a r b, d = a ++ r :: b /\ In (k, v) (r_attrs (fst r)) /\ Forall (fun r' => ~ In k (keys (r_attrs (fst r')))) b.
Definition text_of (dumps : pyval -> str) (v : pyval) (t : str) : Prop :=
  match v with PStr _ s => t = s | _ => t = dumps v end.
