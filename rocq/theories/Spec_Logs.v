(** Specifications for logs. *)
From Verif Require Export Model_Logs Spec_Attr Spec_Span.

(** ** Severity *)

(** Python levels come in tens, severity numbers in fours from DEBUG = 5 on; within a ten the first three
    levels have their own number. *)
Definition severity_of_level (n : Z) : Z :=
  if Z.ltb n 10 then 0
  else if Z.leb 60 n then 24
  else 4 * (n / 10) + 1 + Z.min 3 (n mod 10).

(** ** Attributes of a log record *)

(** Of the accepted attributes [t] (with distinct keys) a record with this limit keeps the last ones and reports
    the number of the others. *)
Definition keeps (limit : option nat) (t : dict str pyval) (r : log_record) : Prop :=
  lr_attrs r = match limit with Some m => lastn m t | None => t end
  /\ lr_dropped r = match limit with Some m => Z.max 0 (Z.of_nat (length t) - Z.of_nat m) | None => 0%Z end.

(** ** The logging handler *)

(** The attributes every record of the logging module has
    (docs.python.org/3/library/logging.html#logrecord-attributes). *)
Definition std_fields : list str := map lit [
  "args"; "asctime"; "created"; "exc_info"; "exc_text"; "filename"; "funcName"; "levelname"; "levelno"; "lineno";
  "message"; "module"; "msecs"; "msg"; "name"; "pathname"; "process"; "processName"; "relativeCreated";
  "stack_info"; "taskName"; "thread"; "threadName";
  "getMessage" (* a method *) ]%string.

(** The value an attribute of the emitted record is made from. *)
Definition shown (r : std_record) (k : str) : option pyval :=
  let exc f := match sr_exc r with Some e => option_map (PStr false) (f e) | None => None end in
  let user := if in_dec str_eq_dec k std_fields then None else dget k (sr_vars r) in
  let orelse a b := match a with Some v => Some v | None => b end in
  if str_eqb k (lit "code.filepath") then Some (sr_pathname r)
  else if str_eqb k (lit "code.function") then Some (sr_funcname r)
  else if str_eqb k (lit "code.lineno") then Some (sr_lineno r)
  else if str_eqb k (lit "exception.type") then orelse (exc se_type) user
  else if str_eqb k (lit "exception.message") then orelse (exc se_message) user
  else if str_eqb k (lit "exception.stacktrace") then orelse (exc se_trace) user
  else user.

(** The body: what the formatter makes of the record; without a formatter, the message object itself when it
    is not a string and there are no arguments to merge into it, and the merged message otherwise. *)
Inductive body_spec (format : option (std_record -> str)) (r : std_record) : anyv -> Prop :=
| bs_format f : format = Some f -> body_spec format r (AStr (f r))
| bs_object : format = None -> sr_has_args r = false -> (forall s, sr_msg r <> AStr s) ->
    body_spec format r (sr_msg r)
| bs_message : format = None -> (sr_has_args r = true \/ exists s, sr_msg r = AStr s) ->
    body_spec format r (AStr (sr_message r)).

(** ** Loggers *)
Definition plain (a : logger_args) : Prop := la_attrs a = None.
Definition same_logger (a b : logger_args) : Prop :=
  plain a /\ plain b /\ la_name a = la_name b /\ la_version a = la_version b /\ la_schema a = la_schema b.
(** The scope describes the arguments. *)
Definition names_scope (a : logger_args) (s : scope) : Prop :=
  sco_name s = la_name a /\ sco_version s = la_version a
  /\ sco_schema s = match la_schema a with Some u => u | None => [] end
  /\ forall t, takes None (match la_attrs a with Some l => l | None => [] end) t -> sco_attrs s = latest t.

(** ** The simple processor *)

(** Calls of the exporter. *)
Inductive xcall (item : Type) := XExport (b : list item) | XShutdown.
Arguments XExport {item} b. Arguments XShutdown {item}.
(** The calls before the first shutdown. *)
Fixpoint before_shutdown {item} (l : list (slop item)) : list (slop item) :=
  match l with
  | [] => []
  | SLShutdown :: _ => []
  | o :: l' => o :: before_shutdown l'
  end.
Definition emitted {item} (l : list (slop item)) : list item :=
  flat_map (fun o => match o with SLEmit x => [x] | _ => [] end) l.
Definition shutdowns {item} (l : list (slop item)) : nat :=
  length (filter (fun o => match o with SLShutdown => true | _ => false end) l).
