(** Specifications for spans. *)
From Verif Require Export Spec_Attr Model_Span.

Definition nlim (m : option Z) : option nat := option_map Z.to_nat m.
(** The keys of a mapping that are strings; the value that it has for such a key. *)
Definition string_keys (l : pairs) : list str := flat_map (fun kv => match fst kv with PStr _ k => [k] | _ => [] end) l.
Definition holds (l : pairs) (k : str) (v : pyval) : Prop := exists sub, In (PStr sub k, v) l.

(** What a limit keeps, and how many it drops. *)
Definition window {A} (m : option Z) (l : list A) : list A :=
  match m with Some z => lastn (Z.to_nat z) l | None => l end.
Definition excess (m : option Z) (n : nat) : nat :=
  match m with Some z => n - Z.to_nat z | None => 0 end.

Definition not_negative (m : option Z) : Prop := forall z, m = Some z -> (0 <= z)%Z.
Definition limits_ok (l : slimits) : Prop :=
  not_negative (max_attributes l) /\ not_negative (max_events l) /\ not_negative (max_links l)
  /\ not_negative (max_span_attributes l) /\ not_negative (max_event_attributes l)
  /\ not_negative (max_link_attributes l) /\ not_negative (max_attribute_length l)
  /\ not_negative (max_span_attribute_length l).
Definition at_most (m : option Z) (n : nat) : Prop := forall z, m = Some z -> (Z.of_nat n <= z)%Z.

(** The attributes that a list of assignments leaves: the last ones, cleaned.  The dropped counter accounts for
    every key that is missing, and counts no more than was assigned (an evicted key that comes back counts again);
    with a limit of zero it counts all assignments. *)
Definition attrs_of (maxn maxlen : option Z) (l : pairs) (a : battrs) : Prop :=
  exists t, takes (nlim maxlen) l t /\ ba_dict a = window maxn (latest t)
    /\ (maxn = Some 0%Z -> ba_dropped a = length l)
    /\ (maxn <> Some 0%Z -> length (latest t) <= length (ba_dict a) + ba_dropped a <= length t).

(** ** What a call records *)
Definition at_time (ts : option Z) (now : Z) : Z := match ts with Some t => t | None => now end.
Inductive event_of (lim : slimits) : sop -> event -> Prop :=
| eo_add n l ts now e : ev_name e = n -> ev_ts e = at_time ts now ->
    attrs_of (max_event_attributes lim) (max_attribute_length lim) l (ev_attrs e) ->
    event_of lim (OAddEvent n l ts now) e
| eo_exc x l ts esc now e : ev_name e = lit "exception" -> ev_ts e = at_time ts now ->
    attrs_of (max_event_attributes lim) (max_attribute_length lim) (exc_pairs x l esc) (ev_attrs e) ->
    event_of lim (ORecordException x l ts esc now) e.

(** A link counts when its context is valid, or it has attributes or a trace state. *)
Definition link_counts (c : option span_context) (l : pairs) : Prop :=
  exists sc, c = Some sc /\ (sc_is_valid sc = true \/ l <> [] \/ sc_state sc <> []).
Definition link_like (lim : slimits) (c : option span_context) (l : pairs) (k : link) : Prop :=
  link_counts c l /\ c = Some (lk_ctx k)
  /\ attrs_of (max_link_attributes lim) (max_attribute_length lim) l (lk_attrs k).
Inductive link_of (lim : slimits) : sop -> link -> Prop :=
| lo_add c l k : link_like lim c l k -> link_of lim (OAddLink c l) k.

(** The records of a sequence of calls, in order. *)
Inductive collected {O A} (R : O -> A -> Prop) : list O -> list A -> Prop :=
| co_nil : collected R [] []
| co_yes o x os xs : R o x -> collected R os xs -> collected R (o :: os) (x :: xs)
| co_no o os xs : (forall x, ~ R o x) -> collected R os xs -> collected R (o :: os) xs.

(** The links given at creation. *)
Definition given_link (lim : slimits) (g : option (option span_context * pairs)) (k : link) : Prop :=
  exists c l, g = Some (c, l) /\ link_like lim c l k.

Definition assigned (ops : list sop) : pairs :=
  flat_map (fun o => match o with OSetAttributes l => l | _ => [] end) ops.
Definition last_name (n : str) (ops : list sop) : str :=
  last (flat_map (fun o => match o with OUpdateName m => [m] | _ => [] end) ops) n.

(** ** Status *)
Definition requested (o : sop) : list (status_code * pyval) :=
  match o with
  | OSetStatus (SAStatus c d) _ => [(c, d)]
  | OSetStatus (SACode c) d => [(c, d)]
  | _ => []
  end.
Definition is_unset (r : status_code * pyval) : bool := match fst r with UNSET => true | _ => false end.
Definition is_ok (r : status_code * pyval) : bool := match fst r with OK => true | _ => false end.
(** UNSET requests do not count; the first OK stays; otherwise the last request wins. *)
Definition final_request (rs : list (status_code * pyval)) : status_code * pyval :=
  let l := filter (fun r => negb (is_unset r)) rs in
  match find is_ok l with
  | Some r => r
  | None => last l (UNSET, PNone)
  end.
(** The values that are false in Python: None, False, zero and what is empty. *)
Definition false_value (v : pyval) : Prop :=
  match v with
  | PNone => True
  | PBool b => b = false
  | PInt _ z => z = 0%Z
  | PFloat _ f => f = 0%Z
  | PStr _ s => s = []
  | PBytes _ b => b = []
  | PSeq _ l => l = []
  | PObj _ => False
  end.
(** The description of a request: kept when it is false in Python, or a string that goes with ERROR. *)
Definition kept_description (r : status_code * pyval) : pyval :=
  match snd r with
  | PStr sub [] => PStr sub []
  | PStr sub s => match fst r with ERROR => PStr sub s | _ => PNone end
  | PBool false | PInt _ 0%Z | PFloat _ 0%Z | PBytes _ [] | PSeq _ [] => snd r
  | _ => PNone
  end.

(** The call ends the span. *)
Definition is_end (o : sop) : bool := match o with OEnd _ _ => true | _ => false end.

(** ** Schedules *)
(** The calls that got the lock before the first end(), and the end time that one gave. *)
Fixpoint until_end (acts : list act) : list sop :=
  match acts with
  | [] => []
  | ACall (OEnd _ _) :: _ => []
  | ACall o :: r => o :: until_end r
  | AOnEnd :: r => until_end r
  end.
Fixpoint first_end (acts : list act) : option Z :=
  match acts with
  | [] => None
  | ACall (OEnd t now) :: _ => Some (at_time t now)
  | _ :: r => first_end r
  end.
Definition ended_spans (l : list pcall) : list sdk_span :=
  flat_map (fun p => match p with POnEnd s => [s] | _ => [] end) l.

(** ** Limits *)
(** Where a limit can come from. *)
Inductive source := Absent | Unlimited | Limit (z : Z) | Bad.
Definition arg_source (v : option Z) : source :=
  match v with
  | None => Absent
  | Some z => if Z.eqb z (-1) then Unlimited else if Z.ltb z 0 then Bad else Limit z
  end.
Definition env_source (pylower : str -> str) (pyint : str -> option Z) (v : option str) : source :=
  match v with
  | None => Absent
  | Some s =>
      let t := pylower (strip py_space s) in
      if str_eqb t [] then Unlimited
      else match pyint t with
           | Some z => if Z.ltb z 0 then Bad else Limit z
           | None => Bad
           end
  end.
(** The first source that is there decides. *)
Fixpoint decide (l : list source) : source :=
  match l with
  | [] => Unlimited
  | Absent :: r => decide r
  | s :: _ => s
  end.
Definition limit_of (s : source) : option Z := match s with Limit z => Some z | _ => None end.

(** ** The content of a span *)
(** What a span shows that was created with these arguments, started at [t0] and received [ops]. *)
Record carries (lim : slimits) (name : str) (ctx : span_context) (parent : option span_context) (kind : Z)
    (attrs : pairs) (links : list (option (option span_context * pairs))) (t0 : Z)
    (ops : list sop) (s : sdk_span) : Prop := Carries {
  ca_name : sp_name s = last_name name ops;
  ca_ctx : sp_ctx s = ctx;
  ca_parent : sp_parent s = parent;
  ca_kind : sp_kind s = kind;
  ca_start : sp_start s = Some t0;
  ca_attrs : attrs_of (max_span_attributes lim) (max_span_attribute_length lim) (attrs ++ assigned ops) (sp_attrs s);
  ca_events : exists evs, collected (event_of lim) ops evs
    /\ bl_items (sp_events s) = window (max_events lim) evs
    /\ bl_dropped (sp_events s) = excess (max_events lim) (length evs);
  ca_links : exists given later, collected (given_link lim) links given /\ collected (link_of lim) ops later
    /\ bl_items (sp_links s) = window (max_links lim) (given ++ later)
    /\ bl_dropped (sp_links s) = excess (max_links lim) (length (given ++ later));
  ca_status : sp_status s = St (fst (final_request (flat_map requested ops)))
                               (kept_description (final_request (flat_map requested ops)))
}.

(** The precedence: argument, variable, global limit, default.  [env] gives the source of a variable. *)
Section Precedence.
Variable env : str -> source.
Definition sources (v : option Z) (var : string) : list source := [arg_source v; env (lit var)].
(** As the code has it: a global limit that is switched off counts as absent. *)
Definition global_source (a : slimits) : source :=
  match decide (sources (max_attributes a) "OTEL_ATTRIBUTE_COUNT_LIMIT") with Limit z => Limit z | _ => Absent end.
Definition limits_from (a : slimits) : slimits :=
  let pick l := limit_of (decide l) in
  SLimits
    (pick [global_source a; Limit 128])
    (pick (sources (max_events a) "OTEL_SPAN_EVENT_COUNT_LIMIT" ++ [Limit 128]))
    (pick (sources (max_links a) "OTEL_SPAN_LINK_COUNT_LIMIT" ++ [Limit 128]))
    (pick (sources (max_span_attributes a) "OTEL_SPAN_ATTRIBUTE_COUNT_LIMIT" ++ [global_source a; Limit 128]))
    (pick (sources (max_event_attributes a) "OTEL_EVENT_ATTRIBUTE_COUNT_LIMIT" ++ [global_source a; Limit 128]))
    (pick (sources (max_link_attributes a) "OTEL_LINK_ATTRIBUTE_COUNT_LIMIT" ++ [global_source a; Limit 128]))
    (pick (sources (max_attribute_length a) "OTEL_ATTRIBUTE_VALUE_LENGTH_LIMIT"))
    (pick (sources (max_span_attribute_length a) "OTEL_SPAN_ATTRIBUTE_VALUE_LENGTH_LIMIT"
           ++ sources (max_attribute_length a) "OTEL_ATTRIBUTE_VALUE_LENGTH_LIMIT")).
(** Some limit is set by a bad argument, or by a bad variable that no argument overrides. *)
Definition some_bad (a : slimits) : Prop :=
  In Bad [decide (sources (max_attributes a) "OTEL_ATTRIBUTE_COUNT_LIMIT");
          decide (sources (max_events a) "OTEL_SPAN_EVENT_COUNT_LIMIT");
          decide (sources (max_links a) "OTEL_SPAN_LINK_COUNT_LIMIT");
          decide (sources (max_span_attributes a) "OTEL_SPAN_ATTRIBUTE_COUNT_LIMIT");
          decide (sources (max_event_attributes a) "OTEL_EVENT_ATTRIBUTE_COUNT_LIMIT");
          decide (sources (max_link_attributes a) "OTEL_LINK_ATTRIBUTE_COUNT_LIMIT");
          decide (sources (max_attribute_length a) "OTEL_ATTRIBUTE_VALUE_LENGTH_LIMIT");
          decide (sources (max_span_attribute_length a) "OTEL_SPAN_ATTRIBUTE_VALUE_LENGTH_LIMIT")].
End Precedence.
