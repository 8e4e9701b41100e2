(** Specifications for the OpenTracing shim: what the reader of a history of calls can tell without knowing the shim. *)
From Verif Require Export Spec_Sampling Spec_Runtime Spec_Span Model_Shim.
Local Open Scope nat_scope.

(** What a unit is inside of: scopes, and OpenTelemetry spans that OpenTelemetry has made current.  [own]: it was entered
    in this unit and not in one that this unit is a copy of. *)
Inductive frame := FScope (j n : nat) (own : bool) | FSpan (m n : nat) (own : bool).   (* [n]: the OpenTelemetry span *)
Definition frame_span (f : frame) : nat := match f with FScope _ n _ | FSpan _ n _ => n end.
Definition copied (f : frame) : frame :=
  match f with FScope j n _ => FScope j n false | FSpan m n _ => FSpan m n false end.
Definition is_scope (j : nat) (f : frame) : bool := match f with FScope i _ true => Nat.eqb i j | _ => false end.
Definition is_attached (m : nat) (f : frame) : bool := match f with FSpan i _ true => Nat.eqb i m | _ => false end.

(** The reader's notes. *)
Record entry := Entry { en_unit : nat; en_span : nat; en_finish : bool; en_closed : bool }.
Record notes := Notes {
  n_spans : nat;                              (* OpenTelemetry spans started *)
  n_shims : list nat;                         (* the OpenTelemetry span of every OpenTracing span *)
  n_scopes : list entry;
  n_attached : list (nat * nat);              (* unit and span of every attach of OpenTelemetry *)
  n_inside : nat -> option (list frame);      (* what each unit is inside of, innermost first; None: calls were not nested *)
  n_used : list nat                           (* units that have entered something or are copies *) }.
Definition set_fun {A} (u : nat) (x : A) (f : nat -> A) : nat -> A := fun v => if Nat.eqb v u then x else f v.
Definition enter (u : nat) (f : frame) (i : nat -> option (list frame)) : nat -> option (list frame) :=
  set_fun u (option_map (cons f) (i u)) i.
(** The frame that [is] picks is left in [u]: it should be the innermost; if it is not among the unit's own, nothing
    happens.  [again]: it has been left elsewhere. *)
Definition leave_frame (is : frame -> bool) (again : bool) (l : list frame) : option (list frame) :=
  if existsb is l then
    match l with
    | f :: r => if is f && negb again then Some r else None
    | [] => None
    end
  else Some l.
Definition leave (u : nat) (is : frame -> bool) (again : bool) (i : nat -> option (list frame)) : nat -> option (list frame) :=
  set_fun u (match i u with Some l => leave_frame is again l | None => None end) i.

Definition known_child (a : start_args) (b : notes) : bool :=
  match sa_child a with Some (inl k) => Nat.ltb k (length (n_shims b)) | _ => true end.
Definition note_start (b : notes) : notes :=
  Notes (S (n_spans b)) (n_shims b ++ [n_spans b]) (n_scopes b) (n_attached b) (n_inside b) (n_used b).
(** Span [n] is activated: a new OpenTracing span object for it, and a new scope. *)
Definition note_activate (u n : nat) (finish : bool) (b : notes) : notes :=
  Notes (n_spans b) (n_shims b ++ [n]) (n_scopes b ++ [Entry u n finish false]) (n_attached b)
        (enter u (FScope (length (n_scopes b)) n true) (n_inside b)) (u :: n_used b).
Definition note (b : notes) (o : shop) : notes :=
  match o with
  | HStart u a _ => if known_child a b then note_start b else b
  | HStartActive u a finish _ => if known_child a b then note_activate u (n_spans b) finish (note_start b) else b
  | HActivate u k finish =>
      match nth_error (n_shims b) k with Some n => note_activate u n finish b | None => b end
  | HClose u j _ _ _ =>
      match nth_error (n_scopes b) j with
      | None => b
      | Some e =>
          Notes (n_spans b) (n_shims b)
                (upd_nth j (fun e => Entry (en_unit e) (en_span e) (en_finish e) true) (n_scopes b)) (n_attached b)
                (leave u (is_scope j) (en_closed e) (n_inside b)) (n_used b)
      end
  | HCall _ _ _ | HBaggage _ _ _ | HOtelCall _ _ => b
  | HOtelStart _ _ _ => Notes (S (n_spans b)) (n_shims b) (n_scopes b) (n_attached b) (n_inside b) (n_used b)
  | HOtelAttach u n =>
      if Nat.ltb n (n_spans b)
      then Notes (n_spans b) (n_shims b) (n_scopes b) (n_attached b ++ [(u, n)])
                 (enter u (FSpan (length (n_attached b)) n true) (n_inside b)) (u :: n_used b)
      else b
  | HOtelDetach u m =>
      if Nat.ltb m (length (n_attached b))
      then Notes (n_spans b) (n_shims b) (n_scopes b) (n_attached b) (leave u (is_attached m) false (n_inside b)) (n_used b)
      else b
  | HFork u v =>
      (* a new task starts with its own copy; a number that is in use cannot be given to a new task *)
      Notes (n_spans b) (n_shims b) (n_scopes b) (n_attached b)
            (set_fun v (if in_dec Nat.eq_dec v (n_used b) then None else option_map (map copied) (n_inside b u)) (n_inside b))
            (v :: n_used b)
  end.
Definition notes0 : notes := Notes 0 [] [] [] (fun _ => Some []) [].
Definition notes_of (h : list shop) : notes := fold_left note h notes0.
Definition inside (u : nat) (h : list shop) : option (list frame) := n_inside (notes_of h) u.

(** The innermost scope, with its OpenTelemetry span. *)
Definition innermost_scope (l : list frame) : option (nat * nat) :=
  hd_error (flat_map (fun f => match f with FScope j n _ => [(j, n)] | FSpan _ _ _ => [] end) l).
(** The span that is current for OpenTelemetry. *)
Definition innermost_span (l : list frame) : option nat := hd_error (map frame_span l).

(** What a method of an OpenTracing span asks the OpenTelemetry span to do. *)
Section Calls.
Variable describe : exc -> exc_info.
Variable to_ns : Z -> Z.
Inductive asks : shim_call -> Z -> sop -> Prop :=
| ask_name n t : asks (MSetOperationName n) t (OUpdateName n)
| ask_finish t : asks (MFinish None) t (OEnd None t)
| ask_finish_at f t : asks (MFinish (Some f)) t (OEnd (Some (to_ns f)) t)
| ask_tag k v t : asks (MSetTag k v) t (OSetAttributes [(k, v)])
| ask_log_none f t : asks (MLogKv None f) t (OAddEvent (lit "log") [] (option_map to_ns f) t)
| ask_log d f t : dget (lit "event") d = None ->
    asks (MLogKv (Some d) f) t
         (OAddEvent (lit "log") (map (fun kv => (PStr false (fst kv), snd kv)) d) (option_map to_ns f) t)
| ask_log_event d sub name f t : dget (lit "event") d = Some (PStr sub name) ->
    asks (MLogKv (Some d) f) t
         (OAddEvent name (map (fun kv => (PStr false (fst kv), snd kv)) d) (option_map to_ns f) t).
(** What the first close of a scope does to its span: an error that leaves the with block is recorded and makes the
    status ERROR; the span ends if that was asked for. *)
Definition closing (finish : bool) (out : outcome) (t1 t2 : Z) : list sop :=
  match out with
  | Raised e =>
      if ex_error e
      then [ORecordException (describe e) [] None false t1;
            OSetStatus (SAStatus ERROR (PStr false (ex_type e ++ lit ": " ++ ex_msg e))) PNone]
      else []
  | Returned => []
  end ++ (if finish then [OEnd None t2] else []).
(** [calls n b h l]: [l] are the calls on OpenTelemetry span [n] in [h], after what is noted in [b]. *)
Inductive calls (n : nat) : notes -> list shop -> list sop -> Prop :=
| calls_nil b : calls n b [] []
| calls_shim b k c t o h l : nth_error (n_shims b) k = Some n -> asks c t o ->
    calls n b h l -> calls n b (HCall k c t :: h) (o :: l)
| calls_otel b o h l : calls n b h l -> calls n b (HOtelCall n o :: h) (o :: l)
| calls_close b u j out t1 t2 e h l : nth_error (n_scopes b) j = Some e -> en_span e = n -> en_closed e = false ->
    calls n (note b (HClose u j out t1 t2)) h l ->
    calls n b (HClose u j out t1 t2 :: h) (closing (en_finish e) out t1 t2 ++ l)
| calls_other b o h l :
    match o with
    | HCall k c t => nth_error (n_shims b) k <> Some n \/ forall x, ~ asks c t x
    | HOtelCall m _ => m <> n
    | HClose _ j _ _ _ => forall e, nth_error (n_scopes b) j = Some e -> en_span e <> n \/ en_closed e = true
    | _ => True
    end ->
    calls n (note b o) h l -> calls n b (o :: h) l.
End Calls.

(** The references that are used: all but the constant INVALID_SPAN_CONTEXT. *)
Definition referred (a : start_args) : list span_context :=
  flat_map (fun r => match r with Some sc => [sc] | None => [] end) (sa_refs a).
(** The parent of a new span: the explicit one; else the current one, [cur], unless it is to be ignored; else the first
    reference; else none. *)
Definition parent_of (spans : list started) (b : notes) (a : start_args) (cur : option nat) : span_context :=
  let context n := match nth_error spans n with Some s => started_context s | None => INVALID_SPAN_CONTEXT end in
  match sa_child a with
  | Some (inl k) => match nth_error (n_shims b) k with Some n => context n | None => INVALID_SPAN_CONTEXT end
  | Some (inr sc) => sc
  | None =>
      match (if sa_ignore a then None else cur), referred a with
      | Some n, _ => context n
      | None, sc :: _ => sc
      | None, [] => INVALID_SPAN_CONTEXT
      end
  end.

(** What a span shows that was started with arguments [a] at time [now] under parent [p], after the calls [l]. *)
Definition shows (tr : tracer) (to_ns : Z -> Z) (a : start_args) (now : Z) (p : span_context) (l : list sop) (s : started) : Prop :=
  let c := started_context s in
  let links : link_args := map (fun sc => Some (Some sc, [])) (referred a) in
  sc_is_valid c = true
  /\ (sc_is_valid p = true -> sc_trace_id c = sc_trace_id p)
  /\ exists cur ctx, current_span_context ctx = p
     /\ let r := t_sampler tr cur (Some ctx) (sc_trace_id c) (sa_name a) 0%Z (sa_tags a) links in
        sc_flags c = (match sr_decision r with RECORD_AND_SAMPLE => 1 | _ => 0 end)%Z
        /\ match s with
           | NonRecording _ => sr_decision r = DROP
           | Recording w => sr_decision r <> DROP
               /\ carries (t_limits tr) (sa_name a) c (if sc_is_valid p then Some p else None) 0%Z (sr_attrs r) links
                    (match sa_start a with Some f => to_ns f | None => now end) (until_end (map ACall l)) (w_span w)
               /\ sp_end (w_span w) = first_end (map ACall l)
               /\ ended_spans (w_log w) = match first_end (map ACall l) with Some _ => [w_span w] | None => [] end
           end.

(** The baggage item [name] of OpenTracing span object [k]: what was last set on that very object, None before that. *)
Definition item_of (k : nat) (name : str) (h : list shop) : obj :=
  snd (fold_left (fun bx o =>
         (note (fst bx) o,
          match o with
          | HBaggage k' name' v =>
              if Nat.eqb k' k && str_eqb name' name && Nat.ltb k (length (n_shims (fst bx))) then v else snd bx
          | _ => snd bx
          end)) h (notes0, ONone)).
