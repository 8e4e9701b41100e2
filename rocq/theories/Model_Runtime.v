(** Context objects with identity, the runtime context (attach/detach), use_span and Once.

    Sources: opentelemetry-api/src/opentelemetry/context/__init__.py, context/context.py,
    context/contextvars_context.py, baggage/__init__.py, trace/__init__.py, util/_once.py. *)
From Verif Require Export Model_Context.

(** ** Context objects on a heap *)

(** A dict object holds immutable values or references to other dict objects. *)
Inductive hval := HImm (o : obj) | HRef (l : nat).
Definition cell := dict str hval.
(** The heap; a location is an index. *)
Definition heap := list cell.

Definition h_get (h : heap) (l : nat) : cell := nth l h [].
(** Allocation of a new dict object. *)
Definition h_alloc (c : cell) (h : heap) : heap * nat := (h ++ [c], length h).
(** In-place mutation of the object at [l]. *)
Fixpoint h_upd (l : nat) (f : cell -> cell) (h : heap) : heap :=
  match h, l with
  | [], _ => []
  | c :: h', O => f c :: h'
  | c :: h', S l' => c :: h_upd l' f h'
  end.
(** [d.copy()] *)
Definition h_copy (l : nat) (h : heap) : heap * nat := h_alloc (h_get h l) h.

(** context/__init__.py 95-118 [set_value]: copy, assign in the copy, [Context(new_values)] (which
    copies again). *)
Definition hs_set_value (k : str) (v : hval) (ctx : nat) (h : heap) : heap * nat :=
  let (h1, n) := h_copy ctx h in
  let h2 := h_upd n (dset k v) h1 in
  h_copy n h2.

(** baggage/__init__.py 113-117 [_get_baggage_value]: the dict object itself, or a new empty one. *)
Definition hs_baggage (ctx : nat) (h : heap) : heap * nat :=
  match dget BAGGAGE_KEY (h_get h ctx) with
  | Some (HRef b) => (h, b)
  | Some (HImm (ODict d)) => h_alloc (map (fun kv => (fst kv, HImm (snd kv))) d) h
  | _ => h_alloc [] h
  end.
(** baggage/__init__.py 67-82 *)
Definition hs_set_baggage (name : str) (v : obj) (ctx : nat) (h : heap) : heap * nat :=
  let (h1, b) := hs_baggage ctx h in
  let (h2, c) := h_copy b h1 in
  let h3 := h_upd c (dset name (HImm v)) h2 in
  hs_set_value BAGGAGE_KEY (HRef c) ctx h3.
(** baggage/__init__.py 85-98 *)
Definition hs_remove_baggage (name : str) (ctx : nat) (h : heap) : heap * nat :=
  let (h1, b) := hs_baggage ctx h in
  let (h2, c) := h_copy b h1 in
  let h3 := h_upd c (ddel name) h2 in
  hs_set_value BAGGAGE_KEY (HRef c) ctx h3.
(** baggage/__init__.py 101-110 *)
Definition hs_clear (ctx : nat) (h : heap) : heap * nat :=
  let (h1, c) := h_alloc [] h in
  hs_set_value BAGGAGE_KEY (HRef c) ctx h1.

(** One API call on the context at a location. *)
Inductive cop :=
| CSet (k : str) (v : obj)
| CSetBag (name : str) (v : obj)
| CRemBag (name : str)
| CClear.
Definition hs_apply (o : cop) (ctx : nat) (h : heap) : heap * nat :=
  match o with
  | CSet k v => hs_set_value k (HImm v) ctx h
  | CSetBag n v => hs_set_baggage n v ctx h
  | CRemBag n => hs_remove_baggage n ctx h
  | CClear => hs_clear ctx h
  end.
(** A program: each call names the context object it is applied to, a call on an object that
    does not exist yet is skipped. *)
Definition hs_step (h : heap) (call : nat * cop) : heap :=
  if Nat.ltb (fst call) (length h) then fst (hs_apply (snd call) (fst call) h) else h.
(** contextvars_context.py 29-32: initially there is the empty default context. *)
Definition hs_init : heap := [[]].

(** Reading through the references: what [get_value] and the baggage functions see. *)
Definition imm_of (v : hval) : obj := match v with HImm o => o | HRef _ => ONone end.
Definition read_val (h : heap) (v : hval) : obj :=
  match v with
  | HImm o => o
  | HRef b => ODict (map (fun kv => (fst kv, imm_of (snd kv))) (h_get h b))
  end.
Definition read_context (h : heap) (l : nat) : context :=
  map (fun kv => (fst kv, read_val h (snd kv))) (h_get h l).

(** ** The runtime context *)

(** contextvars_context.py 24-53.  Each execution unit (thread or task) has its own value of the
    context variable; a token remembers the unit that made it, the old value and whether it was
    used ([contextvars.Token]). *)
Record token_t := Tok { tk_unit : nat; tk_old : context; tk_used : bool }.
Record runtime := RT { rt_cur : nat -> context; rt_toks : list token_t }.
Definition rt_init : runtime := RT (fun _ => []) [].

Definition set_cur (u : nat) (c : context) (f : nat -> context) : nat -> context :=
  fun v => if Nat.eqb v u then c else f v.
Definition get_current (u : nat) (s : runtime) : context := rt_cur s u.

(** contextvars_context.py 34-41 [attach] in unit [u]; the new token's number is returned. *)
Definition attach (u : nat) (c : context) (s : runtime) : runtime * nat :=
  (RT (set_cur u c (rt_cur s)) (rt_toks s ++ [Tok u (rt_cur s u) false]), length (rt_toks s)).

Fixpoint mark_used (t : nat) (l : list token_t) : list token_t :=
  match l, t with
  | [], _ => []
  | k :: l', O => Tok (tk_unit k) (tk_old k) true :: l'
  | k :: l', S t' => k :: mark_used t' l'
  end.

(** [ContextVar.reset]: raises (None) for a used token (RuntimeError) and for one made in another
    unit (ValueError). *)
Definition var_reset (u t : nat) (s : runtime) : option runtime :=
  match nth_error (rt_toks s) t with
  | None => None
  | Some k =>
      if tk_used k then None
      else if Nat.eqb (tk_unit k) u
           then Some (RT (set_cur u (tk_old k) (rt_cur s)) (mark_used t (rt_toks s)))
           else None
  end.
(** context/__init__.py 144-155 [detach]: exceptions are logged only. *)
Definition detach (u t : nat) (s : runtime) : runtime :=
  match var_reset u t s with Some s' => s' | None => s end.

(** Everything units can do to the runtime context. *)
Inductive rop :=
| RAttach (u : nat) (c : context)
| RDetach (u t : nat)
| RFork (u v : nat).          (* v is a new task that starts with a copy of u's value *)
Definition rop_unit (o : rop) : nat :=
  match o with RAttach u _ => u | RDetach u _ => u | RFork _ v => v end.
Definition rt_step (s : runtime) (o : rop) : runtime :=
  match o with
  | RAttach u c => fst (attach u c s)
  | RDetach u t => detach u t s
  | RFork u v => RT (set_cur v (rt_cur s u) (rt_cur s)) (rt_toks s)
  end.

(** ** use_span *)

(** An exception object; [ex_error] tells whether its class inherits [Exception]. *)
Record exc := Exc { ex_error : bool; ex_type : str; ex_msg : str; ex_id : N }.
Inductive outcome := Returned | Raised (e : exc).

Section UseSpan.
(** Any implementation of the span: its state and methods. *)
Variable span : Type.
Variable is_recording : span -> bool.
Variable record_exception : exc -> span -> span.
Variable set_error_status : str -> span -> span.       (* set_status(Status(ERROR, description)) *)
Variable end_span : span -> span.
(** The block run inside: it may do anything with the runtime context and the span. *)
Variable body : runtime -> span -> runtime * span * outcome.

(** trace/__init__.py 563-617 [use_span] in execution unit [u]; [me] is the span object as it is
    stored in the context. *)
Definition use_span (u : nat) (me : obj) (end_on_exit rec_exc set_status : bool)
    (s : runtime) (sp : span) : runtime * span * outcome :=
  let (s1, tok) := attach u (set_value SPAN_KEY me (get_current u s)) s in
  let '(s2, sp2, out) := body s1 sp in
  let s3 := detach u tok s2 in
  let sp3 :=
    match out with
    | Returned => sp2
    | Raised e =>
        if ex_error e && is_recording sp2 then
          let a := if rec_exc then record_exception e sp2 else sp2 in
          if set_status then set_error_status (ex_type e ++ lit ": " ++ ex_msg e) a else a
        else sp2
    end in
  (s3, if end_on_exit then end_span sp3 else sp3, out).
End UseSpan.

(** ** Once *)

(** util/_once.py 31-48 [do_once], one program counter per call.  Shared: the lock, [_done] and
    the variable that the function writes (the global provider, say). *)
Inductive opc :=
| OFast            (* about to read _done without the lock *)
| OWait            (* waiting for the lock *)
| OCheck           (* lock held, about to read _done *)
| ORun             (* lock held, inside func() *)
| ODone            (* lock held, func() returned, about to set _done *)
| ORelease (r : option bool)   (* lock held, about to release and return r (None: exception) *)
| ORet (r : bool)  (* returned *)
| ORaised.         (* the exception of func() propagated *)
Inductive oev := EFunc | ERet (r : bool) | EExc.
Record once := Once {
  o_done : bool; o_lock : option nat; o_var : option nat;
  o_pc : nat -> opc;
  o_hist : list (nat * oev)       (* newest first *)
}.
Definition once_init : once := Once false None None (fun _ => OFast) [].
Definition set_pc (t : nat) (p : opc) (f : nat -> opc) : nat -> opc :=
  fun t' => if Nat.eqb t' t then p else f t'.

(** One step of call [t]; [fails]: whether func() raises, if it is running.  [None]: blocked or finished. *)
Definition once_step (t : nat) (fails : bool) (s : once) : option once :=
  let goto p := set_pc t p (o_pc s) in
  match o_pc s t with
  | OFast =>
      if o_done s
      then Some (Once (o_done s) (o_lock s) (o_var s) (goto (ORet false)) ((t, ERet false) :: o_hist s))
      else Some (Once (o_done s) (o_lock s) (o_var s) (goto OWait) (o_hist s))
  | OWait =>
      match o_lock s with
      | Some _ => None
      | None => Some (Once (o_done s) (Some t) (o_var s) (goto OCheck) (o_hist s))
      end
  | OCheck =>
      if o_done s
      then Some (Once (o_done s) (o_lock s) (o_var s) (goto (ORelease (Some false))) (o_hist s))
      else Some (Once (o_done s) (o_lock s) (o_var s) (goto ORun) (o_hist s))
  | ORun =>
      if fails
      then Some (Once (o_done s) (o_lock s) (o_var s) (goto (ORelease None)) (o_hist s))
      else Some (Once (o_done s) (o_lock s) (Some t) (goto ODone) ((t, EFunc) :: o_hist s))
  | ODone => Some (Once true (o_lock s) (o_var s) (goto (ORelease (Some true))) (o_hist s))
  | ORelease (Some r) =>
      Some (Once (o_done s) None (o_var s) (goto (ORet r)) ((t, ERet r) :: o_hist s))
  | ORelease None =>
      Some (Once (o_done s) None (o_var s) (goto ORaised) ((t, EExc) :: o_hist s))
  | ORet _ | ORaised => None
  end.

Inductive once_reach : once -> Prop :=
| or_init : once_reach once_init
| or_step s t fails s' : once_reach s -> once_step t fails s = Some s' -> once_reach s'.
