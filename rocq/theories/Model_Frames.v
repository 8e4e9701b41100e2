(** With blocks of spans in coroutines and generators: frames that are suspended and resumed while their blocks are open.

    Sources: opentelemetry-api/src/opentelemetry/trace/__init__.py 563-617 [use_span]; sdk/trace/__init__.py 1077-1105
    [Tracer.start_as_current_span]; opentelemetry-api/src/opentelemetry/util/_decorator.py 34-86 [_AgnosticContextManager] ("decorator"),
    and the [ContextDecorator] of Python's contextlib, which it calls.  The runtime context is that of Model_Runtime: units are
    threads and tasks; a generator and a coroutine that is awaited run in the unit that resumes them. *)
From Verif Require Export Model_Runtime.
Local Open Scope nat_scope.

Inductive gev :=
| GEnter (u f : nat)     (* frame f, which runs in task u, enters a block "with tracer.start_as_current_span(...)" *)
| GLeave (u f : nat)     (* frame f leaves its innermost open block, whether by an exception or not *)
| GTask (u v : nat).     (* asyncio.create_task in u: v starts with a copy of the context *)

(** An open block: its span and the token of its attach; [bk_task] and [bk_before] only observe where it was entered. *)
Record blk := Blk { bk_span : nat; bk_token : nat; bk_task : nat; bk_before : context }.
Record gworld := GW {
  gw_rt : runtime;
  gw_frames : nat -> list blk;                    (* the open blocks of each frame, innermost first *)
  gw_parents : list (option span_context);        (* the parents of the spans, in the order in which they were started *)
  gw_ended : list nat                             (* the spans that were ended, in this order *)
}.
Definition gw_init : gworld := GW rt_init (fun _ => []) [] [].
Definition set_frame (f : nat) (l : list blk) (g : nat -> list blk) : nat -> list blk := fun x => if Nat.eqb x f then l else g x.

Section Frames.
(** The context of the n-th span *)
Variable sc : nat -> span_context.
Definition gspan (n : nat) : obj := OSpan (sc n) true None.

Definition gstep (w : gworld) (e : gev) : gworld :=
  match e with
  | GEnter u f =>
      let n := length (gw_parents w) in
      let c := get_current u (gw_rt w) in
      (* sdk/trace 1122-1141: the current span is the parent if its context is valid *)
      let p := current_span_context c in
      let (rt, t) := attach u (set_value SPAN_KEY (gspan n) c) (gw_rt w) in
      GW rt (set_frame f (Blk n t u c :: gw_frames w f) (gw_frames w)) (gw_parents w ++ [if sc_is_valid p then Some p else None]) (gw_ended w)
  | GLeave u f =>
      match gw_frames w f with
      | [] => w
      | b :: r => GW (detach u (bk_token b) (gw_rt w)) (set_frame f r (gw_frames w)) (gw_parents w) (gw_ended w ++ [bk_span b])
      end
  | GTask u v => GW (rt_step (gw_rt w) (RFork u v)) (gw_frames w) (gw_parents w) (gw_ended w)
  end.
Definition grun (l : list gev) (w : gworld) : gworld := fold_left gstep l w.
(** [get_current_span().get_span_context()] in task u *)
Definition gcurrent (u : nat) (w : gworld) : span_context := current_span_context (get_current u (gw_rt w)).
End Frames.

(** ** The decorator *)

(** What is decorated: a function, a coroutine function ("async def"), a generator function, an asynchronous generator function, and a
    function that is none of them but returns something that is awaited *)
Inductive fkind := KFunction | KCoroutine | KGenerator | KAsyncGenerator | KAwaitable.
(** decorator 66-76 [__call__]: what is done before and after the body, whose frame is f.  The generators and what [KAwaitable] returns run
    when they are iterated or awaited, which is after the decorated call has returned. *)
Definition wrap (k : fkind) (u f : nat) : list gev * list gev :=
  match k with
  | KCoroutine => ([GEnter u f], [GLeave u f])        (* with self._recreate_cm(): return await func(...) *)
  | KFunction => ([GEnter u f], [GLeave u f])         (* contextlib: with self._recreate_cm(): return func(...) *)
  | KGenerator | KAsyncGenerator | KAwaitable => ([GEnter u f; GLeave u f], [])
  end.
