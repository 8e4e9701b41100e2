(** A span that several threads use: the span's lock, what is done inside it, and what is logged inside it.

    Sources: opentelemetry-sdk/src/opentelemetry/sdk/trace/__init__.py ("trace"),
    opentelemetry-api/src/opentelemetry/attributes/__init__.py ("attributes").  A step is: taking or giving back the
    lock; storing one attribute is three steps (cleaning, making room, storing); another method's body; reading one field; the call
    of a logging handler or of the processor.  [threading.Lock] is not reentrant. *)
From Verif Require Export Model_Span.
Local Open Scope nat_scope.

(** What threads do with the span: a method, or reading [span.attributes\[k\]] (attributes 165-166: no lock) *)
Inductive scall := CCall (o : sop) | CGet (k : str).

(** Where a thread is, innermost first. *)
Inductive frame :=
| FCalls (l : list scall)                       (* calls to be made one after the other *)
| FEnter (o : sop)                              (* at [with self._lock] *)
| FItems (l : pairs)                            (* trace 853-854, inside the lock: items to be stored *)
| FClean (kv : pyval * pyval) (l : pairs)       (* attributes 175: the warnings of cleaning have been logged *)
| FStore (k : str) (v : pyval) (l : pairs)      (* attributes 186: the old value has been deleted or room been made *)
| FLeave                                        (* the end of the block [with self._lock] *)
| FView (name : option str) (st : option status). (* trace 948, 906-921: outside the lock; what has been read so far *)

Inductive tevent :=
| TDo (t : nat) (o : sop)                       (* a method of thread t got the lock (or returned without it) *)
| TOnEnd (t : nat) (s : sdk_span)               (* on_end is called *)
| TGet (t : nat) (k : str) (v : option pyval).  (* None: KeyError *)

Record machine := Machine { m_span : sdk_span; m_lock : option nat; m_threads : list (list frame); m_log : list tevent }.

Section SpanThreads.
(** How many records [_clean_attribute] logs for an item, and how many a method logs before it takes the lock (for the
    attributes of an event or a link) *)
Variable warns : pyval * pyval -> nat.
Variable warned : sop -> nat.
(** The calls on the span that the handlers of the logging module make for a record, and that the processor's on_end makes. *)
Variable handler : list scall.
Variable processor : list scall.

(** trace 863-904: an event or a link whose BoundedAttributes raise, or a link that is not valid, is not added. *)
Definition takes_lock (lim : slimits) (o : sop) : bool :=
  match o with
  | OAddEvent n l ts now => match make_event lim n l (or_now ts now) with Ok _ => true | Raises _ => false end
  | ORecordException e l ts esc now =>
      match make_event lim (lit "exception") (exc_pairs e l esc) (or_now ts now) with Ok _ => true | Raises _ => false end
  | OAddLink (Some sc) l =>
      is_valid_link (Some sc) l && match make_link lim sc l with Ok _ => true | Raises _ => false end
  | OAddLink None _ => false
  | _ => true
  end.

(** What runs after the lock was taken: the frames inside and after the block.
    848-851 [set_attributes], 928-931 [start], 942-944 [end] log while they hold the lock; 357-358 [_check_span_ended] after. *)
Definition enter (o : sop) (s : sdk_span) : sdk_span * list frame :=
  match o with
  | OSetAttributes l => if is_ended s then (s, [FCalls handler; FLeave]) else (s, [FItems l])
  | OStart t now => (start_locked t now s, match sp_start s with Some _ => [FCalls handler; FLeave] | None => [FLeave] end)
  | OEnd t now =>
      (end_locked t now s,
       match sp_start s with
       | None => [FLeave]
       | Some _ => if is_ended s then [FCalls handler; FLeave] else [FLeave; FView None None]
       end)
  | _ => (span_call s o, if is_ended s then [FLeave; FCalls handler] else [FLeave])
  end.

Definition dict_step (f : battrs -> battrs) (s : sdk_span) : sdk_span := with_attrs (f (sp_attrs s)) s.
Definition put_dict (d : dict str pyval) (n : nat) (a : battrs) : battrs := BA (ba_maxlen a) (ba_max_value_len a) (ba_immutable a) d n.
(** attributes 177-184: the old value is deleted, or the oldest entry if there is no room *)
Definition make_room (k : str) (a : battrs) : battrs :=
  if dmem k (ba_dict a) then put_dict (ddel k (ba_dict a)) (ba_dropped a) a
  else match ba_maxlen a with
       | Some m => if Nat.eqb (length (ba_dict a)) m then put_dict (tl (ba_dict a)) (S (ba_dropped a)) a else a
       | None => a
       end.
(** attributes 186; the key is not in the dict. *)
Definition store_attr (k : str) (v : pyval) (a : battrs) : battrs := put_dict (ba_dict a ++ [(k, v)]) (ba_dropped a) a.

Fixpoint put_nth {A} (n : nat) (x : A) (l : list A) : list A :=
  match n, l with
  | _, [] => []
  | O, _ :: l' => x :: l'
  | S n', y :: l' => y :: put_nth n' x l'
  end.
Definition moved (m : machine) (t : nat) (s : sdk_span) (lock : option nat) (st : list frame) (log : list tevent) : option machine :=
  Some (Machine s lock (put_nth t st (m_threads m)) (m_log m ++ log)).
(** One step of thread t; None: it is finished or waits for the lock. *)
Definition tstep (t : nat) (m : machine) : option machine :=
  let s := m_span m in
  match nth_error (m_threads m) t with
  | None | Some [] => None
  | Some (f :: st) =>
      match f with
      | FCalls [] => moved m t s (m_lock m) st []
      | FCalls (CGet k :: l) => moved m t s (m_lock m) (FCalls l :: st) [TGet t k (dget k (ba_dict (sp_attrs s)))]
      | FCalls (CCall o :: l) =>
          let w := repeat (FCalls handler) (warned o) in
          if takes_lock (sp_limits s) o then moved m t s (m_lock m) (w ++ FEnter o :: FCalls l :: st) []
          else moved m t s (m_lock m) (w ++ FCalls l :: st) [TDo t o]
      | FEnter o =>
          match m_lock m with
          | Some _ => None
          | None => let (s', fs) := enter o s in moved m t s' (Some t) (fs ++ st) [TDo t o]
          end
      | FItems [] => moved m t s (m_lock m) (FLeave :: st) []
      | FItems (kv :: l) =>
          if ba_immutable (sp_attrs s) then moved m t s (m_lock m) (FItems l :: st) []   (* not for the attributes of a span *)
          else match ba_maxlen (sp_attrs s) with
               | Some O => moved m t (dict_step (fun a => put_dict (ba_dict a) (S (ba_dropped a)) a) s) (m_lock m) (FItems l :: st) []
               | _ => moved m t s (m_lock m) (repeat (FCalls handler) (warns kv) ++ FClean kv l :: st) []
               end
      | FClean kv l =>
          match valid_key (fst kv), clean_attribute (fst kv) (snd kv) (ba_max_value_len (sp_attrs s)) with
          | Some k, Some v => moved m t (dict_step (make_room k) s) (m_lock m) (FStore k v l :: st) []
          | _, _ => moved m t s (m_lock m) (FItems l :: st) []
          end
      | FStore k v l => moved m t (dict_step (store_attr k v) s) (m_lock m) (FItems l :: st) []
      | FLeave => moved m t s None st []
      | FView None _ => moved m t s (m_lock m) (FView (Some (sp_name s)) None :: st) []
      | FView (Some n) None => moved m t s (m_lock m) (FView (Some n) (Some (sp_status s)) :: st) []
      | FView (Some n) (Some x) => moved m t s (m_lock m) (FCalls processor :: st) [TOnEnd t (with_name n (with_status x s))]
      end
  end.
(** A schedule: which thread is to make a step *)
Definition tmove (m : machine) (t : nat) : machine := match tstep t m with Some m' => m' | None => m end.
(** The tracer has started the span (1178) and called on_start; then the threads get it. *)
Definition threads_init (s : sdk_span) (programs : list (list scall)) : machine :=
  Machine s None (map (fun p => [FCalls p]) programs) [].
End SpanThreads.

(** os.fork() in thread t, in what it does with the span or a handler or processor does for it: the child has this thread only, and the span
    and its lock as they are ([threading.Lock] is not renewed; trace 760: nothing is registered for forks).  The observations begin anew. *)
Fixpoint only_thread {A} (t : nat) (l : list (list A)) : list (list A) :=
  match l with
  | [] => []
  | st :: l' => match t with O => st :: map (fun _ => []) l' | S t' => [] :: only_thread t' l' end
  end.
Definition may_fork (t : nat) (m : machine) : bool :=
  match nth_error (m_threads m) t with Some (FCalls _ :: _) => true | _ => false end.
Definition span_fork (t : nat) (m : machine) : machine := Machine (m_span m) (m_lock m) (only_thread t (m_threads m)) [].
