(** The end of a program: what providers do when the interpreter exits.

    Sources: opentelemetry-sdk/src/opentelemetry/sdk/trace/__init__.py 144-181 [SynchronousMultiSpanProcessor], 206-262
    [ConcurrentMultiSpanProcessor], 1190-1218 and 1274-1285 [TracerProvider] ("trace"); sdk/trace/export/__init__.py 398-404
    [BatchSpanProcessor.shutdown]; the same code for logs is in sdk/_logs/_internal/__init__.py 292-425 and 604-700.
    Of Python: [atexit] runs the callbacks that are still registered, the last registered first, prints exceptions and goes on; before that,
    [concurrent.futures] is closed: from then on [submit] of every thread pool raises RuntimeError (CPython 3.9 and later).

    Batch processors are seen as a queue with room for all (C35) and a worker that exports from its front (C34); [shutdown] exports the
    rest and shuts the exporter down (C37). *)
From Verif Require Export Model_Str.
Local Open Scope nat_scope.

Section Exit.
Context {A : Type}.

(** A batch processor; [bp_closed] counts the calls of its exporter's [shutdown], which raises if [bp_raises]. *)
Record bproc := BP { bp_queue : list A; bp_sent : list A; bp_done : bool; bp_closed : nat; bp_raises : bool }.
Record xprov := XP { xp_procs : list nat; xp_concurrent : bool; xp_handler : bool }.
(** What a callback of the program does: it starts and ends a span of a provider, or shuts a provider down *)
Inductive uev := UEnd (p : nat) (a : A) | UShutdown (p : nat).
Inductive callback := HShutdown (p : nat) | HUser (body : list uev).
(** [x_atexit]: the callbacks, the last registered first; [x_pools]: thread pools take work *)
Record xworld := XW { x_procs : list bproc; x_provs : list xprov; x_atexit : list callback; x_pools : bool }.
Definition x_init : xworld := XW [] [] [] true.

Definition upd {B} (n : nat) (f : B -> B) (l : list B) : list B :=
  match nth_error l n with Some x => firstn n l ++ f x :: skipn (S n) l | None => l end.
Definition on_proc (q : nat) (f : bproc -> bproc) (w : xworld) : xworld := XW (upd q f (x_procs w)) (x_provs w) (x_atexit w) (x_pools w).
Definition on_prov (p : nat) (f : xprov -> xprov) (w : xworld) : xworld := XW (x_procs w) (upd p f (x_provs w)) (x_atexit w) (x_pools w).

(** trace/export 217-232 [on_end]: nothing is taken once [done] is set *)
Definition bp_end (a : A) (b : bproc) : bproc :=
  if bp_done b then b else BP (bp_queue b ++ [a]) (bp_sent b) (bp_done b) (bp_closed b) (bp_raises b).
(** The worker exports [k] spans. *)
Definition bp_work (k : nat) (b : bproc) : bproc :=
  BP (skipn k (bp_queue b)) (bp_sent b ++ firstn k (bp_queue b)) (bp_done b) (bp_closed b) (bp_raises b).
(** trace/export 398-404; if the exporter raises, it does so at the end *)
Definition bp_shutdown (b : bproc) : bproc := BP [] (bp_sent b ++ bp_queue b) true (S (bp_closed b)) (bp_raises b).

(** What a provider tells its processors; the flag says that it raises.  The synchronous one: trace 172-175 *)
Definition end_span (p : nat) (a : A) (w : xworld) : xworld * bool :=
  match nth_error (x_provs w) p with
  | None => (w, false)
  | Some v =>
      (* trace 235-242: submit raises for the first processor *)
      if xp_concurrent v && negb (x_pools w) && negb (match xp_procs v with [] => true | _ => false end) then (w, true)
      else (fold_left (fun w q => on_proc q (bp_end a) w) (xp_procs v) w, false)
  end.
(** trace 177-180: the first that raises ends the loop *)
Fixpoint shut_each (l : list nat) (w : xworld) : xworld * bool :=
  match l with
  | [] => (w, false)
  | q :: r =>
      let w1 := on_proc q bp_shutdown w in
      if match nth_error (x_procs w) q with Some b => bp_raises b | None => false end then (w1, true) else shut_each r w1
  end.
(** trace 260-262, 235-242: all are submitted; then the results are waited for *)
Definition shut_all (l : list nat) (w : xworld) : xworld * bool :=
  (fold_left (fun w q => on_proc q bp_shutdown w) l w,
   existsb (fun q => match nth_error (x_procs w) q with Some b => bp_raises b | None => false end) l).
Definition is_shutdown_of (p : nat) (h : callback) : bool := match h with HShutdown q => Nat.eqb q p | HUser _ => false end.
(** trace 1280-1285 *)
Definition shutdown (p : nat) (w : xworld) : xworld * bool :=
  match nth_error (x_provs w) p with
  | None => (w, false)
  | Some v =>
      let (w1, raised) :=
        if xp_concurrent v then
          if negb (x_pools w) && negb (match xp_procs v with [] => true | _ => false end) then (w, true) else shut_all (xp_procs v) w
        else shut_each (xp_procs v) w in
      if raised then (w1, true)
      else if xp_handler v
      then (XW (x_procs w1) (upd p (fun v => XP (xp_procs v) (xp_concurrent v) false) (x_provs w1))
               (filter (fun h => negb (is_shutdown_of p h)) (x_atexit w1)) (x_pools w1), false)
      else (w1, false)
  end.

(** What the program does until it exits. *)
Inductive xev :=
| XProvider (concurrent on_exit : bool)      (* TracerProvider(shutdown_on_exit=..., active_span_processor=...): trace 1190-1218 *)
| XAdd (p : nat) (raises : bool)             (* provider p gets a new batch processor, whose exporter raises in shutdown or not *)
| XEnd (p : nat) (a : A)                     (* a span of provider p ends *)
| XWork (q k : nat)                          (* the worker of processor q exports *)
| XShutdown (p : nat)                        (* provider.shutdown() *)
| XRegister (body : list uev).               (* atexit.register(...) of the program *)
Definition xstep (w : xworld) (e : xev) : xworld :=
  match e with
  | XProvider c x =>
      XW (x_procs w) (x_provs w ++ [XP [] c x]) (if x then HShutdown (length (x_provs w)) :: x_atexit w else x_atexit w) (x_pools w)
  | XAdd p r =>
      let q := length (x_procs w) in
      XW (x_procs w ++ [BP [] [] false 0 r]) (upd p (fun v => XP (xp_procs v ++ [q]) (xp_concurrent v) (xp_handler v)) (x_provs w)) (x_atexit w) (x_pools w)
  | XEnd p a => fst (end_span p a w)
  | XWork q k => on_proc q (bp_work k) w
  | XShutdown p => fst (shutdown p w)
  | XRegister body => XW (x_procs w) (x_provs w) (HUser body :: x_atexit w) (x_pools w)
  end.
Definition xrun (h : list xev) (w : xworld) : xworld := fold_left xstep h w.

(** The body of a callback of the program, until something raises *)
Fixpoint run_body (l : list uev) (w : xworld) : xworld :=
  match l with
  | [] => w
  | e :: r =>
      let (w1, raised) := match e with UEnd p a => end_span p a w | UShutdown p => shutdown p w end in
      if raised then w1 else run_body r w1
  end.
(** The callbacks, one after the other; [work n]: what workers export before the n-th from the end. *)
Fixpoint callbacks (work : nat -> list (nat * nat)) (l : list callback) (w : xworld) : xworld :=
  match l with
  | [] => w
  | c :: r =>
      let w1 := fold_left (fun w qk => on_proc (fst qk) (bp_work (snd qk)) w) (work (length r)) w in
      callbacks work r
        (match c with
         | HShutdown p => if existsb (is_shutdown_of p) (x_atexit w1) then fst (shutdown p w1) else w1   (* unless it was unregistered *)
         | HUser body => run_body body w1
         end)
  end.
(** The interpreter exits: thread pools are closed, then the callbacks run. *)
Definition exit (work : nat -> list (nat * nat)) (w : xworld) : xworld :=
  callbacks work (x_atexit w) (XW (x_procs w) (x_provs w) (x_atexit w) false).
End Exit.
Arguments bproc : clear implicits.
Arguments uev : clear implicits.
Arguments callback : clear implicits.
Arguments xworld : clear implicits.
Arguments xev : clear implicits.
