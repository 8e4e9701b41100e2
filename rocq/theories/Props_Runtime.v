(** Property theorems C13, C16, C17, C18, C19: contexts as immutable objects, the runtime context,
    use_span, environment header lists and Once.
    Vocabulary: Model_Runtime.v (heap of dict objects, runtime context, call automaton of Once),
    Spec_Runtime.v (header list grammar). *)
From Verif Require Import Spec_Runtime Proof_Runtime Proof_Env.

(** C13: whatever calls have been made and whatever is called later, every context object that
    exists reads the same forever. *)
Theorem C13_contexts_never_change :
  forall (before later : list (nat * cop)) (l : nat),
    let h := fold_left hs_step before hs_init in
    l < length h -> read_context (fold_left hs_step later h) l = read_context h l.
Proof. exact contexts_immutable. Qed.
Print Assumptions C13_contexts_never_change.

(** ... a call returns a new object, with the value the operation describes ... *)
Theorem C13_calls_return_new_contexts :
  forall (before : list (nat * cop)) (o : cop) (ctx : nat),
    let h := fold_left hs_step before hs_init in
    ctx < length h ->
    let h' := fst (hs_apply o ctx h) in
    let r := snd (hs_apply o ctx h) in
    (length h <= r < length h')
    /\ read_context h' r =
         match o with
         | CSet k v => set_value k v (read_context h ctx)
         | CSetBag n v => set_baggage n v (read_context h ctx)
         | CRemBag n => remove_baggage n (read_context h ctx)
         | CClear => clear_baggage (read_context h ctx)
         end
    /\ forall l, l < length h -> read_context h' l = read_context h l.
Proof. exact call_result. Qed.
Print Assumptions C13_calls_return_new_contexts.

(** ... and the operations obey the laws of a map: what was written is read back, everything else
    reads as before. *)
Theorem C13_laws :
  forall c : context,
    (forall k v, get_value k (set_value k v c) = v)
    /\ (forall k k' v, k' <> k -> get_value k' (set_value k v c) = get_value k' c)
    /\ (forall n v, get_baggage n (set_baggage n v c) = v)
    /\ (forall n n' v, n' <> n -> get_baggage n' (set_baggage n v c) = get_baggage n' c)
    /\ (forall n n', n' <> n -> get_baggage n' (remove_baggage n c) = get_baggage n' c)
    /\ (forall n, NoDup (keys (get_all c)) -> get_baggage n (remove_baggage n c) = ONone)
    /\ (forall n, get_baggage n (clear_baggage c) = ONone)
    /\ (forall k n v, k <> BAGGAGE_KEY -> get_value k (set_baggage n v c) = get_value k c
          /\ get_value k (remove_baggage n c) = get_value k c
          /\ get_value k (clear_baggage c) = get_value k c)
    /\ (forall k n v, k <> BAGGAGE_KEY -> get_baggage n (set_value k v c) = get_baggage n c).
Proof. exact cop_laws. Qed.
Print Assumptions C13_laws.

Example C13_example :
  let calls := [(0, CSet (lit "a") (OInt 1)); (2, CSetBag (lit "x") (OStr (lit "1")))] in
  let h := fold_left hs_step calls hs_init in
  length h = 7
  /\ get_value (lit "a") (read_context h 6) = OInt 1
  /\ get_baggage (lit "x") (read_context h 6) = OStr (lit "1")
  /\ get_baggage (lit "x") (read_context h 2) = ONone
  /\ (* another entry for the same baggage makes a new object and leaves the old one alone *)
     (let h2 := fst (hs_apply (CSetBag (lit "x") (OStr (lit "2"))) 6 h) in
      get_baggage (lit "x") (read_context h2 (snd (hs_apply (CSetBag (lit "x") (OStr (lit "2"))) 6 h)))
        = OStr (lit "2")
      /\ get_baggage (lit "x") (read_context h2 6) = OStr (lit "1")).
Proof. vm_compute. repeat split. Qed.

(** C16: a nested sequence of attach/detach in one execution unit, interleaved with anything the
    other units do and with detaches of dead or foreign tokens, restores the current context. *)
Theorem C16_nesting_restores :
  forall (u : nat) (s s' : runtime), nested u s s' -> get_current u s' = get_current u s.
Proof. exact nested_restores. Qed.
Print Assumptions C16_nesting_restores.

(** Attaching makes the context current; detaching its token for the first time restores the
    context from before, whatever any unit did in between (out of order detaches included). *)
Theorem C16_attach_detach :
  forall u c s ops,
    let s1 := fst (attach u c s) in
    let t := snd (attach u c s) in
    ~ In (RDetach u t) ops ->
    get_current u s1 = c
    /\ get_current u (detach u t (fold_left rt_step ops s1)) = get_current u s.
Proof. exact detach_restores. Qed.
Print Assumptions C16_attach_detach.

(** Detaching a token again changes nothing (and raises nothing). *)
Theorem C16_second_detach : forall u t s, detach u t (detach u t s) = detach u t s.
Proof. exact detach_twice. Qed.
Print Assumptions C16_second_detach.

(** No operation of one unit changes the current context of another. *)
Theorem C16_units_isolated :
  forall s o u, rop_unit o <> u -> get_current u (rt_step s o) = get_current u s.
Proof. exact rt_step_isolated. Qed.
Print Assumptions C16_units_isolated.

Example C16_example :
  let c1 : context := [(lit "a", OInt 1)] in
  let c2 : context := [(lit "a", OInt 2)] in
  let s1 := fst (attach 0 c1 rt_init) in
  let s2 := fst (attach 0 c2 s1) in
  let s3 := rt_step s2 (RAttach 1 c1) in
  nested 0 rt_init (detach 0 0 (detach 0 1 s3))
  /\ get_current 0 s2 = c2 /\ get_current 0 (detach 0 1 s3) = c1
  /\ get_current 1 (detach 0 0 (detach 0 1 s3)) = c1.
Proof.
  cbn zeta. split; [|vm_compute; repeat split].
  eapply (nest_block 0 rt_init [(lit "a", OInt 1)]); [|apply nest_nil].
  eapply (nest_block 0 _ [(lit "a", OInt 2)]); [|apply nest_nil].
  eapply (nest_other 0 _ (RAttach 1 [(lit "a", OInt 1)])); [discriminate|]. apply nest_nil.
Qed.

(** C17: for any span implementation, any body (that leaves the token of the block alone) and all
    flags.  [s1] is the state in which the body runs, [s2], [sp2], [out2] what it leaves behind. *)
Theorem C17_use_span :
  forall (span : Type) (is_recording : span -> bool) (record_exception : exc -> span -> span)
    (set_error_status : str -> span -> span) (end_span : span -> span)
    (body : runtime -> span -> runtime * span * outcome)
    u me end_on_exit rec_exc set_status s sp,
  let s1 := fst (attach u (set_value SPAN_KEY me (get_current u s)) s) in
  let tok := snd (attach u (set_value SPAN_KEY me (get_current u s)) s) in
  let '(s2, sp2, out2) := body s1 sp in
  (exists ops, s2 = fold_left rt_step ops s1 /\ ~ In (RDetach u tok) ops) ->
  let '(s', sp', out) := use_span span is_recording record_exception set_error_status end_span body
                           u me end_on_exit rec_exc set_status s sp in
  get_value SPAN_KEY (get_current u s1) = me
  /\ (forall k, k <> SPAN_KEY -> get_value k (get_current u s1) = get_value k (get_current u s))
  /\ get_current u s' = get_current u s
  /\ (forall v, v <> u -> get_current v s' = get_current v s2)
  /\ out = out2
  /\ (out2 = Returned -> sp' = if end_on_exit then end_span sp2 else sp2)
  /\ (forall e, out2 = Raised e -> ex_error e && is_recording sp2 = false ->
        sp' = if end_on_exit then end_span sp2 else sp2)
  /\ (forall e, out2 = Raised e -> ex_error e = true -> is_recording sp2 = true ->
        let a := if rec_exc then record_exception e sp2 else sp2 in
        let b := if set_status then set_error_status (ex_type e ++ lit ": " ++ ex_msg e) a else a in
        sp' = if end_on_exit then end_span b else b).
Proof. exact use_span_spec. Qed.
Print Assumptions C17_use_span.

(** A toy span: a log of the calls made on it. *)
Definition toy_use (out : outcome) (eoe re ss : bool) :=
  use_span (list str) (fun _ => true) (fun e l => l ++ [lit "exception"]) (fun d l => l ++ [d])
    (fun l => l ++ [lit "end"])
    (fun s l => (rt_step (rt_step s (RAttach 0 [])) (RDetach 0 1), l ++ [lit "body"], out))
    0 (OSpan INVALID_SPAN_CONTEXT true None) eoe re ss rt_init [].
Example C17_example :
  let e := Exc true (lit "ValueError") (lit "bad") 7 in
  let k := Exc false (lit "KeyboardInterrupt") [] 8 in
  snd (fst (toy_use (Raised e) true true true))
    = [lit "body"; lit "exception"; lit "ValueError: bad"; lit "end"]
  /\ snd (toy_use (Raised e) true true true) = Raised e
  /\ snd (fst (toy_use (Raised k) true true true)) = [lit "body"; lit "end"]
  /\ snd (fst (toy_use (Raised e) false false true)) = [lit "body"; lit "ValueError: bad"]
  /\ snd (fst (toy_use Returned false true true)) = [lit "body"]
  /\ get_current 0 (fst (fst (toy_use (Raised e) true true true))) = [].
Proof. vm_compute. repeat split. Qed.

(** C18: the result is exactly the well-formed members of the list, the last occurrence of a name
    wins.  [rev] makes the last occurrence the first one found. *)
Theorem C18_exactly_the_valid_members :
  forall pylower liberal s ps nvs,
    ows_split true s ps -> env_members pylower liberal ps nvs ->
    NoDup (keys (parse_env_headers pylower s liberal))
    /\ forall k, dget k (parse_env_headers pylower s liberal) = dget k (rev nvs).
Proof. exact parse_env_spec. Qed.
Print Assumptions C18_exactly_the_valid_members.

(** Every string can be read in this way. *)
Theorem C18_every_string_has_members :
  forall pylower liberal s,
    exists ps nvs, ows_split true s ps /\ env_members pylower liberal ps nvs.
Proof. exact env_reading_exists. Qed.
Print Assumptions C18_every_string_has_members.

(** A malformed member can be left out. *)
Theorem C18_malformed_members_have_no_effect :
  forall pylower liberal s s' a p b,
    ows_split true s (a ++ p :: b) -> (forall nv, ~ env_member pylower liberal p nv) ->
    ows_split true s' (a ++ b) ->
    parse_env_headers pylower s liberal = parse_env_headers pylower s' liberal.
Proof. exact parse_env_malformed. Qed.
Print Assumptions C18_malformed_members_have_no_effect.

(** Names that are tokens without a percent sign and url-quoted values come back. *)
Theorem C18_quoted_values_round_trip :
  forall pylower liberal (d : list (str * str)) ps,
    Forall2 (fun kv p => token (fst kv) /\ ~ In 37%N (fst kv) /\ unicode_text (snd kv) /\ trimmed (snd kv)
               /\ exists q, quote (snd kv) = Some q /\ p = fst kv ++ [61%N] ++ q) d ps ->
    forall k, dget k (parse_env_headers pylower (join [44%N] ps) liberal)
              = dget k (rev (map (fun kv => (pylower (fst kv), snd kv)) d)).
Proof. exact env_round_trip. Qed.
Print Assumptions C18_quoted_values_round_trip.

Example C18_example :
  parse_env_headers lower (lit " Key1 = a%20b , bad;x=1,,key1=c%3Dd,key2=e f,k3==") false
    = [(lit "key1", lit "c=d"); (lit "k3", lit "=")]
  /\ parse_env_headers lower (lit "Key2=e%20 f,bad") true = [(lit "key2", lit "e%20 f")].
Proof. vm_compute. repeat split. Qed.

(** C19: in every reachable state of any number of calls, under any schedule and whichever runs of
    the function fail.  The history is newest first; [EFunc] marks a completed run of the function. *)
Theorem C19_at_most_once :
  forall s, once_reach s ->
    (forall h1 h2 t, o_hist s = h1 ++ (t, EFunc) :: h2 -> forall t', ~ In (t', EFunc) (h1 ++ h2))
    /\ (forall t r, o_pc s t = ORet r -> (r = true <-> In (t, EFunc) (o_hist s)))
    /\ (forall h1 h2 t r, o_hist s = h1 ++ (t, ERet r) :: h2 -> exists t', In (t', EFunc) h2)
    /\ (forall t t', o_pc s t = ORun -> o_pc s t' = ORun -> t = t')
    /\ (forall t, o_pc s t = ORaised -> ~ In (t, EFunc) (o_hist s)).
Proof. exact once_spec. Qed.
Print Assumptions C19_at_most_once.

(** What the function wrote (a global provider, say) is never overwritten. *)
Theorem C19_first_value_stays :
  forall s t fails s' x,
    once_reach s -> once_step t fails s = Some s' -> o_var s = Some x -> o_var s' = Some x.
Proof. exact once_var_stable. Qed.
Print Assumptions C19_first_value_stays.

(** No call gets stuck while it holds the lock, and a free lock can be taken. *)
Theorem C19_no_deadlock :
  forall s, once_reach s ->
    (forall t, o_pc s t = OFast \/ o_pc s t = OWait \/ (exists r, o_pc s t = ORet r) \/ o_pc s t = ORaised
       \/ once_step t false s <> None)
    /\ (o_lock s = None -> forall t, o_pc s t = OWait -> once_step t false s <> None)
    /\ (forall t, o_lock s = Some t -> once_step t false s <> None).
Proof. exact once_progress. Qed.
Print Assumptions C19_no_deadlock.

(** Call 0 fails, call 1 waits meanwhile and succeeds, call 2 comes late. *)
Definition once_run (sched : list (nat * bool)) : option once :=
  fold_left (fun s x => match s with Some s => once_step (fst x) (snd x) s | None => None end)
    sched (Some once_init).
Definition once_sched : list (nat * bool) :=
  [(0, false); (1, false); (0, false); (0, false); (0, true); (0, false);
   (1, false); (1, false); (1, false); (1, false); (1, false); (2, false)].
Example C19_example :
  option_map o_hist (once_run once_sched)
  = Some [(2, ERet false); (1, ERet true); (1, EFunc); (0, EExc)].
Proof. vm_compute. reflexivity. Qed.
