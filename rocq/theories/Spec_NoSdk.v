(** Specifications for programs without an SDK. *)
From Verif Require Export Model_NoSdk Spec_Runtime Spec_Context.
Local Open Scope nat_scope.

(** What a program does, by the blocks in which its statements are written: [ctx] is the context of the innermost of the blocks around it
    that have one.  A block of the tracer has none.  [use_span] has that of a span with the invalid context, which does not record. *)
Section Lexical.
Variable extract : context -> carrier -> context.
Variable inject : context -> writes.
Definition no_span (ctx : context) : context := dset SPAN_KEY (OSpan (SC 0 0 false 0 []) false None) ctx.
Fixpoint seen (s : astmt) (ctx : context) : list aev * outcome :=
  let seens := fix seens (l : list astmt) (ctx : context) : list aev * outcome :=
    match l with
    | [] => ([], Returned)
    | s :: r =>
        match seen s ctx with
        | (a, Returned) => (a ++ fst (seens r ctx), snd (seens r ctx))
        | (a, Raised e) => (a, Raised e)
        end
    end in
  match s with
  | AWith body => seens body ctx
  | AUse _ _ _ body => seens body (no_span ctx)
  | AReceived c body => seens body (extract ctx c)
  | ABaggage name v body => seens body (set_baggage name v ctx)
  | ACalls => ([], Returned)
  | ASend c => ([ASent (default_set (inject ctx) c)], Returned)
  | AAsk => ([AAnswered (match get_value SPAN_KEY ctx with OSpan _ r _ => r | _ => false end)], Returned)
  | ARaise e => ([], Raised e)
  | AOthers _ => ([], Returned)
  | ATry all body =>
      match seens body ctx with
      | (a, Returned) => (a, Returned)
      | (a, Raised e) => (a, if all then Returned else if ex_error e then Returned else Raised e)
      end
  end.
Fixpoint seens (l : list astmt) (ctx : context) : list aev * outcome :=
  match l with
  | [] => ([], Returned)
  | s :: r =>
      match seen s ctx with
      | (a, Returned) => (a ++ fst (seens r ctx), snd (seens r ctx))
      | (a, Raised e) => (a, Raised e)
      end
  end.
End Lexical.

(** The program with everything of the tracer taken out *)
Fixpoint bare (s : astmt) : list astmt :=
  let bares := fix bares (l : list astmt) : list astmt := match l with [] => [] | s :: r => bare s ++ bares r end in
  match s with
  | AWith body => bares body
  | ACalls => []
  | AUse e r st body => [AUse e r st (bares body)]
  | AReceived c body => [AReceived c (bares body)]
  | ABaggage n v body => [ABaggage n v (bares body)]
  | ATry all body => [ATry all (bares body)]
  | s => [s]
  end.
Definition bares (l : list astmt) : list astmt := flat_map bare l.

(** There is no [use_span] in it and nothing is received; the messages that are sent have no tracestate yet. *)
Fixpoint passes (s : astmt) : Prop :=
  let all := fix all (l : list astmt) : Prop := match l with [] => True | s :: r => passes s /\ all r end in
  match s with
  | AUse _ _ _ _ | AReceived _ _ => False
  | AWith body | ABaggage _ _ body | ATry _ body => all body
  | ASend c => dget (lit "tracestate") c = None
  | _ => True
  end.
Definition no_recording (ctx : context) : Prop := forall sc p, get_value SPAN_KEY ctx <> OSpan sc true p.
(** The W3C propagator: what a process takes from a message, and writes into one *)
Definition w3c_in (ctx : context) (c : carrier) : context := tc_extract (default_getter c) ctx.
Definition w3c_out (ctx : context) : writes := inj_writes (tc_inject ctx).
