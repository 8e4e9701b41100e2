(** Specifications for programs of nested blocks. *)
From Coq Require Export Sorted.
From Verif Require Export Spec_Sampling Spec_Runtime Model_Blocks.
Local Open Scope nat_scope.

(** The outcome of the program when nothing of OpenTelemetry is there. *)
Fixpoint plain (s : stmt) : outcome :=
  let plains := fix plains (l : list stmt) : outcome :=
    match l with
    | [] => Returned
    | s :: r => match plain s with Returned => plains r | Raised e => Raised e end
    end in
  match s with
  | SWith _ body | SAttached _ body | SBaggage _ _ body => plains body
  | SCall _ _ => Returned
  | SRaise e => Raised e
  | STry all body =>
      match plains body with
      | Returned => Returned
      | Raised e => if all then Returned else if ex_error e then Returned else Raised e
      end
  end.
Fixpoint plains (l : list stmt) : outcome :=
  match l with
  | [] => Returned
  | s :: r => match plain s with Returned => plains r | Raised e => Raised e end
  end.

(** The calls on span [n], whoever makes them. *)
Definition calls_on (n : nat) (log : list bev) : list sop :=
  flat_map (fun e => match e with
                     | BCall m o | BExit m o => if Nat.eqb m n then [o] else []
                     | _ => []
                     end) log.
(** How many spans are started. *)
Definition starts (log : list bev) : nat :=
  length (filter (fun e => match e with BEnter _ _ _ | BOther _ => true | _ => false end) log).

(** What the program is inside of after [log], innermost first: blocks of spans and attached contexts. *)
Definition enclosing (log : list bev) : list (nat + context) :=
  fold_left (fun l e => match e with
                        | BEnter n _ _ => inl n :: l
                        | BAttach c => inr c :: l
                        | BLeave _ _ | BDetach => tl l
                        | _ => l
                        end) log [].
(** The span context that a new block of the program finds: that of the context it is given, else that of the
    innermost block or attached context, else that of the context the program was started in. *)
Definition found (base : context) (spans : list started) (b : block) (around : list (nat + context)) : span_context :=
  match b_context b, around with
  | Some c, _ => current_span_context c
  | None, inl m :: _ => match nth_error spans m with Some s => started_context s | None => INVALID_SPAN_CONTEXT end
  | None, inr c :: _ => current_span_context c
  | None, [] => current_span_context base
  end.

(** What [use_span] has to do with the span when the body has been left; [live]: the span is still recording. *)
Definition leaving (describe : exc -> exc_info) (b : block) (out : outcome) (live : bool) (t1 t2 : Z) : list sop :=
  match out with
  | Raised e =>
      if ex_error e && live then
        (if b_record b then [ORecordException (describe e) [] None false t1] else [])
        ++ (if b_status b then [OSetStatus (SAStatus ERROR (PStr false (ex_type e ++ lit ": " ++ ex_msg e))) PNone]
            else [])
      else []
  | Returned => []
  end
  ++ (if b_end b then [OEnd None t2] else []).

(** Properly nested: every block that is entered is left, after what happens inside, and then that is done. *)
Section Nested.
Variable describe : exc -> exc_info.
Inductive well_nested : list bev -> Prop :=
| wn_nil : well_nested []
| wn_call n o l : well_nested l -> well_nested (BCall n o :: l)
| wn_other n l : well_nested l -> well_nested (BOther n :: l)
| wn_attach c inner l : well_nested inner -> well_nested l ->
    well_nested (BAttach c :: inner ++ BDetach :: l)
| wn_block n b now inner out live t1 t2 l : well_nested inner -> well_nested l ->
    well_nested (BEnter n b now :: inner ++ BLeave n out :: map (BExit n) (leaving describe b out live t1 t2) ++ l).
End Nested.

(** The times that the program's blocks read off the clock. *)
Definition clock_times (log : list bev) : list Z :=
  flat_map (fun e => match e with
                     | BEnter _ _ now => [now]
                     | BExit _ (ORecordException _ _ _ _ now) | BExit _ (OEnd _ now) => [now]
                     | _ => []
                     end) log.
