(** C14, C58: what is written into the headers. *)
From Verif Require Import Spec_BaggageHeader Proof_BaggageHeader.

(** C14: the header "baggage" has a member name=value for each entry, in order, with commas between them: letters, digits and
    "_.-~" as they are, a blank as "+" and everything else as "%" and two hexadecimal digits for each byte of its UTF-8 form. *)
Theorem C14_header : forall py_str ctx (d : list (str * str)),
  get_all ctx = map (fun kv => (fst kv, OStr (snd kv))) d -> d <> [] ->
  Forall (fun kv => unicode_text (fst kv) /\ unicode_text (snd kv)) d ->
  exists members, bag_inject py_str ctx = Injected [(lit "baggage", join (lit ",") members)] false
  /\ Forall2 (fun kv m => exists a b, m = a ++ lit "=" ++ b /\ text_written true (fst kv) a /\ text_written true (snd kv) b) d members.
Proof. exact bag_header. Qed.
Print Assumptions C14_header.
(** C58: Jaeger's headers: after the header of the span one "uberctx-" header for each entry. *)
Theorem C58_headers : forall py_str ctx (d : list (str * str)),
  sc_is_valid (current_span_context ctx) = true ->
  get_all ctx = map (fun kv => (fst kv, OStr (snd kv))) d -> Forall (fun kv => unicode_text (snd kv)) d ->
  exists id ws, jaeger_inject py_str ctx = Injected ((lit "uber-trace-id", id) :: ws) false
  /\ Forall2 (fun kv w => fst w = lit "uberctx-" ++ fst kv /\ text_written false (snd kv) (snd w)) d ws.
Proof. exact jaeger_headers. Qed.
Print Assumptions C58_headers.
Definition bh_ctx : context :=
  [(SPAN_KEY, OSpan (SC 1 2 false 1 []) true None); (BAGGAGE_KEY, ODict [(lit "a-b", OStr (lit "x/y z")); (lit "~", OStr [233%N])])].
Example C14_C58_header_example :
  sc_is_valid (current_span_context bh_ctx) = true
  /\ get_all bh_ctx = map (fun kv => (fst kv, OStr (snd kv))) [(lit "a-b", lit "x/y z"); (lit "~", [233%N])]
  /\ bag_inject (fun _ => []) bh_ctx = Injected [(lit "baggage", lit "a-b=x%2Fy+z,~=%C3%A9")] false
  /\ jaeger_inject (fun _ => []) bh_ctx
     = Injected [(lit "uber-trace-id", lit "00000000000000000000000000000001:0000000000000002:0000000000000000:03");
                 (lit "uberctx-a-b", lit "x/y%20z"); (lit "uberctx-~", lit "%C3%A9")] false.
Proof. vm_compute. repeat split. Qed.
