(** C15, C58: how the values of the headers are read. *)
From Verif Require Import Proof_Decoding.

(** C15: the first 180 acceptable members are entered, in order; "%" and two hexadecimal digits stand for a byte, "+" for a blank, the bytes are read
    as UTF-8 with U+FFFD for what is not well-formed, and whitespace around names and values does not count. *)
Theorem C15_decoded_members : forall g ctx h rest ps nvs,
  g_get g (lit "baggage") = Some (h :: rest) -> (N.of_nat (length h) <= 8192)%N -> ows_split true h ps -> taken ps nvs ->
  exists ts, Forall2 (fun nv t => entry_text true (fst nv) (fst t) /\ entry_text true (snd nv) (snd t)) nvs ts /\
  bag_extract g ctx = fold_left (fun c t => set_baggage (fst t) (OStr (snd t)) c) (firstn 180 ts) ctx.
Proof. exact decoded_members. Qed.
Print Assumptions C15_decoded_members.

(** There is one way to read a text. *)
Theorem C15_one_reading : forall plus raw, exists t, entry_text plus raw t /\ forall t', entry_text plus raw t' -> t' = t.
Proof.
  intros [|] raw; eexists; (split; [apply entry_text_plus || apply entry_text_path; reflexivity|]); intros t' H; [apply entry_text_plus in H|apply entry_text_path in H]; congruence.
Qed.
Print Assumptions C15_one_reading.

(** C58: with Jaeger's propagator and a header "uber-trace-id", the entry of each header "uberctx-name" is the text of its first value ("+" stands
    for itself), and entries without a header stay as they were; if no name contains "uberctx-" again. *)
Theorem C58_extracted_entries : forall nd g ctx ctx' h rest, g_get g (lit "uber-trace-id") = Some (h :: rest) -> jaeger_extract nd g ctx = Some ctx' ->
  (forall r, In (lit "uberctx-" ++ r) (g_keys g) -> free_of (lit "uberctx-") r) ->
  forall name, (In (lit "uberctx-" ++ name) (g_keys g) -> exists v vs t, g_get g (lit "uberctx-" ++ name) = Some (v :: vs) /\ entry_text false v t /\ get_baggage name ctx' = OStr t) /\
    (~ In (lit "uberctx-" ++ name) (g_keys g) -> get_baggage name ctx' = get_baggage name ctx).
Proof. exact jaeger_entries. Qed.
Print Assumptions C58_extracted_entries.

(** A member "k = %C3%A9+%FFz%E2%82%zz" and a Jaeger header: é, a blank, U+FFFD for the byte FF, z, one U+FFFD for the two bytes of a cut character, "%zz" *)
Example C15_decoding_example :
  get_all (bag_extract (default_getter [(lit "baggage", CStr (lit "k=%C3%A9+%FFz%E2%82%zz"))]) []) = [(lit "k", OStr ([233%N; 32%N; 65533%N; 122%N; 65533%N] ++ lit "%zz"))].
Proof. vm_compute. reflexivity. Qed.
Definition dj_get : getter := default_getter [(lit "uber-trace-id", CStr (lit "1:2:0:1")); (lit "uberctx-k", CStr (lit " a+%20%C3"))].
Example C58_extracted_example : exists ctx', jaeger_extract (fun _ => None) dj_get [] = Some ctx' /\ get_all ctx' = [(lit "k", OStr (lit "a+ " ++ [65533%N]))] /\
  g_keys dj_get = [lit "uber-trace-id"; lit "uberctx-k"] /\ (forall r, In (lit "uberctx-" ++ r) (g_keys dj_get) -> free_of (lit "uberctx-") r).
Proof.
  eexists. split; [vm_compute; reflexivity|]. split; [vm_compute; reflexivity|]. split; [reflexivity|].
  intros r [H|[H|[]]]; [discriminate|]. change (lit "uberctx-k") with (lit "uberctx-" ++ lit "k") in H. apply app_inv_head in H. subst r.
  intros a b E. apply (f_equal (@length N)) in E. rewrite !app_length in E. cbn in E. lia.
Qed.
