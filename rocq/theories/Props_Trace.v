(** Property theorems C01-C05 and C08: trace state and identifiers.
    Vocabulary: Spec_Trace.v (W3C grammar), Model_Trace.v (the API functions). *)
From Verif Require Import Model_Trace Spec_Trace Proof_Trace.

(** C01: any history of edits of any constructed TraceState is well formed. *)
Theorem C01_tracestate_well_formed :
  forall (entries : list (str * str)) (history : list ts_op),
    ts_wf (fold_left ts_apply history (ts_new entries)).
Proof. exact ts_history_wf. Qed.
Print Assumptions C01_tracestate_well_formed.

Example C01_example :
  let d := fold_left ts_apply
             [OpAdd (lit "vendor") (lit "1"); OpAdd (lit "Bad") (lit "1");
              OpUpdate (lit "a@sys") (lit "x y"); OpDelete (lit "k0")]
             (ts_new [(lit "k0", lit "v"); (lit "k0", lit "dup"); (lit "k1", lit "w")]) in
  d = [(lit "a@sys", lit "x y"); (lit "vendor", lit "1"); (lit "k1", lit "w")].
Proof. vm_compute. reflexivity. Qed.

(** C01, constructor: valid distinct pairs within the limit are all kept, in order. *)
Theorem C01_constructor_keeps_valid :
  forall entries, ts_wf entries -> ts_new entries = entries.
Proof. exact ts_new_id. Qed.
Print Assumptions C01_constructor_keeps_valid.

(** C02: each edit changes exactly the addressed key.  [others k d] are d's entries
    for keys other than k, in order. *)
Theorem C02_add_new :
  forall d k v, ts_wf d -> w3c_pair (k, v) -> ~ In k (map fst d) -> length d < 32 ->
    ts_add d k v = (k, v) :: d.
Proof. exact ts_add_new. Qed.
Print Assumptions C02_add_new.

Theorem C02_add_rejected :
  forall d k v, ts_wf d ->
    (~ w3c_pair (k, v) \/ In k (map fst d) \/ length d = 32) -> ts_add d k v = d.
Proof. exact ts_add_rejected. Qed.
Print Assumptions C02_add_rejected.

Theorem C02_update :
  forall d k v, ts_wf d -> w3c_pair (k, v) -> (In k (map fst d) \/ length d < 32) ->
    ts_update d k v = (k, v) :: others k d.
Proof. exact ts_update_ok. Qed.
Print Assumptions C02_update.

Theorem C02_update_invalid :
  forall d k v, ~ w3c_pair (k, v) -> ts_update d k v = d.
Proof. exact ts_update_invalid. Qed.
Print Assumptions C02_update_invalid.

Theorem C02_delete :
  forall d k, ts_wf d -> ts_delete d k = others k d.
Proof. exact ts_delete_spec. Qed.
Print Assumptions C02_delete.

Example C02_example :
  let d := ts_new [(lit "a", lit "1"); (lit "b", lit "2"); (lit "c", lit "3")] in
  ts_wf d /\ w3c_pair (lit "b", lit "9") /\ In (lit "b") (map fst d)
  /\ ts_update d (lit "b") (lit "9") = [(lit "b", lit "9"); (lit "a", lit "1"); (lit "c", lit "3")].
Proof.
  split; [apply ts_new_wf|]. split; [apply valid_pair_iff; vm_compute; reflexivity|].
  split; [cbn; auto|vm_compute; reflexivity].
Qed.

(** C03 is false of the code: updating a full state with a new key loses everything. *)
Definition full_state : list (str * str) :=
  map (fun i => (lit "k" ++ hex i, lit "v")) (map N.of_nat (seq 0 32)).

Theorem C03_update_at_limit_refuted :
  exists d k v, d = ts_new full_state /\ ts_wf d /\ length d = 32 /\ w3c_pair (k, v)
    /\ ~ In k (map fst d) /\ ts_update d k v = [] /\ ts_update d k v <> d.
Proof.
  exists (ts_new full_state), (lit "new"), (lit "v").
  assert (Hl : length (ts_new full_state) = 32) by (vm_compute; reflexivity).
  assert (Hp : w3c_pair (lit "new", lit "v")) by (apply valid_pair_iff; vm_compute; reflexivity).
  assert (Hni : ~ In (lit "new") (map fst (ts_new full_state))).
  { apply dmem_false. vm_compute. reflexivity. }
  assert (Hu := ts_update_full _ _ _ (ts_new_wf full_state) Hp Hni Hl).
  repeat (split; [first [reflexivity|apply ts_new_wf|assumption]|]).
  rewrite Hu. intros E. rewrite <- E in Hl. discriminate.
Qed.
Print Assumptions C03_update_at_limit_refuted.

(** ... and it does so for every full state and every new valid pair. *)
Theorem C03_update_at_limit_always_empties :
  forall d k v, ts_wf d -> w3c_pair (k, v) -> ~ In k (map fst d) -> length d = 32 ->
    ts_update d k v = [].
Proof. exact ts_update_full. Qed.
Print Assumptions C03_update_at_limit_always_empties.

(** C04: header round trip, for every well-formed (by C01: every reachable) state. *)
Theorem C04_header_round_trip :
  forall d, ts_wf d -> ts_from_header [ts_to_header d] = d.
Proof. exact header_roundtrip. Qed.
Print Assumptions C04_header_round_trip.

Example C04_example :
  let d := [(lit "rojo", lit "00f067aa0ba902b7"); (lit "congo@t", lit "t6 1rc")] in
  ts_wf d /\ ts_to_header d = lit "rojo=00f067aa0ba902b7,congo@t=t6 1rc".
Proof.
  cbn zeta. split; [|vm_compute; reflexivity].
  replace [(lit "rojo", lit "00f067aa0ba902b7"); (lit "congo@t", lit "t6 1rc")]
    with (ts_new [(lit "rojo", lit "00f067aa0ba902b7"); (lit "congo@t", lit "t6 1rc")])
    by (vm_compute; reflexivity).
  apply ts_new_wf.
Qed.

(** C05: every list of headers has exactly one list of members; the parser's result is
    well formed and is determined by them, all or nothing. *)
Theorem C05_members_exist_unique :
  forall hs, exists! ms, header_members hs ms.
Proof.
  exact (fun hs => ex_intro _ (members hs)
    (conj (proj2 (header_members_spec hs _) eq_refl)
          (fun ms H => proj1 (header_members_spec hs ms) H))).
Qed.
Print Assumptions C05_members_exist_unique.

Theorem C05_from_header_well_formed :
  forall hs, ts_wf (ts_from_header hs).
Proof. exact from_header_wf. Qed.
Print Assumptions C05_from_header_well_formed.

Theorem C05_from_header_all_or_nothing :
  forall hs ms, header_members hs ms ->
    ((exists m, In m ms /\ forall kv, ~ is_member m kv) -> ts_from_header hs = [])
    /\ (forall kvs, Forall2 is_member ms kvs ->
         (~ NoDup (map fst kvs) \/ 32 < length kvs -> ts_from_header hs = [])
         /\ (NoDup (map fst kvs) -> length kvs <= 32 -> ts_from_header hs = kvs)).
Proof. exact from_header_spec. Qed.
Print Assumptions C05_from_header_all_or_nothing.

Example C05_example :
  ts_from_header [lit "a=1 , b=x y ,,c=3  "; lit "d=4"] =
    [(lit "a", lit "1"); (lit "b", lit "x y"); (lit "c", lit "3"); (lit "d", lit "4")]
  /\ ts_from_header [lit "a=1,B=2"] = [] /\ ts_from_header [lit "a=1"; lit "a=2"] = [].
Proof. vm_compute. auto. Qed.

(** C08: identifiers are fixed width lower-case hex and parse back; hence injective. *)
Theorem C08_trace_id_format :
  forall z, (0 <= z < 2 ^ 128)%Z ->
    length (format_trace_id z) = 32 /\ forallb is_lhex (format_trace_id z) = true
    /\ Z.of_N (hex_value (format_trace_id z)) = z.
Proof. exact format_trace_id_ok. Qed.
Print Assumptions C08_trace_id_format.

Theorem C08_span_id_format :
  forall z, (0 <= z < 2 ^ 64)%Z ->
    length (format_span_id z) = 16 /\ forallb is_lhex (format_span_id z) = true
    /\ Z.of_N (hex_value (format_span_id z)) = z.
Proof. exact format_span_id_ok. Qed.
Print Assumptions C08_span_id_format.

Theorem C08_ids_injective :
  (forall a b, (0 <= a < 2 ^ 128)%Z -> (0 <= b < 2 ^ 128)%Z ->
     format_trace_id a = format_trace_id b -> a = b)
  /\ (forall a b, (0 <= a < 2 ^ 64)%Z -> (0 <= b < 2 ^ 64)%Z ->
     format_span_id a = format_span_id b -> a = b).
Proof. exact format_ids_inj. Qed.
Print Assumptions C08_ids_injective.

Example C08_example :
  format_span_id 0xf067aa0ba902b7 = lit "00f067aa0ba902b7"
  /\ format_trace_id 0xdeadbeef = lit "000000000000000000000000deadbeef".
Proof. vm_compute. auto. Qed.
