(** Creating instruments: C49. *)
From Verif Require Import Spec_Meter Proof_Meter.

(** C49: in every interleaving of create_* calls, calls with the same identity that return, return the same
    object; and if units have no comma, only they do. *)
Theorem C49_identity_partial : forall l t u c d o p, let s := mrun l in
  ms_pc s t = MDone c o -> ms_pc s u = MDone d p ->
  (same_identity c d -> o = p)
  /\ (valid_call c -> valid_call d -> no_comma (cc_unit c) -> no_comma (cc_unit d) -> o = p -> same_identity c d).
Proof. exact identity. Qed.
Print Assumptions C49_identity_partial.
Theorem C49_as_asked_partial : forall l t c o, ms_pc (mrun l) t = MDone c o ->
  valid_call c -> no_comma (cc_unit c) -> no_comma (in_unit o) ->
  in_kind o = cc_kind c /\ in_name o = lower (cc_name c) /\ in_unit o = cc_unit c /\ in_descr o = cc_descr c.
Proof. exact as_asked. Qed.
Print Assumptions C49_as_asked_partial.
(** C49: calls that do not overlap all return, if their names and units are valid. *)
Theorem C49_sequential : forall cs, Forall valid_call cs ->
  let s := mrun (one_after_other cs) in forall i c, nth_error cs i = Some c -> exists o, ms_pc s i = MDone c o.
Proof. exact sequential_ok. Qed.
Print Assumptions C49_sequential.
(** C49: however the calls interleave, each observable instrument that was returned is asked for
    measurements exactly once per collection, and no other instrument is asked. *)
Theorem C49_observed_once : forall l, let s := mrun l in
  NoDup (map in_obj (ms_async s)) /\ (forall o, In o (ms_async s) -> synchronous (in_kind o) = false)
  /\ forall t c o, ms_pc s t = MDone c o -> synchronous (in_kind o) = false -> In o (ms_async s).
Proof. exact observed_once. Qed.
Print Assumptions C49_observed_once.

Definition c1 := CC ICounter (lit "Requests") (lit "1") (lit "all requests") None.
Definition c2 := CC ICounter (lit "requests") (lit "1") (lit "all requests") None.
Definition c3 := CC IObservableGauge (lit "requests") (lit "1") (lit "all requests") None.
Example C49_example : Forall valid_call [c1; c2; c3]
  /\ no_comma (cc_unit c1) /\ same_identity c1 c2
  /\ exists o p, map (ms_pc (mrun (one_after_other [c1; c2; c3]))) [0; 1; 2] = [MDone c1 o; MDone c2 o; MDone c3 p]
     /\ in_name o = lit "requests" /\ ms_async (mrun (one_after_other [c1; c2; c3])) = [p].
Proof.
  split; [repeat (constructor; [apply acceptable_spec; vm_compute; reflexivity|]); constructor|].
  split; [unfold no_comma; vm_compute; intuition discriminate|]. split; [repeat split|].
  eexists. eexists. vm_compute. repeat split.
Qed.

(** C49 is false if units have commas: the unit and description are not kept apart. *)
Theorem C49_comma_refuted : exists cs c d, Forall valid_call cs /\ nth_error cs 0 = Some c /\ nth_error cs 1 = Some d
  /\ ~ same_identity c d
  /\ exists o, ms_pc (mrun (one_after_other cs)) 0 = MDone c o /\ ms_pc (mrun (one_after_other cs)) 1 = MDone d o.
Proof.
  set (c := CC ICounter (lit "n") (lit "a,b") (lit "c") None). set (d := CC ICounter (lit "n") (lit "a") (lit "b,c") None).
  exists [c; d], c, d. split; [repeat (constructor; [apply acceptable_spec; vm_compute; reflexivity|]); constructor|].
  split; [reflexivity|]. split; [reflexivity|]. split; [intros (_ & _ & U & _); discriminate|].
  eexists. vm_compute. split; reflexivity.
Qed.
Print Assumptions C49_comma_refuted.
(** Two threads that create the same valid instrument at the same time: one can get a KeyError. *)
Theorem C49_race_refuted : exists l c, valid_call c /\ (forall t d, In (MCall t d) l -> d = c)
  /\ ms_pc (mrun l) 1 = MRaised c KeyError.
Proof.
  exists [MCall 0 c1; MCall 1 c1; MStep 1], c1. split; [apply acceptable_spec; vm_compute; reflexivity|].
  split; [|vm_compute; reflexivity]. intros t d [E|[E|[E|[]]]]; try discriminate; now injection E as _ <-.
Qed.
Print Assumptions C49_race_refuted.
(** Creating an instrument with an invalid name twice raises a KeyError the second time. *)
Theorem C49_invalid_refuted : exists c, ~ valid_call c
  /\ let s := mrun (one_after_other [c; c]) in ms_pc s 0 = MRaised c InvalidInstrument /\ ms_pc s 1 = MRaised c KeyError.
Proof.
  exists (CC ICounter (lit "2x") (lit "") (lit "") None). split; [|vm_compute; split; reflexivity].
  intro V. apply acceptable_spec in V. vm_compute in V. discriminate.
Qed.
Print Assumptions C49_invalid_refuted.
