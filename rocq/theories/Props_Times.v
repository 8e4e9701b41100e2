(** C114: times as nanoseconds, seconds and texts. *)
From Coq Require Import String ZArith Reals Lra Lia List Bool.
From Flocq Require Import Core BinarySingleNaN.
From Verif Require Import Model_Str Model_Span Model_Float Proof_Calendar Proof_Times Spec_Times.
Import ListNotations.
Local Open Scope Z_scope.

(** The text of a time of a span, an event or a log record, until 2106, says a time less than a microsecond away, and exactly that time if
    it is a whole number of microseconds. *)
Theorem C114_printed : forall ns, 0 <= ns < until_2106 ->
  exists text us, ns_to_iso_str ns = Ok text /\ utc_instant text us
    /\ Z.abs (us * 1000 - ns) < 1000 /\ ((1000 | ns) -> us * 1000 = ns).
Proof. exact printed_ok. Qed.
Print Assumptions C114_printed.

(** A later time is never printed as an earlier one, in any year that can be printed. *)
Theorem C114_order : forall a b ta tb ua ub, 0 <= a <= b -> ns_to_iso_str a = Ok ta -> ns_to_iso_str b = Ok tb ->
  utc_instant ta ua -> utc_instant tb ub -> ua <= ub.
Proof. exact printed_mono. Qed.
Print Assumptions C114_order.

(** A log record's timestamp is less than half a microsecond away from the time that the logging module took (and has as a float of seconds); so
    is the time of a span that OpenTracing's user gives so.  Later times give later timestamps. *)
Theorem C114_created : forall x seconds, (0 <= x < IZR until_2106)%R -> nearest_float (x / 1000000000) seconds ->
  exists ns, log_timestamp seconds = Ok ns /\ time_seconds_to_ns seconds = Ok ns /\ (Rabs (IZR ns - x) < 500)%R.
Proof. intros x f H N. destruct (created_ok x f H N) as (ns & E & B). exists ns. repeat split; assumption. Qed.
Print Assumptions C114_created.
Theorem C114_created_order : forall a b na nb, is_finite a = true -> is_finite b = true -> (0 <= B2R a <= B2R b)%R ->
  log_timestamp a = Ok na -> log_timestamp b = Ok nb -> na <= nb.
Proof. exact to_ns_mono. Qed.
Print Assumptions C114_created_order.

(** What OpenTracing's users read as the time of a span in seconds is less than half a microsecond away from it, and given back it is less than a
    microsecond away. *)
Theorem C114_seconds : forall ns, 0 <= ns < until_2106 ->
  exists s ns', time_seconds_from_ns ns = Ok s /\ is_finite s = true /\ (Rabs (B2R s * 1000000000 - IZR ns) < 500)%R
    /\ time_seconds_to_ns s = Ok ns' /\ Z.abs (ns' - ns) < 1000.
Proof. exact there_and_back. Qed.
Print Assumptions C114_seconds.

(** The time of a message event of OpenCensus, whose text is in UTC, becomes a timestamp less than half a microsecond away, if the process's
    local time is UTC... *)
Theorem C114_message_partial : forall text us, utc_instant text us -> us * 1000 < until_2106 ->
  exists ns, oc_time_to_nanos (fun s => s) text = Some ns /\ Z.abs (ns - us * 1000) < 500.
Proof.
  intros text us I H. pose proof (utc_instant_pos _ _ I) as P.
  assert (E : us / 10 ^ 6 * 10 ^ 6 + us mod 10 ^ 6 = us) by (rewrite Z.mul_comm, <- Z.div_mod by discriminate; reflexivity).
  pose proof (message_ok (fun s => s) text us I H) as M. cbv beta zeta in M. rewrite E in M. exact (M P H).
Qed.
Print Assumptions C114_message_partial.
(** ... and is wrong by the difference of local time to UTC otherwise. Missing: local times other than UTC, for which it is false: *)
Theorem C114_message_refuted : forall hours, -14 <= hours <= 14 -> hours <> 0 ->
  exists text us ns, utc_instant text us /\ oc_time_to_nanos (fun s => s - 3600 * hours) text = Some ns
    /\ Z.abs (ns - us * 1000) >= 3599 * 10 ^ 9.
Proof.
  intros hours H N. destruct (C114_printed 1731867725123457000) as (text & us & _ & I & _ & E); [unfold until_2106; lia|].
  assert (Eu : us = 1731867725123457) by (specialize (E ltac:(exists 1731867725123457; lia)); lia). clear E. subst us.
  destruct (message_ok (fun s => s - 3600 * hours) text _ I) as (ns & Hn & B); [unfold until_2106; lia|..];
    change (1731867725123457 / 10 ^ 6) with 1731867725 in *; change (1731867725123457 mod 10 ^ 6) with 123457 in *; cbv beta zeta in *.
  - lia.
  - unfold until_2106. lia.
  - exists text, 1731867725123457, ns. split; [exact I|]. split; [exact Hn|]. lia.
Qed.
Print Assumptions C114_message_refuted.

Example C114_example : ns_to_iso_str 1731867725123457000 = Ok (lit "2024-11-17T18:22:05.123457Z")
  /\ ns_to_iso_str 951782400000000999 = Ok (lit "2000-02-29T00:00:00.000001Z")
  /\ oc_time_to_nanos (fun s => s) (lit "2024-11-17T18:22:05.123457Z") = Some 1731867725123457024
  /\ oc_time_to_nanos (fun s => s) (lit "2024-02-30T18:22:05.123457Z") = None.
Proof. vm_compute. auto. Qed.
Definition ex_seconds : pyfloat := binary_normalize 53 1024 prec64 emax64 mode_NE 3 (-1) false.
Example C114_hypotheses : utc_instant (lit "2000-02-29T00:00:00.000001Z") 951782400000001 /\ 0 <= 951782400000000999 < until_2106
  /\ nearest_float (1500000000 / 1000000000) ex_seconds /\ log_timestamp ex_seconds = Ok 1500000000.
Proof.
  split; [|split; [unfold until_2106; lia|]].
  - change 951782400000001 with (951782400 * 10 ^ 6 + 1). apply utc_text_ok; [lia|lia|]. vm_compute. reflexivity.
  - split; [|vm_compute; reflexivity]. split; [reflexivity|]. intros g _.
    assert (E : B2R ex_seconds = (3 / 2)%R).
    { unfold ex_seconds. destruct (Proof_FloatExp.normalize_R 3 (-1)) as [_ R].
      - apply Proof_FloatExp.format_small; lia.
      - unfold F2R. cbn [Fnum Fexp]. change (bpow radix2 (-1)) with (/ 2)%R. rewrite Rabs_pos_eq by lra.
        apply Rlt_trans with (bpow radix2 1); [change (bpow radix2 1) with 2%R; lra|apply bpow_lt; lia].
      - rewrite R. unfold F2R. cbn [Fnum Fexp]. change (bpow radix2 (-1)) with (/ 2)%R. lra. }
    rewrite E. replace (3 / 2 - 1500000000 / 1000000000)%R with 0%R by lra. rewrite Rabs_R0. apply Rabs_pos.
Qed.

(** Findings: the text is not the nearest microsecond (nor the one that has begun); after 2106 whole microseconds are changed; a log record created
    at 1.001 seconds gets the timestamp 1000999999; a log record without a timestamp, which is the default, cannot be printed. *)
Theorem C114_nearest_refuted : exists ns text us, 0 <= ns < until_2106 /\ ns_to_iso_str ns = Ok text /\ utc_instant text us /\ us * 1000 - ns < -700.
Proof.
  exists 1731868450275012734, (lit "2024-11-17T18:34:10.275012Z"), (1731868450 * 10 ^ 6 + 275012). split; [unfold until_2106; lia|].
  split; [vm_compute; reflexivity|]. split; [apply utc_text_ok; [lia|lia|vm_compute; reflexivity]|lia].
Qed.
Print Assumptions C114_nearest_refuted.
Theorem C114_far_refuted : exists us text us', ns_to_iso_str (us * 1000) = Ok text /\ utc_instant text us' /\ us' <> us.
Proof.
  exists 8601280872978774, (lit "2242-07-25T20:41:12.978773Z"), (8601280872 * 10 ^ 6 + 978773).
  split; [vm_compute; reflexivity|]. split; [apply utc_text_ok; [lia|lia|vm_compute; reflexivity]|lia].
Qed.
Print Assumptions C114_far_refuted.
Theorem C114_exact_refuted : exists seconds ns, nearest_float (1001000000 / 1000000000) seconds /\ log_timestamp seconds = Ok ns /\ ns <> 1001000000.
Proof.
  assert (L : match over_1e9 1001000000 with Ok f => log_timestamp f | Raises e => Raises e end = Ok 1000999999) by (vm_compute; reflexivity).
  pose proof (over_1e9_R 1001000000) as R. revert L R. generalize (over_1e9 1001000000). intros [t|e] L R; [|discriminate].
  exists t, 1000999999. split; [|split; [exact L|lia]]. clear L. destruct (R t ltac:(lia) eq_refl) as (F & E & _).
  apply rnd_nearest; [exact F|]. rewrite E. f_equal. f_equal. apply Generic_fmt.round_generic; [typeclasses eauto|]. now apply int_format.
Qed.
Print Assumptions C114_exact_refuted.
Theorem C114_no_timestamp_refuted : forall observed, log_times None observed = Raises "TypeError".
Proof. reflexivity. Qed.
Print Assumptions C114_no_timestamp_refuted.
