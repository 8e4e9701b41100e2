(** Exemplars: C48, C64, C65. *)
From Verif Require Import Spec_Exemplar Proof_Exemplar Proof_Sampled.
Local Open Scope Z_scope.

(** C48: a reservoir of fixed size.  For every history and every outcome of the draws, each collection
    returns at most [size] exemplars, of different measurements offered since the collection before; as many as there were
    measurements, or [size - 1] (the next one can replace one of these), and at least one. *)
Theorem C48_fixed_size : forall size h, (forall iv, In iv (intervals [] h) -> draws_ok (fst iv)) ->
  Forall2 (fun iv es => Z.of_nat (length es) <= Z.max 0 size
      /\ Z.min (Z.of_nat (length (fst iv))) (size - 1) <= Z.of_nat (length es) /\ (fst iv <> [] -> 0 < size -> es <> [])
      /\ taken_from (snd iv) (map fst (fst iv)) es)
    (intervals [] h) (snd (rrun (simple_new size) h)).
Proof. exact simple_sound. Qed.
Print Assumptions C48_fixed_size.

(** C48: the aligned histogram reservoir returns the last measurement of each bucket, in bucket order. *)
Theorem C48_aligned : forall bounds h, sorted bounds ->
  Forall2 (fun iv es =>
      Forall2 (exemplar_of (snd iv))
        (flat_map (fun i => match last_with (fun m => in_bucket bounds i (me_value m)) (map fst (fst iv)) with
                            | Some m => [m] | None => [] end) (seq 0 (S (length bounds)))) es
      /\ taken_from (snd iv) (map fst (fst iv)) es)
    (intervals [] h) (snd (rrun (aligned_new bounds) h)).
Proof. exact aligned_last. Qed.
Print Assumptions C48_aligned.

Definition ex_a : mattrs := [(lit "route", PStr false (lit "/x")); (lit "user", PStr false (lit "u7"))].
Definition ex_point : mattrs := [(lit "route", PStr false (lit "/x"))].
Definition m1 := Meas 3 100 (Some ex_a) (Some (11%N, 12%N, true)).
Definition m2 := Meas 8 101 (Some ex_a) None.
Definition m3 := Meas 4 102 None (Some (21%N, 22%N, false)).
Example C48_example :
  let h := [Offer m1 0; Offer m2 1; Offer m3 1; RCollect ex_point; RCollect ex_point; Offer m3 0; RCollect []] in
  (forall iv, In iv (intervals [] h) -> draws_ok (fst iv)) /\ length (intervals [] h) = 3%nat
  /\ snd (rrun (simple_new 2) h)
     = [[Ex (Some [(lit "user", PStr false (lit "u7"))]) 3 100 (Some 11%N) (Some 12%N); Ex None 4 102 (Some 21%N) (Some 22%N)]; [];
        [Ex None 4 102 (Some 21%N) (Some 22%N)]]
  /\ snd (rrun (aligned_new [5; 10]) h)
     = [[Ex None 4 102 (Some 21%N) (Some 22%N); Ex (Some [(lit "user", PStr false (lit "u7"))]) 8 101 None None]; [];
        [Ex None 4 102 (Some 21%N) (Some 22%N)]].
Proof.
  cbv zeta. split; [|vm_compute; repeat split].
  intros iv [<-|[<-|[<-|[]]]] i m d E; cbn [fst] in E;
    repeat (destruct i as [|i]; [cbn in E; injection E as <- <-; cbn; split; easy|]); destruct i; discriminate.
Qed.

(** C64: until [size] measurements were offered, all are kept. *)
Theorem C64_all_kept_partial : forall size ms j m, NoDup (map me_value ms) -> nth_error ms j = Some m ->
  Z.of_nat (length ms) < size ->
  ways_kept size ms (me_value m) = Z.of_nat (length (all_draws (length ms))).
Proof. exact kept_all. Qed.
Print Assumptions C64_all_kept_partial.

(** C64: afterwards a measurement is kept in size/n of the outcomes of the draws; but one of the first
    size-1 measurements only in (size-1)/n of them. *)
Theorem C64_share_partial : forall size ms j m, NoDup (map me_value ms) -> nth_error ms j = Some m ->
  1 <= size <= Z.of_nat (length ms) ->
  ways_kept size ms (me_value m) * Z.of_nat (length ms)
  = (if Z.of_nat j + 1 <? size then size - 1 else size) * Z.of_nat (length (all_draws (length ms))).
Proof. exact kept_share. Qed.
Print Assumptions C64_share_partial.

(** C64: with the default size of one the sample is uniform. *)
Theorem C64_uniform_default : forall ms j m, NoDup (map me_value ms) -> nth_error ms j = Some m ->
  ways_kept 1 ms (me_value m) * Z.of_nat (length ms) = Z.of_nat (length (all_draws (length ms))).
Proof.
  intros ms j m ND E. rewrite (kept_share 1 ms j m ND E).
  - destruct (Z.ltb_spec (Z.of_nat j + 1) 1); [|now rewrite Z.mul_1_l]. exfalso. revert H. clear. intro. Lia.lia.
  - destruct ms; [destruct j; discriminate|]. cbn [length]. Lia.lia.
Qed.
Print Assumptions C64_uniform_default.

(** C64 is false for larger sizes: with size 2 the second of two measurements can replace the first,
    although there is room for both; and the sample is not uniform. *)
Theorem C64_room_refuted : exists size ms draws, In draws (all_draws (length ms)) /\ Z.of_nat (length ms) <= size
  /\ length (sampled size ms draws) <> length ms.
Proof. exists 2, [m1; m2], [0; 0]. vm_compute. split; [now left|]. split; [discriminate|discriminate]. Qed.
Print Assumptions C64_room_refuted.
Theorem C64_uniform_refuted : exists size ms m m', In m ms /\ In m' ms /\ NoDup (map me_value ms)
  /\ 1 <= size <= Z.of_nat (length ms) /\ ways_kept size ms (me_value m) <> ways_kept size ms (me_value m').
Proof.
  exists 2, [m1; m2; m3], m1, m2. split; [now left|]. split; [right; now left|]. split.
  - cbn. repeat (constructor; [cbn; intuition discriminate|]). constructor.
  - split; [cbn; Lia.lia|]. vm_compute. discriminate.
Qed.
Print Assumptions C64_uniform_refuted.
Example C64_example : NoDup (map me_value [m1; m2; m3])
  /\ length (all_draws 3) = 6%nat
  /\ map (fun m => ways_kept 1 [m1; m2; m3] (me_value m)) [m1; m2; m3] = [2; 2; 2]
  /\ map (fun m => ways_kept 2 [m1; m2; m3] (me_value m)) [m1; m2; m3] = [2; 4; 4]
  /\ map (fun m => ways_kept 4 [m1; m2; m3] (me_value m)) [m1; m2; m3] = [6; 6; 6].
Proof.
  split; [cbn; repeat (constructor; [cbn; intuition discriminate|]); constructor|]. vm_compute. repeat split.
Qed.

(** C65: an exemplar names the span its measurement was made in, if it was made in one or no measurement
    of the interval was.  Fixed size and aligned, after any filter. *)
Theorem C65_span_partial : forall f size h,
  (forall iv, In iv (intervals [] h) -> draws_ok (filter (fun md => lets_through f (fst md)) (fst iv))) ->
  Forall2 (fun iv es => let offered := filter (lets_through f) (map fst (fst iv)) in
       taken_with (span_rule offered) (snd iv) offered es)
    (intervals [] h) (snd (frun f (simple_new size) h)).
Proof. intros f size h. exact (filtered_span (simple_new size) draws_ok f h (simple_span size)). Qed.
Print Assumptions C65_span_partial.
Theorem C65_aligned_span_partial : forall f bounds h,
  Forall2 (fun iv es => let offered := filter (lets_through f) (map fst (fst iv)) in
       taken_with (span_rule offered) (snd iv) offered es)
    (intervals [] h) (snd (frun f (aligned_new bounds) h)).
Proof.
  intros f bounds h. apply (filtered_span (aligned_new bounds) (fun _ => True) f h); [|easy].
  intros h' _. apply aligned_span.
Qed.
Print Assumptions C65_aligned_span_partial.
(** C65: with the default filter every exemplar names the sampled span its measurement was made in. *)
Theorem C65_trace_based : forall size h,
  (forall iv, In iv (intervals [] h) -> draws_ok (filter (fun md => lets_through TraceBasedFilter (fst md)) (fst iv))) ->
  Forall2 (fun iv es => taken_with (fun m e => names_span m e /\ exists s t, me_span m = Some (s, t, true))
                          (snd iv) (filter (lets_through TraceBasedFilter) (map fst (fst iv))) es)
    (intervals [] h) (snd (frun TraceBasedFilter (simple_new size) h)).
Proof. exact trace_based. Qed.
Print Assumptions C65_trace_based.
Theorem C65_off : forall size h,
  Forall (fun es => es = []) (snd (frun AlwaysOffFilter (simple_new size) h)).
Proof. exact always_off. Qed.
Print Assumptions C65_off.
(** C65 is false otherwise: a measurement outside of any span that replaces one made in a span is
    reported with that span's ids. *)
Theorem C65_span_refuted : exists h m e, snd (frun AlwaysOnFilter (simple_new 1) h) = [[e]]
  /\ exemplar_of [] m e /\ map fst (fst (hd ([], []) (intervals [] h))) = [m1; m]
  /\ me_span m = None /\ ex_trace_id e = Some 12%N.
Proof.
  exists [Offer m1 0; Offer m2 0; RCollect []], m2. eexists. split; [vm_compute; reflexivity|].
  split; [|vm_compute; repeat split]. vm_compute. repeat split; discriminate.
Qed.
Print Assumptions C65_span_refuted.
Example C65_example :
  let h := [Offer m1 0; Offer m2 0; Offer m3 0; RCollect ex_point] in
  (forall iv, In iv (intervals [] h) -> draws_ok (filter (fun md => lets_through TraceBasedFilter (fst md)) (fst iv)))
  /\ snd (frun TraceBasedFilter (simple_new 1) h)
     = [[Ex (Some [(lit "user", PStr false (lit "u7"))]) 3 100 (Some 11%N) (Some 12%N)]].
Proof.
  cbv zeta. split; [|vm_compute; reflexivity].
  intros iv [<-|[]] i m d E; cbn [fst] in E.
  destruct i as [|i]; [cbn in E; injection E as <- <-; cbn; split; easy|]. destruct i; discriminate.
Qed.
