(** C129: what arguments, environment variables and defaults make of the settings. *)
From Verif Require Import Proof_Str Proof_Dict Proof_Provider Model_Settings Proof_Settings Proof_Processor Spec_Processor Props_Processor Spec_Settings.
Local Open Scope Z_scope.

(** ** Integers *)
(** [int] accepts exactly the texts described by [integer_text], with the value described there.  The only thing assumed
    about the Unicode digits is that none of them is a blank. *)
Theorem C129_int : forall nd limit, (forall c d, nd c = Some d -> int_space c = false) ->
  forall s z, py_int nd limit s = Some z <-> integer_text nd limit s z.
Proof. exact py_int_iff. Qed.
Print Assumptions C129_int.
Example C129_int_case :
  map (py_int (fun _ => None) (Some 8)) [lit " 12_345 "; lit "-7"; lit "+0"; lit "1__2"; lit "_1"; lit "1_"; lit "- 1"; lit ""; lit "1.5"; lit "123456789"]
  = [Some 12345; Some (-7); Some 0; None; None; None; None; None; None; None].
Proof. reflexivity. Qed.
Example C129_digits_case : forall c d, (fun c : N => if N.eqb c 1632 then Some 0%N else None) c = Some d -> int_space c = false.
Proof. intros c d. cbv beta. destruct (N.eqb_spec c 1632) as [->|]; [reflexivity|discriminate]. Qed.

(** ** Batch processors *)
(** Whatever is given and whatever the environment holds, the four settings are determined, each by itself; the
    constructor gives a processor with these settings if they are valid and the queue length fits the machine, and raises
    otherwise. *)
Theorem C129_batch : forall nd limit environ, (forall c d, nd c = Some d -> int_space c = false) ->
  forall g a, exists s, batch_settings_are nd limit environ g a s
  /\ (forall s', batch_settings_are nd limit environ g a s' -> s' = s)
  /\ (new_batch_processor nd limit environ g a = Ok s <-> batch_settings_valid s /\ bs_queue s < 2 ^ 63)
  /\ (new_batch_processor nd limit environ g a = Raises "ValueError" <-> ~ batch_settings_valid s)
  /\ (new_batch_processor nd limit environ g a = Raises "OverflowError" <-> batch_settings_valid s /\ 2 ^ 63 <= bs_queue s)
  /\ forall s', new_batch_processor nd limit environ g a = Ok s' -> s' = s.
Proof.
  intros nd lim env H g a. destruct (batch_settings_total nd lim H env g a) as (s & S & U). exists s. split; [exact S|]. split; [exact U|].
  destruct (new_batch_processor_cases nd lim H env g a s S) as [(V & Q & ->)|[(V & Q & ->)|(V & ->)]].
  all: (split; [split|split; [split|split; [split|]]]); intros; try discriminate; try reflexivity; try tauto; try congruence; lia.
Qed.
Print Assumptions C129_batch.
Definition env_of (l : list (string * string)) (k : str) : option str :=
  option_map (fun p => lit (snd p)) (find (fun p => str_eqb (lit (fst p)) k) l).
Example C129_batch_case :
  new_batch_processor (fun _ => None) (Some 4300) (env_of [("OTEL_BSP_MAX_QUEUE_SIZE", " 1_000"); ("OTEL_BSP_SCHEDULE_DELAY", "5s"); ("OTEL_BLRP_SCHEDULE_DELAY", "1")]%string)
    Spans (BatchArgs None None (Some 100) None) = Ok (BatchSettings 1000 5000 100 30000)
  /\ new_batch_processor (fun _ => None) None (env_of [("OTEL_BSP_SCHEDULE_DELAY", "0")]%string) Spans (BatchArgs None None None None) = Raises "ValueError"
  /\ new_batch_processor (fun _ => None) None (env_of []) LogRecords (BatchArgs (Some (2 ^ 63)) None None (Some (-1))) = Raises "OverflowError".
Proof. repeat split; reflexivity. Qed.

(** A processor that the constructor gives never queues and never hands over more than these settings say (C35 without
    its hypotheses). *)
Theorem C129_bounds : forall nd limit environ g a s, new_batch_processor nd limit environ g a = Ok s ->
  forall (item : Type) (sampled : item -> bool) st, bsp_reach item sampled (Z.to_nat (bs_queue s)) (Z.to_nat (bs_batch s)) st ->
  Z.of_nat (length (b_queue st)) <= bs_queue s
  /\ forall b, In (XExport b) (b_log st) -> 1 <= Z.of_nat (length b) <= bs_batch s.
Proof.
  intros nd lim env g a s E item sampled st R.
  assert (V : 0 < bs_batch s <= bs_queue s).
  { unfold new_batch_processor in E. cbv zeta in E.
    repeat match type of E with (if ?x then _ else _) = _ => destruct x eqn:?; [discriminate|] end. injection E as <-. cbn.
    repeat match goal with X : _ = false |- _ => first [apply Z.leb_gt in X | apply Z.ltb_ge in X] end. lia. }
  destruct (C35_bounds item sampled (Z.to_nat (bs_queue s)) (Z.to_nat (bs_batch s)) ltac:(lia) ltac:(lia) st R) as [A B].
  split; [lia|]. intros b I. specialize (B b I). lia.
Qed.
Print Assumptions C129_bounds.

(** That a positive queue length in the environment is enough is wrong: a value under 512 makes the constructor raise
    unless the batch size is set too. *)
Theorem C129_small_queue_refuted :
  exists text z, integer_text (fun _ => None) None text z /\ 0 < z
  /\ new_batch_processor (fun _ => None) None (fun k => if str_eqb k (lit "OTEL_BSP_MAX_QUEUE_SIZE") then Some text else None)
       Spans (BatchArgs None None None None) = Raises "ValueError".
Proof.
  exists (lit "511"), 511. split; [apply py_int_iff; [discriminate|reflexivity]|]. split; [reflexivity|reflexivity].
Qed.
Print Assumptions C129_small_queue_refuted.

(** ** The periodic reader *)
(** Its interval is the argument, else the number in the variable, else 60000; there is no reader for an interval that is
    zero or negative, and it has a thread if the interval is a finite number. *)
Theorem C129_interval : forall environ py_float arg,
  let i := reader_interval environ py_float arg in
  (match arg with
   | Some x => i = x
   | None => (exists s, environ (lit "OTEL_METRIC_EXPORT_INTERVAL") = Some s /\ py_float s = Some i)
             \/ (forall s, environ (lit "OTEL_METRIC_EXPORT_INTERVAL") = Some s -> py_float s = None) /\ i = IFin 60000
   end)
  /\ (start_ticker i = None <-> exists z, i = IFin z /\ z <= 0)
  /\ (start_ticker i = Some true <-> exists z, i = IFin z /\ 0 < z).
Proof.
  intros env pf arg i. split.
  - unfold i, reader_interval. destruct arg; [reflexivity|]. destruct (env _) as [s|]; [|right; split; [discriminate|reflexivity]].
    destruct (pf s) eqn:E; [left; eauto|right; split; [intros s' [= <-]; exact E|reflexivity]].
  - clearbody i. clear. destruct i as [z| |]; cbn; [|split; (split; [discriminate|intros (z & X & _); discriminate])..].
    destruct (Z.ltb_spec 0 z); (split; (split; [try discriminate; intros _; exists z; auto|intros (z' & [= <-] & ?); try reflexivity; lia])).
Qed.
Print Assumptions C129_interval.
Example C129_interval_case :
  reader_interval (env_of [("OTEL_METRIC_EXPORT_INTERVAL", "500")]%string) (fun s => option_map IFin (py_int (fun _ => None) None s)) None = IFin 500
  /\ reader_interval (env_of [("OTEL_METRIC_EXPORT_INTERVAL", "soon")]%string) (fun s => option_map IFin (py_int (fun _ => None) None s)) None = IFin 60000
  /\ start_ticker (reader_interval (env_of []) (fun _ => None) (Some (IFin 0))) = None.
Proof. repeat split; reflexivity. Qed.

(** ** The exemplar filter *)
(** A provider that is given no filter has the one the variable names, TraceBased if it is unset, and cannot be made if it
    names none. *)
Theorem C129_filter : forall environ arg f,
  (provider_filter environ arg = Ok f <->
   arg = Some f \/ arg = None /\ (environ (lit "OTEL_METRICS_EXEMPLAR_FILTER") = Some (filter_name f)
                                  \/ environ (lit "OTEL_METRICS_EXEMPLAR_FILTER") = None /\ f = TraceBased))
  /\ (provider_filter environ arg = Raises "ValueError" <->
      arg = None /\ exists s, environ (lit "OTEL_METRICS_EXEMPLAR_FILTER") = Some s /\ forall f', s <> filter_name f').
Proof.
  intros env arg f. unfold provider_filter. destruct arg as [g|].
  - split; [split; [intros [= ->]; auto|intros [[= ->]|[X _]]; [reflexivity|discriminate]]|split; [discriminate|intros [X _]; discriminate]].
  - destruct (env (lit "OTEL_METRICS_EXEMPLAR_FILTER")) as [s|].
    + rewrite get_filter_iff, get_filter_raises. split; [|firstorder congruence].
      split; [intros ->; auto|intros [X|[_ [[= X]|[X _]]]]; [discriminate|exact X|discriminate]].
    + cbn. split; [split; [intros [= <-]; auto|intros [X|[_ [X|[_ ->]]]]; try discriminate; reflexivity]|]. split; [discriminate|intros [_ (s & X & _)]; discriminate].
Qed.
Print Assumptions C129_filter.
Example C129_filter_case :
  provider_filter (env_of [("OTEL_METRICS_EXEMPLAR_FILTER", "always_off")]%string) None = Ok AlwaysOff
  /\ provider_filter (env_of [("OTEL_METRICS_EXEMPLAR_FILTER", "ALWAYS_OFF")]%string) None = Raises "ValueError"
  /\ provider_filter (env_of [("OTEL_METRICS_EXEMPLAR_FILTER", "")]%string) (Some AlwaysOn) = Ok AlwaysOn.
Proof. repeat split; reflexivity. Qed.

(** ** Preferred aggregations *)
(** A reader accepts exactly the preferences for the SDK's instrument classes, and then uses them, and the default
    aggregation for the other instruments. *)
Theorem C129_aggregation : forall (G : Type) (default : G) preferred, NoDup (keys preferred) ->
  (reader_aggregation default (Some preferred) <> None <-> forall c g, In (c, g) preferred -> exists k, c = CKind k)
  /\ (forall d, reader_aggregation default (Some preferred) = Some d ->
       forall k, dget k d = Some match dget (CKind k) preferred with Some g => g | None => default end)
  /\ forall k, exists d, reader_aggregation default None = Some d /\ dget k d = Some default.
Proof.
  intros G df l N. unfold reader_aggregation. cbv zeta.
  assert (D0 : forall k, dget k (map (fun k => (k, df)) all_kinds) = Some df) by (intros []; reflexivity).
  set (d0 := map _ all_kinds) in *. clearbody d0.
  assert (P : Forall (fun kt : iclass * G => exists k, fst kt = CKind k) l <-> forall c g, In (c, g) l -> exists k, c = CKind k).
  { rewrite Forall_forall. split; [intros F c g X; exact (F _ X)|intros F [c g] X; exact (F c g X)]. }
  rewrite <- P. destruct (Forall_dec (fun kt : iclass * G => exists k, fst kt = CKind k)
      ltac:(intros [[k|n] t]; [left; exists k; reflexivity|right; intros [k E]; discriminate]) l) as [F|F].
  - destruct (set_aggregations_spec l d0 F N) as (d' & E & Q). rewrite E. split; [split; [auto|discriminate]|]. split.
    + intros d [= <-] k. rewrite Q, D0. now destruct (dget (CKind k) l).
    + intros k. exists d0. auto.
  - rewrite (set_aggregations_bad l d0 F). split; [split; [congruence|tauto]|]. split; [discriminate|]. intros k. exists d0. auto.
Qed.
Print Assumptions C129_aggregation.
(** With an OTLP exporter: the user's preference for the class if there is one, else for histograms the aggregation the
    variable names, explicit buckets for an unknown name, and the default aggregation for the others. *)
Theorem C129_otlp_aggregation : forall (G : Type) (default explicit exponential : G) environ user,
  let u := match user with Some u => u | None => [] end in
  NoDup (keys u) -> (forall c g, In (c, g) u -> exists k, c = CKind k) ->
  exists d, reader_aggregation default (Some (otlp_aggregation environ explicit exponential user)) = Some d
  /\ forall k, exists g, dget k d = Some g
     /\ (forall g', dget (CKind k) u = Some g' -> g = g')
     /\ (dget (CKind k) u = None -> k <> IHistogram -> g = default)
     /\ (dget (CKind k) u = None -> k = IHistogram ->
           environ (lit "OTEL_EXPORTER_OTLP_METRICS_DEFAULT_HISTOGRAM_AGGREGATION") = Some (lit "base2_exponential_bucket_histogram") /\ g = exponential
           \/ environ (lit "OTEL_EXPORTER_OTLP_METRICS_DEFAULT_HISTOGRAM_AGGREGATION") <> Some (lit "base2_exponential_bucket_histogram") /\ g = explicit).
Proof.
  intros G df ex xp env user u N A.
  pose (hist := if str_eqb (match env (lit "OTEL_EXPORTER_OTLP_METRICS_DEFAULT_HISTOGRAM_AGGREGATION") with Some s => s | None => lit "explicit_bucket_histogram" end)
                  (lit "base2_exponential_bucket_histogram") then xp else ex).
  change (otlp_aggregation env ex xp user) with (dupdate [(CKind IHistogram, hist)] u).
  assert (H : env (lit "OTEL_EXPORTER_OTLP_METRICS_DEFAULT_HISTOGRAM_AGGREGATION") = Some (lit "base2_exponential_bucket_histogram") /\ hist = xp
           \/ env (lit "OTEL_EXPORTER_OTLP_METRICS_DEFAULT_HISTOGRAM_AGGREGATION") <> Some (lit "base2_exponential_bucket_histogram") /\ hist = ex).
  { unfold hist. destruct (env _) as [s|]; [|right; split; [discriminate|reflexivity]].
    destruct (str_eqb s (lit "base2_exponential_bucket_histogram")) eqn:E; [left|right].
    - apply str_eqb_eq in E. subst s. auto.
    - apply str_eqb_neq in E. split; [congruence|reflexivity]. }
  clearbody hist u.
  assert (Nd : NoDup (keys (dupdate [(CKind IHistogram, hist)] u))) by (apply NoDup_dupdate; repeat constructor; auto).
  destruct (C129_aggregation G df _ Nd) as (I & Q & _).
  assert (Ad : forall c g, In (c, g) (dupdate [(CKind IHistogram, hist)] u) -> exists k, c = CKind k).
  { intros c g X. apply In_dget in X; [|exact Nd]. rewrite dget_dupdate in X by exact N. destruct (dget c u) eqn:E.
    - exact (A _ _ (dget_In _ _ _ E)).
    - apply dget_In in X. destruct X as [[= <- _]|[]]. eauto. }
  apply I in Ad. destruct (reader_aggregation df (Some (dupdate [(CKind IHistogram, hist)] u))) as [d|] eqn:E; [|congruence].
  exists d. split; [reflexivity|]. intros k. rewrite (Q d eq_refl k), dget_dupdate by exact N. eexists. split; [reflexivity|].
  destruct (dget (CKind k) u) as [g|] eqn:Eu; [split; [congruence|split; discriminate]|]. split; [discriminate|].
  split; intros _ K.
  - destruct k; try reflexivity. congruence.
  - subst k. exact H.
Qed.
Print Assumptions C129_otlp_aggregation.
Example C129_aggregation_case :
  option_map (fun d => map (fun k => dget k d) [ICounter; IHistogram; IGauge])
    (reader_aggregation 0%nat (Some (otlp_aggregation (env_of [("OTEL_EXPORTER_OTLP_METRICS_DEFAULT_HISTOGRAM_AGGREGATION", "base2_exponential_bucket_histogram")]%string) 1%nat 2%nat (Some [(CKind IGauge, 7%nat)]))))
  = Some [Some 0%nat; Some 2%nat; Some 7%nat]
  /\ reader_aggregation 0%nat (Some [(COther 3, 1%nat)]) = None.
Proof. split; reflexivity. Qed.
