(** Properties of the settings of the OTLP exporters (C91, C92, C93). *)
From Verif Require Import Proof_OtlpConfig.
Local Open Scope Z_scope.

(** ** C91: what an HTTP exporter sends, and where, is what its arguments and the variables said when it was made *)

(** In every history of a program that sets variables, makes sessions, exporters and exports: an exporter with a session of
    its own can be made exactly if its timeout and its compression make sense, and then every export posts a request with the
    chosen URL, timeout, certificates, compression and headers.  What is set afterwards, and what other exporters do, makes no
    difference. *)
Theorem C91_http_requests :
  forall (pylower : str -> str) (pyint : str -> option Z) (gzip deflate : str -> str) (session_defaults : dict str str) (version : str),
  (forall w, Forall (fun c => (c < 128)%N) w -> pylower w = lower w) ->
  forall (d : environment) before s a between data after,
  NoDup (keys d) -> ha_session a = None ->
  let n := exporters_before before in
  let outputs := snd (h_run pylower pyint gzip deflate session_defaults version (h_start d)
                        (before ++ HNew s a :: between ++ HExport n data :: after)) in
  let e := var_after (fun k => dget k d) before in
  (nth_error outputs (length before) = Some HDone
   <-> (exists t, http_wait pyint s (ha_timeout a) e t) /\ exists c, http_compression pylower s (ha_compression a) e c)
  /\ (nth_error outputs (length before) = Some HDone ->
      exists r, nth_error outputs (length before + S (length between)) = Some (HPosted r)
             /\ right_request pylower pyint gzip deflate session_defaults version s a e data r).
Proof. intros. apply own_posts; auto. Qed.
Print Assumptions C91_http_requests.

(** The receiver gets the encoded data, unless a Content-Encoding was configured. *)
Theorem C91_received :
  forall (pylower : str -> str) (pyint : str -> option Z) (gzip deflate gunzip inflate : str -> str)
    (session_defaults : dict str str) (version : str),
  (forall w, Forall (fun c => (c < 128)%N) w -> pylower w = lower w) ->
  (forall x, gunzip (gzip x) = x) -> (forall x, inflate (deflate x) = x) ->
  forall s a e data r,
  last_named pylower (lit "Content-Encoding") (configured_headers pylower s (ha_headers a) e) = None ->
  last_named pylower (lit "Content-Encoding") session_defaults = None ->
  right_request pylower pyint gzip deflate session_defaults version s a e data r ->
  received pylower gunzip inflate r = Some data.
Proof. intros. eapply own_received; eauto. Qed.
Print Assumptions C91_received.

(** For exporters that share a session of the program this fails: the one made without compression sends plain data that
    the header calls gzip, and sends the other one's headers. *)
Definition shared_history : list hop :=
  [HNewSession;
   HNew Traces (HttpArgs None None None None (Some [(lit "Authorization", lit "for traces")]) None (Some Gzip) (Some 0%nat));
   HNew Logs (HttpArgs None None None None None None (Some NoCompression) (Some 0%nat));
   HExport 1 (lit "logs")].
Theorem C91_shared_session_refuted : forall gzip deflate version,
  exists r, nth_error (snd (h_run lower (fun _ => None) gzip deflate [] version (h_start []) shared_history)) 3 = Some (HPosted r)
    /\ rq_url r = lit "http://localhost:4318/v1/logs"
    /\ rq_body r = lit "logs"
    /\ header lower r (lit "Content-Encoding") = Some (lit "gzip")
    /\ header lower r (lit "Authorization") = Some (lit "for traces").
Proof. intros. eexists. split; [vm_compute; reflexivity|]. repeat split; vm_compute; reflexivity. Qed.
Print Assumptions C91_shared_session_refuted.

(** Example: variables changed after the exporter was made, another exporter in between. *)
Definition history : list hop * signal * http_args * list hop :=
  ([HSetEnv (lit "OTEL_EXPORTER_OTLP_ENDPOINT") (lit "https://collector:4318"); HNewSession;
    HSetEnv (lit "OTEL_EXPORTER_OTLP_HEADERS") (lit "api-key=secret"); HSetEnv (lit "OTEL_EXPORTER_OTLP_LOGS_TIMEOUT") (lit "7");
    HNew Traces (HttpArgs None None None None None None (Some Deflate) (Some 0%nat))],
   Logs, HttpArgs None None None None None None (Some Gzip) None,
   [HSetEnv (lit "OTEL_EXPORTER_OTLP_ENDPOINT") (lit "http://other"); HDelEnv (lit "OTEL_EXPORTER_OTLP_HEADERS")]).
Example C91_example :
  let '(before, s, a, between) := history in
  exists r,
  nth_error (snd (h_run lower (fun v => if str_eqb v (lit "7") then Some 7 else None) (fun x => 0%N :: x) (fun x => 1%N :: x) [] (lit "1.32.0")
                    (h_start []) (before ++ HNew s a :: between ++ [HExport (exporters_before before) (lit "data")])))
            (length before + S (length between)) = Some (HPosted r)
  /\ rq_url r = lit "https://collector:4318/v1/logs" /\ rq_timeout r = 7
  /\ header lower r (lit "API-Key") = Some (lit "secret") /\ header lower r (lit "content-encoding") = Some (lit "gzip")
  /\ rq_body r = 0%N :: lit "data".
Proof. eexists. split; [vm_compute; reflexivity|]. repeat split; vm_compute; reflexivity. Qed.

(** ** C92: a program that asks for TLS gets it, with the certificates it named *)

(** HTTP: the server's certificate is checked, unless a variable for it is set to the empty text. *)
Theorem C92_http_checked_partial :
  forall pylower pyint gzip deflate session_defaults version s a e data r,
  e (variable (Some s) Certificate) <> Some [] -> e (variable None Certificate) <> Some [] ->
  right_request pylower pyint gzip deflate session_defaults version s a e data r -> server_checked r.
Proof.
  intros * H1 H2 (_ & _ & V & _). unfold server_checked. rewrite V. unfold choice. cbn [first_given].
  destruct (ha_certificate a) as [[|]|]; cbn [unless_empty]; try discriminate;
    (destruct (e (variable (Some s) Certificate)); [congruence|]; destruct (e (variable None Certificate)); [congruence|discriminate]).
Qed.
Print Assumptions C92_http_checked_partial.
(** Missing: an empty variable switches the check off, where it should count as unset. *)
Theorem C92_http_checked_refuted : forall gzip deflate version,
  exists r, nth_error (snd (h_run lower (fun _ => None) gzip deflate [] version (h_start [(lit "OTEL_EXPORTER_OTLP_CERTIFICATE", [])])
                              [HNew Traces (HttpArgs (Some (lit "https://collector/v1/traces")) None None None None None None None);
                               HExport 0 (lit "spans")])) 1 = Some (HPosted r)
    /\ rq_url r = lit "https://collector/v1/traces" /\ ~ server_checked r.
Proof. intros. eexists. split; [vm_compute; reflexivity|]. split; [vm_compute; reflexivity|]. unfold server_checked. intros H. apply H. reflexivity. Qed.
Print Assumptions C92_http_checked_refuted.

Section Grpc.
Variable pylower : str -> str.
Variable pyint : str -> option Z.
Variable version : str.
Variable creds : Type.
Variable ssl : option str -> option str -> option str -> creds.
Variable files : str -> file.
Variable urlparse : str -> option (str * str).
Notation grpc_init := (grpc_init pylower pyint version creds ssl files urlparse).

(** gRPC: an https endpoint is never spoken to in plaintext, whatever the other settings are. *)
Theorem C92_https_is_encrypted : forall s a d x netloc,
  urlparse (grpc_address s (ga_endpoint creds a) (fun k => dget k d)) = Some (lit "https", netloc) ->
  grpc_init s a d = Ok x -> ge_credentials creds x <> None.
Proof.
  intros s a d x netloc Hu Hx Hn.
  destruct (grpc_init_spec pylower pyint version creds ssl files urlparse s a d _ x (fun k => eq_refl) Hx) as (sch & net & Hu' & _ & Hp & _).
  rewrite Hu in Hu'. assert (E : sch = lit "https") by congruence. apply Hp in Hn. destruct Hn as [C _]. exact (C E).
Qed.
(** Nor is any endpoint, if the program says so. *)
Theorem C92_insecure_false : forall s a d x,
  ga_insecure creds a = Some false -> grpc_init s a d = Ok x -> ge_credentials creds x <> None.
Proof.
  intros s a d x Hi Hx Hn.
  destruct (grpc_init_spec pylower pyint version creds ssl files urlparse s a d _ x (fun k => eq_refl) Hx) as (sch & net & _ & _ & Hp & _).
  apply Hp in Hn. destruct Hn as [_ C]. rewrite Hi in C. discriminate.
Qed.
(** The credentials are the argument, else made of the files the signal's variables name, else those of the general ones. *)
Theorem C92_credentials_partial : forall s a d x c,
  let e := fun k => dget k d in
  grpc_init s a d = Ok x -> ge_credentials creds x = Some c ->
  ga_credentials creds a <> None
  \/ (e (variable (Some s) Certificate) <> Some [] /\ wishes_plaintext pylower s (ga_insecure creds a) e <> Some true) ->
  c = grpc_credentials creds ssl files s (ga_credentials creds a) e.
Proof.
  intros s a d x c e Hx Hc Hr.
  destruct (grpc_init_spec pylower pyint version creds ssl files urlparse s a d e x (fun k => eq_refl) Hx) as (sch & net & _ & _ & _ & _ & _ & _ & H).
  apply H; assumption.
Qed.

(** ** C93: the other settings of a gRPC exporter *)
Theorem C93_grpc_settings : forall s a d x,
  let e := fun k => dget k d in
  let address := grpc_address s (ga_endpoint creds a) e in
  grpc_init s a d = Ok x ->
  exists scheme netloc, urlparse address = Some (scheme, netloc)
  /\ ge_target creds x = match netloc with [] => address | _ => netloc end
  /\ (ge_credentials creds x = None <-> plaintext pylower s (ga_insecure creds a) e scheme)
  /\ grpc_wait pyint s (ga_timeout creds a) e (ge_timeout creds x)
  /\ grpc_compression pylower s (ga_compression creds a) e (ge_compression creds x)
  /\ ge_metadata creds x = grpc_metadata pylower version s (ga_headers creds a) e.
Proof.
  intros s a d x e address Hx.
  destruct (grpc_init_spec pylower pyint version creds ssl files urlparse s a d e x (fun k => eq_refl) Hx) as (sch & net & A & B & C & D & E & F & _).
  exists sch, net. tauto.
Qed.
(** It can be made exactly if the address is a URL, the timeouts are numbers and the compression is known. *)
Theorem C93_grpc_made : forall s a d,
  let e := fun k => dget k d in
  (forall f, files f <> Unreadable) ->
  ((exists x, grpc_init s a d = Ok x)
   <-> urlparse (grpc_address s (ga_endpoint creds a) e) <> None
       /\ (forall v, e (variable (Some s) Timeout) = Some v -> pyint v <> None)
       /\ (exists t, grpc_wait pyint s (ga_timeout creds a) e t)
       /\ exists c, grpc_compression pylower s (ga_compression creds a) e c).
Proof. intros s a d e Hf. apply grpc_init_ok; [intros k; reflexivity|exact Hf]. Qed.
End Grpc.
Print Assumptions C92_https_is_encrypted.
Print Assumptions C92_insecure_false.
Print Assumptions C92_credentials_partial.
Print Assumptions C93_grpc_settings.
Print Assumptions C93_grpc_made.

Definition url1 (u : str) : option (str * str) :=
  if str_eqb u (lit "https://collector:4317") then Some (lit "https", lit "collector:4317")
  else if str_eqb u (lit "http://localhost:4317") then Some (lit "http", lit "localhost:4317")
  else Some ([], []).
Definition files1 (f : str) : file := if str_eqb f (lit "ca.pem") then Contents (lit "CA") else NotFound.
Notation grpc1 := (grpc_init lower (fun _ => None) (lit "1.32.0") (option str * option str * option str) (fun a b c => (a, b, c)) files1 url1).
Notation args1 u i := (GrpcArgs (option str * option str * option str) u i None None None None).

Example C92_example :
  exists x, grpc1 Traces (args1 (Some (lit "https://collector:4317")) None)
              [(lit "OTEL_EXPORTER_OTLP_INSECURE", lit "true"); (lit "OTEL_EXPORTER_OTLP_TRACES_CERTIFICATE", lit "ca.pem")] = Ok x
    /\ ge_credentials _ x = Some (Some (lit "CA"), None, None) /\ ge_target _ x = lit "collector:4317".
Proof. eexists. split; [vm_compute; reflexivity|]. split; reflexivity. Qed.
Example C93_example :
  exists x, grpc1 Logs (args1 None None)
              [(lit "OTEL_EXPORTER_OTLP_LOGS_COMPRESSION", lit " GZIP"); (lit "OTEL_EXPORTER_OTLP_HEADERS", lit "k=v")] = Ok x
    /\ ge_credentials _ x = None /\ ge_compression _ x = GGzip /\ ge_timeout _ x = 10
    /\ ge_metadata _ x = [(lit "k", lit "v"); (lit "user-agent", lit "OTel-OTLP-Exporter-Python/1.32.0")].
Proof. eexists. split; [vm_compute; reflexivity|]. repeat split; reflexivity. Qed.

(** Missing in C92_credentials_partial: with insecure=True, which https overrides, the signal's certificate is not read, and
    the default roots are trusted. *)
Theorem C92_credentials_refuted :
  exists x, grpc1 Traces (args1 (Some (lit "https://collector:4317")) (Some true)) [(lit "OTEL_EXPORTER_OTLP_TRACES_CERTIFICATE", lit "ca.pem")] = Ok x
    /\ ge_credentials _ x = Some (None, None, None).
Proof. eexists. split; vm_compute; reflexivity. Qed.
Print Assumptions C92_credentials_refuted.
(** A certificate file that is not there is as if none was named: the default roots are trusted. *)
Theorem C92_missing_file_refuted :
  exists x, grpc1 Traces (args1 (Some (lit "https://collector:4317")) None) [(lit "OTEL_EXPORTER_OTLP_CERTIFICATE", lit "gone.pem")] = Ok x
    /\ ge_credentials _ x = Some (None, None, None).
Proof. eexists. split; vm_compute; reflexivity. Qed.
Print Assumptions C92_missing_file_refuted.
(** The documented value "deflate" of the compression variables, and "none" of the specification, are refused by the gRPC
    exporters. *)
Theorem C93_compression_values_refuted :
  forall v, v = lit "deflate" \/ v = lit "none" ->
  exists e, grpc1 Traces (args1 None None) [(lit "OTEL_EXPORTER_OTLP_COMPRESSION", v)] = Raises e.
Proof. intros v [->| ->]; eexists; vm_compute; reflexivity. Qed.
Print Assumptions C93_compression_values_refuted.
