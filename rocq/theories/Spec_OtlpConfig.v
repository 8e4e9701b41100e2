(** Specification vocabulary: the settings of an OTLP exporter, as documented. *)
From Verif Require Export Model_OtlpConfig.
Local Open Scope Z_scope.

(** The environment variables, written out. *)
Definition variable (s : option signal) (x : setting) : str :=
  match s, x with
  | None, Endpoint => lit "OTEL_EXPORTER_OTLP_ENDPOINT"
  | None, Certificate => lit "OTEL_EXPORTER_OTLP_CERTIFICATE"
  | None, ClientKey => lit "OTEL_EXPORTER_OTLP_CLIENT_KEY"
  | None, ClientCertificate => lit "OTEL_EXPORTER_OTLP_CLIENT_CERTIFICATE"
  | None, Headers => lit "OTEL_EXPORTER_OTLP_HEADERS"
  | None, Timeout => lit "OTEL_EXPORTER_OTLP_TIMEOUT"
  | None, Compress => lit "OTEL_EXPORTER_OTLP_COMPRESSION"
  | None, Insecure => lit "OTEL_EXPORTER_OTLP_INSECURE"
  | Some Traces, Endpoint => lit "OTEL_EXPORTER_OTLP_TRACES_ENDPOINT"
  | Some Traces, Certificate => lit "OTEL_EXPORTER_OTLP_TRACES_CERTIFICATE"
  | Some Traces, ClientKey => lit "OTEL_EXPORTER_OTLP_TRACES_CLIENT_KEY"
  | Some Traces, ClientCertificate => lit "OTEL_EXPORTER_OTLP_TRACES_CLIENT_CERTIFICATE"
  | Some Traces, Headers => lit "OTEL_EXPORTER_OTLP_TRACES_HEADERS"
  | Some Traces, Timeout => lit "OTEL_EXPORTER_OTLP_TRACES_TIMEOUT"
  | Some Traces, Compress => lit "OTEL_EXPORTER_OTLP_TRACES_COMPRESSION"
  | Some Traces, Insecure => lit "OTEL_EXPORTER_OTLP_TRACES_INSECURE"
  | Some Metrics, Endpoint => lit "OTEL_EXPORTER_OTLP_METRICS_ENDPOINT"
  | Some Metrics, Certificate => lit "OTEL_EXPORTER_OTLP_METRICS_CERTIFICATE"
  | Some Metrics, ClientKey => lit "OTEL_EXPORTER_OTLP_METRICS_CLIENT_KEY"
  | Some Metrics, ClientCertificate => lit "OTEL_EXPORTER_OTLP_METRICS_CLIENT_CERTIFICATE"
  | Some Metrics, Headers => lit "OTEL_EXPORTER_OTLP_METRICS_HEADERS"
  | Some Metrics, Timeout => lit "OTEL_EXPORTER_OTLP_METRICS_TIMEOUT"
  | Some Metrics, Compress => lit "OTEL_EXPORTER_OTLP_METRICS_COMPRESSION"
  | Some Metrics, Insecure => lit "OTEL_EXPORTER_OTLP_METRICS_INSECURE"
  | Some Logs, Endpoint => lit "OTEL_EXPORTER_OTLP_LOGS_ENDPOINT"
  | Some Logs, Certificate => lit "OTEL_EXPORTER_OTLP_LOGS_CERTIFICATE"
  | Some Logs, ClientKey => lit "OTEL_EXPORTER_OTLP_LOGS_CLIENT_KEY"
  | Some Logs, ClientCertificate => lit "OTEL_EXPORTER_OTLP_LOGS_CLIENT_CERTIFICATE"
  | Some Logs, Headers => lit "OTEL_EXPORTER_OTLP_LOGS_HEADERS"
  | Some Logs, Timeout => lit "OTEL_EXPORTER_OTLP_LOGS_TIMEOUT"
  | Some Logs, Compress => lit "OTEL_EXPORTER_OTLP_LOGS_COMPRESSION"
  | Some Logs, Insecure => lit "OTEL_EXPORTER_OTLP_LOGS_INSECURE"
  end.
Definition url_path (s : signal) : str :=
  match s with Traces => lit "v1/traces" | Metrics => lit "v1/metrics" | Logs => lit "v1/logs" end.

(** The first of several choices that was made. *)
Fixpoint first_given {A} (l : list (option A)) : option A :=
  match l with [] => None | Some v :: _ => Some v | None :: r => first_given r end.
(** An empty text, like a missing one, is no choice; so is the number zero. *)
Definition unless_empty (a : option str) : option str := match a with Some [] => None | _ => a end.
Definition unless_zero (a : option Z) : option Z := match a with Some 0 => None | _ => a end.

(** Variables as a function; their values after some of the program's calls. *)
Definition env := str -> option str.
Definition var_after (start : env) (h : list hop) : env := fun k =>
  fold_left (fun v o => match o with
                        | HSetEnv k' x => if str_eqb k' k then Some x else v
                        | HDelEnv k' => if str_eqb k' k then None else v
                        | _ => v
                        end) h (start k).
(** How many exporters were asked for. *)
Fixpoint exporters_before (h : list hop) : nat :=
  match h with [] => 0%nat | HNew _ _ :: r => S (exporters_before r) | _ :: r => exporters_before r end.

(** [url] is [base] followed by [path] with exactly the slash of [base], or one more if it ends with none. *)
Definition joined (base path url : str) : Prop :=
  exists b, url = b ++ lit "/" ++ path /\ (base = b ++ lit "/" \/ (base = b /\ forall b', base <> b' ++ lit "/")).

Section Http.
Variable pylower : str -> str.
Variable pyint : str -> option Z.
Variable gzip deflate : str -> str.
Variable session_defaults : dict str str.
Variable version : str.

(** Argument, then the signal's variable, then the general one. *)
Definition choice (arg : option str) (s : signal) (x : setting) (e : env) : option str :=
  first_given [unless_empty arg; e (variable (Some s) x); e (variable None x)].

Definition http_url (s : signal) (arg : option str) (e : env) (url : str) : Prop :=
  match first_given [unless_empty arg; e (variable (Some s) Endpoint)] with
  | Some u => url = u
  | None => joined (match e (variable None Endpoint) with Some b => b | None => lit "http://localhost:4318/" end) (url_path s) url
  end.
(** Seconds; 10 if nothing is chosen. *)
Definition http_wait (s : signal) (arg : option Z) (e : env) (t : Z) : Prop :=
  match unless_zero arg with
  | Some t' => t = t'
  | None => match choice None s Timeout e with Some v => pyint v = Some t | None => t = 10 end
  end.
Definition http_compression (s : signal) (arg : option compression) (e : env) (c : compression) : Prop :=
  match arg with
  | Some c' => c = c'
  | None =>
      match choice None s Compress e with
      | Some v => strip py_space (pylower v) = match c with NoCompression => lit "none" | Deflate => lit "deflate" | Gzip => lit "gzip" end
      | None => c = NoCompression
      end
  end.
(** The configured headers (C17 says how a variable is read). *)
Definition configured_headers (s : signal) (arg : option (dict str str)) (e : env) : list (str * str) :=
  match arg with
  | Some (x :: l) => x :: l
  | _ => match choice None s Headers e with Some v => parse_env_headers pylower v true | None => [] end
  end.
(** The client certificate is used with its key if both are chosen. *)
Definition http_cert (s : signal) (cert key : option str) (e : env) : client_cert :=
  match unless_empty (choice cert s ClientCertificate e), unless_empty (choice key s ClientKey e) with
  | Some c, Some k => CertAndKey c k
  | _, _ => CertOnly (choice cert s ClientCertificate e)
  end.

(** Header names are compared without case. *)
Definition named (n k : str) : bool := str_eqb (pylower k) (pylower n).
(** The last of several headers of that name *)
Definition last_named (n : str) (l : list (str * str)) : option str :=
  match filter (fun kv => named n (fst kv)) (rev l) with kv :: _ => Some (snd kv) | [] => None end.
(** The value a request has for a header.  *)
Definition header (r : request) (n : str) : option str :=
  match filter (fun kv => named n (fst kv)) (rq_headers r) with kv :: _ => Some (snd kv) | [] => None end.
Definition one_of_each (r : request) : Prop :=
  forall n, (length (filter (fun kv => named n (fst kv)) (rq_headers r)) <= 1)%nat.
(** The exporter's own headers come before those that were configured, and these before the session's. *)
Definition expected_header (configured : list (str * str)) (c : compression) (n : str) : option str :=
  first_given
    [match c with
     | NoCompression => None
     | Gzip => if named n (lit "Content-Encoding") then Some (lit "gzip") else None
     | Deflate => if named n (lit "Content-Encoding") then Some (lit "deflate") else None
     end;
     if named n (lit "User-Agent") then Some (lit "OTel-OTLP-Exporter-Python/" ++ version) else None;
     if named n (lit "Content-Type") then Some (lit "application/x-protobuf") else None;
     last_named n configured;
     last_named n session_defaults].
Definition compressed (c : compression) (data body : str) : Prop :=
  body = match c with NoCompression => data | Gzip => gzip data | Deflate => deflate data end.

(** A request that says what it should, given the arguments and the variables. *)
Definition right_request (s : signal) (a : http_args) (e : env) (data : str) (r : request) : Prop :=
  http_url s (ha_endpoint a) e (rq_url r)
  /\ http_wait s (ha_timeout a) e (rq_timeout r)
  /\ rq_verify r = choice (ha_certificate a) s Certificate e
  /\ rq_cert r = http_cert s (ha_client_certificate a) (ha_client_key a) e
  /\ one_of_each r
  /\ exists c, http_compression s (ha_compression a) e c
       /\ compressed c data (rq_body r)
       /\ forall n, header r n = expected_header (configured_headers s (ha_headers a) e) c n.

(** What a receiver makes of a request, if [gunzip] and [inflate] undo the compressions. *)
Definition received (gunzip inflate : str -> str) (r : request) : option str :=
  match header r (lit "Content-Encoding") with
  | None => Some (rq_body r)
  | Some v => if str_eqb v (lit "gzip") then Some (gunzip (rq_body r))
              else if str_eqb v (lit "deflate") then Some (inflate (rq_body r)) else None
  end.

(** requests/adapters.py [cert_verify]: the server's certificate is checked if [verify] is true: True, here None, or the
    path of a file. *)
Definition server_checked (r : request) : Prop := rq_verify r <> Some [].
End Http.

Section Grpc.
Variable pylower : str -> str.
Variable pyint : str -> option Z.
Variable version : str.
Variable creds : Type.
Variable ssl : option str -> option str -> option str -> creds.
Variable files : str -> file.
Variable urlparse : str -> option (str * str).

Definition grpc_address (s : signal) (arg : option str) (e : env) : str :=
  match first_given [unless_empty arg; unless_empty (e (variable (Some s) Endpoint)); e (variable None Endpoint)] with
  | Some u => u
  | None => lit "http://localhost:4317"
  end.
(** "true" in any case; anything else is false *)
Definition reads_true (v : str) : bool := str_eqb (pylower v) (lit "true").
(** No TLS: never for https; else what the argument, the signal's variable or the general one say; else for http. *)
Definition plaintext (s : signal) (arg : option bool) (e : env) (scheme : str) : Prop :=
  scheme <> lit "https"
  /\ match first_given [arg; option_map reads_true (e (variable (Some s) Insecure)); option_map reads_true (e (variable None Insecure))] with
     | Some b => b = true
     | None => scheme = lit "http"
     end.
(** What the program or the signal's variable say about TLS *)
Definition wishes_plaintext (s : signal) (arg : option bool) (e : env) : option bool :=
  first_given [arg; option_map reads_true (e (variable (Some s) Insecure))].
(** Seconds *)
Definition grpc_wait (s : signal) (arg : option Z) (e : env) (t : Z) : Prop :=
  match unless_zero arg with
  | Some t' => t = t'
  | None =>
      match match e (variable (Some s) Timeout) with Some v => unless_zero (pyint v) | None => None end with
      | Some t' => t = t'
      | None => match e (variable None Timeout) with Some v => pyint v = Some t | None => t = 10 end
      end
  end.
Definition grpc_compression (s : signal) (arg : option gcompression) (e : env) (c : gcompression) : Prop :=
  match arg with
  | Some c' => c = c'
  | None =>
      match choice None s Compress e with
      | Some v => strip py_space (pylower v) = lit "gzip" /\ c = GGzip
      | None => c = GNoCompression
      end
  end.
Definition pairs_of (h : gheaders) : list (str * str) :=
  match h with GPairs l => l | GDict d => d | GStr s => parse_env_headers pylower s true end.
(** An argument without any header counts as not given. *)
Definition unless_no_headers (arg : option gheaders) : option gheaders :=
  match arg with Some (GPairs []) | Some (GDict []) | Some (GStr []) => None | a => a end.
Definition grpc_metadata (s : signal) (arg : option gheaders) (e : env) : list (str * str) :=
  match first_given [unless_no_headers arg;
                     option_map GStr (unless_empty (e (variable (Some s) Headers)));
                     option_map GStr (e (variable None Headers))] with
  | Some h => pairs_of h
  | None => []
  end ++ [(lit "user-agent", lit "OTel-OTLP-Exporter-Python/" ++ version)].
(** The contents of the named file, if there is one. *)
Definition contents (p : option str) : option str :=
  match unless_empty p with Some p => match files p with Contents b => Some b | _ => None end | None => None end.
Definition loaded (which : option signal) (e : env) : creds :=
  ssl (contents (e (variable which Certificate))) (contents (e (variable which ClientKey)))
      (contents (e (variable which ClientCertificate))).
(** The argument, then the files of the signal's variables, then those of the general ones, then the defaults. *)
Definition grpc_credentials (s : signal) (arg : option creds) (e : env) : creds :=
  match arg, unless_empty (e (variable (Some s) Certificate)), unless_empty (e (variable None Certificate)) with
  | Some c, _, _ => c
  | None, Some _, _ => loaded (Some s) e
  | None, None, Some _ => loaded None e
  | None, None, None => ssl None None None
  end.
End Grpc.
Arguments plaintext pylower s arg e scheme : simpl never.
