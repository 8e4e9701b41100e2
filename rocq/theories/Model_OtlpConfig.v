(** How the OTLP exporters take their settings from arguments and environment variables, and what they then send:
    exporter/opentelemetry-exporter-otlp-proto-http/src/opentelemetry/exporter/otlp/proto/http/
      trace_exporter/__init__.py (the line numbers below), metric_exporter/__init__.py 105-166 and 252-267 and
      _log_exporter/__init__.py 68-124 and 200-215, which differ in the names of the variables and in the path only;
    exporter/opentelemetry-exporter-otlp-proto-grpc/src/opentelemetry/exporter/otlp/proto/grpc/
      exporter.py and trace_exporter/__init__.py (the line numbers below), metric_exporter/__init__.py 95-151 and
      _log_exporter/__init__.py 53-104, which differ in the names of the variables only.
    Not modelled: retries (Model_Retry), encoding (Model_Otlp), log output, [shutdown]. *)
From Verif Require Export Model_Context Model_Span.
From Verif Require Import Model_Processor.
Local Open Scope Z_scope.

Inductive signal := Traces | Metrics | Logs.
Inductive setting := Endpoint | Certificate | ClientKey | ClientCertificate | Headers | Timeout | Compress | Insecure.

(** sdk/environment_variables/__init__.py 298-576: the names are regular. *)
Definition signal_name (s : signal) : str :=
  match s with Traces => lit "TRACES" | Metrics => lit "METRICS" | Logs => lit "LOGS" end.
Definition setting_name (x : setting) : str :=
  match x with
  | Endpoint => lit "ENDPOINT" | Certificate => lit "CERTIFICATE" | ClientKey => lit "CLIENT_KEY"
  | ClientCertificate => lit "CLIENT_CERTIFICATE" | Headers => lit "HEADERS" | Timeout => lit "TIMEOUT"
  | Compress => lit "COMPRESSION" | Insecure => lit "INSECURE"
  end.
Definition general_var (x : setting) : str := lit "OTEL_EXPORTER_OTLP_" ++ setting_name x.
Definition signal_var (s : signal) (x : setting) : str := lit "OTEL_EXPORTER_OTLP_" ++ signal_name s ++ lit "_" ++ setting_name x.

(** os.environ *)
Definition environment := dict str str.

(** Python's [a or b] for a string or None *)
Definition or_str (a b : option str) : option str := match a with Some (_ :: _) => a | _ => b end.
Definition truthy (a : option str) : bool := match a with Some (_ :: _) => true | _ => false end.

Section Config.
Variable pylower : str -> str.            (** str.lower *)
Variable pyint : str -> option Z.         (** int(s); None is a ValueError *)
Variable gzip deflate : str -> str.       (** gzip.GzipFile.write, zlib.compress *)
Variable session_defaults : dict str str. (** requests.utils.default_headers *)
Variable version : str.                   (** the exporter's version.__version__ *)

(** ** HTTP *)

(** http/__init__.py 83-86: class Compression *)
Inductive compression := NoCompression | Deflate | Gzip.
Definition compression_value (c : compression) : str :=
  match c with NoCompression => lit "none" | Deflate => lit "deflate" | Gzip => lit "gzip" end.
(** Compression(value); an unknown value is a ValueError. *)
Definition compression_of (s : str) : outcome_of compression :=
  if str_eqb s (lit "none") then Ok NoCompression
  else if str_eqb s (lit "deflate") then Ok Deflate
  else if str_eqb s (lit "gzip") then Ok Gzip
  else Raises "ValueError".

(** The [cert] argument of requests: the certificate and its key, or the certificate alone. *)
Inductive client_cert := CertAndKey (c k : str) | CertOnly (c : option str).

Record http_args := HttpArgs {
  ha_endpoint : option str; ha_certificate : option str; ha_client_key : option str; ha_client_certificate : option str;
  ha_headers : option (dict str str); ha_timeout : option Z; ha_compression : option compression;
  ha_session : option nat   (** a session of the program *)
}.

(** What __init__ leaves in the object.  [hs_verify]: None is True. *)
Record http_settings := HttpSettings {
  hs_endpoint : str; hs_verify : option str; hs_cert : client_cert;
  hs_headers : dict str str; hs_timeout : Z; hs_compression : compression
}.

(** environ.get(signal, environ.get(general, default)) *)
Definition env_get (e : environment) (s : signal) (x : setting) : option str :=
  match dget (signal_var s x) e with Some v => Some v | None => dget (general_var x) e end.

(** 215-218 [_append_trace_path] *)
Definition export_path (s : signal) : str :=
  match s with Traces => lit "v1/traces" | Metrics => lit "v1/metrics" | Logs => lit "v1/logs" end.
Definition ends_with_slash (s : str) : bool := match rev s with c :: _ => N.eqb c 47 | [] => false end.
Definition append_path (s : signal) (endpoint : str) : str :=
  if ends_with_slash endpoint then endpoint ++ export_path s else endpoint ++ [47%N] ++ export_path s.

(** 77-82 *)
Definition http_endpoint (s : signal) (a : http_args) (e : environment) : str :=
  match or_str (ha_endpoint a) None with
  | Some v => v
  | None =>
      match dget (signal_var s Endpoint) e with
      | Some v => v
      | None => append_path s (match dget (general_var Endpoint) e with Some v => v | None => lit "http://localhost:4318/" end)
      end
  end.
(** 203-212 [_compression_from_env] *)
Definition compression_from_env (s : signal) (e : environment) : outcome_of compression :=
  compression_of (strip py_space (pylower (match env_get e s Compress with Some v => v | None => lit "none" end))).
(** 107-112: [timeout or int(environ.get(...))]; 10 is the default *)
Definition http_timeout (s : signal) (a : http_args) (e : environment) : outcome_of Z :=
  match ha_timeout a with
  | Some t => if t =? 0 then match env_get e s Timeout with
                             | Some v => match pyint v with Some t => Ok t | None => Raises "ValueError" end
                             | None => Ok 10
                             end else Ok t
  | None => match env_get e s Timeout with
            | Some v => match pyint v with Some t => Ok t | None => Raises "ValueError" end
            | None => Ok 10
            end
  end.
(** 100-106 *)
Definition http_headers (s : signal) (a : http_args) (e : environment) : dict str str :=
  match ha_headers a with
  | Some ((_ :: _) as h) => h
  | _ => parse_env_headers pylower (match env_get e s Headers with Some v => v | None => [] end) true
  end.
(** 66-113 [__init__] *)
Definition http_init (s : signal) (a : http_args) (e : environment) : outcome_of http_settings :=
  let key := or_str (ha_client_key a) (env_get e s ClientKey) in
  let cert := or_str (ha_client_certificate a) (env_get e s ClientCertificate) in
  bind_out (http_timeout s a e) (fun t =>
  bind_out (match ha_compression a with Some c => Ok c | None => compression_from_env s e end) (fun c =>
  Ok (HttpSettings (http_endpoint s a e)
        (or_str (ha_certificate a) (env_get e s Certificate))
        (match cert, key with
         | Some ((_ :: _) as c), Some ((_ :: _) as k) => CertAndKey c k
         | _, _ => CertOnly cert
         end)
        (http_headers s a e) t c))).

(** requests.structures.CaseInsensitiveDict: the names as last written, found by their lower case *)
Definition cdict := dict str (str * str).
Definition cset (k v : str) (d : cdict) : cdict := dset (pylower k) (k, v) d.
Definition cupdate (h : dict str str) (d : cdict) : cdict := fold_left (fun d kv => cset (fst kv) (snd kv) d) h d.
(** http/__init__.py 77-80 *)
Definition otlp_http_headers : dict str str :=
  [(lit "Content-Type", lit "application/x-protobuf"); (lit "User-Agent", lit "OTel-OTLP-Exporter-Python/" ++ version)].
(** 114-120: what __init__ does to the session's headers *)
Definition init_session (x : http_settings) (d : cdict) : cdict :=
  let d := cupdate otlp_http_headers (cupdate (hs_headers x) d) in
  match hs_compression x with
  | NoCompression => d
  | c => cupdate [(lit "Content-Encoding", compression_value c)] d
  end.

Record request := Request {
  rq_url : str; rq_headers : list (str * str); rq_body : str; rq_verify : option str; rq_timeout : Z; rq_cert : client_cert
}.
(** 123-139 [_export]: what session.post sends *)
Definition http_post (x : http_settings) (d : cdict) (data : str) : request :=
  Request (hs_endpoint x) (values d)
    (match hs_compression x with Gzip => gzip data | Deflate => deflate data | NoCompression => data end)
    (hs_verify x) (hs_timeout x) (hs_cert x).

(** A program that makes HTTP exporters.  The session an exporter makes for itself is reached by that exporter only. *)
Inductive hsession := OwnSession (d : cdict) | GivenSession (n : nat).
Record hworld := HW { hw_env : environment; hw_sessions : list cdict; hw_exporters : list (option (http_settings * hsession)) }.
Definition h_start (e : environment) : hworld := HW e [] [].
Inductive hop :=
| HSetEnv (k v : str)
| HDelEnv (k : str)
| HNewSession                            (** requests.Session() *)
| HSetHeader (n : nat) (k v : str)       (** session.headers[k] = v *)
| HNew (s : signal) (a : http_args)      (** an exporter; the n-th HNew makes exporter n, if it does not raise *)
| HExport (n : nat) (data : str).        (** one attempt to export the encoded request [data] *)
Inductive hout := HDone | HRaised | HPosted (r : request).

Definition new_session : cdict := cupdate session_defaults [].
Definition h_step (w : hworld) (o : hop) : hworld * hout :=
  match o with
  | HSetEnv k v => (HW (dset k v (hw_env w)) (hw_sessions w) (hw_exporters w), HDone)
  | HDelEnv k => (HW (ddel k (hw_env w)) (hw_sessions w) (hw_exporters w), HDone)
  | HNewSession => (HW (hw_env w) (hw_sessions w ++ [new_session]) (hw_exporters w), HDone)
  | HSetHeader n k v =>
      match nth_error (hw_sessions w) n with
      | Some d => (HW (hw_env w) (set_nth n (cset k v d) (hw_sessions w)) (hw_exporters w), HDone)
      | None => (w, HRaised)
      end
  | HNew s a =>
      match http_init s a (hw_env w) with
      | Raises _ => (HW (hw_env w) (hw_sessions w) (hw_exporters w ++ [None]), HRaised)
      | Ok x =>
          match ha_session a with
          | None => (HW (hw_env w) (hw_sessions w) (hw_exporters w ++ [Some (x, OwnSession (init_session x new_session))]), HDone)
          | Some n =>
              match nth_error (hw_sessions w) n with
              | Some d => (HW (hw_env w) (set_nth n (init_session x d) (hw_sessions w))
                             (hw_exporters w ++ [Some (x, GivenSession n)]), HDone)
              | None => (HW (hw_env w) (hw_sessions w) (hw_exporters w ++ [None]), HRaised)
              end
          end
      end
  | HExport n data =>
      match nth_error (hw_exporters w) n with
      | Some (Some (x, OwnSession d)) => (w, HPosted (http_post x d data))
      | Some (Some (x, GivenSession i)) =>
          match nth_error (hw_sessions w) i with
          | Some d => (w, HPosted (http_post x d data))
          | None => (w, HRaised)
          end
      | _ => (w, HRaised)
      end
  end.
Fixpoint h_run (w : hworld) (l : list hop) : hworld * list hout :=
  match l with
  | [] => (w, [])
  | o :: r => let '(w1, x) := h_step w o in let '(w2, xs) := h_run w1 r in (w2, x :: xs)
  end.

(** ** gRPC *)

Variable creds : Type.                                             (** ChannelCredentials *)
Variable ssl_channel_credentials : option str -> option str -> option str -> creds.
Inductive file := Contents (b : str) | NotFound | Unreadable.      (** Unreadable: open() or read() raises another error *)
Variable files : str -> file.
(** urlparse(endpoint): scheme and netloc; None is a ValueError *)
Variable urlparse : str -> option (str * str).

(** The [headers] argument: a sequence of pairs, a dict or a string *)
Inductive gheaders := GPairs (l : list (str * str)) | GDict (d : dict str str) | GStr (s : str).
Definition gh_truthy (h : option gheaders) : bool :=
  match h with Some (GPairs (_ :: _)) | Some (GDict (_ :: _)) | Some (GStr (_ :: _)) => true | _ => false end.
(** grpc.Compression *)
Inductive gcompression := GNoCompression | GDeflate | GGzip.

Record grpc_args := GrpcArgs {
  ga_endpoint : option str; ga_insecure : option bool; ga_credentials : option creds; ga_headers : option gheaders;
  ga_timeout : option Z; ga_compression : option gcompression
}.
(** The channel (without credentials it is an insecure_channel), the metadata and the deadline of the calls. *)
Record grpc_exporter := GrpcExporter {
  ge_target : str; ge_credentials : option creds; ge_compression : gcompression;
  ge_metadata : list (str * str); ge_timeout : Z
}.

(** exporter.py 99-107 [environ_to_compression] *)
Definition environ_to_compression (k : str) (e : environment) : outcome_of (option gcompression) :=
  match dget k e with
  | None => Ok None
  | Some v => if str_eqb (strip py_space (pylower v)) (lit "gzip") then Ok (Some GGzip)
              else Raises "InvalidCompressionValueException"
  end.
(** 122-130 [_read_file] *)
Definition read_file (p : str) : outcome_of (option str) :=
  match files p with Contents b => Ok (Some b) | NotFound => Ok None | Unreadable => Raises "OSError" end.
Definition read_if (p : option str) : outcome_of (option str) :=
  match p with Some ((_ :: _) as p) => read_file p | _ => Ok None end.
(** 133-152 [_load_credentials] *)
Definition load_credentials (c k cc : option str) : outcome_of creds :=
  bind_out (read_if c) (fun c => bind_out (read_if k) (fun k => bind_out (read_if cc) (fun cc =>
  Ok (ssl_channel_credentials c k cc)))).
(** 155-171 [_get_credentials] *)
Definition get_credentials (given : option creds) (var : setting -> str) (e : environment) : outcome_of creds :=
  match given with
  | Some c => Ok c
  | None =>
      if truthy (dget (var Certificate) e)
      then load_credentials (dget (var Certificate) e) (dget (var ClientKey) e) (dget (var ClientCertificate) e)
      else Ok (ssl_channel_credentials None None None)
  end.
Definition or_int (a : option Z) (b : option Z) : option Z := match a with Some t => if t =? 0 then b else a | None => b end.

(** [insecure.lower() == "true"] *)
Definition is_true (s : str) : bool := str_eqb (pylower s) (lit "true").

(** exporter.py 189-262 [OTLPExporterMixin.__init__] *)
Definition mixin_init (a : grpc_args) (e : environment) : outcome_of grpc_exporter :=
  let endpoint := match or_str (ga_endpoint a) None with
                  | Some v => v
                  | None => match dget (general_var Endpoint) e with Some v => v | None => lit "http://localhost:4317" end
                  end in
  match urlparse endpoint with
  | None => Raises "ValueError"
  | Some (scheme, netloc) =>
      let insecure := if str_eqb scheme (lit "https") then Some false else ga_insecure a in
      let insecure := match insecure with
                      | Some b => b
                      | None => match dget (general_var Insecure) e with
                                | Some v => is_true v
                                | None => str_eqb scheme (lit "http")
                                end
                      end in
      let target := match netloc with [] => endpoint | _ => netloc end in
      let headers := if gh_truthy (ga_headers a) then ga_headers a
                     else match dget (general_var Headers) e with Some s => Some (GStr s) | None => None end in
      let ua := [(lit "user-agent", lit "OTel-OTLP-Exporter-Python/" ++ version)] in
      let metadata := match headers with
                      | Some (GStr s) => parse_env_headers pylower s true ++ ua
                      | Some (GDict d) => d ++ ua
                      | Some (GPairs l) => l ++ ua
                      | None => ua
                      end in
      bind_out (match or_int (ga_timeout a) None with
                | Some t => Ok t
                | None => match dget (general_var Timeout) e with
                          | Some v => match pyint v with Some t => Ok t | None => Raises "ValueError" end
                          | None => Ok 10
                          end
                end) (fun timeout =>
      bind_out (match ga_compression a with
                | None => environ_to_compression (general_var Compress) e
                | Some c => Ok (Some c)
                end) (fun c =>
      let c := match c with Some c => c | None => GNoCompression end in
      if insecure then Ok (GrpcExporter target None c metadata timeout)
      else bind_out (get_credentials (ga_credentials a) general_var e) (fun cr =>
           Ok (GrpcExporter target (Some cr) c metadata timeout))))
  end.

(** trace_exporter/__init__.py 86-135 [__init__] *)
Definition grpc_init (s : signal) (a : grpc_args) (e : environment) : outcome_of grpc_exporter :=
  let insecure := match ga_insecure a with
                  | Some b => Some b
                  | None => match dget (signal_var s Insecure) e with Some v => Some (is_true v) | None => None end
                  end in
  bind_out (match insecure, dget (signal_var s Certificate) e with
            | Some true, _ | _, None => Ok (ga_credentials a)
            | _, Some _ => bind_out (get_credentials (ga_credentials a) (signal_var s) e) (fun c => Ok (Some c))
            end) (fun credentials =>
  bind_out (match dget (signal_var s Timeout) e with
            | Some v => match pyint v with Some t => Ok (Some t) | None => Raises "ValueError" end
            | None => Ok None
            end) (fun environ_timeout =>
  bind_out (match ga_compression a with
            | None => environ_to_compression (signal_var s Compress) e
            | Some c => Ok (Some c)
            end) (fun c =>
  mixin_init (GrpcArgs (or_str (ga_endpoint a) (dget (signal_var s Endpoint) e)) insecure credentials
                (if gh_truthy (ga_headers a) then ga_headers a
                 else match dget (signal_var s Headers) e with Some h => Some (GStr h) | None => None end)
                (or_int (ga_timeout a) environ_timeout) c) e))).
End Config.
