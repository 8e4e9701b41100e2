(** Resources: merging, detectors and [Resource.create].

    Source: opentelemetry-sdk/src/opentelemetry/sdk/resources/__init__.py *)
From Verif Require Export Model_Attr.

(** 158-171 [Resource]; the attributes are an immutable BoundedAttributes without limits. *)
Record resource := Res { r_attrs : dict str pyval; r_schema : str }.
Definition res_new (attrs : list (pyval * pyval)) (schema : option str) : resource :=
  match ba_new None attrs true None with
  | Ok a => Res (ba_dict a) (match schema with Some s => s | None => [] end)
  | Raises _ => Res [] []                       (* does not happen without a maximal length *)
  end.
(** A dict with string keys, as an argument *)
Definition as_arg (d : dict str pyval) : list (pyval * pyval) := map (fun kv => (PStr false (fst kv), snd kv)) d.

(** 252-285 [merge]; the error log is not modelled *)
Definition res_merge (self other : resource) : resource :=
  let merged := dupdate (r_attrs self) (r_attrs other) in
  if str_eqb (r_schema self) [] then res_new (as_arg merged) (Some (r_schema other))
  else if str_eqb (r_schema other) [] then res_new (as_arg merged) (Some (r_schema self))
  else if str_eqb (r_schema self) (r_schema other) then res_new (as_arg merged) (Some (r_schema other))
  else self.

(** 312 *)
Definition EMPTY_RESOURCE : resource := res_new [] None.
Definition SERVICE_NAME : str := lit "service.name".
Definition PROCESS_EXECUTABLE_NAME : str := lit "process.executable.name".

(** 333-356 [OTELResourceDetector.detect]: the values of OTEL_RESOURCE_ATTRIBUTES and OTEL_SERVICE_NAME.
    [item.split("=", maxsplit=1)] gives two parts iff there is a "=". *)
Definition env_step (m : dict str str) (item : str) : dict str str :=
  match split1 (chr "=") item with
  | (key, Some value) => dset (strip py_space key) (unquote (strip py_space value)) m
  | (_, None) => m
  end.
Definition otel_detect (env_attributes env_service_name : option str) : resource :=
  let m := match env_attributes with
           | Some (c :: s) => fold_left env_step (split_on (chr ",") (c :: s)) []
           | _ => []
           end in
  let m := match env_service_name with Some (c :: s) => dset SERVICE_NAME (c :: s) m | _ => m end in
  res_new (map (fun kv => (PStr false (fst kv), PStr false (snd kv))) m) None.

(** A detector: [raise_on_error], and what [detect] did: [None] if it raised an Exception or took longer than the
    timeout.  (Any other BaseException is raised in all cases and not modelled.) *)
Record detector := Det { det_raise : bool; det_result : option resource }.
(** 500-541 [get_aggregated_resources]; the detectors run in a thread pool, their results are taken in order. *)
Fixpoint aggregated (ds : list detector) (acc : resource) : outcome_of resource :=
  match ds with
  | [] => Ok acc
  | d :: ds' =>
      match det_result d with
      | Some r => aggregated ds' (res_merge acc r)
      | None => if det_raise d then Raises "detector" else aggregated ds' (res_merge acc EMPTY_RESOURCE)
      end
  end.

Section Create.
(** Which floats are zero; the version of the SDK; the entry points for detectors, [None] if there is none or
    loading it fails. *)
Variable fzero : Z -> bool.
Variable sdk_version : str.
Variable entry_point : str -> option detector.

(** [bool(v)] *)
Definition truthy (v : pyval) : bool :=
  match v with
  | PNone => false
  | PBool b => b
  | PInt _ z => negb (Z.eqb z 0)
  | PFloat _ f => negb (fzero f)
  | PStr _ s => match s with [] => false | _ => true end
  | PBytes _ s => match s with [] => false | _ => true end
  | PSeq _ l => match l with [] => false | _ => true end
  | PObj _ => true
  end.
(** 313-319 *)
Definition DEFAULT_RESOURCE : resource :=
  res_new (as_arg [(lit "telemetry.sdk.language", PStr false (lit "python"));
                   (lit "telemetry.sdk.name", PStr false (lit "opentelemetry"));
                   (lit "telemetry.sdk.version", PStr false sdk_version)]) None.
(** 192-200: the names asked for in OTEL_EXPERIMENTAL_RESOURCE_DETECTORS; a set together with "otel" *)
Definition detector_names (env : str) : list str :=
  map (strip py_space) (filter (fun x => match x with [] => false | _ => true end) (split_on (chr ",") env)).
(** 205-223: [order] is the set of names in the order in which Python iterates over it. *)
Definition load_detectors (order : list str) : list detector :=
  flat_map (fun n => match entry_point (strip py_space n) with Some d => [d] | None => [] end) order.
(** 173-238 [Resource.create] *)
Definition res_create (order : list str) (attributes : option (list (pyval * pyval))) (schema : option str) : outcome_of resource :=
  let attributes := match attributes with Some a => a | None => [] end in
  match aggregated (load_detectors order) DEFAULT_RESOURCE with
  | Raises e => Raises e
  | Ok r =>
      let r := res_merge r (res_new attributes schema) in
      if match dget SERVICE_NAME (r_attrs r) with Some v => truthy v | None => false end then Ok r
      else
        let exe := match dget PROCESS_EXECUTABLE_NAME (r_attrs r) with Some v => v | None => PNone end in
        let name := if truthy exe
                    then match exe with
                         | PStr _ e => Ok (lit "unknown_service" ++ lit ":" ++ e)
                         | _ => Raises "TypeError"
                         end
                    else Ok (lit "unknown_service") in
        match name with
        | Raises e => Raises e
        | Ok name => Ok (res_merge r (res_new [(PStr false SERVICE_NAME, PStr false name)] schema))
        end
  end.
End Create.
