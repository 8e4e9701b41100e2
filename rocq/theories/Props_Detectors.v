(** C126 and C51: the resource detectors of the SDK. *)
From Verif Require Import Proof_Url Proof_Utf8 Proof_Env Proof_Resource Proof_Detectors.
From Verif Require Import Spec_Utf8 Spec_Detectors.
From Coq Require Import Permutation.

(** C126: the process detector describes the process: exactly these attributes, with these values. *)
Theorem C126_process : forall p, describable p -> exists r, process_detect p = Ok r /\ is_resource r /\ r_schema r = []
  /\ forall k v, dget k (r_attrs r) = Some v <-> process_attribute p k v.
Proof. exact process_described. Qed.
Print Assumptions C126_process.
(** C126: it raises exactly if Python does not know its executable, has no arguments at all, or psutil raises. *)
Theorem C126_raises : forall p, (exists e, process_detect p = Raises e) <-> ~ describable p.
Proof. exact process_raises. Qed.
Print Assumptions C126_raises.
(** C126: a process that cannot be described does not stop [Resource.create]: the result is the one without the process detector. *)
Theorem C126_skipped : forall pylower sr fzero version order attrs schema, ~ describable (sr_process sr) ->
  res_create fzero version (sdk_entry_point pylower sr) order attrs schema
  = res_create fzero version (sdk_entry_point pylower sr) (filter (fun n => negb (str_eqb (strip py_space n) (lit "process"))) order) attrs schema.
Proof. exact skipped. Qed.
Print Assumptions C126_skipped.
(** C126: with the detectors of the SDK [Resource.create] returns for all user attributes in which process.executable.name is a text; the
    user's attributes win; what the process detector found is there unless the user or OTEL_RESOURCE_ATTRIBUTES say something else; and the name
    of the executable makes the service name if nobody gave one.  ([order]: the asked detectors in any order.) *)
Theorem C126_created : forall pylower sr fzero version order attrs schema ud,
  attributes_of (match attrs with Some a => a | None => [] end) ud ->
  (forall v, dget (lit "process.executable.name") ud = Some v -> exists sub s, v = PStr sub s) ->
  let detected := r_attrs (otel_detect (sr_attributes sr) (sr_service_name sr)) in
  exists r, res_create fzero version (sdk_entry_point pylower sr) order attrs schema = Ok r
  /\ (exists v, dget (lit "service.name") (r_attrs r) = Some v /\ ~ empty_value fzero v)
  /\ (forall k v, k <> lit "service.name" -> dget k ud = Some v -> dget k (r_attrs r) = Some v)
  /\ (In (lit "process") order -> describable (sr_process sr) ->
      (forall k v, process_attribute (sr_process sr) k v -> dget k ud = None -> dget k detected = None -> dget k (r_attrs r) = Some v)
      /\ (forall e, pr_executable (sr_process sr) = Some e -> e <> [] ->
          dget (lit "service.name") ud = None -> dget (lit "service.name") detected = None ->
          dget (lit "process.executable.name") ud = None -> dget (lit "process.executable.name") detected = None ->
          dget (lit "service.name") (r_attrs r) = Some (PStr false (lit "unknown_service" ++ lit ":" ++ e)))).
Proof. exact created. Qed.
Print Assumptions C126_created.
(** C126: the operating system's type in lower case, "solaris" for SunOS, and its version: on Windows and Solaris what platform.version() says,
    elsewhere platform.release(). *)
Theorem C126_os : forall pylower system release version t v, os_described (pylower system) release version t v ->
  r_schema (os_detect pylower system release version) = []
  /\ r_attrs (os_detect pylower system release version) = [(lit "os.type", PStr false t); (lit "os.version", PStr false v)].
Proof. exact os_found. Qed.
Print Assumptions C126_os.
Theorem C126_host : forall name machine,
  host_detect name machine = Res [(lit "host.name", PStr false name); (lit "host.arch", PStr false machine)] [].
Proof. exact host_found. Qed.
Print Assumptions C126_host.

Definition proc_ex : process_facts :=
  Process (VersionInfo 3 12 0 (lit "candidate") 2) (lit "3.12.0rc2 (main)") (lit "cpython") 77 (Some (lit "/usr//bin/python3")) [lit "app.py"; lit "--n"; lit "3"]
    (Some 1%Z) (Some (Some (lit "web"))).
Example C126_process_example : describable proc_ex
  /\ process_attribute proc_ex (lit "process.runtime.version") (PStr false (lit "3.12.0.candidate.2"))
  /\ process_attribute proc_ex (lit "process.executable.path") (PStr false (lit "/usr//bin"))
  /\ process_attribute proc_ex (lit "process.command_line") (PStr false (lit "app.py --n 3"))
  /\ process_attribute proc_ex (lit "process.command_args") (PSeq true [PStr false (lit "app.py"); PStr false (lit "--n"); PStr false (lit "3")])
  /\ process_attribute proc_ex (lit "process.owner") (PStr false (lit "web"))
  /\ directory (lit "/python") (lit "/") /\ directory (lit "python") [] /\ directory (lit "a/b//") (lit "a/b").
Proof.
  split; [repeat split; discriminate|]. split; [constructor; apply version_iff; vm_compute; reflexivity|].
  split; [apply (pa_path _ (lit "/usr//bin/python3")); [reflexivity|apply directory_iff; vm_compute; reflexivity]|].
  split; [constructor; apply separated_join; split; [discriminate|reflexivity]|]. split; [constructor|]. split; [constructor; reflexivity|].
  split; [|split]; apply directory_iff; vm_compute; reflexivity.
Qed.
Definition surroundings_ex (env : option str) (p : process_facts) : surroundings :=
  Surroundings env None p (lit "SunOS") (lit "5.11") (lit "11.4.0.15.0") (lit "box") (lit "i86pc").
Definition lower_ex (s : str) : str := map (fun c => if N.leb 65 c && N.leb c 90 then (c + 32)%N else c) s.
Example C126_example :
  (exists r, res_create (fun _ => false) (lit "1") (sdk_entry_point lower_ex (surroundings_ex (Some (lit "team=a%20b")) proc_ex)) [lit "os"; lit "process"; lit "otel"] None None = Ok r
   /\ dget (lit "service.name") (r_attrs r) = Some (PStr false (lit "unknown_service:/usr//bin/python3"))
   /\ dget (lit "team") (r_attrs r) = Some (PStr false (lit "a b")) /\ dget (lit "os.type") (r_attrs r) = Some (PStr false (lit "solaris"))
   /\ dget (lit "process.pid") (r_attrs r) = Some (PInt false 77))
  /\ ~ describable (Process (VersionInfo 3 12 0 (lit "final") 0) [] [] 1 None [lit "x"] None None)
  /\ os_described (lower_ex (lit "SunOS")) (lit "5.11") (lit "11.4.0.15.0") (lit "solaris") (lit "11.4.0.15.0")
  /\ os_described (lower_ex (lit "Linux")) (lit "6.5") (lit "#35") (lit "linux") (lit "6.5")
  /\ os_described (lower_ex (lit "Windows")) (lit "2022Server") (lit "10.0.20348") (lit "windows") (lit "10.0.20348").
Proof.
  split; [eexists; split; [vm_compute; reflexivity|vm_compute; repeat split]|]. split; [intros (H & _); apply H; reflexivity|].
  split; [apply od_solaris; reflexivity|]. split; [apply od_other; discriminate|apply od_windows; reflexivity].
Qed.
(** One might expect OTEL_RESOURCE_ATTRIBUTES to say the last word over detected values, or at least the same word every time.  The detectors
    are taken from a set, whose order changes from run to run: with "host" asked for, the name of the host is either. *)
Theorem C126_order_refuted : exists sr order1 order2 r1 r2, Permutation order1 order2 /\ NoDup order1
  /\ (forall n, In n order1 <-> asked [lit "host"] n)
  /\ res_create (fun _ => false) (lit "1") (sdk_entry_point lower_ex sr) order1 None None = Ok r1
  /\ res_create (fun _ => false) (lit "1") (sdk_entry_point lower_ex sr) order2 None None = Ok r2
  /\ sr_attributes sr = Some (lit "host.name=web-1")
  /\ dget (lit "host.name") (r_attrs r1) = Some (PStr false (lit "web-1")) /\ dget (lit "host.name") (r_attrs r2) = Some (PStr false (lit "box")).
Proof.
  exists (surroundings_ex (Some (lit "host.name=web-1")) proc_ex), [lit "host"; lit "otel"], [lit "otel"; lit "host"]. eexists. eexists.
  split; [constructor|]. split; [constructor; [intros [X|[]]; discriminate|]; constructor; [intros []|constructor]|]. split.
  { intros n. unfold asked. split.
    - intros [<-|[<-|[]]]; [right; exists (lit "host"); split; [left; reflexivity|]; split; [discriminate|reflexivity]|left; reflexivity].
    - intros [->|(i & [<-|[]] & _ & ->)]; [right; left; reflexivity|left; reflexivity]. }
  split; [vm_compute; reflexivity|]. split; [vm_compute; reflexivity|]. vm_compute. repeat split.
Qed.
Print Assumptions C126_order_refuted.

(** C51: what any value of OTEL_RESOURCE_ATTRIBUTES says, well-formed or not, is what is detected: of each key the last pair; empty keys and items
    without "=" say nothing; OTEL_SERVICE_NAME wins. *)
Theorem C51_any_environment : forall items pairs name, items <> [] -> Forall (fun s => ~ In (chr ",") s) items -> env_says items pairs ->
  let r := otel_detect (Some (join (lit ",") items)) name in
  is_resource r /\ r_schema r = []
  /\ forall k, dget k (r_attrs r)
     = match k with
       | [] => None
       | _ => option_map (PStr false)
                (match name with
                 | Some (c :: s) => if str_eq_dec k (lit "service.name") then Some (c :: s) else dget k (latest pairs)
                 | _ => dget k (latest pairs)
                 end)
       end.
Proof. exact any_environment. Qed.
Print Assumptions C51_any_environment.
(** And every list of items says something. *)
Theorem C51_environment_total : forall items, exists pairs, env_says items pairs.
Proof. exact says_total. Qed.
Print Assumptions C51_environment_total.
Example C51_any_environment_example :
  env_says [lit " a = x%3Dy%zz=1 "; lit "oops"; lit "=v"; lit "a=%C3%A9%FF"] [(lit "a", lit "x=y%zz=1"); ([], lit "v"); (lit "a", [233; 65533]%N)].
Proof.
  apply (es_pair (lit " a ") (lit " x%3Dy%zz=1 ") (lit "a") (lit "x%3Dy%zz=1"));
    [vm_compute; intuition discriminate|apply stripped_iff; vm_compute; reflexivity|apply stripped_iff; vm_compute; reflexivity|apply text_read_iff; vm_compute; reflexivity|].
  apply es_none; [vm_compute; intuition discriminate|].
  apply (es_pair [] (lit "v") [] (lit "v"));
    [vm_compute; intuition discriminate|apply stripped_iff; vm_compute; reflexivity|apply stripped_iff; vm_compute; reflexivity|apply text_read_iff; vm_compute; reflexivity|].
  apply (es_pair (lit "a") (lit "%C3%A9%FF") (lit "a") (lit "%C3%A9%FF"));
    [vm_compute; intuition discriminate|apply stripped_iff; vm_compute; reflexivity|apply stripped_iff; vm_compute; reflexivity|apply text_read_iff; vm_compute; reflexivity|].
  constructor.
Qed.
