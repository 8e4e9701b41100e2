(** The resource detectors of the SDK: process, operating system and host.

    Source: opentelemetry-sdk/src/opentelemetry/sdk/resources/__init__.py *)
From Verif Require Export Model_Resource.
From Verif Require Import Model_Json.

(** What the detector reads of [sys] and [os]: [sys.version_info], [sys.version], [sys.implementation.name], [os.getpid()], [sys.executable] (None when Python
    cannot find it), [sys.argv] (texts), [os.getppid()] where it exists; and the owner that psutil gives: [None] if psutil is not
    installed, [Some None] if [username()] raises. *)
Record version_info := VersionInfo { vi_major : N; vi_minor : N; vi_micro : N; vi_level : str; vi_serial : N }.
Record process_facts := Process {
  pr_info : version_info; pr_version : str; pr_implementation : str; pr_pid : Z; pr_executable : option str; pr_argv : list str;
  pr_ppid : option Z; pr_owner : option (option str) }.

(** 362-372: [".".join(map(str, ...))] *)
Definition runtime_version (v : version_info) : str :=
  let numbers := [dec (vi_major v); dec (vi_minor v); dec (vi_micro v)] in
  join (lit ".") (if str_eqb (vi_level v) (lit "final") && N.eqb (vi_serial v) 0 then numbers
                  else numbers ++ [vi_level v; dec (vi_serial v)]).

(** [os.path.dirname] of the standard library for POSIX:
    i = p.rfind("/") + 1; head = p[:i]; if head and head != "/" * len(head): head = head.rstrip("/") *)
Definition not_slash (c : N) : bool := negb (N.eqb c (chr "/")).
Definition dirname (p : str) : str :=
  let head := rstrip not_slash p in
  if forallb (N.eqb (chr "/")) head then head else rstrip (N.eqb (chr "/")) head.

(** 361-399 [ProcessResourceDetector.detect]: [dirname(None)] raises TypeError, [argv[0]] of an empty list IndexError. *)
Definition process_detect (p : process_facts) : outcome_of resource :=
  match pr_executable p with
  | None => Raises "TypeError"
  | Some exe =>
      match pr_argv p with
      | [] => Raises "IndexError"
      | command :: _ =>
          let info :=
            [(lit "process.runtime.description", PStr false (pr_version p));
             (lit "process.runtime.name", PStr false (pr_implementation p));
             (lit "process.runtime.version", PStr false (runtime_version (pr_info p)));
             (lit "process.pid", PInt false (pr_pid p));
             (PROCESS_EXECUTABLE_NAME, PStr false exe);
             (lit "process.executable.path", PStr false (dirname exe));
             (lit "process.command", PStr false command);
             (lit "process.command_line", PStr false (join (lit " ") (pr_argv p)));
             (lit "process.command_args", PSeq false (map (PStr false) (pr_argv p)))] in
          let info := match pr_ppid p with Some n => dset (lit "process.parent_pid") (PInt false n) info | None => info end in
          match pr_owner p with
          | Some None => Raises "psutil"
          | Some (Some u) => Ok (res_new (as_arg (dset (lit "process.owner") (PStr false u) info)) None)
          | None => Ok (res_new (as_arg info) None)
          end
      end
  end.

Section Platform.
(** [str.lower] *)
Variable pylower : str -> str.
(** 405-483 [OsResourceDetector.detect]: platform.system(), platform.release(), platform.version() *)
Definition os_detect (system release version : str) : resource :=
  let os_type := pylower system in
  let '(os_type, os_version) :=
    if str_eqb os_type (lit "windows") then (os_type, version)
    else if str_eqb os_type (lit "sunos") then (lit "solaris", version)
    else (os_type, release) in
  res_new (as_arg [(lit "os.type", PStr false os_type); (lit "os.version", PStr false os_version)]) None.
(** 486-497 [_HostResourceDetector.detect]: socket.gethostname(), platform.machine() *)
Definition host_detect (name machine : str) : resource :=
  res_new (as_arg [(lit "host.name", PStr false name); (lit "host.arch", PStr false machine)]) None.

(** What the built-in detectors find around them. *)
Record surroundings := Surroundings {
  sr_attributes : option str; sr_service_name : option str; sr_process : process_facts;
  sr_system : str; sr_release : str; sr_version : str; sr_host : str; sr_machine : str }.
(** pyproject.toml 68-72: the entry points of the SDK; a detector does not ask for errors to be raised (322-325).
    Entry points of other packages are not here. *)
Definition sdk_entry_point (s : surroundings) (name : str) : option detector :=
  if str_eqb name (lit "otel") then Some (Det false (Some (otel_detect (sr_attributes s) (sr_service_name s))))
  else if str_eqb name (lit "process")
       then Some (Det false (match process_detect (sr_process s) with Ok r => Some r | Raises _ => None end))
  else if str_eqb name (lit "os") then Some (Det false (Some (os_detect (sr_system s) (sr_release s) (sr_version s))))
  else if str_eqb name (lit "host") then Some (Det false (Some (host_detect (sr_host s) (sr_machine s))))
  else None.
End Platform.
