(** Specifications for the built-in resource detectors. *)
From Verif Require Export Spec_Runtime Spec_Resource Model_Detectors.
From Verif Require Import Spec_Utf8.
From Verif Require Spec_Json.

(** Words with one blank between two of them; in the same way, version numbers with a dot. *)
Inductive separated (sep : str) : list str -> str -> Prop :=
| sp_one w : separated sep [w] w
| sp_more w x ws l : separated sep (x :: ws) l -> separated sep (w :: x :: ws) (w ++ sep ++ l).
(** A number in decimal digits, without leading zeros. *)
Definition numeral (s : str) (n : N) : Prop := Spec_Json.int_part s /\ Spec_Json.number s 0 = Z.of_N n.
(** "3.12.1" for a final release, "3.13.0.beta.2" for others. *)
Definition version_text (v : version_info) (t : str) : Prop :=
  exists a b c, numeral a (vi_major v) /\ numeral b (vi_minor v) /\ numeral c (vi_micro v)
  /\ ((vi_level v = lit "final" /\ vi_serial v = 0%N) /\ separated (lit ".") [a; b; c] t
      \/ ~ (vi_level v = lit "final" /\ vi_serial v = 0%N)
         /\ exists s, numeral s (vi_serial v) /\ separated (lit ".") [a; b; c; vi_level v; s] t).
(** The directory of a path. *)
Definition slashes (s : str) : Prop := s <> [] /\ Forall (fun c => c = chr "/") s.
Inductive directory : str -> str -> Prop :=
| dir_none f : ~ In (chr "/") f -> directory f []
| dir_root s f : slashes s -> ~ In (chr "/") f -> directory (s ++ f) s
| dir_in d c s f : c <> chr "/" -> slashes s -> ~ In (chr "/") f -> directory ((d ++ [c]) ++ s ++ f) (d ++ [c]).

(** What a process resource says. *)
Inductive process_attribute (p : process_facts) : str -> pyval -> Prop :=
| pa_description : process_attribute p (lit "process.runtime.description") (PStr false (pr_version p))
| pa_name : process_attribute p (lit "process.runtime.name") (PStr false (pr_implementation p))
| pa_version t : version_text (pr_info p) t -> process_attribute p (lit "process.runtime.version") (PStr false t)
| pa_pid : process_attribute p (lit "process.pid") (PInt false (pr_pid p))
| pa_executable e : pr_executable p = Some e -> process_attribute p (lit "process.executable.name") (PStr false e)
| pa_path e d : pr_executable p = Some e -> directory e d -> process_attribute p (lit "process.executable.path") (PStr false d)
| pa_command c args : pr_argv p = c :: args -> process_attribute p (lit "process.command") (PStr false c)
| pa_line l : separated (lit " ") (pr_argv p) l -> process_attribute p (lit "process.command_line") (PStr false l)
| pa_args : process_attribute p (lit "process.command_args") (PSeq true (map (PStr false) (pr_argv p)))
| pa_parent n : pr_ppid p = Some n -> process_attribute p (lit "process.parent_pid") (PInt false n)
| pa_owner u : pr_owner p = Some (Some u) -> process_attribute p (lit "process.owner") (PStr false u).
(** The detector finds what it needs. *)
Definition describable (p : process_facts) : Prop := pr_executable p <> None /\ pr_argv p <> [] /\ pr_owner p <> Some None.

(** Operating systems by their names in lower case. *)
Inductive os_described (name release version : str) : str -> str -> Prop :=
| od_windows : name = lit "windows" -> os_described name release version (lit "windows") version
| od_solaris : name = lit "sunos" -> os_described name release version (lit "solaris") version
| od_other : name <> lit "windows" -> name <> lit "sunos" -> os_described name release version name release.

(** What any items of OTEL_RESOURCE_ATTRIBUTES say: before the first "=" the key, after it the value, both without the whitespace around
    them; in the value, escapes stand for bytes of UTF-8. *)
Inductive env_says : list str -> list (str * str) -> Prop :=
| es_nil : env_says [] []
| es_pair k v k' v' t items pairs : ~ In (chr "=") k -> stripped k k' -> stripped v v' -> text_read v' t -> env_says items pairs ->
    env_says ((k ++ lit "=" ++ v) :: items) ((k', t) :: pairs)
| es_none x items pairs : ~ In (chr "=") x -> env_says items pairs -> env_says (x :: items) pairs.
