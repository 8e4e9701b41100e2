(** C50, C51: resources. *)
From Verif Require Import Spec_Resource Proof_Resource.
From Coq Require Import Lia.
Local Open Scope Z_scope.

(** C50: the merged resource has the keys of both, with the values of the updating one where it has them, and the
    schema url that is given; the values are those of the two resources, unchanged. *)
Theorem C50_merge : forall a b, is_resource a -> is_resource b -> compatible_schemas (r_schema a) (r_schema b) ->
  is_resource (res_merge a b)
  /\ (forall k, dget k (r_attrs (res_merge a b)) = match dget k (r_attrs b) with Some v => Some v | None => dget k (r_attrs a) end)
  /\ r_schema (res_merge a b) = (match r_schema a with [] => r_schema b | s => s end).
Proof. exact c50_merge. Qed.
Print Assumptions C50_merge.
(** C50: a conflict of schema urls returns the old resource. *)
Theorem C50_conflict : forall a b, ~ compatible_schemas (r_schema a) (r_schema b) -> res_merge a b = a.
Proof. exact merge_conflict. Qed.
Print Assumptions C50_conflict.
(** C50: the empty resource is neutral. *)
Theorem C50_empty : forall a, is_resource a -> res_merge EMPTY_RESOURCE a = a /\ res_merge a EMPTY_RESOURCE = a.
Proof. exact c50_empty. Qed.
Print Assumptions C50_empty.
(** C50: merging is associative without conflicts. *)
Theorem C50_assoc : forall a b c, is_resource a -> is_resource b -> is_resource c ->
  compatible_schemas (r_schema a) (r_schema b) -> compatible_schemas (r_schema b) (r_schema c) -> compatible_schemas (r_schema a) (r_schema c) ->
  same_resource (res_merge (res_merge a b) c) (res_merge a (res_merge b c)).
Proof. exact c50_assoc. Qed.
Print Assumptions C50_assoc.
(** What the attributes of a resource are. *)
Theorem C50_attributes : forall attrs schema, attributes_of attrs (r_attrs (res_new attrs schema))
  /\ r_schema (res_new attrs schema) = match schema with Some s => s | None => [] end.
Proof. intros. split; [apply attributes_ok|now rewrite res_new_dict]. Qed.
Print Assumptions C50_attributes.

Definition ra := res_new [(PStr false (lit "a"), PInt false 1); (PStr false (lit "b"), PBytes false [104%N; 105%N])] (Some (lit "x")).
Definition rb := res_new [(PStr false (lit "c"), PSeq false [PBool true]); (PStr false (lit "a"), PInt false 2); (PInt false 3, PBool true)] None.
Definition rc := res_new [(PStr false (lit "c"), PBool false)] (Some (lit "x")).
Example C50_example : is_resource ra /\ is_resource rb /\ is_resource rc
  /\ res_merge ra rb = Res [(lit "a", PInt false 2); (lit "b", PStr false (lit "hi")); (lit "c", PSeq true [PBool true])] (lit "x")
  /\ compatible_schemas (r_schema ra) (r_schema rc)
  /\ res_merge (res_merge ra rb) rc = Res [(lit "a", PInt false 2); (lit "b", PStr false (lit "hi")); (lit "c", PBool false)] (lit "x").
Proof.
  split; [eexists; eexists; reflexivity|]. split; [eexists; eexists; reflexivity|]. split; [eexists; eexists; reflexivity|].
  split; [vm_compute; reflexivity|]. split; [right; right; vm_compute; reflexivity|]. vm_compute. reflexivity.
Qed.
(** With a conflict merging is not associative. *)
Theorem C50_assoc_refuted : exists a b c, is_resource a /\ is_resource b /\ is_resource c
  /\ ~ same_resource (res_merge (res_merge a b) c) (res_merge a (res_merge b c)).
Proof.
  exists (res_new [] (Some (lit "x"))), (res_new [] (Some (lit "y"))), (res_new [(PStr false (lit "k"), PBool true)] None).
  split; [eexists; eexists; reflexivity|]. split; [eexists; eexists; reflexivity|]. split; [eexists; eexists; reflexivity|].
  intros [E _]. specialize (E (lit "k")). vm_compute in E. discriminate.
Qed.
Print Assumptions C50_assoc_refuted.

(** C51: if no two schema urls of the detected resources and the user differ, if the detectors that fail do not
    ask for the error to be raised, and unless the executable's name would be needed and is not a string,
    [Resource.create] returns a resource with a service name that is not empty; the user's attributes win over the
    detected ones, later detectors over earlier ones, and all over the defaults. *)
Theorem C51_create_partial : forall fzero sdk_version entry_point order attrs schema u ud,
  let ds := load_detectors entry_point order in
  let layers := sdk_attributes sdk_version :: map r_attrs (found ds) ++ [ud] in
  let service := top layers (lit "service.name") in let exe := top layers (lit "process.executable.name") in
  Forall (fun d => det_result d = None -> det_raise d = false) ds ->
  Forall (fun r => is_resource r /\ among u (r_schema r)) (found ds) ->
  among u (match schema with Some s => s | None => [] end) ->
  attributes_of (match attrs with Some a => a | None => [] end) ud ->
  ((forall v, service = Some v -> empty_value fzero v) ->
     forall v, exe = Some v -> ~ empty_value fzero v -> exists sub s, v = PStr sub s) ->
  exists r, res_create fzero sdk_version entry_point order attrs schema = Ok r
  /\ (forall k, k <> (lit "service.name") -> dget k (r_attrs r) = top layers k)
  /\ exists v, dget (lit "service.name") (r_attrs r) = Some v /\ ~ empty_value fzero v
     /\ (forall w, service = Some w -> ~ empty_value fzero w -> v = w)
     /\ ((forall w, service = Some w -> empty_value fzero w) ->
          (forall w, exe = Some w -> empty_value fzero w) /\ v = PStr false (lit "unknown_service")
          \/ exists sub s, exe = Some (PStr sub s) /\ v = PStr false (lit "unknown_service" ++ lit ":" ++ s)).
Proof. exact c51_create'. Qed.
Print Assumptions C51_create_partial.
(** C51: the detectors that OTEL_EXPERIMENTAL_RESOURCE_DETECTORS asks for, and "otel", are loaded once each, by their names without the blanks
    around them.  ([order]: the order in which Python iterates over the set of names.) *)
Theorem C51_detectors : forall entry_point items order, Forall (fun s => ~ In (chr ",") s) items -> NoDup order ->
  (forall n, In n order <-> n = lit "otel" \/ In n (detector_names (join (lit ",") items))) ->
  (forall n, In n order <-> asked items n)
  /\ load_detectors entry_point order = flat_map (fun n => match entry_point n with Some d => [d] | None => [] end) order.
Proof. exact c51_detectors. Qed.
Print Assumptions C51_detectors.
Example C51_detectors_example : detector_names (lit " process ,otel,, os,process") = [lit "process"; lit "otel"; lit "os"; lit "process"].
Proof. reflexivity. Qed.
(** C51: what OTEL_RESOURCE_ATTRIBUTES and OTEL_SERVICE_NAME say is detected. *)
Theorem C51_environment : forall items pairs env name, env_items items pairs ->
  env = Some (join (lit ",") items) \/ env = None /\ items = [] ->
  let r := otel_detect env name in
  is_resource r /\ r_schema r = []
  /\ forall k, dget k (r_attrs r)
     = option_map (PStr false)
         (match name with
          | Some (c :: s) => if str_eq_dec k (lit "service.name") then Some (c :: s) else dget k (latest pairs)
          | _ => dget k (latest pairs)
          end).
Proof. exact c51_env. Qed.
Print Assumptions C51_environment.

Definition entry_ex (n : str) : option detector :=
  if str_eqb n (lit "otel") then Some (Det false (Some (otel_detect (Some (lit "team = a%20b,service.name=x,oops")) None)))
  else if str_eqb n (lit "process") then Some (Det false (Some (res_new [(PStr false PROCESS_EXECUTABLE_NAME, PStr false (lit "py"))] None)))
  else if str_eqb n (lit "bad") then Some (Det false None) else None.
Example C51_example :
  env_items [lit "team = a%20b"; lit "service.name=x"; lit "oops"] [(lit "team", lit "a b"); (SERVICE_NAME, lit "x")]
  /\ (let r := res_create (fun _ => false) (lit "1") entry_ex [lit "bad"; lit "otel"; lit "none"] (Some [(PStr false (lit "k"), PBool true)]) (Some (lit "u")) in
      exists d, r = Ok (Res d (lit "u")) /\ dget (lit "team") d = Some (PStr false (lit "a b")) /\ dget SERVICE_NAME d = Some (PStr false (lit "x"))
      /\ dget (lit "k") d = Some (PBool true))
  /\ (let r := res_create (fun _ => false) (lit "1") entry_ex [lit "process"] None None in
      exists d, r = Ok (Res d []) /\ dget SERVICE_NAME d = Some (PStr false (lit "unknown_service:py"))).
Proof.
  split; [|split; cbv zeta; eexists; vm_compute; repeat split].
  assert (NI : forall (c : N) l, forallb (fun x => negb (N.eqb c x)) l = true -> ~ In c l).
  { intros c l Hl I. rewrite forallb_forall in Hl. specialize (Hl _ I). rewrite N.eqb_refl in Hl. discriminate. }
  assert (UT : forall l, forallb (fun x => N.ltb x 128) l = true -> unicode_text l).
  { intros l Hl. apply Forall_forall. intros x I. rewrite forallb_forall in Hl. specialize (Hl _ I). apply N.ltb_lt in Hl. lia. }
  apply (ei_pair [] (lit "team") (lit " ") (lit " ") (lit "a%20b") (lit "a b") []); try reflexivity; try (apply NI; reflexivity); try (apply UT; reflexivity).
  { split; [discriminate|]. split; [reflexivity|]. split; apply NI; reflexivity. }
  apply (ei_pair [] SERVICE_NAME [] [] (lit "x") (lit "x") []); try reflexivity; try (apply NI; reflexivity); try (apply UT; reflexivity).
  { split; [discriminate|]. split; [reflexivity|]. split; apply NI; reflexivity. }
  apply ei_none; [apply NI; reflexivity|apply NI; reflexivity|constructor].
Qed.
(** Without the condition on schema urls C51 is false: the user's attributes are lost, and there is no service name. *)
Theorem C51_schema_refuted : exists entry attrs schema r,
  res_create (fun _ => false) (lit "1") entry [lit "otel"] (Some attrs) (Some schema) = Ok r
  /\ In (PStr false (lit "service.name"), PStr false (lit "mine")) attrs /\ dget (lit "service.name") (r_attrs r) = None.
Proof.
  exists (fun _ => Some (Det false (Some (res_new [] (Some (lit "x")))))), [(PStr false SERVICE_NAME, PStr false (lit "mine"))], (lit "y").
  eexists. split; [vm_compute; reflexivity|]. split; [now left|reflexivity].
Qed.
Print Assumptions C51_schema_refuted.
(** An executable name that is a number makes it raise. *)
Theorem C51_executable_refuted : exists attrs,
  res_create (fun _ => false) (lit "1") (fun _ => None) [] (Some attrs) None = Raises "TypeError".
Proof. exists [(PStr false PROCESS_EXECUTABLE_NAME, PInt false 3)]. vm_compute. reflexivity. Qed.
Print Assumptions C51_executable_refuted.
