(** The endpoint of the Zipkin exporters: its addresses and the service's name.

    Sources: opentelemetry-exporter-zipkin-json/src/opentelemetry/exporter/zipkin/node_endpoint.py ("node") and json/__init__.py
    ("exporter"), and, of Python's standard
    library, Lib/ipaddress.py of version 3.11 ("ipaddress"; by the names of its functions).  Not modelled: addresses given as bytes or
    bool, which the type of the argument excludes; the texts of the exceptions. *)
From Verif Require Export Model_ZipkinDoc Model_Resource.

Definition has (c : N) (s : str) : bool := existsb (N.eqb c) s.
Definition is_nil (s : str) : bool := match s with [] => true | _ => false end.

(** ** ipaddress [IPv4Address] *)
(** [_parse_octet]; [int(octet_str, 10)] of ASCII digits *)
Definition parse_octet (s : str) : option Z :=
  if is_nil s then None
  else if negb (forallb is_digit s) then None
  else if Nat.ltb 3 (length s) then None
  else if (negb (str_eqb s (lit "0")) && N.eqb (hd 0%N s) 48)%bool then None
  else let n := fold_left (fun a c => (10 * a + (Z.of_N c - 48))%Z) s 0%Z in
       if (255 <? n)%Z then None else Some n.
(** [_ip_int_from_string]; None is an AddressValueError *)
Definition v4_of_text (s : str) : option Z :=
  match split_on 46 s with
  | [a; b; c; d] =>
      match parse_octet a, parse_octet b, parse_octet c, parse_octet d with
      | Some a, Some b, Some c, Some d => Some (fold_left (fun n o => 256 * n + o) [a; b; c; d] 0)%Z
      | _, _, _, _ => None
      end
  | _ => None
  end.
(** [_string_from_ip_int] *)
Definition v4_text (n : Z) : str :=
  join [46%N] (map (fun k => dec (Z.to_N (n / 256 ^ k mod 256))) [3; 2; 1; 0]%Z).

(** ** ipaddress [IPv6Address] *)
(** [_parse_hextet]; [int("", 16)] raises. *)
Definition parse_hextet (s : str) : option Z :=
  if negb (forallb is_hex s) then None
  else if Nat.ltb 4 (length s) then None
  else if is_nil s then None
  else Some (Z.of_N (hex_value s)).
Fixpoint read_groups (l : list str) (acc : Z) : option Z :=
  match l with
  | [] => Some acc
  | p :: l => match parse_hextet p with Some g => read_groups l (65536 * acc + g)%Z | None => None end
  end.
(** "%x" *)
Definition hextet (n : Z) : str := hex (Z.to_N n).
(** [_ip_int_from_string]: an IPv4 address at the end as two groups; *)
Definition expand (parts : list str) : option (list str) :=
  let z := last parts [] in
  if has 46 z then option_map (fun n => removelast parts ++ [hextet (n / 65536); hextet (n mod 65536)]) (v4_of_text z)
  else Some parts.
(** the indices of the empty parts that are neither first nor last; *)
Definition skips (parts : list str) : list nat :=
  filter (fun i => is_nil (nth i parts [])) (seq 1 (length parts - 2)).
(** and the whole. *)
Definition v6_of_text (s : str) : option Z :=
  let parts := split_on 58 s in
  if Nat.ltb (length parts) 3 then None
  else match expand parts with
  | None => None
  | Some parts =>
      let n := length parts in
      if Nat.ltb 9 n then None
      else match skips parts with
      | [] => if (negb (Nat.eqb n 8) || is_nil (hd [] parts) || is_nil (last parts []))%bool then None else read_groups parts 0
      | [i] =>
          let first := is_nil (hd [] parts) in
          let final := is_nil (last parts []) in
          let hi := if first then i - 1 else i in
          let lo := if final then n - i - 1 - 1 else n - i - 1 in
          if (first && negb (Nat.eqb hi 0))%bool then None
          else if (final && negb (Nat.eqb lo 0))%bool then None
          else if Nat.leb 8 (hi + lo) then None
          else match read_groups (firstn hi parts) 0 with
               | Some a => read_groups (skipn (n - lo) parts) (a * 65536 ^ Z.of_nat (8 - (hi + lo)))%Z
               | None => None
               end
      | _ => None
      end
  end.
(** [_compress_hextets]: the longest run of "0"s so far, and the one that goes on *)
Definition run_step (st : nat * nat * option nat * nat) (ih : nat * str) : nat * nat * option nat * nat :=
  let '(best, best_len, start, len) := st in
  let '(i, h) := ih in
  if str_eqb h (lit "0") then
    let len := S len in
    let start := match start with None => i | Some s => s end in
    if Nat.ltb best_len len then (start, len, Some start, len) else (best, best_len, Some start, len)
  else (best, best_len, None, 0).
Definition compress (l : list str) : list str :=
  let '(best, best_len, _, _) := fold_left run_step (combine (seq 0 (length l)) l) (0, 0, None, 0) in
  if Nat.ltb 1 best_len then
    let stop := best + best_len in
    let l' := if Nat.eqb stop (length l) then l ++ [[]] else l in
    let l' := firstn best l' ++ [[]] ++ skipn stop l' in
    if Nat.eqb best 0 then [] :: l' else l'
  else l.
(** [_string_from_ip_int]; the groups by division instead of by the text of 32 digits *)
Definition v6_text (n : Z) : str :=
  join [58%N] (compress (map (fun k => hextet (n / 65536 ^ k mod 65536)) [7; 6; 5; 4; 3; 2; 1; 0]%Z)).
(** [_split_scope_id] and [__init__] *)
Definition v6_address (s : str) : option (Z * option str) :=
  match split1 37 s with
  | (a, None) => option_map (fun n => (n, None)) (v6_of_text a)
  | (a, Some z) => if (is_nil z || has 37 z)%bool then None else option_map (fun n => (n, Some z)) (v6_of_text a)
  end.

(** ** ipaddress [ip_address] *)
Inductive ip := V4 (n : Z) | V6 (n : Z) (zone : option str).
Inductive ip_input := IpText (s : str) | IpInt (z : Z).
Definition ip_address (a : ip_input) : option ip :=
  match a with
  | IpInt z => if ((z <? 0) || (2 ^ 32 - 1 <? z))%Z%bool
               then if ((z <? 0) || (2 ^ 128 - 1 <? z))%Z%bool then None else Some (V6 z None)
               else Some (V4 z)
  | IpText s =>
      if has 47 s then None
      else match v4_of_text s with
           | Some n => Some (V4 n)
           | None => option_map (fun x => V6 (fst x) (snd x)) (v6_address s)
           end
  end.
(** [__str__] *)
Definition ip_text (a : ip) : str :=
  match a with
  | V4 n => v4_text n
  | V6 n zone => v6_text n ++ match zone with Some (c :: z) => 37%N :: c :: z | _ => [] end
  end.

(** ** node 26-85 *)
Record endpoint := Endpoint { ne_ipv4 : option ip; ne_ipv6 : option ip; ne_port : option Z; ne_service : pyval }.
(** 59-69 *)
Definition set_ipv4 (a : option ip_input) : outcome_of (option ip) :=
  match a with
  | None => Ok None
  | Some a => match ip_address a with Some (V4 n) => Ok (Some (V4 n)) | _ => Raises "ValueError" end
  end.
(** 75-85 *)
Definition set_ipv6 (a : option ip_input) : outcome_of (option ip) :=
  match a with
  | None => Ok None
  | Some a => match ip_address a with Some (V6 n z) => Ok (Some (V6 n z)) | _ => Raises "ValueError" end
  end.
(** 36-53; [attrs]: the attributes of the global provider's resource, if it has one, and otherwise of [Resource.create()] *)
Definition new_endpoint (ipv4 ipv6 : option ip_input) (port : option Z) (attrs : dict str pyval) : outcome_of endpoint :=
  bind_out (set_ipv4 ipv4) (fun v4 =>
  bind_out (set_ipv6 ipv6) (fun v6 =>
  match dget SERVICE_NAME attrs with
  | Some service => Ok (Endpoint v4 v6 port service)
  | None => Raises "KeyError"
  end)).
(** What the JSON encoders make of it (encoder 283-292) *)
Definition as_node (e : endpoint) : node :=
  Node (ne_service e) (option_map ip_text (ne_ipv4 e)) (option_map ip_text (ne_ipv6 e)) (ne_port e).
(** What the protobuf encoder makes of it (opentelemetry-exporter-zipkin-proto-http/src/opentelemetry/exporter/zipkin/proto/http/v2/__init__.py
    109-122): bytes are empty and the port is 0 if they are not set; the port is an int32; [None]: an exception is raised.  A service's
    name that is not a str is not modelled (given as [None]). *)
Record pb_endpoint := PbEndpoint { pe_service : str; pe_ipv4 : list N; pe_ipv6 : list N; pe_port : Z }.
(** ipaddress [packed]: the address in 4 bytes or in 16; it has no zone *)
Definition packed (a : ip) : option (list N) := match a with V4 n => to_bytes 4 n | V6 n _ => to_bytes 16 n end.
Definition endpoint_pb (e : endpoint) : option pb_endpoint :=
  match ne_service e with
  | PStr _ s =>
      match pb_str s, pb_opt packed [] (ne_ipv4 e), pb_opt packed [] (ne_ipv6 e), pb_opt pb_sint32 0%Z (ne_port e) with
      | Some s, Some a, Some b, Some p => Some (PbEndpoint s a b p)
      | _, _, _, _ => None
      end
  | _ => None
  end.
(** exporter 159-168: [export] sets the service's name before anything of it can raise. *)
Definition with_service (e : endpoint) (l : list rspan) : endpoint :=
  match l with
  | [] => e
  | s :: _ => match dget SERVICE_NAME (r_attrs (rs_resource s)) with
              | Some v => if Model_Span.truthy v then Endpoint (ne_ipv4 e) (ne_ipv6 e) (ne_port e) v else e
              | None => e
              end
  end.
(** The endpoint that the last of these batches is sent with *)
Definition after_batches (e : endpoint) (bs : list (list rspan)) : endpoint := fold_left with_service bs e.
