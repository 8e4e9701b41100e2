(** The texts of IP addresses: dotted decimals, and RFC 4291 section 2.2 with the zones of RFC 4007. *)
From Verif Require Export Spec_Otlp Spec_Json Spec_ZipkinDoc Model_NodeEndpoint.

(** A number up to 255 in decimal, without leading zeros *)
Definition octet_text (s : str) (n : Z) : Prop := int_part s /\ n = Spec_Json.number s 0%Z /\ (n <= 255)%Z.
Definition ipv4_text (s : str) (n : Z) : Prop :=
  exists s1 s2 s3 s4 a b c d, s = s1 ++ lit "." ++ s2 ++ lit "." ++ s3 ++ lit "." ++ s4
  /\ octet_text s1 a /\ octet_text s2 b /\ octet_text s3 c /\ octet_text s4 d
  /\ n = (a * 2 ^ 24 + b * 2 ^ 16 + c * 2 ^ 8 + d)%Z.

(** One to four hexadecimal digits *)
Inductive hex_number : str -> Z -> Prop :=
| hx_digit c v : hexd c v -> hex_number [c] (Z.of_N v)
| hx_more s n c v : hex_number s n -> hexd c v -> hex_number (s ++ [c]) (16 * n + Z.of_N v).
Definition group_text (s : str) (n : Z) : Prop := hex_number s n /\ (length s <= 4)%nat.
(** Groups of 16 bits with colons between them; at the end of an address ([v4]) the last two may be an IPv4 address. *)
Inductive groups_text (v4 : bool) : str -> list Z -> Prop :=
| gs_one s n : group_text s n -> groups_text v4 s [n]
| gs_v4 s n : v4 = true -> ipv4_text s n -> groups_text v4 s [(n / 2 ^ 16)%Z; (n mod 2 ^ 16)%Z]
| gs_more s n t l : group_text s n -> groups_text v4 t l -> groups_text v4 (s ++ lit ":" ++ t) (n :: l).
Definition some_groups (v4 : bool) (s : str) (l : list Z) : Prop := (s = [] /\ l = []) \/ groups_text v4 s l.
Definition groups_value (l : list Z) : Z := fold_left (fun n g => n * 2 ^ 16 + g)%Z l 0%Z.
(** Eight groups; "::" stands for one or more groups of zeros. *)
Inductive ipv6_text : str -> Z -> Prop :=
| v6_full s l : groups_text true s l -> length l = 8%nat -> ipv6_text s (groups_value l)
| v6_short s t hi lo k : some_groups false s hi -> some_groups true t lo -> (1 <= k)%nat -> (length hi + k + length lo = 8)%nat ->
    ipv6_text (s ++ lit "::" ++ t) (groups_value (hi ++ repeat 0%Z k ++ lo)).
(** A zone: "%" and its name *)
Definition ipv6_zoned (s : str) (n : Z) (zone : option str) : Prop :=
  match zone with
  | None => ipv6_text s n
  | Some z => z <> [] /\ ~ In (chr "%") z /\ exists t, s = t ++ lit "%" ++ z /\ ipv6_text t n
  end.

(** The address that an argument stands for *)
Definition is_ipv4 (a : ip_input) (n : Z) : Prop :=
  match a with IpText s => ipv4_text s n | IpInt z => n = z /\ (0 <= z < 2 ^ 32)%Z end.
Definition is_ipv6 (a : ip_input) (n : Z) (zone : option str) : Prop :=
  match a with IpText s => ipv6_zoned s n zone /\ ~ In (chr "/") s | IpInt z => n = z /\ zone = None /\ (0 <= z < 2 ^ 128)%Z end.

(** The arguments that should be, and are, accepted *)
Definition accepted (ipv4 ipv6 : option ip_input) : Prop :=
  (forall a, ipv4 = Some a -> exists n, is_ipv4 a n)
  /\ (forall a, ipv6 = Some a -> (exists n zone, is_ipv6 a n zone) /\ forall z, a = IpInt z -> (2 ^ 32 <= z)%Z).
Definition unicode_arg (a : option ip_input) : Prop := forall s, a = Some (IpText s) -> unicode s.
(** The members of the endpoint in a document: an address is written in any of its texts. *)
Inductive endpoint_says (ipv4 ipv6 : option ip_input) (port : option Z) (service : pyval) : str -> jv -> Prop :=
| es_service j : value_says service j -> endpoint_says ipv4 ipv6 port service (lit "serviceName") j
| es_ipv4 a n s : ipv4 = Some a -> is_ipv4 a n -> ipv4_text s n -> endpoint_says ipv4 ipv6 port service (lit "ipv4") (JStr s)
| es_ipv6 a n zone s : ipv6 = Some a -> is_ipv6 a n zone -> ipv6_zoned s n zone -> endpoint_says ipv4 ipv6 port service (lit "ipv6") (JStr s)
| es_port p : port = Some p -> endpoint_says ipv4 ipv6 port service (lit "port") (JInt p).

(** The service that the last of some batches is sent for: that of its first span; if that has none, of the batch before, and so on. *)
Definition service_of (l : list rspan) : option pyval :=
  match l with [] => None | s :: _ => dget (lit "service.name") (r_attrs (rs_resource s)) end.
(** A resource's service.name is a text. *)
Definition named_by_text (l : list rspan) : Prop := forall v, service_of l = Some v -> exists sub t, v = PStr sub t /\ unicode t.
Definition unnamed (l : list rspan) : Prop := service_of l = None \/ exists sub, service_of l = Some (PStr sub []).
Inductive sent_for (initial : pyval) : list (list rspan) -> pyval -> Prop :=
| sf_initial bs : Forall unnamed bs -> sent_for initial bs initial
| sf_batch bs l v bs' : service_of l = Some v -> ~ unnamed l -> Forall unnamed bs' -> sent_for initial (bs ++ l :: bs') v.

(** The endpoint in protobuf: the addresses in bytes, the first the highest; what was not given is empty, or 0. *)
Definition address_bytes (k : nat) (bs : list N) (n : Z) : Prop := is_bytes k bs /\ number_of_bytes bs = n.
Definition endpoint_sent (ipv4 ipv6 : option ip_input) (port : option Z) (m : pb_endpoint) : Prop :=
  match ipv4 with None => pe_ipv4 m = [] | Some a => exists n, is_ipv4 a n /\ address_bytes 4 (pe_ipv4 m) n end
  /\ match ipv6 with None => pe_ipv6 m = [] | Some a => exists n zone, is_ipv6 a n zone /\ address_bytes 16 (pe_ipv6 m) n end
  /\ pe_port m = match port with None => 0%Z | Some p => p end.
