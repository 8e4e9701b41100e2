(** What a Prometheus scrape should show of what the program measured. *)
From Verif Require Export Model_Scrape Spec_Streams.
Local Open Scope Z_scope.

Section Scrape.
Variable float_int : Z -> option Z.
Variable obj_hash : N -> bool.
Variable fnmatch : str -> str -> bool.
Context {Scope : Type}.
Variable the_scope : Scope -> scope.
Variable obj : N -> instr.
Variable scope_of : N -> Scope.
Variable views : list (@view aggregation).
Variable other_digit : N -> bool.
Variable dumps : pyval -> str.
Variable r : nat.

(** A stream: an instrument as one view sees it, with the aggregation that results. *)
Definition stream (i : N) (v : @view aggregation) (g : aggregation) : Prop :=
  seen_through fnmatch the_scope obj scope_of views i v /\ asked obj prometheus_reader i v g.
(** The boundaries of histograms increase, and are given where a view asks for buckets. *)
Definition boundaries_ok (i : N) (g : aggregation) : Prop :=
  (forall bounds e, gives_histogram (obj i) g bounds e -> sorted bounds) /\ (forall e, g <> ExplicitBuckets None e).

(** The measurements that count for a scrape after the calls [h] in which [obs] is observed: for sums and histograms of
    synchronous instruments all there ever were; otherwise those since the reader's last collection. *)
Definition counted_now (i : N) (g : aggregation) (h : list pcall) (obs : list observation) (now : Z) (ms : list measurement) : Prop :=
  (synchronous (in_kind (obj i)) = true /\ ~ gives_gauge (in_kind (obj i)) g /\ ms = gets obj r i h)
  \/ ((synchronous (in_kind (obj i)) = false \/ gives_gauge (in_kind (obj i)) g)
      /\ exists h0 part, since r h h0 part /\ ms = gets obj r i part ++ observed i obs now).

(** What is shown for the amounts [l]: their sum, the last of them, or how many there are up to each boundary and in all. *)
Definition value_for (i : N) (g : aggregation) (l : list Z) (k : pkind) (x : pvalue) : Prop :=
  (gives_sum (in_kind (obj i)) g /\ x = PVNumber (NInt (total l))
   /\ k = match in_kind (obj i) with ICounter | IObservableCounter => KCounter | _ => KGauge end)
  \/ (gives_gauge (in_kind (obj i)) g /\ k = KGauge /\ exists l' z, l = l' ++ [z] /\ x = PVNumber (NInt z))
  \/ (k = KHistogram /\ exists bounds e, gives_histogram (obj i) g bounds e
      /\ x = PVHistogram (map (fun b => (Some (NInt b), count_in (fun z => z <=? b) l)) bounds ++ [(None, Z.of_nat (length l))]) (NInt (total l))).

(** The family and the sample for the amounts [l] with attributes [a] (what becomes of names and labels: C56, C70, C71) *)
Definition sample_for (i : N) (v : @view aggregation) (g : aggregation) (a : option mattrs) (l : list Z) (f : pfamily) (s : list str * pvalue) : Prop :=
  pf_name f = sanitize_full_name other_digit (renamed (v_name v) (in_name (obj i)))
  /\ pf_doc f = renamed (v_descr v) (in_descr (obj i))
  /\ pf_unit f = map_unit (in_unit (obj i))
  /\ pf_labels f = label_keys other_digit (shown (v_keys v) a)
  /\ fst s = label_values dumps (shown (v_keys v) a)
  /\ value_for i g l (pf_kind f) (snd s)
  /\ In s (pf_samples f).

(** The families of a scrape, and what no two of them have in common. *)
Definition families (ys : list pyield) : list pfamily := flat_map (fun y => match y with YFamily f => [f] | YTarget _ => [] end) ys.
Definition identity (f : pfamily) : pkind * str * str * list str * str := (pf_kind f, pf_name f, pf_doc f, pf_labels f, pf_unit f).

(** No attribute has the empty key. *)
Definition keys_not_empty (c : pcall) : Prop :=
  match c with
  | PCall _ attrs _ _ => ~ In [] (keys (given attrs))
  | PCollect _ obs _ _ => Forall (fun ob : observation => ~ In [] (keys (given (snd (fst ob))))) obs
  end.
(** All the reader's collections are scrapes. *)
Definition only_scrapes (h : list (pcall * bool)) : Prop := forall obs timeout now b, In (PCollect r obs timeout now, b) h -> b = true.
End Scrape.
