(** Specification vocabulary for instrument creation. *)
From Verif Require Export Model_Meter.

(** A valid name: a letter, then up to 254 letters, digits and [-_./]. *)
Definition valid_name (n : str) : Prop :=
  exists c s, n = c :: s /\ is_alpha c = true /\ length s <= 254
  /\ forall x, In x s -> is_alpha x = true \/ is_digit x = true \/ In x (lit "-_./").
(** A valid unit: up to 63 ASCII characters. *)
Definition valid_unit (u : str) : Prop := length u <= 63 /\ forall x, In x u -> (x <= 127)%N.
Definition valid_call (c : ccall) : Prop := valid_name (cc_name c) /\ valid_unit (cc_unit c).
(** The same kind, unit, description and, ignoring case, name. *)
Definition same_identity (c d : ccall) : Prop :=
  cc_kind c = cc_kind d /\ lower (cc_name c) = lower (cc_name d) /\ cc_unit c = cc_unit d /\ cc_descr c = cc_descr d.
Definition no_comma (u : str) : Prop := ~ In (chr ",") u.

(** The calls one after the other: each runs to its end before the next starts. *)
Definition one_after_other (cs : list ccall) : list mev :=
  flat_map (fun tc => [MCall (fst tc) (snd tc); MStep (fst tc); MStep (fst tc); MStep (fst tc)]) (combine (seq 0 (length cs)) cs).
