(** Specifications for samplers and start_span. *)
From Verif Require Export Spec_Span Model_Sampling Spec_Context.
Local Open Scope nat_scope.

(** The rational number [m * 2^e]. *)
Definition value (m e : Z) : Q :=
  if Z.leb 0 e then inject_Z (m * 2 ^ e) else m # Z.to_pos (2 ^ (- e)).

(** [b] is [v] rounded to the nearest integer, halves to even. *)
Definition nearest_even (v : Q) (b : Z) : Prop :=
  (v - (1 # 2) <= inject_Z b)%Q /\ (inject_Z b <= v + (1 # 2))%Q
  /\ ((v - (1 # 2) == inject_Z b)%Q \/ (inject_Z b == v + (1 # 2))%Q -> Z.even b = true).

Definition sampled (r : sampling_result) : Prop := sr_decision r = RECORD_AND_SAMPLE.

(** The samplers that can be built from those of the SDK. *)
Inductive built_in : sampler -> Prop :=
| bi_static d : built_in (static_sampler d)
| bi_ratio rate b : ratio_bound rate = Ok b -> built_in (ratio_sampler b)
| bi_parent root rs rn ls ln : built_in root -> built_in rs -> built_in rn -> built_in ls -> built_in ln ->
    built_in (parent_based root (Delegates rs rn ls ln)).

(** ** Chains of spans *)

Section Chain.
Context {G : Type}.
Variable gen_trace_id gen_span_id : G -> Z * G.
(** The generators only give valid ids. *)
Definition valid_ids : Prop :=
  (forall g, 0 < fst (gen_trace_id g) < 2 ^ 128)%Z /\ (forall g, 0 < fst (gen_span_id g) < 2 ^ 64)%Z.

(** The arguments of a start_span call. *)
Record span_args := SpanArgs {
  a_name : str; a_kind : Z; a_attrs : pairs; a_links : link_args; a_start : option Z; a_now : Z
}.
(** Each span is started with the context in which the span before is current. *)
Fixpoint start_chain (tr : tracer) (ctx : context) (calls : list span_args) (g : G) : list started :=
  match calls with
  | [] => []
  | a :: rest =>
      match start_span gen_trace_id gen_span_id tr ctx None (a_name a) (a_kind a) (a_attrs a) (a_links a)
                       (a_start a) (a_now a) g with
      | (Ok s, g') => s :: start_chain tr (set_span_in_context (as_obj s) ctx) rest g'
      | (Raises _, _) => []
      end
  end.
End Chain.

(** ** The sampler that the environment names *)
Section EnvChoice.
(** The lower-cased name and the rate. *)
Variable name : str.
Variable rate : double.
Definition uses_rate : Prop := name = lit "traceidratio" \/ name = lit "parentbased_traceidratio".
Definition ignores_parent : Prop := name = lit "always_on" \/ name = lit "always_off" \/ name = lit "traceidratio".
Definition samples_no_root : Prop := name = lit "always_off" \/ name = lit "parentbased_always_off".
Definition rate_in_range : Prop := exists m e, rate = DFin m e /\ (0 <= value m e <= 1)%Q.
(** Whether a span without parent, or one whose parent does not matter, is sampled. *)
Definition root_sampled (trace_id : Z) : Prop :=
  ~ samples_no_root
  /\ (uses_rate -> exists m e b, rate = DFin m e /\ nearest_even (value m e * inject_Z (2 ^ 64)) b
                                 /\ (trace_id mod 2 ^ 64 < b)%Z).
Definition env_sampled (parent : span_context) (trace_id : Z) : Prop :=
  (~ ignores_parent /\ sc_is_valid parent = true /\ flags_sampled (sc_flags parent) = true)
  \/ ((ignores_parent \/ sc_is_valid parent = false) /\ root_sampled trace_id).
End EnvChoice.

(** The name in OTEL_TRACES_SAMPLER, and the rate in OTEL_TRACES_SAMPLER_ARG when it is a number. *)
Definition env_name (pylower : str -> str) (environ : str -> option str) : str :=
  pylower (match environ (lit "OTEL_TRACES_SAMPLER") with Some s => s | None => lit "parentbased_always_on" end).
Definition env_rate (pyfloat : str -> option double) (environ : str -> option str) : double :=
  match environ (lit "OTEL_TRACES_SAMPLER_ARG") with
  | None => DFin 1 0
  | Some s => match pyfloat s with Some r => r | None => DFin 1 0 end
  end.
