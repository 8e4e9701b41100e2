From Verif Require Import Spec_Shim Proof_Runtime Proof_Sampling Proof_Span.
From Verif Require Proof_Blocks.
From Verif Require Import Proof_Dict Proof_Str.
From Verif Require Proof_Baggage.
Local Open Scope nat_scope.
Notation after := Proof_Blocks.after.

(** ** Lists *)
Lemma nth_upd {A} (f : A -> A) l : forall i j, nth_error (upd_nth i f l) j
  = if Nat.eqb i j then option_map f (nth_error l j) else nth_error l j.
Proof.
  induction l as [|x l IH]; intros [|i] [|j]; cbn; try reflexivity.
  - now destruct (Nat.eqb i j).
  - apply IH.
Qed.
Lemma upd_length {A} (f : A -> A) l : forall i, length (upd_nth i f l) = length l.
Proof. induction l as [|x l IH]; intros [|i]; cbn; [reflexivity..|]. now rewrite IH. Qed.
Lemma nth_last {A} (l : list A) x : nth_error (l ++ [x]) (length l) = Some x.
Proof. now rewrite nth_error_app2, Nat.sub_diag by lia. Qed.
Lemma nth_app {A} (l : list A) x i y : nth_error l i = Some y -> nth_error (l ++ [x]) i = Some y.
Proof. intros E. rewrite nth_error_app1; [exact E|]. apply nth_error_Some. congruence. Qed.
Lemma nth_app_inv {A} (l : list A) x i y : nth_error (l ++ [x]) i = Some y ->
  nth_error l i = Some y \/ (i = length l /\ y = x).
Proof.
  intros E. destruct (Nat.lt_ge_cases i (length l)) as [H|H].
  - left. now rewrite nth_error_app1 in E.
  - right. rewrite nth_error_app2 in E by lia. destruct (i - length l) as [|d] eqn:D; cbn in E.
    + injection E as <-. split; [lia|reflexivity].
    + now destruct d.
Qed.
Lemma nth_lt {A} (l : list A) i y : nth_error l i = Some y -> i < length l.
Proof. intros E. apply nth_error_Some. congruence. Qed.

(** ** Tokens *)
Lemma nth_mark t l : forall i, nth_error (mark_used t l) i
  = if Nat.eqb t i then option_map (fun k => Tok (tk_unit k) (tk_old k) true) (nth_error l i) else nth_error l i.
Proof. revert t. induction l as [|k l IH]; intros [|t] [|i]; cbn; try reflexivity. - now destruct (Nat.eqb t i). - apply IH. Qed.
Lemma mark_length t l : length (mark_used t l) = length l.
Proof. revert t. induction l as [|k l IH]; intros [|t]; cbn; [reflexivity..|]. now rewrite IH. Qed.

Definition tokv (rt : runtime) (t : nat) : option token_t := nth_error (rt_toks rt) t.
Lemma attach_tok u c rt t k : tokv rt t = Some k -> tokv (fst (attach u c rt)) t = Some k.
Proof. apply nth_app. Qed.
Lemma attach_new u c rt : tokv (fst (attach u c rt)) (length (rt_toks rt)) = Some (Tok u (get_current u rt) false).
Proof. apply nth_last. Qed.
Lemma attach_length u c rt : length (rt_toks (fst (attach u c rt))) = S (length (rt_toks rt)).
Proof. cbn. rewrite app_length. cbn. lia. Qed.
Lemma attach_cur u c rt v : get_current v (fst (attach u c rt)) = if Nat.eqb v u then c else get_current v rt.
Proof. reflexivity. Qed.
(** A detach: nothing, or the unit's own unused token is used. *)
Lemma detach_cases u t rt : (exists k, tokv rt t = Some k /\ tk_used k = false /\ tk_unit k = u
    /\ detach u t rt = RT (set_cur u (tk_old k) (rt_cur rt)) (mark_used t (rt_toks rt)))
  \/ (detach u t rt = rt /\ forall k, tokv rt t = Some k -> tk_used k = true \/ tk_unit k <> u).
Proof.
  unfold detach, var_reset, tokv. destruct (nth_error (rt_toks rt) t) as [k|] eqn:E.
  - destruct (tk_used k) eqn:U.
    + right. split; [reflexivity|]. intros k' [= <-]. now left.
    + destruct (Nat.eqb_spec (tk_unit k) u) as [H|H].
      * left. exists k. repeat split; assumption.
      * right. split; [reflexivity|]. intros k' [= <-]. now right.
  - right. split; [reflexivity|discriminate].
Qed.
Lemma detach_other u t rt v : v <> u -> get_current v (detach u t rt) = get_current v rt.
Proof.
  intros H. destruct (detach_cases u t rt) as [(k & _ & _ & _ & ->)|[-> _]]; [|reflexivity].
  cbn. unfold set_cur. destruct (Nat.eqb_spec v u); [congruence|reflexivity].
Qed.
Lemma detach_length u t rt : length (rt_toks (detach u t rt)) = length (rt_toks rt).
Proof. destruct (detach_cases u t rt) as [(k & _ & _ & _ & ->)|[-> _]]; [apply mark_length|reflexivity]. Qed.
(** Units and used tokens stay, and tokens that this does not concern. *)
Lemma detach_keeps u t rt i k : tokv rt i = Some k ->
  exists k', tokv (detach u t rt) i = Some k' /\ tk_unit k' = tk_unit k /\ (tk_used k = true -> tk_used k' = true)
    /\ (i <> t \/ tk_unit k <> u -> k' = k).
Proof.
  intros E. destruct (detach_cases u t rt) as [(x & E1 & E2 & E3 & ->)|[-> _]].
  - unfold tokv in *. cbn. rewrite nth_mark, E. destruct (Nat.eqb_spec t i) as [->|H]; cbn.
    + eexists. split; [reflexivity|]. cbn. split; [reflexivity|]. split; [reflexivity|]. intros [H|H]; [congruence|].
      rewrite E1 in E. injection E as ->. congruence.
    + exists k. tauto.
  - exists k. tauto.
Qed.
Lemma detach_own u t rt c : tokv rt t = Some (Tok u c false) ->
  get_current u (detach u t rt) = c /\ tokv (detach u t rt) t = Some (Tok u c true).
Proof.
  intros E. destruct (detach_cases u t rt) as [(x & E1 & E2 & E3 & ->)|[_ H]].
  - rewrite E in E1. injection E1 as <-. cbn. unfold get_current, set_cur, tokv in *. cbn. rewrite Nat.eqb_refl, nth_mark, Nat.eqb_refl, E.
    now split.
  - destruct (H _ E) as [H'|H']; cbn in H'; congruence.
Qed.
Lemma detach_nothing u t rt : (forall k, tokv rt t = Some k -> tk_used k = true \/ tk_unit k <> u) -> detach u t rt = rt.
Proof.
  intros H. destruct (detach_cases u t rt) as [(x & E1 & E2 & E3 & _)|[E _]]; [|exact E].
  destruct (H _ E1); congruence.
Qed.

(** ** What contexts say *)
Section Describes.
Variable toks : nat -> option token_t.
Variable scopes : nat -> option (nat * nat * nat).      (* span, token, token of use_span *)
Variable attached : nat -> option nat.
Variable contexts : nat -> option span_context.
Variable u : nat.
Definition the_span (n : nat) (o : obj) : Prop := exists sc r p, o = OSpan sc r p /\ contexts n = Some sc.
Fixpoint describes (bound : nat) (l : list frame) (c : context) : Prop :=
  match l with
  | [] => c = []
  | FScope j n own :: r =>
      exists t tc o below, scopes j = Some (n, t, tc) /\ the_span n o
        /\ c = set_value SHIM_KEY (OOther (N.of_nat j)) (set_value SPAN_KEY o below)
        /\ (own = true -> tc < t /\ t < bound /\ toks t = Some (Tok u (set_value SPAN_KEY o below) false)
                          /\ toks tc = Some (Tok u below false))
        /\ describes (if own then tc else bound) r below
  | FSpan m n own :: r =>
      exists t o below, attached m = Some t /\ the_span n o /\ c = set_value SPAN_KEY o below
        /\ (own = true -> t < bound /\ toks t = Some (Tok u below false))
        /\ describes (if own then t else bound) r below
  end.
End Describes.

Lemma describes_mono toks toks' scopes scopes' att att' ctx ctx' u l : forall bound bound' c,
  (forall j x, scopes j = Some x -> scopes' j = Some x) -> (forall m t, att m = Some t -> att' m = Some t) ->
  (forall n sc, ctx n = Some sc -> ctx' n = Some sc) -> bound <= bound' ->
  (forall t k, t < bound -> toks t = Some k -> tk_unit k = u -> tk_used k = false -> toks' t = Some k) ->
  describes toks scopes att ctx u bound l c -> describes toks' scopes' att' ctx' u bound' l c.
Proof.
  assert (TS : (forall n sc, ctx n = Some sc -> ctx' n = Some sc) -> forall n o, the_span ctx n o -> the_span ctx' n o).
  { intros H n o (sc & r & p & A & B). exists sc, r, p. split; [exact A|]. now apply H. }
  induction l as [|[j n own|m n own] l IH]; intros bound bound' c H1 H2 H3 Hb H4 D; cbn [describes] in *; [exact D| |].
  - destruct D as (t & tc & o & below & A & B & C & E & F). exists t, tc, o, below.
    split; [now apply H1|]. split; [now apply TS|]. split; [exact C|]. destruct own.
    + destruct (E eq_refl) as (E1 & E2 & E3 & E4). split.
      * intros _. repeat split; [exact E1|lia| |]; (apply H4; [lia|assumption|reflexivity|reflexivity]).
      * apply (IH tc tc); try assumption; [lia|]. intros t' k Ht. apply H4. lia.
    + split; [discriminate|]. now apply (IH bound bound').
  - destruct D as (t & o & below & A & B & C & E & F). exists t, o, below.
    split; [now apply H2|]. split; [now apply TS|]. split; [exact C|]. destruct own.
    + destruct (E eq_refl) as (E1 & E2). split.
      * intros _. split; [lia|]. apply H4; [lia|assumption|reflexivity|reflexivity].
      * apply (IH t t); try assumption; [lia|]. intros t' k Ht. apply H4. lia.
    + split; [discriminate|]. now apply (IH bound bound').
Qed.
Lemma describes_copied toks scopes att ctx u v b1 b2 l : forall c,
  describes toks scopes att ctx u b1 l c -> describes toks scopes att ctx v b2 (map copied l) c.
Proof.
  revert b1 b2. induction l as [|[j n own|m n own] l IH]; intros b1 b2 c D; cbn [describes map copied] in *; [exact D| |].
  - destruct D as (t & tc & o & below & A & B & C & E & F). exists t, tc, o, below. repeat split; try assumption; try discriminate.
    eapply IH. exact F.
  - destruct D as (t & o & below & A & B & C & E & F). exists t, o, below. repeat split; try assumption; try discriminate.
    eapply IH. exact F.
Qed.

Lemma keys_differ : SHIM_KEY <> SPAN_KEY.
Proof. discriminate. Qed.
Lemma get_same k v c : get_value k (set_value k v c) = v.
Proof. unfold get_value, set_value. now rewrite dget_dset_eq. Qed.
Lemma get_other k k' v c : k' <> k -> get_value k' (set_value k v c) = get_value k' c.
Proof. intros H. unfold get_value, set_value. now rewrite dget_dset_ne. Qed.

Definition scope_value (x : option (nat * nat)) : obj :=
  match x with Some (j, _) => OOther (N.of_nat j) | None => ONone end.
Lemma describes_says toks scopes att ctx u l : forall bound c, describes toks scopes att ctx u bound l c ->
  get_value SHIM_KEY c = scope_value (innermost_scope l)
  /\ match innermost_span l with
     | Some n => exists sc, ctx n = Some sc /\ current_span_context c = sc
     | None => current_span_context c = INVALID_SPAN_CONTEXT /\ c = []
     end.
Proof.
  induction l as [|[j n own|m n own] l IH]; intros bound c D; cbn [describes] in D.
  - subst c. repeat split; reflexivity.
  - destruct D as (t & tc & o & below & A & (sc & r & p & -> & B) & -> & _). rewrite get_same. split; [reflexivity|].
    cbn. exists sc. split; [exact B|]. unfold current_span_context, get_current_span.
    rewrite get_other by (intros H; now apply keys_differ). now rewrite get_same.
  - destruct D as (t & o & below & A & (sc & r & p & -> & B) & -> & _ & D). destruct (IH _ _ D) as [E _].
    rewrite get_other by apply keys_differ. split; [exact E|].
    cbn. exists sc. split; [exact B|]. unfold current_span_context, get_current_span. now rewrite get_same.
Qed.
Lemma innermost_in l j n : innermost_scope l = Some (j, n) -> exists own, In (FScope j n own) l.
Proof.
  unfold innermost_scope. induction l as [|[i m own|i m own] l IH]; cbn; [discriminate| |].
  - intros [= -> ->]. exists own. now left.
  - intros E. destruct (IH E) as (own' & H). exists own'. now right.
Qed.
Lemma describes_scope toks scopes att ctx u l j n own : forall bound c, describes toks scopes att ctx u bound l c ->
  In (FScope j n own) l -> exists t tc sc, scopes j = Some (n, t, tc) /\ ctx n = Some sc.
Proof.
  induction l as [|f l IH]; intros bound c D H; [destruct H|destruct H as [->|H]]; cbn [describes] in D.
  - destruct D as (t & tc & o & below & A & (sc & r & p & _ & B) & _). now exists t, tc, sc.
  - destruct f as [j' n' own'|m n' own'].
    + destruct D as (t & tc & o & below & _ & _ & _ & _ & D). exact (IH _ _ D H).
    + destruct D as (t & o & below & _ & _ & _ & _ & D). exact (IH _ _ D H).
Qed.

Section Shim.
Context {G : Type}.
Variable gen_trace_id gen_span_id : G -> Z * G.
Variable tr : tracer.
Variable describe : exc -> exc_info.
Variable to_ns : Z -> Z.
Hypothesis Hl : limits_ok (t_limits tr).
Hypothesis Hv : valid_ids gen_trace_id gen_span_id.
Notation sh_step := (sh_step gen_trace_id gen_span_id tr describe to_ns).
Notation shim_start := (shim_start gen_trace_id gen_span_id tr to_ns).
Notation start_block := (Model_Blocks.start_block gen_trace_id gen_span_id tr).
Notation born := (Proof_Blocks.born gen_trace_id gen_span_id tr).
Notation shworld := (@shworld G).
Notation store := (@store G).
Implicit Types w : shworld.
Implicit Types st : store.

Definition scov w (j : nat) : option (nat * nat * nat) :=
  match nth_error (sh_scopes w) j with
  | Some s => match otel_of w (so_shim s) with Some n => Some (n, so_token s, so_cm_token s) | None => None end
  | None => None
  end.
Definition attv w (m : nat) : option nat := nth_error (sh_tokens w) m.
Definition ctxs st (n : nat) : option span_context := option_map started_context (nth_error (st_spans st) n).
Definition used_tok (rt : runtime) (t : nat) : Prop := exists k, tokv rt t = Some k /\ tk_used k = true.
Definition unit_tok (rt : runtime) (u t : nat) : Prop := exists k, tokv rt t = Some k /\ tk_unit k = u.

Record good (b : notes) w : Prop := Good {
  g_spans : length (st_spans (sh_store w)) = n_spans b;
  g_valid : Forall (fun s => sc_is_valid (started_context s) = true) (st_spans (sh_store w));
  g_shims : map ss_span (sh_spans w) = n_shims b;
  g_known : Forall (fun n => n < n_spans b) (n_shims b);
  g_slen : length (sh_scopes w) = length (n_scopes b);
  g_scopes : forall j e, nth_error (n_scopes b) j = Some e -> exists s, nth_error (sh_scopes w) j = Some s
      /\ otel_of w (so_shim s) = Some (en_span e) /\ so_finish s = en_finish e /\ so_left s = en_closed e
      /\ unit_tok (sh_rt w) (en_unit e) (so_token s) /\ unit_tok (sh_rt w) (en_unit e) (so_cm_token s)
      /\ In (en_unit e) (n_used b)
      /\ forall l, n_inside b (en_unit e) = Some l -> existsb (is_scope j) l = false ->
           used_tok (sh_rt w) (so_token s) /\ used_tok (sh_rt w) (so_cm_token s);
  g_alen : length (sh_tokens w) = length (n_attached b);
  g_att : forall m u n, nth_error (n_attached b) m = Some (u, n) -> exists t, nth_error (sh_tokens w) m = Some t
      /\ unit_tok (sh_rt w) u t /\ In u (n_used b)
      /\ forall l, n_inside b u = Some l -> existsb (is_attached m) l = false -> used_tok (sh_rt w) t;
  g_inside : forall u l, n_inside b u = Some l ->
      describes (tokv (sh_rt w)) (scov w) (attv w) (ctxs (sh_store w)) u (length (rt_toks (sh_rt w))) l (get_current u (sh_rt w))
}.

Lemma good_init g : good notes0 (sh_init g).
Proof.
  constructor; cbn; try reflexivity; try constructor.
  - intros [|j] e; discriminate.
  - intros [|j] u n; discriminate.
  - intros u l [= <-]. reflexivity.
Qed.

Lemma otel_notes b w k : good b w -> otel_of w k = nth_error (n_shims b) k.
Proof. intros [_ _ E _ _ _ _ _ _]. unfold otel_of. rewrite <- E. symmetry. apply nth_error_map. Qed.
Lemma known_notes b w a : good b w -> child_known w a = known_child a b.
Proof. intros [_ _ E _ _ _ _ _ _]. unfold child_known, known_child. now rewrite <- E, map_length. Qed.

(** The store, as far as contexts go. *)
Definition keeps st st' : Prop := forall n sc, ctxs st n = Some sc -> ctxs st' n = Some sc.
Lemma call_ctxs n o e st m : ctxs (call_on n o e st) m = ctxs st m.
Proof.
  unfold ctxs. cbn. destruct (Nat.eq_dec m n) as [->|H].
  - destruct (nth_error (st_spans st) n) as [s|] eqn:E.
    + rewrite (Proof_Blocks.nth_call_eq _ o _ _ E). cbn. now rewrite Proof_Blocks.call_span_context.
    + assert (nth_error (call_nth n o (st_spans st)) n = None) as ->; [|reflexivity].
      apply nth_error_None. rewrite Proof_Blocks.call_nth_length. now apply nth_error_None.
  - now rewrite Proof_Blocks.nth_call_ne.
Qed.
Lemma all_valid st : Forall (fun s => sc_is_valid (started_context s) = true) (st_spans st)
  <-> forall n sc, ctxs st n = Some sc -> sc_is_valid sc = true.
Proof.
  unfold ctxs. split.
  - intros H n sc E. destruct (nth_error (st_spans st) n) as [s|] eqn:En; [|discriminate]. cbn in E. injection E as <-.
    rewrite Forall_forall in H. apply H. eapply nth_error_In. exact En.
  - intros H. apply Forall_forall. intros s Hs. destruct (In_nth_error _ _ Hs) as (n & E). apply (H n). now rewrite E.
Qed.

(** A change of the store only. *)
Lemma good_store b w st : good b w -> length (st_spans st) = length (st_spans (sh_store w)) ->
  (forall n, ctxs st n = ctxs (sh_store w) n) -> good b (with_store w st).
Proof.
  intros [A B C D E F F1 F2 H] Hn Hc. constructor; cbn; try assumption.
  - now rewrite Hn.
  - apply all_valid. intros n sc. rewrite Hc. now apply all_valid.
  - intros u l Hi. eapply describes_mono; [| | | | |apply H; exact Hi]; try (intros; assumption); try lia.
    intros n sc. now rewrite Hc.
Qed.
Lemma call_len n o e st : length (st_spans (call_on n o e st)) = length (st_spans st).
Proof. cbn. apply Proof_Blocks.call_nth_length. Qed.
Lemma good_call b w n o e : good b w -> good b (with_store w (call_on n o e (sh_store w))).
Proof. intros H. apply good_store; [exact H|apply call_len|]. intros m. apply call_ctxs. Qed.

(** A new span. *)
Lemma start_grows cur blk now e st : exists s g, born cur blk now s
  /\ start_block cur blk now e st
     = (Ok s, log_event (e (length (st_spans st))) (Store g (st_spans st ++ [s]) (st_tick st) (st_log st)))
  /\ sc_is_valid (started_context s) = true.
Proof.
  destruct (Proof_Blocks.start_block_ok gen_trace_id gen_span_id tr Hl cur blk now e st) as (s & g & Hb & E).
  exists s, g. split; [exact Hb|]. split; [exact E|].
  pose proof (Proof_Blocks.born_content gen_trace_id gen_span_id tr Hl cur blk now s [] Hb) as H. cbn zeta in H.
  destruct H as (_ & H & _). exact (H Hv).
Qed.
Lemma new_ctxs g t l spans (s : started) : keeps (Store g spans t l) (Store g (spans ++ [s]) t l).
Proof.
  intros n sc. unfold ctxs. cbn. destruct (nth_error spans n) as [x|] eqn:E; [|discriminate].
  now rewrite (nth_app _ s _ _ E).
Qed.
Lemma good_started b w s g l extra : good b w -> sc_is_valid (started_context s) = true ->
  extra = [] \/ extra = [SS (n_spans b) []] ->
  good (Notes (S (n_spans b)) (n_shims b ++ map ss_span extra) (n_scopes b) (n_attached b) (n_inside b) (n_used b))
       (ShW (sh_rt w) (Store g (st_spans (sh_store w) ++ [s]) (st_tick (sh_store w)) l) (sh_spans w ++ extra) (sh_scopes w) (sh_tokens w)).
Proof.
  intros [A B C D E F F1 F2 H] Hs Hx.
  assert (Ho : forall k n, otel_of w k = Some n ->
    option_map ss_span (nth_error (sh_spans w ++ extra) k) = Some n).
  { intros k n. unfold otel_of. destruct (nth_error (sh_spans w) k) as [x|] eqn:Ex; [|discriminate]. intros [= <-].
    rewrite nth_error_app1 by (eapply nth_lt; exact Ex). now rewrite Ex. }
  constructor; cbn.
  - rewrite app_length, A. cbn. lia.
  - apply Forall_app. split; [assumption|]. now repeat constructor.
  - now rewrite map_app, C.
  - apply Forall_app. split.
    + eapply Forall_impl; [|exact D]. cbn. lia.
    + destruct Hx as [-> | ->]; cbn; constructor; [lia|constructor].
  - exact E.
  - intros j e Ej. destruct (F j e Ej) as (s0 & K1 & K2 & K3). exists s0. split; [exact K1|]. split; [now apply Ho|exact K3].
  - exact F1.
  - exact F2.
  - intros u l' Hi. eapply describes_mono; [| | | | |apply H; exact Hi]; try (intros; assumption); try lia.
    + intros j [[n t] tc]. unfold scov. cbn. destruct (nth_error (sh_scopes w) j) as [s0|]; [|discriminate].
      unfold otel_of at 2. cbn. destruct (otel_of w (so_shim s0)) as [n0|] eqn:E0; [|discriminate].
      intros X. now rewrite (Ho _ _ E0).
    + intros n sc. cbn. unfold ctxs. cbn. destruct (nth_error (st_spans (sh_store w)) n) as [x|] eqn:Ex; [|discriminate].
      now rewrite (nth_app _ s _ _ Ex).
Qed.
Lemma good_start b w u child a now : good b w -> good (note_start b) (shim_start u w child a now).
Proof.
  intros H. unfold Model_Shim.shim_start. cbn zeta.
  destruct (start_grows (get_current u (sh_rt w)) (shim_block to_ns u w child a) now
              (fun n => BEnter n (shim_block to_ns u w child a) now) (sh_store w)) as (s & g & _ & E & V).
  rewrite E. cbn [log_event].
  pose proof (fun l => good_started b w s g l [SS (n_spans b) []] H V (or_intror eq_refl)) as K.
  unfold note_start. rewrite <- (g_spans _ _ H) in *. apply K.
Qed.

(** Tokens while [u] acts. *)
Record moves (u : nat) (rt rt' : runtime) : Prop := Moves {
  m_len : length (rt_toks rt) <= length (rt_toks rt');
  m_tok : forall i k, tokv rt i = Some k -> exists k', tokv rt' i = Some k' /\ tk_unit k' = tk_unit k
            /\ (tk_used k = true -> tk_used k' = true) /\ (tk_unit k <> u -> k' = k);
  m_cur : forall v, v <> u -> get_current v rt' = get_current v rt }.
Lemma moves_refl u rt : moves u rt rt.
Proof. constructor; [lia| |reflexivity]. intros i k E. exists k. tauto. Qed.
Lemma moves_trans u a b c : moves u a b -> moves u b c -> moves u a c.
Proof.
  intros [L1 T1 C1] [L2 T2 C2]. constructor; [lia| |].
  - intros i k E. destruct (T1 i k E) as (k1 & E1 & U1 & S1 & N1). destruct (T2 i k1 E1) as (k2 & E2 & U2 & S2 & N2).
    exists k2. split; [exact E2|]. split; [congruence|]. split; [tauto|]. intros H. rewrite N2 by congruence. now apply N1.
  - intros v H. rewrite C2, C1 by exact H. reflexivity.
Qed.
Lemma moves_detach u t rt : moves u rt (detach u t rt).
Proof.
  constructor.
  - now rewrite detach_length.
  - intros i k E. destruct (detach_keeps u t rt i k E) as (k' & A & B & C & D). exists k'. tauto.
  - intros v H. now apply detach_other.
Qed.
Lemma moves_attach u c rt : moves u rt (fst (attach u c rt)).
Proof.
  constructor.
  - rewrite attach_length. lia.
  - intros i k E. exists k. split; [now apply attach_tok|tauto].
  - intros v H. rewrite attach_cur. destruct (Nat.eqb_spec v u); [congruence|reflexivity].
Qed.
Lemma moves_unit u rt rt' v t : moves u rt rt' -> unit_tok rt v t -> unit_tok rt' v t.
Proof. intros M (k & A & B). destruct (m_tok _ _ _ M _ _ A) as (k' & A' & B' & _). exists k'. split; [exact A'|congruence]. Qed.
Lemma moves_used u rt rt' t : moves u rt rt' -> used_tok rt t -> used_tok rt' t.
Proof. intros M (k & A & B). destruct (m_tok _ _ _ M _ _ A) as (k' & A' & _ & C & _). exists k'. split; [exact A'|tauto]. Qed.

(** Other units do not notice. *)
Lemma describes_elsewhere u rt rt' sco att ctx sco' att' ctx' v l : moves u rt rt' -> v <> u ->
  (forall j x, sco j = Some x -> sco' j = Some x) -> (forall m t, att m = Some t -> att' m = Some t) ->
  (forall n sc, ctx n = Some sc -> ctx' n = Some sc) ->
  describes (tokv rt) sco att ctx v (length (rt_toks rt)) l (get_current v rt) ->
  describes (tokv rt') sco' att' ctx' v (length (rt_toks rt')) l (get_current v rt').
Proof.
  intros M Hne H1 H2 H3 D. rewrite (m_cur _ _ _ M v Hne). eapply describes_mono; [exact H1|exact H2|exact H3| | |exact D].
  - exact (m_len _ _ _ M).
  - intros t k _ E Ek _. destruct (m_tok _ _ _ M _ _ E) as (k' & E' & _ & _ & X). rewrite X in E'; [exact E'|congruence].
Qed.

Lemma otel_more w x k n : otel_of w k = Some n -> option_map ss_span (nth_error (sh_spans w ++ [x]) k) = Some n.
Proof.
  unfold otel_of. destruct (nth_error (sh_spans w) k) as [y|] eqn:Ex; [|discriminate]. intros [= <-]. now rewrite (nth_app _ x _ _ Ex).
Qed.
Lemma known_ctx b w n : good b w -> n < n_spans b -> exists s, nth_error (st_spans (sh_store w)) n = Some s.
Proof.
  intros H Hn. destruct (nth_error (st_spans (sh_store w)) n) as [s|] eqn:E; [now exists s|].
  apply nth_error_None in E. rewrite (g_spans _ _ H) in E. lia.
Qed.
Lemma as_obj_span st n s : nth_error (st_spans st) n = Some s -> the_span (ctxs st) n (as_obj s).
Proof.
  intros E. unfold ctxs. exists (started_context s). destruct s as [w|sc]; cbn.
  - eexists _, _. split; [reflexivity|]. now rewrite E.
  - eexists _, _. split; [reflexivity|]. now rewrite E.
Qed.

Lemma good_activate b w u k n finish : good b w -> nth_error (n_shims b) k = Some n ->
  good (note_activate u n finish b) (shim_activate u k finish w).
Proof.
  intros Hg Hk. unfold shim_activate. rewrite (otel_notes _ _ _ Hg), Hk.
  assert (Hn : n < n_spans b).
  { pose proof (g_known _ _ Hg) as K. rewrite Forall_forall in K. apply K. eapply nth_error_In. exact Hk. }
  destruct (known_ctx _ _ _ Hg Hn) as (s & Es). unfold otel_obj. rewrite Es. cbn [option_map].
  set (rt := sh_rt w). set (o := as_obj s). set (below := get_current u rt).
  pose proof (moves_attach u (set_value SPAN_KEY o below) rt) as M1.
  destruct (attach u (set_value SPAN_KEY o below) rt) as [rt1 t1] eqn:E1.
  assert (Er1 : rt1 = fst (attach u (set_value SPAN_KEY o below) rt)) by now rewrite E1.
  assert (Et1 : t1 = length (rt_toks rt)) by (cbn in E1; injection E1 as _ <-; reflexivity).
  set (c2 := set_value SHIM_KEY (OOther (N.of_nat (length (sh_scopes w)))) (get_current u rt1)).
  pose proof (moves_attach u c2 rt1) as M2.
  destruct (attach u c2 rt1) as [rt2 t2] eqn:E2.
  assert (Er2 : rt2 = fst (attach u c2 rt1)) by now rewrite E2.
  assert (Et2 : t2 = length (rt_toks rt1)) by (cbn in E2; injection E2 as _ <-; reflexivity).
  cbn [fst] in M1, M2. pose proof (moves_trans _ _ _ _ M1 M2) as M.
  assert (Ec1 : get_current u rt1 = set_value SPAN_KEY o below) by (rewrite Er1, attach_cur, Nat.eqb_refl; reflexivity).
  assert (Ec2 : get_current u rt2 = c2) by (rewrite Er2, attach_cur, Nat.eqb_refl; reflexivity).
  assert (T1 : tokv rt1 t1 = Some (Tok u below false)) by (rewrite Er1, Et1; apply attach_new).
  assert (T1' : tokv rt2 t1 = Some (Tok u below false)) by (rewrite Er2; now apply attach_tok).
  assert (T2 : tokv rt2 t2 = Some (Tok u (set_value SPAN_KEY o below) false)) by (rewrite Er2, Et2, attach_new, Ec1; reflexivity).
  assert (L1 : length (rt_toks rt1) = S t1) by (rewrite Er1, attach_length, Et1; reflexivity).
  assert (L2 : length (rt_toks rt2) = S t2) by (rewrite Er2, attach_length, Et2; reflexivity).
  set (w' := ShW rt2 (sh_store w) (sh_spans w ++ [SS n []])
               (sh_scopes w ++ [SoS (length (sh_spans w)) t2 t1 finish false]) (sh_tokens w)).
  assert (Hsc : forall j x, scov w j = Some x -> scov w' j = Some x).
  { intros j x. unfold scov. cbn. destruct (nth_error (sh_scopes w) j) as [s0|] eqn:E0; [|discriminate].
    rewrite (nth_app _ _ _ _ E0). unfold otel_of at 2. cbn. destruct (otel_of w (so_shim s0)) as [n0|] eqn:E3; [|discriminate].
    now rewrite (otel_more _ _ _ _ E3). }
  destruct Hg as [A B C D E F F1 F2 H]. constructor; cbn.
  - exact A.
  - exact B.
  - now rewrite map_app, C.
  - apply Forall_app. split; [exact D|]. now repeat constructor.
  - rewrite !app_length, E. reflexivity.
  - intros j e Ej. destruct (nth_app_inv _ _ _ _ Ej) as [Ej'|[-> ->]].
    + destruct (F j e Ej') as (s0 & K1 & K2 & K3 & K4 & K5 & K6 & K7 & K8). exists s0.
      split; [now apply nth_app|]. split; [now apply otel_more|]. split; [exact K3|]. split; [exact K4|].
      split; [eapply moves_unit; eassumption|]. split; [eapply moves_unit; eassumption|]. split; [now right|].
      intros l Hi He. unfold enter, set_fun in Hi. destruct (Nat.eqb_spec (en_unit e) u) as [Eu|Eu].
      * rewrite Eu in K8. destruct (n_inside b u) as [l0|]; [|discriminate]. injection Hi as <-. cbn in He. apply orb_false_iff in He.
        destruct (K8 l0 eq_refl (proj2 He)). split; eapply moves_used; eassumption.
      * destruct (K8 l Hi He). split; eapply moves_used; eassumption.
    + eexists. split; [rewrite <- E; apply nth_last|]. cbn. split; [unfold otel_of; cbn; now rewrite nth_last|].
      split; [reflexivity|]. split; [reflexivity|]. split; [eexists; split; [exact T2|reflexivity]|].
      split; [eexists; split; [exact T1'|reflexivity]|]. split; [now left|].
      intros l Hi He. unfold enter, set_fun in Hi. rewrite Nat.eqb_refl in Hi. destruct (n_inside b u) as [l0|]; [|discriminate].
      injection Hi as <-. cbn in He. now rewrite Nat.eqb_refl in He.
  - exact F1.
  - intros m v n' Em. destruct (F2 m v n' Em) as (t & K1 & K2 & K3 & K4). exists t. split; [exact K1|].
    split; [eapply moves_unit; eassumption|]. split; [now right|]. intros l Hi He. eapply moves_used; [exact M|].
    unfold enter, set_fun in Hi. destruct (Nat.eqb_spec v u) as [->|Eu].
    + destruct (n_inside b u) as [l0|]; [|discriminate]. injection Hi as <-. cbn in He. now apply (K4 l0).
    + now apply (K4 l).
  - intros v l Hi. unfold enter, set_fun in Hi. destruct (Nat.eqb_spec v u) as [->|Eu].
    + destruct (n_inside b u) as [l0|] eqn:El; [|discriminate]. injection Hi as <-. specialize (H u l0 El).
      rewrite Ec2. exists t2, t1, o, below. split.
      { unfold scov. cbn. rewrite <- E, nth_last. cbn. unfold otel_of. cbn. now rewrite nth_last. }
      split; [now apply as_obj_span|]. split; [unfold c2; rewrite Ec1, E; reflexivity|].
      split.
      { intros _. repeat split; [lia|lia|exact T2|exact T1']. }
      eapply describes_mono; [exact Hsc|intros ? ? X; exact X|intros ? ? X; exact X| | |exact H].
      * fold rt. lia.
      * intros t k0 _ Et _ _. rewrite Er2. apply attach_tok. rewrite Er1. now apply attach_tok.
    + eapply describes_elsewhere; [exact M|exact Eu|exact Hsc|intros ? ? X; exact X|intros ? ? X; exact X|]. now apply H.
Qed.

Lemma upd_notes b j e : nth_error (n_scopes b) j = Some e -> forall i x,
  nth_error (upd_nth j (fun e => Entry (en_unit e) (en_span e) (en_finish e) true) (n_scopes b)) i = Some x ->
  exists e0, nth_error (n_scopes b) i = Some e0 /\ en_unit x = en_unit e0 /\ en_span x = en_span e0
             /\ en_finish x = en_finish e0 /\ en_closed x = (if Nat.eqb j i then true else en_closed e0).
Proof.
  intros E i x. rewrite nth_upd. destruct (Nat.eqb_spec j i) as [<-|H].
  - rewrite E. intros [= <-]. exists e. repeat split; assumption.
  - intros E'. exists x. repeat split; assumption.
Qed.

(** Leaving a frame in [u]: what the runtime has to do, and then the notes hold. *)
Lemma leave_none u is again i : i u = None -> forall v l, leave u is again i v = Some l -> v <> u /\ i v = Some l.
Proof.
  intros E v l. unfold leave, set_fun. destruct (Nat.eqb_spec v u) as [->|H]; [rewrite E; discriminate|]. now split.
Qed.
Lemma leave_cases u is again i v l : leave u is again i v = Some l ->
  (v <> u /\ i v = Some l)
  \/ (v = u /\ i u = Some l /\ existsb is l = false)
  \/ (v = u /\ again = false /\ exists f, i u = Some (f :: l) /\ is f = true).
Proof.
  unfold leave, set_fun. destruct (Nat.eqb_spec v u) as [->|H]; [|left; now split].
  destruct (i u) as [l0|] eqn:E; [|discriminate]. unfold leave_frame. destruct (existsb is l0) eqn:Ex.
  - destruct l0 as [|f r]; [discriminate|]. destruct (is f && negb again) eqn:Ef; [|discriminate]. intros [= <-].
    apply andb_true_iff in Ef. destruct Ef as [Ef Ea]. right. right. split; [reflexivity|]. split; [now destruct again|].
    now exists f.
  - intros [= <-]. right. left. now split.
Qed.

(** The general step: unit [u] moves, nothing else but flags of scopes changes. *)
Lemma good_leave b w u is again rt' scs nscs :
  good b w -> moves u (sh_rt w) rt' ->
  length scs = length (sh_scopes w) -> length nscs = length (n_scopes b) ->
  (forall j s, nth_error (sh_scopes w) j = Some s -> exists s', nth_error scs j = Some s' /\ so_shim s' = so_shim s
     /\ so_token s' = so_token s /\ so_cm_token s' = so_cm_token s) ->
  (forall j x, nth_error nscs j = Some x -> exists e s s', nth_error (n_scopes b) j = Some e /\ en_unit x = en_unit e
     /\ en_span x = en_span e /\ nth_error (sh_scopes w) j = Some s /\ nth_error scs j = Some s'
     /\ so_finish s' = en_finish x /\ so_left s' = en_closed x) ->
  (* the frame is not there: nothing happens *)
  (forall l, n_inside b u = Some l -> existsb is l = false -> rt' = sh_rt w) ->
  (* it is the innermost: the context is that below *)
  (again = false -> forall f r, n_inside b u = Some (f :: r) -> is f = true ->
     describes (tokv rt') (scov w) (attv w) (ctxs (sh_store w)) u (length (rt_toks rt')) r (get_current u rt')
     /\ (forall j s, is_scope j f = true -> nth_error (sh_scopes w) j = Some s -> used_tok rt' (so_token s) /\ used_tok rt' (so_cm_token s))
     /\ (forall m t, is_attached m f = true -> nth_error (sh_tokens w) m = Some t -> used_tok rt' t)) ->
  good (Notes (n_spans b) (n_shims b) nscs (n_attached b) (leave u is again (n_inside b)) (n_used b))
       (ShW rt' (sh_store w) (sh_spans w) scs (sh_tokens w)).
Proof.
  intros Hg M Lw Ln Hw Hn Hnone Htop. pose proof Hg as Hg0. destruct Hg as [A B C D E F F1 F2 H].
  assert (Hsc : forall j x, scov w j = Some x -> scov (ShW rt' (sh_store w) (sh_spans w) scs (sh_tokens w)) j = Some x).
  { intros j x. unfold scov. cbn. destruct (nth_error (sh_scopes w) j) as [s0|] eqn:E0; [|discriminate].
    destruct (Hw j s0 E0) as (s' & E' & P1 & P2 & P3). rewrite E', P1, P2, P3. exact (fun z => z). }
  constructor; cbn.
  - exact A.
  - exact B.
  - exact C.
  - exact D.
  - congruence.
  - intros j x Ej. destruct (Hn j x Ej) as (e & s & s' & N1 & N2 & N3 & N4 & N5 & N6 & N7).
    destruct (F j e N1) as (s0 & K1 & K2 & K3 & K4 & K5 & K6 & K7 & K8). rewrite N4 in K1. injection K1 as <-.
    destruct (Hw j s N4) as (s'' & E' & P1 & P2 & P3). rewrite N5 in E'. injection E' as <-. exists s'.
    rewrite N2, N3, P1, P2, P3. split; [exact N5|]. split; [exact K2|]. split; [exact N6|]. split; [exact N7|].
    split; [eapply moves_unit; eassumption|]. split; [eapply moves_unit; eassumption|]. split; [exact K7|].
    intros l Hi He. destruct (leave_cases _ _ _ _ _ _ Hi) as [(H1 & H2)|[(H1 & H2 & H3)|(H1 & H2 & f & H3 & H4)]].
    + destruct (K8 l H2 He). split; eapply moves_used; eassumption.
    + rewrite H1 in K8. destruct (K8 l H2 He). split; eapply moves_used; eassumption.
    + rewrite H1 in K8. destruct (is_scope j f) eqn:Ef.
      * destruct (Htop H2 f l H3 H4) as (_ & Q & _). exact (Q j s Ef N4).
      * destruct (K8 (f :: l) H3) as [Q1 Q2]; [cbn; now rewrite Ef|]. split; eapply moves_used; eassumption.
  - exact F1.
  - intros m v n' Em. destruct (F2 m v n' Em) as (t & K1 & K2 & K3 & K4). exists t. split; [exact K1|].
    split; [eapply moves_unit; eassumption|]. split; [exact K3|].
    intros l Hi He. destruct (leave_cases _ _ _ _ _ _ Hi) as [(H1 & H2)|[(H1 & H2 & H3)|(H1 & H2 & f & H3 & H4)]].
    + eapply moves_used; [exact M|]. now apply (K4 l).
    + subst v. eapply moves_used; [exact M|]. now apply (K4 l).
    + subst v. destruct (is_attached m f) eqn:Ef.
      * destruct (Htop H2 f l H3 H4) as (_ & _ & Q). exact (Q m t Ef K1).
      * eapply moves_used; [exact M|]. apply (K4 (f :: l) H3). cbn. now rewrite Ef.
  - intros v l Hi. destruct (leave_cases _ _ _ _ _ _ Hi) as [(H1 & H2)|[(H1 & H2 & H3)|(H1 & H2 & f & H3 & H4)]].
    + eapply describes_elsewhere; [exact M|exact H1|exact Hsc|intros ? ? X; exact X|intros ? ? X; exact X|]. now apply H.
    + subst v. rewrite (Hnone l H2 H3).
      eapply describes_mono; [|intros ? ? X; exact X|intros ? ? X; exact X|apply Nat.le_refl|intros ? ? _ X _ _; exact X|apply H, H2].
      intros j x Ex. apply Hsc in Ex. exact Ex.
    + subst v. destruct (Htop H2 f l H3 H4) as (Q & _).
      eapply describes_mono; [|intros ? ? X; exact X|intros ? ? X; exact X|apply Nat.le_refl|intros ? ? _ X _ _; exact X|exact Q].
      intros j x Ex. apply Hsc in Ex. exact Ex.
Qed.

Lemma is_scope_inv j f : is_scope j f = true -> exists n, f = FScope j n true.
Proof. destruct f as [i n [|]|i n own]; cbn; try discriminate. intros H. apply Nat.eqb_eq in H. subst. now exists n. Qed.
Lemma is_attached_inv m f : is_attached m f = true -> exists n, f = FSpan m n true.
Proof. destruct f as [i n own|i n [|]]; cbn; try discriminate. intros H. apply Nat.eqb_eq in H. subst. now exists n. Qed.

Lemma cm_exit_len n fin out t1 t2 st : length (st_spans (cm_exit describe n fin out t1 t2 st)) = length (st_spans st).
Proof.
  unfold cm_exit. destruct out as [|e]; [|destruct (ex_error e && nth_recording n st)]; destruct fin;
    repeat rewrite call_len; reflexivity.
Qed.
Lemma cm_exit_ctxs n fin out t1 t2 st m : ctxs (cm_exit describe n fin out t1 t2 st) m = ctxs st m.
Proof.
  unfold cm_exit. destruct out as [|e]; [|destruct (ex_error e && nth_recording n st)]; destruct fin;
    repeat rewrite call_ctxs; reflexivity.
Qed.

Lemma good_close b w u j out t1 t2 : good b w -> good (note b (HClose u j out t1 t2)) (shim_close describe u j out t1 t2 w).
Proof.
  intros Hg. cbn [note]. unfold shim_close. destruct (nth_error (n_scopes b) j) as [e|] eqn:Ee.
  - destruct (g_scopes _ _ Hg j e Ee) as (s & K1 & K2 & K3 & K4 & K5 & K6 & K7 & K8). rewrite K1, K2.
    set (rt1 := detach u (so_token s) (sh_rt w)).
    set (rt' := if so_left s then rt1 else detach u (so_cm_token s) rt1).
    set (scs := if so_left s then sh_scopes w else
                upd_nth j (fun s => SoS (so_shim s) (so_token s) (so_cm_token s) (so_finish s) true) (sh_scopes w)).
    assert (Hg' : good (Notes (n_spans b) (n_shims b)
       (upd_nth j (fun e => Entry (en_unit e) (en_span e) (en_finish e) true) (n_scopes b)) (n_attached b)
       (leave u (is_scope j) (en_closed e) (n_inside b)) (n_used b)) (ShW rt' (sh_store w) (sh_spans w) scs (sh_tokens w))).
    { apply good_leave; try assumption.
      - unfold rt'. destruct (so_left s); [apply moves_detach|]. eapply moves_trans; apply moves_detach.
      - unfold scs. destruct (so_left s); [reflexivity|apply upd_length].
      - apply upd_length.
      - intros i x Ex. unfold scs. destruct (so_left s); [exists x; now repeat split|]. rewrite nth_upd, Ex. cbn.
        destruct (Nat.eqb j i); eexists; (split; [reflexivity|]); now repeat split.
      - intros i x Ex. destruct (upd_notes b j e Ee i x Ex) as (e0 & N1 & N2 & N3 & N4 & N5).
        destruct (g_scopes _ _ Hg i e0 N1) as (s0 & P1 & P2 & P3 & P4 & _).
        exists e0, s0. unfold scs. destruct (so_left s) eqn:El.
        + exists s0. repeat split; try assumption; [congruence|]. rewrite N5. destruct (Nat.eqb_spec j i) as [<-|Hji]; [|exact P4].
          rewrite K1 in P1. injection P1 as <-. exact El.
        + destruct (Nat.eqb_spec j i) as [<-|Hji].
          * exists (SoS (so_shim s0) (so_token s0) (so_cm_token s0) (so_finish s0) true). rewrite nth_upd, Nat.eqb_refl, P1. cbn.
            repeat split; try assumption; congruence.
          * exists s0. rewrite nth_upd. apply Nat.eqb_neq in Hji. rewrite Hji. repeat split; try assumption; congruence.
      - intros l Hi He.
        assert (Hno : forall t, unit_tok (sh_rt w) (en_unit e) t -> (en_unit e = u -> used_tok (sh_rt w) t) ->
                  forall k, tokv (sh_rt w) t = Some k -> tk_used k = true \/ tk_unit k <> u).
        { intros t (k0 & X1 & X2) Hu k Ek. rewrite X1 in Ek. injection Ek as ->. destruct (Nat.eq_dec (en_unit e) u) as [Eu|Eu].
          - left. destruct (Hu Eu) as (k1 & Y1 & Y2). congruence.
          - right. congruence. }
        assert (R1 : rt1 = sh_rt w).
        { apply detach_nothing, Hno; [exact K5|]. intros Eu. rewrite Eu in K8. now apply (K8 l). }
        unfold rt'. destruct (so_left s); [exact R1|]. rewrite R1.
        apply detach_nothing, Hno; [exact K6|]. intros Eu. rewrite Eu in K8. now apply (K8 l).
      - intros Ec f r Hi Hf. destruct (is_scope_inv _ _ Hf) as (n & ->).
        pose proof (g_inside _ _ Hg u _ Hi) as D0. cbn [describes] in D0.
        destruct D0 as (t & tc & o & below & D1 & D2 & D3 & D4 & D5). destruct (D4 eq_refl) as (D6 & D7 & D8 & D9).
        unfold scov in D1. rewrite K1, K2 in D1. injection D1 as <- Dt Dtc.
        unfold rt'. rewrite K4, Ec. unfold rt1. rewrite Dt, Dtc.
        destruct (detach_own u t (sh_rt w) _ D8) as [_ O2].
        destruct (detach_keeps u t (sh_rt w) tc _ D9) as (k' & Q1 & _ & _ & Q2).
        rewrite Q2 in Q1 by (left; lia).
        destruct (detach_own u tc (detach u t (sh_rt w)) _ Q1) as [O3 O4]. split; [|split].
        + rewrite O3. eapply describes_mono; [intros ? ? X; exact X|intros ? ? X; exact X|intros ? ? X; exact X| | |exact D5].
          * rewrite !detach_length. lia.
          * intros i k Hi' Ek _ _. destruct (detach_keeps u t (sh_rt w) i k Ek) as (k1 & Z1 & _ & _ & Z2).
            rewrite Z2 in Z1 by (left; lia). destruct (detach_keeps u tc _ i k Z1) as (k2 & Z3 & _ & _ & Z4).
            rewrite Z4 in Z3 by (left; lia). exact Z3.
        + intros i s0 Hfi Es0. apply is_scope_inv in Hfi. destruct Hfi as (n' & [= <- _]). rewrite K1 in Es0. injection Es0 as <-.
          rewrite Dt, Dtc. split; [|eexists; split; [exact O4|reflexivity]].
          destruct (detach_keeps u tc _ t _ O2) as (k2 & Z3 & _ & Z4 & _). exists k2. split; [exact Z3|]. now apply Z4.
        + intros m t0 Hfm. discriminate. }
    assert (Hst : forall st, length (st_spans st) = length (st_spans (sh_store w)) -> (forall n, ctxs st n = ctxs (sh_store w) n) ->
                    good (note b (HClose u j out t1 t2)) (ShW rt' st (sh_spans w) scs (sh_tokens w))).
    { intros st Hs1 Hs2. cbn [note]. rewrite Ee. exact (good_store _ _ st Hg' Hs1 Hs2). }
    cbn [note] in Hst. rewrite Ee in Hst. unfold rt', scs in *. destruct (so_left s).
    + apply Hst; reflexivity.
    + apply Hst; [apply cm_exit_len|apply cm_exit_ctxs].
  - assert (nth_error (sh_scopes w) j = None) as ->; [|exact Hg]. apply nth_error_None. rewrite (g_slen _ _ Hg). now apply nth_error_None.
Qed.

Lemma good_otel_attach b w u n : good b w -> good (note b (HOtelAttach u n)) (sh_step w (HOtelAttach u n)).
Proof.
  intros Hg. cbn [note Model_Shim.sh_step]. unfold otel_obj. destruct (Nat.ltb_spec n (n_spans b)) as [Hn|Hn].
  - destruct (known_ctx _ _ _ Hg Hn) as (s & Es). rewrite Es. cbn [option_map].
    set (rt := sh_rt w). set (o := as_obj s). set (below := get_current u rt).
    change (set_span_in_context o below) with (set_value SPAN_KEY o below).
    pose proof (moves_attach u (set_value SPAN_KEY o below) rt) as M.
    destruct (attach u (set_value SPAN_KEY o below) rt) as [rt1 t1] eqn:E1.
    assert (Er1 : rt1 = fst (attach u (set_value SPAN_KEY o below) rt)) by now rewrite E1.
    assert (Et1 : t1 = length (rt_toks rt)) by (cbn in E1; injection E1 as _ <-; reflexivity).
    cbn [fst] in M.
    assert (Ec1 : get_current u rt1 = set_value SPAN_KEY o below) by (rewrite Er1, attach_cur, Nat.eqb_refl; reflexivity).
    assert (T1 : tokv rt1 t1 = Some (Tok u below false)) by (rewrite Er1, Et1; apply attach_new).
    assert (L1 : length (rt_toks rt1) = S t1) by (rewrite Er1, attach_length, Et1; reflexivity).
    destruct Hg as [A B C D E F F1 F2 H]. constructor; cbn.
    + exact A.
    + exact B.
    + exact C.
    + exact D.
    + exact E.
    + intros j e Ej. destruct (F j e Ej) as (s0 & K1 & K2 & K3 & K4 & K5 & K6 & K7 & K8). exists s0.
      split; [exact K1|]. split; [exact K2|]. split; [exact K3|]. split; [exact K4|].
      split; [eapply moves_unit; eassumption|]. split; [eapply moves_unit; eassumption|]. split; [now right|].
      intros l Hi He. unfold enter, set_fun in Hi. destruct (Nat.eqb_spec (en_unit e) u) as [Eu|Eu].
      * rewrite Eu in K8. destruct (n_inside b u) as [l0|]; [|discriminate]. injection Hi as <-. cbn in He.
        destruct (K8 l0 eq_refl He). split; eapply moves_used; eassumption.
      * destruct (K8 l Hi He). split; eapply moves_used; eassumption.
    + rewrite !app_length, F1. reflexivity.
    + intros m v n' Em. destruct (nth_app_inv _ _ _ _ Em) as [Em'|[-> [= -> ->]]].
      * destruct (F2 m v n' Em') as (t & K1 & K2 & K3 & K4). exists t. split; [now apply nth_app|].
        split; [eapply moves_unit; eassumption|]. split; [now right|]. intros l Hi He. eapply moves_used; [exact M|].
        unfold enter, set_fun in Hi. destruct (Nat.eqb_spec v u) as [->|Eu].
        -- destruct (n_inside b u) as [l0|]; [|discriminate]. injection Hi as <-. cbn in He. apply orb_false_iff in He.
           now apply (K4 l0).
        -- now apply (K4 l).
      * exists t1. split; [rewrite <- F1; apply nth_last|]. split; [eexists; split; [exact T1|reflexivity]|]. split; [now left|].
        intros l Hi He. unfold enter, set_fun in Hi. rewrite Nat.eqb_refl in Hi. destruct (n_inside b u) as [l0|]; [|discriminate].
        injection Hi as <-. cbn in He. now rewrite Nat.eqb_refl in He.
    + assert (Hat : forall m t, attv w m = Some t ->
        attv (ShW rt1 (sh_store w) (sh_spans w) (sh_scopes w) (sh_tokens w ++ [t1])) m = Some t)
        by (intros m t; unfold attv; cbn; apply nth_app).
      intros v l Hi. unfold enter, set_fun in Hi. destruct (Nat.eqb_spec v u) as [->|Eu].
      * destruct (n_inside b u) as [l0|] eqn:El; [|discriminate]. injection Hi as <-. specialize (H u l0 El).
        rewrite Ec1. exists t1, o, below. split.
        { unfold attv. cbn. rewrite <- F1. apply nth_last. }
        split; [now apply as_obj_span|]. split; [reflexivity|]. split; [intros _; split; [lia|exact T1]|].
        eapply describes_mono; [intros ? ? X; exact X|exact Hat|intros ? ? X; exact X| | |exact H].
        -- fold rt. lia.
        -- intros t k0 _ Et _ _. rewrite Er1. now apply attach_tok.
      * eapply describes_elsewhere; [exact M|exact Eu|intros ? ? X; exact X|exact Hat|intros ? ? X; exact X|]. now apply H.
  - assert (nth_error (st_spans (sh_store w)) n = None) as ->; [|exact Hg]. apply nth_error_None. rewrite (g_spans _ _ Hg). lia.
Qed.

Lemma good_otel_detach b w u m : good b w -> good (note b (HOtelDetach u m)) (sh_step w (HOtelDetach u m)).
Proof.
  intros Hg. cbn [note Model_Shim.sh_step]. destruct (Nat.ltb_spec m (length (n_attached b))) as [Hm|Hm].
  - destruct (nth_error (n_attached b) m) as [[v n]|] eqn:Em; [|apply nth_error_None in Em; lia].
    destruct (g_att _ _ Hg m v n Em) as (t & K1 & K2 & K3 & K4). rewrite K1.
    apply (good_leave b w u (is_attached m) false (detach u t (sh_rt w)) (sh_scopes w) (n_scopes b) Hg).
    + apply moves_detach.
    + reflexivity.
    + reflexivity.
    + intros j s Es. exists s. now repeat split.
    + intros j x Ex. destruct (g_scopes _ _ Hg j x Ex) as (s0 & P1 & P2 & P3 & P4 & _). exists x, s0, s0. now repeat split.
    + intros l Hi He. apply detach_nothing. intros k Ek. destruct (Nat.eq_dec v u) as [->|Hne].
      * left. destruct (K4 l Hi He) as (k0 & X1 & X2). congruence.
      * right. destruct K2 as (k0 & X1 & X2). congruence.
    + intros _ f r Hi Hf. destruct (is_attached_inv _ _ Hf) as (n' & ->).
      pose proof (g_inside _ _ Hg u _ Hi) as D0. cbn [describes] in D0.
      destruct D0 as (t0 & o & below & D1 & D2 & D3 & D4 & D5). destruct (D4 eq_refl) as (D6 & D7).
      unfold attv in D1. rewrite K1 in D1. injection D1 as <-.
      destruct (detach_own u t (sh_rt w) _ D7) as [O1 O2]. split; [|split].
      * rewrite O1. eapply describes_mono; [intros ? ? X; exact X|intros ? ? X; exact X|intros ? ? X; exact X| | |exact D5].
        -- rewrite !detach_length. lia.
        -- intros i k Hi' Ek _ _. destruct (detach_keeps u t (sh_rt w) i k Ek) as (k1 & Z1 & _ & _ & Z2).
           rewrite Z2 in Z1 by (left; lia). exact Z1.
      * intros i s0 Hfi. discriminate.
      * intros m' t0 Hfm Et0. apply is_attached_inv in Hfm. destruct Hfm as (n2 & [= <- _]). rewrite K1 in Et0. injection Et0 as <-.
        eexists. split; [exact O2|reflexivity].
  - assert (nth_error (sh_tokens w) m = None) as ->; [|exact Hg]. apply nth_error_None. rewrite (g_alen _ _ Hg). lia.
Qed.

Lemma good_fork b w u v : good b w -> good (note b (HFork u v)) (sh_step w (HFork u v)).
Proof.
  intros Hg. destruct Hg as [A B C D E F F1 F2 H]. cbn [note Model_Shim.sh_step rt_step].
  assert (Hin : forall x l, In x (n_used b) -> set_fun v (if in_dec Nat.eq_dec v (n_used b) then None
      else option_map (map copied) (n_inside b u)) (n_inside b) x = Some l -> n_inside b x = Some l).
  { intros x l Hx. unfold set_fun. destruct (Nat.eqb_spec x v) as [->|Hne]; [|exact (fun z => z)].
    destruct (in_dec Nat.eq_dec v (n_used b)); [discriminate|contradiction]. }
  constructor; cbn; try assumption.
  - intros j e Ej. destruct (F j e Ej) as (s0 & K1 & K2 & K3 & K4 & K5 & K6 & K7 & K8). exists s0.
    repeat (split; [assumption|]). split; [now right|]. intros l Hi. apply K8. now apply Hin.
  - intros m x n Em. destruct (F2 m x n Em) as (t & K1 & K2 & K3 & K4). exists t.
    repeat (split; [assumption|]). split; [now right|]. intros l Hi. apply K4. now apply Hin.
  - intros x l Hi. unfold set_fun in Hi. unfold get_current, set_cur. cbn. destruct (Nat.eqb_spec x v) as [->|Hne].
    + destruct (in_dec Nat.eq_dec v (n_used b)); [discriminate|]. destruct (n_inside b u) as [l0|] eqn:E0; [|discriminate].
      injection Hi as <-. eapply describes_copied. exact (H u l0 E0).
    + exact (H x l Hi).
Qed.

Lemma good_baggage b w k name v : good b w -> good b (sh_step w (HBaggage k name v)).
Proof.
  intros Hg. destruct Hg as [A B C D E F F1 F2 H]. cbn [Model_Shim.sh_step].
  set (f := fun s => SS (ss_span s) (set_baggage name v (ss_baggage s))).
  assert (Hm : map ss_span (upd_nth k f (sh_spans w)) = map ss_span (sh_spans w)).
  { generalize (sh_spans w) k. clear. intros l. induction l as [|x l IH]; intros [|k]; cbn; try reflexivity. now rewrite IH. }
  assert (Ho : forall i, option_map ss_span (nth_error (upd_nth k f (sh_spans w)) i) = otel_of w i).
  { intros i. unfold otel_of. rewrite <- !nth_error_map, Hm. reflexivity. }
  constructor; cbn; try assumption.
  - now rewrite Hm.
  - intros j e Ej. destruct (F j e Ej) as (s0 & K1 & K2 & K3). exists s0. split; [exact K1|]. split; [|exact K3].
    unfold otel_of. cbn. now rewrite Ho.
  - intros u l Hi. eapply describes_mono; [|intros ? ? X; exact X|intros ? ? X; exact X|apply Nat.le_refl|intros ? ? _ X _ _; exact X|exact (H u l Hi)].
    intros j x. unfold scov. cbn. destruct (nth_error (sh_scopes w) j) as [s0|]; [|discriminate].
    unfold otel_of at 2. cbn. now rewrite Ho.
Qed.

Lemma good_step b w o : good b w -> good (note b o) (sh_step w o).
Proof.
  intros Hg. destruct o as [u a now|u a finish now|u k finish|u j out t1 t2|k c now|k name v|u blk now|n o|u n|u m|u v].
  - cbn [note Model_Shim.sh_step]. rewrite (known_notes _ _ _ Hg). destruct (known_child a b); [now apply good_start|exact Hg].
  - cbn [note Model_Shim.sh_step]. rewrite (known_notes _ _ _ Hg). destruct (known_child a b); [|exact Hg]. cbn zeta.
    assert (El : length (sh_spans w) = length (n_shims b)) by (rewrite <- (g_shims _ _ Hg); now rewrite map_length).
    rewrite El. apply good_activate; [now apply good_start|]. cbn. apply nth_last.
  - cbn [note Model_Shim.sh_step]. destruct (nth_error (n_shims b) k) as [n|] eqn:E; [now apply good_activate|].
    unfold shim_activate. now rewrite (otel_notes _ _ _ Hg), E.
  - now apply good_close.
  - cbn [note Model_Shim.sh_step]. destruct (otel_of w k) as [n|]; [|exact Hg]. destruct (shim_method to_ns c now) as [o|]; [|exact Hg].
    now apply good_call.
  - now apply good_baggage.
  - cbn [note Model_Shim.sh_step].
    destruct (start_grows (get_current u (sh_rt w)) blk now (fun n => BEnter n blk now) (sh_store w)) as (s & g & _ & E & V).
    rewrite E. unfold with_store, log_event. cbn [snd st_gen st_spans st_tick st_log].
    match goal with |- good _ (ShW _ (Store _ _ _ ?l) _ _ _) =>
      pose proof (good_started b w s g l [] Hg V (or_introl eq_refl)) as K end.
    rewrite !app_nil_r in K. exact K.
  - cbn [note Model_Shim.sh_step]. now apply good_call.
  - now apply good_otel_attach.
  - now apply good_otel_detach.
  - now apply good_fork.
Qed.
Lemma good_fold h : forall b w, good b w -> good (fold_left note h b) (fold_left sh_step h w).
Proof. induction h as [|o h IH]; intros b w H; [exact H|]. cbn. apply IH. now apply good_step. Qed.
Lemma good_run g h : good (notes_of h) (sh_run gen_trace_id gen_span_id tr describe to_ns g h).
Proof. apply good_fold, good_init. Qed.

(** ** The active scope *)
Lemma valid_not_invalid sc : sc_is_valid sc = true -> is_invalid_context sc = false.
Proof.
  unfold sc_is_valid, is_invalid_context. intros H. apply andb_true_iff in H. destruct H as [H _]. apply andb_true_iff in H.
  destruct H as [H _]. apply andb_true_iff in H. destruct H as [H _]. apply Z.ltb_lt in H.
  destruct (Z.eqb_spec (sc_trace_id sc) 0); [lia|reflexivity].
Qed.
Lemma active_spec b w u l : good b w -> n_inside b u = Some l ->
  active u w = option_map fst (innermost_scope l)
  /\ active_obj u w = match innermost_scope l with Some (_, n) => otel_obj w n | None => None end
  /\ match innermost_scope l with Some (_, n) => exists s, nth_error (st_spans (sh_store w)) n = Some s | None => True end
  /\ current_span_context (get_current u (sh_rt w))
     = match innermost_span l with
       | Some n => match nth_error (st_spans (sh_store w)) n with Some s => started_context s | None => INVALID_SPAN_CONTEXT end
       | None => INVALID_SPAN_CONTEXT
       end
  /\ match innermost_span l with Some n => exists s, nth_error (st_spans (sh_store w)) n = Some s | None => True end.
Proof.
  intros Hg Hi. pose proof (g_inside _ _ Hg u l Hi) as D. destruct (describes_says _ _ _ _ _ _ _ _ D) as [S1 S2].
  assert (A : active u w = option_map fst (innermost_scope l)).
  { unfold active. cbn zeta. rewrite S1. destruct (innermost_span l) as [n|] eqn:En.
    - destruct S2 as (sc & C1 & ->). rewrite valid_not_invalid
        by exact (proj1 (all_valid (sh_store w)) (g_valid _ _ Hg) _ _ C1).
      destruct (innermost_scope l) as [[j n']|]; cbn; [now rewrite Nat2N.id|reflexivity].
    - destruct S2 as [-> _]. destruct l as [|f l]; [reflexivity|destruct f; discriminate]. }
  split; [exact A|]. unfold active_obj. rewrite A.
  assert (Hsc : match innermost_scope l with Some (j, n) => exists s t tc, scov w j = Some (n, t, tc)
              /\ nth_error (st_spans (sh_store w)) n = Some s | None => True end).
  { destruct (innermost_scope l) as [[j n]|] eqn:Ein; [|trivial]. destruct (innermost_in _ _ _ Ein) as (own & Hin).
    destruct (describes_scope _ _ _ _ _ _ _ _ _ _ _ D Hin) as (t & tc & sc & E1 & E2). unfold ctxs in E2.
    destruct (nth_error (st_spans (sh_store w)) n) as [s|] eqn:Es; [|discriminate]. now exists s, t, tc. }
  split; [|split; [|split]].
  - destruct (innermost_scope l) as [[j n]|]; [|reflexivity]. cbn. destruct Hsc as (s & t & tc & E & _). unfold scov in E.
    destruct (nth_error (sh_scopes w) j) as [x|]; [|discriminate]. unfold shim_obj.
    destruct (otel_of w (so_shim x)) as [n'|]; [|discriminate]. injection E as -> _ _. reflexivity.
  - destruct (innermost_scope l) as [[j n]|]; [|trivial]. destruct Hsc as (s & _ & _ & _ & E). now exists s.
  - destruct (innermost_span l) as [n|]; [|apply S2]. destruct S2 as (sc & C1 & ->). unfold ctxs in C1.
    destruct (nth_error (st_spans (sh_store w)) n); [now injection C1 as <-|discriminate].
  - destruct (innermost_span l) as [n|]; [|trivial]. destruct S2 as (sc & C1 & _). unfold ctxs in C1.
    destruct (nth_error (st_spans (sh_store w)) n) as [s|]; [now exists s|discriminate].
Qed.

(** ** The parent *)
Definition cur_known b u (a : start_args) (cur : option nat) (pick : list frame -> option nat) : Prop :=
  sa_child a = None -> sa_ignore a = false -> exists l, n_inside b u = Some l /\ cur = pick l.
Lemma context_of_set o c : current_span_context (set_span_in_context o c)
  = match o with OSpan sc _ _ => sc | _ => INVALID_SPAN_CONTEXT end.
Proof.
  unfold current_span_context, get_current_span, set_span_in_context. rewrite get_same. now destruct o.
Qed.
Lemma as_obj_context s : match as_obj s with OSpan sc _ _ => sc | _ => INVALID_SPAN_CONTEXT end = started_context s.
Proof. now destruct s. Qed.
Lemma child_spec b w a k : good b w -> sa_child a = Some (inl k) -> known_child a b = true ->
  exists n s, nth_error (n_shims b) k = Some n /\ nth_error (st_spans (sh_store w)) n = Some s /\ child_obj w a = Some (as_obj s).
Proof.
  intros Hg Ec Hk. unfold known_child in Hk. rewrite Ec in Hk. apply Nat.ltb_lt in Hk.
  destruct (nth_error (n_shims b) k) as [n|] eqn:En; [|apply nth_error_None in En; lia].
  pose proof (g_known _ _ Hg) as K. rewrite Forall_forall in K. specialize (K n (nth_error_In _ _ En)).
  destruct (known_ctx _ _ _ Hg K) as (s & Es). exists n, s. split; [reflexivity|]. split; [exact Es|].
  unfold child_obj. rewrite Ec. unfold shim_obj. rewrite (otel_notes _ _ _ Hg), En. unfold otel_obj. now rewrite Es.
Qed.
Lemma start_parent b w u a cur : good b w -> known_child a b = true ->
  cur_known b u a cur (fun l => option_map snd (innermost_scope l)) ->
  forall c, current_span_context (resolve c (b_context (shim_block to_ns u w (child_obj w a) a)))
  = parent_of (st_spans (sh_store w)) b a cur.
Proof.
  intros Hg Hk Hc c. unfold shim_block, parent_of. cbn [b_context resolve]. rewrite context_of_set. fold (referred a).
  destruct (sa_child a) as [[k|sc]|] eqn:Ec.
  - destruct (child_spec b w a k Hg Ec Hk) as (n & s & En & Es & ->). rewrite En, Es. apply as_obj_context.
  - unfold child_obj. now rewrite Ec.
  - unfold child_obj. rewrite Ec. destruct (sa_ignore a) eqn:Ei.
    + now destruct (referred a).
    + destruct (Hc Ec Ei) as (l & Hi & ->). destruct (active_spec _ _ _ _ Hg Hi) as (_ & -> & K & _).
      destruct (innermost_scope l) as [[j n]|]; cbn; [|now destruct (referred a)].
      destruct K as (s & Es). unfold otel_obj. rewrite Es. cbn. apply as_obj_context.
Qed.
(** start_active_span, when the current span is not to be ignored or there is none *)
Definition active_child u w a : option obj :=
  let c := get_current_span (get_current u (sh_rt w)) in
  match child_obj w a with
  | None => if is_invalid_context (span_context_of c) then None else Some c
  | Some o => Some o
  end.
Lemma start_active_parent b w u a cur : good b w -> known_child a b = true ->
  (sa_child a = None -> exists l, n_inside b u = Some l /\ cur = innermost_span l /\ (sa_ignore a = true -> l = [])) ->
  forall c, current_span_context (resolve c (b_context (shim_block to_ns u w (active_child u w a) a)))
  = parent_of (st_spans (sh_store w)) b a cur.
Proof.
  intros Hg Hk Hc c. unfold shim_block, parent_of. cbn [b_context resolve]. rewrite context_of_set. fold (referred a).
  destruct (sa_child a) as [[k|sc]|] eqn:Ec.
  - unfold active_child. cbn zeta. destruct (child_spec b w a k Hg Ec Hk) as (n & s & En & Es & ->). rewrite En, Es.
    apply as_obj_context.
  - unfold active_child, child_obj. cbn zeta. now rewrite Ec.
  - unfold active_child, child_obj. cbn zeta. rewrite Ec. destruct (Hc eq_refl) as (l & Hi & -> & Hnil).
    destruct (active_spec _ _ _ _ Hg Hi) as (_ & Ea & _ & Ecur & K). unfold current_span_context in Ecur. rewrite Ecur.
    destruct (innermost_span l) as [n|] eqn:En.
    + destruct K as (s & Es). rewrite Es. rewrite valid_not_invalid.
      2: { pose proof (g_valid _ _ Hg) as V. rewrite Forall_forall in V. apply V. eapply nth_error_In. exact Es. }
      destruct (sa_ignore a) eqn:Ei; [rewrite (Hnil eq_refl) in En; discriminate|]. rewrite Es.
      rewrite Es in Ecur. rewrite <- Ecur. unfold span_context_of. reflexivity.
    + change (is_invalid_context INVALID_SPAN_CONTEXT) with true. cbn iota.
      assert (El : l = []) by (destruct l as [|f l]; [reflexivity|destruct f; discriminate]). subst l. rewrite Ea. cbn.
      destruct (sa_ignore a); now destruct (referred a).
Qed.
Lemma parent_later spans spans' b a cur :
  (forall n s, nth_error spans n = Some s -> exists s', nth_error spans' n = Some s' /\ started_context s' = started_context s) ->
  (forall k n, sa_child a = Some (inl k) -> nth_error (n_shims b) k = Some n -> exists s, nth_error spans n = Some s) ->
  (sa_child a = None -> sa_ignore a = false -> forall n, cur = Some n -> exists s, nth_error spans n = Some s) ->
  parent_of spans' b a cur = parent_of spans b a cur.
Proof.
  intros H1 H2 H3. unfold parent_of. destruct (sa_child a) as [[k|sc]|].
  - destruct (nth_error (n_shims b) k) as [n|] eqn:E; [|reflexivity]. destruct (H2 k n eq_refl E) as (s & Es).
    destruct (H1 n s Es) as (s' & -> & Ec). now rewrite Es, Ec.
  - reflexivity.
  - destruct (sa_ignore a) eqn:Ei; [reflexivity|]. destruct cur as [n|]; [|reflexivity].
    destruct (H3 eq_refl eq_refl n eq_refl) as (s & Es). destruct (H1 n s Es) as (s' & -> & Ec). now rewrite Es, Ec.
Qed.

(** ** The calls *)
Definition lively (s : started) : Prop :=
  match s with Recording w => sp_start (w_span w) <> None /\ is_ended (w_span w) = false | NonRecording _ => False end.
Definition same_calls (a b : list sop) : Prop :=
  until_end (map ACall a) = until_end (map ACall b) /\ first_end (map ACall a) = first_end (map ACall b).
Lemma lively_call o s : is_end o = false -> lively s -> lively (call_span o s).
Proof.
  intros Ho. destruct s as [w|sc]; [|exact (fun z => z)]. intros [A B].
  destruct (Proof_Blocks.after_recording [o] w A) as (w' & E & C & D). change (lively (after [o] (Recording w))). rewrite E.
  split; [exact C|]. rewrite D, B. cbn. now rewrite Ho.
Qed.
Lemma same_cons o a b : (is_end o = false -> same_calls a b) -> same_calls (o :: a) (o :: b).
Proof.
  intros H. destruct (is_end o) eqn:E.
  - destruct o; try discriminate. now split.
  - destruct (H eq_refl) as [H1 H2]. unfold same_calls. destruct o; try discriminate; cbn; rewrite ?H1, ?H2; now split.
Qed.
Lemma asks_method c now o : asks to_ns c now o <-> shim_method to_ns c now = Some o.
Proof.
  split.
  - intros H. destruct H; cbn [shim_method event_name_from_kv option_map]; try reflexivity; rewrite H; reflexivity.
  - destruct c as [name|t|k v|[d|] t]; cbn [shim_method event_name_from_kv option_map].
    + intros [= <-]. constructor.
    + intros [= <-]. destruct t; constructor.
    + intros [= <-]. constructor.
    + destruct (dget (lit "event") d) as [v|] eqn:E.
      * destruct v; try discriminate. intros [= <-]. econstructor. exact E.
      * intros [= <-]. now constructor.
    + intros [= <-]. constructor.
Qed.
Lemma nth_on n o e st s m : nth_error (st_spans st) m = Some s ->
  nth_error (st_spans (call_on n o e st)) m = Some (if Nat.eqb n m then call_span o s else s).
Proof.
  intros E. cbn. destruct (Nat.eqb_spec n m) as [->|H]; [now apply Proof_Blocks.nth_call_eq|]. now rewrite Proof_Blocks.nth_call_ne by congruence.
Qed.
Lemma lively_recording n st s : nth_error (st_spans st) n = Some s -> lively s -> nth_recording n st = true.
Proof. intros E H. unfold nth_recording. rewrite E. destruct s as [w|sc]; [|contradiction]. now destruct H as [_ ->]. Qed.

(** What closing does to span [n]. *)
Lemma cm_exit_span n fin out t1 t2 st s : nth_error (st_spans st) n = Some s ->
  exists ops, nth_error (st_spans (cm_exit describe n fin out t1 t2 st)) n = Some (after ops s)
    /\ (lively s -> ops = closing describe fin out t1 t2)
    /\ (forall o, In o ops -> In o (closing describe fin out t1 t2)).
Proof.
  intros E. unfold cm_exit, closing.
  assert (Hend : forall st' s', nth_error (st_spans st') n = Some s' ->
    nth_error (st_spans (if fin then call_on n (OEnd None t2) (BCall n (OEnd None t2)) st' else st')) n
    = Some (after (if fin then [OEnd None t2] else []) s')).
  { intros st' s' E'. destruct fin; [|exact E']. now rewrite (nth_on _ _ _ _ _ _ E'), Nat.eqb_refl. }
  destruct out as [|e].
  - exists (if fin then [OEnd None t2] else []). split; [now apply Hend|]. split; [reflexivity|]. intros o Ho. exact Ho.
  - destruct (ex_error e) eqn:Ee.
    + destruct (nth_recording n st) eqn:En; cbn [andb].
      * eexists. split; [|split; [reflexivity|intros o Ho; exact Ho]]. rewrite Proof_Blocks.after_app. apply Hend. cbn [after fold_left].
        rewrite (nth_on _ _ _ _ (call_span (ORecordException (describe e) [] None false t1) s)); [now rewrite Nat.eqb_refl|].
        rewrite (nth_on _ _ _ _ s) by exact E. now rewrite Nat.eqb_refl.
      * exists (if fin then [OEnd None t2] else []). split; [now apply Hend|]. split.
        -- intros H. rewrite (lively_recording _ _ _ E H) in En. discriminate.
        -- intros o Ho. now do 2 right.
    + cbn [andb]. exists (if fin then [OEnd None t2] else []). split; [now apply Hend|]. split; [reflexivity|]. intros o Ho. exact Ho.
Qed.
Lemma cm_exit_other n fin out t1 t2 st m s : n <> m -> nth_error (st_spans st) m = Some s ->
  nth_error (st_spans (cm_exit describe n fin out t1 t2 st)) m = Some s.
Proof.
  intros Hne E. apply Nat.eqb_neq in Hne. unfold cm_exit.
  assert (Hc : forall o e st', nth_error (st_spans st') m = Some s -> nth_error (st_spans (call_on n o e st')) m = Some s)
    by (intros o e st' E'; now rewrite (nth_on _ _ _ _ _ _ E'), Hne).
  destruct out as [|e]; [|destruct (ex_error e && nth_recording n st)]; destruct fin; repeat apply Hc; exact E.
Qed.
Lemma start_spans w u child a now n s : nth_error (st_spans (sh_store w)) n = Some s ->
  nth_error (st_spans (sh_store (shim_start u w child a now))) n = Some s.
Proof.
  intros E. unfold Model_Shim.shim_start. cbn zeta.
  destruct (start_grows (get_current u (sh_rt w)) (shim_block to_ns u w child a) now
              (fun n => BEnter n (shim_block to_ns u w child a) now) (sh_store w)) as (x & g & _ & -> & _).
  cbn. now apply nth_app.
Qed.
Lemma activate_store u k fin w : sh_store (shim_activate u k fin w) = sh_store w.
Proof.
  unfold shim_activate. destruct (otel_of w k) as [n|]; [|reflexivity]. destruct (otel_obj w n); [|reflexivity].
  destruct (attach _ _ _). destruct (attach _ _ _). reflexivity.
Qed.

Lemma lively_app ops s : existsb is_end ops = false -> lively s -> lively (after ops s).
Proof.
  revert s. induction ops as [|o ops IH]; intros s H L; [exact L|]. cbn in H. apply orb_false_iff in H. apply IH; [tauto|].
  now apply lively_call.
Qed.
Lemma same_app ops a b : (existsb is_end ops = false -> same_calls a b) -> same_calls (ops ++ a) (ops ++ b).
Proof.
  induction ops as [|o ops IH]; intros H; [now apply H|]. cbn [app]. apply same_cons. intros Ho. apply IH. intros He. apply H.
  cbn. now rewrite Ho, He.
Qed.

Lemma calls_spec n h : forall b w s, good b w -> nth_error (st_spans (sh_store w)) n = Some s ->
  exists l ops, calls describe to_ns n b h l
    /\ nth_error (st_spans (sh_store (fold_left sh_step h w))) n = Some (after ops s)
    /\ (lively s -> same_calls ops l).
Proof.
  induction h as [|o h IH]; intros b w s Hg E; cbn [fold_left].
  - exists [], []. split; [constructor|]. split; [exact E|]. now split.
  - pose proof (good_step b w o Hg) as Hg'.
    (* an event that leaves the span alone *)
    assert (Hother : nth_error (st_spans (sh_store (sh_step w o))) n = Some s ->
      match o with
      | HCall k c t => nth_error (n_shims b) k <> Some n \/ forall x, ~ asks to_ns c t x
      | HOtelCall m _ => m <> n
      | HClose _ j _ _ _ => forall e, nth_error (n_scopes b) j = Some e -> en_span e <> n \/ en_closed e = true
      | _ => True
      end -> exists l ops, calls describe to_ns n b (o :: h) l
        /\ nth_error (st_spans (sh_store (fold_left sh_step h (sh_step w o)))) n = Some (after ops s)
        /\ (lively s -> same_calls ops l)).
    { intros E' Ho. destruct (IH _ _ _ Hg' E') as (l & ops & C & A & B). exists l, ops. split; [|now split].
      now apply calls_other. }
    (* one call *)
    assert (Hone : forall x, nth_error (st_spans (sh_store (sh_step w o))) n = Some (call_span x s) -> note b o = b ->
      (forall l, calls describe to_ns n b h l -> calls describe to_ns n b (o :: h) (x :: l)) ->
      exists l ops, calls describe to_ns n b (o :: h) l
        /\ nth_error (st_spans (sh_store (fold_left sh_step h (sh_step w o)))) n = Some (after ops s)
        /\ (lively s -> same_calls ops l)).
    { intros x E' Eb Hc. rewrite Eb in Hg'. destruct (IH _ _ _ Hg' E') as (l & ops & C & A & B).
      exists (x :: l), (x :: ops). split; [now apply Hc|]. split; [exact A|]. intros L. apply same_cons. intros Hx. apply B.
      now apply lively_call. }
    destruct o as [u a now|u a finish now|u k finish|u j out t1 t2|k c now|k name v|u blk now|m o|u m|u m|u v].
    + apply Hother; [|trivial]. cbn. destruct (child_known w a); [now apply start_spans|exact E].
    + apply Hother; [|trivial]. cbn. destruct (child_known w a); [|exact E]. rewrite activate_store. now apply start_spans.
    + apply Hother; [|trivial]. cbn. now rewrite activate_store.
    + destruct (nth_error (n_scopes b) j) as [e|] eqn:Ee.
      * destruct (g_scopes _ _ Hg j e Ee) as (s0 & K1 & K2 & K3 & K4 & _).
        destruct (en_closed e) eqn:Ec.
        { apply Hother.
          - cbn. unfold shim_close. rewrite K1, K2, K4. exact E.
          - intros e' Ee'. right. rewrite ?Ee in Ee'. now injection Ee' as <-. }
        destruct (Nat.eq_dec (en_span e) n) as [En|En].
        -- destruct (cm_exit_span n (so_finish s0) out t1 t2 _ _ E) as (ops0 & X1 & X2 & X3).
           assert (E' : nth_error (st_spans (sh_store (sh_step w (HClose u j out t1 t2)))) n = Some (after ops0 s)).
           { cbn. unfold shim_close. rewrite K1, K2, K4, En. exact X1. }
           destruct (IH _ _ _ Hg' E') as (l & ops & C & A & B).
           exists (closing describe (en_finish e) out t1 t2 ++ l), (ops0 ++ ops). split; [now eapply calls_close|].
           split; [now rewrite Proof_Blocks.after_app|]. intros L. rewrite (X2 L), K3. apply same_app. intros Hx. apply B.
           rewrite (X2 L), K3. now apply lively_app.
        -- apply Hother.
           ++ cbn. unfold shim_close. rewrite K1, K2, K4. cbn. now apply cm_exit_other.
           ++ intros e' Ee'. left. rewrite ?Ee in Ee'. now injection Ee' as <-.
      * apply Hother.
        -- cbn. unfold shim_close. assert (nth_error (sh_scopes w) j = None) as ->; [|exact E].
           apply nth_error_None. rewrite (g_slen _ _ Hg). now apply nth_error_None.
        -- intros e' Ee'. congruence.
    + pose proof (otel_notes _ _ k Hg) as Ek. destruct (shim_method to_ns c now) as [o|] eqn:Em.
      * destruct (nth_error (n_shims b) k) as [m|] eqn:Enk.
        -- destruct (Nat.eq_dec m n) as [->|Hne].
           ++ apply (Hone o).
              ** cbn. rewrite Ek, Em. cbn. now apply Proof_Blocks.nth_call_eq.
              ** reflexivity.
              ** intros l Hc. apply calls_shim; [exact Enk|now apply asks_method|exact Hc].
           ++ apply Hother; [|left; rewrite ?Enk; congruence]. cbn. rewrite Ek, Em. cbn. now rewrite Proof_Blocks.nth_call_ne by congruence.
        -- apply Hother; [|left; congruence]. cbn. now rewrite Ek.
      * apply Hother.
        -- cbn. rewrite Em. now destruct (otel_of w k).
        -- right. intros x Hx. apply asks_method in Hx. congruence.
    + apply Hother; [exact E|trivial].
    + apply Hother; [|trivial]. cbn.
      destruct (start_grows (get_current u (sh_rt w)) blk now (fun n => BEnter n blk now) (sh_store w)) as (x & g & _ & -> & _).
      cbn. now apply nth_app.
    + destruct (Nat.eq_dec m n) as [->|Hne].
      * apply (Hone o); [|reflexivity|].
        -- cbn. now apply Proof_Blocks.nth_call_eq.
        -- intros l Hc. now apply calls_otel.
      * apply Hother; [|exact Hne]. cbn. now rewrite Proof_Blocks.nth_call_ne by congruence.
    + apply Hother; [|trivial]. cbn. destruct (otel_obj w m); exact E.
    + apply Hother; [|trivial]. cbn. destruct (nth_error (sh_tokens w) m); exact E.
    + apply Hother; [exact E|trivial].
Qed.

(** ** A started span, later *)
Lemma fold_keeps h : forall w n s, nth_error (st_spans (sh_store w)) n = Some s -> forall b, good b w ->
  exists s', nth_error (st_spans (sh_store (fold_left sh_step h w))) n = Some s' /\ started_context s' = started_context s.
Proof.
  intros w n s E b Hg. destruct (calls_spec n h b w s Hg E) as (l & ops & _ & A & _). eexists. split; [exact A|].
  apply Proof_Blocks.after_context.
Qed.
Lemma started_shows b w u child a now h p :
  good b w ->
  current_span_context (resolve (get_current u (sh_rt w)) (b_context (shim_block to_ns u w child a))) = p ->
  forall w1 b1, good b1 w1 ->
  nth_error (st_spans (sh_store w1)) (n_spans b) = nth_error (st_spans (sh_store (shim_start u w child a now))) (n_spans b) ->
  exists s l, nth_error (st_spans (sh_store (fold_left sh_step h w1))) (n_spans b) = Some s
    /\ calls describe to_ns (n_spans b) b1 h l /\ shows tr to_ns a now p l s.
Proof.
  intros Hg Hp w1 b1 Hg1 E1. unfold Model_Shim.shim_start in E1. cbn zeta in E1.
  set (blk := shim_block to_ns u w child a) in *.
  destruct (start_grows (get_current u (sh_rt w)) blk now (fun n => BEnter n blk now) (sh_store w)) as (s0 & g & Hb & E & V).
  rewrite E in E1. cbn in E1. rewrite <- (g_spans _ _ Hg) in *. rewrite nth_last in E1.
  destruct (calls_spec _ h b1 w1 s0 Hg1 E1) as (l & ops & C & A & B).
  exists (after ops s0), l. split; [exact A|]. split; [exact C|].
  pose proof (Proof_Blocks.born_content gen_trace_id gen_span_id tr Hl _ blk now s0 ops Hb) as K. cbn zeta in K. rewrite Hp in K.
  destruct K as (K1 & K2 & K3 & K4). unfold shows. cbn zeta. split; [now apply K2|]. split; [exact K1|].
  eexists (get_current u (sh_rt w)), _. split; [exact Hp|].
  change (t_sampler tr (get_current u (sh_rt w)) (Some (resolve (get_current u (sh_rt w)) (b_context blk)))
    (sc_trace_id (started_context (after ops s0))) (sa_name a) 0%Z (sa_tags a) (map (fun sc => Some (Some sc, [])) (referred a)))
    with (t_sampler tr (get_current u (sh_rt w)) (b_context blk)
    (sc_trace_id (started_context (after ops s0))) (b_name blk) (b_kind blk) (b_attrs blk) (b_links blk)).
  split; [exact K3|]. destruct (after ops s0) as [w2|sc] eqn:Ea; [|exact K4].
  destruct K4 as (K4 & K5 & K6 & K7). split; [exact K4|].
  assert (Hs : same_calls ops l).
  { apply B. destruct s0 as [w0|sc0].
    - exact (Proof_Blocks.born_recording gen_trace_id gen_span_id tr Hl _ _ _ _ Hb).
    - assert (Hn : forall ops, after ops (NonRecording sc0) = NonRecording sc0) by (clear; induction ops as [|o ops IH]; [reflexivity|exact IH]).
      rewrite Hn in Ea. discriminate. }
  destruct Hs as [Hs1 Hs2]. rewrite <- Hs1, <- Hs2. split; [|split; [exact K6|exact K7]].
  assert (Et : at_time (b_start blk) now = match sa_start a with Some f => to_ns f | None => now end)
    by (unfold blk; cbn; now destruct (sa_start a)).
  rewrite <- Et. exact K5.
Qed.

Notation sh_run := (sh_run gen_trace_id gen_span_id tr describe to_ns).
Lemma run_app g pre h : sh_run g (pre ++ h) = fold_left sh_step h (sh_run g pre).
Proof. apply fold_left_app. Qed.
Lemma notes_app pre h : notes_of (pre ++ h) = fold_left note h (notes_of pre).
Proof. apply fold_left_app. Qed.

Lemma start_known b w u a cur pick h : good b w -> known_child a b = true -> cur_known b u a cur pick ->
  (forall l n, n_inside b u = Some l -> pick l = Some n -> exists s, nth_error (st_spans (sh_store w)) n = Some s) ->
  parent_of (st_spans (sh_store (fold_left sh_step h w))) b a cur = parent_of (st_spans (sh_store w)) b a cur.
Proof.
  intros Hg Hk Hc Hp. apply parent_later.
  - intros n s E. exact (fold_keeps h w n s E b Hg).
  - intros k n Ec En. destruct (child_spec b w a k Hg Ec Hk) as (n' & s & En' & Es & _). rewrite En in En'. injection En' as <-.
    now exists s.
  - intros Ec Ei n En. destruct (Hc Ec Ei) as (l & Hi & Ecur). apply (Hp l n Hi). congruence.
Qed.

Lemma shims_stay h : forall b0 k n, nth_error (n_shims b0) k = Some n -> nth_error (n_shims (fold_left note h b0)) k = Some n.
Proof.
  induction h as [|o h IH]; intros b0 k n E; [exact E|]. cbn. apply IH.
  destruct o; cbn [note]; try exact E.
  - destruct (known_child a b0); [now apply nth_app|exact E].
  - destruct (known_child a b0); [|exact E]. cbn. now do 2 apply nth_app.
  - destruct (nth_error (n_shims b0) k0); [now apply nth_app|exact E].
  - destruct (nth_error (n_scopes b0) j); exact E.
  - destruct (Nat.ltb n0 (n_spans b0)); exact E.
  - destruct (Nat.ltb m (length (n_attached b0))); exact E.
Qed.

Theorem start_span_shows g pre u a now post cur :
  let b := notes_of pre in
  known_child a b = true -> cur_known b u a cur (fun l => option_map snd (innermost_scope l)) ->
  let w := sh_run g (pre ++ HStart u a now :: post) in
  exists s l, nth_error (st_spans (sh_store w)) (n_spans b) = Some s
    /\ otel_of w (length (n_shims b)) = Some (n_spans b)
    /\ calls describe to_ns (n_spans b) (notes_of (pre ++ [HStart u a now])) post l
    /\ shows tr to_ns a now (parent_of (st_spans (sh_store w)) b a cur) l s.
Proof.
  cbn zeta. intros Hk Hc. pose proof (good_run g pre) as Hg. set (b := notes_of pre) in *. set (w := sh_run g pre) in *.
  pose proof (good_step b w (HStart u a now) Hg) as Hg1.
  assert (Hp : parent_of (st_spans (sh_store (sh_run g (pre ++ HStart u a now :: post)))) b a cur = parent_of (st_spans (sh_store w)) b a cur).
  { rewrite run_app. eapply start_known; try eassumption. intros l n Hi En. cbn beta in En. destruct (active_spec _ _ _ _ Hg Hi) as (_ & _ & K & _).
    destruct (innermost_scope l) as [[j m]|]; [|discriminate]. cbn in En. injection En as <-. exact K. }
  rewrite Hp.
  destruct (started_shows b w u (child_obj w a) a now post (parent_of (st_spans (sh_store w)) b a cur) Hg
              (start_parent b w u a cur Hg Hk Hc _) (sh_step w (HStart u a now)) (note b (HStart u a now)) Hg1)
    as (s & l & A & B & C).
  { cbn. rewrite (known_notes _ _ _ Hg), Hk. reflexivity. }
  exists s, l. rewrite run_app. split; [exact A|]. split; [|split; [|exact C]].
  - rewrite (otel_notes (notes_of (pre ++ HStart u a now :: post))); [|rewrite <- run_app; apply good_run].
    rewrite notes_app. cbn [fold_left]. fold b.
    apply shims_stay. cbn. rewrite Hk. cbn. apply nth_last.
  - rewrite notes_app. exact B.
Qed.
Theorem start_active_shows g pre u a fin now post cur :
  let b := notes_of pre in
  known_child a b = true ->
  (sa_child a = None -> exists l, inside u pre = Some l /\ cur = innermost_span l /\ (sa_ignore a = true -> l = [])) ->
  let w := sh_run g (pre ++ HStartActive u a fin now :: post) in
  exists s l, nth_error (st_spans (sh_store w)) (n_spans b) = Some s
    /\ otel_of w (S (length (n_shims b))) = Some (n_spans b)
    /\ calls describe to_ns (n_spans b) (notes_of (pre ++ [HStartActive u a fin now])) post l
    /\ shows tr to_ns a now (parent_of (st_spans (sh_store w)) b a cur) l s.
Proof.
  cbn zeta. intros Hk Hc. pose proof (good_run g pre) as Hg. unfold inside in Hc.
  set (b := notes_of pre) in *. set (w := sh_run g pre) in *.
  set (o := HStartActive u a fin now). pose proof (good_step b w o Hg) as Hg1.
  assert (Hp : parent_of (st_spans (sh_store (sh_run g (pre ++ o :: post)))) b a cur = parent_of (st_spans (sh_store w)) b a cur).
  { rewrite run_app. apply (start_known b w u a cur (fun l => innermost_span l) (o :: post) Hg Hk).
    - intros Ec _. destruct (Hc Ec) as (l & A & B & _). now exists l.
    - intros l n Hi En. destruct (active_spec _ _ _ _ Hg Hi) as (_ & _ & _ & _ & K). rewrite En in K. exact K. }
  rewrite Hp.
  destruct (started_shows b w u (active_child u w a) a now post (parent_of (st_spans (sh_store w)) b a cur) Hg
              (start_active_parent b w u a cur Hg Hk Hc _) (sh_step w o) (note b o) Hg1) as (s & l & A & B & C).
  { unfold o. cbn. rewrite (known_notes _ _ _ Hg), Hk, activate_store. reflexivity. }
  exists s, l. rewrite run_app. split; [exact A|]. split; [|split; [|exact C]].
  - rewrite (otel_notes (notes_of (pre ++ o :: post))); [|rewrite <- run_app; apply good_run].
    rewrite notes_app. cbn [fold_left]. fold b.
    apply shims_stay. unfold o. cbn [note]. rewrite Hk. unfold note_activate. cbn [note_start n_shims].
    replace (S (length (n_shims b))) with (length (n_shims b ++ [n_spans b])) by (rewrite app_length; cbn; lia). apply nth_last.
  - rewrite notes_app. exact B.
Qed.

Theorem active_shows g h u l : inside u h = Some l ->
  let w := sh_run g h in
  active u w = option_map fst (innermost_scope l)
  /\ match innermost_scope l with
     | Some (j, n) => exists s, nth_error (st_spans (sh_store w)) n = Some s /\ active_obj u w = Some (as_obj s)
     | None => active_obj u w = None
     end
  /\ match innermost_span l with
     | Some n => exists s, nth_error (st_spans (sh_store w)) n = Some s
                           /\ current_span_context (get_current u (sh_rt w)) = started_context s
     | None => current_span_context (get_current u (sh_rt w)) = INVALID_SPAN_CONTEXT
     end.
Proof.
  intros Hi. cbn zeta. pose proof (good_run g h) as Hg. destruct (active_spec _ _ _ _ Hg Hi) as (A & B & C & D & E).
  split; [exact A|]. rewrite B, D. split.
  - destruct (innermost_scope l) as [[j n]|]; [|reflexivity]. destruct C as (s & Es). exists s. split; [exact Es|].
    unfold otel_obj. now rewrite Es.
  - destruct (innermost_span l) as [n|]; [|reflexivity]. destruct E as (s & Es). exists s. now rewrite Es.
Qed.

(** ** Baggage items *)
Lemma activate_spans u k fin w : exists e, sh_spans (shim_activate u k fin w) = sh_spans w ++ e
  /\ Forall (fun s => ss_baggage s = []) e.
Proof.
  unfold shim_activate. destruct (otel_of w k) as [n|]; [|exists []; rewrite app_nil_r; now split; constructor].
  destruct (otel_obj w n); [|exists []; rewrite app_nil_r; now split; constructor].
  destruct (attach _ _ (sh_rt w)) as [rt1 t1]. destruct (attach _ _ rt1) as [rt2 t2]. cbn.
  eexists. split; [reflexivity|]. now repeat constructor.
Qed.
Lemma shim_start_spans u w ch a now : exists e, sh_spans (shim_start u w ch a now) = sh_spans w ++ e
  /\ Forall (fun s => ss_baggage s = []) e.
Proof.
  unfold Model_Shim.shim_start. destruct (start_block _ _ _ _ _) as [[x|x] st]; cbn; eexists.
  - split; [reflexivity|]. now repeat constructor.
  - split; [symmetry; apply app_nil_r|constructor].
Qed.
Lemma step_spans w o : (forall k n v, o <> HBaggage k n v) -> exists e, sh_spans (sh_step w o) = sh_spans w ++ e
  /\ Forall (fun s => ss_baggage s = []) e.
Proof.
  intros Hn. assert (N : forall w', sh_spans w' = sh_spans w -> exists e, sh_spans w' = sh_spans w ++ e
    /\ Forall (fun s => ss_baggage s = []) e).
  { intros w' ->. exists []. rewrite app_nil_r. now split; constructor. }
  destruct o as [u a now|u a finish now|u k finish|u j out t1 t2|k c now|k name v|u blk now|n o|u n|u m|u v]; cbn.
  - destruct (child_known w a); [apply shim_start_spans|now apply N].
  - destruct (child_known w a); [|now apply N]. cbn zeta.
    match goal with |- context [shim_start u w ?ch a now] => destruct (shim_start_spans u w ch a now) as (e1 & E1 & F1) end.
    match goal with |- context [shim_activate u ?k finish ?w1] => destruct (activate_spans u k finish w1) as (e2 & E2 & F2) end.
    exists (e1 ++ e2). split; [now rewrite E2, E1, app_assoc|]. apply Forall_app; now split.
  - apply activate_spans.
  - unfold shim_close. destruct (nth_error (sh_scopes w) j); [|now apply N]. destruct (otel_of w _); [|now apply N].
    destruct (so_left _); now apply N.
  - destruct (otel_of w k); [|now apply N]. destruct (shim_method to_ns c now); now apply N.
  - now destruct (Hn k name v).
  - now apply N.
  - now apply N.
  - destruct (otel_obj w n); now apply N.
  - destruct (nth_error _ m); now apply N.
  - now apply N.
Qed.
Lemma items_step k name b w x o : good b w ->
  get_baggage_item w k name = (if Nat.ltb k (length (n_shims b)) then Some x else None) ->
  (Nat.ltb k (length (n_shims b)) = false -> x = ONone) ->
  let x' := match o with
            | HBaggage k' name' v => if Nat.eqb k' k && str_eqb name' name && Nat.ltb k (length (n_shims b)) then v else x
            | _ => x
            end in
  get_baggage_item (sh_step w o) k name = (if Nat.ltb k (length (n_shims (note b o))) then Some x' else None)
  /\ (Nat.ltb k (length (n_shims (note b o))) = false -> x' = ONone).
Proof.
  intros Hg E0 X0. cbn zeta. pose proof (good_step b w o Hg) as Hg1.
  assert (L0 : length (sh_spans w) = length (n_shims b)) by (rewrite <- (g_shims _ _ Hg); now rewrite map_length).
  assert (L1 : length (sh_spans (sh_step w o)) = length (n_shims (note b o))) by (rewrite <- (g_shims _ _ Hg1); now rewrite map_length).
  assert (K : (forall k n v, o <> HBaggage k n v) ->
    get_baggage_item (sh_step w o) k name = (if Nat.ltb k (length (n_shims (note b o))) then Some x else None)
    /\ (Nat.ltb k (length (n_shims (note b o))) = false -> x = ONone)).
  { intros Hn. destruct (step_spans w o Hn) as (e & E & F). rewrite <- L1, E, app_length, L0.
    unfold get_baggage_item in *. rewrite E.
    destruct (Nat.ltb_spec k (length (n_shims b))) as [Hk|Hk].
    - rewrite nth_error_app1 by lia. rewrite E0. destruct (Nat.ltb_spec k (length (n_shims b) + length e)); [now split|lia].
    - specialize (X0 eq_refl). subst x. split; [|reflexivity]. rewrite nth_error_app2 by lia. rewrite L0.
      destruct (Nat.ltb_spec k (length (n_shims b) + length e)) as [Hk'|Hk'].
      + destruct (nth_error e (k - length (n_shims b))) as [s|] eqn:Es; [|apply nth_error_None in Es; lia].
        apply nth_error_In in Es. rewrite Forall_forall in F. cbn. now rewrite (F _ Es).
      + destruct (nth_error e (k - length (n_shims b))) as [s|] eqn:Es; [|reflexivity].
        assert (nth_error e (k - length (n_shims b)) <> None) by congruence. apply nth_error_Some in H. lia. }
  destruct o; try (apply K; intros; discriminate). clear K. cbn [note Model_Shim.sh_step] in *. unfold get_baggage_item in *. cbn [sh_spans]. rewrite nth_upd.
  destruct (Nat.eqb_spec k0 k) as [->|]; cbn [andb]; [|now split].
  destruct (Nat.ltb k (length (n_shims b))).
  - rewrite andb_true_r. split; [|discriminate]. destruct (nth_error (sh_spans w) k) as [s|]; [|discriminate]. cbn in *.
    injection E0 as <-. f_equal. unfold get_baggage. rewrite Proof_Baggage.get_all_set_baggage.
    destruct (str_eqb name0 name) eqn:En.
    + apply str_eqb_eq in En. subst. now rewrite dget_dset_eq.
    + rewrite dget_dset_ne; [reflexivity|]. intros ->. now rewrite str_eqb_refl in En.
  - rewrite andb_false_r. split; [|exact X0]. destruct (nth_error (sh_spans w) k); [discriminate|reflexivity].
Qed.
Theorem items_shown g h k name :
  get_baggage_item (sh_run g h) k name = (if Nat.ltb k (length (n_shims (notes_of h))) then Some (item_of k name h) else None).
Proof.
  unfold item_of, sh_run, Model_Shim.sh_run, notes_of.
  match goal with |- context [fold_left ?f h (notes0, ONone)] => set (F := f) end.
  assert (E : forall h b w x, good b w ->
    get_baggage_item w k name = (if Nat.ltb k (length (n_shims b)) then Some x else None) ->
    (Nat.ltb k (length (n_shims b)) = false -> x = ONone) ->
    get_baggage_item (fold_left sh_step h w) k name
    = (if Nat.ltb k (length (n_shims (fold_left note h b))) then Some (snd (fold_left F h (b, x))) else None)).
  { clear h. induction h as [|o h IH]; intros b w x Hg E X; [exact E|]. cbn [fold_left].
    destruct (items_step k name b w x o Hg E X) as (E' & X'). apply (IH _ _ _ (good_step _ _ _ Hg) E' X'). }
  apply E; [apply good_init| |reflexivity]. cbn. destruct k; reflexivity.
Qed.
End Shim.

(** ** Propagation *)
From Verif Require Import Spec_Context Proof_TraceContext Proof_Baggage Proof_Composite.
Definition ot_members : list (context -> getter -> option context -> context) := [tc_extract_opt; bag_extract_opt].
Lemma bag_keeps_span g c : get_value SPAN_KEY (bag_extract g c) = get_value SPAN_KEY c.
Proof.
  destruct (bag_local (fun _ => [])) as (f & H). destruct (H g c) as (c' & E & _ & K). cbn in E. injection E as <-.
  apply K. discriminate.
Qed.
Lemma shim_extract_default cur f g : supported f = true ->
  shim_extract [tc_extract_opt; bag_extract_opt] cur f g = Ok (current_span_context (tc_extract g [])).
Proof.
  intros Hf. unfold shim_extract. rewrite Hf. cbn [comp_extract_opt fold_left]. unfold tc_extract_opt, bag_extract_opt.
  unfold current_span_context, get_current_span. now rewrite bag_keeps_span.
Qed.
Lemma shim_round_trip py_str cur cur' sc f f' c0 : supported f = true -> supported f' = true ->
  sc_is_valid sc = true -> (0 <= sc_flags sc < 256)%Z -> ts_wf (sc_state sc) -> dget TRACESTATE c0 = None ->
  inj_raised (bag_inject py_str cur) = false ->
  exists w, shim_inject (default_propagators py_str) cur f (Some sc) = Ok (Injected w false)
  /\ shim_extract [tc_extract_opt; bag_extract_opt] cur' f' (default_getter (default_set w c0))
     = Ok (SC (sc_trace_id sc) (sc_span_id sc) true (sc_flags sc) (sc_state sc)).
Proof.
  intros Hf Hf' V Hfl Hwf Hc0 Hb. unfold shim_inject. rewrite Hf.
  set (ctx := set_span_in_context (non_recording sc) cur).
  assert (Hcur : current_span_context ctx = sc) by (unfold ctx; now rewrite context_of_set).
  assert (Hbag : bag_inject py_str ctx = bag_inject py_str cur).
  { unfold bag_inject, get_all, ctx, set_span_in_context. now rewrite get_other by discriminate. }
  assert (Hbw : exists wb, bag_inject py_str cur = Injected wb false /\ forall k v, In (k, v) wb -> k = BAGGAGE).
  { destruct (bag_inject py_str cur) as [wb r] eqn:E. cbn in Hb. subst r. exists wb. split; [reflexivity|].
    intros k v Hin. assert (H : In (k, v) (inj_writes (p_inject (bag_propagator py_str) cur))) by (cbn; now rewrite E).
    apply bag_writes_fields in H. cbn in H. destruct H as [<-|[]]. reflexivity. }
  destruct Hbw as (wb & Ewb & Hwb).
  exists (inj_writes (tc_inject ctx) ++ wb). split.
  - cbn [default_propagators comp_inject p_inject tc_propagator bag_propagator]. rewrite Hbag, Ewb.
    cbn [inj_raised inj_writes]. rewrite app_nil_r. unfold tc_inject. destruct (is_invalid_context _); reflexivity.
  - rewrite shim_extract_default by exact Hf'. f_equal.
    destruct (tc_round_trip_obs ctx sc [] c0 Hcur V Hfl Hwf Hc0) as (H1 & _). rewrite <- H1. f_equal.
    assert (Hsplit : forall k, k <> BAGGAGE ->
      dget k (default_set (inj_writes (tc_inject ctx) ++ wb) c0) = dget k (default_set (inj_writes (tc_inject ctx)) c0)).
    { intros k Hk. unfold default_set. rewrite map_app, dupdate_app. generalize (dupdate c0 (map (fun kv => (fst kv, CStr (snd kv))) (inj_writes (tc_inject ctx)))).
      clear - Hwb Hk. induction wb as [|[k' v] wb IH]; intros d; [reflexivity|]. cbn [map dupdate fold_left fst snd].
      change (dget k (dupdate (dset k' (CStr v) d) (map (fun kv => (fst kv, CStr (snd kv))) wb)) = dget k d).
      rewrite IH by (intros x y Hin; apply (Hwb x y); now right). rewrite dget_dset_ne; [reflexivity|].
      intros ->. apply Hk. apply (Hwb k' v). now left. }
    unfold tc_extract. cbn [g_get default_getter]. rewrite (Hsplit TRACEPARENT), (Hsplit TRACESTATE) by discriminate. reflexivity.
Qed.
