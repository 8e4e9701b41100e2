(** Proofs about logs. *)
From Verif Require Import Spec_Logs Spec_Runtime Proof_Dict Proof_Str Proof_Attr Proof_Span Proof_Runtime.

(** ** Severity *)
Lemma severity_closed n : std_to_otel n = Ok (severity_of_level n).
Proof.
  unfold std_to_otel, severity_of_level.
  destruct (Z.ltb_spec n 10); [reflexivity|]. destruct (Z.ltb_spec 53 n).
  - f_equal. destruct (Z.leb_spec 60 n); [reflexivity|].
    assert (n / 10 = 5)%Z by (symmetry; apply (Z.div_unique n 10 5 (n - 50)); lia).
    pose proof (Z.div_mod n 10 ltac:(lia)). unfold SEV_FATAL4. lia.
  - assert (Hn : exists m : nat, (m < 44)%nat /\ n = (10 + Z.of_nat m)%Z).
    { exists (Z.to_nat (n - 10)). lia. }
    destruct Hn as (m & Hm & ->).
    do 44 (destruct m as [|m]; [vm_compute; reflexivity|]). lia.
Qed.
Lemma severity_monotone n m : (n <= m)%Z -> (severity_of_level n <= severity_of_level m)%Z.
Proof.
  intros H. unfold severity_of_level.
  pose proof (Z.div_mod m 10 ltac:(lia)). pose proof (Z.mod_pos_bound m 10 ltac:(lia)).
  pose proof (Z.div_mod n 10 ltac:(lia)). pose proof (Z.mod_pos_bound n 10 ltac:(lia)).
  destruct (Z.ltb_spec n 10), (Z.ltb_spec m 10), (Z.leb_spec 60 n), (Z.leb_spec 60 m); lia.
Qed.
Lemma severity_range n : (0 <= severity_of_level n <= 24)%Z.
Proof.
  unfold severity_of_level. pose proof (Z.div_mod n 10 ltac:(lia)). pose proof (Z.mod_pos_bound n 10 ltac:(lia)).
  destruct (Z.ltb_spec n 10), (Z.leb_spec 60 n); lia.
Qed.

(** ** Limits *)
Lemma log_limits_spec pylower pyint environ a l :
  let env v := env_source pylower pyint (environ v) in
  let sa := decide [arg_source a; env (lit "OTEL_ATTRIBUTE_COUNT_LIMIT")] in
  let sl := decide [arg_source l; env (lit "OTEL_ATTRIBUTE_VALUE_LENGTH_LIMIT")] in
  log_limits pylower pyint environ a l
  = if match sa, sl with Bad, _ | _, Bad => true | _, _ => false end then Raises "ValueError"
    else Ok (Some (match limit_of sa with Some z => z | None => 128%Z end), limit_of sl).
Proof.
  cbn zeta. unfold log_limits.
  assert (H : forall v k, from_env_if_absent pylower pyint environ v k None =
    match decide [arg_source v; env_source pylower pyint (environ k)] with
    | Bad => Raises "ValueError" | s => Ok (limit_of s) end).
  { intros v k. unfold from_env_if_absent, arg_source, env_source. destruct v as [z|].
    - destruct (Z.eqb z (-1)); [reflexivity|]. destruct (Z.ltb z 0); reflexivity.
    - destruct (environ k) as [s|]; [|reflexivity]. destruct (pylower (strip py_space s)) as [|c t]; [reflexivity|].
      cbn [str_eqb]. change (str_eqb (c :: t) []) with false. cbn iota.
      destruct (pyint (c :: t)) as [z|]; [|reflexivity]. destruct (Z.ltb z 0); reflexivity. }
  rewrite !H.
  destruct (decide [arg_source a; _]); destruct (decide [arg_source l; _]); reflexivity.
Qed.

(** ** Records *)
Lemma new_log_record_keeps now def limits ts ob ti si fl tx sv body res attrs len t x :
  (forall z, fst limits = Some z -> (0 < z)%Z) -> snd limits = zlim len ->
  new_log_record now def limits ts ob ti si fl tx sv body res attrs = Ok x ->
  takes len attrs t -> NoDup (map fst t) ->
  keeps (option_map Z.to_nat (fst limits)) t x.
Proof.
  intros Hp Hl. unfold new_log_record. rewrite Hl. destruct (ba_new (fst limits) attrs false (zlim len)) as [a|] eqn:Ea; [|discriminate].
  cbn [bind_out]. intros [= <-] Ht Hnd. unfold keeps. cbn [lr_attrs lr_dropped].
  pose proof (ba_new_taken _ _ _ _ _ _ Ea Ht) as Hd.
  assert (Hlt : latest t = t).
  { clear -Hnd. induction t as [|[k v] t IH]; [reflexivity|]. cbn in *. apply NoDup_cons_iff in Hnd as [Hk Hn].
    destruct (in_dec eq_dec k (map fst t)); [contradiction|]. now rewrite IH. }
  rewrite Hlt in Hd.
  assert (Hne : fst limits <> Some 0%Z) by (intros E; specialize (Hp _ E); lia).
  pose proof (ba_new_dropped _ _ _ _ _ Hne Ea) as Hc.
  pose proof (taken_det _ _ _ Ht _ (accepted_taken len attrs)) as Hacc. rewrite <- Hacc, Hlt in Hc.
  destruct (fst limits) as [z|] eqn:Ez; cbn [option_map].
  - specialize (Hp _ eq_refl). split; [exact Hd|]. unfold dropped_attributes.
    assert (HL : length (ba_dict a) = Nat.min (Z.to_nat z) (length t)) by (rewrite Hd; apply lastn_length).
    destruct (ba_dict a) as [|kv d].
    + cbn [length] in HL. assert (length t = 0) by lia. lia.
    + lia.
  - split; [exact Hd|]. unfold dropped_attributes. rewrite Hd in Hc |- *. destruct t; [reflexivity|]. lia.
Qed.

(** ** Handler *)
Lemma is_reserved_spec k : is_reserved k = if in_dec str_eq_dec k std_fields then true else false.
Proof.
  unfold is_reserved. destruct (in_dec str_eq_dec k std_fields) as [Hin|Hn].
  - apply existsb_exists. exists k. split; [|apply str_eqb_eq; reflexivity].
    assert (Hsub : incl std_fields RESERVED_ATTRS).
    { assert (Hb : forallb (fun x => if in_dec str_eq_dec x RESERVED_ATTRS then true else false) std_fields = true)
        by (vm_compute; reflexivity).
      intros x Hx. rewrite forallb_forall in Hb. specialize (Hb x Hx).
      destruct (in_dec str_eq_dec x RESERVED_ATTRS); [assumption|discriminate]. }
    now apply Hsub.
  - apply not_true_is_false. intros H. apply existsb_exists in H as (x & Hx & E). apply str_eqb_eq in E. subst x.
    apply Hn.
    assert (Hb : forallb (fun x => if in_dec str_eq_dec x std_fields then true else false) RESERVED_ATTRS = true)
      by (vm_compute; reflexivity).
    rewrite forallb_forall in Hb. specialize (Hb k Hx).
    destruct (in_dec str_eq_dec k std_fields); [assumption|discriminate].
Qed.

Lemma dget_filter_key (f : str -> bool) (d : dict str pyval) k :
  dget k (filter (fun kv => f (fst kv)) d) = if f k then dget k d else None.
Proof.
  induction d as [|[k' v] d IH]; cbn [filter fst]; [destruct (f k); reflexivity|].
  destruct (f k') eqn:E; cbn [dget]; destruct (eq_dec k k') as [->|N]; rewrite ?IH; try reflexivity.
  - now rewrite E.
  - rewrite E. reflexivity.
Qed.
Lemma NoDup_filter_keys (f : str * pyval -> bool) (d : dict str pyval) :
  NoDup (keys d) -> NoDup (keys (filter f d)).
Proof.
  unfold keys. induction d as [|kv d IH]; cbn; [auto|]. intros H. apply NoDup_cons_iff in H as [Hk Hn].
  destruct (f kv); [|now apply IH]. cbn. constructor; [|now apply IH].
  intros Hin. apply Hk. apply in_map_iff in Hin as (x & Ex & Hx). apply filter_In in Hx as [Hx _].
  apply in_map_iff. eauto.
Qed.
Lemma set_opt_dget k v (d : dict str pyval) k' :
  dget k' (set_opt k v d) = if str_eq_dec k' (lit k) then match v with Some s => Some (PStr false s) | None => dget k' d end
                            else dget k' d.
Proof.
  unfold set_opt. destruct v as [s|]; [|destruct (str_eq_dec k' (lit k)); reflexivity].
  destruct (str_eq_dec k' (lit k)) as [->|N]; [apply dget_dset_eq|now apply dget_dset_ne].
Qed.
Lemma set_opt_nodup k v (d : dict str pyval) : NoDup (keys d) -> NoDup (keys (set_opt k v d)).
Proof. unfold set_opt. destruct v; [apply NoDup_dset|auto]. Qed.

Lemma handler_attributes_nodup r : NoDup (keys (sr_vars r)) -> NoDup (keys (handler_attributes r)).
Proof.
  intros H. unfold handler_attributes. cbn zeta.
  assert (H0 : NoDup (keys (dset (lit "code.lineno") (sr_lineno r) (dset (lit "code.function") (sr_funcname r)
    (dset (lit "code.filepath") (sr_pathname r) (filter (fun kv => negb (is_reserved (fst kv))) (sr_vars r))))))).
  { repeat apply NoDup_dset. now apply NoDup_filter_keys. }
  destruct (sr_exc r) as [e|]; [|exact H0]. now repeat apply set_opt_nodup.
Qed.

Lemma dget_dset_if (k k' : str) (v : pyval) (d : dict str pyval) :
  dget k' (dset k v d) = if str_eq_dec k' k then Some v else dget k' d.
Proof. destruct (str_eq_dec k' k) as [->|N]; [apply dget_dset_eq|now apply dget_dset_ne]. Qed.
Lemma str_eqb_dec a b : str_eqb a b = if str_eq_dec a b then true else false.
Proof.
  destruct (str_eq_dec a b) as [->|N]; [apply str_eqb_eq; reflexivity|].
  apply not_true_is_false. intros E. apply str_eqb_eq in E. contradiction.
Qed.

Lemma handler_attributes_spec r k : dget k (handler_attributes r) = shown r k.
Proof.
  unfold handler_attributes, shown. cbn zeta. rewrite !str_eqb_dec.
  assert (Hu : dget k (filter (fun kv => negb (is_reserved (fst kv))) (sr_vars r))
               = if in_dec str_eq_dec k std_fields then None else dget k (sr_vars r)).
  { rewrite (dget_filter_key (fun k => negb (is_reserved k))), is_reserved_spec.
    destruct (in_dec str_eq_dec k std_fields); reflexivity. }
  destruct (sr_exc r) as [e|].
  - rewrite !set_opt_dget, !dget_dset_if, Hu.
    destruct (str_eq_dec k (lit "code.filepath")) as [->|N1]; [vm_compute; reflexivity|].
    destruct (str_eq_dec k (lit "code.function")) as [->|N2]; [vm_compute; reflexivity|].
    destruct (str_eq_dec k (lit "code.lineno")) as [->|N3]; [vm_compute; reflexivity|].
    destruct (str_eq_dec k (lit "exception.type")) as [->|N4].
    { destruct (se_type e); reflexivity. }
    destruct (str_eq_dec k (lit "exception.message")) as [->|N5].
    { destruct (se_message e); reflexivity. }
    destruct (str_eq_dec k (lit "exception.stacktrace")) as [->|N6].
    { destruct (se_trace e); reflexivity. }
    reflexivity.
  - rewrite !dget_dset_if, Hu.
    destruct (str_eq_dec k (lit "code.filepath")) as [->|N1]; [vm_compute; reflexivity|].
    destruct (str_eq_dec k (lit "code.function")) as [->|N2]; [vm_compute; reflexivity|].
    destruct (str_eq_dec k (lit "code.lineno")) as [->|N3]; [vm_compute; reflexivity|].
    destruct (str_eq_dec k (lit "exception.type")); [reflexivity|].
    destruct (str_eq_dec k (lit "exception.message")); [reflexivity|].
    destruct (str_eq_dec k (lit "exception.stacktrace")); reflexivity.
Qed.

Lemma takes_as_arg_nodup len (d : dict str pyval) t : NoDup (keys d) -> takes len (as_arg d) t -> NoDup (map fst t).
Proof.
  intros Hd Ht.
  assert (Hs : forall d t, takes len (as_arg d) t -> incl (map fst t) (keys d)).
  { clear. induction d as [|[k v] d IH]; intros t Ht; cbn [as_arg map] in Ht; inversion Ht; subst; cbn.
    - intros x [].
    - intros x [<-|Hx]; [now left|]. right. apply (IH l); assumption.
    - intros x Hx. right. apply (IH t); assumption. }
  revert t Ht. induction d as [|[k v] d IH]; intros t Ht; cbn [as_arg map fst snd] in Ht; inversion Ht; subst; cbn.
  - constructor.
  - apply NoDup_cons_iff in Hd as [Hk Hn]. constructor; [|now apply IH].
    intros Hin. apply Hk. apply (Hs d l H6). exact Hin.
  - apply NoDup_cons_iff in Hd as [Hk Hn]. now apply IH.
Qed.

Lemma body_of_spec format r : body_spec format r (body_of format r).
Proof.
  unfold body_of. destruct format as [f|]; [now apply bs_format|].
  destruct (sr_has_args r) eqn:Ea.
  - apply bs_message; auto.
  - destruct (sr_msg r) eqn:Em; try (rewrite <- Em; apply bs_object; [reflexivity|assumption|rewrite Em; discriminate]).
    apply bs_message; [reflexivity|right; eauto].
Qed.

Lemma handler_emit_spec format now ctx res sc r :
  NoDup (keys (sr_vars r)) ->
  exists x raw,
    handler_emit format now ctx (LSdk res sc) r = Ok (Some (LogData x (Some sc)))
    /\ lr_time x = Some (sr_created r) /\ lr_observed x = Some now
    /\ lr_trace_id x = Some (sc_trace_id (current_span_context ctx))
    /\ lr_span_id x = Some (sc_span_id (current_span_context ctx))
    /\ lr_flags x = Some (sc_flags (current_span_context ctx))
    /\ lr_severity x = Some (severity_of_level (sr_levelno r))
    /\ lr_severity_text x = Some (if str_eq_dec (sr_levelname r) (lit "WARNING") then lit "WARN" else sr_levelname r)
    /\ body_spec format r (lr_body x)
    /\ lr_resource x = res
    /\ NoDup (keys raw) /\ (forall k, dget k raw = shown r k)
    /\ forall t, takes None (as_arg raw) t -> keeps (Some (Z.to_nat 128)) t x.
Proof.
  intros Hn. unfold handler_emit, translate. rewrite severity_closed. cbn [bind_out].
  destruct (ba_new (Some 128%Z) (as_arg (handler_attributes r)) false None) as [a|] eqn:Ea; [|discriminate Ea].
  unfold new_log_record. cbn [fst snd UNSET_LOG_LIMITS]. rewrite Ea. cbn [bind_out].
  eexists _, (handler_attributes r). split; [reflexivity|]. cbn [lr_time lr_observed lr_trace_id lr_span_id lr_flags lr_severity lr_severity_text lr_body lr_resource].
  do 6 (split; [reflexivity|]). split; [now rewrite str_eqb_dec; destruct (str_eq_dec (sr_levelname r) (lit "WARNING"))|].
  split; [apply body_of_spec|]. split; [reflexivity|].
  split; [now apply handler_attributes_nodup|]. split; [apply handler_attributes_spec|].
  intros t Ht.
  eapply (new_log_record_keeps now res UNSET_LOG_LIMITS (Some (sr_created r)) (Some now)) with (len := None) (attrs := as_arg (handler_attributes r)) (res := Some res).
  - intros z [= <-]. lia.
  - reflexivity.
  - unfold new_log_record. cbn [fst snd UNSET_LOG_LIMITS]. rewrite Ea. cbn [bind_out]. reflexivity.
  - exact Ht.
  - eapply takes_as_arg_nodup; [|exact Ht]. now apply handler_attributes_nodup.
Qed.

(** ** Loggers *)
Lemma scope_describes a : names_scope a (scope_of_args a).
Proof.
  unfold names_scope, scope_of_args. cbn [sco_name sco_version sco_schema sco_attrs]. repeat (split; [reflexivity|]).
  intros t Ht. destruct (ba_new None _ true None) as [b|] eqn:Eb; [|discriminate Eb].
  exact (ba_new_taken None _ true None b t Eb Ht).
Qed.

(** Invariant of a provider that is not disabled, with the arguments of the logger each number was made for. *)
Record lp_ok (p : lprovider) (who : list logger_args) : Prop := {
  ok_en : lp_disabled p = false;
  ok_made : lp_made p = map scope_of_args who;
  ok_cache : forall n v s i, dget (n, v, s) (lp_cache p) = Some i <-> nth_error who i = Some (LArgs n v s None) }.

Lemma get_logger_ok p who a : lp_ok p who ->
  exists p' who' n, get_logger p a = (p', Some n) /\ lp_ok p' (who ++ who')
    /\ nth_error (who ++ who') n = Some a
    /\ ((who' = [] /\ plain a /\ nth_error who n = Some a)
        \/ (who' = [a] /\ n = length who /\ (plain a -> ~ In a who))).
Proof.
  intros H. unfold get_logger. rewrite (ok_en _ _ H). destruct a as [n v s [l|]]; cbn [la_attrs].
  - unfold get_logger_no_cache. eexists _, [_], _. split; [reflexivity|].
    rewrite (ok_made _ _ H), map_length.
    assert (Hnth : nth_error (who ++ [LArgs n v s (Some l)]) (length who) = Some (LArgs n v s (Some l))).
    { rewrite nth_error_app2 by lia. now rewrite Nat.sub_diag. }
    split; [|split; [exact Hnth|right; repeat split; intros [=]]].
    constructor; cbn [lp_disabled lp_made lp_cache].
    + apply (ok_en _ _ H).
    + now rewrite map_app.
    + intros n' v' s' i. rewrite (ok_cache _ _ H). split; intros E.
      * rewrite nth_error_app1; [exact E|]. apply nth_error_Some. congruence.
      * destruct (Nat.lt_ge_cases i (length who)); [now rewrite nth_error_app1 in E|].
        rewrite nth_error_app2 in E by lia. destruct (i - length who) as [|m]; [cbn in E; discriminate|].
        cbn in E. destruct m; discriminate.
  - unfold get_logger_cached. cbn [la_name la_version la_schema].
    destruct (dget (n, v, s) (lp_cache p)) as [i|] eqn:Ec.
    + eexists _, [], _. split; [reflexivity|]. rewrite app_nil_r. split; [exact H|].
      apply (ok_cache _ _ H) in Ec. split; [exact Ec|]. left. repeat split. exact Ec.
    + unfold get_logger_no_cache. eexists _, [_], _. split; [reflexivity|].
      rewrite (ok_made _ _ H), map_length. cbn [lp_disabled lp_cache lp_made].
      assert (Hnin : ~ In (LArgs n v s None) who).
      { intros Hin. apply In_nth_error in Hin as (i & Ei). apply (ok_cache _ _ H) in Ei. congruence. }
      assert (Hnth : nth_error (who ++ [LArgs n v s None]) (length who) = Some (LArgs n v s None)).
      { rewrite nth_error_app2 by lia. now rewrite Nat.sub_diag. }
      split; [|split; [exact Hnth|right; repeat split; intros _; exact Hnin]].
      constructor; cbn [lp_disabled lp_made lp_cache].
      * apply (ok_en _ _ H).
      * now rewrite map_app.
      * intros n' v' s' i. destruct (eq_dec ((n', v', s') : logger_key) (n, v, s)) as [E|N].
        -- injection E as -> -> ->. rewrite dget_dset_eq. split.
           ++ intros [= <-]. exact Hnth.
           ++ intros E. f_equal. destruct (Nat.lt_ge_cases i (length who)).
              ** rewrite nth_error_app1 in E by lia. apply nth_error_In in E. contradiction.
              ** assert (i < length (who ++ [LArgs n v s None])) by (apply nth_error_Some; congruence).
                 rewrite app_length in *. cbn in *. lia.
        -- rewrite dget_dset_ne by exact N. rewrite (ok_cache _ _ H). split; intros E.
           ++ rewrite nth_error_app1; [exact E|]. apply nth_error_Some. congruence.
           ++ destruct (Nat.lt_ge_cases i (length who)); [now rewrite nth_error_app1 in E|].
              rewrite nth_error_app2 in E by lia. destruct (i - length who) as [|m]; [cbn in E; congruence|].
              cbn in E. destruct m; discriminate.
Qed.

(** Numbers below [length who] belong to earlier loggers. *)
Lemma get_loggers_ok calls : forall p who, lp_ok p who ->
  exists p' who' rs, get_loggers p calls = (p', map Some rs) /\ lp_ok p' (who ++ who')
    /\ length rs = length calls
    /\ (forall i a, nth_error calls i = Some a -> exists n, nth_error rs i = Some n /\ nth_error (who ++ who') n = Some a)
    /\ (forall i a n, nth_error calls i = Some a -> nth_error rs i = Some n ->
          (n < length who \/ exists j, j < i /\ nth_error rs j = Some n) -> plain a)
    /\ (forall i j a n n', nth_error calls i = Some a -> plain a -> nth_error rs i = Some n ->
          (nth_error who n' = Some a \/ (nth_error calls j = Some a /\ nth_error rs j = Some n')) -> n = n').
Proof.
  induction calls as [|a calls IH]; intros p who H.
  - exists p, [], []. rewrite app_nil_r. cbn. split; [reflexivity|]. split; [exact H|]. split; [reflexivity|].
    repeat split; intros [|i]; intros; discriminate.
  - destruct (get_logger_ok p who a H) as (p1 & w1 & n & E1 & H1 & Hn & Hcase).
    destruct (IH p1 (who ++ w1) H1) as (p' & w' & rs & E2 & H2 & Hlen & Hfind & Hfresh & Hsame).
    exists p', (w1 ++ w'), (n :: rs). cbn [get_loggers]. rewrite E1, E2. rewrite app_assoc.
    split; [reflexivity|]. split; [exact H2|]. split; [cbn; lia|].
    assert (Hle : n < length (who ++ w1)) by (apply nth_error_Some; congruence).
    repeat split.
    + intros [|i] b; cbn [nth_error].
      * intros [= <-]. exists n. split; [reflexivity|]. rewrite nth_error_app1 by exact Hle. exact Hn.
      * apply Hfind.
    + intros [|i] b m; cbn [nth_error].
      * intros [= <-] [= <-] [Hlt|(j & Hj & _)]; [|lia].
        destruct Hcase as [(_ & Hp & _)|(_ & -> & _)]; [exact Hp|lia].
      * intros Eb Em Hd. apply (Hfresh i b m Eb Em). destruct Hd as [Hlt|([|j] & Hj & Ej)].
        -- left. rewrite app_length. lia.
        -- cbn in Ej. injection Ej as <-. left. exact Hle.
        -- right. exists j. split; [lia|exact Ej].
    + assert (Ha : forall n', nth_error (who ++ w1) n' = Some a -> plain a -> n = n').
      { intros n' E' Hp. destruct a as [nm v s l]. unfold plain in Hp. cbn in Hp. subst l.
        apply (ok_cache _ _ H1) in Hn. apply (ok_cache _ _ H1) in E'. congruence. }
      intros [|i] j b m m'; cbn [nth_error].
      * intros [= <-] Hp [= <-] [Hw|[Ej Er]].
        -- apply Ha; [|exact Hp]. rewrite nth_error_app1; [exact Hw|]. apply nth_error_Some. congruence.
        -- destruct j as [|j]; cbn in Ej, Er; [congruence|].
           symmetry. apply (Hsame j 0 a m' n Ej Hp Er). left. exact Hn.
      * intros Eb Hp Em [Hw|[Ej Er]].
        -- apply (Hsame i 0 b m m' Eb Hp Em). left. rewrite nth_error_app1; [exact Hw|]. apply nth_error_Some. congruence.
        -- destruct j as [|j]; cbn in Ej, Er.
           ++ injection Ej as <-. injection Er as <-. apply (Hsame i 0 a m n Eb Hp Em). left. exact Hn.
           ++ apply (Hsame i j b m m' Eb Hp Em). right. auto.
Qed.

Lemma lp_new_ok : lp_ok (lp_new false) [].
Proof.
  constructor; [reflexivity|reflexivity|]. intros n v s i. cbn. split; [discriminate|]. destruct i; discriminate.
Qed.

Lemma get_loggers_scopes calls :
  let (p, rs) := get_loggers (lp_new false) calls in
  length rs = length calls
  /\ forall i a, nth_error calls i = Some a ->
       exists n s, nth_error rs i = Some (Some n) /\ nth_error (lp_made p) n = Some s /\ names_scope a s.
Proof.
  destruct (get_loggers_ok calls _ _ lp_new_ok) as (p & w & rs & E & Hok & Hlen & Hf & _).
  rewrite E. split; [now rewrite map_length|]. intros i a Ea. destruct (Hf i a Ea) as (n & En & Ew).
  exists n, (scope_of_args a). rewrite (map_nth_error Some _ _ En). split; [reflexivity|].
  rewrite (ok_made _ _ Hok). split; [now apply map_nth_error|apply scope_describes].
Qed.
Lemma map_some_nth (rs : list nat) i n : nth_error (map Some rs) i = Some (Some n) -> nth_error rs i = Some n.
Proof.
  revert i. induction rs as [|r rs IH]; intros [|i]; cbn; try discriminate; [congruence|apply IH].
Qed.
Lemma get_loggers_identity calls i j a b n m :
  let rs := snd (get_loggers (lp_new false) calls) in
  i <> j -> nth_error calls i = Some a -> nth_error calls j = Some b ->
  nth_error rs i = Some (Some n) -> nth_error rs j = Some (Some m) ->
  (n = m <-> same_logger a b).
Proof.
  destruct (get_loggers_ok calls _ _ lp_new_ok) as (p & w & rs & E & Hok & Hlen & Hf & Hfr & Hs).
  rewrite E. cbn zeta. cbn [snd]. intros Hij Ea Eb En Em. apply map_some_nth in En. apply map_some_nth in Em.
  split.
  - intros <-. assert (Hpl : plain a /\ a = b).
    { destruct (Hf i a Ea) as (n1 & E1 & W1). destruct (Hf j b Eb) as (n2 & E2 & W2).
      assert (n1 = n) by congruence. assert (n2 = n) by congruence. subst n1 n2.
      assert (a = b) by congruence. subst b. split; [|reflexivity].
      destruct (Nat.lt_ge_cases i j).
      - apply (Hfr j a n Eb Em). right. exists i. auto.
      - apply (Hfr i a n Ea En). right. exists j. split; [lia|auto]. }
    destruct Hpl as [Hp <-]. unfold same_logger. auto.
  - intros (Pa & Pb & N & V & Sc). assert (a = b).
    { destruct a, b. unfold plain in *. cbn in *. congruence. }
    subst b. apply (Hs i j a n m Ea Pa En). right. auto.
Qed.
Lemma get_loggers_disabled calls :
  get_loggers (lp_new true) calls = (lp_new true, map (fun _ => None) calls).
Proof. induction calls as [|a l IH]; [reflexivity|]. cbn [get_loggers]. unfold get_logger. cbn. now rewrite IH. Qed.

(** ** The simple processor *)
Section SimpleLogP.
Variable item : Type.
Notation X := (list (xcall item)).
Variable export : list item -> runtime -> X -> runtime * X * outcome.
Variable xshutdown : X -> X * outcome.
Variable u : nat.
Hypothesis Hlog : forall b s log, snd (fst (export b s log)) = log ++ [XExport b].
Hypothesis Hexc : forall b s log e, snd (export b s log) = Raised e -> ex_error e = true.
Hypothesis Hctx : forall b s log, nested u s (fst (fst (export b s log))).
Hypothesis Hshut : forall log, fst (xshutdown log) = log ++ [XShutdown].
Notation run := (sl_run X item export xshutdown u).

Lemma emit_step x s log :
  exists r', simple_on_end X item (fun _ => true) export u x s log = (r', log ++ [XExport [x]], Returned)
    /\ get_current u r' = get_current u s.
Proof.
  unfold simple_on_end. cbn [negb].
  destruct (attach u (set_value SUPPRESS_KEY OTrue (get_current u s)) s) as [s1 tok] eqn:Ea.
  specialize (Hlog [x] s1 log). specialize (Hexc [x] s1 log). specialize (Hctx [x] s1 log).
  destruct (export [x] s1 log) as [[s2 l2] o2]. cbn in Hlog, Hexc, Hctx. subst l2.
  assert (Hn : get_current u (detach u tok s2) = get_current u s).
  { apply nested_restores. apply (nest_block u s (set_value SUPPRESS_KEY OTrue (get_current u s)) s2); rewrite Ea; cbn [fst snd].
    - exact Hctx.
    - constructor. }
  destruct o2 as [|e]; [eauto|]. rewrite (Hexc e eq_refl). eauto.
Qed.

Lemma sl_run_down ops : forall s log,
  let (st, outs) := run (SL true s log) ops in
  sl_exp st = log ++ repeat XShutdown (shutdowns ops) /\ sl_rt st = s
  /\ sl_down st = true
  /\ Forall2 (fun o r => match o with SLShutdown => True | _ => r = Returned end) ops outs.
Proof.
  induction ops as [|o ops IH]; intros s log; cbn [sl_run].
  - cbn. rewrite app_nil_r. repeat split; auto.
  - destruct o as [x| |]; cbn [sl_step].
    + cbn [sl_down]. specialize (IH s log). destruct (run (SL true s log) ops) as [st outs].
      destruct IH as (A & B & D & E). repeat split; auto.
    + pose proof (Hshut log) as Hl1. cbn [sl_exp sl_rt]. destruct (xshutdown log) as [l1 o1]. cbn in Hl1. subst l1.
      specialize (IH s (log ++ [XShutdown])). destruct (run _ ops) as [st outs].
      destruct IH as (A & B & D & E). split; [|repeat split; auto].
      rewrite A, <- app_assoc. reflexivity.
    + cbn [sl_down]. specialize (IH s log). destruct (run (SL true s log) ops) as [st outs].
      destruct IH as (A & B & D & E). repeat split; auto.
Qed.
Lemma sl_run_spec ops : forall s log,
  let (st, outs) := run (SL false s log) ops in
  sl_exp st = log ++ map (fun x => XExport [x]) (emitted (before_shutdown ops)) ++ repeat XShutdown (shutdowns ops)
  /\ get_current u (sl_rt st) = get_current u s
  /\ Forall2 (fun o r => match o with SLShutdown => True | _ => r = Returned end) ops outs.
Proof.
  induction ops as [|o ops IH]; intros s log; cbn [sl_run].
  - cbn. rewrite app_nil_r. auto.
  - destruct o as [x| |]; cbn [sl_step].
    + cbn [sl_down sl_rt sl_exp]. destruct (emit_step x s log) as (r' & -> & Hr).
      specialize (IH r' (log ++ [XExport [x]])). destruct (run (SL false r' _) ops) as [st outs].
      destruct IH as (A & B & C). split; [|split; [congruence|auto]].
      rewrite A, <- app_assoc. reflexivity.
    + pose proof (Hshut log) as Hl1. cbn [sl_exp sl_rt]. destruct (xshutdown log) as [l1 o1]. cbn in Hl1. subst l1.
      pose proof (sl_run_down ops s (log ++ [XShutdown])) as Hd. destruct (run _ ops) as [st outs].
      destruct Hd as (A & B & D & E). split; [|split; [congruence|auto]].
      rewrite A, <- app_assoc. reflexivity.
    + cbn [sl_down]. specialize (IH s log). destruct (run (SL false s log) ops) as [st outs].
      destruct IH as (A & B & C). repeat split; auto.
Qed.
End SimpleLogP.

(** ** Events *)
Lemma dget_last_app (d : dict str pyval) k v : ~ In k (keys d) -> dget k (d ++ [(k, v)]) = Some v.
Proof.
  induction d as [|[k' v'] d IH]; cbn; intros H.
  - destruct (eq_dec k k); [reflexivity|congruence].
  - destruct (eq_dec k k') as [->|N]; [tauto|]. apply IH. tauto.
Qed.
Lemma lastn_snoc_last {A} n (l : list A) x : 0 < n -> exists l', lastn n (l ++ [x]) = l' ++ [x] /\ incl l' l.
Proof.
  intros H. unfold lastn. rewrite app_length. cbn [length].
  exists (skipn (length l + 1 - n) l). split.
  - rewrite skipn_app. f_equal. replace (length l + 1 - n - length l) with 0 by lia. reflexivity.
  - intros y Hy. rewrite <- (firstn_skipn (length l + 1 - n) l). apply in_app_iff. now right.
Qed.

Lemma event_emit_spec now now2 ctx def res sc name time tid sid flags body sev attrs :
  match attrs with Some d => NoDup (keys d) | None => True end ->
  let e := new_event name time tid sid flags body sev attrs in
  exists x raw,
    event_emit now now2 ctx def (LSdk res sc) e = Ok (Some (LogData x (Some sc)))
    /\ lr_time x = Some (match time with Some z => if Z.eq_dec z 0 then now else z | None => now end)
    /\ lr_observed x = Some now2
    /\ lr_trace_id x = Some (match tid with Some z => if Z.eq_dec z 0 then sc_trace_id (current_span_context ctx) else z
                                          | None => sc_trace_id (current_span_context ctx) end)
    /\ lr_span_id x = Some (match sid with Some z => if Z.eq_dec z 0 then sc_span_id (current_span_context ctx) else z
                                         | None => sc_span_id (current_span_context ctx) end)
    /\ lr_flags x = Some (match flags with Some z => if Z.eq_dec z 0 then sc_flags (current_span_context ctx) else z
                                         | None => sc_flags (current_span_context ctx) end)
    /\ lr_severity x = Some (match sev with Some z => z | None => 9%Z end)
    /\ lr_severity_text x = None /\ lr_body x = body /\ lr_resource x = res
    /\ NoDup (keys raw)
    /\ dget (lit "event.name") raw = Some (PStr false name)
    /\ (forall k, k <> lit "event.name" -> dget k raw = match attrs with Some d => dget k d | None => None end)
    /\ (forall t, takes None (as_arg raw) t -> keeps (Some (Z.to_nat 128)) t x)
    /\ (match attrs with Some d => ~ In (lit "event.name") (keys d) | None => True end ->
        dget (lit "event.name") (lr_attrs x) = Some (PStr false name)).
Proof.
  intros Hnd e. subst e. unfold event_emit, new_event. cbn [evt_time evt_trace_id evt_span_id evt_flags evt_severity evt_body evt_attrs].
  set (d0 := match attrs with Some d => d | None => [] end).
  assert (Hd0 : NoDup (keys d0)) by (destruct attrs; [exact Hnd|constructor]).
  set (raw := dset (lit "event.name") (PStr false name) d0).
  assert (Hraw : NoDup (keys raw)) by now apply NoDup_dset.
  destruct (ba_new (Some 128%Z) (as_arg raw) false None) as [a|] eqn:Ea; [|discriminate Ea].
  unfold new_log_record. cbn [fst snd UNSET_LOG_LIMITS]. rewrite Ea. cbn [bind_out].
  eexists _, raw. split; [reflexivity|]. cbn [lr_time lr_observed lr_trace_id lr_span_id lr_flags lr_severity lr_severity_text lr_body lr_resource lr_attrs].
  assert (Hor : forall (z : option Z) y, or_z z y = match z with Some z => if Z.eq_dec z 0 then y else z | None => y end).
  { intros [z|] y; [|reflexivity]. cbn. destruct (Z.eqb_spec z 0), (Z.eq_dec z 0); congruence. }
  rewrite !Hor. do 9 (split; [reflexivity|]). split; [exact Hraw|].
  split; [apply dget_dset_eq|]. split.
  { intros k Hk. unfold raw. rewrite dget_dset_ne by exact Hk. subst d0. destruct attrs; reflexivity. }
  split.
  - intros t Ht. eapply (new_log_record_keeps now2 def UNSET_LOG_LIMITS) with (len := None) (attrs := as_arg raw) (ob := Some now2) (res := Some res).
    + intros z [= <-]. lia.
    + reflexivity.
    + unfold new_log_record. cbn [fst snd UNSET_LOG_LIMITS]. rewrite Ea. cbn [bind_out]. reflexivity.
    + exact Ht.
    + eapply takes_as_arg_nodup; [exact Hraw|exact Ht].
  - intros Hnot. assert (Hn : ~ In (lit "event.name") (keys d0)) by (subst d0; destruct attrs; [exact Hnot|intros []]).
    pose proof (ba_new_taken (Some 128%Z) _ false None a _ Ea (accepted_taken None (as_arg raw))) as Hd.
    rewrite Hd. unfold raw. unfold zlim. cbn [option_map].
    assert (Hacc : accepted None (as_arg (dset (lit "event.name") (PStr false name) d0))
                   = accepted None (as_arg d0) ++ [(lit "event.name", PStr false name)]).
    { rewrite (keys_dset_new d0 _ _ Hn). unfold as_arg, accepted. rewrite map_app, flat_map_app. reflexivity. }
    rewrite Hacc, latest_snoc.
    assert (Hni : ~ In (lit "event.name") (keys (latest (accepted None (as_arg d0))))).
    { intros Hin. apply Hn.
      assert (Hs : forall (l : list (str * pyval)), incl (latest l) l).
      { clear. induction l as [|[k v] l IH]; cbn [latest]; [intros x []|]. destruct (in_dec eq_dec k (map fst l)).
        - intros x Hx. right. now apply IH.
        - intros x [<-|Hx]; [now left|right; now apply IH]. }
      apply in_map_iff in Hin as ([k v] & Ek & Hin). cbn in Ek. subst k. apply Hs in Hin.
      unfold accepted in Hin. apply in_flat_map in Hin as ([kk vv] & Hin1 & Hin2).
      unfold as_arg in Hin1. apply in_map_iff in Hin1 as ([k' v'] & E' & Hin1). injection E' as <- <-. cbn [fst snd] in Hin2.
      destruct k' as [|c k']; cbn [valid_key] in Hin2; [destruct Hin2|].
      destruct (clean_attribute (PStr false (c :: k')) v' None); [|destruct Hin2].
      destruct Hin2 as [E|[]]. pose proof (f_equal fst E) as Ek. cbn [fst] in Ek. rewrite Ek in Hin1.
      apply in_map_iff. exists (lit "event.name", v'). split; [reflexivity|exact Hin1]. }
    rewrite ddel_notin by exact Hni.
    destruct (lastn_snoc_last (Z.to_nat 128) (latest (accepted None (as_arg d0))) (lit "event.name", PStr false name)) as (l' & -> & Hl'); [lia|].
    apply dget_last_app. intros Hin. apply Hni. apply in_map_iff in Hin as (y & Ey & Hy). apply in_map_iff. exists y.
    split; [exact Ey|now apply Hl'].
Qed.
