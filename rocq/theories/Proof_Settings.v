(** Proofs about the settings. *)
From Verif Require Import Proof_Str Proof_Dict Proof_Provider Model_Settings Spec_Settings.
Local Open Scope Z_scope.

Section Int.
Variable nd : N -> option N.
Variable lim : option Z.
Hypothesis nd_not_blank : forall c d, nd c = Some d -> int_space c = false.

Lemma digit10_iff c d : digit10 nd c = Some d <-> is_decimal nd c d.
Proof.
  unfold digit10, is_decimal, is_digit. destruct (N.ltb_spec c 128).
  - destruct (in_range 48 57 c) eqn:R.
    + apply in_range_iff in R. split; [intros [= <-]; left; split; [exact R|reflexivity]|intros [[_ ->]|[? _]]; [reflexivity|lia]].
    + split; [discriminate|]. intros [[R' _]|[? _]]; [|lia]. apply in_range_iff in R'. congruence.
  - split; [intros E; right; split; [lia|exact E]|intros [[? _]|[_ E]]; [lia|exact E]].
Qed.
Lemma decimal_not_blank c d : is_decimal nd c d -> int_space c = false.
Proof.
  intros [[R _]|[_ E]]; [|exact (nd_not_blank _ _ E)]. unfold int_space, in_range. repeat rewrite ?Bool.orb_false_iff, ?Bool.andb_false_iff, ?N.leb_gt, ?N.eqb_neq. lia.
Qed.
Lemma decimal_low c d : is_decimal nd c d -> c <> 95%N /\ c <> 43%N /\ c <> 45%N.
Proof. intros [[R _]|[R _]]; lia. Qed.

Lemma numeral_ends p n v : numeral nd p n v ->
  (exists c d r, p = c :: r /\ is_decimal nd c d) /\ (exists c d r, p = r ++ [c] /\ is_decimal nd c d).
Proof.
  induction 1 as [c d D|s n z c d _ [(c1 & d1 & r1 & -> & D1) _] D|s n z c d _ [(c1 & d1 & r1 & -> & D1) _] D].
  - split; [exists c, d, []; auto|exists c, d, []; auto].
  - split; [exists c1, d1, (r1 ++ [c]); auto|exists c, d, (c1 :: r1); auto].
  - split; [exists c1, d1, (r1 ++ [95%N; c]); auto|]. exists c, d, ((c1 :: r1) ++ [95%N]). split; [|exact D]. now rewrite <- app_assoc.
Qed.
Definition over (n : Z) : bool := match lim with Some m => m <? n | None => false end.
Lemma over_within n : over n = false <-> within lim n.
Proof. unfold over, within. destruct lim; [rewrite Z.ltb_ge; lia|tauto]. Qed.

Lemma dec_digits_complete p n v : numeral nd p n v -> forall s, dec_digits nd lim (p ++ s) false 0 0 = dec_digits nd lim s false n v.
Proof.
  induction 1 as [c d D|p n z c d _ IH D|p n z c d _ IH D]; intros s.
  - cbn [app dec_digits]. rewrite (proj2 (digit10_iff c d) D). reflexivity.
  - rewrite <- app_assoc, IH. cbn [app dec_digits]. now rewrite (proj2 (digit10_iff c d) D).
  - rewrite <- app_assoc, IH. cbn [app dec_digits]. rewrite (proj2 (digit10_iff c d) D).
    destruct (digit10 nd 95) as [x|] eqn:E; [|reflexivity]. apply digit10_iff in E. apply decimal_low in E. lia.
Qed.
Lemma dec_digits_sound : forall s p n v us z, numeral nd p n v -> dec_digits nd lim s us n v = Some z ->
  exists n', numeral nd (p ++ (if us then [95%N] else []) ++ s) n' z /\ within lim n'.
Proof.
  induction s as [|c s IH]; intros p n v us z P E; cbn [dec_digits] in E.
  - destruct us; [discriminate|]. fold (over n) in E. destruct (over n) eqn:O; [discriminate|]. injection E as <-.
    exists n. rewrite !app_nil_r. split; [exact P|now apply over_within].
  - destruct (digit10 nd c) as [d|] eqn:D.
    + apply digit10_iff in D. destruct us.
      * destruct (IH _ _ _ _ _ (num_underscore nd _ _ _ _ _ P D) E) as (n' & N & W). exists n'. rewrite <- app_assoc in N. cbn [app] in N |- *. auto.
      * destruct (IH _ _ _ _ _ (num_next nd _ _ _ _ _ P D) E) as (n' & N & W). exists n'. rewrite <- app_assoc in N. cbn [app] in N |- *. auto.
    + destruct (N.eqb_spec c 95); [|discriminate]. destruct us; [discriminate|]. subst c. cbn in E.
      destruct (IH _ _ _ _ _ P E) as (n' & N & W). exists n'. cbn [app] in N |- *. auto.
Qed.
Lemma dec_body_iff s z : dec_body nd lim s = Some z <-> exists n, numeral nd s n z /\ within lim n.
Proof.
  split.
  - destruct s as [|c s]; [discriminate|]. cbn [dec_body]. destruct (N.eqb_spec c 95); [discriminate|]. cbn [dec_digits].
    destruct (digit10 nd c) as [d|] eqn:D.
    + apply digit10_iff in D. intros E. apply (dec_digits_sound s [c] 1 (Z.of_N d) false z (num_one nd _ _ D) E).
    + destruct (N.eqb_spec c 95); [congruence|discriminate].
  - intros (n & N & W). pose proof (dec_digits_complete _ _ _ N []) as E. rewrite app_nil_r in E. cbn [dec_digits] in E. fold (over n) in E.
    rewrite (proj2 (over_within n) W) in E. destruct (numeral_ends _ _ _ N) as [(c & d & r & -> & D) _].
    unfold dec_body. apply decimal_low in D. destruct (N.eqb_spec c 95); [lia|exact E].
Qed.

Lemma Forall_forallb (p : N -> bool) l : Forall (fun c => p c = true) l <-> forallb p l = true.
Proof. rewrite forallb_forall, Forall_forall. reflexivity. Qed.
(** The text between the blanks *)
Lemma strip_iff s m : m <> [] -> (strip int_space s = m <->
  exists b a, s = b ++ m ++ a /\ forallb int_space b = true /\ forallb int_space a = true
    /\ (exists c r, m = c :: r /\ int_space c = false) /\ (exists c r, m = r ++ [c] /\ int_space c = false)).
Proof.
  intros M. split.
  - unfold strip. intros <-. destruct (lstrip_decomp int_space s) as (b & Eb & Hb). destruct (rstrip_decomp int_space (lstrip int_space s)) as (a & Ea & Ha).
    exists b, a. split; [rewrite <- Ea; exact Eb|]. split; [exact Hb|]. split; [exact Ha|].
    destruct (lstrip_result int_space s) as [E|(c & t & E & Hc)]; [rewrite E in M; elim M; reflexivity|]. rewrite E in *. split.
    + destruct (rstrip int_space (c :: t)) as [|x y] eqn:R; [elim M; reflexivity|]. cbn in Ea. injection Ea as <- _. exists c, y. auto.
    + clear - M. unfold rstrip in *. destruct (lstrip_result int_space (rev (c :: t))) as [E|(x & y & E & Hx)]; rewrite E in *; [elim M; reflexivity|].
      exists x, (rev y). split; [reflexivity|exact Hx].
  - intros (b & a & -> & Hb & Ha & (c & r & Ec & Hc) & (c' & r' & Ec' & Hc')). unfold strip. rewrite lstrip_app by exact Hb.
    rewrite Ec at 1. cbn [app]. rewrite lstrip_hd by exact Hc. change (c :: r ++ a) with ((c :: r) ++ a). rewrite <- Ec.
    rewrite rstrip_app by exact Ha. rewrite Ec'. now apply rstrip_snoc.
Qed.

Lemma py_int_iff s z : py_int nd lim s = Some z <-> integer_text nd lim s z.
Proof.
  split.
  - unfold py_int. destruct (strip int_space s) as [|c r] eqn:E; [discriminate|]. intros P.
    apply strip_iff in E; [|discriminate]. destruct E as (b & a & -> & Hb & Ha & _ & _). apply Forall_forallb in Hb, Ha.
    destruct (N.eqb_spec c 45) as [->|C1]; [|destruct (N.eqb_spec c 43) as [->|C2]].
    + destruct (dec_body nd lim r) as [v|] eqn:D; [|discriminate]. injection P as <-. apply dec_body_iff in D. destruct D as (n & N & W).
      exists b, (lit "-"), r, a, n, v. repeat split; auto.
    + apply dec_body_iff in P. destruct P as (n & N & W). exists b, (lit "+"), r, a, n, z. repeat split; auto.
    + apply dec_body_iff in P. destruct P as (n' & N & W). exists b, [], (c :: r), a, n', z. repeat split; auto.
  - intros (b & g & m & a & n & v & -> & Hb & Ha & N & W & S). apply Forall_forallb in Hb, Ha.
    destruct (numeral_ends _ _ _ N) as [(c & d & r & Em & D) (c' & d' & r' & Em' & D')].
    pose proof (decimal_not_blank _ _ D) as B. pose proof (decimal_not_blank _ _ D') as B'.
    pose proof (proj2 (dec_body_iff m v) (ex_intro _ n (conj N W))) as DB. pose proof (decimal_low _ _ D) as (L1 & L2 & L3).
    assert (X : forall g, (g = [] \/ exists x, g = [x] /\ int_space x = false) -> strip int_space (b ++ g ++ m ++ a) = g ++ m).
    { intros g0 G. apply strip_iff; [intros X; apply app_eq_nil in X; destruct X as [_ X]; rewrite X in Em; discriminate|].
      exists b, a. rewrite !app_assoc. split; [reflexivity|]. split; [exact Hb|]. split; [exact Ha|]. split.
      - destruct G as [->|(x & -> & Hx)]; [exists c, r; auto|exists x, m; auto].
      - exists c', (g0 ++ r'). rewrite Em', app_assoc. auto. }
    unfold py_int. destruct S as [[[->| ->] ->]|[-> ->]]; (rewrite X; [|solve [auto | right; eexists; split; reflexivity]]).
    + cbn [app]. rewrite Em in *. destruct (N.eqb_spec c 45); [lia|]. destruct (N.eqb_spec c 43); [lia|]. exact DB.
    + cbn. exact DB.
    + cbn. rewrite DB. reflexivity.
Qed.

Lemma int_or_default_iff environ v d z : int_or_default nd lim environ v d = z <-> setting_is nd lim environ None v d z.
Proof.
  unfold int_or_default, setting_is. destruct (environ v) as [s|] eqn:E.
  - destruct (py_int nd lim s) as [x|] eqn:P.
    + apply py_int_iff in P as P'. split; [intros <-; left; eauto|]. intros [(s' & [= <-] & I)|[X _]]; [apply py_int_iff in I; congruence|].
      elim (X s eq_refl). eauto.
    + split.
      * intros <-. right. split; [|reflexivity]. intros s' [= <-] (z' & I). apply py_int_iff in I. congruence.
      * intros [(s' & [= <-] & I)|[_ ->]]; [apply py_int_iff in I; congruence|reflexivity].
  - split; [intros <-; right; split; [discriminate|reflexivity]|]. intros [(s & X & _)|[_ ->]]; [discriminate|reflexivity].
Qed.
Lemma or_else_iff environ a v d z : or_else a (int_or_default nd lim environ v d) = z <-> setting_is nd lim environ a v d z.
Proof. destruct a as [x|]; [cbn; split; congruence|apply int_or_default_iff]. Qed.

Lemma batch_settings_iff environ g a s : batch_settings_are nd lim environ g a s <->
  s = BatchSettings
        (or_else (ba_queue a) (int_or_default nd lim environ (var g "MAX_QUEUE_SIZE") 2048))
        (or_else (ba_delay a) (int_or_default nd lim environ (var g "SCHEDULE_DELAY") 5000))
        (or_else (ba_batch a) (int_or_default nd lim environ (var g "MAX_EXPORT_BATCH_SIZE") 512))
        (or_else (ba_timeout a) (int_or_default nd lim environ (var g "EXPORT_TIMEOUT") 30000)).
Proof.
  assert (V : forall g n, var g n = match g with Spans => lit (String.append "OTEL_BSP_" n) | LogRecords => lit (String.append "OTEL_BLRP_" n) end)
    by (intros [] n; reflexivity).
  unfold batch_settings_are. destruct s as [q d b t]. cbn [bs_queue bs_delay bs_batch bs_timeout]. rewrite <- !V, <- !or_else_iff.
  split; [intros (<- & <- & <- & <-); reflexivity|intros [= -> -> -> ->]; auto].
Qed.
Lemma batch_settings_total environ g a : exists s, batch_settings_are nd lim environ g a s /\ forall s', batch_settings_are nd lim environ g a s' -> s' = s.
Proof. eexists. split; [apply batch_settings_iff; reflexivity|]. intros s' H. now apply batch_settings_iff in H. Qed.

Lemma new_batch_processor_cases environ g a s : batch_settings_are nd lim environ g a s ->
  (batch_settings_valid s /\ bs_queue s < 2 ^ 63 /\ new_batch_processor nd lim environ g a = Ok s)
  \/ (batch_settings_valid s /\ 2 ^ 63 <= bs_queue s /\ new_batch_processor nd lim environ g a = Raises "OverflowError")
  \/ (~ batch_settings_valid s /\ new_batch_processor nd lim environ g a = Raises "ValueError").
Proof.
  intros ->%batch_settings_iff. unfold new_batch_processor, batch_settings_valid. cbn [bs_queue bs_delay bs_batch].
  set (q := or_else (ba_queue a) _). set (d := or_else (ba_delay a) _). set (b := or_else (ba_batch a) _). set (t := or_else (ba_timeout a) _).
  clearbody q d b t. destruct (Z.leb_spec q 0); [right; right; split; [lia|reflexivity]|]. destruct (Z.leb_spec d 0); [right; right; split; [lia|reflexivity]|].
  destruct (Z.leb_spec b 0); [right; right; split; [lia|reflexivity]|]. destruct (Z.ltb_spec q b); [right; right; split; [lia|reflexivity]|].
  destruct (Z.leb_spec (2 ^ 63) q); [right; left|left]; repeat split; lia.
Qed.
End Int.

(** ** Aggregations *)
Lemma set_aggregations_spec {G} : forall (l : list (iclass * G)) d, Forall (fun kt => exists k, fst kt = CKind k) l -> NoDup (keys l) ->
  exists d', set_aggregations l d = Some d' /\ forall k, dget k d' = match dget (CKind k) l with Some t => Some t | None => dget k d end.
Proof.
  induction l as [|[c t] l IH]; intros d F N; [exists d; auto|].
  inversion F as [|? ? [k0 E] F']; subst. cbn in E. subst c. inversion N as [|? ? Nk N']; subst. cbn [fst] in Nk.
  cbn [set_aggregations]. destruct (IH (dset k0 t d) F' N') as (d' & -> & H). exists d'. split; [reflexivity|]. intros k. rewrite H. cbn [dget].
  destruct (eq_dec (CKind k) (CKind k0)) as [E|E].
  - injection E as ->. rewrite dget_dset_eq. destruct (dget (CKind k0) l) eqn:Q; [|reflexivity]. exfalso. apply Nk. apply dget_In in Q. now apply (in_map fst) in Q.
  - rewrite dget_dset_ne; [reflexivity|congruence].
Qed.
Lemma set_aggregations_bad {G} : forall (l : list (iclass * G)) d, ~ Forall (fun kt => exists k, fst kt = CKind k) l -> set_aggregations l d = None.
Proof.
  induction l as [|[[k|n] t] l IH]; intros d F; cbn [set_aggregations]; auto.
  - exfalso. apply F. constructor.
  - apply IH. intros X. apply F. constructor; [exists k; reflexivity|exact X].
Qed.

(** ** Filters *)
Lemma get_filter_iff s f : get_exemplar_filter s = Ok f <-> s = filter_name f.
Proof.
  unfold get_exemplar_filter. split.
  - destruct (str_eqb s (lit "trace_based")) eqn:A; [apply str_eqb_eq in A; intros [= <-]; exact A|].
    destruct (str_eqb s (lit "always_on")) eqn:B; [apply str_eqb_eq in B; intros [= <-]; exact B|].
    destruct (str_eqb s (lit "always_off")) eqn:C; [apply str_eqb_eq in C; intros [= <-]; exact C|discriminate].
  - intros ->. now destruct f.
Qed.
Lemma get_filter_raises s : get_exemplar_filter s = Raises "ValueError" <-> forall f, s <> filter_name f.
Proof.
  split.
  - intros E f X. apply get_filter_iff in X. congruence.
  - intros N. destruct (get_exemplar_filter s) as [f|e] eqn:E; [elim (N f); now apply get_filter_iff|].
    unfold get_exemplar_filter in E. repeat match type of E with (if ?x then _ else _) = _ => destruct x; [discriminate|] end. exact (eq_sym E).
Qed.
