(** Proofs about the settings of the OTLP exporters. *)
From Verif Require Export Spec_OtlpConfig.
From Verif Require Import Proof_Dict Model_Processor.
From Coq Require Import Lia.
Local Open Scope Z_scope.

Lemma signal_variable s x : signal_var s x = variable (Some s) x.
Proof. destruct s, x; reflexivity. Qed.
Lemma general_variable x : general_var x = variable None x.
Proof. destruct x; reflexivity. Qed.
Lemma path_is s : export_path s = url_path s.
Proof. destruct s; reflexivity. Qed.

Definition env_is (d : environment) (e : env) : Prop := forall k, dget k d = e k.

Lemma env_get_choice d e s x : env_is d e -> env_get d s x = choice None s x e.
Proof.
  intros H. unfold env_get, choice, first_given, unless_empty. rewrite !H, signal_variable, general_variable.
  destruct (e (variable (Some s) x)); [reflexivity|]. destruct (e (variable None x)); reflexivity.
Qed.
Lemma or_str_choice a d e s x : env_is d e -> or_str a (env_get d s x) = choice a s x e.
Proof.
  intros H. rewrite (env_get_choice d e) by exact H. unfold or_str, choice, unless_empty, first_given.
  destruct a as [[|c l]|]; reflexivity.
Qed.

Lemma append_path_joined s base : joined base (url_path s) (append_path s base).
Proof.
  unfold append_path, ends_with_slash, joined. rewrite path_is.
  destruct (rev base) as [|c r] eqn:E.
  - apply (f_equal (@rev N)) in E. rewrite rev_involutive in E. cbn in E. subst base.
    exists []. split; [reflexivity|]. right. split; [reflexivity|]. intros b' Hb. destruct b'; discriminate.
  - apply (f_equal (@rev N)) in E. rewrite rev_involutive in E. cbn [rev] in E. subst base.
    destruct (N.eqb_spec c 47) as [->|Hn].
    + exists (rev r). split; [rewrite <- app_assoc; reflexivity|]. left. reflexivity.
    + exists (rev r ++ [c]). split; [reflexivity|]. right. split; [reflexivity|].
      intros b' Hb. change (lit "/") with [47%N] in Hb. apply app_inj_tail in Hb. destruct Hb as [_ Hb]. congruence.
Qed.

Section Http.
Variable pylower : str -> str.
Variable pyint : str -> option Z.
Variable gzip deflate : str -> str.
Variable session_defaults : dict str str.
Variable version : str.
Notation h_step := (h_step pylower pyint gzip deflate session_defaults version).
Notation h_run := (h_run pylower pyint gzip deflate session_defaults version).
Notation http_init := (http_init pylower pyint).
Notation cset := (cset pylower).
Notation cupdate := (cupdate pylower).
Notation named := (named pylower).
Notation last_named := (last_named pylower).

(** ASCII text is put in lower case letter by letter. *)
Hypothesis lower_ascii : forall w, Forall (fun c => (c < 128)%N) w -> pylower w = lower w.

(** *** Headers *)
Definition wf (d : cdict) : Prop := NoDup (keys d) /\ forall k x, dget k d = Some x -> pylower (fst x) = k.

Lemma wf_cset k v d : wf d -> wf (cset k v d).
Proof.
  intros [A B]. split; [apply NoDup_dset; exact A|]. intros k' x. unfold Model_OtlpConfig.cset.
  destruct (eq_dec k' (pylower k)) as [->|N].
  - rewrite dget_dset_eq. intros E. injection E as <-. reflexivity.
  - rewrite dget_dset_ne by congruence. apply B.
Qed.
Lemma wf_cupdate h : forall d, wf d -> wf (cupdate h d).
Proof. induction h as [|[k v] h IH]; intros d W; [exact W|]. apply IH, wf_cset, W. Qed.

Lemma cupdate_get n h : forall d,
  option_map snd (dget (pylower n) (cupdate h d)) = first_given [last_named n h; option_map snd (dget (pylower n) d)].
Proof.
  induction h as [|[k v] h IH] using rev_ind; intros d.
  - cbn. destruct (dget (pylower n) d); reflexivity.
  - unfold Model_OtlpConfig.cupdate in *. rewrite fold_left_app. cbn [fold_left fst snd].
    unfold Spec_OtlpConfig.last_named. rewrite rev_app_distr. cbn [rev app filter fst].
    unfold Spec_OtlpConfig.named at 1, str_eqb. destruct (str_eq_dec (pylower k) (pylower n)) as [E|N].
    + unfold Model_OtlpConfig.cset at 1. rewrite E, dget_dset_eq. reflexivity.
    + unfold Model_OtlpConfig.cset at 1. rewrite dget_dset_ne by congruence. apply IH.
Qed.

Lemma filter_values n : forall d, wf d ->
  filter (fun kv => named n (fst kv)) (values d) = match dget (pylower n) d with Some x => [x] | None => [] end.
Proof.
  induction d as [|[k x] d IH]; intros [A B]; [reflexivity|].
  assert (Hk : pylower (fst x) = k) by (apply (B k x); cbn; destruct (eq_dec k k); [reflexivity|congruence]).
  cbn [keys map fst] in A. inversion A as [|? ? NI ND]; subst.
  assert (W : wf d).
  { split; [exact ND|]. intros k' y E. apply (B k' y). cbn. destruct (eq_dec k' (pylower (fst x))) as [->|]; [|exact E].
    exfalso. apply NI. destruct (in_dec eq_dec (pylower (fst x)) (keys d)) as [i|i]; [exact i|].
    apply dget_keys in i. congruence. }
  cbn [values map snd filter dget]. fold (values d). unfold Spec_OtlpConfig.named at 1, str_eqb.
  destruct (str_eq_dec (pylower (fst x)) (pylower n)) as [E|N].
  - destruct (eq_dec (pylower n) (pylower (fst x))) as [_|C]; [|congruence]. rewrite IH by exact W.
    rewrite E in NI. apply dget_keys in NI. rewrite NI. reflexivity.
  - destruct (eq_dec (pylower n) (pylower (fst x))) as [C|_]; [congruence|]. apply IH, W.
Qed.

Lemma wf_new : wf (new_session pylower session_defaults).
Proof. apply wf_cupdate. split; [constructor|]. intros k x E. discriminate. Qed.
Lemma wf_init x d : wf d -> wf (init_session pylower version x d).
Proof.
  intros W. unfold init_session. destruct (hs_compression x); repeat apply wf_cupdate; exact W.
Qed.

Lemma last_named_one n k v : last_named n [(k, v)] = if named n k then Some v else None.
Proof. unfold Spec_OtlpConfig.last_named. cbn. destruct (named n k); reflexivity. Qed.
Lemma last_named_two n k v k' v' :
  last_named n [(k, v); (k', v')] = if named n k' then Some v' else if named n k then Some v else None.
Proof. unfold Spec_OtlpConfig.last_named. cbn. destruct (named n k'), (named n k); reflexivity. Qed.

Lemma init_session_get x n :
  option_map snd (dget (pylower n) (init_session pylower version x (new_session pylower session_defaults)))
  = expected_header pylower session_defaults version (hs_headers x) (hs_compression x) n.
Proof.
  assert (Base : option_map snd (dget (pylower n) (cupdate (otlp_http_headers version) (cupdate (hs_headers x) (new_session pylower session_defaults))))
    = first_given [if named n (lit "User-Agent") then Some (lit "OTel-OTLP-Exporter-Python/" ++ version) else None;
                   if named n (lit "Content-Type") then Some (lit "application/x-protobuf") else None;
                   last_named n (hs_headers x); last_named n session_defaults]).
  { rewrite !cupdate_get. unfold otlp_http_headers. rewrite last_named_two. unfold new_session. rewrite cupdate_get. cbn [dget option_map].
    destruct (named n (lit "User-Agent")); [reflexivity|]. destruct (named n (lit "Content-Type")); [reflexivity|].
    cbn [first_given]. destruct (last_named n (hs_headers x)); [reflexivity|]. destruct (last_named n session_defaults); reflexivity. }
  unfold init_session, expected_header. destruct (hs_compression x).
  - rewrite Base. reflexivity.
  - rewrite cupdate_get, last_named_one, Base. unfold compression_value. cbn [first_given].
    destruct (named n (lit "Content-Encoding")); [reflexivity|]. cbn [first_given]. destruct (if named n (lit "User-Agent") then _ else _); [reflexivity|].
    destruct (if named n (lit "Content-Type") then _ else _); [reflexivity|]. destruct (last_named n (hs_headers x)); [reflexivity|].
    destruct (last_named n session_defaults); reflexivity.
  - rewrite cupdate_get, last_named_one, Base. unfold compression_value. cbn [first_given].
    destruct (named n (lit "Content-Encoding")); [reflexivity|]. cbn [first_given]. destruct (if named n (lit "User-Agent") then _ else _); [reflexivity|].
    destruct (if named n (lit "Content-Type") then _ else _); [reflexivity|]. destruct (last_named n (hs_headers x)); [reflexivity|].
    destruct (last_named n session_defaults); reflexivity.
Qed.

(** *** The constructor *)
Lemma compression_of_spec v c : compression_of v = Ok c -> v = match c with NoCompression => lit "none" | Deflate => lit "deflate" | Gzip => lit "gzip" end.
Proof.
  unfold compression_of, str_eqb. destruct (str_eq_dec v (lit "none")); [intros E; injection E as <-; assumption|].
  destruct (str_eq_dec v (lit "deflate")); [intros E; injection E as <-; assumption|].
  destruct (str_eq_dec v (lit "gzip")); [intros E; injection E as <-; assumption|discriminate].
Qed.

Lemma http_init_spec s a d e x : env_is d e -> http_init s a d = Ok x ->
  http_url s (ha_endpoint a) e (hs_endpoint x)
  /\ http_wait pyint s (ha_timeout a) e (hs_timeout x)
  /\ hs_verify x = choice (ha_certificate a) s Certificate e
  /\ hs_cert x = http_cert s (ha_client_certificate a) (ha_client_key a) e
  /\ http_compression pylower s (ha_compression a) e (hs_compression x)
  /\ hs_headers x = configured_headers pylower s (ha_headers a) e.
Proof.
  intros He. unfold Model_OtlpConfig.http_init.
  destruct (http_timeout pyint s a d) as [t|] eqn:Et; [|discriminate]. cbn [bind_out].
  destruct (match ha_compression a with Some c => Ok c | None => compression_from_env pylower s d end) as [c|] eqn:Ec; [|discriminate].
  cbn [bind_out]. intros E. injection E as <-. cbn [hs_endpoint hs_timeout hs_verify hs_cert hs_compression hs_headers].
  split; [|split; [|split; [|split; [|split]]]].
  - unfold http_url, http_endpoint. rewrite !He, signal_variable, general_variable.
    unfold or_str, unless_empty, first_given. destruct (ha_endpoint a) as [[|]|]; try reflexivity;
      (destruct (e (variable (Some s) Endpoint)); [reflexivity|]; apply append_path_joined).
  - unfold http_wait, http_timeout in *. rewrite (env_get_choice d e) in Et by exact He.
    destruct (ha_timeout a) as [z|]; cbn [unless_zero] in *.
    + destruct (Z.eqb_spec z 0) as [E0|N].
      * subst z. destruct (choice None s Timeout e) as [v|]; [|congruence]. destruct (pyint v); congruence.
      * destruct z; [congruence| |]; congruence.
    + destruct (choice None s Timeout e) as [v|]; [|congruence]. destruct (pyint v); congruence.
  - apply or_str_choice, He.
  - unfold http_cert. rewrite !(or_str_choice _ d e) by exact He. unfold unless_empty.
    destruct (choice (ha_client_certificate a) s ClientCertificate e) as [[|]|], (choice (ha_client_key a) s ClientKey e) as [[|]|]; reflexivity.
  - unfold http_compression. destruct (ha_compression a) as [c'|]; [congruence|].
    unfold compression_from_env in Ec. rewrite (env_get_choice d e) in Ec by exact He.
    destruct (choice None s Compress e) as [v|]; [apply compression_of_spec, Ec|].
    destruct c; [reflexivity| |]; exfalso; rewrite lower_ascii in Ec by (repeat constructor); vm_compute in Ec; discriminate.
  - unfold http_headers, configured_headers. rewrite (env_get_choice d e) by exact He.
    destruct (ha_headers a) as [[|]|]; try reflexivity; (destruct (choice None s Headers e); [reflexivity|]).
    all: reflexivity.
Qed.

Lemma http_init_raises s a d e : env_is d e ->
  ((exists x, http_init s a d = Ok x)
   <-> (exists t, http_wait pyint s (ha_timeout a) e t) /\ exists c, http_compression pylower s (ha_compression a) e c).
Proof.
  intros He. split.
  - intros [x Hx]. pose proof (http_init_spec s a d e x He Hx) as (_ & T & _ & _ & C & _). split; eauto.
  - intros [[t T] [c C]].
    assert (Et : exists t, http_timeout pyint s a d = Ok t).
    { unfold http_wait, http_timeout in *. rewrite (env_get_choice d e) by exact He.
      destruct (ha_timeout a) as [z|]; cbn [unless_zero] in *.
      - destruct (Z.eqb_spec z 0) as [E0|N]; [subst z|eauto].
        destruct (choice None s Timeout e) as [v|]; [rewrite T|]; eauto.
      - destruct (choice None s Timeout e) as [v|]; [rewrite T|]; eauto. }
    assert (Ec : exists c, (match ha_compression a with Some c => Ok c | None => compression_from_env pylower s d end) = Ok c).
    { unfold http_compression, compression_from_env in *. destruct (ha_compression a) as [c'|]; [eauto|].
      rewrite (env_get_choice d e) by exact He. destruct (choice None s Compress e) as [v|].
      - rewrite C. destruct c; vm_compute; eauto.
      - rewrite lower_ascii by (repeat constructor). vm_compute. eauto. }
    destruct Et as [t' Et], Ec as [c' Ec]. unfold Model_OtlpConfig.http_init. rewrite Et. cbn [bind_out]. rewrite Ec. cbn [bind_out]. eauto.
Qed.

(** *** Histories *)
Lemma h_run_app l1 : forall w l2,
  h_run w (l1 ++ l2) = let '(w1, o1) := h_run w l1 in let '(w2, o2) := h_run w1 l2 in (w2, o1 ++ o2).
Proof.
  induction l1 as [|o l1 IH]; intros w l2; cbn [app Model_OtlpConfig.h_run].
  - destruct (h_run w l2); reflexivity.
  - destruct (h_step w o) as [w1 x]. rewrite IH. destruct (h_run w1 l1) as [w2 o1]. destruct (h_run w2 l2); reflexivity.
Qed.
Lemma h_run_length l : forall w, length (snd (h_run w l)) = length l.
Proof.
  induction l as [|o l IH]; intros w; cbn [Model_OtlpConfig.h_run]; [reflexivity|].
  destruct (h_step w o) as [w1 x]. specialize (IH w1). destruct (h_run w1 l). cbn in *. congruence.
Qed.
Lemma h_run_at l1 o l2 w : nth_error (snd (h_run w (l1 ++ o :: l2))) (length l1) = Some (snd (h_step (fst (h_run w l1)) o)).
Proof.
  rewrite h_run_app. pose proof (h_run_length l1 w) as L. destruct (h_run w l1) as [w1 o1]. cbn [snd fst] in *.
  cbn [Model_OtlpConfig.h_run]. destruct (h_step w1 o) as [w2 x]. destruct (h_run w2 l2) as [w3 o3]. cbn [snd].
  rewrite nth_error_app2 by lia. rewrite L, PeanoNat.Nat.sub_diag. reflexivity.
Qed.
Lemma h_fst_app l1 l2 w : fst (h_run w (l1 ++ l2)) = fst (h_run (fst (h_run w l1)) l2).
Proof. rewrite h_run_app. destruct (h_run w l1) as [w1 o1]. cbn [fst]. destruct (h_run w1 l2); reflexivity. Qed.

(** The environment *)
Lemma step_env w o e : NoDup (keys (hw_env w)) -> env_is (hw_env w) e ->
  NoDup (keys (hw_env (fst (h_step w o)))) /\ env_is (hw_env (fst (h_step w o))) (var_after e [o]).
Proof.
  intros ND He. destruct o; cbn [Model_OtlpConfig.h_step fst].
  - split; [apply NoDup_dset, ND|]. intros k'. cbn. unfold str_eqb. destruct (str_eq_dec k k') as [->|N]; [apply dget_dset_eq|].
    rewrite dget_dset_ne by congruence. apply He.
  - split; [apply NoDup_ddel, ND|]. intros k'. cbn. unfold str_eqb. destruct (str_eq_dec k k') as [->|N]; [apply dget_ddel_eq, ND|].
    rewrite dget_ddel_ne by congruence. apply He.
  - split; assumption.
  - destruct (nth_error (hw_sessions w) n); split; assumption.
  - destruct (http_init s a (hw_env w)); [|split; assumption]. destruct (ha_session a) as [n|]; [|split; assumption].
    destruct (nth_error (hw_sessions w) n); split; assumption.
  - destruct (nth_error (hw_exporters w) n) as [[[x [d|i]]|]|]; try (split; assumption).
    destruct (nth_error (hw_sessions w) i); split; assumption.
Qed.
Lemma run_env l : forall w e, NoDup (keys (hw_env w)) -> env_is (hw_env w) e -> env_is (hw_env (fst (h_run w l))) (var_after e l).
Proof.
  induction l as [|o l IH]; intros w e ND He; [exact He|]. cbn [Model_OtlpConfig.h_run].
  destruct (step_env w o e ND He) as [ND' He']. destruct (h_step w o) as [w1 x]. cbn [fst] in *.
  specialize (IH w1 (var_after e [o]) ND' He'). destruct (h_run w1 l) as [w2 xs]. exact IH.
Qed.

(** The exporters *)
Lemma step_exporters w o :
  hw_exporters (fst (h_step w o)) = hw_exporters w
  \/ exists x, hw_exporters (fst (h_step w o)) = hw_exporters w ++ [x].
Proof.
  destruct o; cbn [Model_OtlpConfig.h_step fst]; auto.
  - destruct (nth_error (hw_sessions w) n); auto.
  - right. destruct (http_init s a (hw_env w)); [|cbn; eauto]. destruct (ha_session a) as [n|]; [|cbn; eauto].
    destruct (nth_error (hw_sessions w) n); cbn; eauto.
  - destruct (nth_error (hw_exporters w) n) as [[[x [d|i]]|]|]; auto.
    destruct (nth_error (hw_sessions w) i); auto.
Qed.
Lemma run_exporters l : forall w n x, nth_error (hw_exporters w) n = Some x -> nth_error (hw_exporters (fst (h_run w l))) n = Some x.
Proof.
  induction l as [|o l IH]; intros w n x E; [exact E|]. cbn [Model_OtlpConfig.h_run].
  pose proof (step_exporters w o) as S. destruct (h_step w o) as [w1 y]. cbn [fst] in S.
  specialize (IH w1 n x). destruct (h_run w1 l) as [w2 xs]. apply IH.
  destruct S as [S|[z S]]; rewrite S; [exact E|]. rewrite nth_error_app1; [exact E|]. apply nth_error_Some. congruence.
Qed.
Lemma run_count l : forall w, length (hw_exporters (fst (h_run w l))) = (length (hw_exporters w) + exporters_before l)%nat.
Proof.
  induction l as [|o l IH]; intros w; cbn [Model_OtlpConfig.h_run exporters_before]; [cbn; lia|].
  specialize (IH (fst (h_step w o))). destruct (h_step w o) as [w1 y] eqn:E. cbn [fst] in IH. destruct (h_run w1 l) as [w2 xs]. cbn [fst] in *.
  rewrite IH. destruct o; cbn [Model_OtlpConfig.h_step] in E.
  - injection E as <- _. reflexivity.
  - injection E as <- _. reflexivity.
  - injection E as <- _. reflexivity.
  - destruct (nth_error (hw_sessions w) n); injection E as <- _; reflexivity.
  - assert (length (hw_exporters w1) = S (length (hw_exporters w))); [|lia].
    destruct (http_init s a (hw_env w)); [destruct (ha_session a) as [n|]; [destruct (nth_error (hw_sessions w) n)|]|];
      injection E as <- _; cbn; rewrite app_length; cbn; lia.
  - destruct (nth_error (hw_exporters w) n) as [[[x [d|i]]|]|]; try (injection E as <- _; reflexivity).
    destruct (nth_error (hw_sessions w) i); injection E as <- _; reflexivity.
Qed.

(** The exporter in a world, and the request it posts *)
Lemma post_own x data s a e d : env_is d e -> http_init s a d = Ok x ->
  right_request pylower pyint gzip deflate session_defaults version s a e data
    (http_post gzip deflate x (init_session pylower version x (new_session pylower session_defaults)) data).
Proof.
  intros He Hx. destruct (http_init_spec s a d e x He Hx) as (U & T & V & C & Co & Hd).
  assert (W : wf (init_session pylower version x (new_session pylower session_defaults))) by apply wf_init, wf_new.
  unfold right_request, http_post. cbn [rq_url rq_timeout rq_verify rq_cert].
  split; [exact U|]. split; [exact T|]. split; [exact V|]. split; [exact C|]. split.
  - intros n. cbn [rq_headers]. rewrite filter_values by exact W. destruct (dget (pylower n) _); cbn; lia.
  - exists (hs_compression x). split; [exact Co|]. split.
    + unfold compressed. cbn [rq_body]. destruct (hs_compression x); reflexivity.
    + intros n. unfold header. cbn [rq_headers]. rewrite filter_values by exact W. rewrite <- Hd, <- init_session_get.
      destruct (dget (pylower n) _); reflexivity.
Qed.

Lemma own_posts d before s a between n data after :
  NoDup (keys d) -> ha_session a = None -> n = exporters_before before ->
  let h := before ++ HNew s a :: between ++ HExport n data :: after in
  let e := var_after (fun k => dget k d) before in
  (nth_error (snd (h_run (h_start d) h)) (length before) = Some HDone
   <-> (exists t, http_wait pyint s (ha_timeout a) e t) /\ exists c, http_compression pylower s (ha_compression a) e c)
  /\ (nth_error (snd (h_run (h_start d) h)) (length before) = Some HDone ->
      exists r, nth_error (snd (h_run (h_start d) h)) (length before + S (length between)) = Some (HPosted r)
             /\ right_request pylower pyint gzip deflate session_defaults version s a e data r).
Proof.
  intros ND Hs -> h e.
  assert (He : env_is (hw_env (fst (h_run (h_start d) before))) e).
  { apply run_env; [exact ND|]. intros k. reflexivity. }
  assert (St : h_step (fst (h_run (h_start d) before)) (HNew s a) =
               match http_init s a (hw_env (fst (h_run (h_start d) before))) with
               | Ok x => let w := fst (h_run (h_start d) before) in
                         (HW (hw_env w) (hw_sessions w) (hw_exporters w ++ [Some (x, OwnSession (init_session pylower version x (new_session pylower session_defaults)))]), HDone)
               | Raises _ => let w := fst (h_run (h_start d) before) in
                         (HW (hw_env w) (hw_sessions w) (hw_exporters w ++ [None]), HRaised)
               end).
  { cbn [Model_OtlpConfig.h_step]. rewrite Hs. destruct (http_init _ _ _); reflexivity. }
  assert (At : nth_error (snd (h_run (h_start d) h)) (length before)
               = Some (match http_init s a (hw_env (fst (h_run (h_start d) before))) with Ok _ => HDone | Raises _ => HRaised end)).
  { unfold h. rewrite h_run_at, St. destruct (http_init _ _ _); reflexivity. }
  split.
  - rewrite At, <- (http_init_raises s a _ e He). destruct (http_init _ _ _) as [x|]; split; intros H; try discriminate; eauto.
    destruct H; discriminate.
  - rewrite At. destruct (http_init s a (hw_env (fst (h_run (h_start d) before)))) as [x|] eqn:Hx; [|discriminate]. intros _.
    cbv zeta in St. set (w1 := HW _ _ _) in St.
    assert (Nx : nth_error (hw_exporters (fst (h_run w1 between))) (exporters_before before)
                 = Some (Some (x, OwnSession (init_session pylower version x (new_session pylower session_defaults))))).
    { apply run_exporters. unfold w1. cbn [hw_exporters].
      pose proof (run_count before (h_start d)) as L. cbn in L.
      rewrite nth_error_app2 by lia. rewrite L, PeanoNat.Nat.sub_diag. reflexivity. }
    assert (Fst : fst (h_run (h_start d) (before ++ HNew s a :: between)) = fst (h_run w1 between)).
    { rewrite h_fst_app. cbn [Model_OtlpConfig.h_run]. rewrite St. destruct (h_run w1 between); reflexivity. }
    exists (http_post gzip deflate x (init_session pylower version x (new_session pylower session_defaults)) data). split.
    + unfold h. replace (before ++ HNew s a :: between ++ HExport (exporters_before before) data :: after)
        with ((before ++ HNew s a :: between) ++ HExport (exporters_before before) data :: after) by (rewrite <- app_assoc; reflexivity).
      replace (length before + S (length between))%nat with (length (before ++ HNew s a :: between)) by (rewrite app_length; reflexivity).
      rewrite h_run_at, Fst. cbn [Model_OtlpConfig.h_step]. rewrite Nx. reflexivity.
    + eapply post_own; [exact He|exact Hx].
Qed.

Lemma own_received gunzip inflate s a e data r :
  (forall x, gunzip (gzip x) = x) -> (forall x, inflate (deflate x) = x) ->
  last_named (lit "Content-Encoding") (configured_headers pylower s (ha_headers a) e) = None ->
  last_named (lit "Content-Encoding") session_defaults = None ->
  right_request pylower pyint gzip deflate session_defaults version s a e data r ->
  received pylower gunzip inflate r = Some data.
Proof.
  intros Hg Hd H1 H2 (_ & _ & _ & _ & _ & c & Hc & Hb & Hh). unfold received. rewrite Hh. unfold expected_header.
  assert (Hn : forall k, Forall (fun c => (c < 128)%N) k ->
     named (lit "Content-Encoding") k = str_eqb (lower k) (lower (lit "Content-Encoding"))).
  { intros k Hk. unfold Spec_OtlpConfig.named. rewrite !lower_ascii; [reflexivity| |exact Hk]. repeat constructor. }
  rewrite !Hn by (repeat constructor). rewrite H1, H2. unfold compressed in Hb. destruct c; cbn [first_given].
  - vm_compute (str_eqb _ _). cbn [first_given]. congruence.
  - vm_compute (str_eqb _ _). cbn [first_given]. change (str_eqb (lit "deflate") (lit "gzip")) with false.
    change (str_eqb (lit "deflate") (lit "deflate")) with true. cbn. rewrite Hb, Hd. reflexivity.
  - vm_compute (str_eqb _ _). cbn [first_given]. change (str_eqb (lit "gzip") (lit "gzip")) with true. cbn. rewrite Hb, Hg. reflexivity.
Qed.
End Http.

Section Grpc.
Variable pylower : str -> str.
Variable pyint : str -> option Z.
Variable version : str.
Variable creds : Type.
Variable ssl : option str -> option str -> option str -> creds.
Variable files : str -> file.
Variable urlparse : str -> option (str * str).
Notation grpc_init := (grpc_init pylower pyint version creds ssl files urlparse).

Lemma or_int_zero a b : or_int a b = match unless_zero a with Some t => Some t | None => b end.
Proof. destruct a as [[]|]; reflexivity. Qed.
Lemma or_str_empty a b : or_str a b = match unless_empty a with Some t => Some t | None => b end.
Proof. destruct a as [[]|]; reflexivity. Qed.
Lemma environ_to_compression_spec k d e c : env_is d e -> environ_to_compression pylower k d = Ok c ->
  match e k with Some v => strip py_space (pylower v) = lit "gzip" /\ c = Some GGzip | None => c = None end.
Proof.
  intros He. unfold environ_to_compression. rewrite He. destruct (e k) as [v|]; [|congruence].
  unfold str_eqb. destruct (str_eq_dec (strip py_space (pylower v)) (lit "gzip")); [|discriminate]. intros E. injection E as <-. auto.
Qed.

Lemma read_if_spec p c : read_if files p = Ok c -> c = contents files p.
Proof.
  unfold read_if, contents, unless_empty. destruct p as [[|x l]|]; try congruence.
  unfold read_file. destruct (files (x :: l)); congruence.
Qed.
Lemma load_credentials_spec a b c r : load_credentials creds ssl files a b c = Ok r ->
  r = ssl (contents files a) (contents files b) (contents files c).
Proof.
  unfold load_credentials. destruct (read_if files a) as [a'|] eqn:A; [|discriminate]. cbn [bind_out].
  destruct (read_if files b) as [b'|] eqn:B; [|discriminate]. cbn [bind_out].
  destruct (read_if files c) as [c'|] eqn:C; [|discriminate]. cbn [bind_out].
  apply read_if_spec in A, B, C. congruence.
Qed.
Lemma get_credentials_spec given var which d e r : env_is d e -> (forall x, var x = variable which x) ->
  get_credentials creds ssl files given var d = Ok r ->
  r = match given, unless_empty (e (variable which Certificate)) with
      | Some c, _ => c
      | None, Some _ => loaded creds ssl files which e
      | None, None => ssl None None None
      end.
Proof.
  intros He Hv. unfold get_credentials. destruct given; [congruence|]. rewrite !Hv, !He. unfold truthy, unless_empty.
  destruct (e (variable which Certificate)) as [[|x l]|] eqn:E; try congruence.
  intros H. apply load_credentials_spec in H. unfold loaded. rewrite E. exact H.
Qed.

Lemma mixin_spec (a : grpc_args creds) d e x : env_is d e ->
  mixin_init pylower pyint version creds ssl files urlparse a d = Ok x ->
  let address := match unless_empty (ga_endpoint creds a) with
                 | Some u => u
                 | None => match e (variable None Endpoint) with Some u => u | None => lit "http://localhost:4317" end
                 end in
  exists scheme netloc, urlparse address = Some (scheme, netloc)
  /\ ge_target creds x = match netloc with [] => address | _ => netloc end
  /\ (ge_credentials creds x = None <-> scheme <> lit "https" /\
        match first_given [ga_insecure creds a; option_map (reads_true pylower) (e (variable None Insecure))] with
        | Some b => b = true | None => scheme = lit "http" end)
  /\ match unless_zero (ga_timeout creds a) with
     | Some t => ge_timeout creds x = t
     | None => match e (variable None Timeout) with Some v => pyint v = Some (ge_timeout creds x) | None => ge_timeout creds x = 10 end
     end
  /\ match ga_compression creds a with
     | Some c => ge_compression creds x = c
     | None => match e (variable None Compress) with
               | Some v => strip py_space (pylower v) = lit "gzip" /\ ge_compression creds x = GGzip
               | None => ge_compression creds x = GNoCompression
               end
     end
  /\ ge_metadata creds x =
       match first_given [if gh_truthy (ga_headers creds a) then ga_headers creds a else None; option_map GStr (e (variable None Headers))] with
       | Some h => pairs_of pylower h | None => [] end ++ [(lit "user-agent", lit "OTel-OTLP-Exporter-Python/" ++ version)]
  /\ (forall c, ge_credentials creds x = Some c ->
        c = match ga_credentials creds a, unless_empty (e (variable None Certificate)) with
            | Some c, _ => c
            | None, Some _ => loaded creds ssl files None e
            | None, None => ssl None None None
            end).
Proof.
  intros He Hx address. unfold mixin_init in Hx. rewrite !He in Hx. rewrite !general_variable in Hx.
  assert (Ad : match or_str (ga_endpoint creds a) None with Some v => v | None => match e (variable None Endpoint) with Some v => v | None => lit "http://localhost:4317" end end = address).
  { rewrite or_str_empty. unfold address. destruct (unless_empty (ga_endpoint creds a)); reflexivity. }
  rewrite Ad in Hx. clearbody address. clear Ad. destruct (urlparse address) as [[scheme netloc]|]; [|discriminate].
  exists scheme, netloc. split; [reflexivity|].
  match type of Hx with bind_out ?T _ = _ => destruct T as [t|] eqn:Et; [|discriminate] end. cbn [bind_out] in Hx.
  match type of Hx with bind_out ?T _ = _ => destruct T as [c|] eqn:Ec; [|discriminate] end. cbn [bind_out] in Hx.
  set (ins := match (if str_eqb scheme (lit "https") then Some false else ga_insecure creds a) with
              | Some b => b | None => _ end) in Hx.
  assert (Ins : ins = true <-> scheme <> lit "https" /\
        match first_given [ga_insecure creds a; option_map (reads_true pylower) (e (variable None Insecure))] with
        | Some b => b = true | None => scheme = lit "http" end).
  { unfold ins. unfold str_eqb at 1. destruct (str_eq_dec scheme (lit "https")) as [E|N].
    - split; [discriminate|]. intros [C _]. congruence.
    - destruct (ga_insecure creds a) as [b|]; cbn [first_given]; [tauto|].
      destruct (e (variable None Insecure)) as [v|]; cbn [option_map first_given]; [unfold is_true, reads_true; tauto|].
      unfold str_eqb. destruct (str_eq_dec scheme (lit "http")); split; intros H; try discriminate; try tauto. }
  clearbody ins.
  assert (Tm : match unless_zero (ga_timeout creds a) with
     | Some t' => t = t'
     | None => match e (variable None Timeout) with Some v => pyint v = Some t | None => t = 10 end
     end).
  { rewrite or_int_zero in Et. destruct (unless_zero (ga_timeout creds a)); [congruence|].
    destruct (e (variable None Timeout)) as [v|]; [|congruence]. destruct (pyint v); congruence. }
  assert (Cm : match ga_compression creds a with
     | Some c' => match c with Some c => c | None => GNoCompression end = c'
     | None => match e (variable None Compress) with
               | Some v => strip py_space (pylower v) = lit "gzip" /\ match c with Some c => c | None => GNoCompression end = GGzip
               | None => match c with Some c => c | None => GNoCompression end = GNoCompression
               end
     end).
  { destruct (ga_compression creds a); [injection Ec as <-; reflexivity|].
    rewrite <- ?general_variable in *. apply (environ_to_compression_spec _ _ e) in Ec; [|exact He].
    destruct (e (general_var Compress)); [destruct Ec as [? ->]; auto|subst c; reflexivity]. }
  match type of Hx with context [GrpcExporter _ ?tgt None ?cc ?m _] => set (tg := tgt) in *; set (co := cc) in *; set (me := m) in * end.
  assert (Me : me = match first_given [if gh_truthy (ga_headers creds a) then ga_headers creds a else None; option_map GStr (e (variable None Headers))] with
       | Some h => pairs_of pylower h | None => [] end ++ [(lit "user-agent", lit "OTel-OTLP-Exporter-Python/" ++ version)]).
  { unfold me. destruct (gh_truthy (ga_headers creds a)) eqn:G.
    - destruct (ga_headers creds a) as [[l|l|s]|]; try reflexivity. discriminate.
    - destruct (e (variable None Headers)); reflexivity. }
  destruct ins.
  - injection Hx as <-. cbn [ge_target ge_credentials ge_timeout ge_compression ge_metadata].
    split; [reflexivity|]. split; [split; [intros _; apply Ins; reflexivity|reflexivity]|].
    split; [exact Tm|]. split; [exact Cm|]. split; [exact Me|]. discriminate.
  - match type of Hx with bind_out ?T _ = _ => destruct T as [cr|] eqn:Er; [|discriminate] end. cbn [bind_out] in Hx.
    injection Hx as <-. cbn [ge_target ge_credentials ge_timeout ge_compression ge_metadata].
    split; [reflexivity|]. split; [split; [discriminate|intros H; apply Ins in H; discriminate]|].
    split; [exact Tm|]. split; [exact Cm|]. split; [exact Me|]. intros c' E. injection E as <-.
    apply (get_credentials_spec _ _ None _ e) in Er; [exact Er|exact He|]. intros y. apply general_variable.
Qed.

(** What the signal's constructor hands to the common one *)
Lemma grpc_init_spec s (a : grpc_args creds) d e x : env_is d e -> grpc_init s a d = Ok x ->
  exists scheme netloc, urlparse (grpc_address s (ga_endpoint creds a) e) = Some (scheme, netloc)
  /\ ge_target creds x = match netloc with [] => grpc_address s (ga_endpoint creds a) e | _ => netloc end
  /\ (ge_credentials creds x = None <-> plaintext pylower s (ga_insecure creds a) e scheme)
  /\ grpc_wait pyint s (ga_timeout creds a) e (ge_timeout creds x)
  /\ grpc_compression pylower s (ga_compression creds a) e (ge_compression creds x)
  /\ ge_metadata creds x = grpc_metadata pylower version s (ga_headers creds a) e
  /\ (forall c, ge_credentials creds x = Some c ->
        ga_credentials creds a <> None
        \/ (e (variable (Some s) Certificate) <> Some [] /\ wishes_plaintext pylower s (ga_insecure creds a) e <> Some true) ->
        c = grpc_credentials creds ssl files s (ga_credentials creds a) e).
Proof.
  intros He Hx. unfold Model_OtlpConfig.grpc_init in Hx. rewrite !He in Hx. rewrite !signal_variable in Hx.
  set (ins := match ga_insecure creds a with Some b => Some b | None => match e (variable (Some s) Insecure) with Some v => Some (is_true pylower v) | None => None end end) in *.
  assert (Ins : ins = wishes_plaintext pylower s (ga_insecure creds a) e).
  { unfold ins, wishes_plaintext. cbn [first_given]. destruct (ga_insecure creds a); [reflexivity|].
    destruct (e (variable (Some s) Insecure)); reflexivity. }
  clearbody ins.
  match type of Hx with bind_out ?T _ = _ => destruct T as [cr|] eqn:Er; [|discriminate] end. cbn [bind_out] in Hx.
  match type of Hx with bind_out ?T _ = _ => destruct T as [et|] eqn:Et; [|discriminate] end. cbn [bind_out] in Hx.
  match type of Hx with bind_out ?T _ = _ => destruct T as [c|] eqn:Ec; [|discriminate] end. cbn [bind_out] in Hx.
  apply (mixin_spec _ _ e) in Hx; [|exact He]. cbn [ga_endpoint ga_insecure ga_credentials ga_headers ga_timeout ga_compression] in Hx.
  assert (Ad : match unless_empty (or_str (ga_endpoint creds a) (e (variable (Some s) Endpoint))) with
               | Some u => u
               | None => match e (variable None Endpoint) with Some u => u | None => lit "http://localhost:4317" end
               end = grpc_address s (ga_endpoint creds a) e).
  { unfold grpc_address, or_str, unless_empty. cbn [first_given].
    destruct (ga_endpoint creds a) as [[|]|]; try reflexivity;
      (destruct (e (variable (Some s) Endpoint)) as [[|]|]; try reflexivity; destruct (e (variable None Endpoint)); reflexivity). }
  rewrite Ad in Hx. destruct Hx as (scheme & netloc & Hu & Ht & Hp & Hw & Hc & Hm & Hcr).
  exists scheme, netloc. split; [exact Hu|]. split; [exact Ht|]. split; [|split; [|split; [|split]]].
  - rewrite Hp. unfold plaintext. rewrite Ins. unfold wishes_plaintext. cbn [first_given].
    destruct (ga_insecure creds a); [reflexivity|]. destruct (e (variable (Some s) Insecure)); cbn [option_map]; reflexivity.
  - unfold grpc_wait. rewrite or_int_zero in Hw. destruct (unless_zero (ga_timeout creds a)) as [z|] eqn:Z0.
    + assert (unless_zero (Some z) = Some z).
      { destruct (ga_timeout creds a) as [[]|]; cbn in Z0; try discriminate; injection Z0 as <-; reflexivity. }
      rewrite H in Hw. exact Hw.
    + destruct (e (variable (Some s) Timeout)) as [v|].
      * destruct (pyint v) as [z|]; [|discriminate]. injection Et as <-. exact Hw.
      * injection Et as <-. exact Hw.
  - unfold grpc_compression, choice. cbn [first_given unless_empty]. destruct (ga_compression creds a) as [c0|].
    + injection Ec as <-. exact Hc.
    + rewrite <- !signal_variable in *. apply (environ_to_compression_spec _ _ e) in Ec; [|exact He].
      destruct (e (signal_var s Compress)) as [v|].
      * destruct Ec as [E ->]. split; [exact E|exact Hc].
      * subst c. destruct (e (variable None Compress)); exact Hc.
  - rewrite Hm. unfold grpc_metadata. f_equal.
    assert (G : forall h : option gheaders, unless_no_headers h = if gh_truthy h then h else None) by (intros [[[|]|[|]|[|]]|]; reflexivity).
    rewrite <- G. cbn [first_given]. destruct (gh_truthy (ga_headers creds a)) eqn:G'; rewrite ?G, ?G'.
    + destruct (ga_headers creds a); [|discriminate]. reflexivity.
    + destruct (e (variable (Some s) Headers)) as [[|y l]|]; cbn [gh_truthy option_map unless_empty]; reflexivity.
  - intros c' Ec' Reg. specialize (Hcr c' Ec'). rewrite Hcr. unfold grpc_credentials.
    rewrite <- (signal_variable s Certificate) in *.
    destruct (ga_credentials creds a) as [g|].
    { destruct ins as [[|]|], (e (signal_var s Certificate)); cbn [get_credentials bind_out] in Er; injection Er as <-; reflexivity. }
    destruct Reg as [Reg|[R1 R2]]; [congruence|].
    assert (Er' : match e (signal_var s Certificate) with
                  | None => Ok None
                  | Some _ => bind_out (get_credentials creds ssl files None (signal_var s) d) (fun c => Ok (Some c))
                  end = Ok cr).
    { rewrite Ins in Er. destruct (wishes_plaintext pylower s (ga_insecure creds a) e) as [[|]|]; [congruence| |]; destruct (e (signal_var s Certificate)); exact Er. }
    destruct (e (signal_var s Certificate)) as [v|] eqn:Es.
    + destruct (get_credentials creds ssl files None (signal_var s) d) as [g|] eqn:Eg; [|discriminate]. injection Er' as <-.
      apply (get_credentials_spec _ _ (Some s) _ e) in Eg; [|exact He|intros; apply signal_variable].
      rewrite <- signal_variable, Es in Eg. destruct v; [exfalso; apply R1; first [exact Es|reflexivity]|]. cbn [unless_empty] in *. exact Eg.
    + injection Er' as <-. cbn [unless_empty]. reflexivity.
Qed.

(** When the constructor succeeds *)
Lemma read_if_ok p : (forall f, files f <> Unreadable) -> exists c, read_if files p = Ok c.
Proof.
  intros H. unfold read_if, read_file. destruct p as [[|x l]|]; eauto. specialize (H (x :: l)). destruct (files (x :: l)); eauto. congruence.
Qed.
Lemma get_credentials_ok given var d : (forall f, files f <> Unreadable) -> exists c, get_credentials creds ssl files given var d = Ok c.
Proof.
  intros H. unfold get_credentials. destruct given; [eauto|]. destruct (truthy _); [|eauto]. unfold load_credentials.
  destruct (read_if_ok (dget (var Certificate) d) H) as [c1 ->]. cbn [bind_out].
  destruct (read_if_ok (dget (var ClientKey) d) H) as [c2 ->]. cbn [bind_out].
  destruct (read_if_ok (dget (var ClientCertificate) d) H) as [c3 ->]. cbn [bind_out]. eauto.
Qed.

Lemma grpc_init_ok s (a : grpc_args creds) d e : env_is d e -> (forall f, files f <> Unreadable) ->
  ((exists x, grpc_init s a d = Ok x)
   <-> urlparse (grpc_address s (ga_endpoint creds a) e) <> None
       /\ (forall v, e (variable (Some s) Timeout) = Some v -> pyint v <> None)
       /\ (exists t, grpc_wait pyint s (ga_timeout creds a) e t)
       /\ exists c, grpc_compression pylower s (ga_compression creds a) e c).
Proof.
  intros He Hf. split.
  - intros [x Hx]. pose proof (grpc_init_spec s a d e x He Hx) as (sch & net & Hu & _ & _ & Hw & Hc & _).
    split; [congruence|]. split; [|split; eauto].
    intros v Ev Ep. unfold Model_OtlpConfig.grpc_init in Hx. rewrite !He, !signal_variable in Hx. rewrite Ev, Ep in Hx.
    match type of Hx with bind_out ?T _ = _ => destruct T; discriminate end.
  - intros (Hu & Hv & [t Ht] & [c Hc]). unfold Model_OtlpConfig.grpc_init. rewrite !He, !signal_variable.
    match goal with |- context [bind_out ?T _] => assert (Er : exists cr, T = Ok cr) end.
    { destruct (get_credentials_ok (ga_credentials creds a) (signal_var s) d Hf) as [g ->]. cbn [bind_out].
      destruct (match ga_insecure creds a with Some b => Some b | None => _ end) as [[|]|], (e (variable (Some s) Certificate)); eauto. }
    destruct Er as [cr ->]. cbn [bind_out].
    match goal with |- context [bind_out ?T _] => assert (Et : exists et, T = Ok et
      /\ et = match e (variable (Some s) Timeout) with Some v => pyint v | None => None end) end.
    { destruct (e (variable (Some s) Timeout)) as [v|]; [|eauto]. specialize (Hv v eq_refl). destruct (pyint v); [eauto|congruence]. }
    destruct Et as (et & -> & Het). cbn [bind_out].
    match goal with |- context [bind_out ?T _] => assert (Ec : exists c0, T = Ok c0
      /\ (c0 = None -> ga_compression creds a = None /\ e (variable (Some s) Compress) = None)) end.
    { unfold grpc_compression, choice in Hc. cbn [first_given unless_empty] in Hc. destruct (ga_compression creds a); [exists (Some g); split; [reflexivity|discriminate]|].
      unfold environ_to_compression. rewrite He. rewrite <- signal_variable in *. destruct (e (signal_var s Compress)) as [v|]; [|exists None; auto].
      destruct Hc as [E _]. rewrite E. exists (Some GGzip). split; [reflexivity|discriminate]. }
    destruct Ec as (c0 & -> & Hc0). cbn [bind_out].
    unfold mixin_init. cbn [ga_endpoint ga_insecure ga_credentials ga_headers ga_timeout ga_compression]. rewrite !He, !general_variable.
    match goal with |- context [urlparse ?A] => assert (Ad : A = grpc_address s (ga_endpoint creds a) e) end.
    { unfold grpc_address, or_str, unless_empty. cbn [first_given].
      destruct (ga_endpoint creds a) as [[|]|]; try reflexivity;
        (destruct (e (variable (Some s) Endpoint)) as [[|]|]; try reflexivity; destruct (e (variable None Endpoint)); reflexivity). }
    rewrite Ad. destruct (urlparse (grpc_address s (ga_endpoint creds a) e)) as [[sch net]|]; [|congruence].
    match goal with |- context [bind_out ?T _] => assert (Et : exists t, T = Ok t) end.
    { unfold grpc_wait in Ht. rewrite !or_int_zero, Het. destruct (unless_zero (ga_timeout creds a)) as [z|] eqn:Z0.
      - destruct (ga_timeout creds a) as [[]|]; cbn in Z0; try discriminate; injection Z0 as <-; cbn; eauto.
      - destruct (e (variable (Some s) Timeout)) as [v|].
        + destruct (unless_zero (pyint v)) as [z|] eqn:Z1; [eauto|].
          destruct (e (variable None Timeout)) as [v'|]; [rewrite Ht|]; eauto.
        + cbn [unless_zero]. destruct (e (variable None Timeout)) as [v'|]; [rewrite Ht|]; eauto. }
    destruct Et as [t' ->]. cbn [bind_out].
    match goal with |- context [bind_out ?T _] => assert (Ec : exists t, T = Ok t) end.
    { destruct c0 as [c0|]; [eauto|]. destruct (Hc0 eq_refl) as [A B]. unfold environ_to_compression. rewrite He.
      unfold grpc_compression, choice in Hc. cbn [first_given unless_empty] in Hc. rewrite A, B in Hc. rewrite <- ?general_variable in *.
      destruct (e (general_var Compress)) as [v|]; [|eauto]. destruct Hc as [E _]. rewrite E. eexists. reflexivity. }
    destruct Ec as [c1 ->]. cbn [bind_out].
    destruct (get_credentials_ok cr general_var d Hf) as [g ->]. cbn [bind_out].
    match goal with |- context [if ?b then Ok _ else Ok _] => destruct b end; eauto.
Qed.
End Grpc.
