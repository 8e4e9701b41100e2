From Verif Require Export Spec_Runtime Proof_TraceContext.

(** ** Heap *)
Lemma h_upd_last c h f : h_upd (length h) f (h ++ [c]) = h ++ [f c].
Proof. induction h as [|c' h IH]; [reflexivity|]. cbn. now rewrite IH. Qed.
Lemma h_get_app1 h e l : l < length h -> h_get (h ++ e) l = h_get h l.
Proof. intros Hl. unfold h_get. now apply app_nth1. Qed.
Lemma h_get_last h c : h_get (h ++ [c]) (length h) = c.
Proof. unfold h_get. rewrite app_nth2, Nat.sub_diag by lia. reflexivity. Qed.

Lemma hs_set_value_eq k v ctx h :
  hs_set_value k v ctx h =
  ((h ++ [dset k v (h_get h ctx)]) ++ [dset k v (h_get h ctx)], S (length h)).
Proof.
  unfold hs_set_value, h_copy, h_alloc. rewrite h_upd_last, h_get_last.
  rewrite app_length. cbn. f_equal. lia.
Qed.

Lemma hs_baggage_prefix ctx h : exists e, fst (hs_baggage ctx h) = h ++ e.
Proof.
  unfold hs_baggage, h_alloc. destruct (dget BAGGAGE_KEY (h_get h ctx)) as [[[]|b]|]; cbn [fst];
    try (eexists; reflexivity). exists []. now rewrite app_nil_r.
Qed.

Lemma hs_apply_prefix o ctx h : exists e, fst (hs_apply o ctx h) = h ++ e.
Proof.
  destruct o as [k v|n v|n|]; cbn [hs_apply].
  - rewrite hs_set_value_eq. cbn [fst]. rewrite <- app_assoc. eauto.
  - unfold hs_set_baggage. destruct (hs_baggage_prefix ctx h) as (e & E).
    destruct (hs_baggage ctx h) as [h1 b]. cbn [fst] in E. subst h1.
    unfold h_copy, h_alloc. rewrite h_upd_last, hs_set_value_eq. cbn [fst].
    rewrite <- !app_assoc. eauto.
  - unfold hs_remove_baggage. destruct (hs_baggage_prefix ctx h) as (e & E).
    destruct (hs_baggage ctx h) as [h1 b]. cbn [fst] in E. subst h1.
    unfold h_copy, h_alloc. rewrite h_upd_last, hs_set_value_eq. cbn [fst].
    rewrite <- !app_assoc. eauto.
  - unfold hs_clear, h_alloc. rewrite hs_set_value_eq. cbn [fst]. rewrite <- !app_assoc. eauto.
Qed.

Lemma hs_run_prefix calls h : exists e, fold_left hs_step calls h = h ++ e.
Proof.
  revert h. induction calls as [|c calls IH]; intros h; [exists []; now rewrite app_nil_r|].
  cbn [fold_left]. unfold hs_step at 2. destruct (Nat.ltb (fst c) (length h)); [|apply IH].
  destruct (hs_apply_prefix (snd c) (fst c) h) as (e & ->).
  destruct (IH (h ++ e)) as (e' & ->). rewrite <- app_assoc. eauto.
Qed.

(** Baggage references point to existing objects that hold no references. *)
Definition flat_cell (c : cell) : Prop := Forall (fun kv => exists o, snd kv = HImm o) c.
Definition cell_ok (h : heap) (c : cell) : Prop :=
  forall k b, In (k, HRef b) c -> b < length h /\ flat_cell (h_get h b).
Definition heap_ok (h : heap) : Prop := forall l, l < length h -> cell_ok h (h_get h l).

Lemma cell_ok_app h e c : cell_ok h c -> cell_ok (h ++ e) c.
Proof.
  intros Hc k b Hin. destruct (Hc k b Hin) as [Hl Hf]. rewrite app_length. split; [lia|].
  now rewrite h_get_app1.
Qed.
Lemma heap_ok_snoc h c : heap_ok h -> cell_ok h c -> heap_ok (h ++ [c]).
Proof.
  intros Hh Hc l Hl. rewrite app_length in Hl. cbn in Hl.
  destruct (Nat.eq_dec l (length h)) as [->|Hn].
  - rewrite h_get_last. now apply cell_ok_app.
  - rewrite h_get_app1 by lia. apply cell_ok_app, Hh. lia.
Qed.
Lemma In_dset_inv {V} (k : str) (v : V) d kv : In kv (dset k v d) -> snd kv = v \/ In kv d.
Proof.
  induction d as [|[k' v'] d IH]; cbn.
  - intros [<-|[]]. now left.
  - destruct (eq_dec k k').
    + intros [<-|H]; [now left|right; now right].
    + intros [<-|H]; [right; now left|]. destruct (IH H); [now left|right; now right].
Qed.
Lemma flat_cell_ok h c : flat_cell c -> cell_ok h c.
Proof.
  intros Hf k b Hin. unfold flat_cell in Hf. rewrite Forall_forall in Hf.
  destruct (Hf _ Hin) as (o & E). discriminate.
Qed.
Lemma flat_dset k o c : flat_cell c -> flat_cell (dset k (HImm o) c).
Proof.
  intros Hf. apply Forall_forall. intros kv Hin. apply In_dset_inv in Hin as [->|Hin]; [eauto|].
  unfold flat_cell in Hf. rewrite Forall_forall in Hf. now apply Hf.
Qed.
Lemma flat_ddel k c : flat_cell c -> flat_cell (ddel k c).
Proof.
  intros Hf. apply Forall_forall. intros kv Hin. apply In_ddel in Hin.
  unfold flat_cell in Hf. rewrite Forall_forall in Hf. now apply Hf.
Qed.
Lemma flat_imm (d : list (str * obj)) : flat_cell (map (fun kv => (fst kv, HImm (snd kv))) d).
Proof. apply Forall_forall. intros kv Hin. apply in_map_iff in Hin as (x & <- & _). cbn. eauto. Qed.

Lemma cell_ok_dset h k v c : cell_ok h c ->
  (match v with HImm _ => True | HRef b => b < length h /\ flat_cell (h_get h b) end) ->
  cell_ok h (dset k v c).
Proof.
  intros Hc Hv k' b Hin. apply In_dset_inv in Hin as [E|Hin]; [|now apply (Hc k')].
  cbn in E. subst v. exact Hv.
Qed.

Lemma hs_set_value_ok k v ctx h : heap_ok h -> ctx < length h ->
  (match v with HImm _ => True | HRef b => b < length h /\ flat_cell (h_get h b) end) ->
  heap_ok (fst (hs_set_value k v ctx h)) /\ snd (hs_set_value k v ctx h) < length (fst (hs_set_value k v ctx h)).
Proof.
  intros Hh Hc Hv. rewrite hs_set_value_eq. cbn [fst snd].
  assert (Hn : cell_ok h (dset k v (h_get h ctx))) by (apply cell_ok_dset; auto).
  split.
  - apply heap_ok_snoc; [now apply heap_ok_snoc|]. now apply cell_ok_app.
  - rewrite !app_length. cbn. lia.
Qed.

Lemma hs_baggage_ok ctx h : heap_ok h -> ctx < length h ->
  heap_ok (fst (hs_baggage ctx h)) /\ snd (hs_baggage ctx h) < length (fst (hs_baggage ctx h))
  /\ flat_cell (h_get (fst (hs_baggage ctx h)) (snd (hs_baggage ctx h))).
Proof.
  intros Hh Hc. unfold hs_baggage, h_alloc.
  destruct (dget BAGGAGE_KEY (h_get h ctx)) as [[o|b]|] eqn:E.
  - destruct o; cbn [fst snd]; (split; [apply heap_ok_snoc; auto; apply flat_cell_ok|
      split; [rewrite app_length; cbn; lia|rewrite h_get_last]]); try (now constructor); apply flat_imm.
  - apply dget_In in E. destruct (Hh ctx Hc _ _ E) as [Hb Hf]. cbn [fst snd]. auto.
  - cbn [fst snd]. split; [apply heap_ok_snoc; auto; apply flat_cell_ok; constructor|].
    split; [rewrite app_length; cbn; lia|]. rewrite h_get_last. constructor.
Qed.

Definition bag_update (f : cell -> cell) (ctx : nat) (h : heap) : heap * nat :=
  let (h1, b) := hs_baggage ctx h in
  let (h2, c) := h_copy b h1 in
  hs_set_value BAGGAGE_KEY (HRef c) ctx (h_upd c f h2).

Lemma bag_update_eq f ctx h h1 b : hs_baggage ctx h = (h1, b) ->
  bag_update f ctx h = hs_set_value BAGGAGE_KEY (HRef (length h1)) ctx (h1 ++ [f (h_get h1 b)]).
Proof.
  intros E. unfold bag_update. rewrite E. unfold h_copy, h_alloc. now rewrite h_upd_last.
Qed.

Lemma bag_update_ok f ctx h : heap_ok h -> ctx < length h ->
  (forall c, flat_cell c -> flat_cell (f c)) ->
  heap_ok (fst (bag_update f ctx h)) /\ snd (bag_update f ctx h) < length (fst (bag_update f ctx h)).
Proof.
  intros Hh Hc Hf. destruct (hs_baggage_ok ctx h Hh Hc) as (H1 & H2 & H3).
  destruct (hs_baggage_prefix ctx h) as (e & Ee).
  destruct (hs_baggage ctx h) as [h1 b] eqn:E. cbn [fst snd] in *.
  rewrite (bag_update_eq f ctx h h1 b E). apply hs_set_value_ok.
  - apply heap_ok_snoc; [assumption|]. apply flat_cell_ok. auto.
  - rewrite app_length, Ee, app_length. lia.
  - rewrite app_length, h_get_last. cbn. split; [lia|auto].
Qed.

Lemma hs_apply_ok o ctx h : heap_ok h -> ctx < length h ->
  heap_ok (fst (hs_apply o ctx h)) /\ snd (hs_apply o ctx h) < length (fst (hs_apply o ctx h)).
Proof.
  intros Hh Hc. destruct o as [k v|n v|n|]; cbn [hs_apply].
  - now apply hs_set_value_ok.
  - apply (bag_update_ok (dset n (HImm v))); auto. intros. now apply flat_dset.
  - apply (bag_update_ok (ddel n)); auto. intros. now apply flat_ddel.
  - unfold hs_clear, h_alloc. apply hs_set_value_ok.
    + apply heap_ok_snoc; [assumption|]. apply flat_cell_ok. constructor.
    + rewrite app_length. lia.
    + rewrite app_length, h_get_last. cbn. split; [lia|constructor].
Qed.

Lemma hs_run_ok calls h : heap_ok h -> heap_ok (fold_left hs_step calls h).
Proof.
  revert h. induction calls as [|c calls IH]; intros h Hh; [assumption|]. cbn [fold_left].
  apply IH. unfold hs_step. destruct (Nat.ltb_spec (fst c) (length h)); [|assumption].
  now apply hs_apply_ok.
Qed.
Lemma hs_init_ok : heap_ok hs_init.
Proof. intros l Hl. cbn in Hl. assert (l = 0) by lia. subst. intros k b []. Qed.

(** Reading *)
Lemma read_val_app h e v : (match v with HImm _ => True | HRef b => b < length h end) ->
  read_val (h ++ e) v = read_val h v.
Proof. destruct v as [o|b]; [reflexivity|]. intros Hb. cbn. now rewrite h_get_app1. Qed.
Lemma read_cell_app h e c : cell_ok h c ->
  map (fun kv => (fst kv, read_val (h ++ e) (snd kv))) c
  = map (fun kv => (fst kv, read_val h (snd kv))) c.
Proof.
  intros Hc. apply map_ext_in. intros [k v] Hin. f_equal. apply read_val_app.
  cbn [snd]. destruct v as [|b]; [exact I|]. destruct (Hc k b Hin). lia.
Qed.
Lemma read_context_app h e l : heap_ok h -> l < length h ->
  read_context (h ++ e) l = read_context h l.
Proof. intros Hh Hl. unfold read_context. rewrite h_get_app1 by assumption. apply read_cell_app, Hh, Hl. Qed.

Lemma map_dset {A B} (f : A -> B) (k : str) (v : A) (d : dict str A) :
  map (fun kv => (fst kv, f (snd kv))) (dset k v d)
  = dset k (f v) (map (fun kv => (fst kv, f (snd kv))) d).
Proof.
  induction d as [|[k' v'] d IH]; cbn; [reflexivity|].
  destruct (eq_dec k k'); cbn; [reflexivity|]. now rewrite IH.
Qed.
Lemma map_ddel {A B} (f : A -> B) (k : str) (d : dict str A) :
  map (fun kv => (fst kv, f (snd kv))) (ddel k d)
  = ddel k (map (fun kv => (fst kv, f (snd kv))) d).
Proof.
  induction d as [|[k' v'] d IH]; cbn; [reflexivity|].
  destruct (eq_dec k k'); cbn; [reflexivity|]. now rewrite IH.
Qed.
Lemma dget_map {A B} (f : A -> B) (k : str) (d : dict str A) :
  dget k (map (fun kv => (fst kv, f (snd kv))) d) = option_map f (dget k d).
Proof.
  induction d as [|[k' v'] d IH]; cbn; [reflexivity|]. destruct (eq_dec k k'); [reflexivity|exact IH].
Qed.

Lemma read_set_value k v ctx h : heap_ok h -> ctx < length h ->
  (match v with HImm _ => True | HRef b => b < length h end) ->
  read_context (fst (hs_set_value k v ctx h)) (snd (hs_set_value k v ctx h))
  = set_value k (read_val h v) (read_context h ctx).
Proof.
  intros Hh Hc Hv. rewrite hs_set_value_eq. cbn [fst snd].
  unfold read_context, set_value. replace (S (length h)) with (length (h ++ [dset k v (h_get h ctx)]))
    by (rewrite app_length; cbn; lia).
  rewrite h_get_last. rewrite (map_dset (read_val _)). rewrite <- app_assoc.
  rewrite read_cell_app by now apply Hh. now rewrite read_val_app.
Qed.

Lemma read_baggage ctx h h1 b : heap_ok h -> ctx < length h -> hs_baggage ctx h = (h1, b) ->
  map (fun kv => (fst kv, imm_of (snd kv))) (h_get h1 b) = get_all (read_context h ctx).
Proof.
  intros Hh Hc E. unfold hs_baggage, h_alloc in E. unfold get_all, get_value, read_context.
  rewrite (dget_map (read_val h)). destruct (dget BAGGAGE_KEY (h_get h ctx)) as [[o|b']|]; cbn [option_map read_val].
  - destruct o; injection E as <- <-; rewrite h_get_last; try reflexivity.
    rewrite map_map. cbn. clear. induction d as [|[k v] d IH]; [reflexivity|]. cbn. now rewrite IH.
  - injection E as <- <-. reflexivity.
  - injection E as <- <-. now rewrite h_get_last.
Qed.

Lemma read_bag_update f f' ctx h : heap_ok h -> ctx < length h ->
  (forall c, flat_cell c -> map (fun kv => (fst kv, imm_of (snd kv))) (f c)
     = f' (map (fun kv => (fst kv, imm_of (snd kv))) c)) ->
  (forall c, flat_cell c -> flat_cell (f c)) ->
  read_context (fst (bag_update f ctx h)) (snd (bag_update f ctx h))
  = set_value BAGGAGE_KEY (ODict (f' (get_all (read_context h ctx)))) (read_context h ctx).
Proof.
  intros Hh Hc Hf Hfl. destruct (hs_baggage_ok ctx h Hh Hc) as (H1 & H2 & H3).
  destruct (hs_baggage_prefix ctx h) as (e & Ee).
  destruct (hs_baggage ctx h) as [h1 b] eqn:E. cbn [fst snd] in *.
  rewrite (bag_update_eq f ctx h h1 b E). rewrite read_set_value.
  - cbn [read_val]. rewrite h_get_last, Hf by assumption.
    rewrite (read_baggage ctx h h1 b Hh Hc E). f_equal.
    rewrite read_context_app; [|assumption|rewrite Ee, app_length; lia].
    rewrite Ee. now apply read_context_app.
  - apply heap_ok_snoc; [assumption|]. apply flat_cell_ok. auto.
  - rewrite app_length, Ee, app_length. lia.
  - rewrite app_length. cbn. lia.
Qed.

Definition cop_spec (o : cop) (c : context) : context :=
  match o with
  | CSet k v => set_value k v c
  | CSetBag n v => set_baggage n v c
  | CRemBag n => remove_baggage n c
  | CClear => clear_baggage c
  end.

Lemma hs_apply_read o ctx h : heap_ok h -> ctx < length h ->
  read_context (fst (hs_apply o ctx h)) (snd (hs_apply o ctx h)) = cop_spec o (read_context h ctx).
Proof.
  intros Hh Hc. destruct o as [k v|n v|n|]; cbn [hs_apply cop_spec].
  - now rewrite read_set_value.
  - apply (read_bag_update (dset n (HImm v)) (dset n v)); auto.
    + intros c _. apply (map_dset imm_of).
    + intros. now apply flat_dset.
  - apply (read_bag_update (ddel n) (ddel n)); auto.
    + intros c _. apply (map_ddel imm_of).
    + intros. now apply flat_ddel.
  - unfold hs_clear, h_alloc. rewrite read_set_value.
    + cbn [read_val]. rewrite h_get_last. cbn [map]. unfold clear_baggage. f_equal.
      now apply read_context_app.
    + apply heap_ok_snoc; [assumption|]. apply flat_cell_ok. constructor.
    + rewrite app_length. lia.
    + rewrite app_length. cbn. lia.
Qed.

(** Immutability: whatever is called later, an existing context reads the same. *)
Lemma contexts_immutable before later l :
  let h := fold_left hs_step before hs_init in
  l < length h -> read_context (fold_left hs_step later h) l = read_context h l.
Proof.
  intros h Hl. destruct (hs_run_prefix later h) as (e & ->). apply read_context_app; [|exact Hl].
  apply hs_run_ok, hs_init_ok.
Qed.

Lemma call_result before o ctx :
  let h := fold_left hs_step before hs_init in
  ctx < length h ->
  let h' := fst (hs_apply o ctx h) in
  let r := snd (hs_apply o ctx h) in
  length h <= r < length h' /\ read_context h' r = cop_spec o (read_context h ctx)
  /\ forall l, l < length h -> read_context h' l = read_context h l.
Proof.
  intros h Hc h' r. assert (Hh : heap_ok h) by apply hs_run_ok, hs_init_ok.
  split; [|split].
  - split; [|now apply hs_apply_ok]. unfold r. destruct o as [k v|n v|n|]; cbn [hs_apply].
    + rewrite hs_set_value_eq. cbn. lia.
    + change (length h <= snd (bag_update (dset n (HImm v)) ctx h)).
      destruct (hs_baggage_prefix ctx h) as (e & Ee). destruct (hs_baggage ctx h) as [h1 b] eqn:E.
      rewrite (bag_update_eq _ _ _ _ _ E), hs_set_value_eq. cbn [fst snd] in *.
      rewrite app_length, Ee, app_length. lia.
    + change (length h <= snd (bag_update (ddel n) ctx h)).
      destruct (hs_baggage_prefix ctx h) as (e & Ee). destruct (hs_baggage ctx h) as [h1 b] eqn:E.
      rewrite (bag_update_eq _ _ _ _ _ E), hs_set_value_eq. cbn [fst snd] in *.
      rewrite app_length, Ee, app_length. lia.
    + unfold hs_clear, h_alloc. rewrite hs_set_value_eq, app_length. cbn. lia.
  - now apply hs_apply_read.
  - intros l Hl. unfold h'. destruct (hs_apply_prefix o ctx h) as (e & ->). now apply read_context_app.
Qed.

(** The laws of the operations, on what can be read. *)
Lemma cop_laws c :
  (forall k v, get_value k (set_value k v c) = v)
  /\ (forall k k' v, k' <> k -> get_value k' (set_value k v c) = get_value k' c)
  /\ (forall n v, get_baggage n (set_baggage n v c) = v)
  /\ (forall n n' v, n' <> n -> get_baggage n' (set_baggage n v c) = get_baggage n' c)
  /\ (forall n n', n' <> n -> get_baggage n' (remove_baggage n c) = get_baggage n' c)
  /\ (forall n, NoDup (keys (get_all c)) -> get_baggage n (remove_baggage n c) = ONone)
  /\ (forall n, get_baggage n (clear_baggage c) = ONone)
  /\ (forall k n v, k <> BAGGAGE_KEY -> get_value k (set_baggage n v c) = get_value k c
        /\ get_value k (remove_baggage n c) = get_value k c
        /\ get_value k (clear_baggage c) = get_value k c)
  /\ (forall k n v, k <> BAGGAGE_KEY -> get_baggage n (set_value k v c) = get_baggage n c).
Proof.
  assert (Hga : forall d, get_all (set_value BAGGAGE_KEY (ODict d) c) = d)
    by (intros d; unfold get_all; now rewrite get_value_set_eq).
  repeat split; intros.
  - apply get_value_set_eq.
  - now apply get_value_set_ne.
  - unfold get_baggage, set_baggage. now rewrite Hga, dget_dset_eq.
  - unfold get_baggage, set_baggage. now rewrite Hga, dget_dset_ne.
  - unfold get_baggage, remove_baggage. now rewrite Hga, dget_ddel_ne.
  - unfold get_baggage, remove_baggage. rewrite Hga, dget_ddel_eq; auto.
  - unfold get_baggage, clear_baggage. now rewrite Hga.
  - unfold set_baggage. now apply get_value_set_ne.
  - unfold remove_baggage. now apply get_value_set_ne.
  - unfold clear_baggage. now apply get_value_set_ne.
  - unfold get_baggage, get_all. now rewrite get_value_set_ne by congruence.
Qed.

(** ** Attach and detach *)
Lemma nth_mark_used_ne t i l : i <> t -> nth_error (mark_used t l) i = nth_error l i.
Proof.
  revert t i. induction l as [|k l IH]; intros t i Hn; [destruct t; reflexivity|].
  destruct t as [|t]; destruct i as [|i]; cbn; try reflexivity; [congruence|]. apply IH. congruence.
Qed.
Lemma nth_mark_used_eq t l k : nth_error l t = Some k ->
  nth_error (mark_used t l) t = Some (Tok (tk_unit k) (tk_old k) true).
Proof.
  revert t. induction l as [|k' l IH]; intros t E; [destruct t; discriminate|].
  destruct t as [|t]; cbn in *; [now injection E as ->|]. now apply IH.
Qed.

Lemma rt_step_isolated s o u : rop_unit o <> u -> rt_cur (rt_step s o) u = rt_cur s u.
Proof.
  intros Hn. destruct o as [v c|v t|v w]; cbn [rop_unit rt_step attach fst] in *.
  - cbn. unfold set_cur. destruct (Nat.eqb_spec u v); [congruence|reflexivity].
  - unfold detach, var_reset. destruct (nth_error (rt_toks s) t) as [k|]; [|reflexivity].
    destruct (tk_used k); [reflexivity|]. destruct (Nat.eqb_spec (tk_unit k) v); [|reflexivity].
    cbn. unfold set_cur. destruct (Nat.eqb_spec u v); [congruence|reflexivity].
  - cbn. unfold set_cur. destruct (Nat.eqb_spec u w); [congruence|reflexivity].
Qed.

(** A token of unit [u] is only changed by [u] detaching it. *)
Lemma rt_step_token s o t k : nth_error (rt_toks s) t = Some k ->
  o <> RDetach (tk_unit k) t -> nth_error (rt_toks (rt_step s o)) t = Some k.
Proof.
  intros Hk Ho. destruct o as [v c|v t'|v w]; cbn [rt_step attach fst].
  - cbn. rewrite nth_error_app1; [assumption|]. apply nth_error_Some. congruence.
  - unfold detach, var_reset. destruct (nth_error (rt_toks s) t') as [k'|] eqn:E; [|assumption].
    destruct (tk_used k'); [assumption|]. destruct (Nat.eqb_spec (tk_unit k') v) as [Ev|]; [|assumption].
    cbn. rewrite nth_mark_used_ne; [assumption|]. intros ->. rewrite Hk in E. injection E as <-. congruence.
  - exact Hk.
Qed.
Lemma rt_steps_token s ops t k : nth_error (rt_toks s) t = Some k ->
  ~ In (RDetach (tk_unit k) t) ops -> nth_error (rt_toks (fold_left rt_step ops s)) t = Some k.
Proof.
  revert s. induction ops as [|o ops IH]; intros s Hk Hn; [assumption|]. cbn [fold_left In] in *.
  apply IH; [|tauto]. apply rt_step_token; [assumption|]. intros ->. tauto.
Qed.

Lemma detach_restores u c s ops :
  let s1 := fst (attach u c s) in
  let t := snd (attach u c s) in
  ~ In (RDetach u t) ops ->
  get_current u s1 = c
  /\ get_current u (detach u t (fold_left rt_step ops s1)) = get_current u s.
Proof.
  intros s1 t Hn. split.
  - unfold s1. cbn. unfold get_current, set_cur. cbn. now rewrite Nat.eqb_refl.
  - assert (Hk : nth_error (rt_toks s1) t = Some (Tok u (rt_cur s u) false)).
    { unfold s1, t. cbn. rewrite nth_error_app2, Nat.sub_diag by lia. reflexivity. }
    apply (rt_steps_token s1 ops t) in Hk; [|exact Hn].
    unfold detach, var_reset. rewrite Hk. cbn [tk_used tk_unit tk_old]. rewrite Nat.eqb_refl.
    unfold get_current. cbn. unfold set_cur. now rewrite Nat.eqb_refl.
Qed.

Lemma detach_twice u t s : detach u t (detach u t s) = detach u t s.
Proof.
  unfold detach at 2 3. destruct (var_reset u t s) as [s'|] eqn:E; [|unfold detach; now rewrite E].
  unfold detach, var_reset. unfold var_reset in E.
  destruct (nth_error (rt_toks s) t) as [k|] eqn:Ek; [|discriminate].
  destruct (tk_used k); [discriminate|]. destruct (Nat.eqb (tk_unit k) u); [|discriminate].
  injection E as <-. cbn [rt_toks]. rewrite (nth_mark_used_eq _ _ _ Ek). reflexivity.
Qed.

Lemma nested_token u s s' : nested u s s' -> forall t k,
  nth_error (rt_toks s) t = Some k -> tk_unit k = u -> nth_error (rt_toks s') t = Some k.
Proof.
  induction 1 as [s|s c s2 s' _ IH1 _ IH2|s o s' Ho _ IH|s t' s' Hst _ IH]; intros t k Hk Hu.
  - exact Hk.
  - apply IH2; [|exact Hu].
    assert (H1 : nth_error (rt_toks s2) t = Some k).
    { apply IH1; [|exact Hu]. cbn. rewrite nth_error_app1; [assumption|].
      apply nth_error_Some. congruence. }
    apply (rt_step_token s2 (RDetach u (snd (attach u c s)))); [assumption|].
    intros E. injection E as _ E. cbn in E. subst t.
    assert (length (rt_toks s) < length (rt_toks s)); [|lia].
    apply nth_error_Some. congruence.
  - apply IH; [|exact Hu]. apply rt_step_token; [assumption|]. intros ->. now cbn in Ho.
  - apply IH; [|exact Hu]. destruct (Nat.eq_dec t' t) as [->|Hn].
    + unfold detach, var_reset. rewrite Hk. destruct (Hst k Hk) as [E|E].
      * now rewrite E.
      * destruct (tk_used k); [assumption|]. destruct (Nat.eqb_spec (tk_unit k) u); [congruence|assumption].
    + apply (rt_step_token s (RDetach u t')); [assumption|]. intros E. injection E as _ E. congruence.
Qed.

Lemma nested_restores u s s' : nested u s s' -> get_current u s' = get_current u s.
Proof.
  induction 1 as [s|s c s2 s' H1 IH1 _ IH2|s o s' Ho _ IH|s t s' Hst _ IH].
  - reflexivity.
  - rewrite IH2. assert (Hk : nth_error (rt_toks (fst (attach u c s))) (snd (attach u c s))
                         = Some (Tok u (rt_cur s u) false)).
    { cbn. rewrite nth_error_app2, Nat.sub_diag by lia. reflexivity. }
    apply (nested_token u _ _ H1) in Hk; [|reflexivity].
    unfold detach, var_reset. rewrite Hk. cbn [tk_used tk_unit tk_old]. rewrite Nat.eqb_refl.
    unfold get_current. cbn. unfold set_cur. now rewrite Nat.eqb_refl.
  - rewrite IH. unfold get_current. now apply rt_step_isolated.
  - rewrite IH. unfold detach, var_reset. destruct (nth_error (rt_toks s) t) as [k|] eqn:Ek; [|reflexivity].
    destruct (Hst k eq_refl) as [E|E].
    + now rewrite E.
    + destruct (tk_used k); [reflexivity|]. destruct (Nat.eqb_spec (tk_unit k) u); [congruence|reflexivity].
Qed.

(** ** use_span *)
Section US.
Variable span : Type.
Variable is_recording : span -> bool.
Variable record_exception : exc -> span -> span.
Variable set_error_status : str -> span -> span.
Variable end_span : span -> span.
Variable body : runtime -> span -> runtime * span * outcome.
Notation use := (use_span span is_recording record_exception set_error_status end_span body).

Lemma use_span_spec u me eoe re ss s sp :
  let s1 := fst (attach u (set_value SPAN_KEY me (get_current u s)) s) in
  let tok := snd (attach u (set_value SPAN_KEY me (get_current u s)) s) in
  let '(s2, sp2, out2) := body s1 sp in
  (exists ops, s2 = fold_left rt_step ops s1 /\ ~ In (RDetach u tok) ops) ->
  let '(s', sp', out) := use u me eoe re ss s sp in
  get_value SPAN_KEY (get_current u s1) = me
  /\ (forall k, k <> SPAN_KEY -> get_value k (get_current u s1) = get_value k (get_current u s))
  /\ get_current u s' = get_current u s
  /\ (forall v, v <> u -> get_current v s' = get_current v s2)
  /\ out = out2
  /\ (out2 = Returned -> sp' = if eoe then end_span sp2 else sp2)
  /\ (forall e, out2 = Raised e -> ex_error e && is_recording sp2 = false ->
        sp' = if eoe then end_span sp2 else sp2)
  /\ (forall e, out2 = Raised e -> ex_error e = true -> is_recording sp2 = true ->
        let a := if re then record_exception e sp2 else sp2 in
        let b := if ss then set_error_status (ex_type e ++ lit ": " ++ ex_msg e) a else a in
        sp' = if eoe then end_span b else b).
Proof.
  intros s1 tok. unfold use_span.
  change (attach u (set_value SPAN_KEY me (get_current u s)) s) with (s1, tok).
  destruct (body s1 sp) as [[s2 sp2] out2] eqn:Eb. intros (ops & -> & Hn).
  destruct (detach_restores u (set_value SPAN_KEY me (get_current u s)) s ops Hn) as [H1 H2].
  fold s1 tok in H1, H2. rewrite H1, Eb. cbn beta iota zeta. repeat split.
  - apply get_value_set_eq.
  - intros k Hk. now apply get_value_set_ne.
  - exact H2.
  - intros v Hv. unfold get_current. apply (rt_step_isolated _ (RDetach u tok)). cbn. congruence.
  - now intros ->.
  - intros e -> E. now rewrite E.
  - intros e -> E1 E2. cbn zeta. now rewrite E1, E2.
Qed.
End US.

(** ** Once *)
Record once_inv (s : once) : Prop := {
  oi_lock : forall t, (match o_pc s t with OCheck | ORun | ODone | ORelease _ => True | _ => False end)
              <-> o_lock s = Some t;
  oi_pc : forall t, match o_pc s t with
            | OFast | OWait | OCheck | ORelease None | ORaised => o_var s <> Some t
            | ORun => o_done s = false /\ o_var s = None
            | ODone => o_done s = false /\ o_var s = Some t
            | ORelease (Some r) | ORet r => o_done s = true /\ (r = true <-> o_var s = Some t)
            end;
  oi_done : o_done s = true -> exists t, o_var s = Some t;
  oi_nodone : o_done s = false -> forall t, o_var s = Some t -> o_pc s t = ODone;
  oi_func : forall t, In (t, EFunc) (o_hist s) <-> o_var s = Some t;
  oi_ret : forall t r, In (t, ERet r) (o_hist s) <-> o_pc s t = ORet r;
  oi_exc : forall t, In (t, EExc) (o_hist s) <-> o_pc s t = ORaised;
  oi_nodup : NoDup (o_hist s);
  oi_order : forall h1 h2 t r, o_hist s = h1 ++ (t, ERet r) :: h2 -> exists t', In (t', EFunc) h2
}.

Lemma once_init_inv : once_inv once_init.
Proof.
  constructor; cbn; intros; try tauto; try discriminate; try (split; [tauto|discriminate]).
  - constructor.
  - destruct h1; discriminate.
Qed.

Ltac once_pc t' t := destruct (Nat.eqb_spec t' t) as [?|?]; [subst t'|].

Lemma order_cons (ev : nat * oev) (h : list (nat * oev)) :
  (match ev with (_, ERet _) => exists t', In (t', EFunc) h | _ => True end) ->
  (forall h1 h2 t r, h = h1 ++ (t, ERet r) :: h2 -> exists t', In (t', EFunc) h2) ->
  forall h1 h2 t r, ev :: h = h1 ++ (t, ERet r) :: h2 -> exists t', In (t', EFunc) h2.
Proof.
  intros Hev Hh h1 h2 t r E. destruct h1 as [|e h1]; cbn in E.
  - injection E as -> ->. exact Hev.
  - injection E as _ E. eauto.
Qed.

Lemma once_step_inv s t fails s' : once_inv s -> once_step t fails s = Some s' -> once_inv s'.
Proof.
  intros [Hlock Hpc Hd Hnd Hf Hr He Hn Ho] Hst. unfold once_step in Hst.
  pose proof (Hpc t) as Pt. pose proof (Hlock t) as Lt.
  destruct (o_pc s t) as [ | | | | |r0|r0| ] eqn:Ep; try discriminate.
  - destruct (o_done s) eqn:Ed; injection Hst as <-.
    + constructor; cbn [o_lock o_pc o_done o_var o_hist]; unfold set_pc; auto; try discriminate.
      * intros t'. once_pc t' t; [|apply Hlock]. exact Lt.
      * intros t'. once_pc t' t; [|apply Hpc]. split; [reflexivity|]. split; [discriminate|tauto].
      * intros t'. cbn [In]. rewrite <- Hf. split; [intros [[=]|]|]; auto.
      * intros t' r. cbn [In]. once_pc t' t.
        -- split; [intros [[= <-]|H]|intros [= <-]]; auto. apply Hr in H. congruence.
        -- rewrite <- Hr. split; [intros [[=]|]|]; auto. congruence.
      * intros t'. cbn [In]. once_pc t' t.
        -- split; [intros [[=]|H]|intros [=]]. apply He in H. congruence.
        -- rewrite <- He. split; [intros [[=]|]|]; auto.
      * constructor; [|assumption]. intros H. apply Hr in H. congruence.
      * apply order_cons; [|assumption]. destruct (Hd eq_refl) as (t' & E). exists t'. now apply Hf.
    + constructor; cbn [o_lock o_pc o_done o_var o_hist]; unfold set_pc; auto; try discriminate.
      * intros t'. once_pc t' t; [|apply Hlock]. exact Lt.
      * intros t'. once_pc t' t; [|apply Hpc]. exact Pt.
      * intros _ t' E. once_pc t' t; [congruence|]. now apply Hnd.
      * intros t' r. once_pc t' t; [|apply Hr]. rewrite Hr. split; congruence.
      * intros t'. once_pc t' t; [|apply He]. rewrite He. split; congruence.
  - destruct (o_lock s) eqn:El; [discriminate|]. injection Hst as <-.
    constructor; cbn [o_lock o_pc o_done o_var o_hist]; unfold set_pc; auto; try discriminate.
    + intros t'. once_pc t' t; [tauto|]. rewrite Hlock. split; congruence.
    + intros t'. once_pc t' t; [|apply Hpc]. exact Pt.
    + intros E t' E'. once_pc t' t; [congruence|]. now apply Hnd.
    + intros t' r. once_pc t' t; [|apply Hr]. rewrite Hr. split; congruence.
    + intros t'. once_pc t' t; [|apply He]. rewrite He. split; congruence.
  - destruct (o_done s) eqn:Ed; injection Hst as <-.
    + constructor; cbn [o_lock o_pc o_done o_var o_hist]; unfold set_pc; auto; try discriminate.
      * intros t'. once_pc t' t; [|apply Hlock]. exact Lt.
      * intros t'. once_pc t' t; [|apply Hpc]. split; [reflexivity|]. split; [discriminate|tauto].
      * intros t' r. once_pc t' t; [|apply Hr]. rewrite Hr. split; congruence.
      * intros t'. once_pc t' t; [|apply He]. rewrite He. split; congruence.
    + constructor; cbn [o_lock o_pc o_done o_var o_hist]; unfold set_pc; auto; try discriminate.
      * intros t'. once_pc t' t; [|apply Hlock]. exact Lt.
      * intros t'. once_pc t' t; [|apply Hpc]. split; [reflexivity|].
        destruct (o_var s) as [t'|] eqn:Ev; [|reflexivity]. exfalso.
        pose proof (Hnd eq_refl t' eq_refl) as Hpt. pose proof (proj1 (Hlock t')) as Hl.
        rewrite Hpt in Hl. specialize (Hl I). apply proj1 in Lt. specialize (Lt I). congruence.
      * intros _ t' E'. once_pc t' t; [congruence|]. now apply Hnd.
      * intros t' r. once_pc t' t; [|apply Hr]. rewrite Hr. split; congruence.
      * intros t'. once_pc t' t; [|apply He]. rewrite He. split; congruence.
  - destruct Pt as [Pd Pv]. destruct fails; injection Hst as <-.
    + constructor; cbn [o_lock o_pc o_done o_var o_hist]; unfold set_pc; auto; try discriminate.
      * intros t'. once_pc t' t; [|apply Hlock]. exact Lt.
      * intros t'. once_pc t' t; [|apply Hpc]. congruence.
      * intros E t' E'. congruence.
      * intros t' r. once_pc t' t; [|apply Hr]. rewrite Hr. split; congruence.
      * intros t'. once_pc t' t; [|apply He]. rewrite He. split; congruence.
    + constructor; cbn [o_lock o_pc o_done o_var o_hist]; unfold set_pc; auto; try discriminate.
      * intros t'. once_pc t' t; [|apply Hlock]. exact Lt.
      * intros t'. once_pc t' t; [auto|]. specialize (Hpc t'). pose proof (Hlock t') as Lt'.
        apply proj1 in Lt. specialize (Lt I).
        destruct (o_pc s t') as [ | | | | |[r1|]|r1| ]; try congruence; try (exfalso; apply proj1 in Lt'; specialize (Lt' I); congruence).
        destruct Hpc; congruence.
      * congruence.
      * intros _ t' [= <-]. now rewrite Nat.eqb_refl.
      * intros t'. cbn [In]. split.
        -- intros [[= <-]|H]; [reflexivity|]. apply Hf in H. congruence.
        -- intros [= <-]. now left.
      * intros t' r. cbn [In]. once_pc t' t.
        -- split; [intros [[=]|H]|discriminate]. apply Hr in H. congruence.
        -- rewrite <- Hr. split; [intros [[=]|]|]; auto.
      * intros t'. cbn [In]. once_pc t' t.
        -- split; [intros [[=]|H]|discriminate]. apply He in H. congruence.
        -- rewrite <- He. split; [intros [[=]|]|]; auto.
      * constructor; [|assumption]. intros H. apply Hf in H. congruence.
      * now apply order_cons.
  - destruct Pt as [Pd Pv]. injection Hst as <-.
    constructor; cbn [o_lock o_pc o_done o_var o_hist]; unfold set_pc; auto; try discriminate.
    + intros t'. once_pc t' t; [|apply Hlock]. exact Lt.
    + intros t'. once_pc t' t; [tauto|]. specialize (Hpc t'). pose proof (Hlock t') as Lt'.
      apply proj1 in Lt. specialize (Lt I).
      destruct (o_pc s t') as [ | | | | |[r1|]|r1| ]; try assumption; try (exfalso; apply proj1 in Lt'; specialize (Lt' I); congruence).
      destruct Hpc; split; auto.
    + eauto.
    + intros t' r. once_pc t' t; [|apply Hr]. rewrite Hr. split; congruence.
    + intros t'. once_pc t' t; [|apply He]. rewrite He. split; congruence.
  - destruct r0 as [r0|]; injection Hst as <-.
    + destruct Pt as [Pd Pv]. constructor; cbn [o_lock o_pc o_done o_var o_hist]; unfold set_pc; auto; try discriminate.
      * intros t'. once_pc t' t; [split; [intros []|discriminate]|]. rewrite Hlock.
        apply proj1 in Lt. specialize (Lt I). split; congruence.
      * intros t'. once_pc t' t; [|apply Hpc]. auto.
      * intros E. congruence.
      * intros t'. cbn [In]. rewrite <- Hf. split; [intros [[=]|]|]; auto.
      * intros t' r. cbn [In]. once_pc t' t.
        -- split; [intros [[= <-]|H]|intros [= <-]]; auto. apply Hr in H. congruence.
        -- rewrite <- Hr. split; [intros [[=]|]|]; auto. congruence.
      * intros t'. cbn [In]. once_pc t' t.
        -- split; [intros [[=]|H]|intros [=]]. apply He in H. congruence.
        -- rewrite <- He. split; [intros [[=]|]|]; auto.
      * constructor; [|assumption]. intros H. apply Hr in H. congruence.
      * apply order_cons; [|assumption]. destruct (Hd Pd) as (t' & E). exists t'. now apply Hf.
    + constructor; cbn [o_lock o_pc o_done o_var o_hist]; unfold set_pc; auto; try discriminate.
      * intros t'. once_pc t' t; [split; [intros []|discriminate]|]. rewrite Hlock.
        apply proj1 in Lt. specialize (Lt I). split; congruence.
      * intros t'. once_pc t' t; [|apply Hpc]. auto.
      * intros E t' E'. once_pc t' t; [congruence|]. auto.
      * intros t'. cbn [In]. rewrite <- Hf. split; [intros [[=]|]|]; auto.
      * intros t' r. cbn [In]. once_pc t' t.
        -- split; [intros [[=]|H]|discriminate]. apply Hr in H. congruence.
        -- rewrite <- Hr. split; [intros [[=]|]|]; auto.
      * intros t'. cbn [In]. once_pc t' t.
        -- split; auto.
        -- rewrite <- He. split; [intros [[=]|]|]; auto. congruence.
      * constructor; [|assumption]. intros H. apply He in H. congruence.
      * now apply order_cons.
Qed.

Lemma once_reach_inv s : once_reach s -> once_inv s.
Proof. induction 1; [apply once_init_inv|]. eapply once_step_inv; eauto. Qed.

Lemma once_spec s : once_reach s ->
  (forall h1 h2 t, o_hist s = h1 ++ (t, EFunc) :: h2 -> forall t', ~ In (t', EFunc) (h1 ++ h2))
  /\ (forall t r, o_pc s t = ORet r -> (r = true <-> In (t, EFunc) (o_hist s)))
  /\ (forall h1 h2 t r, o_hist s = h1 ++ (t, ERet r) :: h2 -> exists t', In (t', EFunc) h2)
  /\ (forall t t', o_pc s t = ORun -> o_pc s t' = ORun -> t = t')
  /\ (forall t, o_pc s t = ORaised -> ~ In (t, EFunc) (o_hist s)).
Proof.
  intros H. apply once_reach_inv in H. destruct H as [Hlock Hpc Hd Hnd Hf Hr He Hn Ho].
  repeat split.
  - intros h1 h2 t E t' Hin.
    assert (Hv : o_var s = Some t) by (apply Hf; rewrite E; apply in_elt).
    assert (Hin' : In (t', EFunc) (o_hist s)).
    { rewrite E. apply in_app_iff in Hin. apply in_app_iff. cbn. tauto. }
    apply Hf in Hin'. assert (t' = t) by congruence. subst t'.
    rewrite E in Hn. apply NoDup_remove_2 in Hn. contradiction.
  - intros ->. apply Hf. specialize (Hpc t). rewrite H in Hpc. now apply Hpc.
  - intros Hin. apply Hf in Hin. specialize (Hpc t). rewrite H in Hpc. now apply Hpc.
  - exact Ho.
  - intros t t' E E'. pose proof (proj1 (Hlock t)) as A. pose proof (proj1 (Hlock t')) as B.
    rewrite E in A. rewrite E' in B. specialize (A I). specialize (B I). congruence.
  - intros t E Hin. apply Hf in Hin. specialize (Hpc t). rewrite E in Hpc. congruence.
Qed.

(** What the function wrote stays. *)
Lemma once_var_stable s t fails s' x : once_reach s -> once_step t fails s = Some s' ->
  o_var s = Some x -> o_var s' = Some x.
Proof.
  intros H Hst Hv. apply once_reach_inv in H. pose proof (oi_pc _ H t) as Pt.
  unfold once_step in Hst. destruct (o_pc s t) as [ | | | | |[r0|]|r0| ]; try discriminate;
    repeat match type of Hst with (if ?b then _ else _) = _ => destruct b
      | match ?b with _ => _ end = _ => destruct b end; try discriminate; injection Hst as <-; cbn; auto.
  destruct Pt; congruence.
Qed.

(** A failed call leaves the possibility of success: a state in which nobody holds the lock and
    the function has not completed lets any waiting call run it. *)
Lemma once_progress s : once_reach s ->
  (forall t, o_pc s t = OFast \/ o_pc s t = OWait \/ (exists r, o_pc s t = ORet r) \/ o_pc s t = ORaised
     \/ once_step t false s <> None)
  /\ (o_lock s = None -> forall t, o_pc s t = OWait -> once_step t false s <> None)
  /\ (forall t, o_lock s = Some t -> once_step t false s <> None).
Proof.
  intros H. apply once_reach_inv in H. repeat split.
  - intros t. unfold once_step. destruct (o_pc s t) as [ | | | | |[r0|]|r0| ]; eauto 8;
      try destruct (o_done s); do 4 right; discriminate.
  - intros El t Et. unfold once_step. rewrite Et, El. discriminate.
  - intros t El. pose proof (proj2 (oi_lock _ H t) El) as A. unfold once_step.
    destruct (o_pc s t) as [ | | | | |[r0|]|r0| ]; try contradiction; try destruct (o_done s); discriminate.
Qed.
