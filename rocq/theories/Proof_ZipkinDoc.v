(** Proofs about the documents for Zipkin. *)
From Verif Require Proof_Prometheus.
From Verif Require Import Proof_Dict Proof_Json Proof_Document Proof_Zipkin Props_Zipkin Spec_ZipkinTracing.
From Verif Require Import Spec_ZipkinDoc.
From Coq Require Import Lia Permutation.

Lemma bind_ok {A B} (a : A) (f : A -> outcome_of B) : bind_out (Ok a) f = f a.
Proof. reflexivity. Qed.

(** ** Texts *)
Lemma unicode_firstn n s : unicode s -> unicode (firstn n s).
Proof. intros U. apply Forall_forall. intros c I. apply (proj1 (Forall_forall _ _) U). rewrite <- (firstn_skipn n s). apply in_or_app. now left. Qed.
Lemma unicode_cut maxlen s : unicode s -> unicode (cut maxlen s).
Proof. intros U. destruct maxlen as [z|]; [|exact U]. cbn. destruct (0 <? z)%Z; [now apply unicode_firstn|exact U]. Qed.
Definition ascii (s : str) : Prop := Forall (fun c => (c < 128)%N) s.
Lemma ascii_unicode s : ascii s -> unicode s.
Proof. intros A. apply unicode_below. apply (Forall_impl _ (P := fun c => (c < 128)%N)); [lia|exact A]. Qed.
Lemma ascii_app a b : ascii a -> ascii b -> ascii (a ++ b).
Proof. intros A B. apply Forall_app. now split. Qed.
Definition asciib (s : str) : bool := forallb (fun c => N.ltb c 128) s.
Lemma asciib_ok s : asciib s = true -> ascii s.
Proof. intros H. apply Forall_forall. unfold asciib in H. rewrite forallb_forall in H. intros c I. specialize (H c I). apply N.ltb_lt, H. Qed.
Lemma ascii_join sep l : ascii sep -> Forall ascii l -> ascii (join sep l).
Proof.
  intros S F. induction F as [|x l U F IH]; [constructor|]. destruct l as [|y l]; [exact U|]. change (join sep (x :: y :: l)) with (x ++ sep ++ join sep (y :: l)).
  repeat apply ascii_app; assumption.
Qed.
Lemma hex_pad_ascii w n : ascii (hex_pad w n).
Proof.
  pose proof (Proof_Str.hex_pad_lhex w n) as F. rewrite forallb_forall in F. apply Forall_forall. intros c I. specialize (F c I).
  unfold is_lhex, is_digit, in_range in F. lia.
Qed.
Ltac lit_ascii := apply asciib_ok; vm_compute; reflexivity.
Lemma json_char_ascii c : ascii (json_char c).
Proof.
  unfold json_char. do 7 (match goal with |- ascii (if ?b then _ else _) => destruct b end; [lit_ascii|]).
  match goal with |- ascii (if ?b then _ else _) => destruct b eqn:E1 end; [|match goal with |- ascii (if ?b then _ else _) => destruct b eqn:E2 end].
  - constructor; [|constructor]. lia.
  - apply ascii_app; [lit_ascii|apply hex_pad_ascii].
  - apply ascii_app; [lit_ascii|]. apply ascii_app; [apply hex_pad_ascii|]. apply ascii_app; [lit_ascii|apply hex_pad_ascii].
Qed.
Lemma json_array_ascii l : ascii (json_array l).
Proof.
  unfold json_array. apply ascii_app; [lit_ascii|]. apply ascii_app; [|lit_ascii]. apply ascii_join; [lit_ascii|]. apply Forall_map. apply Forall_forall. intros [s|] _; [|lit_ascii].
  unfold json_item, json_string. apply ascii_app; [lit_ascii|]. apply ascii_app; [|lit_ascii]. apply Forall_flat_map. apply Forall_forall. intros c _. apply json_char_ascii.
Qed.
Lemma hexd_ascii c v : hexd c v -> (c < 128)%N.
Proof. intros H. apply hexd_val in H as [H _]. unfold is_hex, is_lhex, is_digit, in_range in H. lia. Qed.
Lemma u_escape_ascii v : (v < 65536)%N -> ascii (u_escape v).
Proof.
  intros H. destruct (u_escape_text v H) as (a & b & c & d & w & x & y & z & -> & A & B & C & D & _). apply ascii_app; [lit_ascii|].
  repeat constructor; eapply hexd_ascii; eassumption.
Qed.
Lemma esc_char_ascii c : (c <= 1114111)%N -> ascii (esc_char c).
Proof.
  intros H. unfold esc_char. do 7 (match goal with |- ascii (if ?b then _ else _) => destruct b end; [lit_ascii|]).
  match goal with |- ascii (if ?b then _ else _) => destruct b eqn:E1 end; [|match goal with |- ascii (if ?b then _ else _) => destruct b eqn:E2 end].
  - constructor; [|constructor]. unfold in_range in *. lia.
  - apply u_escape_ascii. lia.
  - apply ascii_app; apply u_escape_ascii.
    + assert (((c - 65536) / 1024 < 1024)%N) by (apply N.div_lt_upper_bound; lia). lia.
    + pose proof (N.mod_lt (c - 65536) 1024). lia.
Qed.
Lemma dump_str_ascii s : unicode s -> ascii (dump_str s).
Proof.
  intros U. unfold dump_str. apply ascii_app; [lit_ascii|]. apply ascii_app; [|lit_ascii]. apply Forall_flat_map. apply Forall_forall. intros c I. apply esc_char_ascii.
  apply (proj1 (Forall_forall _ _) U c I).
Qed.
Lemma digit_ascii c : digit c -> (c < 128)%N.
Proof. intros D. apply digit_iff in D. lia. Qed.
Lemma digits_ascii s : Forall digit s -> ascii s.
Proof. apply Forall_impl. exact digit_ascii. Qed.
Lemma dump_int_ascii z : ascii (dump_int z).
Proof.
  assert (D : forall n, ascii (dec n)) by (intros n; destruct (dec_ok n) as [[[_ D] _] _]; now apply digits_ascii).
  destruct z; cbn [dump_int]; [apply D|apply D|apply ascii_app; [lit_ascii|apply D]].
Qed.
Lemma float_text_ascii s : Spec_Json.float_text s -> ascii s.
Proof.
  intros (neg & i & fe & [[_ I] _] & -> & H).
  assert (M : ascii (minus neg)) by (destruct neg; lit_ascii).
  assert (F : forall f, frac_part f -> ascii f) by (intros f (ds & [_ D] & ->); apply ascii_app; [lit_ascii|now apply digits_ascii]).
  assert (X : forall f, exp_part f -> ascii f).
  { intros f (e & sg & ds & He & Hs & [_ D] & ->). apply ascii_app; [destruct He as [->| ->]; lit_ascii|]. apply ascii_app; [|now apply digits_ascii].
    destruct Hs as [->|[->| ->]]; lit_ascii. }
  apply ascii_app; [exact M|]. apply ascii_app; [now apply digits_ascii|]. destruct H as [H|[H|(f & e & Hf & He & ->)]]; [auto|auto|apply ascii_app; auto].
Qed.

Section Doc.
Variable kind : Z -> float_kind.
Variable read_float : str -> Z.
Variable nan inf neg_inf : Z.
Hypothesis PF : python_floats kind read_float nan inf neg_inf.
Notation means := (float_of read_float nan inf neg_inf).
Notation none := (fun _ : Z => False).

Lemma dump_ascii level j : every (texts unicode) j -> ascii (dump kind None level j).
Proof.
  revert level. induction j as [|b|z|f|s|l IH|l IH] using jv_rect'; intros level T; cbn [dump].
  - lit_ascii.
  - destruct b; lit_ascii.
  - apply dump_int_ascii.
  - unfold dump_float. pose proof (PF f) as P. destruct (kind f); try lit_ascii. now apply float_text_ascii.
  - apply dump_str_ascii. apply every_self in T. now apply T.
  - destruct l as [|x l]; [lit_ascii|]. apply every_arr in T as [_ T]. apply ascii_app; [lit_ascii|]. apply ascii_app; [constructor|]. apply ascii_app; [|apply ascii_app; [constructor|lit_ascii]]. apply ascii_join; [lit_ascii|].
    apply Forall_map. apply Forall_forall. intros y I. rewrite Forall_forall in IH, T. now apply IH, T.
  - destruct l as [|x l]; [lit_ascii|]. apply every_obj in T as [[_ T0] T]. specialize (T0 _ eq_refl). apply ascii_app; [lit_ascii|]. apply ascii_app; [constructor|]. apply ascii_app; [|apply ascii_app; [constructor|lit_ascii]]. apply ascii_join; [lit_ascii|].
    apply Forall_map. apply Forall_forall. intros [k y] I. rewrite Forall_forall in IH, T, T0. specialize (T0 _ I). specialize (IH _ I). specialize (T _ I). cbn [fst snd] in *.
    apply ascii_app; [now apply dump_str_ascii|]. apply ascii_app; [lit_ascii|]. now apply IH.
Qed.
Lemma fine_texts allowed j : fine allowed j -> every (texts unicode) j.
Proof. apply every_impl. now intros x (A & _ & _). Qed.

(** ** The tags *)
Variable int_text float_text : Z -> str.
Hypothesis IT : forall z, unicode (int_text z).
Hypothesis FT : forall z, unicode (float_text z).
Definition tags_unicode (d : dict str (option str)) : Prop := Forall (fun kv => unicode (fst kv) /\ unicode_opt (snd kv)) d.
Lemma tag_text_unicode allowed maxlen v t : sayable allowed v -> tag_text int_text float_text maxlen v = Some t -> unicode t.
Proof.
  intros S H. unfold tag_text in H. destruct S; cbn [scalar_text] in H; try discriminate.
  - injection H as <-. apply unicode_cut. destruct b; apply unicodeb_ok; reflexivity.
  - injection H as <-. apply unicode_cut, IT.
  - injection H as <-. apply unicode_cut, FT.
  - injection H as <-. now apply unicode_cut.
  - unfold seq_text in H. assert (A : forall x, unicode (cut maxlen (json_array x))) by (intros; apply unicode_cut, ascii_unicode, json_array_ascii).
    destruct maxlen as [[|[p|p|]|p]|]; try discriminate; injection H as <-; apply A.
Qed.
Lemma dset_unicode k v d : unicode k -> unicode_opt v -> tags_unicode d -> tags_unicode (dset k v d).
Proof.
  intros K V D. induction D as [|[k' v'] d [D1 D2] D IH]; cbn; [repeat constructor; assumption|]. destruct (eq_dec k k') as [->|N]; constructor; auto.
Qed.
Lemma tags_of_dict_unicode allowed maxlen d : sayable_attrs allowed d -> tags_unicode (tags_of_dict int_text float_text maxlen d).
Proof.
  intros [_ F]. unfold tags_of_dict. assert (T : tags_unicode []) by constructor. revert T. generalize (@nil (str * option str)) as t.
  induction F as [|[k v] d [K V] F IH]; intros t T; [exact T|]. cbn [fold_left fst snd]. apply IH. cbn [fst snd] in *.
  destruct (tag_text int_text float_text maxlen v) as [s|] eqn:E; [|exact T]. apply dset_unicode; [exact K| |exact T].
  intros s' [= <-]. eapply tag_text_unicode; eassumption.
Qed.
Lemma dupdate_unicode l : forall d, tags_unicode d -> tags_unicode l -> tags_unicode (dupdate d l).
Proof.
  induction l as [|[k v] l IH]; intros d D L; [exact D|]. inversion L as [|? ? [K V] L']; subst. apply IH; [|exact L']. now apply dset_unicode.
Qed.
Lemma fixed_unicode allowed x : writable_span allowed x -> tags_unicode (fixed_tags int_text x).
Proof.
  intros (_ & _ & _ & _ & _ & _ & _ & SC & ST & _). unfold fixed_tags.
  assert (U : forall k v, unicodeb k = true -> unicode_opt v -> unicode (fst (k, v)) /\ unicode_opt (snd (k, v))) by (intros k v K V; split; [now apply unicodeb_ok|exact V]).
  assert (SO : forall s, unicode s -> unicode_opt (Some s)) by (intros s Us s' [= <-]; exact Us).
  assert (C : forall b k n, unicodeb k = true -> tags_unicode (opt_tag b k (count_text int_text n))).
  { intros [] k n K; constructor; [|constructor]. apply U; [exact K|]. apply SO, IT. }
  apply Forall_app. split.
  { destruct (rs_scope x) as [sc|]; [|constructor]. destruct (SC sc eq_refl). repeat (constructor; [apply U; [reflexivity|auto]|]). constructor. }
  apply Forall_app. split.
  { destruct (st_code (sp_status (rs_span x))); [constructor| |].
    - constructor; [|constructor]. apply U; [reflexivity|]. apply SO, unicodeb_ok. reflexivity.
    - constructor; [|constructor; [|constructor]]; apply U; try reflexivity; apply SO; [apply unicodeb_ok; reflexivity|].
      destruct (st_desc (sp_status (rs_span x))) eqn:E; try constructor. now apply (ST _ _ eq_refl). }
  apply Forall_app. split; [now apply C|]. apply Forall_app. split; now apply C.
Qed.
Lemma span_tags_unicode allowed maxlen x : writable_span allowed x -> tags_unicode (tags_of_span int_text float_text maxlen x).
Proof.
  intros W. unfold tags_of_span. apply dupdate_unicode; [apply dupdate_unicode|now apply (fixed_unicode allowed)]; eapply tags_of_dict_unicode; apply W.
Qed.

(** ** Annotations *)
Definition numbers_if (python : bool) : Z -> Prop := if python then any_float else a_number kind.
Lemma numbers_if_ok python : python = false -> forall f, numbers_if python f -> a_number kind f.
Proof. intros -> f H. exact H. Qed.
Lemma sorted_sayable allowed d : sayable_attrs allowed d -> sayable_attrs allowed (Model_Prometheus.sort_items d).
Proof.
  intros [N F]. pose proof (Proof_Prometheus.sort_perm d) as P. split.
  - eapply Permutation_NoDup; [apply Permutation_sym, Permutation_map, P|exact N].
  - eapply Permutation_Forall; [apply Permutation_sym, P|exact F].
Qed.
Definition endpoint_of (ep : option jv) : list (str * jv) := match ep with Some e => [(lit "endpoint", e)] | None => [] end.
Lemma annotation_made python ep a : (forall e, ep = Some e -> fine none e) -> unicode (an_name a) -> sayable_attrs (numbers_if python) (an_attrs a) ->
  exists j, annotation_json kind (endpoint_of ep) a = Ok j /\ object_of (annotation_member (json_text python means) ep a) j /\ fine none j.
Proof.
  intros FE UN SA. destruct (attrs_json_made (numbers_if python) _ (sorted_sayable _ _ SA)) as (attrs & E & S & F).
  unfold annotation_json. rewrite E, bind_ok. eexists. split; [reflexivity|].
  assert (FI : fine (numbers_if python) (JObj [(an_name a, attrs)])).
  { apply fine_obj; [constructor; [easy|constructor]|constructor; [exact UN|constructor]|constructor; [exact F|constructor]]. }
  pose proof (fine_text kind read_float nan inf neg_inf PF (numbers_if python) python None _ (numbers_if_ok python) FI) as T.
  split.
  - eexists. split; [reflexivity|]. split; [destruct ep; apply nodupb_ok; reflexivity|]. split.
    + intros k v I. cbn [app In] in I. destruct I as [I|[I|I]].
      * injection I as <- <-. constructor.
      * injection I as <- <-. eapply am_value; [exact T|exact S|apply Proof_Prometheus.sort_perm|apply Proof_Prometheus.sort_sorted].
      * destruct ep as [e|]; [|contradiction]. destruct I as [I|[]]. injection I as <- <-. now constructor.
    + intros k v M. inversion M; subst; eexists; cbn [app In endpoint_of]; eauto.
  - assert (UT : unicode (dumps kind None (JObj [(an_name a, attrs)]))) by (apply ascii_unicode, dump_ascii; eapply fine_texts; exact FI).
    apply fine_obj_lit; [destruct ep; reflexivity|]. cbn [map app snd]. constructor; [apply fine_int|]. constructor; [now apply fine_str|].
    destruct ep as [e|]; cbn; constructor; auto.
Qed.
Lemma annotations_made python ep l : (forall e, ep = Some e -> fine none e) ->
  Forall (fun a => unicode (an_name a) /\ sayable_attrs (numbers_if python) (an_attrs a)) l ->
  exists js, map_out (annotation_json kind (endpoint_of ep)) l = Ok js
  /\ Forall2 (fun a => object_of (annotation_member (json_text python means) ep a)) l js /\ Forall (fine none) js.
Proof.
  intros FE F. induction F as [|a l [U S] F (js & E & F2 & Ff)]; [exists []; repeat constructor|].
  destruct (annotation_made python ep a FE U S) as (j & Ej & Oj & Fj). exists (j :: js). cbn [map_out]. rewrite Ej, bind_ok, E, bind_ok. split; [reflexivity|]. split; now constructor.
Qed.
Lemma cut_sayable allowed maxlen d : sayable_attrs allowed d -> sayable_attrs allowed (map (fun kv => (fst kv, cut_val maxlen (snd kv))) d).
Proof.
  intros [N F]. split; [rewrite map_map; exact N|]. apply Forall_map. apply (Forall_impl _ (P := fun kv => unicode (fst kv) /\ sayable allowed (snd kv))); [|exact F].
  intros [k v] [K V]. split; [exact K|]. cbn [snd] in *. destruct V; cbn; try constructor; auto. now apply unicode_cut.
Qed.
Lemma span_annotations python maxlen x : writable_span (numbers_if python) x ->
  Forall (fun a => unicode (an_name a) /\ sayable_attrs (numbers_if python) (an_attrs a)) (annotations_of maxlen (bl_items (sp_events (rs_span x)))).
Proof.
  intros (_ & _ & _ & _ & _ & _ & _ & _ & _ & F). unfold annotations_of. apply Forall_map. eapply Forall_impl; [|exact F].
  intros e [U S]. split; [exact U|]. now apply cut_sayable.
Qed.

(** ** Spans *)
Definition zspan_ok (python : bool) (z : zspan) : Prop :=
  unicode (z_trace z) /\ unicode (z_id z) /\ unicode (z_name z) /\ unicode_opt (z_kind z) /\ unicode_opt (z_parent z)
  /\ tags_unicode (z_tags z)
  /\ Forall (fun a => unicode (an_name a) /\ sayable_attrs (numbers_if python) (an_attrs a)) (z_annotations z).
Ltac one_of I := cbn [app In] in I; repeat (destruct I as [I|I]; [injection I as <- <-|]).

Lemma v2_object python ep z : fine none ep -> NoDup (keys (z_tags z)) -> zspan_ok python z ->
  exists j, v2_json kind ep z = Ok j /\ object_of (v2_member (json_text python means) ep z) j /\ fine none j.
Proof.
  intros FE ND (U1 & U2 & U3 & U4 & U5 & UT & UA).
  destruct (annotations_made python None (z_annotations z) ltac:(discriminate) UA) as (an & E & F2 & Ff).
  unfold v2_json. change (@nil (str * jv)) with (endpoint_of None) at 1. rewrite E, bind_ok. eexists. split; [reflexivity|].
  assert (K : or_null str_says (z_kind z) (opt_json JStr (z_kind z)) /\ fine none (opt_json JStr (z_kind z))).
  { destruct (z_kind z) as [k|]; cbn; split; try reflexivity; [apply fine_str, U4; reflexivity|apply fine_null]. }
  assert (TS : Forall2 (fun t m => fst m = fst t /\ or_null str_says (snd t) (snd m)) (z_tags z) (map (fun kv => (fst kv, tag_json (snd kv))) (z_tags z))).
  { clear. induction (z_tags z) as [|[k v] l IH]; constructor; [|exact IH]. split; [reflexivity|]. destruct v; reflexivity. }
  assert (TF : fine none (JObj (map (fun kv => (fst kv, tag_json (snd kv))) (z_tags z)))).
  { apply fine_obj; [rewrite map_map; exact ND| |].
    - rewrite map_map. apply Forall_map. eapply Forall_impl; [|exact UT]. intros kv H. exact (proj1 H).
    - rewrite map_map. apply Forall_map. eapply Forall_impl; [|exact UT]. intros [k v] [_ H]. cbn [snd]. destruct v as [v|]; [apply fine_str, H; reflexivity|apply fine_null]. }
  split.
  - eexists. split; [reflexivity|]. split; [destruct (z_tags z), an, (z_debug z), (z_parent z); apply nodupb_ok; reflexivity|]. split.
    + intros k v I. apply in_app_iff in I. destruct I as [I|I].
      { one_of I; [..|contradiction]; try (apply v2_both; constructor); [apply v2_endpoint|apply v2_kind, K]. }
      apply in_app_iff in I. destruct I as [I|I].
      { destruct (z_tags z) as [|t0 tl] eqn:ET; [contradiction|]. destruct I as [I|[]]. injection I as <- <-. apply v2_tags; rewrite ET; [discriminate|exact TS]. }
      apply in_app_iff in I. destruct I as [I|I].
      { destruct an as [|a0 al]; [contradiction|]. destruct I as [I|[]]. injection I as <- <-. apply v2_both, sm_annotations; [|exact F2].
        intros N. rewrite N in F2. inversion F2. }
      apply in_app_iff in I. destruct I as [I|I].
      { destruct (z_debug z) eqn:D; [|contradiction]. destruct I as [I|[]]. injection I as <- <-. now apply v2_both, sm_debug. }
      destruct (z_parent z) as [p|] eqn:P; [|contradiction]. destruct I as [I|[]]. injection I as <- <-. now apply v2_both, sm_parent.
    + intros k v M. inversion M as [k0 v0 M0| |j0 H|l H H0]; subst.
      * inversion M0; subst; try solve [eexists; apply in_or_app; left; cbn [In]; eauto 10].
        -- eexists. apply in_or_app. right. apply in_or_app. right. apply in_or_app. left. destruct an as [|a0 al]; [inversion F2; congruence|]. left. reflexivity.
        -- eexists. do 3 (apply in_or_app; right). apply in_or_app. left. rewrite H. left. reflexivity.
        -- eexists. do 4 (apply in_or_app; right). rewrite H. left. reflexivity.
      * eexists. apply in_or_app. left. cbn [In]. eauto 10.
      * eexists. apply in_or_app. left. cbn [In]. eauto 10.
      * exists (JObj (map (fun kv => (fst kv, tag_json (snd kv))) (z_tags z))). apply in_or_app. right. apply in_or_app. left. destruct (z_tags z); [congruence|]. left. reflexivity.
  - apply fine_obj_lit; [destruct (z_tags z), an, (z_debug z), (z_parent z); reflexivity|]. rewrite !map_app. repeat (apply Forall_app; split).
    + repeat (constructor; [first [apply fine_int|apply fine_str; assumption|exact FE|apply K]|]). constructor.
    + destruct (z_tags z); [constructor|]. constructor; [exact TF|constructor].
    + destruct an; [constructor|]. constructor; [now apply fine_arr|constructor].
    + destruct (z_debug z); constructor; [apply fine_bool|constructor].
    + destruct (z_parent z) as [p|]; constructor; [apply fine_str, U5; reflexivity|constructor].
Qed.

Lemma v1_object python ep z : fine none ep -> zspan_ok python z ->
  exists j, v1_json kind ep z = Ok j /\ object_of (v1_member (json_text python means) ep z) j /\ fine none j.
Proof.
  intros FE (U1 & U2 & U3 & U4 & U5 & UT & UA).
  destruct (annotations_made python (Some ep) (z_annotations z) ltac:(now intros e [= <-]) UA) as (an & E & F2 & Ff).
  unfold v1_json. change (map_out (annotation_json kind [(lit "endpoint", ep)]) (z_annotations z)) with (map_out (annotation_json kind (endpoint_of (Some ep))) (z_annotations z)). rewrite E, bind_ok.
  set (tags := map _ (z_tags z)). eexists. split; [reflexivity|].
  assert (TS : Forall2 (fun t j => exists v, j = JObj [(lit "key", JStr (fst t)); (lit "value", v); (lit "endpoint", ep)] /\ or_null str_says (snd t) v) (z_tags z) tags).
  { unfold tags. clear. induction (z_tags z) as [|[k v] l IH]; constructor; [|exact IH]. eexists. split; [reflexivity|]. destruct v; reflexivity. }
  assert (TF : fine none (JArr tags)).
  { apply fine_arr. unfold tags. apply Forall_map. eapply Forall_impl; [|exact UT]. intros [k v] [H1 H2]. cbn [fst snd] in *.
    apply fine_obj_lit; [reflexivity|]. constructor; [now apply fine_str|]. constructor; [|constructor; [exact FE|constructor]].
    destruct v as [v|]; [apply fine_str, H2; reflexivity|apply fine_null]. }
  assert (TN : tags = [] <-> z_tags z = []).
  { unfold tags. destruct (z_tags z); split; try reflexivity; discriminate. }
  clearbody tags. split.
  - eexists. split; [reflexivity|]. split; [destruct tags, an, (z_debug z), (z_parent z); apply nodupb_ok; reflexivity|]. split.
    + intros k v I. apply in_app_iff in I. destruct I as [I|I].
      { one_of I; [..|contradiction]; apply v1_both; constructor. }
      apply in_app_iff in I. destruct I as [I|I].
      { destruct an as [|a0 al]; [contradiction|]. destruct I as [I|[]]. injection I as <- <-. apply v1_both, sm_annotations; [|exact F2].
        intros N. rewrite N in F2. inversion F2. }
      apply in_app_iff in I. destruct I as [I|I].
      { destruct tags as [|t0 tl]; [contradiction|]. destruct I as [I|[]]. injection I as <- <-. apply v1_binary; [|exact TS]. intros N. apply TN in N. discriminate. }
      apply in_app_iff in I. destruct I as [I|I].
      { destruct (z_debug z) eqn:D; [|contradiction]. destruct I as [I|[]]. injection I as <- <-. now apply v1_both, sm_debug. }
      destruct (z_parent z) as [p|] eqn:P; [|contradiction]. destruct I as [I|[]]. injection I as <- <-. now apply v1_both, sm_parent.
    + intros k v M. inversion M as [k0 v0 M0|l H H0]; subst.
      * inversion M0; subst; try solve [eexists; apply in_or_app; left; cbn [In]; eauto 10].
        -- exists (JArr an). apply in_or_app. right. apply in_or_app. left. destruct an as [|a0 al]; [inversion F2; congruence|]. left. reflexivity.
        -- eexists. do 3 (apply in_or_app; right). apply in_or_app. left. rewrite H. left. reflexivity.
        -- eexists. do 4 (apply in_or_app; right). rewrite H. left. reflexivity.
      * exists (JArr tags). apply in_or_app. right. apply in_or_app. right. apply in_or_app. left. destruct tags; [tauto|]. left. reflexivity.
  - apply fine_obj_lit; [destruct tags, an, (z_debug z), (z_parent z); reflexivity|]. rewrite !map_app. repeat (apply Forall_app; split).
    + repeat (constructor; [first [apply fine_int|apply fine_str; assumption]|]). constructor.
    + destruct an; [constructor|]. constructor; [now apply fine_arr|constructor].
    + destruct tags; [constructor|]. constructor; [exact TF|constructor].
    + destruct (z_debug z); constructor; [apply fine_bool|constructor].
    + destruct (z_parent z) as [p|]; constructor; [apply fine_str, U5; reflexivity|constructor].
Qed.

(** ** The body *)
Lemma endpoint_made n : writable_node n -> exists ep, endpoint_json n = Ok ep /\ object_of (endpoint_member n) ep /\ fine none ep.
Proof.
  intros (S & U4 & U6). destruct (pv_json_made none _ S) as (j & E & V & F). unfold endpoint_json. rewrite E, bind_ok. eexists. split; [reflexivity|].
  split.
  - eexists. split; [reflexivity|]. split; [destruct (nd_ipv4 n), (nd_ipv6 n), (nd_port n); apply nodupb_ok; reflexivity|]. split.
    + intros k v I. apply in_app_iff in I. destruct I as [[I|[]]|I]; [injection I as <- <-; now constructor|].
      apply in_app_iff in I. destruct I as [I|I].
      { destruct (nd_ipv4 n) eqn:D; [|contradiction]. destruct I as [I|[]]. injection I as <- <-. now constructor. }
      apply in_app_iff in I. destruct I as [I|I].
      { destruct (nd_ipv6 n) eqn:D; [|contradiction]. destruct I as [I|[]]. injection I as <- <-. now constructor. }
      destruct (nd_port n) eqn:D; [|contradiction]. destruct I as [I|[]]. injection I as <- <-. now constructor.
    + intros k v M. inversion M as [j' H|a H|a H|p H]; subst.
      * exists j. left. reflexivity.
      * exists (JStr a). apply in_or_app. right. apply in_or_app. left. rewrite H. left. reflexivity.
      * exists (JStr a). apply in_or_app. right. apply in_or_app. right. apply in_or_app. left. rewrite H. left. reflexivity.
      * exists (JInt p). apply in_or_app. right. apply in_or_app. right. apply in_or_app. right. rewrite H. left. reflexivity.
  - apply fine_obj_lit; [destruct (nd_ipv4 n), (nd_ipv6 n), (nd_port n); reflexivity|]. rewrite !map_app. repeat (apply Forall_app; split).
    + constructor; [exact F|constructor].
    + destruct (nd_ipv4 n); constructor; [apply fine_str, U4; reflexivity|constructor].
    + destruct (nd_ipv6 n); constructor; [apply fine_str, U6; reflexivity|constructor].
    + destruct (nd_port n); constructor; [apply fine_int|constructor].
Qed.

Lemma serialize_made enc of_span n l (says : rspan -> zspan -> Prop) (members : jv -> zspan -> str -> jv -> Prop) :
  writable_node n ->
  Forall (fun x => exists z, enc x = Ok z /\ says x z
            /\ forall ep, fine none ep -> exists j, of_span ep z = Ok j /\ object_of (members ep z) j /\ fine none j) l ->
  exists text ep zs objs, serialize kind enc of_span n l = Ok text
  /\ json_text false means text (JArr objs) /\ loads read_float nan inf neg_inf text = Some (JArr objs)
  /\ object_of (endpoint_member n) ep
  /\ Forall2 says l zs /\ Forall2 (fun z => object_of (members ep z)) zs objs.
Proof.
  intros W F. destruct (endpoint_made n W) as (ep & Eep & Oep & Fep).
  assert (G : exists zs objs, map_out (fun s => bind_out (enc s) (of_span ep)) l = Ok objs /\ Forall2 says l zs
     /\ Forall2 (fun z => object_of (members ep z)) zs objs /\ Forall (fine none) objs).
  { induction F as [|x l (z & Ez & S & H) F (zs & objs & E & F1 & F2 & Ff)]; [exists [], []; repeat constructor|].
    destruct (H ep Fep) as (j & Ej & Oj & Fj). exists (z :: zs), (j :: objs). cbn [map_out]. rewrite Ez, bind_ok, Ej, bind_ok, E, bind_ok.
    split; [reflexivity|]. split; [now constructor|]. split; now constructor. }
  destruct G as (zs & objs & E & F1 & F2 & Ff). unfold serialize. rewrite Eep, bind_ok, E, bind_ok.
  assert (FA : fine none (JArr objs)) by now apply fine_arr.
  exists (dumps kind None (JArr objs)), ep, zs, objs. split; [reflexivity|]. split.
  { apply (fine_text kind read_float nan inf neg_inf PF none); [intros _ f []|exact FA]. }
  split; [apply (fine_loads kind read_float nan inf neg_inf PF none); exact FA|]. auto.
Qed.

Lemma parts_ok python maxlen x st en k t : writable_span (numbers_if python) x -> unicode_opt k -> tags_unicode t ->
  zspan_ok python (ZSpan (format_trace_id (sc_trace_id (sp_ctx (rs_span x)))) (format_span_id (sc_span_id (sp_ctx (rs_span x)))) (sp_name (rs_span x))
                (usec st) (usec (en - st)) k t (annotations_of maxlen (bl_items (sp_events (rs_span x))))
                (flags_sampled (sc_flags (sp_ctx (rs_span x)))) (option_map (fun p => format_span_id (sc_span_id p)) (sp_parent (rs_span x)))).
Proof.
  intros W K T. assert (X := W). destruct X as ((I1 & I2 & I3) & _ & _ & _ & UN & _). unfold zspan_ok. cbn.
  split; [eapply hex_id_unicode; now apply trace_id_read|]. split; [eapply hex_id_unicode; now apply span_id_read|]. split; [exact UN|]. split; [exact K|].
  split; [|split; [exact T|now apply span_annotations]]. intros s H. destruct (sp_parent (rs_span x)) as [p|]; [|discriminate]. injection H as <-.
  eapply hex_id_unicode. apply span_id_read. now apply I3.
Qed.
Lemma v2_span python maxlen x : writable_span (numbers_if python) x ->
  exists z, encode_v2 int_text float_text maxlen x = Ok z /\ shows int_text float_text maxlen x z
  /\ forall ep, fine none ep -> exists j, v2_json kind ep z = Ok j /\ object_of (v2_member (json_text python means) ep z) j /\ fine none j.
Proof.
  intros W. assert (X := W). destruct X as (I & K & ST & EN & _ & [N1 _] & [N2 _] & _).
  destruct (sp_start (rs_span x)) as [st|] eqn:Est; [|congruence]. destruct (sp_end (rs_span x)) as [en|] eqn:Een; [|congruence].
  destruct (v2_total int_text float_text maxlen x st en Est Een K) as (z & E). exists z. split; [exact E|].
  assert (S : shows int_text float_text maxlen x z).
  { destruct (C80_v2_span _ _ _ _ _ I E) as (R & Kn & _). split; [exact R|]. split; [exact Kn|]. now apply C79_tags. }
  split; [exact S|]. intros ep FE. apply v2_object; [exact FE|apply S|].
  unfold encode_v2 in E. rewrite Est, Een in E. destruct (kind_text (sp_kind (rs_span x))) as [k|] eqn:Ek; [|discriminate]. injection E as <-.
  apply parts_ok; [exact W| |now apply (span_tags_unicode (numbers_if python))].
  intros s ->. clear - Ek. unfold kind_text in Ek.
  repeat match type of Ek with match ?q with _ => _ end = _ => destruct q; try discriminate end; injection Ek as <-; apply unicodeb_ok; reflexivity.
Qed.
Lemma v1_span python z0 x : writable_span (numbers_if python) x ->
  exists z, encode_v1 int_text float_text (Some z0) x = Ok z
  /\ (zipkin_read (Some z0) (rs_span x) z
      /\ exists z2, shows int_text float_text (Some z0) x z2
         /\ Forall2 (fun t u => fst u = fst t /\ snd u = option_map (shortened (Some z0)) (snd t)) (z_tags z2) (z_tags z))
  /\ forall ep, fine none ep -> exists j, v1_json kind ep z = Ok j /\ object_of (v1_member (json_text python means) ep z) j /\ fine none j.
Proof.
  intros W. assert (X := W). destruct X as (I & K & ST & EN & _ & _).
  destruct (sp_start (rs_span x)) as [st|] eqn:Est; [|congruence]. destruct (sp_end (rs_span x)) as [en|] eqn:Een; [|congruence].
  assert (E : exists z, encode_v1 int_text float_text (Some z0) x = Ok z) by (unfold encode_v1; rewrite Est, Een, v1_tags_ok; eauto).
  destruct E as (z & E). exists z. split; [exact E|]. split.
  { destruct (C80_v1_span_partial _ _ _ _ _ I E) as [R T]. split; [exact R|]. destruct (v2_span python (Some z0) x W) as (z2 & E2 & S & _). exists z2. auto. }
  intros ep FE. apply v1_object; [exact FE|]. unfold encode_v1 in E. rewrite Est, Een, v1_tags_ok in E. injection E as <-.
  apply parts_ok; [exact W|discriminate|]. pose proof (span_tags_unicode (numbers_if python) (Some z0) x W) as T.
  unfold tags_unicode. apply Forall_map. eapply Forall_impl; [|exact T]. intros [k v] [H1 H2]. split; [exact H1|]. cbn [snd] in *.
  intros s H. destruct v as [v|]; [|discriminate]. injection H as <-. apply (unicode_cut (Some z0) v), H2. reflexivity.
Qed.
End Doc.
