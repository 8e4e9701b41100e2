(** Proofs about resources. *)
From Verif Require Import Proof_Dict Proof_Str Proof_Url Proof_Attr Spec_Resource.
From Coq Require Import Lia.

(** ** The constructor *)
Definition res_ok (d : dict str pyval) : Prop :=
  NoDup (keys d) /\ forall k v, In (k, v) d -> k <> [] /\ clean_attribute (PStr false k) v None = Some v.
Lemma res_new_dict attrs schema :
  res_new attrs schema = Res (latest (accepted None attrs)) (match schema with Some s => s | None => [] end).
Proof.
  unfold res_new. destruct (ba_new None attrs true None) as [a|e] eqn:E; [|discriminate].
  now rewrite (ba_new_window _ _ _ _ _ E).
Qed.
Lemma attributes_ok attrs schema : attributes_of attrs (r_attrs (res_new attrs schema)).
Proof. rewrite res_new_dict. exists (accepted None attrs). split; [apply (accepted_taken None)|reflexivity]. Qed.
Lemma attributes_det attrs d d' : attributes_of attrs d -> attributes_of attrs d' -> d = d'.
Proof. intros (t & T & ->) (t' & T' & ->). now rewrite (taken_det _ _ _ T _ T'). Qed.
Lemma latest_In {V} (l : list (str * V)) kv : In kv (latest l) -> In kv l.
Proof.
  induction l as [|[k v] l IH]; [tauto|]. cbn [latest]. destruct (in_dec eq_dec k (map fst l)); cbn; intuition.
Qed.
Lemma clean_key sub k v : k <> [] -> clean_attribute (PStr sub k) v None = clean_attribute (PStr false k) v None.
Proof. destruct k; [congruence|reflexivity]. Qed.
Lemma accepted_ok attrs k v : In (k, v) (accepted None attrs) -> k <> [] /\ clean_attribute (PStr false k) v None = Some v.
Proof.
  unfold accepted. intro I. apply in_flat_map in I as ([key w] & _ & I). cbn [fst snd] in I.
  destruct key; try now destruct I. cbn [valid_key] in I. destruct s as [|c s]; [destruct I|].
  destruct (clean_attribute (PStr sub (c :: s)) w None) as [v'|] eqn:E; [|destruct I]. destruct I as [I|[]]. injection I as <- <-.
  split; [discriminate|]. rewrite clean_key in E by discriminate. apply (clean_idempotent _ w None v' E).
Qed.
Lemma res_new_ok attrs schema : res_ok (r_attrs (res_new attrs schema)).
Proof.
  rewrite res_new_dict. cbn [r_attrs]. split; [apply latest_nodup|]. intros k v I. eapply accepted_ok. apply latest_In. exact I.
Qed.
Lemma is_resource_ok r : is_resource r -> res_ok (r_attrs r).
Proof. intros (attrs & schema & ->). apply res_new_ok. Qed.
Lemma latest_id {V} (d : list (str * V)) : NoDup (map fst d) -> latest d = d.
Proof.
  induction d as [|[k v] d IH]; [reflexivity|]. cbn. intro N. inversion N; subst.
  destruct (in_dec eq_dec k (map fst d)); [contradiction|]. now rewrite IH.
Qed.
Lemma accepted_id d : (forall k v, In (k, v) d -> k <> [] /\ clean_attribute (PStr false k) v None = Some v) -> accepted None (as_arg d) = d.
Proof.
  induction d as [|[k v] d IH]; intro E; [reflexivity|]. unfold as_arg, accepted in *. cbn [map flat_map fst snd].
  destruct (E k v (or_introl eq_refl)) as [K C]. rewrite C. destruct k as [|c k]; [congruence|]. cbn [valid_key app].
  f_equal. apply IH. intros k' v' I. apply E. now right.
Qed.
Lemma res_new_id d schema : res_ok d -> res_new (as_arg d) schema = Res d (match schema with Some s => s | None => [] end).
Proof. intros [N E]. rewrite res_new_dict, accepted_id by assumption. now rewrite latest_id. Qed.
Lemma In_dset {V} (k : str) (v : V) d k' v' : In (k', v') (dset k v d) -> (k' = k /\ v' = v) \/ In (k', v') d.
Proof.
  induction d as [|[a b] d IH]; cbn [dset].
  - intros [E|[]]. injection E as <- <-. now left.
  - destruct (eq_dec k a) as [->|X]; cbn.
    + intros [E|I]; [injection E as <- <-; now left|right; now right].
    + intros [E|I]; [right; now left|]. destruct (IH I) as [|]; [now left|right; now right].
Qed.
Lemma In_dupdate {V} (e : list (str * V)) : forall d k v, In (k, v) (dupdate d e) -> In (k, v) d \/ In (k, v) e.
Proof.
  induction e as [|[a b] e IH]; intros d k v I; [now left|]. unfold dupdate in *. cbn [fold_left fst snd] in I.
  apply IH in I as [I|I]; [|right; now right]. apply In_dset in I as [[-> ->]|I]; [right; now left|now left].
Qed.
Lemma update_ok a b : res_ok a -> res_ok b -> res_ok (dupdate a b).
Proof.
  intros [N1 E1] [N2 E2]. split; [now apply NoDup_dupdate|]. intros k v I. apply In_dupdate in I as [I|I]; auto.
Qed.
Definition joined (a b : str) : str := match a with [] => b | _ => a end.
Lemma merge_eq a b : res_ok (r_attrs a) -> res_ok (r_attrs b) -> compatible_schemas (r_schema a) (r_schema b) ->
  res_merge a b = Res (dupdate (r_attrs a) (r_attrs b)) (joined (r_schema a) (r_schema b)).
Proof.
  intros A1 B1 C. unfold res_merge, joined. rewrite !res_new_id by now apply update_ok.
  destruct (str_eqb (r_schema a) []) eqn:E1; [apply str_eqb_eq in E1; now rewrite E1|]. apply str_eqb_neq in E1.
  destruct (str_eqb (r_schema b) []) eqn:E2; [destruct (r_schema a); [congruence|reflexivity]|]. apply str_eqb_neq in E2.
  destruct C as [C|[C|C]]; [contradiction|contradiction|]. rewrite C, str_eqb_refl. destruct (r_schema b); [congruence|reflexivity].
Qed.
Lemma merge_conflict a b : ~ compatible_schemas (r_schema a) (r_schema b) -> res_merge a b = a.
Proof.
  intro C. unfold res_merge.
  destruct (str_eqb (r_schema a) []) eqn:E1; [apply str_eqb_eq in E1; exfalso; apply C; now left|].
  destruct (str_eqb (r_schema b) []) eqn:E2; [apply str_eqb_eq in E2; exfalso; apply C; right; now left|].
  destruct (str_eqb (r_schema a) (r_schema b)) eqn:E3; [apply str_eqb_eq in E3; exfalso; apply C; right; now right|]. reflexivity.
Qed.
Lemma compatible_dec a b : {compatible_schemas a b} + {~ compatible_schemas a b}.
Proof.
  unfold compatible_schemas. destruct (str_eq_dec a []); [left; auto|]. destruct (str_eq_dec b []); [left; auto|].
  destruct (str_eq_dec a b); [left; auto|right; tauto].
Qed.
Lemma merge_ok a b : res_ok (r_attrs a) -> res_ok (r_attrs b) -> res_ok (r_attrs (res_merge a b)).
Proof.
  intros A1 B1. destruct (compatible_dec (r_schema a) (r_schema b)) as [C|C].
  - rewrite merge_eq by assumption. now apply update_ok.
  - now rewrite merge_conflict.
Qed.
Lemma c50_merge a b : is_resource a -> is_resource b -> compatible_schemas (r_schema a) (r_schema b) ->
  is_resource (res_merge a b)
  /\ (forall k, dget k (r_attrs (res_merge a b)) = match dget k (r_attrs b) with Some v => Some v | None => dget k (r_attrs a) end)
  /\ r_schema (res_merge a b) = (match r_schema a with [] => r_schema b | s => s end).
Proof.
  intros Ra Rb C. apply is_resource_ok in Ra, Rb. rewrite merge_eq by assumption. split; [|split].
  - exists (as_arg (dupdate (r_attrs a) (r_attrs b))), (Some (joined (r_schema a) (r_schema b))).
    now rewrite res_new_id by now apply update_ok.
  - intro k. cbn [r_attrs]. destruct Rb as [N _]. now rewrite dget_dupdate.
  - cbn. unfold joined. now destruct (r_schema a).
Qed.
Lemma c50_empty a : is_resource a -> res_merge EMPTY_RESOURCE a = a /\ res_merge a EMPTY_RESOURCE = a.
Proof.
  intros Ra. apply is_resource_ok in Ra as A1. assert (E : res_ok (r_attrs EMPTY_RESOURCE)) by apply res_new_ok. split.
  - rewrite merge_eq; [|assumption|assumption|now left]. cbn. destruct A1 as [N _].
    change (dupdate [] (r_attrs a)) with (dict_of (r_attrs a)). rewrite dict_of_NoDup by assumption. now destruct a.
  - rewrite merge_eq; [|assumption|assumption|right; now left]. cbn. unfold joined. destruct a as [d [|c s]]; reflexivity.
Qed.
Lemma c50_assoc a b c : is_resource a -> is_resource b -> is_resource c ->
  compatible_schemas (r_schema a) (r_schema b) -> compatible_schemas (r_schema b) (r_schema c) -> compatible_schemas (r_schema a) (r_schema c) ->
  same_resource (res_merge (res_merge a b) c) (res_merge a (res_merge b c)).
Proof.
  intros Ra Rb Rc AB BC AC. apply is_resource_ok in Ra, Rb, Rc.
  assert (J1 : compatible_schemas (joined (r_schema a) (r_schema b)) (r_schema c)) by (unfold joined; destruct (r_schema a); assumption).
  assert (J2 : compatible_schemas (r_schema a) (joined (r_schema b) (r_schema c))) by (unfold joined; destruct (r_schema b); assumption).
  rewrite (merge_eq a b), (merge_eq b c) by assumption.
  rewrite !merge_eq; cbn [r_attrs r_schema]; try assumption; try now apply update_ok.
  split; cbn [r_attrs r_schema].
  - intro k. destruct Ra as [Na _], Rb as [Nb _], Rc as [Nc _]. rewrite !dget_dupdate; try assumption; try now apply NoDup_dupdate.
    now destruct (dget k (r_attrs c)).
  - unfold joined. now destruct (r_schema a).
Qed.

(** ** Create *)
Lemma top_app l d k : top (l ++ [d]) k = match dget k d with Some v => Some v | None => top l k end.
Proof. induction l as [|x l IH]; cbn; [now destruct (dget k d)|]. rewrite IH. now destruct (dget k d). Qed.
Lemma among_compatible u a b : among u a -> among u b -> compatible_schemas a b.
Proof. unfold among, compatible_schemas. intuition congruence. Qed.
Lemma among_joined u a b : among u a -> among u b -> among u (joined a b).
Proof. unfold joined. destruct a; auto. Qed.
Lemma merge_among u a b : res_ok (r_attrs a) -> res_ok (r_attrs b) -> among u (r_schema a) -> among u (r_schema b) ->
  res_ok (r_attrs (res_merge a b)) /\ among u (r_schema (res_merge a b))
  /\ forall k, dget k (r_attrs (res_merge a b)) = match dget k (r_attrs b) with Some v => Some v | None => dget k (r_attrs a) end.
Proof.
  intros A1 B1 Ua Ub. split; [now apply merge_ok|]. rewrite merge_eq by eauto using among_compatible. cbn [r_attrs r_schema].
  split; [now apply among_joined|]. intro k. destruct B1. now rewrite dget_dupdate.
Qed.
Lemma aggregated_ok u ds : forall acc layers, Forall (fun d => det_result d = None -> det_raise d = false) ds ->
  Forall (fun r => is_resource r /\ among u (r_schema r)) (found ds) ->
  res_ok (r_attrs acc) -> among u (r_schema acc) -> (forall k, dget k (r_attrs acc) = top layers k) ->
  exists r, aggregated ds acc = Ok r /\ res_ok (r_attrs r) /\ among u (r_schema r)
  /\ forall k, dget k (r_attrs r) = top (layers ++ map r_attrs (found ds)) k.
Proof.
  induction ds as [|d ds IH]; intros acc layers NR F A1 U T.
  - exists acc. cbn. rewrite app_nil_r. auto.
  - inversion NR as [|? ? Hd NR']; subst. cbn [aggregated found flat_map] in *. destruct (det_result d) as [r|].
    + apply Forall_app in F as [F1 F2]. inversion F1 as [|? ? [Rr Ur] _]; subst. apply is_resource_ok in Rr.
      destruct (merge_among u acc r A1 Rr U Ur) as (A2 & U2 & G).
      destruct (IH (res_merge acc r) (layers ++ [r_attrs r]) NR' F2 A2 U2) as (r' & E & X).
      { intro k. rewrite G, top_app, T. reflexivity. }
      exists r'. split; [exact E|]. cbn [app map]. now rewrite <- app_assoc in X.
    + rewrite Hd by reflexivity. cbn [app] in F.
      assert (E0 : res_ok (r_attrs EMPTY_RESOURCE)) by apply res_new_ok.
      destruct (merge_among u acc EMPTY_RESOURCE A1 E0 U (or_introl eq_refl)) as (A2 & U2 & G).
      apply (IH _ layers NR' F A2 U2). intro k. now rewrite G, <- T.
Qed.

Section Create.
Variable fzero : Z -> bool.
Variable sdk_version : str.
Variable entry_point : str -> option detector.
Notation truthy := (truthy fzero).
Notation empty_value := (empty_value fzero).
Lemma truthy_spec v : truthy v = true <-> ~ empty_value v.
Proof.
  unfold Spec_Resource.empty_value. split.
  - intros T [->|[->|[[s ->]|[(s & f & -> & Z0)|[[s ->]|[[s ->]|[s ->]]]]]]]; cbn in T; try discriminate. rewrite Z0 in T. discriminate.
  - intro E. destruct v as [|b|s z|s f|s x|s x|s x|i]; cbn.
    + exfalso. apply E. now left.
    + destruct b; [reflexivity|]. exfalso. apply E. right. now left.
    + destruct (Z.eqb_spec z 0) as [Ez|]; [subst z|reflexivity]. exfalso. apply E. right. right. left. now exists s.
    + destruct (fzero f) eqn:F; [|reflexivity]. exfalso. apply E. do 3 right. left. now exists s, f.
    + destruct x; [|reflexivity]. exfalso. apply E. do 4 right. left. now exists s.
    + destruct x; [|reflexivity]. exfalso. apply E. do 5 right. left. now exists s.
    + destruct x; [|reflexivity]. exfalso. apply E. do 6 right. now exists s.
    + reflexivity.
Qed.
Lemma empty_spec v : truthy v = false <-> empty_value v.
Proof.
  unfold Spec_Resource.empty_value. split.
  - destruct v as [|b|s z|s f|s x|s x|s x|i]; cbn; intro T.
    + now left.
    + destruct b; [discriminate|]. right. now left.
    + destruct (Z.eqb_spec z 0) as [Ez|]; [subst z|discriminate]. right. right. left. now exists s.
    + destruct (fzero f) eqn:F; [|discriminate]. do 3 right. left. now exists s, f.
    + destruct x; [|discriminate]. do 4 right. left. now exists s.
    + destruct x; [|discriminate]. do 5 right. left. now exists s.
    + destruct x; [|discriminate]. do 6 right. now exists s.
    + discriminate.
  - intro E. destruct (truthy v) eqn:T; [|reflexivity]. apply truthy_spec in T. contradiction.
Qed.
Notation res_create := (res_create fzero sdk_version entry_point).
Notation DEFAULT_RESOURCE := (DEFAULT_RESOURCE sdk_version).

Lemma c51_create order attrs schema u ud :
  let ds := load_detectors entry_point order in
  let layers := r_attrs DEFAULT_RESOURCE :: map r_attrs (found ds) ++ [ud] in
  let service := top layers SERVICE_NAME in let exe := top layers PROCESS_EXECUTABLE_NAME in
  Forall (fun d => det_result d = None -> det_raise d = false) ds ->
  Forall (fun r => is_resource r /\ among u (r_schema r)) (found ds) ->
  among u (match schema with Some s => s | None => [] end) ->
  attributes_of (match attrs with Some a => a | None => [] end) ud ->
  ((forall v, service = Some v -> truthy v = false) -> forall v, exe = Some v -> truthy v = true -> exists sub s, v = PStr sub s) ->
  exists r, res_create order attrs schema = Ok r
  /\ (forall k, k <> SERVICE_NAME -> dget k (r_attrs r) = top layers k)
  /\ exists v, dget SERVICE_NAME (r_attrs r) = Some v /\ truthy v = true
     /\ (forall w, service = Some w -> truthy w = true -> v = w)
     /\ ((forall w, service = Some w -> truthy w = false) ->
          (forall w, exe = Some w -> truthy w = false) /\ v = PStr false (lit "unknown_service")
          \/ exists sub s, exe = Some (PStr sub s) /\ v = PStr false (lit "unknown_service" ++ lit ":" ++ s)).
Proof.
  intros ds layers service exe NR F U UD EX. unfold Model_Resource.res_create. fold ds.
  set (ua := match attrs with Some a => a | None => [] end) in *.
  destruct (aggregated_ok u ds DEFAULT_RESOURCE [r_attrs DEFAULT_RESOURCE] NR F) as (r0 & -> & A0 & U0 & T0).
  { apply res_new_ok. } { now left. } { intro k. cbn [top]. reflexivity. }
  assert (Eu : ud = r_attrs (res_new ua schema)) by exact (attributes_det _ _ _ UD (attributes_ok ua schema)). clear UD.
  assert (Su : r_schema (res_new ua schema) = match schema with Some s => s | None => [] end) by now rewrite res_new_dict.
  destruct (merge_among u r0 (res_new ua schema) A0 (res_new_ok _ _) U0) as (A1 & U1 & T1); [now rewrite Su|].
  set (r1 := res_merge r0 (res_new ua schema)) in *.
  assert (T : forall k, dget k (r_attrs r1) = top layers k).
  { intro k. rewrite T1, T0. unfold layers. change (r_attrs DEFAULT_RESOURCE :: ?x ++ [?y]) with (([r_attrs DEFAULT_RESOURCE] ++ x) ++ [y]).
    rewrite (top_app (_ ++ _)), Eu. reflexivity. }
  rewrite !T. fold service exe.
  assert (Fin : forall name, name <> [] ->
     let r := res_merge r1 (res_new [(PStr false SERVICE_NAME, PStr false name)] schema) in
     (forall k, k <> SERVICE_NAME -> dget k (r_attrs r) = top layers k) /\ dget SERVICE_NAME (r_attrs r) = Some (PStr false name)).
  { intros name N r. assert (Sr : r_schema (res_new [(PStr false SERVICE_NAME, PStr false name)] schema) = match schema with Some s => s | None => [] end) by now rewrite res_new_dict.
    destruct (merge_among u r1 (res_new [(PStr false SERVICE_NAME, PStr false name)] schema) A1 (res_new_ok _ _) U1) as (_ & _ & G); [now rewrite Sr|].
    fold r in G. change (r_attrs (res_new [(PStr false SERVICE_NAME, PStr false name)] schema)) with [(SERVICE_NAME, PStr false name)] in G.
    split.
    - intros k Nk. rewrite G. cbn [dget]. destruct (eq_dec k SERVICE_NAME); [contradiction|]. apply T.
    - rewrite G. cbn [dget]. destruct (eq_dec SERVICE_NAME SERVICE_NAME); [reflexivity|contradiction]. }
  destruct (match service with Some v => truthy v | None => false end) eqn:Ts.
  - exists r1. split; [reflexivity|]. split; [intros k _; apply T|]. destruct service as [sv|] eqn:Es; [|discriminate]. exists sv. rewrite T. split; [exact Es|]. split; [exact Ts|].
    split; [intros w X _; congruence|]. intro X. rewrite (X sv eq_refl) in Ts. discriminate.
  - assert (NS : forall v, service = Some v -> truthy v = false) by (intros v X; now rewrite X in Ts).
    specialize (EX NS). destruct (truthy (match exe with Some v => v | None => PNone end)) eqn:Te.
    + destruct exe as [ev|] eqn:Ee; [|discriminate]. destruct (EX ev eq_refl Te) as (sub & es & ->).
      eexists. split; [reflexivity|]. destruct (Fin (lit "unknown_service" ++ lit ":" ++ es)) as [F1 F2]; [discriminate|].
      split; [exact F1|]. eexists. split; [exact F2|]. split; [reflexivity|]. split; [intros w X Y; rewrite (NS w X) in Y; discriminate|].
      intros _. right. exists sub, es. split; reflexivity.
    + eexists. split; [reflexivity|]. destruct (Fin (lit "unknown_service")) as [F1 F2]; [discriminate|].
      split; [exact F1|]. eexists. split; [exact F2|]. split; [reflexivity|]. split; [intros w X Y; rewrite (NS w X) in Y; discriminate|].
      intros _. left. split; [|reflexivity]. intros w X. now rewrite X in Te.
Qed.
Lemma c51_create' order attrs schema u ud :
  let ds := load_detectors entry_point order in
  let layers := r_attrs DEFAULT_RESOURCE :: map r_attrs (found ds) ++ [ud] in
  let service := top layers SERVICE_NAME in let exe := top layers PROCESS_EXECUTABLE_NAME in
  Forall (fun d => det_result d = None -> det_raise d = false) ds ->
  Forall (fun r => is_resource r /\ among u (r_schema r)) (found ds) ->
  among u (match schema with Some s => s | None => [] end) ->
  attributes_of (match attrs with Some a => a | None => [] end) ud ->
  ((forall v, service = Some v -> empty_value v) -> forall v, exe = Some v -> ~ empty_value v -> exists sub s, v = PStr sub s) ->
  exists r, res_create order attrs schema = Ok r
  /\ (forall k, k <> SERVICE_NAME -> dget k (r_attrs r) = top layers k)
  /\ exists v, dget SERVICE_NAME (r_attrs r) = Some v /\ ~ empty_value v
     /\ (forall w, service = Some w -> ~ empty_value w -> v = w)
     /\ ((forall w, service = Some w -> empty_value w) ->
          (forall w, exe = Some w -> empty_value w) /\ v = PStr false (lit "unknown_service")
          \/ exists sub s, exe = Some (PStr sub s) /\ v = PStr false (lit "unknown_service" ++ lit ":" ++ s)).
Proof.
  intros ds layers service exe NR F U UD EX.
  destruct (c51_create order attrs schema u ud NR F U UD) as (r & E & K & v & G & T & S & D).
  - intros NS v X T. apply EX; [intros w W; apply empty_spec; now apply NS|exact X|now apply truthy_spec].
  - exists r. split; [exact E|]. split; [exact K|]. exists v. split; [exact G|]. split; [now apply truthy_spec|]. split.
    + intros w W NE. apply S; [exact W|now apply truthy_spec].
    + intro NS. destruct D as [[D1 D2]|D]; [intros w W; apply empty_spec; now apply NS| |now right]. left. split; [|exact D2]. intros w W. apply empty_spec. now apply D1.
Qed.
End Create.

(** ** The environment *)
Lemma lstrip_blank b s : blanks b -> lstrip py_space (b ++ s) = lstrip py_space s.
Proof. apply lstrip_app. Qed.
Lemma strip_blanks b1 s b2 : blanks b1 -> blanks b2 -> strip py_space (b1 ++ s ++ b2) = strip py_space s.
Proof.
  intros B1 B2. unfold strip. rewrite lstrip_app by exact B1.
  destruct (lstrip_decomp py_space s) as (w & E & Hw). destruct (lstrip_result py_space s) as [R|(c & t & R & Hc)].
  - rewrite R in *. rewrite app_nil_r in E. subst w. rewrite lstrip_app by exact Hw. rewrite lstrip_all by exact B2. reflexivity.
  - rewrite E at 1. rewrite <- app_assoc, lstrip_app by exact Hw. rewrite R. cbn [app]. rewrite lstrip_hd by exact Hc.
    change (c :: t ++ b2) with ((c :: t) ++ b2). now rewrite rstrip_app by exact B2.
Qed.
Lemma blank_no c b : blanks b -> py_space c = false -> ~ In c b.
Proof. intros B P. now apply (forallb_notin py_space). Qed.
Lemma quoted_no_space q : forallb quoted_char2 q = true -> strip py_space q = q.
Proof.
  intro Q. apply strip_none. eapply forallb_impl; [|exact Q]. intros c Hc. unfold quoted_char2 in Hc.
  rewrite !orb_true_iff, !N.eqb_eq in Hc. apply negb_true_iff.
  destruct (py_space c) eqn:P; [exfalso|reflexivity]. unfold py_space, always_safe, is_upper, is_lower, is_digit, in_range in *. lia.
Qed.
Lemma item_parts b1 k b2 b3 q v b4 : blanks b1 -> blanks b2 -> blanks b3 -> blanks b4 -> item_key k -> unicode_text v -> quote v = Some q ->
  (forall m, env_step m (b1 ++ k ++ b2 ++ lit "=" ++ b3 ++ q ++ b4) = dset k v m) /\ ~ In (chr ",") (b1 ++ k ++ b2 ++ lit "=" ++ b3 ++ q ++ b4).
Proof.
  intros B1 B2 B3 B4 (K1 & K2 & K3 & K4) V Q. destruct (quote_round_trip v V) as (q' & Q' & QA & QU). rewrite Q in Q'. injection Q' as <-.
  assert (N61 : forall b, blanks b -> ~ In 61%N b) by (intros b B; now apply blank_no).
  assert (N44 : forall b, blanks b -> ~ In 44%N b) by (intros b B; now apply blank_no).
  split.
  - intro m. unfold env_step.
    replace (b1 ++ k ++ b2 ++ lit "=" ++ b3 ++ q ++ b4) with ((b1 ++ k ++ b2) ++ chr "=" :: (b3 ++ q ++ b4)) by (rewrite <- !app_assoc; reflexivity).
    rewrite split1_app.
    + rewrite !strip_blanks by assumption. rewrite K2, (quoted_no_space q QA), QU. reflexivity.
    + change (chr "=") with 61%N in *. rewrite !in_app_iff. intros [X|[X|X]]; [exact (N61 b1 B1 X)|contradiction|exact (N61 b2 B2 X)].
  - change (chr ",") with 44%N in *. rewrite !in_app_iff. pose proof (forallb_notin quoted_char2 q 44%N QA eq_refl) as Nq.
    intros [X|[X|[X|[X|[X|[X|X]]]]]].
    + exact (N44 b1 B1 X).
    + contradiction.
    + exact (N44 b2 B2 X).
    + destruct X as [X|[]]. discriminate.
    + exact (N44 b3 B3 X).
    + contradiction.
    + exact (N44 b4 B4 X).
Qed.
Lemma items_no_comma items pairs : env_items items pairs -> Forall (fun s => ~ In (chr ",") s) items.
Proof.
  induction 1 as [|b1 k b2 b3 q v b4 items pairs B1 B2 B3 B4 Nc K V Q _ IH|x items pairs Ne Nc _ IH]; constructor; auto.
  now apply (item_parts b1 k b2 b3 q v b4).
Qed.
Lemma items_fold items pairs : env_items items pairs -> forall m, fold_left env_step items m = dupdate m pairs.
Proof.
  induction 1 as [|b1 k b2 b3 q v b4 items pairs B1 B2 B3 B4 Nc K V Q _ IH|x items pairs Ne Nc _ IH]; intro m.
  - reflexivity.
  - cbn [fold_left]. destruct (item_parts b1 k b2 b3 q v b4) as [E _]; try assumption. rewrite E, IH. reflexivity.
  - cbn [fold_left]. unfold env_step at 2. rewrite split1_none by assumption. apply IH.
Qed.
Lemma items_keys items pairs : env_items items pairs -> forall k v, In (k, v) pairs -> k <> [].
Proof.
  induction 1 as [|b1 k b2 b3 q v b4 items pairs B1 B2 B3 B4 Nc K V Q _ IH|x items pairs Ne Nc _ IH]; intros k' v' I; [destruct I| |eauto].
  destruct I as [I|I]; [injection I as <- <-; apply K|eauto].
Qed.
Lemma NoDup_dict_of (l : list (str * str)) : NoDup (keys (dict_of l)).
Proof. apply NoDup_dupdate. constructor. Qed.
Lemma map_keys (d : dict str str) : keys (map (fun kv => (fst kv, PStr false (snd kv))) d) = keys d.
Proof. unfold keys. rewrite map_map. reflexivity. Qed.
Lemma new_strings (d : dict str str) : NoDup (keys d) -> (forall k v, In (k, v) d -> k <> []) ->
  r_attrs (res_new (map (fun kv => (PStr false (fst kv), PStr false (snd kv))) d) None) = map (fun kv => (fst kv, PStr false (snd kv))) d.
Proof.
  intros N K. change (map (fun kv => (PStr false (fst kv), PStr false (snd kv))) d)
    with (map (fun kv : str * str => (PStr false (fst (fst kv, PStr false (snd kv))), snd (fst kv, PStr false (snd kv)))) d).
  rewrite <- (map_map (fun kv : str * str => (fst kv, PStr false (snd kv))) (fun kv => (PStr false (fst kv), snd kv))).
  fold (as_arg (map (fun kv : str * str => (fst kv, PStr false (snd kv))) d)). rewrite res_new_id; [reflexivity|].
  split; [now rewrite map_keys|]. intros k v I. apply in_map_iff in I as ([k' v'] & E & I). injection E as <- <-. specialize (K _ _ I).
  split; [exact K|]. cbn [fst]. destruct k'; [congruence|reflexivity].
Qed.
Lemma dget_map_strings (d : dict str str) k : dget k (map (fun kv => (fst kv, PStr false (snd kv))) d) = option_map (PStr false) (dget k d).
Proof. induction d as [|[a b] d IH]; [reflexivity|]. cbn. now destruct (eq_dec k a). Qed.
Lemma dget_latest {V} (l : list (str * V)) : forall d k', dget k' (dupdate d l) = match dget k' (latest l) with Some v => Some v | None => dget k' d end.
Proof.
  induction l as [|[k v] l IH]; intros d k'; [reflexivity|]. change (dupdate d ((k, v) :: l)) with (dupdate (dset k v d) l). rewrite IH.
  cbn [latest]. destruct (in_dec eq_dec k (map fst l)) as [I|I].
  - destruct (dget k' (latest l)) as [w|] eqn:E; [reflexivity|]. apply dget_dset_ne. intros ->. apply dget_keys in E. apply E.
    now apply latest_keys.
  - cbn [dget]. destruct (eq_dec k' k) as [->|N].
    + destruct (dget k (latest l)) as [w|] eqn:E; [|apply dget_dset_eq]. apply dget_Some_keys in E. exfalso. apply I. now apply (proj1 (latest_keys l k)).
    + destruct (dget k' (latest l)); [reflexivity|]. now apply dget_dset_ne.
Qed.
Lemma items_empty items pairs : env_items items pairs -> join (lit ",") items = [] -> pairs = [].
Proof.
  induction 1 as [|b1 k b2 b3 q v b4 items pairs B1 B2 B3 B4 Nc K V Q _ IH|x items pairs Ne Nc HI IH]; intro J; [reflexivity| |].
  - exfalso. assert (X : b1 ++ k ++ b2 ++ lit "=" ++ b3 ++ q ++ b4 = []).
    { cbn [join] in J. destruct items; [exact J|]. now apply app_eq_nil in J as [J _]. }
    apply app_eq_nil in X as [_ X]. apply app_eq_nil in X as [X _]. now apply K in X.
  - destruct items as [|y items]; [now inversion HI|]. exfalso. cbn [join] in J. apply app_eq_nil in J as [_ J]. discriminate.
Qed.
Lemma c51_env items pairs env name : env_items items pairs -> env = Some (join (lit ",") items) \/ env = None /\ items = [] ->
  let r := otel_detect env name in
  is_resource r /\ r_schema r = []
  /\ forall k, dget k (r_attrs r)
     = option_map (PStr false)
         (match name with
          | Some (c :: s) => if str_eq_dec k SERVICE_NAME then Some (c :: s) else dget k (latest pairs)
          | _ => dget k (latest pairs)
          end).
Proof.
  intros I EV. unfold otel_detect.
  assert (M : match env with Some (c :: s) => fold_left env_step (split_on (chr ",") (c :: s)) [] | _ => [] end = dict_of pairs).
  { destruct EV as [->|[-> ->]]; [|now inversion I]. destruct (join (lit ",") items) as [|c s] eqn:J.
    - now rewrite (items_empty _ _ I J).
    - rewrite <- J. change (lit ",") with [chr ","]. rewrite split_on_join.
      + now apply items_fold.
      + intros ->. discriminate.
      + now apply (items_no_comma _ pairs). }
  rewrite M. split; [eexists; eexists; reflexivity|]. split; [now rewrite res_new_dict|]. intro k.
  assert (K0 : forall k v, In (k, v) (dict_of pairs) -> k <> []).
  { intros k' v' X. apply In_dupdate in X as [[]|X]. eapply items_keys; eauto. }
  assert (G : forall k, dget k (dict_of pairs) = dget k (latest pairs)).
  { intro k'. unfold dict_of. rewrite dget_latest. now destruct (dget k' (latest pairs)). }
  destruct name as [[|c s]|]; try (rewrite new_strings; [rewrite dget_map_strings; now rewrite G|apply NoDup_dict_of|exact K0]).
  rewrite new_strings; [rewrite dget_map_strings, dget_dset, G|apply NoDup_dset, NoDup_dict_of|].
  - change (@eq_dec str _ k SERVICE_NAME) with (str_eq_dec k SERVICE_NAME). reflexivity.
  - intros k' v' X. apply In_dset in X as [[-> _]|X]; [discriminate|]. eapply K0; eauto.
Qed.

(** ** The detectors asked for *)
Lemma strip_idem p s : strip p (strip p s) = strip p s.
Proof.
  unfold strip. destruct (lstrip_result p s) as [R|(c & t & R & Hc)]; [rewrite R; reflexivity|]. rewrite R.
  destruct (rstrip_decomp p (c :: t)) as (w & E & Hw). destruct (rstrip p (c :: t)) as [|c' t'] eqn:RS.
  - reflexivity.
  - injection E as -> E2. rewrite (lstrip_hd _ _ _ Hc). rewrite <- RS at 2. rewrite E2. change (c' :: t' ++ w) with ((c' :: t') ++ w). now rewrite rstrip_app.
Qed.
Lemma c51_detectors entry_point items order : Forall (fun s => ~ In (chr ",") s) items -> NoDup order ->
  (forall n, In n order <-> n = lit "otel" \/ In n (detector_names (join (lit ",") items))) ->
  (forall n, In n order <-> asked items n) /\ load_detectors entry_point order = flat_map (fun n => match entry_point n with Some d => [d] | None => [] end) order.
Proof.
  intros NC ND IN.
  assert (DN : forall n, In n (detector_names (join (lit ",") items)) <-> exists item, In item items /\ item <> [] /\ n = strip py_space item).
  { intro n. unfold detector_names. destruct items as [|x items'].
    - cbn. split; [intros []|intros (i & [] & _)].
    - change (lit ",") with [chr ","]. rewrite split_on_join by (discriminate || exact NC). split; intro H.
      + apply in_map_iff in H. destruct H as (i & <- & I). apply filter_In in I. destruct I as [I Q]. exists i. split; [exact I|]. split; [destruct i; discriminate|reflexivity].
      + destruct H as (i & I & NE & ->). apply in_map_iff. exists i. split; [reflexivity|]. apply filter_In. split; [exact I|]. destruct i; [contradiction|reflexivity]. }
  assert (EQ : forall n, In n order <-> asked items n) by (intro n; rewrite IN, DN; reflexivity).
  split; [exact EQ|]. unfold load_detectors. assert (ST : forall n, In n order -> strip py_space n = n).
  { intros n I. apply EQ in I. destruct I as [-> |(i & _ & _ & ->)]; [reflexivity|apply strip_idem]. }
  clear - ST. induction order as [|n l IH]; [reflexivity|]. cbn [flat_map]. rewrite (ST n (or_introl eq_refl)), IH; [reflexivity|]. intros; apply ST; now right.
Qed.
