(** Proofs about auto-configuration. *)
From Verif Require Export Spec_Config Spec_Sampling.
From Verif Require Import Proof_Dict Proof_Str Proof_Sampling.
From Coq Require Import Lia.

Lemma str_eqb_true a b : str_eqb a b = true <-> a = b.
Proof. unfold str_eqb. destruct (str_eq_dec a b); split; congruence. Qed.
Lemma str_eqb_false a b : str_eqb a b = false <-> a <> b.
Proof. unfold str_eqb. destruct (str_eq_dec a b); split; congruence. Qed.


(** *** Keys of a dictionary in the order of first mention *)
Lemma firsts_filter x (l : list str) : filter (fun y => negb (str_eqb x y)) (firsts l) = firsts (filter (fun y => negb (str_eqb x y)) l).
Proof.
  induction l as [|z l IH]; [reflexivity|]. cbn [firsts filter]. destruct (str_eqb x z) eqn:E; cbn [negb].
  - apply str_eqb_true in E. subst z. rewrite <- IH.
    clear IH. induction (firsts l) as [|w m IH]; [reflexivity|]. cbn [filter]. destruct (str_eqb x w) eqn:E'; cbn [negb filter]; [exact IH|].
    rewrite E'. cbn [negb]. f_equal. exact IH.
  - cbn [firsts]. f_equal. rewrite <- IH. clear IH. induction (firsts l) as [|w m IH]; [reflexivity|]. cbn [filter].
    destruct (str_eqb z w) eqn:E1, (str_eqb x w) eqn:E2; cbn [negb filter]; rewrite ?E1, ?E2; cbn [negb]; rewrite ?IH; reflexivity.
Qed.
Lemma keys_dupdate_firsts {V} (l : dict str V) : forall d,
  keys (dupdate d l) = keys d ++ filter (fun k => negb (if in_dec str_eq_dec k (keys d) then true else false)) (firsts (map fst l)).
Proof.
  induction l as [|[k v] l IH]; intros d; cbn [map firsts filter fst].
  - cbn. now rewrite app_nil_r.
  - change (dupdate d ((k, v) :: l)) with (dupdate (dset k v d) l). rewrite IH.
    destruct (in_dec str_eq_dec k (keys d)) as [I|NI]; cbn [negb].
    + rewrite keys_dset_in by exact I. f_equal.
      clear IH. induction (firsts (map fst l)) as [|w m IHm]; [reflexivity|]. cbn [filter].
      destruct (str_eqb k w) eqn:E; cbn [negb].
      * apply str_eqb_true in E. subst w. destruct (in_dec str_eq_dec k (keys d)); [|tauto]. exact IHm.
      * cbn [filter]. rewrite IHm. reflexivity.
    + rewrite keys_dset_new by exact NI. unfold keys. rewrite map_app. cbn [map fst]. rewrite <- app_assoc. cbn [app]. f_equal. f_equal.
      clear IH. induction (firsts (map fst l)) as [|w m IHm]; [reflexivity|]. cbn [filter].
      destruct (str_eqb k w) eqn:E; cbn [negb filter].
      * apply str_eqb_true in E. subst w. destruct (in_dec str_eq_dec k (map fst d ++ [k])) as [_|C]; [exact IHm|].
        exfalso. apply C. apply in_app_iff. right. left. reflexivity.
      * apply str_eqb_false in E. rewrite IHm. destruct (in_dec str_eq_dec w (map fst d ++ [k])) as [I1|I1], (in_dec str_eq_dec w (map fst d)) as [I2|I2]; try reflexivity.
        -- exfalso. apply in_app_iff in I1. destruct I1 as [I1|[I1|[]]]; congruence.
        -- exfalso. apply I1. apply in_app_iff. tauto.
Qed.
Lemma keys_dict_of {V} (l : dict str V) : keys (dict_of l) = firsts (map fst l).
Proof.
  unfold dict_of. rewrite keys_dupdate_firsts. cbn [keys map app]. induction (firsts (map fst l)) as [|w m IH]; [reflexivity|].
  cbn [filter]. destruct (in_dec str_eq_dec w []) as [C|_]; [destruct C|]. cbn [negb]. f_equal. exact IH.
Qed.
Lemma In_dset_inv {V} (k k' : str) (v v' : V) d : In (k', v') (dset k v d) -> (k' = k /\ v' = v) \/ In (k', v') d.
Proof.
  induction d as [|[q w] d IH]; cbn; [intros [E|[]]; injection E as <- <-; auto|].
  destruct (eq_dec k q) as [->|N]; cbn; intros [E|I].
  - injection E as <- <-. auto.
  - auto.
  - auto.
  - destruct (IH I); auto.
Qed.
Lemma In_dupdate_inv {V} (l : dict str V) : forall d k v, In (k, v) (dupdate d l) -> In (k, v) d \/ In (k, v) l.
Proof.
  induction l as [|[k' v'] l IH]; intros d k v I; [left; exact I|]. apply IH in I. destruct I as [I|I]; [|right; right; exact I].
  apply In_dset_inv in I. destruct I as [[-> ->]|I]; [right; left; reflexivity|left; exact I].
Qed.
Lemma In_dict_of_inv {V} (l : dict str V) k v : In (k, v) (dict_of l) -> In (k, v) l.
Proof. intros I. apply In_dupdate_inv in I. destruct I as [[]|I]. exact I. Qed.
Lemma Forall2_keys_values {V} (P : str -> V -> Prop) (d : dict str V) :
  Forall2 P (keys d) (values d) <-> forall k v, In (k, v) d -> P k v.
Proof.
  split.
  - induction d as [|[k v] d IH]; cbn [keys values map fst snd]; intros H k' v' I; [destruct I|].
    inversion H; subst. destruct I as [E|I]; [injection E as <- <-; assumption|apply IH; assumption].
  - induction d as [|[k v] d IH]; intros H; cbn [keys values map fst snd]; constructor.
    + apply H. left. reflexivity.
    + apply IH. intros k' v' I. apply H. right. exact I.
Qed.

Section Config.
Variable pylower : str -> str.
Variable pyfloat : str -> option double.
Variable entry_points : str -> str -> entry.
Variable sampler_entry : str -> option sampler_factory.
Variable constructs : component -> bool.
Variable environ : str -> option str.
Notation initialize := (initialize pylower pyfloat entry_points sampler_entry constructs environ).
Notation asked_for := (asked_for pylower entry_points environ).

Lemma group_is s : group_of s = entry_group s.
Proof. destruct s; reflexivity. Qed.
Lemma exporter_var_is s : exporter_var s = exporters_variable s.
Proof. destruct s; reflexivity. Qed.
Lemma protocol_var_is s : protocol_var s = protocol_variable (Some s).
Proof. destruct s; reflexivity. Qed.
Lemma right_class_is s c : right_class s c = true <-> exports_for s c.
Proof. destruct s; cbn; rewrite ?orb_true_iff; tauto. Qed.

Lemma entry_point_spec s n r : exporter_entry_point environ n s = Ok r <-> stands_for environ s n r.
Proof.
  unfold exporter_entry_point, stands_for. rewrite protocol_var_is. change (lit "OTEL_EXPORTER_OTLP_PROTOCOL") with (protocol_variable None).
  destruct (str_eqb n (lit "otlp")) eqn:E1.
  - apply str_eqb_true in E1. subst n. cbn [orb].
    set (p := or_str _ _). assert (Hp : unless_empty p = first_given [unless_empty (environ (protocol_variable (Some s))); unless_empty (environ (protocol_variable None))]).
    { unfold p, or_str, unless_empty. cbn [first_given]. destruct (environ (protocol_variable (Some s))) as [[|]|]; try reflexivity;
        destruct (environ (protocol_variable None)) as [[|]|]; reflexivity. }
    rewrite <- Hp. clear Hp. destruct p as [[|c p]|]; cbn [unless_empty].
    + split; [intros H; right; split; [reflexivity|congruence]|]. intros [[C _]|[_ H]]; [congruence|subst; reflexivity].
    + unfold exporter_by_protocol. destruct (str_eqb (strip py_space (c :: p)) (lit "grpc")) eqn:G.
      * apply str_eqb_true in G. rewrite G. split; [intros H; right; split; [reflexivity|left; split; congruence]|].
        intros [[C _]|[_ [[_ H]|[H _]]]]; [congruence|subst; reflexivity|discriminate].
      * apply str_eqb_false in G. destruct (str_eqb (strip py_space (c :: p)) (lit "http/protobuf")) eqn:Hh.
        -- apply str_eqb_true in Hh. split; [intros H; right; split; [reflexivity|right; split; congruence]|].
           intros [[C _]|[_ [[H _]|[_ H]]]]; [congruence|congruence|subst; reflexivity].
        -- apply str_eqb_false in Hh. split; [discriminate|]. intros [[C _]|[_ [[H _]|[H _]]]]; congruence.
    + split; [intros H; right; split; [reflexivity|congruence]|]. intros [[C _]|[_ H]]; [congruence|subst; reflexivity].
  - apply str_eqb_false in E1. cbn [orb].
    assert (R : (if (str_eqb n (lit "otlp_proto_grpc") || str_eqb n (lit "otlp_proto_http"))%bool then
       match or_str (environ (protocol_variable (Some s))) (environ (protocol_variable None)) with
       | Some ((_ :: _) as p) => Ok n | _ => Ok n end else Ok n) = Ok n).
    { destruct (_ || _)%bool; [|reflexivity]. destruct (or_str _ _) as [[|]|]; reflexivity. }
    rewrite R. split; [intros H; left; split; [exact E1|congruence]|]. intros [[_ H]|[H _]]; congruence.
Qed.

Lemma all_ok_spec {A B} (f : A -> outcome_of B) l r : all_ok f l = Ok r <-> Forall2 (fun x y => f x = Ok y) l r.
Proof.
  revert r. induction l as [|x l IH]; intros r; cbn [all_ok].
  - split; [intros E; injection E as <-; constructor|inversion 1; reflexivity].
  - destruct (f x) as [y|] eqn:E; cbn [bind_out].
    + destruct (all_ok f l) as [ys|] eqn:E'; cbn [bind_out].
      * split; [intros H; injection H as <-; constructor; [exact E|apply IH; reflexivity]|].
        inversion 1 as [|? ? ? ? P Q]; subst. apply IH in Q. congruence.
      * split; [discriminate|]. inversion 1 as [|? ? ? ? P Q]; subst. apply IH in Q. congruence.
    + split; [discriminate|]. inversion 1; congruence.
Qed.

Lemma exporter_names_spec s l : exporter_names pylower environ s = Ok l <->
  exists listed, names_in pylower (environ (exporters_variable s)) listed /\ Forall2 (stands_for environ s) listed l.
Proof.
  unfold exporter_names, names_in. rewrite exporter_var_is.
  destruct (environ (exporters_variable s)) as [[|c v]|]; cbn [unless_empty].
  - split; [intros E; injection E as <-; exists []; repeat constructor|]. intros (x & -> & F). inversion F. reflexivity.
  - destruct (str_eqb (strip py_space (pylower (c :: v))) (lit "none")) eqn:E.
    + apply str_eqb_true in E. split; [intros H; injection H as <-; exists []; split; [left; auto|constructor]|].
      intros (x & [[_ ->]|[C _]] & F); [inversion F; reflexivity|congruence].
    + apply str_eqb_false in E. rewrite all_ok_spec. split.
      * intros F. exists (map (strip py_space) (split_on 44 (c :: v))). split.
        -- right. split; [exact E|]. exists (split_on 44 (c :: v)). split; [symmetry; apply join_split_on|].
           split; [apply split_on_notin_all|]. split; [apply split_on_nonempty|reflexivity].
        -- induction F; cbn [map]; constructor; [apply entry_point_spec; assumption|assumption].
      * intros (x & [[C _]|(_ & parts & Hv & Hn & Hne & ->)] & F); [congruence|].
        rewrite Hv. change (lit ",") with [44%N]. rewrite split_on_join by assumption. clear Hv Hn Hne E. revert l F.
        induction parts as [|p parts IH]; intros l F; inversion F; subst; constructor; [apply entry_point_spec; assumption|apply IH; assumption].
  - split; [intros E; injection E as <-; exists []; repeat constructor|]. intros (x & -> & F). inversion F. reflexivity.
Qed.

Lemma import_components_spec g names l :
  import_components entry_points names g = Ok l <-> Forall2 (fun n nc => fst nc = n /\ entry_points g n = Entry (snd nc)) names l.
Proof.
  revert l. induction names as [|n names IH]; intros l; cbn [import_components].
  - split; [intros E; injection E as <-; constructor|inversion 1; reflexivity].
  - destruct (entry_points g n) as [| |c] eqn:E.
    + split; [discriminate|]. inversion 1 as [|? ? ? ? [_ P] Q]; congruence.
    + split; [discriminate|]. inversion 1 as [|? ? ? ? [_ P] Q]; congruence.
    + destruct (import_components entry_points names g) as [m|] eqn:E'; cbn [bind_out].
      * split; [intros H; injection H as <-; constructor; [split; [reflexivity|exact E]|apply IH; reflexivity]|].
        inversion 1 as [|? [n' c'] ? ? [P P'] Q]; subst. apply IH in Q. cbn [fst snd] in *. congruence.
      * split; [discriminate|]. inversion 1 as [|? ? ? ? _ Q]; subst. apply IH in Q. congruence.
Qed.

Lemma import_exporters_fold s (l : list (str * component)) : forall d,
  fold_left (fun acc nc => bind_out acc (fun d => if right_class s (snd nc) then Ok (dset (fst nc) (snd nc) d) else Raises "RuntimeError")) l (Ok d)
  = if forallb (fun nc => right_class s (snd nc)) l then Ok (dupdate d l) else Raises "RuntimeError".
Proof.
  induction l as [|[n c] l IH]; intros d; cbn [fold_left forallb fst snd bind_out]; [reflexivity|].
  destruct (right_class s c); cbn [andb]; [apply IH|].
  clear IH. induction l; [reflexivity|assumption].
Qed.

Lemma import_exporters_spec s names l :
  (exists d, import_exporters entry_points s names = Ok d /\ values d = l)
  <-> Forall2 (fun n c => entry_points (entry_group s) n = Entry c /\ exports_for s c) (firsts names) l.
Proof.
  unfold import_exporters. rewrite group_is. split.
  - intros (d & E & <-). destruct (import_components entry_points names (entry_group s)) as [m|] eqn:Em; [|discriminate].
    cbn [bind_out] in E. rewrite import_exporters_fold in E. destruct (forallb _ m) eqn:R; [|discriminate].
    change (Ok (dict_of m) = Ok d) in E. injection E as <-. apply import_components_spec in Em. rewrite forallb_forall in R.
    assert (Hn : map fst m = names) by (clear R; induction Em as [|? ? ? ? [P _] ? IH]; cbn; congruence).
    rewrite <- Hn, <- keys_dict_of. apply Forall2_keys_values. intros k v I.
    assert (I' : In (k, v) m).
    { apply In_dict_of_inv. exact I. }
    specialize (R _ I'). split; [|apply right_class_is; exact R].
    clear - Em I'. induction Em as [|? ? ? ? [P Q] ? IH]; [destruct I'|]; destruct I' as [->|I']; [cbn in *; subst; exact Q|apply IH; exact I'].
  - intros F.
    assert (Ex : exists m, Forall2 (fun n nc => fst nc = n /\ entry_points (entry_group s) n = Entry (snd nc)) names m
                 /\ forallb (fun nc => right_class s (snd nc)) m = true).
    { assert (Hin : forall n, In n names -> exists c, entry_points (entry_group s) n = Entry c /\ exports_for s c).
      { intros n I. assert (I' : In n (firsts names)).
        { clear F. induction names as [|x names IH]; [exact I|]. cbn [firsts]. destruct I as [->|I]; [left; reflexivity|].
          destruct (str_eq_dec x n) as [->|N]; [left; reflexivity|]. right. apply filter_In. split; [apply IH, I|].
          apply negb_true_iff, str_eqb_false. exact N. }
        clear I. induction F as [|? ? ? ? P ? IH]; [destruct I'|]; destruct I' as [->|I']; [eauto|apply IH, I']. }
      clear F. induction names as [|n names IH]; [exists []; split; [constructor|reflexivity]|].
      destruct IH as (m & A & B); [intros; apply Hin; right; assumption|].
      destruct (Hin n (or_introl eq_refl)) as (c & C & D). exists ((n, c) :: m). split; [constructor; [split; [reflexivity|exact C]|exact A]|].
      cbn [forallb snd]. rewrite B, (proj2 (right_class_is s c) D). reflexivity. }
    destruct Ex as (m & Em & R). exists (dict_of m). split.
    + assert (E : import_components entry_points names (entry_group s) = Ok m) by (apply import_components_spec; exact Em).
      rewrite E. cbn [bind_out]. rewrite import_exporters_fold, R. reflexivity.
    + assert (Hn : map fst m = names) by (clear - Em; induction Em as [|? ? ? ? [P _] ? IH]; cbn; congruence).
      assert (F' : Forall2 (fun n c => entry_points (entry_group s) n = Entry c) (firsts names) (values (dict_of m))).
      { rewrite <- Hn, <- keys_dict_of. apply Forall2_keys_values. intros k v I.
        apply In_dict_of_inv in I. rename I into Eg.
        clear - Em Eg. induction Em as [|? ? ? ? [P Q] ? IH]; [destruct Eg|]; destruct Eg as [->|I']; [cbn in *; subst; exact Q|apply IH; exact I']. }
      clear - F F'. revert F'. generalize (values (dict_of m)) as lv. induction F as [|? ? ? ? [P _] ? IH]; intros lv F'; inversion F'; subst; [reflexivity|].
      f_equal; [congruence|apply IH; assumption].
Qed.

Lemma add_all_spec mk l es ok : add_all constructs mk l = (es, ok) ->
  exists rest, map mk l = es ++ rest /\ (ok = true <-> Forall (fun c => constructs c = true) l) /\ (ok = true -> rest = []).
Proof.
  revert es ok. induction l as [|c l IH]; intros es ok; cbn [add_all map].
  - intros E; injection E as <- <-. exists []. split; [reflexivity|]. split; [split; [constructor|reflexivity]|reflexivity].
  - destruct (constructs c) eqn:C.
    + destruct (add_all constructs mk l) as [es' ok'] eqn:E'. intros E; injection E as <- <-.
      destruct (IH _ _ eq_refl) as (rest & A & B & D). exists rest. split; [cbn; f_equal; exact A|]. split; [|exact D].
      rewrite B. split; [intros F; constructor; assumption|inversion 1; assumption].
    + intros E; injection E as <- <-. exists (map mk (c :: l)). split; [reflexivity|]. split; [|discriminate].
      split; [discriminate|]. inversion 1; congruence.
Qed.

Lemma names_asked s given names d :
  bind_out (exporter_names pylower environ s) (fun l => Ok (given ++ l)) = Ok names ->
  import_exporters entry_points s names = Ok d -> asked_for s given (values d).
Proof.
  destruct (exporter_names pylower environ s) as [l|] eqn:E; [|discriminate]. cbn [bind_out]. intros H Hd. injection H as <-.
  apply exporter_names_spec in E. destruct E as (listed & A & B). exists listed, l. split; [exact A|]. split; [exact B|].
  apply import_exporters_spec. exists d. split; [exact Hd|reflexivity].
Qed.
Lemma asked_names s given l : asked_for s given l ->
  exists names d, bind_out (exporter_names pylower environ s) (fun l => Ok (given ++ l)) = Ok names
    /\ import_exporters entry_points s names = Ok d /\ values d = l.
Proof.
  intros (listed & meant & A & B & C). assert (E : exporter_names pylower environ s = Ok meant) by (apply exporter_names_spec; eauto).
  rewrite E. cbn [bind_out]. apply import_exporters_spec in C. destruct C as (d & C & D). eauto 6.
Qed.

Definition generator_of (a : config_args) : outcome_of generator :=
  match ca_id_generator a with
  | Some g => Ok (GivenGenerator g)
  | None => bind_out (import_id_generator entry_points constructs (match environ (lit "OTEL_PYTHON_ID_GENERATOR") with Some n => n | None => lit "random" end))
              (fun c => Ok (EntryGenerator c))
  end.
Lemma generator_spec a g : generator_of a = Ok g <-> chosen_generator entry_points constructs environ (ca_id_generator a) g.
Proof.
  unfold generator_of, chosen_generator. destruct (ca_id_generator a) as [n|]; [split; congruence|].
  unfold import_id_generator. cbn [import_components].
  destruct (entry_points _ _) as [| |c] eqn:E; cbn [bind_out].
  - split; [discriminate|]. intros (c & C & _); congruence.
  - split; [discriminate|]. intros (c & C & _); congruence.
  - destruct (c_id_generator c) eqn:G; cbn [bind_out].
    + destruct (constructs c) eqn:K; cbn [bind_out].
      * split; [intros H; injection H as <-; exists c; auto|]. intros (c' & C & _ & _ & ->). congruence.
      * split; [discriminate|]. intros (c' & C & _ & K' & _); congruence.
    + split; [discriminate|]. intros (c' & C & G' & _); congruence.
Qed.

Definition attributes_of (a : config_args) : dict str str :=
  match ca_auto_version a with
  | Some ((_ :: _) as v) => dset (lit "telemetry.auto.version") v (ca_attributes a)
  | _ => ca_attributes a
  end.
Lemma attributes_spec a : with_version (ca_auto_version a) (ca_attributes a) (attributes_of a).
Proof.
  intros k. unfold attributes_of. destruct (ca_auto_version a) as [[|c v]|]; cbn [unless_empty]; [reflexivity| |reflexivity].
  destruct (str_eqb k (lit "telemetry.auto.version")) eqn:E.
  - apply str_eqb_true in E. subst k. apply dget_dset_eq.
  - apply str_eqb_false in E. apply dget_dset_ne. exact E.
Qed.

Definition sampler_of (a : config_args) : outcome_of sampler :=
  match (match ca_sampler a with Some s => Some s | None => import_sampler pyfloat sampler_entry environ (environ (lit "OTEL_TRACES_SAMPLER")) end) with
  | Some s => Ok s | None => sampler_from_env pylower pyfloat environ
  end.

Definition handler_of (a : config_args) : bool :=
  match ca_logging_handler a with
  | Some b => b
  | None => str_eqb (pylower (strip py_space (match environ (lit "OTEL_PYTHON_LOGGING_AUTO_INSTRUMENTATION_ENABLED") with Some v => v | None => lit "false" end))) (lit "true")
  end.
Lemma handler_spec a : lower_on_ascii pylower -> wants_handler pylower environ (ca_logging_handler a) (handler_of a).
Proof.
  intros L. unfold wants_handler, handler_of. destruct (ca_logging_handler a); [reflexivity|]. rewrite str_eqb_true.
  destruct (environ _) as [v|]; [split; [eauto|intros (v' & E & H); congruence]|].
  split; [|intros (v' & E & _); discriminate]. rewrite L by (vm_compute; repeat constructor). vm_compute. discriminate.
Qed.

Definition readied (l : list component) : list reader := map make_reader l.
Lemma readied_spec l : Forall2 reader_for l (readied l).
Proof.
  induction l as [|c l IH]; constructor; [|exact IH]. unfold reader_for, make_reader. destruct (c_metric_reader c); auto.
Qed.

(** The outcome, by cases. *)
Lemma initialize_cases a es r : initialize a = (es, r) ->
  (es = [] /\ r <> Ok tt)
  \/ exists te me le s g,
       asked_for Traces (ca_trace_names a) te /\ asked_for Metrics (ca_metric_names a) me /\ asked_for Logs (ca_log_names a) le
       /\ sampler_of a = Ok s /\ generator_of a = Ok g
       /\ (exists rest, everything s g (attributes_of a) te (readied me) le (handler_of a) = es ++ rest /\ (r = Ok tt -> rest = []))
       /\ installed_sampler es = Some s
       /\ (r = Ok tt <-> Forall (fun c => constructs c = true) (te ++ me ++ le)).
Proof.
  unfold Model_Config.initialize. fold (generator_of a) (attributes_of a) (handler_of a) (sampler_of a).
  destruct (bind_out (exporter_names pylower environ Traces) _) as [tn|] eqn:E1; cbn [bind_out];
    [|intros E; injection E as <- <-; left; split; [reflexivity|discriminate]].
  destruct (bind_out (exporter_names pylower environ Metrics) _) as [mn|] eqn:E2; cbn [bind_out];
    [|intros E; injection E as <- <-; left; split; [reflexivity|discriminate]].
  destruct (bind_out (exporter_names pylower environ Logs) _) as [ln|] eqn:E3; cbn [bind_out];
    [|intros E; injection E as <- <-; left; split; [reflexivity|discriminate]].
  destruct (import_exporters entry_points Traces tn) as [te|] eqn:I1; cbn [bind_out];
    [|intros E; injection E as <- <-; left; split; [reflexivity|discriminate]].
  destruct (import_exporters entry_points Metrics mn) as [me|] eqn:I2; cbn [bind_out];
    [|intros E; injection E as <- <-; left; split; [reflexivity|discriminate]].
  destruct (import_exporters entry_points Logs ln) as [le|] eqn:I3; cbn [bind_out];
    [|intros E; injection E as <- <-; left; split; [reflexivity|discriminate]].
  destruct (generator_of a) as [g|] eqn:G; [|intros E; injection E as <- <-; left; split; [reflexivity|discriminate]].
  destruct (sampler_of a) as [s|] eqn:Sm; [|intros E; injection E as <- <-; left; split; [reflexivity|discriminate]].
  intros E. right. exists (values te), (values me), (values le), s, g.
  split; [eapply names_asked; eassumption|]. split; [eapply names_asked; eassumption|]. split; [eapply names_asked; eassumption|].
  split; [reflexivity|]. split; [reflexivity|].
  destruct (add_all constructs AddSpanExporter (values te)) as [e1 ok1] eqn:A1.
  destruct (add_all_spec _ _ _ _ A1) as (rest1 & P1 & Q1 & R1).
  unfold everything. rewrite !Forall_app. fold (readied (values me)) in E. destruct ok1; cbn [negb] in E.
  2: { injection E as <- <-. split; [|split; [reflexivity|split; [discriminate|intros (F & _); apply Q1 in F; discriminate]]].
       eexists. split; [|discriminate]. rewrite P1. cbn [app]. f_equal. rewrite <- app_assoc. reflexivity. }
  rewrite (R1 eq_refl), app_nil_r in P1.
  destruct (forallb constructs (values me)) eqn:A2; cbn [negb] in E.
  2: { injection E as <- <-. split; [|split; [reflexivity|split; [discriminate|]]].
       - eexists. split; [|discriminate]. rewrite P1. cbn [app]. reflexivity.
       - intros (_ & F & _). apply not_true_iff_false in A2. exfalso. apply A2. apply forallb_forall. apply Forall_forall. exact F. }
  destruct (add_all constructs AddLogExporter (values le)) as [e2 ok2] eqn:A3.
  destruct (add_all_spec _ _ _ _ A3) as (rest2 & P2 & Q2 & R2). destruct ok2; cbn [negb] in E.
  2: { injection E as <- <-. split; [|split; [reflexivity|split; [discriminate|intros (_ & _ & F); apply Q2 in F; discriminate]]].
       eexists. split; [|discriminate]. rewrite P1, P2. cbn [app]. f_equal. rewrite <- !app_assoc. cbn [app]. reflexivity. }
  rewrite (R2 eq_refl), app_nil_r in P2. injection E as <- <-. split; [|split; [reflexivity|split; [intros _|reflexivity]]].
  - exists []. split; [|reflexivity]. rewrite P1, P2. cbn [app]. f_equal. rewrite <- !app_assoc. cbn [app]. rewrite app_nil_r. reflexivity.
  - split; [apply Q1; reflexivity|]. split; [apply Forall_forall, forallb_forall; exact A2|apply Q2; reflexivity].
Qed.

Lemma initialize_succeeds a te me le s g :
  asked_for Traces (ca_trace_names a) te -> asked_for Metrics (ca_metric_names a) me -> asked_for Logs (ca_log_names a) le ->
  sampler_of a = Ok s -> generator_of a = Ok g ->
  exists es r, initialize a = (es, r) /\ es <> [].
Proof.
  intros A1 A2 A3 Hs Hg. apply asked_names in A1, A2, A3.
  destruct A1 as (n1 & d1 & N1 & D1 & V1), A2 as (n2 & d2 & N2 & D2 & V2), A3 as (n3 & d3 & N3 & D3 & V3).
  unfold Model_Config.initialize. fold (generator_of a) (attributes_of a) (handler_of a) (sampler_of a).
  rewrite N1, N2, N3. cbn [bind_out]. rewrite D1, D2, D3. cbn [bind_out]. rewrite Hg, Hs.
  destruct (add_all constructs AddSpanExporter (values d1)) as [e1 [|]]; cbn [negb]; [|do 2 eexists; split; [reflexivity|discriminate]].
  destruct (forallb constructs (values d2)); cbn [negb]; [|do 2 eexists; split; [reflexivity|discriminate]].
  destruct (add_all constructs AddLogExporter (values d3)) as [e2 [|]]; cbn [negb]; do 2 eexists; (split; [reflexivity|discriminate]).
Qed.

(** *** The sampler *)
Lemma pylower_known n k : lower_on_ascii pylower -> dget n KNOWN_SAMPLERS = Some k -> pylower n = n.
Proof.
  intros L H. apply dget_In in H. unfold KNOWN_SAMPLERS in H. cbn [In] in H.
  repeat (destruct H as [H|H]; [injection H as <- <-; rewrite L by (vm_compute; repeat constructor); vm_compute; reflexivity|]). destruct H.
Qed.
Lemma import_sampler_named (nm : str) : nm <> [] ->
  import_sampler pyfloat sampler_entry environ (Some nm)
  = match sampler_entry (strip py_space nm) with
    | None => None
    | Some factory =>
        match factory (if (str_eqb nm (lit "traceidratio") || str_eqb nm (lit "parentbased_traceidratio"))%bool
                       then ArgFloat (env_rate pyfloat environ) else ArgText (environ (lit "OTEL_TRACES_SAMPLER_ARG"))) with
        | Ok (Some s) => Some s | _ => None
        end
    end.
Proof. intros H. destruct nm; [congruence|]. reflexivity. Qed.
Lemma sampler_of_env a : lower_on_ascii pylower -> sdk_samplers sampler_entry -> ca_sampler a = None ->
  (forall n, environ (lit "OTEL_TRACES_SAMPLER") = Some n -> strip py_space n = n) ->
  sampler_of a = sampler_from_env pylower pyfloat environ.
Proof.
  intros L Hs Hn Hsp. unfold sampler_of. rewrite Hn.
  destruct (environ (lit "OTEL_TRACES_SAMPLER")) as [nm|] eqn:E; [|reflexivity].
  destruct (list_eq_dec N.eq_dec nm []) as [->|Ne]; [reflexivity|].
  rewrite (import_sampler_named nm Ne), (Hsp _ eq_refl), (Hs nm).
  unfold sampler_from_env. rewrite E. fold (env_rate pyfloat environ). change (match environ (lit "OTEL_TRACES_SAMPLER_ARG") with
     | Some s => match pyfloat s with Some r => r | None => done_ end | None => done_ end) with (env_rate pyfloat environ).
  destruct (dget nm KNOWN_SAMPLERS) as [k|] eqn:Ek; cbn [option_map]; [|reflexivity].
  rewrite (pylower_known _ _ L Ek), Ek.
  apply dget_In in Ek. unfold KNOWN_SAMPLERS in Ek. cbn [In] in Ek.
  repeat match type of Ek with _ \/ _ => destruct Ek as [Ek|Ek] end; try (destruct Ek; fail); injection Ek as <- <-; cbn [builtin_sampler]; try reflexivity.
  all: match goal with |- context [if ?b then _ else _] => change b with true end; cbn iota; cbn [builtin_sampler];
    destruct (ratio_bound (env_rate pyfloat environ)); reflexivity.
Qed.
End Config.
