(** Proofs that exemplars leave the points as they are. *)
From Verif Require Import Proof_ExemplarPipeline Proof_Streams Proof_Pipeline Proof_Metrics Proof_View Proof_Storage.
From Verif Require Import Spec_ExemplarPipeline Model_Exemplar Spec_Exemplar.
From Coq Require Import Lia.
Local Open Scope Z_scope.

Section Erased.
Variable float_int : Z -> option Z.
Variable obj_hash : N -> bool.
Variable fnmatch : str -> str -> bool.
Context {Scope : Type} `{EqDec Scope}.
Variable the_scope : Scope -> scope.
Variable obj : N -> instr.
Variable scope_of : N -> Scope.
Variable the_call : N -> mcall.
Variable f : efilter.
Variable rand : N -> mattrs -> Z -> nat -> Z -> Z.
Variable views : list (@view aggregation).
Variable readers : list (@reader aggregation).
Notation e_create := (e_create obj rand).
Notation e_aggregate := (e_aggregate the_call f).
Notation a_create := (fun g i => create g (in_kind (obj i)) (in_adv (obj i))).
Notation a_collect := (fun t a now => collect a t now).

Definition val (z : Z) : Z := mc_value (the_call (Z.to_N z)).
Definition v_cop (o : cop) : cop :=
  match o with
  | CMeasure i a z n => CMeasure i a (val z) n
  | CCollect r obs t n => CCollect r (map (fun ob : observation => (fst (fst ob), snd (fst ob), val (snd ob))) obs) t n
  end.
Definition v_vop (o : vop) : vop := match o with VMeasure a z n => VMeasure a (val z) n | VCollect n => VCollect n end.
Definition erase (s : @series estate) : @series agg := map (fun ka => (fst ka, es_agg (snd ka))) s.

Lemma ops_plain h : flat_map (pcall_ops obj) (map (plain_call the_call) h) = map v_cop (flat_map (pcall_ops obj) (flat_map (e_pcall obj the_call) h)).
Proof.
  induction h as [|c h IH]; [reflexivity|]. cbn [map flat_map]. rewrite flat_map_app, map_app, <- IH. f_equal. clear IH.
  destruct c as [i k now|r obs tm now]; cbn [plain_call e_pcall pcall_ops].
  - unfold offered at 1 2. assert (E : offered (in_kind (obj i)) (Z.of_N k) = Some (Z.of_N k)).
    { unfold offered. destruct (in_kind (obj i)); try reflexivity; destruct (Z.ltb_spec (Z.of_N k) 0); try reflexivity; lia. }
    assert (V : val (Z.of_N k) = mc_value (the_call k)) by (unfold val; now rewrite N2Z.id).
    destruct (in_kind (obj i)) eqn:K; try (destruct (mc_value (the_call k) <? 0)); cbn [flat_map pcall_ops]; rewrite ?K, ?E; cbn [map app v_cop]; rewrite ?V; reflexivity.
  - cbn [flat_map pcall_ops app map v_cop]. f_equal. f_equal. rewrite map_map. apply map_ext. intros [j k]. cbn. unfold val. now rewrite N2Z.id.
Qed.
Lemma used_plain r h : used r (map v_cop h) = used r h.
Proof.
  unfold used. rewrite flat_map_concat_map, map_map, <- flat_map_concat_map. apply flat_map_ext. intros [j a z n|r' obs t n]; [reflexivity|].
  cbn [v_cop]. destruct (Nat.eqb r' r); [|reflexivity]. rewrite map_map. reflexivity.
Qed.
Lemma ops_for_plain r i h : ops_for r i (map v_cop h) = map v_vop (ops_for r i h).
Proof.
  unfold ops_for. induction h as [|o h IH]; [reflexivity|]. cbn [map flat_map]. rewrite map_app, IH. f_equal. clear IH.
  destruct o as [j a z n|r' obs t n]; cbn [v_cop ops_of].
  - destruct (N.eqb j i); reflexivity.
  - destruct (Nat.eqb r' r); [|reflexivity]. rewrite map_app. f_equal; [|destruct t; reflexivity].
    induction obs as [|[[j a] z] obs IH]; [reflexivity|]. cbn [map flat_map fst snd]. rewrite map_app, IH. f_equal. destruct (N.eqb j i); reflexivity.
Qed.
Lemma aggregate_erased s z : es_agg (e_aggregate s z) = aggregate (es_agg s) (val z).
Proof. unfold Model_ExemplarPipeline.e_aggregate. destruct (es_agg s) eqn:E; cbn [es_agg]; try reflexivity. now rewrite E. Qed.
Lemma collect_erased t s now : es_agg (fst (e_collect t s now)) = fst (collect (es_agg s) t now)
  /\ option_map fst (snd (e_collect t s now)) = snd (collect (es_agg s) t now).
Proof. unfold e_collect. destruct (collect (es_agg s) t now) as [a [p|]]; [|split; reflexivity]. destruct (rcollect _ _) as [r es]. split; reflexivity. Qed.
Lemma find_erased k s : find_series k (erase s) = option_map es_agg (find_series k s).
Proof. induction s as [|[k' a] s IH]; [reflexivity|]. cbn. destruct (fs_eqb k k'); [reflexivity|exact IH]. Qed.
Lemma upd_erased k z s : erase (upd_series k (fun a => e_aggregate a z) s) = upd_series k (fun a => aggregate a (val z)) (erase s).
Proof.
  induction s as [|[k' a] s IH]; [reflexivity|]. cbn [erase upd_series map fst snd]. destruct (fs_eqb k k'); cbn [map fst snd].
  - now rewrite aggregate_erased.
  - f_equal. exact IH.
Qed.
Lemma vm_collect_erased t now s :
  let x := vm_collect (e_collect t) s now in let y := vm_collect (a_collect t) (erase s) now in
  erase (fst x) = fst y /\ map fst (snd x) = snd y.
Proof.
  induction s as [|[k a] s [IH1 IH2]]; [split; reflexivity|]. cbn [erase map fst snd vm_collect]. fold (erase s).
  destruct (collect_erased t a now) as [C1 C2]. destruct (e_collect t a now) as [a' p]. destruct (collect (es_agg a) t now) as [b q]. cbn [fst snd] in C1, C2.
  destruct (vm_collect (e_collect t) s now) as [s' ps]. destruct (vm_collect (a_collect t) (erase s) now) as [s'' qs]. cbn [fst snd] in *.
  subst. split; [reflexivity|]. destruct p; reflexivity.
Qed.
Lemma vm_run_erased g i t ks ops :
  erase (vm_run float_int obj_hash (e_create g i) e_aggregate (e_collect t) ks ops)
  = vm_run float_int obj_hash (a_create g i) aggregate (a_collect t) ks (map v_vop ops).
Proof.
  unfold vm_run. change (@nil (fset * agg)) with (erase []). generalize (@nil (fset * estate)) as s. induction ops as [|o ops IH]; intro s; [reflexivity|].
  cbn [fold_left map]. rewrite IH. f_equal. clear IH. destruct o as [a z n|n]; cbn [vm_step v_vop].
  - unfold vm_consume. destruct (frozen _ _ _) as [k|]; [|reflexivity]. rewrite upd_erased. f_equal. rewrite find_erased.
    destruct (find_series k s); cbn [option_map]; [reflexivity|]. unfold erase. rewrite map_app. reflexivity.
  - apply (vm_collect_erased t n s).
Qed.
Lemma metrics_erased applying rd r h now i :
  map without_exemplars (metrics_of float_int obj_hash obj Default asks_default e_create e_aggregate e_collect (agg_shape obj) views applying rd r h now i)
  = metrics_of float_int obj_hash obj Default asks_default a_create aggregate a_collect (agg_shape obj) views applying rd r (map v_cop h) now i.
Proof.
  unfold metrics_of. induction (streams Default views applying i) as [|v vs IH]; [reflexivity|]. cbn [flat_map]. rewrite map_app, IH. f_equal. clear IH.
  unfold series_of. rewrite ops_for_plain, <- vm_run_erased.
  set (s := vm_run _ _ _ _ _ _ _). destruct (vm_collect_erased (rd_temporality rd (in_kind (obj i))) now s) as [_ E]. rewrite <- E.
  set (ps := snd (vm_collect _ s now)). unfold reported. destruct ps as [|p ps]; [reflexivity|]. cbn [map].
  destruct (agg_shape obj _ i); reflexivity.
Qed.
Theorem points_unchanged h r obs now h' rd :
  nth_error readers r = Some rd ->
  Forall (e_allowed float_int obj_hash obj the_call) (h ++ ECollect r obs false now :: h') ->
  exists out out',
    e_output float_int obj_hash fnmatch the_scope obj scope_of the_call f rand views readers h (h ++ ECollect r obs false now :: h') = Some (CMetrics r out)
    /\ output_after float_int obj_hash fnmatch the_scope obj scope_of views readers (map (plain_call the_call) h)
         (map (plain_call the_call) (h ++ ECollect r obs false now :: h')) = Some (CMetrics r out')
    /\ forall s, option_map (map without_exemplars) (dget s out) = dget s out'.
Proof.
  intros R F. set (applying := fun i v => view_match fnmatch (fun s => sco_name (the_scope s)) (fun s => sco_version (the_scope s)) (fun s => sco_schema (the_scope s)) obj scope_of v i && compatible obj asks_explicit v i).
  pose proof (allowed_api float_int obj_hash obj the_call _ F) as FA. apply (api_hashables float_int obj_hash obj) in FA.
  set (ops := flat_map (pcall_ops obj) (flat_map (e_pcall obj the_call) h)).
  set (ops' := flat_map (pcall_ops obj) (flat_map (e_pcall obj the_call) h')).
  rewrite !flat_map_app in FA. cbn [flat_map e_pcall app pcall_ops] in FA. rewrite ?flat_map_app in FA. cbn [flat_map pcall_ops app] in FA. fold ops ops' in FA.
  set (eo := map _ obs) in FA.
  destruct (collect_reports float_int obj_hash fnmatch (fun s => sco_name (the_scope s)) (fun s => sco_version (the_scope s)) (fun s => sco_schema (the_scope s))
    obj scope_of Default asks_default asks_explicit e_create e_aggregate
    e_collect (agg_shape obj) views readers applying (fun i v => view_match_spec _ _ _ _ _ _ _ v i) ops r eo now ops' rd FA R) as (out & Eo & _ & Go).
  assert (FB : Forall (cop_hashable float_int obj_hash) (map v_cop ops ++ v_cop (CCollect r eo false now) :: map v_cop ops')).
  { rewrite <- (map_cons v_cop), <- map_app. apply Forall_map. eapply Forall_impl; [|exact FA]. intros [j a z n|r' ob t n]; cbn; [auto|]. intro X. apply Forall_map. exact X. }
  cbn [v_cop] in FB.
  destruct (collect_reports float_int obj_hash fnmatch (fun s => sco_name (the_scope s)) (fun s => sco_version (the_scope s)) (fun s => sco_schema (the_scope s))
    obj scope_of Default asks_default asks_explicit a_create aggregate
    a_collect (agg_shape obj) views readers applying (fun i v => view_match_spec _ _ _ _ _ _ _ v i) _ r _ now _ rd FB R) as (out' & Eo' & _ & Go').
  exists out, out'. split; [|split].
  - unfold e_output, e_run. rewrite !flat_map_app. cbn [flat_map e_pcall app pcall_ops]. rewrite ?flat_map_app. cbn [flat_map pcall_ops app]. exact Eo.
  - unfold output_after, sdk_run. rewrite !ops_plain, map_length. rewrite !flat_map_app. cbn [flat_map e_pcall app pcall_ops]. rewrite ?flat_map_app. cbn [flat_map pcall_ops app].
    rewrite map_app. cbn [map]. rewrite map_length in Eo'. exact Eo'.
  - intro s. rewrite Go, Go'. change (CCollect r (map _ eo) true now) with (v_cop (CCollect r eo true now)).
    replace (map v_cop ops ++ [v_cop (CCollect r eo true now)]) with (map v_cop (ops ++ [CCollect r eo true now])) by (rewrite map_app; reflexivity).
    rewrite used_plain. set (hh := ops ++ _). set (us := Spec_Storage.once [] _).
    assert (E : map without_exemplars (flat_map (fun i => if eq_dec (scope_of i) s then metrics_of float_int obj_hash obj Default asks_default e_create e_aggregate e_collect (agg_shape obj) views applying rd r hh now i else []) us)
      = flat_map (fun i => if eq_dec (scope_of i) s then metrics_of float_int obj_hash obj Default asks_default a_create aggregate a_collect (agg_shape obj) views applying rd r (map v_cop hh) now i else []) us).
    { induction us as [|i us IH]; [reflexivity|]. cbn [flat_map]. rewrite map_app, IH. f_equal. destruct (eq_dec (scope_of i) s); [apply metrics_erased|reflexivity]. }
    rewrite <- E. destruct (flat_map _ us); reflexivity.
Qed.
End Erased.
