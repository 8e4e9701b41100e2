(** Proofs that exemplars leave the points of exponential histograms in the pipeline as they are. *)
From Verif Require Import Proof_ExemplarErased Proof_ExemplarPipeline Proof_Streams Proof_Pipeline Proof_ExpPipeline Proof_ExpExemplar Proof_Metrics Proof_View Proof_Storage.
From Verif Require Import Spec_ExpExemplarPipeline Spec_ExemplarPipeline Model_ExemplarPipeline Model_Exemplar Spec_Exemplar.
From Coq Require Import Lia.
Local Open Scope Z_scope.

Section Erased.
Variable float_int : Z -> option Z.
Variable obj_hash : N -> bool.
Variable fnmatch : str -> str -> bool.
Context {Scope : Type} `{EqDec Scope}.
Variable the_scope : Scope -> scope.
Variable obj : N -> instr.
Variable scope_of : N -> Scope.
Variable log_floor : Z -> Z -> Z.
Variable the_call : N -> mcall.
Variable f : efilter.
Variable rand : N -> mattrs -> Z -> nat -> Z -> Z.
Context {G0 A0 D0 : Type}.
Variable default0 : G0.
Variable is_default0 is_explicit0 : G0 -> bool.
Variable create0 : G0 -> N -> mattrs -> Z -> A0.
Variable aggregate0 : A0 -> Z -> A0.
Variable collect0 : temporality -> A0 -> Z -> A0 * option D0.
Variable shape0 : G0 -> N -> shape.
Variable views : list (@view (xconf G0)).
Variable readers : list (@reader (xconf G0)).
Notation val := (Proof_ExemplarErased.val the_call).
Notation v_cop := (Proof_ExemplarErased.v_cop the_call).
Notation v_vop := (Proof_ExemplarErased.v_vop the_call).
Notation numbered := (fun (a : A0) (k : Z) => aggregate0 a (mc_value (the_call (Z.to_N k)))).
Notation m_create := (m_create obj rand create0).
Notation m_aggregate := (m_aggregate log_floor the_call f numbered).
Notation m_collect := (m_collect log_floor f collect0).
Notation x_create := (x_create obj create0).
Notation x_aggregate := (x_aggregate log_floor aggregate0).
Notation x_collect := (x_collect collect0).
Notation shape_of := (x_shape shape0).
Notation xd := (x_default is_default0).

Definition state_alone (a : mstate A0) : xstate A0 :=
  match a with MOther a => OtherState a | MExp s _ _ => ExpState (xe_hist s) (negb (xe_ok s)) | MRefused => ExpRefused end.
Definition series_alone (s : @series (mstate A0)) : @series (xstate A0) := map (fun ka => (fst ka, state_alone (snd ka))) s.

Lemma create_alone g i d st : state_alone (m_create g i d st) = x_create g i d st.
Proof. destruct g as [g|mx ms]; [reflexivity|]. cbn [Model_ExpExemplarPipeline.m_create Model_ExpPipeline.x_create]. destruct (eh_new _ _ _ _ _); reflexivity. Qed.
Lemma aggregate_alone a z : state_alone (m_aggregate a z) = x_aggregate (state_alone a) (val z).
Proof.
  destruct a as [a|s rd n|]; [reflexivity| |reflexivity]. cbn [Model_ExpExemplarPipeline.m_aggregate state_alone Model_ExpPipeline.x_aggregate xe_step].
  rewrite value_is. unfold Proof_ExemplarErased.val. destruct (eh_aggregate _ _ _) as [h ok]. cbn [xe_hist xe_ok]. f_equal. destruct (xe_ok s), ok; reflexivity.
Qed.
Lemma collect_alone t a now : state_alone (fst (m_collect t a now)) = fst (x_collect t (state_alone a) now)
  /\ option_map point_alone (snd (m_collect t a now)) = snd (x_collect t (state_alone a) now).
Proof.
  destruct a as [a|s rd n|]; [| |split; reflexivity].
  - cbn. destruct (collect0 t a now) as [a' [d|]]; split; reflexivity.
  - cbn [Model_ExpExemplarPipeline.m_collect state_alone Model_ExpPipeline.x_collect xe_step fst snd].
    destruct (eh_collect _ _ _) as [h [|p|]]; try (destruct (rcollect _ _) as [res es]); cbn [xe_hist xe_ok xe_out]; rewrite last_last; split; reflexivity.
Qed.
Lemma find_alone k s : find_series k (series_alone s) = option_map state_alone (find_series k s).
Proof. induction s as [|[k' a] s IH]; [reflexivity|]. cbn. destruct (fs_eqb k k'); [reflexivity|exact IH]. Qed.
Lemma upd_alone k z s : series_alone (upd_series k (fun a => m_aggregate a z) s) = upd_series k (fun a => x_aggregate a (val z)) (series_alone s).
Proof.
  induction s as [|[k' a] s IH]; [reflexivity|]. cbn [series_alone upd_series map fst snd]. destruct (fs_eqb k k'); cbn [map fst snd].
  - now rewrite aggregate_alone.
  - f_equal. exact IH.
Qed.
Lemma vm_collect_alone t now s :
  let x := vm_collect (m_collect t) s now in let y := vm_collect (x_collect t) (series_alone s) now in
  series_alone (fst x) = fst y /\ map point_alone (snd x) = snd y.
Proof.
  induction s as [|[k a] s [IH1 IH2]]; [split; reflexivity|]. cbn [series_alone map fst snd vm_collect]. fold (series_alone s).
  destruct (collect_alone t a now) as [C1 C2]. destruct (m_collect t a now) as [a' p]. destruct (x_collect t (state_alone a) now) as [b q]. cbn [fst snd] in C1, C2.
  destruct (vm_collect (m_collect t) s now) as [s' ps]. destruct (vm_collect (x_collect t) (series_alone s) now) as [s'' qs]. cbn [fst snd] in *.
  subst. split; [reflexivity|]. destruct p; reflexivity.
Qed.
Lemma vm_run_alone g i t ks ops :
  series_alone (vm_run float_int obj_hash (m_create g i) m_aggregate (m_collect t) ks ops)
  = vm_run float_int obj_hash (x_create g i) x_aggregate (x_collect t) ks (map v_vop ops).
Proof.
  unfold vm_run. change (@nil (fset * xstate A0)) with (series_alone []). generalize (@nil (fset * mstate A0)) as s. induction ops as [|o ops IH]; intro s; [reflexivity|].
  cbn [fold_left map]. rewrite IH. f_equal. clear IH. destruct o as [a z n|n]; cbn [vm_step Proof_ExemplarErased.v_vop].
  - unfold vm_consume. destruct (frozen _ _ _) as [k|]; [|reflexivity]. rewrite upd_alone. f_equal. rewrite find_alone.
    destruct (find_series k s); cbn [option_map]; [reflexivity|]. unfold series_alone. rewrite map_app. cbn [map fst snd]. now rewrite create_alone.
  - apply (vm_collect_alone t n s).
Qed.
Lemma metrics_alone applying rd r h now i :
  map metric_alone (metrics_of float_int obj_hash obj (Other default0) xd m_create m_aggregate m_collect shape_of views applying rd r h now i)
  = metrics_of float_int obj_hash obj (Other default0) xd x_create x_aggregate x_collect shape_of views applying rd r (map v_cop h) now i.
Proof.
  unfold metrics_of. induction (streams (Other default0) views applying i) as [|v vs IH]; [reflexivity|]. cbn [flat_map]. rewrite map_app, IH. f_equal. clear IH.
  unfold series_of. rewrite ops_for_plain, <- vm_run_alone.
  set (s := vm_run _ _ _ _ _ _ _). destruct (vm_collect_alone (rd_temporality rd (in_kind (obj i))) now s) as [_ E]. rewrite <- E.
  set (ps := snd (vm_collect _ s now)). unfold reported. destruct ps as [|p ps]; [reflexivity|]. cbn [map].
  destruct (shape_of _ i); reflexivity.
Qed.
Theorem exp_points_unchanged h r obs now h' rd :
  nth_error readers r = Some rd ->
  Forall (e_allowed float_int obj_hash obj the_call) (h ++ ECollect r obs false now :: h') ->
  exists out out',
    m_output float_int obj_hash fnmatch the_scope obj scope_of log_floor the_call f rand default0 is_default0 is_explicit0 create0 numbered collect0 shape0
      views readers h (h ++ ECollect r obs false now :: h') = Some (CMetrics r out)
    /\ x_output float_int obj_hash fnmatch the_scope obj scope_of log_floor default0 is_default0 is_explicit0 create0 aggregate0 collect0 shape0
         views readers (map (plain_call the_call) h) (map (plain_call the_call) (h ++ ECollect r obs false now :: h')) = Some (CMetrics r out')
    /\ forall s, option_map (map metric_alone) (dget s out) = dget s out'.
Proof.
  intros R F. set (applying := fun i v => view_match fnmatch (fun s => sco_name (the_scope s)) (fun s => sco_version (the_scope s)) (fun s => sco_schema (the_scope s)) obj scope_of v i && compatible obj (x_explicit is_explicit0) v i).
  pose proof (allowed_api float_int obj_hash obj the_call _ F) as FA. apply (api_hashables float_int obj_hash obj) in FA.
  set (ops := flat_map (pcall_ops obj) (flat_map (e_pcall obj the_call) h)).
  set (ops' := flat_map (pcall_ops obj) (flat_map (e_pcall obj the_call) h')).
  rewrite !flat_map_app in FA. cbn [flat_map e_pcall app pcall_ops] in FA. rewrite ?flat_map_app in FA. cbn [flat_map pcall_ops app] in FA. fold ops ops' in FA.
  set (eo := map _ obs) in FA.
  destruct (collect_reports float_int obj_hash fnmatch (fun s => sco_name (the_scope s)) (fun s => sco_version (the_scope s)) (fun s => sco_schema (the_scope s))
    obj scope_of (Other default0) xd (x_explicit is_explicit0) m_create m_aggregate
    m_collect shape_of views readers applying (fun i v => view_match_spec _ _ _ _ _ _ _ v i) ops r eo now ops' rd FA R) as (out & Eo & _ & Go).
  assert (FB : Forall (cop_hashable float_int obj_hash) (map v_cop ops ++ v_cop (CCollect r eo false now) :: map v_cop ops')).
  { rewrite <- (map_cons v_cop), <- map_app. apply Forall_map. eapply Forall_impl; [|exact FA]. intros [j a z n|r' ob t n]; cbn; [auto|]. intro X. apply Forall_map. exact X. }
  cbn [Proof_ExemplarErased.v_cop] in FB.
  destruct (collect_reports float_int obj_hash fnmatch (fun s => sco_name (the_scope s)) (fun s => sco_version (the_scope s)) (fun s => sco_schema (the_scope s))
    obj scope_of (Other default0) xd (x_explicit is_explicit0) x_create x_aggregate
    x_collect shape_of views readers applying (fun i v => view_match_spec _ _ _ _ _ _ _ v i) _ r _ now _ rd FB R) as (out' & Eo' & _ & Go').
  exists out, out'. split; [|split].
  - unfold m_output, m_run. rewrite !flat_map_app. cbn [flat_map e_pcall app pcall_ops]. rewrite ?flat_map_app. cbn [flat_map pcall_ops app]. exact Eo.
  - unfold x_output, x_run. rewrite !(ops_plain float_int obj_hash the_scope obj scope_of the_call rand), map_length. rewrite !flat_map_app. cbn [flat_map e_pcall app pcall_ops]. rewrite ?flat_map_app. cbn [flat_map pcall_ops app].
    rewrite map_app. cbn [map]. rewrite map_length in Eo'. exact Eo'.
  - intro s. rewrite Go, Go'. change (CCollect r (map _ eo) true now) with (v_cop (CCollect r eo true now)).
    replace (map v_cop ops ++ [v_cop (CCollect r eo true now)]) with (map v_cop (ops ++ [CCollect r eo true now])) by (rewrite map_app; reflexivity).
    rewrite used_plain. set (hh := ops ++ _). set (us := Spec_Storage.once [] _).
    assert (E : map metric_alone (flat_map (fun i => if eq_dec (scope_of i) s then metrics_of float_int obj_hash obj (Other default0) xd m_create m_aggregate m_collect shape_of views applying rd r hh now i else []) us)
      = flat_map (fun i => if eq_dec (scope_of i) s then metrics_of float_int obj_hash obj (Other default0) xd x_create x_aggregate x_collect shape_of views applying rd r (map v_cop hh) now i else []) us).
    { induction us as [|i us IH]; [reflexivity|]. cbn [flat_map]. rewrite map_app, IH. f_equal. destruct (eq_dec (scope_of i) s); [apply metrics_alone|reflexivity]. }
    rewrite <- E. destruct (flat_map _ us); reflexivity.
Qed.
End Erased.
