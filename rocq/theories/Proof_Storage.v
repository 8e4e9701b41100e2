(** Proofs about views, readers and the measurement consumer. *)
From Verif Require Import Proof_Dict Proof_Str Proof_View Spec_Storage.
From Coq Require Import Lia.
Local Open Scope Z_scope.

Section Storage.
Variable float_int : Z -> option Z.
Variable obj_hash : N -> bool.
Variable fnmatch : str -> str -> bool.
Context {Scope : Type} `{EqDec Scope}.
Variable sc_name : Scope -> str.
Variable sc_version : Scope -> option str.
Variable sc_schema : Scope -> str.
Variable obj : N -> instr.
Variable scope_of : N -> Scope.
Context {G A D : Type}.
Variable default : G.
Variable is_default : G -> bool.
Variable is_explicit : G -> bool.
Variable create_agg : G -> N -> mattrs -> Z -> A.
Variable aggregate1 : A -> Z -> A.
Variable collect1 : temporality -> A -> Z -> A * option D.
Variable shape_of : G -> N -> shape.
Variable views : list (@view G).
Variable readers : list (@reader G).

Notation view_match := (view_match fnmatch sc_name sc_version sc_schema obj scope_of).
Notation compatible := (compatible obj is_explicit).
Notation applies := (applies fnmatch sc_name sc_version sc_schema obj scope_of is_explicit).
Notation streams := (streams default views).
Notation feed := (feed float_int obj_hash obj is_default create_agg aggregate1).
Notation get_or_init := (get_or_init fnmatch sc_name sc_version sc_schema obj scope_of default is_explicit views).
Notation st_consume := (st_consume float_int obj_hash fnmatch sc_name sc_version sc_schema obj scope_of default is_default is_explicit create_agg aggregate1 views).
Notation consume_all := (consume_all float_int obj_hash fnmatch sc_name sc_version sc_schema obj scope_of default is_default is_explicit create_agg aggregate1 views).
Notation observe := (observe float_int obj_hash fnmatch sc_name sc_version sc_schema obj scope_of default is_default is_explicit create_agg aggregate1 views).
Notation collect_matches := (collect_matches obj is_default collect1 shape_of).
Notation st_collect := (st_collect obj scope_of is_default collect1 shape_of).
Notation cstep := (cstep float_int obj_hash fnmatch sc_name sc_version sc_schema obj scope_of default is_default is_explicit create_agg aggregate1 collect1 shape_of views readers).
Notation crun := (crun float_int obj_hash fnmatch sc_name sc_version sc_schema obj scope_of default is_default is_explicit create_agg aggregate1 collect1 shape_of views readers).
Notation series_of := (series_of float_int obj_hash obj is_default create_agg aggregate1 collect1).
Notation storage_of := (storage_of float_int obj_hash obj default is_default create_agg aggregate1 collect1 views).
Notation metrics_of := (metrics_of float_int obj_hash obj default is_default create_agg aggregate1 collect1 shape_of views).
Notation reported := (reported obj is_default shape_of).
Notation hashable := (hashable float_int obj_hash).
Notation cop_hashable := (cop_hashable float_int obj_hash).
Notation agg_for := (agg_for obj is_default).

(** ** Views *)
Lemma ostr_eqb_eq a b : ostr_eqb a b = true <-> a = b.
Proof. destruct a, b; cbn; rewrite ?str_eqb_eq; split; congruence. Qed.
Lemma crit {T} (o : option T) (p : T -> bool) : (match o with Some x => negb (p x) | None => false end) = false <-> forall x, o = Some x -> p x = true.
Proof.
  destruct o as [x|].
  - rewrite negb_false_iff. split; [intros E y H1; injection H1 as <-; exact E|intro H1; apply H1; reflexivity].
  - split; [intros _ x; discriminate|reflexivity].
Qed.
Lemma view_match_spec v i : view_match v i && compatible v i = true <-> applies i v.
Proof.
  clear - v i.
  unfold Spec_Storage.applies, Model_Storage.view_match, Model_Storage.compatible.
  pose proof (crit (v_type v) (fun t => t (in_kind (obj i)))) as H1.
  pose proof (crit (v_iname v) (fun p => fnmatch (in_name (obj i)) p)) as H2.
  pose proof (crit (v_iunit v) (fun p => fnmatch (in_unit (obj i)) p)) as H3.
  pose proof (crit (v_mname v) (fun n => str_eqb (sc_name (scope_of i)) n)) as H4.
  pose proof (crit (v_mversion v) (fun n => ostr_eqb (sc_version (scope_of i)) (Some n))) as H5.
  pose proof (crit (v_mschema v) (fun n => str_eqb (sc_schema (scope_of i)) n)) as H6.
  assert (E4 : (forall n, v_mname v = Some n -> sc_name (scope_of i) = n) <-> forall n, v_mname v = Some n -> str_eqb (sc_name (scope_of i)) n = true)
    by (split; intros X n Y; specialize (X n Y); now apply str_eqb_eq).
  assert (E5 : (forall n, v_mversion v = Some n -> sc_version (scope_of i) = Some n) <-> forall n, v_mversion v = Some n -> ostr_eqb (sc_version (scope_of i)) (Some n) = true)
    by (split; intros X n Y; specialize (X n Y); now apply ostr_eqb_eq).
  assert (E6 : (forall n, v_mschema v = Some n -> sc_schema (scope_of i) = n) <-> forall n, v_mschema v = Some n -> str_eqb (sc_schema (scope_of i)) n = true)
    by (split; intros X n Y; specialize (X n Y); now apply str_eqb_eq).
  rewrite E4, E5, E6, <- H1, <- H2, <- H3, <- H4, <- H5, <- H6.
  assert (E7 : negb (negb (synchronous (in_kind (obj i))) && is_explicit (v_agg v)) = true <-> ~ (synchronous (in_kind (obj i)) = false /\ is_explicit (v_agg v) = true)).
  { destruct (synchronous _), (is_explicit _); cbn; intuition congruence. }
  rewrite <- E7. clear.
  destruct (match v_type v with Some _ => _ | None => _ end); [cbn; intuition congruence|].
  destruct (match v_iname v with Some _ => _ | None => _ end); [cbn; intuition congruence|].
  destruct (match v_iunit v with Some _ => _ | None => _ end); [cbn; intuition congruence|].
  destruct (match v_mname v with Some _ => _ | None => _ end); [cbn; intuition congruence|].
  destruct (match v_mversion v with Some _ => _ | None => _ end); [cbn; intuition congruence|].
  destruct (match v_mschema v with Some _ => _ | None => _ end); [cbn; intuition congruence|].
  cbn. intuition.
Qed.
Variable applying : N -> @view G -> bool.
Hypothesis applying_ok : forall i v, applying i v = true <-> applies i v.
Lemma applying_eq i v : view_match v i && compatible v i = applying i v.
Proof. apply Bool.eq_iff_eq_true. now rewrite view_match_spec, applying_ok. Qed.
Lemma init_streams i :
  (match handle_views fnmatch sc_name sc_version sc_schema obj scope_of is_explicit views i with
   | [] => [VMch (DEFAULT_VIEW default) []] | ms => ms end : list (@vmatch G A))
  = map (fun v => VMch v []) (streams applying i).
Proof.
  assert (E : forall vs, handle_views fnmatch sc_name sc_version sc_schema obj scope_of is_explicit vs i = map (fun v => @VMch G A v []) (filter (applying i) vs)).
  { induction vs as [|v vs IH]; [reflexivity|]. cbn [handle_views filter]. rewrite <- applying_eq.
    destruct (view_match v i); cbn [negb andb]; [|exact IH]. destruct (compatible v i); cbn [negb]; [|exact IH].
    cbn [map]. now rewrite IH. }
  rewrite E. unfold Spec_Storage.streams. destruct (filter (applying i) views); reflexivity.
Qed.

(** ** Storages in the form given by a function for the series *)
Definition form (F : N -> @view G -> @series A) (l : list N) : @storage G A :=
  map (fun i => (i, map (fun v => VMch v (F i v)) (streams applying i))) l.
Lemma form_ext F F' l : (forall i v, In i l -> F i v = F' i v) -> form F l = form F' l.
Proof.
  intro E. unfold form. apply map_ext_in. intros i I. f_equal. apply map_ext. intro v. now rewrite E.
Qed.
Lemma find_form F l i : find_matches i (form F l) = if in_dec N.eq_dec i l then Some (map (fun v => VMch v (F i v)) (streams applying i)) else None.
Proof.
  induction l as [|j l IH]; [reflexivity|]. cbn [form map find_matches].
  destruct (N.eqb_spec i j) as [<-|N].
  - destruct (in_dec N.eq_dec i (i :: l)) as [_|X]; [reflexivity|]. exfalso. apply X. now left.
  - fold (form F l). rewrite IH. destruct (in_dec N.eq_dec i l), (in_dec N.eq_dec i (j :: l)) as [X|X]; try reflexivity.
    + exfalso. apply X. now right.
    + destruct X as [X|X]; [congruence|contradiction].
Qed.
Lemma put_form F F' l i : NoDup l -> In i l -> (forall j v, j <> i -> F' j v = F j v) ->
  put_matches i (map (fun v => VMch v (F' i v)) (streams applying i)) (form F l) = form F' l.
Proof.
  intros ND I E. induction l as [|j l IH]; [destruct I|]. inversion ND as [|? ? X ND']; subst. cbn [form map put_matches].
  fold (form F l) (form F' l). destruct (N.eqb_spec i j) as [<-|N].
  - f_equal. apply form_ext. intros k v K. symmetry. apply E. intros ->. contradiction.
  - destruct I as [I|I]; [congruence|]. rewrite IH by assumption. f_equal. f_equal. apply map_ext. intro v. rewrite E by congruence. reflexivity.
Qed.
Definition vstep1 (rd : @reader G) (i : N) (v : @view G) (s : @series A) (o : vop) : @series A :=
  vm_step float_int obj_hash (create_agg (agg_for rd v i) i) aggregate1 (collect1 (rd_temporality rd (in_kind (obj i)))) (v_keys v) s o.
Lemma consume_hashable rd i v s attrs x now : hashable attrs ->
  vm_consume float_int obj_hash (create_agg (agg_for rd v i) i) aggregate1 (v_keys v) s attrs x now
  = Some (vstep1 rd i v s (VMeasure attrs x now)).
Proof.
  intro Ha. unfold vstep1, vm_step. destruct (vm_consume _ _ _ _ _ _ _ _ _) eqn:E; [reflexivity|]. exfalso.
  unfold vm_consume in E.
  assert (F : frozen float_int obj_hash (stream_attrs (v_keys v) attrs) <> None).
  { apply frozen_some. intros k w I. unfold stream_attrs in I. destruct attrs as [a|].
    - destruct (v_keys v); [apply filter_In in I as [I _]|]; eapply Ha; eauto.
    - destruct (v_keys v); [apply filter_In in I as [[] _]|destruct I]. }
  destruct (frozen _ _ _); [discriminate|congruence].
Qed.
Lemma feed_form rd i attrs x now F vs : hashable attrs ->
  feed rd i attrs x now (map (fun v => VMch v (F v)) vs) = (map (fun v => VMch v (vstep1 rd i v (F v) (VMeasure attrs x now))) vs, false).
Proof.
  intro Ha. induction vs as [|v vs IH]; [reflexivity|]. cbn [map Model_Storage.feed vm_view vm_ser].
  rewrite consume_hashable by assumption. now rewrite IH.
Qed.
Definition add1 (l : list N) (i : N) : list N := if in_dec N.eq_dec i l then l else l ++ [i].
Definition fstep1 (rd : @reader G) (F : N -> @view G -> @series A) (i : N) (attrs : option mattrs) (x now : Z) : N -> @view G -> @series A :=
  fun j v => if N.eqb i j then vstep1 rd j v (F j v) (VMeasure attrs x now) else F j v.
Lemma add1_NoDup l i : NoDup l -> NoDup (add1 l i).
Proof. intro ND. unfold add1. destruct (in_dec N.eq_dec i l); [exact ND|]. now apply NoDup_app_snoc. Qed.
Lemma consume_form rd i attrs x now F l : hashable attrs -> NoDup l -> (forall j v, ~ In j l -> F j v = []) ->
  st_consume rd i attrs x now (form F l) = (form (fstep1 rd F i attrs x now) (add1 l i), false).
Proof.
  intros Ha ND E. unfold Model_Storage.st_consume, Model_Storage.get_or_init. rewrite find_form. unfold add1.
  assert (P : forall j v, j <> i -> fstep1 rd F i attrs x now j v = F j v).
  { intros j v N. unfold fstep1. destruct (N.eqb_spec i j); [congruence|reflexivity]. }
  assert (Q : forall v, vstep1 rd i v (F i v) (VMeasure attrs x now) = fstep1 rd F i attrs x now i v).
  { intro v. unfold fstep1. now rewrite N.eqb_refl. }
  destruct (in_dec N.eq_dec i l) as [I|I].
  - rewrite feed_form by assumption. f_equal. erewrite map_ext; [|intro v; rewrite Q; reflexivity]. now apply put_form.
  - rewrite init_streams.
    replace (map (fun v => VMch v []) (streams applying i)) with (map (fun v => VMch v (F i v)) (streams applying i))
      by (apply map_ext; intro v; now rewrite E).
    change (form F l ++ [(i, map (fun v => VMch v (F i v)) (streams applying i))]) with (form F l ++ form F [i]).
    replace (form F l ++ form F [i]) with (form F (l ++ [i])) by (unfold form; apply map_app).
    rewrite feed_form by assumption. f_equal. erewrite map_ext; [|intro v; rewrite Q; reflexivity].
    apply put_form; [now apply NoDup_app_snoc|apply in_or_app; right; now left|exact P].
Qed.

Definition fobs (rd : @reader G) (F : N -> @view G -> @series A) (obs : list observation) (now : Z) : N -> @view G -> @series A :=
  fold_left (fun F (ob : observation) => let '(i, attrs, x) := ob in fstep1 rd F i attrs x now) obs F.
Lemma keep_empty rd F l i attrs x now : (forall j v, ~ In j l -> F j v = []) -> forall j v, ~ In j (add1 l i) -> fstep1 rd F i attrs x now j v = [].
Proof.
  intros E j v N. unfold fstep1. destruct (N.eqb_spec i j) as [<-|X].
  - exfalso. apply N. unfold add1. destruct (in_dec N.eq_dec i l); [assumption|]. apply in_or_app. right. now left.
  - apply E. intro I. apply N. unfold add1. destruct (in_dec N.eq_dec i l); [assumption|]. apply in_or_app. now left.
Qed.
Lemma observe_form rd now obs : forall F l, Forall (fun ob : observation => hashable (snd (fst ob))) obs -> NoDup l ->
  (forall j v, ~ In j l -> F j v = []) ->
  observe rd obs now (form F l) = (form (fobs rd F obs now) (fold_left (fun l (ob : observation) => add1 l (fst (fst ob))) obs l), false)
  /\ NoDup (fold_left (fun l (ob : observation) => add1 l (fst (fst ob))) obs l)
  /\ (forall j v, ~ In j (fold_left (fun l (ob : observation) => add1 l (fst (fst ob))) obs l) -> fobs rd F obs now j v = []).
Proof.
  induction obs as [|[[i attrs] x] obs IH]; intros F l Ha ND E.
  - split; [reflexivity|]. split; assumption.
  - inversion Ha as [|? ? Hx Ha']; subst. cbn [fst snd] in Hx. cbn [Model_Storage.observe fold_left fst snd fobs].
    rewrite consume_form by assumption. apply IH; [assumption|now apply add1_NoDup|now apply keep_empty].
Qed.
Lemma fobs_ops rd obs now : forall F i v,
  fobs rd F obs now i v
  = fold_left (vstep1 rd i v) (flat_map (fun ob : observation => let '(j, attrs, x) := ob in if N.eqb j i then [VMeasure attrs x now] else []) obs) (F i v).
Proof.
  induction obs as [|[[j attrs] x] obs IH]; intros F i v; [reflexivity|].
  cbn [fobs fold_left flat_map]. fold (fobs rd (fstep1 rd F j attrs x now) obs now). rewrite fold_left_app, IH. f_equal.
  unfold fstep1. destruct (N.eqb j i); reflexivity.
Qed.

(** ** Collecting *)
Lemma collect_matches_form rd i now F vs :
  collect_matches rd i now (map (fun v => VMch v (F v)) vs)
  = (map (fun v => VMch v (vstep1 rd i v (F v) (VCollect now))) vs,
     flat_map (fun v => reported rd i v (snd (vm_collect (collect1 (rd_temporality rd (in_kind (obj i)))) (F v) now))) vs).
Proof.
  induction vs as [|v vs IH]; [reflexivity|]. cbn [map Model_Storage.collect_matches vm_view vm_ser flat_map].
  rewrite IH. change (vstep1 rd i v (F v) (VCollect now)) with (fst (vm_collect (collect1 (rd_temporality rd (in_kind (obj i)))) (F v) now)).
  destruct (vm_collect (collect1 (rd_temporality rd (in_kind (obj i)))) (F v) now) as [s points]. cbn [fst snd].
  f_equal. unfold Spec_Storage.reported, Model_Storage.agg_for, or_else.
  destruct points as [|p ps]; [reflexivity|]. destruct (shape_of _ i); reflexivity.
Qed.
Definition fcollect (rd : @reader G) (F : N -> @view G -> @series A) (now : Z) : N -> @view G -> @series A :=
  fun i v => vstep1 rd i v (F i v) (VCollect now).
Definition mets (rd : @reader G) (F : N -> @view G -> @series A) (now : Z) (i : N) : list (@metric D) :=
  flat_map (fun v => reported rd i v (snd (vm_collect (collect1 (rd_temporality rd (in_kind (obj i)))) (F i v) now))) (streams applying i).
Lemma st_collect_form rd now F l : forall out,
  st_collect rd now (form F l) out
  = (form (fcollect rd F now) l, fold_left (fun out i => add_metrics (scope_of i) (mets rd F now i) out) l out).
Proof.
  induction l as [|i l IH]; intro out; [reflexivity|]. cbn [form map Model_Storage.st_collect fold_left].
  rewrite (collect_matches_form rd i now (F i)). fold (form F l) (mets rd F now i). rewrite IH. reflexivity.
Qed.
Lemma dget_add_metrics (out : dict Scope (list (@metric D))) sc ms s :
  dget s (add_metrics sc ms out)
  = if eq_dec s sc then match ms with [] => dget s out | _ => Some (match dget s out with Some l => l ++ ms | None => ms end) end
    else dget s out.
Proof.
  unfold add_metrics. destruct ms as [|m ms].
  - now destruct (eq_dec s sc).
  - rewrite dget_dset. destruct (eq_dec s sc) as [->|N]; reflexivity.
Qed.
Lemma groups (f : N -> list (@metric D)) l : forall out, NoDup (keys out) ->
  (forall s ms, dget s out = Some ms -> ms <> []) ->
  let out' := fold_left (fun out i => add_metrics (scope_of i) (f i) out) l out in
  NoDup (keys out') /\ forall s, dget s out'
    = nonempty ((match dget s out with Some ms => ms | None => [] end) ++ flat_map (fun i => if eq_dec (scope_of i) s then f i else []) l).
Proof.
  induction l as [|i l IH]; intros out ND NE; cbv zeta.
  - split; [exact ND|]. intro s. cbn [fold_left flat_map]. rewrite app_nil_r. destruct (dget s out) as [ms|] eqn:E; [|reflexivity].
    specialize (NE s ms E). now destruct ms.
  - cbn [fold_left flat_map]. destruct (IH (add_metrics (scope_of i) (f i) out)) as [A1 B1].
    + unfold add_metrics. destruct (f i); [exact ND|now apply NoDup_dset].
    + intros s ms E. rewrite dget_add_metrics in E. destruct (eq_dec s (scope_of i)) as [->|N]; [|eapply NE; exact E].
      destruct (f i) as [|m ms']; [eapply NE; exact E|]. injection E as <-.
      destruct (dget (scope_of i) out) as [l0|]; [|discriminate]. destruct l0; discriminate.
    + split; [exact A1|]. intro s. rewrite B1, dget_add_metrics. f_equal.
      destruct (eq_dec s (scope_of i)) as [->|N].
      * destruct (eq_dec (scope_of i) (scope_of i)) as [_|X]; [|congruence].
        destruct (f i) as [|m ms]; [reflexivity|]. destruct (dget (scope_of i) out); [now rewrite <- app_assoc|reflexivity].
      * destruct (eq_dec (scope_of i) s) as [X|_]; [congruence|]. reflexivity.
Qed.

(** ** Histories *)
Lemma if_in x (A1 B1 : list N) : (In x A1 <-> In x B1) -> (if in_dec N.eq_dec x A1 then [] else [x]) = (if in_dec N.eq_dec x B1 then [] else [x]).
Proof. intro E. destruct (in_dec N.eq_dec x A1), (in_dec N.eq_dec x B1); tauto. Qed.
Lemma once_app l : forall seen x, once seen (l ++ [x]) = once seen l ++ (if in_dec N.eq_dec x (seen ++ l) then [] else [x]).
Proof.
  induction l as [|y l IH]; intros seen x.
  - cbn. rewrite app_nil_r. now destruct (in_dec N.eq_dec x seen).
  - cbn [app once]. destruct (in_dec N.eq_dec y seen) as [I|I].
    + rewrite IH. f_equal. apply if_in. rewrite !in_app_iff. cbn. intuition congruence.
    + rewrite IH. change ((y :: once (y :: seen) l) ++ ?z) with (y :: once (y :: seen) l ++ z). do 2 f_equal.
      apply if_in. rewrite !in_app_iff. cbn. tauto.
Qed.
Lemma once_In l : forall seen x, In x (once seen l) <-> In x l /\ ~ In x seen.
Proof.
  induction l as [|y l IH]; intros seen x; [cbn; tauto|]. cbn [once]. destruct (in_dec N.eq_dec y seen) as [I|I].
  - rewrite IH. cbn. split; [tauto|]. intros [[->|K] N]; [contradiction|tauto].
  - cbn. rewrite IH. cbn. destruct (N.eq_dec y x) as [->|E]; tauto.
Qed.
Lemma once_NoDup l : forall seen, NoDup (once seen l).
Proof.
  induction l as [|y l IH]; intro seen; [constructor|]. cbn [once]. destruct (in_dec N.eq_dec y seen); [apply IH|].
  constructor; [|apply IH]. rewrite once_In. cbn. tauto.
Qed.
Lemma once_add1 l x : once [] (l ++ [x]) = add1 (once [] l) x.
Proof.
  rewrite once_app. cbn [app]. unfold add1. destruct (in_dec N.eq_dec x l) as [I|I], (in_dec N.eq_dec x (once [] l)) as [J|J].
  - now rewrite app_nil_r.
  - exfalso. apply J. apply once_In. split; [assumption|intros []].
  - exfalso. apply I. now apply once_In in J.
  - reflexivity.
Qed.
Lemma once_adds l m : once [] (l ++ m) = fold_left add1 m (once [] l).
Proof.
  revert l. induction m as [|x m IH]; intro l; [now rewrite app_nil_r|]. cbn [fold_left].
  replace (l ++ x :: m) with ((l ++ [x]) ++ m) by now rewrite <- app_assoc. rewrite IH. f_equal. apply once_add1.
Qed.
Lemma storage_form rd r h : storage_of applying rd r h = form (fun i v => series_of rd r i h v) (once [] (used r h)).
Proof. reflexivity. Qed.
Lemma series_snoc rd r i h o v : series_of rd r i (h ++ [o]) v = fold_left (vstep1 rd i v) (ops_of r i o) (series_of rd r i h v).
Proof.
  unfold Spec_Storage.series_of, vm_run, ops_for. rewrite flat_map_app. cbn [flat_map]. rewrite app_nil_r, fold_left_app. reflexivity.
Qed.
Lemma ops_unused r i h : ~ In i (used r h) -> forall o, In o (ops_for r i h) -> exists now, o = VCollect now.
Proof.
  intros N o I. unfold ops_for in I. apply in_flat_map in I as (c & C & I). destruct c as [j attrs x now|r' obs tmo now]; cbn [ops_of] in I.
  - destruct (N.eqb_spec j i) as [<-|]; [|destruct I]. exfalso. apply N. unfold used. apply in_flat_map. eexists. split; [exact C|now left].
  - destruct (Nat.eqb r' r) eqn:E; [|destruct I]. apply in_app_or in I as [I|I].
    + apply in_flat_map in I as ([[j attrs] x] & O & I). destruct (N.eqb_spec j i) as [<-|]; [|destruct I]. exfalso. apply N.
      unfold used. apply in_flat_map. eexists. split; [exact C|]. cbn. rewrite E. apply in_map_iff. eexists. split; [|exact O]. reflexivity.
    + destruct tmo; [destruct I|]. destruct I as [<-|[]]. eauto.
Qed.
Lemma series_unused rd r i h v : ~ In i (once [] (used r h)) -> series_of rd r i h v = [].
Proof.
  intro N. assert (U : ~ In i (used r h)). { intro I. apply N. apply once_In. split; [exact I|intros []]. }
  unfold Spec_Storage.series_of, vm_run. pose proof (ops_unused r i h U) as O. revert O. generalize (ops_for r i h).
  induction l as [|o l IH]; intro O; [reflexivity|]. cbn [fold_left]. destruct (O o (or_introl eq_refl)) as [now ->]. cbn.
  apply IH. intros o' I. apply O. now right.
Qed.

Lemma nth_set_nth {B} n (x : B) l m : nth_error (set_nth n x l) m = if (Nat.eqb n m && (n <? length l)%nat)%bool then Some x else nth_error l m.
Proof.
  revert l m. induction n as [|n IH]; intros [|y l] [|m]; try reflexivity; cbn [set_nth nth_error].
  - now rewrite andb_false_r.
  - rewrite IH. reflexivity.
Qed.
Lemma set_nth_length {B} n (x : B) l : length (set_nth n x l) = length l.
Proof. revert l. induction n as [|n IH]; intros [|y l]; try reflexivity. cbn. now rewrite IH. Qed.
Lemma nth_error_consumer_init r : nth_error (@consumer_init G A readers) r = match nth_error readers r with Some _ => Some [] | None => None end.
Proof. unfold consumer_init. revert r. induction readers as [|rd rs IH]; intros [|r]; try reflexivity. cbn. apply IH. Qed.

Definition in_state (h : list cop) (cs : @consumer G A) : Prop :=
  length cs = length readers /\ forall r rd, nth_error readers r = Some rd -> nth_error cs r = Some (storage_of applying rd r h).

Lemma measure_one rd r h i attrs x now : hashable attrs ->
  st_consume rd i attrs x now (storage_of applying rd r h) = (storage_of applying rd r (h ++ [CMeasure i attrs x now]), false).
Proof.
  intro Ha. rewrite !storage_form, consume_form; [|assumption|apply once_NoDup|intros j v N; now apply series_unused].
  f_equal. unfold used at 2. rewrite flat_map_app. fold (used r h). cbn [flat_map app]. rewrite <- once_add1.
  apply form_ext. intros j v _. rewrite series_snoc. cbn [ops_of]. unfold fstep1. destruct (N.eqb i j); reflexivity.
Qed.
Lemma observe_one rd r h obs now : Forall (fun ob : observation => hashable (snd (fst ob))) obs ->
  observe rd obs now (storage_of applying rd r h) = (storage_of applying rd r (h ++ [CCollect r obs true now]), false).
Proof.
  intro Ha. rewrite !storage_form.
  destruct (observe_form rd now obs (fun i v => series_of rd r i h v) (once [] (used r h)) Ha (once_NoDup _ _)) as [E _].
  { intros j v N. now apply series_unused. }
  rewrite E. f_equal. unfold used at 2. rewrite flat_map_app. fold (used r h). cbn [flat_map]. rewrite app_nil_r, Nat.eqb_refl.
  rewrite once_adds. replace (fold_left (fun l (ob : observation) => add1 l (fst (fst ob))) obs (once [] (used r h)))
    with (fold_left add1 (map (fun ob : observation => fst (fst ob)) obs) (once [] (used r h))).
  - apply form_ext. intros i v _. rewrite fobs_ops, series_snoc. cbn [ops_of]. rewrite Nat.eqb_refl, app_nil_r. reflexivity.
  - clear. generalize (once [] (used r h)). induction obs as [|ob obs' IH]; intro l; [reflexivity|]. cbn. apply IH.
Qed.
Lemma collect_one rd r h obs now :
  st_collect rd now (storage_of applying rd r (h ++ [CCollect r obs true now])) []
  = (storage_of applying rd r (h ++ [CCollect r obs false now]),
     fold_left (fun out i => add_metrics (scope_of i) (metrics_of applying rd r (h ++ [CCollect r obs true now]) now i) out)
       (once [] (used r (h ++ [CCollect r obs true now]))) []).
Proof.
  rewrite !storage_form, st_collect_form. f_equal.
  assert (U : used r (h ++ [CCollect r obs false now]) = used r (h ++ [CCollect r obs true now])) by (unfold used; now rewrite !flat_map_app).
  rewrite U. apply form_ext. intros i v _. unfold fcollect. rewrite !series_snoc. cbn [ops_of]. rewrite Nat.eqb_refl, app_nil_r, fold_left_app.
  reflexivity.
Qed.
Lemma storage_other rd r h o : match o with CCollect r' _ _ _ => r' <> r | _ => False end -> storage_of applying rd r (h ++ [o]) = storage_of applying rd r h.
Proof.
  destruct o as [|r' obs tmo now]; [intros []|]. intro N. rewrite !storage_form. apply Nat.eqb_neq in N.
  assert (U : used r (h ++ [CCollect r' obs tmo now]) = used r h) by (unfold used; rewrite flat_map_app; cbn; now rewrite N, !app_nil_r).
  rewrite U. apply form_ext. intros i v _. rewrite series_snoc. cbn [ops_of]. now rewrite N.
Qed.
Lemma consume_all_state rs cs i attrs x now : hashable attrs -> forall (mk : nat -> @reader G -> list cop) a,
  length cs = length rs -> (forall r rd, nth_error rs r = Some rd -> nth_error cs r = Some (storage_of applying rd (a + r) (mk (a + r)%nat rd))) ->
  exists cs', consume_all rs i attrs x now cs = (cs', false) /\ length cs' = length rs
  /\ forall r rd, nth_error rs r = Some rd -> nth_error cs' r = Some (storage_of applying rd (a + r) (mk (a + r)%nat rd ++ [CMeasure i attrs x now])).
Proof.
  intros Ha mk. revert cs. induction rs as [|rd rs IH]; intros cs a L E.
  - exists cs. destruct cs; [|discriminate]. split; [reflexivity|]. split; [reflexivity|]. intros [|r] rd X; discriminate.
  - destruct cs as [|st cs]; [discriminate|]. cbn [Model_Storage.consume_all].
    pose proof (E 0%nat rd eq_refl) as E0. cbn in E0. injection E0 as ->. rewrite measure_one by assumption.
    destruct (IH cs (S a)) as (cs' & -> & L' & E').
    + now injection L.
    + intros r rd' X. replace (S a + r)%nat with (a + S r)%nat by lia. apply (E (S r) rd' X).
    + eexists. split; [reflexivity|]. split; [cbn; now rewrite L'|]. intros [|r] rd' X; cbn [nth_error] in *.
      * injection X as <-. reflexivity.
      * replace (a + S r)%nat with (S a + r)%nat by lia. now apply E'.
Qed.
Lemma cstep_state h o cs : cop_hashable o -> in_state h cs ->
  in_state (h ++ [o]) (fst (cstep cs o))
  /\ snd (cstep cs o) = match o with
     | CMeasure _ _ _ _ => CNothing
     | CCollect r obs timeout now =>
         match nth_error readers r with
         | None => CNothing
         | Some rd => if timeout then CRaised
             else CMetrics r (fold_left (fun out i => add_metrics (scope_of i) (metrics_of applying rd r (h ++ [CCollect r obs true now]) now i) out)
                    (once [] (used r (h ++ [CCollect r obs true now]))) [])
         end
     end.
Proof.
  intros Ha [L E]. destruct o as [i attrs x now|r obs tmo now]; cbn [Model_Storage.cstep].
  - destruct (consume_all_state readers cs i attrs x now Ha (fun _ _ => h) 0%nat L) as (cs' & -> & L' & E'); [exact E|].
    split; [|reflexivity]. split; [exact L'|]. exact E'.
  - destruct (nth_error readers r) as [rd|] eqn:R.
    + rewrite (E r rd R). cbn in Ha. rewrite observe_one by assumption. cbn [orb].
      assert (LR : (r < length cs)%nat) by (rewrite L; apply nth_error_Some; congruence).
      assert (X : forall tm st, st = storage_of applying rd r (h ++ [CCollect r obs tm now]) -> in_state (h ++ [CCollect r obs tm now]) (set_nth r st cs)).
      { intros tm st ->. split; [now rewrite set_nth_length|]. intros r' rd' R'. rewrite nth_set_nth.
        destruct (Nat.eqb_spec r r') as [<-|N].
        - apply Nat.ltb_lt in LR. rewrite LR. cbn [andb]. congruence.
        - cbn [andb]. rewrite (E r' rd' R'). f_equal. symmetry. now apply storage_other. }
      destruct tmo.
      * split; [|reflexivity]. now apply X.
      * rewrite collect_one. cbn [fst snd]. split; [|reflexivity]. now apply X.
    + cbn [fst snd]. split; [|reflexivity]. split; [exact L|]. intros r' rd' R'. rewrite (E r' rd' R'). f_equal. symmetry.
      apply storage_other. congruence.
Qed.
Lemma crun_snoc h o : crun (h ++ [o]) = (fst (cstep (fst (crun h)) o), snd (crun h) ++ [snd (cstep (fst (crun h)) o)]).
Proof. unfold Model_Storage.crun. rewrite fold_left_app. cbn [fold_left]. destruct (cstep _ o). reflexivity. Qed.
Lemma crun_state h : Forall cop_hashable h -> in_state h (fst (crun h)).
Proof.
  induction h as [|o h IH] using rev_ind; intro F.
  - split; [apply map_length|]. intros r rd R. cbn. rewrite nth_error_consumer_init, R. reflexivity.
  - apply Forall_app in F as [F1 F2]. inversion F2; subst. rewrite crun_snoc. cbn [fst]. apply cstep_state; [assumption|now apply IH].
Qed.
Lemma crun_outputs h o h' : Forall cop_hashable (h ++ o :: h') ->
  nth_error (snd (crun (h ++ o :: h'))) (length h) = Some (snd (cstep (fst (crun h)) o)).
Proof.
  intro F. assert (Len : forall l, length (snd (crun l)) = length l).
  { clear. induction l as [|x l IH] using rev_ind; [reflexivity|]. rewrite crun_snoc. cbn [snd]. rewrite !app_length, IH. reflexivity. }
  replace (h ++ o :: h') with ((h ++ [o]) ++ h') by now rewrite <- app_assoc. clear F.
  induction h' as [|x h' IH] using rev_ind.
  - rewrite app_nil_r, crun_snoc. cbn [snd]. rewrite nth_error_app2 by now rewrite Len. now rewrite Len, Nat.sub_diag.
  - rewrite app_assoc, crun_snoc. cbn [snd]. rewrite nth_error_app1; [exact IH|]. rewrite Len, !app_length. cbn. lia.
Qed.
Lemma collect_reports h r obs now h' rd : Forall cop_hashable (h ++ CCollect r obs false now :: h') -> nth_error readers r = Some rd ->
  exists out, nth_error (snd (crun (h ++ CCollect r obs false now :: h'))) (length h) = Some (CMetrics r out)
  /\ NoDup (keys out)
  /\ forall s, dget s out
     = nonempty (flat_map (fun i => if eq_dec (scope_of i) s then metrics_of applying rd r (h ++ [CCollect r obs true now]) now i else [])
         (once [] (used r (h ++ [CCollect r obs true now])))).
Proof.
  intros F R. rewrite crun_outputs by assumption. apply Forall_app in F as [F1 F2]. inversion F2 as [|? ? Ho _]; subst.
  destruct (cstep_state h (CCollect r obs false now) (fst (crun h)) Ho (crun_state h F1)) as [_ ->]. rewrite R.
  eexists. split; [reflexivity|].
  destruct (groups (metrics_of applying rd r (h ++ [CCollect r obs true now]) now) (once [] (used r (h ++ [CCollect r obs true now]))) []) as [A1 B1].
  - constructor.
  - intros s ms E. discriminate.
  - split; [exact A1|]. intro s. rewrite B1. reflexivity.
Qed.
Lemma never_raises h : Forall cop_hashable h -> forall n, nth_error (snd (crun h)) n = Some CRaised ->
  exists r obs now, nth_error h n = Some (CCollect r obs true now).
Proof.
  intros F n E. assert (L : (n < length h)%nat).
  { replace (length h) with (length (snd (crun h))); [apply nth_error_Some; congruence|].
    clear. induction h as [|x l IH] using rev_ind; [reflexivity|]. rewrite crun_snoc. cbn [snd]. rewrite !app_length, IH. reflexivity. }
  apply nth_error_Some in L. destruct (nth_error h n) as [o|] eqn:O; [|congruence]. clear L.
  apply nth_error_split in O as (h1 & h2 & -> & <-). rewrite crun_outputs in E by assumption.
  apply Forall_app in F as [F1 F2]. inversion F2 as [|? ? Ho _]; subst.
  destruct (cstep_state h1 o (fst (crun h1)) Ho (crun_state h1 F1)) as [_ X]. rewrite X in E.
  destruct o as [|r obs tmo now]; [discriminate|]. destruct (nth_error readers r); [|discriminate]. destruct tmo; [eauto|discriminate].
Qed.
Lemma independent h r obs now : Forall cop_hashable (h ++ [CCollect r obs false now]) ->
  last (snd (crun (h ++ [CCollect r obs false now]))) CNothing
  = last (snd (crun (filter (concerns r) h ++ [CCollect r obs false now]))) CNothing.
Proof.
  intro F. apply Forall_app in F as [F1 F2]. inversion F2 as [|? ? Ho _]; subst. rewrite !crun_snoc. cbn [snd]. rewrite !last_last.
  assert (F3 : Forall cop_hashable (filter (concerns r) h)).
  { apply Forall_forall. intros o I. apply filter_In in I as [I _]. rewrite Forall_forall in F1. now apply F1. }
  destruct (cstep_state h _ (fst (crun h)) Ho (crun_state h F1)) as [_ ->].
  destruct (cstep_state _ _ (fst (crun (filter (concerns r) h))) Ho (crun_state _ F3)) as [_ ->].
  destruct (nth_error readers r) as [rd|]; [|reflexivity]. f_equal.
  assert (U : forall l, used r (filter (concerns r) l) = used r l).
  { induction l as [|o l IH]; [reflexivity|]. unfold used in *. cbn [filter flat_map]. destruct o as [|r' ob tm w]; cbn [concerns flat_map]; [now rewrite IH|].
    destruct (Nat.eqb r' r) eqn:E; cbn [flat_map]; rewrite ?E, IH; reflexivity. }
  assert (O : forall i l, ops_for r i (filter (concerns r) l) = ops_for r i l).
  { intros i l. unfold ops_for. induction l as [|o l IH]; [reflexivity|]. cbn [filter flat_map]. destruct o as [|r' ob tm w]; cbn [concerns flat_map]; [now rewrite IH|].
    destruct (Nat.eqb r' r) eqn:E; cbn [flat_map ops_of]; rewrite ?E, IH; reflexivity. }
  assert (U' : used r (filter (concerns r) h ++ [CCollect r obs true now]) = used r (h ++ [CCollect r obs true now])).
  { unfold used. rewrite !flat_map_app. f_equal. apply U. }
  assert (M : forall i, metrics_of applying rd r (filter (concerns r) h ++ [CCollect r obs true now]) now i = metrics_of applying rd r (h ++ [CCollect r obs true now]) now i).
  { intro i. unfold Spec_Storage.metrics_of, Spec_Storage.series_of, ops_for.
    replace (flat_map (ops_of r i) (filter (concerns r) h ++ [CCollect r obs true now])) with (flat_map (ops_of r i) (h ++ [CCollect r obs true now])); [reflexivity|].
    rewrite !flat_map_app. f_equal. symmetry. apply O. }
  rewrite U'. generalize (@nil (Scope * list (@metric D))). induction (once [] (used r (h ++ [CCollect r obs true now]))) as [|i l IH]; intro out; [reflexivity|].
  cbn [fold_left]. rewrite M. apply IH.
Qed.
End Storage.
