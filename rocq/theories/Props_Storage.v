(** C66: views, readers and collections. *)
From Verif Require Import Spec_Storage Proof_Storage.
Local Open Scope Z_scope.

Section Storage.
Variable float_int : Z -> option Z.
Variable obj_hash : N -> bool.
Variable fnmatch : str -> str -> bool.
Context {Scope : Type} `{EqDec Scope}.
Variable sc_name : Scope -> str.
Variable sc_version : Scope -> option str.
Variable sc_schema : Scope -> str.
Variable obj : N -> instr.
Variable scope_of : N -> Scope.
Context {G A D : Type}.
Variable default : G.
Variable is_default is_explicit : G -> bool.
Variable create_agg : G -> N -> mattrs -> Z -> A.
Variable aggregate1 : A -> Z -> A.
Variable collect1 : temporality -> A -> Z -> A * option D.
Variable shape_of : G -> N -> shape.
Variable views : list (@view G).
Variable readers : list (@reader G).

Notation applies := (applies fnmatch sc_name sc_version sc_schema obj scope_of is_explicit).
Notation crun := (crun float_int obj_hash fnmatch sc_name sc_version sc_schema obj scope_of default is_default is_explicit create_agg aggregate1 collect1 shape_of views readers).
Notation metrics_of := (metrics_of float_int obj_hash obj default is_default create_agg aggregate1 collect1 shape_of views).
Notation cop_hashable := (cop_hashable float_int obj_hash).

(** C66: whatever was measured and collected before and after, a collection by reader [r] returns, for every
    scope, the metrics of the instruments of that scope that were measured or observed, one per view that
    applies (or the default view), and each is computed from all the measurements of the instrument, whichever
    reader collected in between, and the collections by [r].  Scopes without metrics are left out.
    Missing here and below: attribute values that cannot be hashed (C66_unhashable_refuted). *)
Theorem C66_reported_partial : forall applying, (forall i v, applying i v = true <-> applies i v) ->
  forall h r obs now h' rd, Forall cop_hashable (h ++ CCollect r obs false now :: h') -> nth_error readers r = Some rd ->
  exists out, nth_error (snd (crun (h ++ CCollect r obs false now :: h'))) (length h) = Some (CMetrics r out)
  /\ NoDup (keys out)
  /\ forall s, dget s out
     = nonempty (flat_map (fun i => if eq_dec (scope_of i) s then metrics_of applying rd r (h ++ [CCollect r obs true now]) now i else [])
         (once [] (used r (h ++ [CCollect r obs true now])))).
Proof. intros applying Ha. intros. now apply collect_reports. Qed.
(** C66: what a reader collects does not depend on the collections by other readers. *)
Theorem C66_independent_partial : forall h r obs now, Forall cop_hashable (h ++ [CCollect r obs false now]) ->
  last (snd (crun (h ++ [CCollect r obs false now]))) CNothing
  = last (snd (crun (filter (concerns r) h ++ [CCollect r obs false now]))) CNothing.
Proof.
  apply (independent float_int obj_hash fnmatch sc_name sc_version sc_schema obj scope_of default is_default is_explicit create_agg aggregate1 collect1 shape_of
           views readers (fun i v => view_match fnmatch sc_name sc_version sc_schema obj scope_of v i && compatible obj is_explicit v i)).
  intros i v. apply view_match_spec.
Qed.
(** C66: a measurement never raises, and a collection only when a callback took too long. *)
Theorem C66_no_error_partial : forall h, Forall cop_hashable h -> forall n, nth_error (snd (crun h)) n = Some CRaised ->
  exists r obs now, nth_error h n = Some (CCollect r obs true now).
Proof.
  apply (never_raises float_int obj_hash fnmatch sc_name sc_version sc_schema obj scope_of default is_default is_explicit create_agg aggregate1 collect1 shape_of
           views readers (fun i v => view_match fnmatch sc_name sc_version sc_schema obj scope_of v i && compatible obj is_explicit v i)).
  intros i v. apply view_match_spec.
Qed.
End Storage.
Print Assumptions C66_reported_partial.
Print Assumptions C66_independent_partial.
Print Assumptions C66_no_error_partial.

(** An SDK with two instruments of one scope, a view that renames the counter and keeps one key, a view that
    drops all keys, and a cumulative and a delta reader. *)
Definition ex_obj (i : N) : instr := if N.eqb i 0 then Instr 0%N ICounter (lit "hits") (lit "1") (lit "all hits") None else Instr 1%N IObservableGauge (lit "load") (lit "") (lit "") None.
Definition ex_shape (g : aggregation) (i : N) : shape :=
  match g with
  | Sum => ShSum | LastValue => ShGauge | Drop => ShDrop | ExplicitBuckets _ _ => ShHistogram
  | Default => match in_kind (ex_obj i) with IHistogram => ShHistogram | IGauge | IObservableGauge => ShGauge | _ => ShSum end
  end.
Definition ex_is_default (g : aggregation) : bool := match g with Default => true | _ => false end.
Definition ex_is_explicit (g : aggregation) : bool := match g with ExplicitBuckets _ _ => true | _ => false end.
Definition ex_create (g : aggregation) (i : N) := create g (in_kind (ex_obj i)) None.
Definition ex_views : list (@view aggregation) :=
  [View None (Some (lit "hits")) None None None None (Some (lit "clicks")) None (Some [lit "route"]) Default;
   View (Some (fun k => match k with ICounter => true | _ => false end)) None None None None None None None None Sum].
Definition ex_readers : list (@reader aggregation) := [RD (fun _ => CUMULATIVE) (fun _ => Default); RD (fun _ => DELTA) (fun _ => Default)].
Definition ex_run := crun (fun _ => None) (fun _ => true) str_eqb (fun s : str => s) (fun _ => None) (fun _ => []) ex_obj (fun _ => lit "lib")
  Default ex_is_default ex_is_explicit ex_create aggregate (fun t a now => collect a t now) ex_shape ex_views ex_readers.
Definition ex_history : list cop :=
  [CMeasure 0 (Some [(lit "route", PStr false (lit "/a")); (lit "user", PStr false (lit "x"))]) 2 10;
   CMeasure 0 (Some [(lit "route", PStr false (lit "/a")); (lit "user", PStr false (lit "y"))]) 3 11;
   CCollect 1 [(1%N, None, 7)] false 20;
   CMeasure 0 (Some [(lit "route", PStr false (lit "/a")); (lit "user", PStr false (lit "x"))]) 5 21;
   CCollect 0 [(1%N, None, 8)] false 30].
Definition ex_value (p : point) : option Z := match p with NumberPoint p => Some (np_value p) | _ => None end.
Definition ex_see (o : @cout str point) : list (str * list (str * list (option Z))) :=
  match o with CMetrics _ out => map (fun e => (fst e, map (fun m => (m_name m, map ex_value (m_points m))) (snd e))) out | _ => [] end.
Example C66_example : Forall (cop_hashable (fun _ => None) (fun _ => true)) ex_history
  /\ map ex_see (snd (ex_run ex_history))
     = [[]; []; [(lit "lib", [(lit "clicks", [Some 5]); (lit "hits", [Some 2; Some 3]); (lit "load", [Some 7])])]; [];
        [(lit "lib", [(lit "clicks", [Some 10]); (lit "hits", [Some 7; Some 3]); (lit "load", [Some 8])])]].
Proof.
  split; [|vm_compute; reflexivity].
  unfold ex_history. repeat (apply Forall_cons || apply Forall_nil); cbn; repeat (apply Forall_cons || apply Forall_nil);
    cbn; intros a k v E I; try discriminate; injection E as <-; cbn in I; repeat (destruct I as [I|I]; [injection I as <- <-; discriminate|]); destruct I.
Qed.

(** Without the condition on the attribute values C66 is false: a counter with a list as attribute value raises,
    after the first view, which does not look at that attribute, has counted it. *)
Theorem C66_unhashable_refuted : exists m, let h := [CMeasure 0 (Some [(lit "tags", m)]) 2 10; CCollect 0 [] false 20] in
  nth_error (snd (ex_run h)) 0 = Some CRaised
  /\ map ex_see (snd (ex_run h)) = [[]; [(lit "lib", [(lit "clicks", [Some 2])])]].
Proof. exists (PSeq false [PStr false (lit "x")]). vm_compute. split; reflexivity. Qed.
Print Assumptions C66_unhashable_refuted.
