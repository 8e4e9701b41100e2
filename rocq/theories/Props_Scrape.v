(** C130: what a Prometheus scrape shows is what the program measured. *)
From Verif Require Import Proof_Scrape Spec_Scrape.
From Coq Require Import Lia.
Local Open Scope Z_scope.

(** C130: for calls of instruments in any order, with scrapes among them, and callbacks that observe anything: a scrape does
    not fail.  For each instrument, as each view sees it, and each set of attributes (as far as the view keeps them) there is
    a sample under the instrument's name, description and unit with the labels made of these attributes, and it has the sum
    of all that was added, or of what was observed, the last value, or the numbers of amounts up to each boundary.  Nothing
    else is shown, and no family is shown twice.  Missing: exponential histograms, bucket aggregations
    without boundaries (C138) or with unordered ones (C130_boundaries_refuted), amounts that are floats, and empty attribute keys (C130_empty_key_refuted); collections of the reader that are not scrapes
    (C71_after_flush_refuted, C130_flush_refuted). *)
Theorem C130_scrape_partial : forall float_int obj_hash fnmatch (Scope : Type) (ES : EqDec Scope) (the_scope : Scope -> scope) obj scope_of
    (views : list (@view aggregation)) (readers : list (@reader aggregation)) infty other_digit dumps res r disabled h obs now,
  nth_error readers r = Some prometheus_reader ->
  Forall (api_call float_int obj_hash obj) (map fst h ++ [PCollect r obs false now]) ->
  Forall keys_not_empty (map fst h ++ [PCollect r obs false now]) ->
  only_scrapes r h ->
  (forall i v g, stream fnmatch the_scope obj scope_of views i v g -> boundaries_ok obj i g) ->
  exists ys, scraped float_int obj_hash fnmatch the_scope obj scope_of views readers infty other_digit dumps res r disabled h obs now = Some ys
  /\ NoDup (map identity (families ys))
  /\ (forall i v g ms, stream fnmatch the_scope obj scope_of views i v g -> g <> Drop -> counted_now obj r i g (map fst h) obs now ms ->
        exists reps, each_attrs float_int obj_hash (v_keys v) ms reps
        /\ forall a, In a reps -> exists l f s, with_attrs float_int obj_hash (v_keys v) a ms l /\ In f (families ys) /\ sample_for obj other_digit dumps i v g a l f s)
  /\ (forall f, In f (families ys) -> pf_samples f <> []
        /\ forall s, In s (pf_samples f) -> exists i v g ms a l, stream fnmatch the_scope obj scope_of views i v g /\ g <> Drop
             /\ counted_now obj r i g (map fst h) obs now ms
             /\ with_attrs float_int obj_hash (v_keys v) a ms l /\ l <> [] /\ sample_for obj other_digit dumps i v g a l f s).
Proof. intros. now apply scrape_shows. Qed.
Print Assumptions C130_scrape_partial.

(** A counter, a histogram, an observable gauge and an observable counter; two scrapes. *)
Definition scx_obj (i : N) : instr :=
  match i with
  | 0%N => Instr 0 ICounter (lit "requests.total") (lit "1") (lit "Requests") None
  | 1%N => Instr 1 IHistogram (lit "size") (lit "By") [] (Some [10; 20])
  | 2%N => Instr 2 IObservableGauge (lit "load") [] [] None
  | _ => Instr i IObservableCounter (lit "cpu") (lit "s") [] None
  end.
Definition scx_a (k v : string) : option mattrs := Some [(lit k, PStr false (lit v))].
Definition scx_scope (u : unit) : scope := Scope (lit "app") None [] [].
Definition scx_first : list observation := [(2%N, None, 7); (3%N, scx_a "core" "0", 5)].
Definition scx_calls : list (pcall * bool) :=
  [(PCall 0 (scx_a "http.method" "GET") 3 100, false); (PCall 1 None 20 101, false); (PCollect 0 scx_first false 110, true);
   (PCall 0 (scx_a "http.method" "GET") 4 111, false); (PCall 0 (scx_a "http.method" "PUT") 1 112, false); (PCall 1 None 99 113, false); (PCall 0 None (-5) 114, false)].
Definition scx_obs : list observation := [(2%N, None, 9); (3%N, scx_a "core" "0", 6)].
Definition scx_str (v : pyval) : str := match v with PStr _ s => s | _ => [] end.
#[local] Instance EqDec_unit1 : EqDec unit.
Proof. intros [] []. now left. Defined.
Notation scx_scraped := (scraped (fun _ => None) (fun _ => true) (fun a b => str_eqb a b) scx_scope scx_obj (fun _ => tt) [] [prometheus_reader]
  (fun _ => 0) (fun _ => false) scx_str (Res [] []) 0).
Example C130_case :
  scx_scraped true scx_calls scx_obs 200
    = Some [YFamily (PFam KCounter (lit "requests_total") (lit "Requests") [lit "http_method"] []
              [([lit "GET"], PVNumber (NInt 7)); ([lit "PUT"], PVNumber (NInt 1))]);
            YFamily (PFam KHistogram (lit "size") [] [] (lit "bytes") [([], PVHistogram [(Some (NInt 10), 0); (Some (NInt 20), 1); (None, 2)] (NInt 119))]);
            YFamily (PFam KGauge (lit "load") [] [] [] [([], PVNumber (NInt 9))]);
            YFamily (PFam KCounter (lit "cpu") [] [lit "core"] (lit "seconds") [([lit "0"], PVNumber (NInt 6))])]
  /\ Forall (api_call (fun _ => None) (fun _ => true) scx_obj) (map fst scx_calls ++ [PCollect 0 scx_obs false 200])
  /\ Forall keys_not_empty (map fst scx_calls ++ [PCollect 0 scx_obs false 200])
  /\ only_scrapes 0 scx_calls
  /\ (forall i v g, stream (fun a b => str_eqb a b) scx_scope scx_obj (fun _ => tt) [] i v g -> boundaries_ok scx_obj i g)
  /\ stream (fun a b => str_eqb a b) scx_scope scx_obj (fun _ => tt) [] 1 (DEFAULT_VIEW Default) Default
  /\ counted_now scx_obj 0 1 Default (map fst scx_calls) scx_obs 200 [(None, 20, 101); (None, 99, 113)].
Proof.
  split; [vm_compute; reflexivity|].
  assert (U : forall k v, usable (fun _ => None) (fun _ => true) None (scx_a k v)).
  { intros k0 v0. split.
    - intros d [= <-]. repeat constructor; cbn; intros X; destruct X.
    - intros k v _ E. cbn in E. destruct (eq_dec k _); [injection E as <-; discriminate|discriminate]. }
  assert (U0 : usable (fun _ => None) (fun _ => true) None None) by (split; [discriminate|intros k v _ [=]]).
  split.
  { cbn [app map fst scx_calls]. repeat (apply Forall_cons || apply Forall_nil); cbn [api_call fst snd]; try (split; [reflexivity|]; auto; fail);
      repeat (apply Forall_cons || apply Forall_nil); cbn [fst snd]; split; try reflexivity; auto. }
  split.
  { cbn [app map fst scx_calls]. repeat (apply Forall_cons || apply Forall_nil); cbn [keys_not_empty scx_first scx_obs]; try (cbn; intuition discriminate);
      repeat (apply Forall_cons || apply Forall_nil); cbn; intuition discriminate. }
  split.
  { intros ob t n b I. cbn in I. repeat (destruct I as [I|I]; [try discriminate I; now injection I|]). destruct I. }
  split.
  { intros i v g [[[[] _]|(_ & _ & _ & _ & E)] A]. destruct A as [[N _]|[_ ->]]; [contradiction|]. cbn [rd_aggregation prometheus_reader].
    split; [|discriminate]. intros bounds e [[=]|(_ & K & _ & [V|[V _]])]; destruct i as [|[p|p|]]; try destruct p; try discriminate K; try discriminate V.
    injection V as <-. intros [|[|n]] [|[|m]] L; cbn in *; lia. }
  split.
  { split; [right; split; [intros v []|auto]|]. right. auto. }
  left. split; [reflexivity|]. split; [intros [[=]|[_ I]]; cbn in I; intuition discriminate|reflexivity].
Qed.

(** A collection of the reader that is not a scrape (force_flush) before one, as in C71_after_flush_refuted, but from the program's
    calls on: the scrape shows the values of that time and those of now under the same labels, and a family twice. *)
Definition scx_flushed : list (pcall * bool) :=
  [(PCall 0 (scx_a "http.method" "GET") 3 100, false); (PCall 4 None 8 101, false); (PCall 4 None 2 102, false); (PCollect 0 [] false 110, false);
   (PCall 0 (scx_a "http.method" "GET") 4 111, false); (PCall 4 None 5 112, false)].
Definition scx_obj4 (i : N) : instr := match i with 4%N => Instr 4 IGauge (lit "depth") [] [] None | _ => scx_obj i end.
Theorem C130_flush_refuted : exists ys f g l,
  scraped (fun _ => None) (fun _ => true) (fun a b => str_eqb a b) scx_scope scx_obj4 (fun _ => tt) [] [prometheus_reader]
    (fun _ => 0) (fun _ => false) scx_str (Res [] []) 0 true scx_flushed [] 200 = Some ys
  /\ In f (families ys) /\ In g (families ys)
  /\ In (l, PVNumber (NInt 3)) (pf_samples f) /\ In (l, PVNumber (NInt 7)) (pf_samples f)
  /\ In ([], PVNumber (NInt 2)) (pf_samples g) /\ In ([], PVNumber (NInt 5)) (pf_samples g)
  /\ ~ NoDup (map identity (families ys)).
Proof.
  do 4 eexists. split; [vm_compute; reflexivity|]. cbn [families flat_map app].
  split; [right; right; left; reflexivity|]. split; [right; right; right; left; reflexivity|]. cbn [pf_samples].
  split; [left; reflexivity|]. split; [right; left; reflexivity|]. split; [left; reflexivity|]. split; [right; left; reflexivity|].
  intros N. inversion_clear N as [|x l0 N0 _]. apply N0. right. left. reflexivity.
Qed.
Print Assumptions C130_flush_refuted.

(** An attribute with the empty key: the identifier under which the collector looks for a family is the same without it, so that the
    sample is put in the family without labels.  There it has no label either ([combine]: prometheus_client, which is not
    part of this repository, pairs the family's labels with the sample's values): the scrape shows two samples with the same name and labels for two sets of attributes, and no family has the labels of the second set. *)
Definition scx_anonymous : list (pcall * bool) := [(PCall 0 None 3 100, false); (PCall 0 (scx_a "" "x") 4 101, false)].
Theorem C130_empty_key_refuted : exists ys f s1 s2,
  scx_scraped true scx_anonymous [] 200 = Some ys
  /\ Forall (api_call (fun _ => None) (fun _ => true) scx_obj) (map fst scx_anonymous ++ [PCollect 0 [] false 200]) /\ only_scrapes 0 scx_anonymous
  /\ counted_now scx_obj 0 0 Default (map fst scx_anonymous) [] 200 [(None, 3, 100); (scx_a "" "x", 4, 101)]
  /\ families ys = [f] /\ pf_labels f <> label_keys (fun _ => false) (given (scx_a "" "x"))
  /\ pf_samples f = [s1; s2] /\ combine (pf_labels f) (fst s1) = combine (pf_labels f) (fst s2)
  /\ snd s1 = PVNumber (NInt 3) /\ snd s2 = PVNumber (NInt 4).
Proof.
  do 4 eexists. split; [vm_compute; reflexivity|]. split.
  { cbn [app map fst scx_anonymous]. apply Forall_cons; [split; [reflexivity|split; [discriminate|intros k v _ [=]]]|].
    apply Forall_cons; [|repeat constructor]. split; [reflexivity|]. split.
    - intros d [= <-]. repeat constructor; cbn; intros X; destruct X.
    - intros k v _ E. cbn in E. destruct (eq_dec k _); [injection E as <-; discriminate|discriminate]. }
  split. { intros ob t n b I. cbn in I. repeat (destruct I as [I|I]; [discriminate I|]). destruct I. }
  split. { left. split; [reflexivity|]. split; [intros [[=]|[_ I]]; cbn in I; intuition discriminate|reflexivity]. }
  split; [reflexivity|]. split; [discriminate|]. split; [reflexivity|]. split; [reflexivity|]. split; reflexivity.
Qed.
Print Assumptions C130_empty_key_refuted.

(** Boundaries that do not increase, which the documentation of the aggregation asks for but nothing checks: an amount of 15 is not among
    those up to 20. *)
Definition scx_obj5 (i : N) : instr := Instr i IHistogram (lit "size") (lit "By") [] (Some [20; 10]).
Theorem C130_boundaries_refuted : exists ys f,
  scraped (fun _ => None) (fun _ => true) (fun a b => str_eqb a b) scx_scope scx_obj5 (fun _ => tt) [] [prometheus_reader]
    (fun _ => 0) (fun _ => false) scx_str (Res [] []) 0 true [(PCall 0 None 15 100, false)] [] 200 = Some ys
  /\ families ys = [f] /\ pf_samples f = [([], PVHistogram [(Some (NInt 20), 0); (Some (NInt 10), 0); (None, 1)] (NInt 15))]
  /\ forall g s, stream (fun a b => str_eqb a b) scx_scope scx_obj5 (fun _ => tt) [] 0 (DEFAULT_VIEW Default) g ->
       ~ sample_for scx_obj5 (fun _ => false) scx_str 0 (DEFAULT_VIEW Default) g None [15] f s.
Proof.
  do 2 eexists. split; [vm_compute; reflexivity|]. split; [reflexivity|]. split; [reflexivity|].
  intros g s [_ A] (_ & _ & _ & _ & _ & V & I). destruct A as [[N _]|[_ ->]]; [now apply N|]. cbn [pf_samples In] in I. destruct I as [<-|[]]. cbn [snd] in V.
  destruct V as [([K|[_ K]] & _)|[([K|[_ K]] & _)|(_ & bounds & e & G & E)]]; try discriminate K; try (cbn in K; intuition discriminate).
  destruct G as [[=]|(_ & _ & _ & [K|[K _]])]; [|discriminate K]. injection K as <-. discriminate E.
Qed.
Print Assumptions C130_boundaries_refuted.
