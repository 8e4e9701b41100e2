(** C55, C56, C70, C71: what Prometheus is shown. *)
From Verif Require Import Spec_Prometheus Proof_Prometheus.
From Coq Require Import Lia.
Local Open Scope Z_scope.

(** ** C55 *)
(** For every histogram point, with one more bucket than bounds: there is one exposed bucket for each bound and one for
    +Inf, the i-th of them counts the first i buckets, the counts do not decrease, the last one is the total and the
    differences are the bucket counts. *)
Theorem C55_buckets : forall counts bounds, length counts = S (length bounds) ->
  let shown := convert_buckets counts bounds in
  map fst shown = map Some bounds ++ [None]
  /\ (forall i, (i < length counts)%nat -> nth_error (map snd shown) i = Some (total (firstn (S i) counts)))
  /\ nth_error shown (length bounds) = Some (None, total counts)
  /\ (Forall (fun c => 0 <= c) counts -> StronglySorted Z.le (map snd shown))
  /\ differences 0 (map snd shown) = counts.
Proof.
  intros counts bounds H. cbn zeta. rewrite convert_scan.
  assert (L : length (map Some bounds ++ [None]) = length counts) by (rewrite app_length, map_length; cbn; lia).
  assert (F : map fst (scan 0 (combine (map Some bounds ++ [None]) counts)) = map Some bounds ++ [None]) by (rewrite scan_fst; now apply combine_fst).
  assert (S2 : map snd (scan 0 (combine (map Some bounds ++ [None]) counts)) = sums 0 counts) by (rewrite scan_snd; f_equal; now apply combine_snd).
  rewrite S2. split; [exact F|]. split; [|split; [|split]].
  - intros i Hi. rewrite sums_nth. apply Nat.ltb_lt in Hi. rewrite Hi. reflexivity.
  - pose proof (f_equal (fun l => nth_error l (length bounds)) F) as A. pose proof (f_equal (fun l => nth_error l (length bounds)) S2) as B. cbv beta in A, B.
    rewrite !nth_error_map in *. destruct (nth_error (scan 0 (combine (map Some bounds ++ [None]) counts)) (length bounds)) as [[b c]|] eqn:E; cbn [option_map fst snd] in *.
    + rewrite nth_error_app2 in A by (rewrite map_length; lia). rewrite map_length, Nat.sub_diag in A. injection A as ->.
      rewrite sums_nth in B. replace (length bounds <? length counts)%nat with true in B by (symmetry; apply Nat.ltb_lt; lia). assert (B2 : c = 0 + total (firstn (S (length bounds)) counts)) by congruence. rewrite B2. assert (FA : firstn (S (length bounds)) counts = counts) by (rewrite <- H; apply firstn_all). rewrite FA. reflexivity.
    + exfalso. rewrite nth_error_app2, map_length, Nat.sub_diag in A by (rewrite map_length; lia). discriminate.
  - intros P. pose proof (sums_sorted counts P 0) as Q. now inversion Q.
  - apply sums_diff.
Qed.
Print Assumptions C55_buckets.
Example C55_example : convert_buckets [2; 0; 5] [NInt 10; NInt 20] = [(Some (NInt 10), 2); (Some (NInt 20), 2); (None, 7)].
Proof. reflexivity. Qed.

(** ** C56 *)
(** Metric names: legal, without two underscores in a row, sanitising them again changes nothing, and neither does
    sanitising a name that is already so.  Missing: the empty text (C56_empty_refuted). *)
Theorem C56_names_partial : forall other_digit s, s <> [] ->
  legal_name (sanitize_full_name other_digit s) /\ no_double_underscore (sanitize_full_name other_digit s)
  /\ sanitize_full_name other_digit (sanitize_full_name other_digit s) = sanitize_full_name other_digit s
  /\ (legal_name s -> no_double_underscore s -> sanitize_full_name other_digit s = s).
Proof. intros. split; [now apply legal_names|]. split; [apply name_double|]. split; [apply name_idem|apply name_fixed]. Qed.
Print Assumptions C56_names_partial.
Theorem C56_labels_partial : forall other_digit s, s <> [] ->
  legal_label (sanitize_attribute other_digit s) /\ no_double_underscore (sanitize_attribute other_digit s)
  /\ sanitize_attribute other_digit (sanitize_attribute other_digit s) = sanitize_attribute other_digit s
  /\ (legal_label s -> no_double_underscore s -> sanitize_attribute other_digit s = s).
Proof. intros. split; [now apply legal_labels|]. split; [apply label_double|]. split; [apply label_idem|apply label_fixed]. Qed.
Print Assumptions C56_labels_partial.
Example C56_example : let d := fun _ => false in
  sanitize_full_name d (lit "1.http  server:time") = lit "_http_server:time" /\ sanitize_attribute d (lit "http.code:x") = lit "http_code_x"
  /\ sanitize_full_name d (lit "2") = lit "_" /\ sanitize_attribute d [233%N; 97%N] = lit "_a".
Proof. repeat split. Qed.
(** An empty label name stays empty. *)
Theorem C56_empty_refuted : ~ forall other_digit s, legal_label (sanitize_attribute other_digit s).
Proof. intros H. destruct (H (fun _ => false) []) as (c & s & E & _). discriminate E. Qed.
Print Assumptions C56_empty_refuted.

(** ** C70 *)
(** A unit becomes characters that are allowed in names, and annotations in braces are left out. *)
Theorem C70_units : forall unit, name_tail (map_unit unit)
  /\ forall note, ~ In (chr "{") unit -> ~ In 10%N note -> map_unit (unit ++ lit "{" ++ note ++ lit "}") = map_unit unit.
Proof. intros unit. split; [apply map_unit_tail|]. intros note. apply map_unit_annotated. Qed.
Print Assumptions C70_units.
Example C70_example :
  map_unit (lit "By") = lit "bytes" /\ map_unit (lit "m/s") = lit "meters_per_second" /\ map_unit (lit "{requests}/s") = lit "per_second"
  /\ map_unit (lit "1") = [] /\ map_unit (lit "{packets}") = [] /\ map_unit (lit "a%b/{x}") = lit "a_b" /\ map_unit (lit "By{used}") = lit "bytes".
Proof. repeat split. Qed.

(** ** C71 *)
(** The labels of a point are its attributes, sorted by their keys, with sanitised keys. *)
Theorem C71_labels : forall other_digit dumps attrs, exists items, Permutation items attrs /\ in_key_order items
  /\ label_keys other_digit attrs = map (fun kv => sanitize_attribute other_digit (fst kv)) items
  /\ label_values dumps attrs = map (fun kv => match snd kv with PStr _ s => s | v => dumps v end) items.
Proof.
  intros od du attrs. exists (sort_items attrs). split; [apply sort_perm|]. split; [apply sort_sorted|]. 
  split; [reflexivity|].
  unfold label_values. apply map_ext. intros [k v]. now destruct v.
Qed.
Print Assumptions C71_labels.

(** For all metrics that can be shown, with attribute keys that are not empty: the families are different, there is one
    for each kind, name, description, list of labels and unit that a point has, and it has the samples of these points,
    each once and in their order. *)
Theorem C71_families_partial : forall other_digit dumps ms, Forall showable ms -> Forall keys_given ms ->
  exists fams, translate other_digit dumps ms [] = Some fams
  /\ NoDup (map ident_of (values fams))
  /\ (forall i, In i (map ident_of (values fams)) <-> In i (map fst (flat_map (points_of other_digit dumps) ms)))
  /\ (forall f, In f (values fams) -> pf_samples f = samples_at (ident_of f) (flat_map (points_of other_digit dumps) ms)).
Proof.
  intros od du ms S K. set (pts := flat_map (points_of od du) ms). exists (fold_left put pts []). split; [now apply translate_points|].
  assert (G : grouped (fold_left put pts []) pts).
  { apply (puts_grouped pts [] []).
    - split; [constructor|]. split; [intros id f []|]. intros i. reflexivity.
    - unfold pts. rewrite Forall_flat_map. eapply Forall_impl; [|exact K]. cbn. intros m. apply points_ok. }
  destruct G as (ND & F & I). split; [|split].
  - clear - ND F. induction (fold_left put pts []) as [|[id f] l IH]; cbn; [constructor|]. cbn in ND. inversion ND as [|? ? N ND']; subst. constructor.
    + intros Q. apply N. apply in_map_iff in Q. destruct Q as (f' & E & Q). unfold values in Q. apply in_map_iff in Q. destruct Q as ([id' f''] & E2 & Q). cbn in E2. subst f''.
      unfold keys. apply in_map_iff. exists (id', f'). split; [|exact Q]. cbn. destruct (F id' f' (or_intror Q)) as (-> & _). destruct (F id f (or_introl eq_refl)) as (-> & _). now rewrite E.
    + apply IH; [exact ND'|]. intros id' f' Q. apply F. now right.
  - exact I.
  - intros f Q. unfold values in Q. apply in_map_iff in Q. destruct Q as ([id f'] & E & Q). cbn in E. subst f'. apply (F _ _ Q).
Qed.
Print Assumptions C71_families_partial.
Definition np (attrs : dict str pyval) (v : Z) : num_point := NumPt attrs None 0 (NInt v) [].
Definition counter (name : string) (l : list num_point) : sdk_metric := SMetric (lit name) None (Some []) (MSum l 2 true).
Definition attr (k v : string) : str * pyval := (lit k, PStr false (lit v)).
Example C71_families_example :
  let ms := [counter "a.b" [np [attr "k" "1"] 3; np [attr "k" "2"] 4; np [] 5]; SMetric (lit "up") (Some (lit "d|x")) (Some (lit "s")) (MSum [np [] 1] 2 false)] in
  Forall showable ms /\ Forall keys_given ms
  /\ option_map values (translate (fun _ => false) (fun _ => []) ms [])
     = Some [PFam KCounter (lit "a_b") [] [lit "k"] [] [([lit "1"], PVNumber (NInt 3)); ([lit "2"], PVNumber (NInt 4))];
             PFam KCounter (lit "a_b") [] [] [] [([], PVNumber (NInt 5))];
             PFam KGauge (lit "up") (lit "d|x") [] (lit "seconds") [([], PVNumber (NInt 1))]].
Proof.
  split; [|split; [|reflexivity]].
  - repeat constructor; discriminate.
  - repeat constructor; cbn; intuition discriminate.
Qed.

(** A scrape that finds an empty queue shows the target, unless disabled, and these families once, and leaves it empty. *)
Theorem C71_scrape_partial : forall other_digit dumps d c, co_queue c = [] -> Forall showable (every_metric d) ->
  exists fams, translate other_digit dumps (every_metric d) [] = Some fams
  /\ snd (scrape other_digit dumps (Some d) c)
     = Some ((if co_disabled c then [] else [YTarget (match co_target c with Some t => t | None => target_labels other_digit dumps d end)]) ++ map YFamily (values fams))
  /\ co_queue (fst (scrape other_digit dumps (Some d) c)) = [].
Proof.
  intros od du d c Q S. rewrite every_all in *. destruct c as [dis tg q]. cbn in Q. subst q. rewrite translate_points by exact S. eexists. split; [reflexivity|]. split; [|reflexivity].
  unfold scrape, receive. cbn [co_queue co_disabled co_target snd app]. cbn [drain]. rewrite translate_points by exact S. cbn [bind drain]. unfold values. rewrite app_nil_r, map_map.
  destruct dis; [reflexivity|]. destruct tg; reflexivity.
Qed.
Print Assumptions C71_scrape_partial.
Example C71_scrape_example :
  snd (scrape (fun _ => false) (fun _ => []) (Some [(Res [attr "service.name" "x"] [], [(Scope [] None [] [], [counter "c" [np [] 1]])])]) (Collector false None []))
  = Some [YTarget [(lit "service_name", lit "x")]; YFamily (PFam KCounter (lit "c") [] [] [] [([], PVNumber (NInt 1))])].
Proof. reflexivity. Qed.

(** If something was collected before, as by [force_flush], every family is shown twice, with old samples as well. *)
Theorem C71_after_flush_refuted :
  ~ forall other_digit dumps flushed now c l, co_queue c = [] -> snd (scrape other_digit dumps (Some now) (receive (Some flushed) c)) = Some l -> NoDup (map (fun y => match y with YFamily f => Some (ident_of f) | YTarget _ => None end) l).
Proof.
  intros H. specialize (H (fun _ => false) (fun _ => []) [(Res [] [], [(Scope [] None [] [], [counter "c" [np [] 1]])])]
                          [(Res [] [], [(Scope [] None [] [], [counter "c" [np [] 2]])])] (Collector true None []) _ eq_refl eq_refl).
  cbn in H. inversion H as [|? ? N _]. apply N. now left.
Qed.
Print Assumptions C71_after_flush_refuted.
(** Two instruments, or two attributes, whose names are sanitised to the same: the same series twice in a family, and the
    same label twice in a series. *)
Theorem C71_same_names_refuted :
  (~ forall other_digit dumps ms fams f, translate other_digit dumps ms [] = Some fams ->
       NoDup (map sm_name ms) -> Forall (fun m => (length (attrs_of m) <= 1)%nat) ms -> In f (values fams) -> NoDup (map fst (pf_samples f)))
  /\ ~ forall other_digit attrs, NoDup (keys attrs) -> NoDup (label_keys other_digit attrs).
Proof.
  split; intros H.
  - pose (ms := [counter "a.b" [np [] 1]; counter "a_b" [np [] 2]]).
    assert (N : NoDup (map sm_name [counter "a.b" [np [] 1]; counter "a_b" [np [] 2]])) by (repeat constructor; cbn; intuition discriminate).
    assert (L : Forall (fun m => (length (attrs_of m) <= 1)%nat) ms) by (repeat constructor).
    pose proof (H (fun _ => false) (fun _ => []) ms _ _ eq_refl N L (or_introl eq_refl)) as H'. clear H. rename H' into H. cbn in H. inversion H as [|? ? Q _]. apply Q. now left.
  - assert (N : NoDup (keys [attr "a.b" "1"; attr "a_b" "2"])) by (repeat constructor; cbn; intuition discriminate).
    specialize (H (fun _ => false) _ N). cbn in H. inversion H as [|? ? Q _]. apply Q. now left.
Qed.
Print Assumptions C71_same_names_refuted.
(** One exponential histogram with a point makes every scrape raise. *)
Theorem C71_exponential_refuted :
  ~ forall other_digit dumps ms, Forall (fun m => sm_unit m <> None /\ sm_data m <> MUnknown) ms -> translate other_digit dumps ms [] <> None.
Proof.
  intros H. apply (H (fun _ => false) (fun _ => []) [SMetric (lit "e") None (Some []) (MExponential [ExpPt [] None 0 0 (NInt 0) 0 0 (EB 0 []) (EB 0 []) 0 None None []] 2)]); [|reflexivity].
  repeat constructor; discriminate.
Qed.
Print Assumptions C71_exponential_refuted.
