(** C56, C70, C71: what names, units and the target become, exactly. *)
From Verif Require Import Spec_PromNames Proof_PromNames Proof_Prometheus Proof_Dict.
From Coq Require Import Lia.
Local Open Scope Z_scope.

(** ** C56 *)
(** Every metric name becomes the one text in which a digit at its beginning and each longest run of characters that are
    not letters, digits or colons became one underscore; every label likewise, with colons replaced as well. *)
Theorem C56_exact : forall other_digit s,
  (exists s', led s s' /\ forall out, replaced in_names s' out <-> out = sanitize_full_name other_digit s)
  /\ (exists s', led s s' /\ forall out, replaced in_labels s' out <-> out = sanitize_attribute other_digit s).
Proof.
  intros od s. destruct (led_total s) as (s' & L). split; exists s'; (split; [exact L|]); intros out; (split; [intros R|intros ->]).
  - eapply replaced_fun; [apply (name_exact od s s' L)|exact R].
  - now apply name_exact.
  - eapply replaced_fun; [apply (label_exact od s s' L)|exact R].
  - now apply label_exact.
Qed.
Print Assumptions C56_exact.
Example C56_exact_example : led (lit "1a.b") (lit "_a.b") /\ replaced in_names (lit "_a.b") (lit "_a_b") /\ sanitize_full_name (fun _ => false) (lit "1a.b") = lit "_a_b".
Proof.
  split; [|split; [|reflexivity]].
  - right. exists (chr "1"), (lit "a.b"). split; [reflexivity|]. split; [unfold digit; cbn; lia|reflexivity].
  - assert (A : forall c, (97 <= c <= 122)%N -> in_names c) by (intros c H; left; left; exact H). assert (N1 : ~ in_names (chr "_")) by (unfold in_names, letter, digit, colon; cbn; lia).
    assert (N2 : ~ in_names (chr ".")) by (unfold in_names, letter, digit, colon; cbn; lia).
    apply (RRun in_names [chr "_"] (lit "a.b")); [discriminate|repeat constructor; exact N1|intros c s' E; injection E as <- _; apply A; lia|].
    apply (RKeep in_names); [apply A; cbn; lia|]. apply (RRun in_names [chr "."] (lit "b")); [discriminate|repeat constructor; exact N2|intros c s' E; injection E as <- _; apply A; lia|].
    apply (RKeep in_names); [apply A; cbn; lia|constructor].
Qed.

(** ** C70 *)
(** Every unit has one form without its annotations, and it is shown as the name of that form: known units by their
    names, ratios by the names of their parts, and others with their characters replaced. *)
Theorem C70_names : forall unit, exists bare,
  (forall b, unannotated unit b <-> b = bare) /\ shown_unit bare (map_unit unit).
Proof.
  intros u. destruct (map_unit_shown u) as (b & U & S). exists b. split; [|exact S]. intros b'. split; [|now intros ->].
  intros U'. now apply (unannotated_fun (length u) u (le_n _)).
Qed.
Print Assumptions C70_names.
(** What is shown depends on nothing else: a unit with a name is shown by it, whatever its annotations. *)
Theorem C70_known : forall unit bare name, unannotated unit bare -> named bare name -> map_unit unit = name.
Proof.
  intros u b n U N. destruct (C70_names u) as (b' & UU & S). apply UU in U. subst b'. inversion S as [u' n' N' E|a c a' c' top bottom K|u' w n' K]; subst.
  - apply named_units in N. apply named_units in N'. congruence.
  - exfalso. now apply (K n).
  - exfalso. now apply (K n).
Qed.
Print Assumptions C70_known.
Example C70_known_example : unannotated (lit "m{x}s{y}" ++ [10%N] ++ lit "{z}") (lit "m" ++ [10%N]) /\ unannotated (lit "{x}ms") (lit "ms") /\ map_unit (lit "{x}ms") = lit "milliseconds".
Proof.
  split; [|split; [|reflexivity]].
  - apply (UKeep (chr "m")); [discriminate|]. apply (UNote (lit "x}s{y") ([10%N] ++ lit "{z}")).
    + cbn. intuition discriminate.
    + intros x y E. destruct x as [|c x]; [discriminate|]. injection E as <- _. now left.
    + apply (UKeep 10%N); [discriminate|]. apply (UNote (lit "z") []); [cbn; intuition discriminate| |constructor]. intros [|] y E; discriminate.
  - apply (UNote (lit "x") (lit "ms")); [cbn; intuition discriminate| |].
    + intros x y E. destruct x as [|c [|d [|e x]]]; discriminate.
    + apply (UKeep (chr "m")); [discriminate|]. apply (UKeep (chr "s")); [discriminate|constructor].
Qed.
(** In ratios units are not always called by their names: "%" is a percent, but "%/s" is an underscore per second, and
    "m" is a meter, but "1/m" is per minute while "1/min" is per min. *)
Theorem C70_ratios_refuted :
  (~ forall a b n, named a n -> exists rest, map_unit (a ++ lit "/" ++ b) = n ++ rest)
  /\ (~ forall unit, no_double_underscore (map_unit unit))
  /\ map_unit (lit "1/m") = lit "per_minute" /\ map_unit (lit "1/min") = lit "per_min" /\ map_unit (lit "m") = lit "meters" /\ map_unit (lit "min") = lit "minutes".
Proof.
  split; [|split; [|repeat split]].
  - intros H. destruct (H (lit "%") (lit "s") (lit "percent")) as (rest & E); [unfold named; cbn; tauto|]. discriminate E.
  - intros H. apply (H (lit "%/s") [] (lit "per_second")). reflexivity.
Qed.
Print Assumptions C70_ratios_refuted.

(** ** C71 *)
(** The labels of the target are the attributes of the resources that were collected first, with sanitised names: each
    label is an attribute, and each attribute is a label unless another one is sanitised to the same. *)
Theorem C71_target : forall other_digit dumps d c, co_queue c = [] -> co_disabled c = false -> co_target c = None ->
  Forall showable (every_metric d) -> Forall (fun r => NoDup (keys (r_attrs (fst r)))) d ->
  exists labels families, snd (scrape other_digit dumps (Some d) c) = Some (YTarget labels :: map YFamily families)
  /\ co_target (fst (scrape other_digit dumps (Some d) c)) = Some labels
  /\ NoDup (keys labels)
  /\ (forall l t, In (l, t) labels -> exists k v, said d k v /\ l = sanitize_attribute other_digit k /\ text_of dumps v t)
  /\ (forall k v, said d k v -> (forall k' v', said d k' v' -> sanitize_attribute other_digit k' = sanitize_attribute other_digit k -> k' = k) ->
        exists t, text_of dumps v t /\ In (sanitize_attribute other_digit k, t) labels).
Proof.
  intros od du d [dis tg q] Q D T S G. rewrite every_all in S. cbn in Q, D, T. subst. exists (target_labels od du d), (values (fold_left put (flat_map (points_of od du) (all_metrics d)) [])).
  assert (M : forall k v, In (k, v) (attrs_merged d []) <-> said d k v).
  { intros k v. rewrite <- dget_In_iff by (apply merged_NoDup; constructor). rewrite (merged_said d G). cbn. intuition discriminate. }
  assert (N : NoDup (keys (target_labels od du d))) by (apply NoDup_dupdate; constructor).
  split; [|split; [reflexivity|split; [exact N|split]]].
  - unfold scrape, receive. cbn [co_queue co_disabled co_target snd app drain]. rewrite translate_points by exact S. cbn [bind drain]. unfold values. now rewrite app_nil_r, map_map.
  - intros l t I. apply (dget_In_iff _ _ _ N) in I. apply dget_dict_of_some in I. destruct I as [I|I]; [|discriminate I]. apply in_map_iff in I. destruct I as ([k v] & E & I). cbn in E.
    injection E as <- <-. exists k, v. split; [now apply M|]. split; [reflexivity|]. now apply check_text.
  - intros k v K U. exists (check_value du v). split; [now apply check_text|]. apply (dget_In_iff _ _ _ N). apply dget_dict_of_only.
    + apply in_map_iff. exists (k, v). split; [reflexivity|now apply M].
    + intros t I. apply in_map_iff in I. destruct I as ([k' v'] & E & I). cbn in E. injection E as E <-. apply M in I. rewrite (U k' v' I E) in I. f_equal.
      apply M in I. apply M in K. apply dget_In_iff in I; [|apply merged_NoDup; constructor]. apply dget_In_iff in K; [|apply merged_NoDup; constructor]. congruence.
Qed.
Print Assumptions C71_target.
Example C71_target_example :
  let a (k v : string) := (lit k, PStr false (lit v)) in
  let d := [(Res [a "service.name" "x"; a "b" "1"]%string [], []); (Res [a "b" "2"]%string [], [])] in
  said d (lit "b") (PStr false (lit "2"))
  /\ snd (scrape (fun _ => false) (fun _ => []) (Some d) (Collector false None [])) = Some [YTarget [(lit "service_name", lit "x"); (lit "b", lit "2")]].
Proof.
  split; [|reflexivity]. eexists [_], _, []. split; [reflexivity|]. split; [now left|constructor].
Qed.
