(** C128: the metric exporter with max_export_batch_size. *)
From Verif Require Import Proof_Otlp Proof_OtlpFields Props_Otlp Proof_Split Spec_Split.
From Coq Require Import Lia.
Local Open Scope Z_scope.

(** The batches have the data points of the collection, each once, in order and under their resources, scopes and metrics. *)
Theorem C128_points : forall n d, flat_map all_points (split_metrics_data n d) = all_points d.
Proof. exact points_split. Qed.
Print Assumptions C128_points.

(** All batches but the last have n points (one, if n is not positive), the last has at least one and not more: there are as few batches
    as possible. *)
Theorem C128_sizes : forall n d,
  (forall i b, nth_error (split_metrics_data n d) i = Some b ->
     0 < Z.of_nat (length (all_points b)) <= Z.max 1 n
     /\ (S i < length (split_metrics_data n d) -> Z.of_nat (length (all_points b)) = Z.max 1 n)%nat)
  /\ Z.of_nat (length (all_points d)) <= Z.of_nat (length (split_metrics_data n d)) * Z.max 1 n
  /\ Z.of_nat (length (split_metrics_data n d)) * Z.max 1 n < Z.of_nat (length (all_points d)) + Z.max 1 n.
Proof.
  intros n d. destruct (sizes_split n d) as (full & rest & E & F & L). split.
  - intros i b H. rewrite E in *. destruct (Nat.lt_ge_cases i (length full)) as [Hi|Hi].
    + rewrite nth_error_app1 in H by exact Hi. apply nth_error_In in H. apply (proj1 (Forall_forall _ _) F) in H. lia.
    + rewrite nth_error_app2 in H by exact Hi. destruct L as [->|(b' & -> & L)].
      * destruct (i - length full)%nat; discriminate H.
      * destruct (i - length full)%nat as [|k] eqn:Ek; [|destruct k; discriminate H]. cbn in H. assert (b' = b) by congruence. subst b'.
        split; [lia|]. rewrite app_length. cbn [length]. lia.
  - rewrite <- (points_split n d), E. rewrite flat_map_app, !app_length.
    assert (G : Z.of_nat (length (flat_map all_points full)) = Z.of_nat (length full) * Z.max 1 n).
    { clear E L. induction F as [|b l Hb F IH]; [reflexivity|]. cbn [flat_map length]. rewrite app_length. lia. }
    destruct L as [->|(b & -> & L)]; cbn [flat_map length]; rewrite ?app_nil_r; lia.
Qed.
Print Assumptions C128_sizes.

(** A batch is the collection with some points, and everything that has no points then, left out: nothing in it is repeated or empty. *)
Theorem C128_parts : forall n d b, In b (split_metrics_data n d) -> part_of b d /\ nothing_empty b.
Proof. intros n d b H. exact (proj1 (Forall_forall _ _) (parts_split n d) _ H). Qed.
Print Assumptions C128_parts.

(** If no resource and no scope of a resource occurs twice in the collection, and it can be encoded, then every batch is encoded as a
    request that says what the batch says (Spec_Otlp). *)
Theorem C128_requests : forall to_float same_res same_sco n d b,
  all_different same_res (map fst d) -> Forall (fun rm => all_different same_sco (map fst (snd rm))) d ->
  Forall (resource_metrics_ok to_float) d -> In b (split_metrics_data n d) ->
  exists req, encode_metrics to_float same_res same_sco b = Some req /\ Forall2 (resource_metrics_read to_float) b req.
Proof.
  intros tf sr ss n d b Dr Ds O H. apply C128_parts in H as [H _]. destruct (part_different sr ss b d H Dr Ds) as [Dr' Ds'].
  destruct (encode_metrics_ex tf sr ss b (part_encodable tf b d H O)) as (req & E). exists req. split; [exact E|]. now apply (encode_metrics_ok tf sr ss).
Qed.
Print Assumptions C128_requests.

(** export() hands every batch to the loop that sends it, also after one that failed, and says SUCCESS if and only if all succeeded.
    If one raises, those before it were handed over and those after it are not. *)
Theorem C128_export : forall W (export_one : data -> W -> bool * W + W) n d w,
  match export_metrics export_one (Some n) d w with
  | inl (ok, w') => exists oks, exported_in_turn export_one (split_metrics_data n d) w oks w' /\ (ok = true <-> Forall (eq true) oks)
  | inr w' => exists before b after oks w1, split_metrics_data n d = before ++ b :: after
              /\ exported_in_turn export_one before w oks w1 /\ export_one b w1 = inr w'
  end.
Proof.
  intros W one n d w. cbn [export_metrics].
  assert (G : forall l w r, match export_batches one l w r with
    | inl (ok, w') => exists oks, exported_in_turn one l w oks w' /\ (ok = true <-> r = true /\ Forall (eq true) oks)
    | inr w' => exists before b after oks w1, l = before ++ b :: after /\ exported_in_turn one before w oks w1 /\ one b w1 = inr w' end).
  { clear. induction l as [|b l IH]; intros w r; cbn [export_batches].
    - exists []. split; [constructor|]. split; [intros ->; auto|tauto].
    - destruct (one b w) as [[ok w1]|w1] eqn:E.
      + specialize (IH w1 (if ok then r else false)). destruct (export_batches one l w1 _) as [[ok' w']|w'].
        * destruct IH as (oks & T & Q). exists (ok :: oks). split; [econstructor; eassumption|]. rewrite Q. split.
          -- intros [A B]. destruct ok; [|discriminate]. split; [exact A|]. now constructor.
          -- intros [A B]. inversion B; subst. auto.
        * destruct IH as (be & b' & af & oks & w2 & -> & T & Q). exists (b :: be), b', af, (ok :: oks), w2. split; [reflexivity|]. split; [|exact Q].
          econstructor; eassumption.
      + exists [], b, l, [], w. split; [reflexivity|]. split; [constructor|exact E]. }
  specialize (G (split_metrics_data n d) w true). destruct (export_batches _ _ _ _) as [[ok w']|w']; [|exact G].
  destruct G as (oks & T & Q). exists oks. split; [exact T|]. tauto.
Qed.
Print Assumptions C128_export.

Definition c128_p (z : Z) : num_point := NumPt [] None z (NInt z) [].
Definition c128_d : data :=
  [(Res [] [], [(Scope (lit "a") None [] [],
      [SMetric (lit "x") None None (MGauge [c128_p 1; c128_p 2; c128_p 3]); SMetric (lit "none") None None (MGauge []); SMetric (lit "y") None None (MSum [c128_p 4] 2 true)]);
     (Scope (lit "b") None [] [], [])]);
   (Res [(lit "k", PBool true)] [], [(Scope (lit "a") None [] [], [SMetric (lit "z") None None (MSum [c128_p 5] 1 false)])])].
Example C128_example : split_metrics_data 2 c128_d =
  [[(Res [] [], [(Scope (lit "a") None [] [], [SMetric (lit "x") None None (MGauge [c128_p 1; c128_p 2])])])];
   [(Res [] [], [(Scope (lit "a") None [] [], [SMetric (lit "x") None None (MGauge [c128_p 3]); SMetric (lit "y") None None (MSum [c128_p 4] 2 true)])])];
   [(Res [(lit "k", PBool true)] [], [(Scope (lit "a") None [] [], [SMetric (lit "z") None None (MSum [c128_p 5] 1 false)])])]]
  /\ split_metrics_data 10 [] = [] /\ length (split_metrics_data 0 c128_d) = 5%nat
  /\ all_different same_resource_key (map fst c128_d)
  /\ Forall (fun rm => all_different (fun a b => str_eqb (sco_name a) (sco_name b)) (map fst (snd rm))) c128_d
  /\ Forall (resource_metrics_ok (fun z => Some z)) c128_d
  /\ export_metrics (fun b w => inl (negb (Nat.eqb w 1), S w)) (Some 2) c128_d 0%nat = inl (false, 3%nat).
Proof.
  split; [vm_compute; reflexivity|]. split; [reflexivity|]. split; [reflexivity|]. split; [|split; [|split; [|vm_compute; reflexivity]]].
  - repeat (constructor; [repeat constructor; vm_compute; reflexivity|]). constructor.
  - unfold c128_d. repeat constructor; vm_compute; reflexivity.
  - assert (P : forall z, 0 <= z < 9 -> num_ok (c128_p z)).
    { intros z Hz. split; [exact I|]. split; [split; cbn; lia|]. split; [split; cbn; lia|constructor]. }
    unfold c128_d. repeat match goal with
    | |- Forall _ [] => constructor
    | |- Forall _ (_ :: _) => constructor
    | |- Forall _ (snd _) => cbn [snd]
    | |- resource_metrics_ok _ _ => split
    | |- resource_encodable _ => constructor
    | |- _ /\ Forall (metric_ok _) _ => split
    | |- scope_encodable _ => split; [|split; [|constructor]]
    | |- metric_ok _ _ => split; [|split; [|split]]
    | |- num_ok _ => apply P; lia
    | |- unicode_text _ => apply unicode_dec; reflexivity
    | |- opt_text _ => exact I
    | |- data_ok _ _ => cbn [data_ok sm_data]
    end.
Qed.
