(** Proofs about the endpoint of the Zipkin exporters. *)
From Verif Require Import Proof_Str Proof_Json Proof_ZipkinDoc Spec_NodeEndpoint.
From Coq Require Import Lia.
Local Open Scope nat_scope.

(** ** IPv4 *)
Lemma number_fold s : forall a, fold_left (fun a c => (10 * a + (Z.of_N c - 48))%Z) s a = Spec_Json.number s a.
Proof. induction s as [|c s IH]; intros a; [reflexivity|]. apply IH. Qed.
Lemma number_low s : Forall digit s -> forall a, (0 <= a)%Z -> (a * 10 ^ Z.of_nat (length s) <= Spec_Json.number s a)%Z.
Proof.
  induction 1 as [|c s D F IH]; intros a A; [cbn; lia|]. apply digit_iff in D. cbn [Spec_Json.number length].
  specialize (IH (10 * a + (Z.of_N c - 48))%Z ltac:(lia)). rewrite Nat2Z.inj_succ, Z.pow_succ_r by lia.
  assert (0 < 10 ^ Z.of_nat (length s))%Z by (apply Z.pow_pos_nonneg; lia). nia.
Qed.
Lemma parse_octet_iff s n : parse_octet s = Some n <-> octet_text s n.
Proof.
  unfold parse_octet, octet_text, int_part, digits. rewrite number_fold. destruct s as [|c s]; cbn [is_nil]; [split; [discriminate|intros (((H & _) & _) & _); congruence]|].
  destruct (forallb is_digit (c :: s)) eqn:FD; cbn [negb].
  2: { split; [discriminate|]. intros (((_ & F) & _) & _). exfalso. assert (X : forallb is_digit (c :: s) = true); [|congruence].
       apply forallb_forall. intros x I. apply digit_is. revert x I. apply Forall_forall, F. }
  assert (F : Forall digit (c :: s)).
  { apply Forall_forall. intros x I. apply digit_is. rewrite forallb_forall in FD. auto. }
  destruct (Nat.ltb_spec 3 (length (c :: s))) as [L|L].
  { split; [discriminate|]. intros ((_ & [E|Z]) & -> & B); [rewrite E in L; cbn in L; lia|]. exfalso.
    inversion F as [|? ? D F']; subst. apply digit_iff in D. change (hd 0%N (c :: s)) with c in Z. change (chr "0") with 48%N in Z.
    cbn [Spec_Json.number] in B. pose proof (number_low s F' (10 * 0 + (Z.of_N c - 48))%Z ltac:(lia)) as H. cbn [length] in L.
    assert (10 ^ 3 <= 10 ^ Z.of_nat (length s))%Z by (apply Z.pow_le_mono_r; lia). change (10 ^ 3)%Z with 1000%Z in H0. assert (1 <= 10 * 0 + (Z.of_N c - 48))%Z by lia. nia. }
  destruct (str_eqb (c :: s) (lit "0")) eqn:E0; cbn [negb andb].
  - apply str_eqb_eq in E0. rewrite E0. cbn. split; [intros [= <-]; repeat split; try lia; auto; [discriminate|constructor; [cbn; auto|constructor]]|]. intros (_ & -> & _). reflexivity.
  - apply str_eqb_neq in E0. cbn [hd]. destruct (N.eqb_spec c 48) as [E|E].
    + split; [discriminate|]. intros ((_ & [X|X]) & _); [congruence|]. exfalso. apply X. exact E.
    + destruct (Z.ltb_spec 255 (Spec_Json.number (c :: s) 0)) as [B|B]; (split; [|intros (_ & -> & H)]); try discriminate; try reflexivity.
      { exfalso. cbn [Spec_Json.number] in *. lia. }
      intros H. assert (n = Spec_Json.number (c :: s) 0%Z) as -> by congruence. split; [split; [split; [discriminate|exact F]|right; exact E]|]. split; [reflexivity|exact B].
Qed.
Lemma octet_range s n : octet_text s n -> (0 <= n <= 255)%Z /\ ~ In 46%N s /\ ~ In 58%N s /\ ~ In 47%N s /\ ~ In 37%N s.
Proof.
  intros (((_ & F) & _) & -> & B). split; [pose proof (number_low s F 0%Z ltac:(lia)); lia|].
  assert (X : forall c, In c s -> (48 <= c <= 57)%N) by (intros c I; apply digit_iff; revert c I; apply Forall_forall, F).
  repeat split; intros I; specialize (X _ I); lia.
Qed.
Lemma v4_of_text_iff s n : v4_of_text s = Some n <-> ipv4_text s n.
Proof.
  unfold v4_of_text, ipv4_text. split.
  - intros H. pose proof (join_split_on 46 s) as J. destruct (split_on 46 s) as [|a [|b [|c [|d [|]]]]]; try discriminate.
    destruct (parse_octet a) as [na|] eqn:Ea; [|discriminate]. destruct (parse_octet b) as [nb|] eqn:Eb; [|discriminate].
    destruct (parse_octet c) as [nc|] eqn:Ec; [|discriminate]. destruct (parse_octet d) as [nd|] eqn:Ed; [|discriminate].
    apply parse_octet_iff in Ea, Eb, Ec, Ed. exists a, b, c, d, na, nb, nc, nd. split; [rewrite <- J; reflexivity|].
    repeat (split; [assumption|]). cbn [fold_left] in H. assert (E : n = (256 * (256 * (256 * (256 * 0 + na) + nb) + nc) + nd)%Z) by congruence. lia.
  - intros (a & b & c & d & na & nb & nc & nd & -> & A & B & C & D & ->).
    change (lit ".") with [46%N]. cbn [app]. rewrite !split_on_app by (eapply octet_range; eassumption). rewrite split_on_notin by (eapply octet_range; eassumption).
    apply parse_octet_iff in A, B, C, D. rewrite A, B, C, D. cbn [fold_left]. f_equal. lia.
Qed.
Lemma ipv4_plain s n : ipv4_text s n -> (0 <= n < 2 ^ 32)%Z /\ In 46%N s /\ ~ In 58%N s /\ ~ In 47%N s /\ ~ In 37%N s.
Proof.
  intros (a & b & c & d & na & nb & nc & nd & -> & A & B & C & D & ->). apply octet_range in A, B, C, D.
  destruct A as (A & A1 & A2 & A3 & A4), B as (B & B1 & B2 & B3 & B4), C as (C & C1 & C2 & C3 & C4), D as (D & D1 & D2 & D3 & D4).
  split; [lia|]. change (lit ".") with [46%N]. rewrite !in_app_iff. cbn [In]. split; [tauto|]. repeat split; intuition lia.
Qed.
Lemma dec_octet n : (0 <= n <= 255)%Z -> octet_text (dec (Z.to_N n)) n.
Proof. intros R. destruct (dec_ok (Z.to_N n)) as [I V]. split; [exact I|]. rewrite V, Z2N.id by lia. lia. Qed.
Lemma v4_text_ok n : (0 <= n < 2 ^ 32)%Z -> ipv4_text (v4_text n) n.
Proof.
  intros R. unfold v4_text. cbn [map join]. change (256 ^ 3)%Z with 16777216%Z. change (256 ^ 2)%Z with 65536%Z. change (256 ^ 1)%Z with 256%Z. change (256 ^ 0)%Z with 1%Z.
  exists (dec (Z.to_N (n / 16777216 mod 256))), (dec (Z.to_N (n / 65536 mod 256))), (dec (Z.to_N (n / 256 mod 256))), (dec (Z.to_N (n / 1 mod 256))).
  exists (n / 16777216 mod 256)%Z, (n / 65536 mod 256)%Z, (n / 256 mod 256)%Z, (n / 1 mod 256)%Z.
  split; [reflexivity|]. split; [apply dec_octet|split; [apply dec_octet|split; [apply dec_octet|split; [apply dec_octet|]]]]; Z.div_mod_to_equations; lia.
Qed.

(** ** Groups *)
Lemma hexd_of c : is_hex c = true -> hexd c (hex_val c).
Proof.
  intros H. unfold hexd. assert (A : forallb (fun c => existsb (fun p => (N.eqb (fst p) c && N.eqb (snd p) (hex_val c))%bool) hex_values) (filter is_hex (map N.of_nat (seq 0 128))) = true) by (vm_compute; reflexivity).
  rewrite forallb_forall in A. assert (I : In c (filter is_hex (map N.of_nat (seq 0 128)))).
  { apply filter_In. split; [|exact H]. apply in_map_iff. exists (N.to_nat c). split; [apply N2Nat.id|]. apply in_seq. unfold is_hex, is_lhex, is_digit, in_range in H. lia. }
  specialize (A c I). apply existsb_exists in A as ([x v] & I' & E). apply andb_true_iff in E as [E1 E2]. apply N.eqb_eq in E1, E2. cbn [fst snd] in *. subst. exact I'.
Qed.
Lemma hex_number_iff s n : hex_number s n <-> s <> [] /\ forallb is_hex s = true /\ n = Z.of_N (hex_value s).
Proof.
  split.
  - induction 1 as [c v H|s n c v H (N & F & E) D].
    + apply hexd_val in H as [H <-]. split; [discriminate|]. split; [cbn; now rewrite H|]. unfold hex_value. cbn [fold_left]. lia.
    + apply hexd_val in D as [D <-]. split; [destruct s; discriminate|]. split; [rewrite forallb_app; cbn; now rewrite F, D|].
      unfold hex_value in *. rewrite fold_left_app. cbn [fold_left]. lia.
  - revert n. induction s as [|c s IH] using rev_ind; intros n; [intros (H & _); congruence|]. intros (_ & F & ->). rewrite forallb_app in F. apply andb_true_iff in F as [F D].
    cbn in D. rewrite andb_true_r in D. unfold hex_value. rewrite fold_left_app. cbn [fold_left]. destruct s as [|x s].
    + cbn [fold_left app]. replace (16 * 0 + hex_val c)%N with (hex_val c) by lia. apply hx_digit. now apply hexd_of.
    + replace (Z.of_N (16 * fold_left (fun a c0 => (16 * a + hex_val c0)%N) (x :: s) 0%N + hex_val c)) with (16 * Z.of_N (hex_value (x :: s)) + Z.of_N (hex_val c))%Z by (unfold hex_value; lia).
      apply hx_more; [apply IH; split; [discriminate|now split]|now apply hexd_of].
Qed.
Lemma parse_hextet_iff s n : parse_hextet s = Some n <-> group_text s n.
Proof.
  unfold parse_hextet, group_text. rewrite hex_number_iff. destruct (forallb is_hex s) eqn:F; cbn [negb]; [|split; [discriminate|intros ((_ & H & _) & _); discriminate]].
  destruct (Nat.ltb_spec 4 (length s)) as [L|L]; [split; [discriminate|lia]|]. destruct s as [|c s]; cbn [is_nil]; [split; [discriminate|intros ((H & _) & _); congruence]|].
  split; [intros [= <-]|intros ((_ & _ & ->) & _); reflexivity]. split; [|exact L]. split; [discriminate|]. now split.
Qed.
Lemma group_fun s n m : group_text s n -> group_text s m -> n = m.
Proof. intros H1 H2. apply parse_hextet_iff in H1, H2. congruence. Qed.
Lemma group_plain s n : group_text s n -> s <> [] /\ (0 <= n < 65536)%Z /\ ~ In 58%N s /\ ~ In 46%N s /\ ~ In 47%N s /\ ~ In 37%N s.
Proof.
  intros [H L]. apply hex_number_iff in H as (N & F & ->). split; [exact N|]. split.
  { pose proof (hex_value_lt s F) as B. assert (16 ^ N.of_nat (length s) <= 16 ^ 4)%N by (apply N.pow_le_mono_r; lia). change (16 ^ 4)%N with 65536%N in H. lia. }
  rewrite forallb_forall in F. repeat split; intros I; specialize (F _ I); discriminate F.
Qed.
Lemma hextet_group n : (0 <= n < 65536)%Z -> group_text (hextet n) n.
Proof.
  intros R. unfold hextet. split.
  - apply hex_number_iff. split; [apply hex_digits_nonempty|]. split; [|rewrite hex_value_hex, Z2N.id by lia; reflexivity].
    apply (forallb_impl is_lhex); [apply is_lhex_is_hex|apply hex_lhex].
  - unfold hex. apply hex_digits_length; [lia|]. change (16 ^ N.of_nat 4)%N with 65536%N. lia.
Qed.
Definition value_from (a : Z) (l : list Z) : Z := fold_left (fun n g => n * 2 ^ 16 + g)%Z l a.
Lemma read_groups_iff ps : forall a r, read_groups ps a = Some r <-> exists l, Forall2 group_text ps l /\ r = value_from a l.
Proof.
  induction ps as [|p ps IH]; intros a r; cbn [read_groups].
  - split; [intros [= <-]; exists []; split; [constructor|reflexivity]|]. intros (l & F & ->). inversion F. reflexivity.
  - destruct (parse_hextet p) as [g|] eqn:E.
    + rewrite IH. split.
      * intros (l & F & ->). exists (g :: l). split; [constructor; [now apply parse_hextet_iff|exact F]|]. unfold value_from. cbn [fold_left]. f_equal. change (2 ^ 16)%Z with 65536%Z. lia.
      * intros (l & F & ->). inversion F as [|? g' ? l' G F']; subst. apply parse_hextet_iff in G. rewrite E in G. injection G as <-. exists l'. split; [exact F'|].
        unfold value_from. cbn [fold_left]. f_equal. change (2 ^ 16)%Z with 65536%Z. lia.
    + split; [discriminate|]. intros (l & F & _). inversion F as [|? g ? l' G F']; subst. apply parse_hextet_iff in G. congruence.
Qed.

(** ** Parts *)
Lemma join_app (A B : list str) : A <> [] -> B <> [] -> join [58%N] (A ++ B) = join [58%N] A ++ 58%N :: join [58%N] B.
Proof.
  intros NA NB. induction A as [|a A IH]; [congruence|]. destruct A as [|a' A].
  - destruct B as [|b B]; [congruence|]. reflexivity.
  - change (a ++ [58%N] ++ join [58%N] ((a' :: A) ++ B) = (a ++ [58%N] ++ join [58%N] (a' :: A)) ++ 58%N :: join [58%N] B).
    rewrite IH by discriminate. now rewrite <- !app_assoc.
Qed.
Lemma groups_join v ps l : ps <> [] -> Forall2 group_text ps l -> groups_text v (join [58%N] ps) l.
Proof.
  intros NE F. induction F as [|p n ps l G F IH]; [congruence|]. destruct ps as [|q ps].
  - inversion F. apply gs_one, G.
  - change (join [58%N] (p :: q :: ps)) with (p ++ lit ":" ++ join [58%N] (q :: ps)). apply gs_more; [exact G|]. apply IH. discriminate.
Qed.
Lemma split_colon_app s : forall t, split_on 58 (s ++ 58%N :: t) = split_on 58 s ++ split_on 58 t.
Proof.
  intros t. pose proof (join_split_on 58 s) as J. pose proof (split_on_nonempty 58 s) as NE.
  rewrite <- J at 1. pose proof (split_on_notin_all 58 s) as NI. revert NE NI. generalize (split_on 58 s) as ps. clear J.
  induction ps as [|p ps IH]; intros NE NI; [congruence|]. inversion NI as [|? ? N1 N2]; subst. destruct ps as [|q ps].
  - cbn [join app]. rewrite split_on_app by exact N1. reflexivity.
  - change (join [58%N] (p :: q :: ps)) with (p ++ 58%N :: join [58%N] (q :: ps)). rewrite <- app_assoc. cbn [app]. rewrite split_on_app by exact N1. cbn [app]. f_equal. apply IH; [discriminate|exact N2].
Qed.
Lemma groups_false_parts s l : groups_text false s l -> Forall2 group_text (split_on 58 s) l.
Proof.
  induction 1 as [s n G|s n E _|s n t l G _ IH].
  - rewrite split_on_notin by apply (group_plain _ _ G). constructor; [exact G|constructor].
  - discriminate.
  - change (lit ":") with [58%N]. cbn [app]. rewrite split_on_app by apply (group_plain _ _ G). constructor; assumption.
Qed.
Lemma expand_cons p P : P <> [] -> expand (p :: P) = option_map (cons p) (expand P).
Proof.
  intros NE. unfold expand. destruct P as [|q P]; [congruence|]. change (last (p :: q :: P) []) with (last (q :: P) []).
  destruct (has 46 (last (q :: P) [])); [|reflexivity]. destruct (v4_of_text (last (q :: P) [])); reflexivity.
Qed.
Lemma expand_app A : forall B, B <> [] -> expand (A ++ B) = option_map (app A) (expand B).
Proof.
  induction A as [|a A IH]; intros B NE; [cbn [app]; now destruct (expand B)|]. cbn [app]. rewrite expand_cons by (destruct A; [exact NE|discriminate]).
  rewrite IH by exact NE. now destruct (expand B).
Qed.
Lemma has_in c s : has c s = true <-> In c s.
Proof.
  unfold has. rewrite existsb_exists. split; [intros (x & I & E); apply N.eqb_eq in E; now subst|]. intros I. exists c. split; [exact I|apply N.eqb_refl].
Qed.
Lemma has_out c s : ~ In c s -> has c s = false.
Proof. intros H. destruct (has c s) eqn:E; [|reflexivity]. apply has_in in E. tauto. Qed.
Lemma expand_one p : expand [p] = if has 46 p then option_map (fun n => [hextet (n / 65536); hextet (n mod 65536)]) (v4_of_text p) else Some [p].
Proof. unfold expand. cbn [last removelast app]. reflexivity. Qed.
Lemma split_halves n : (0 <= n < 2 ^ 32)%Z -> (0 <= n / 65536 < 65536)%Z /\ (0 <= n mod 65536 < 65536)%Z.
Proof. intros H. Z.div_mod_to_equations. lia. Qed.
Lemma groups_true_parts s l : groups_text true s l -> exists ps, expand (split_on 58 s) = Some ps /\ Forall2 group_text ps l.
Proof.
  induction 1 as [s n G|s n E V|s n t l G _ (ps & E & F)].
  - pose proof (group_plain _ _ G) as (_ & _ & C & D & _). rewrite split_on_notin by exact C. exists [s]. rewrite expand_one, has_out by exact D. split; [reflexivity|]. constructor; [exact G|constructor].
  - pose proof (ipv4_plain _ _ V) as (R & D & C & _). rewrite split_on_notin by exact C. rewrite expand_one. apply has_in in D. rewrite D. apply v4_of_text_iff in V. rewrite V.
    eexists. split; [reflexivity|]. apply split_halves in R as [R1 R2]. constructor; [now apply hextet_group|]. constructor; [now apply hextet_group|constructor].
  - change (lit ":") with [58%N]. cbn [app]. rewrite split_on_app by apply (group_plain _ _ G). rewrite expand_cons by apply split_on_nonempty. rewrite E.
    exists (s :: ps). split; [reflexivity|]. constructor; assumption.
Qed.
Lemma parts_groups_true P : forall ps l, P <> [] -> expand P = Some ps -> Forall2 group_text ps l -> groups_text true (join [58%N] P) l.
Proof.
  induction P as [|p P IH]; intros ps l NE E F; [congruence|]. destruct P as [|q P].
  - rewrite expand_one in E. destruct (has 46 p) eqn:H.
    + destruct (v4_of_text p) as [n|] eqn:V; [|discriminate]. injection E as <-. apply v4_of_text_iff in V. pose proof (ipv4_plain _ _ V) as (R & _). apply split_halves in R as [R1 R2].
      inversion F as [|? a ? l1 G1 F1]; subst. inversion F1 as [|? b ? l2 G2 F2]; subst. inversion F2; subst.
      rewrite <- (group_fun _ _ _ (hextet_group _ R1) G1), <- (group_fun _ _ _ (hextet_group _ R2) G2). now apply gs_v4.
    + injection E as <-. inversion F as [|? a ? l1 G1 F1]; subst. inversion F1; subst. now apply gs_one.
  - rewrite expand_cons in E by discriminate. destruct (expand (q :: P)) as [ps'|] eqn:E'; [|discriminate]. injection E as <-. inversion F as [|? a ? l1 G1 F1]; subst.
    change (join [58%N] (p :: q :: P)) with (p ++ lit ":" ++ join [58%N] (q :: P)). apply gs_more; [exact G1|]. eapply IH; [discriminate|reflexivity|exact F1].
Qed.
Lemma hextet_nonempty n : hextet n <> [].
Proof. apply hex_digits_nonempty. Qed.
Lemma expand_split P : forall A B, P <> [] -> B <> [] -> expand P = Some (A ++ [] :: B) -> exists B0, B0 <> [] /\ P = A ++ [] :: B0 /\ expand B0 = Some B.
Proof.
  induction P as [|p P IH]; intros A B NE NB E; [congruence|]. destruct P as [|q P].
  - exfalso. rewrite expand_one in E. destruct (has 46 p).
    + destruct (v4_of_text p) as [n|]; [|discriminate]. cbn [option_map] in E. assert (X : [hextet (n / 65536); hextet (n mod 65536)] = A ++ [] :: B) by congruence. clear E.
      destruct A as [|a [|a' A]]; cbn [app] in X.
      * assert (hextet (n / 65536) = []) by congruence. now apply hextet_nonempty in H.
      * assert (hextet (n mod 65536) = []) by congruence. now apply hextet_nonempty in H.
      * assert (L : length [hextet (n / 65536); hextet (n mod 65536)] = length (a :: a' :: A ++ [] :: B)) by now rewrite X. cbn [length] in L. rewrite app_length in L. cbn [length] in L. lia.
    + assert (X : [p] = A ++ [] :: B) by congruence. assert (L : length [p] = length (A ++ [] :: B)) by now rewrite X. rewrite app_length in L. destruct B; [congruence|]. cbn [length] in L. lia.
  - rewrite expand_cons in E by discriminate. destruct (expand (q :: P)) as [ps'|] eqn:E'; [|discriminate]. cbn [option_map] in E. destruct A as [|a A].
    + cbn [app] in E. assert (p = [] /\ ps' = B) as [-> ->] by (split; congruence). exists (q :: P). split; [discriminate|]. split; [reflexivity|exact E'].
    + cbn [app] in E. assert (p = a /\ ps' = A ++ [] :: B) as [-> ->] by (split; congruence). destruct (IH A B ltac:(discriminate) NB eq_refl) as (B0 & N0 & EP & EB).
      exists B0. split; [exact N0|]. split; [now rewrite EP|exact EB].
Qed.
Lemma expand_length P ps : P <> [] -> expand P = Some ps -> length P <= length ps <= S (length P).
Proof.
  intros NE. unfold expand. destruct (has 46 (last P [])).
  - destruct (v4_of_text (last P [])); [|discriminate]. cbn [option_map]. intros H.
    assert (E : ps = removelast P ++ [hextet (z / 65536); hextet (z mod 65536)]) by congruence. rewrite E, app_length. cbn [length].
    assert (L : length P = length (removelast P) + 1) by (rewrite (app_removelast_last [] NE) at 1; rewrite app_length; reflexivity). lia.
  - intros [= <-]. lia.
Qed.

(** ** The empty parts *)
Fixpoint gaps (k : nat) (m : list str) : list nat :=
  match m with [] => [] | p :: m => if is_nil p then k :: gaps (S k) m else gaps (S k) m end.
Lemma gaps_filter m : forall pre post, filter (fun i => is_nil (nth i (pre ++ m ++ post) [])) (seq (length pre) (length m)) = gaps (length pre) m.
Proof.
  induction m as [|p m IH]; intros pre post; [reflexivity|]. cbn [length seq filter gaps].
  rewrite app_nth2, Nat.sub_diag by lia. cbn [app nth]. specialize (IH (pre ++ [p]) post). rewrite app_length in IH. cbn [length] in IH. rewrite Nat.add_1_r in IH.
  rewrite <- app_assoc in IH. cbn [app] in IH. rewrite IH. reflexivity.
Qed.
Lemma skips_gaps x m y : skips (x :: m ++ [y]) = gaps 1 m.
Proof.
  unfold skips. cbn [length]. rewrite app_length. cbn [length]. replace (S (length m + 1) - 2) with (length m) by lia. exact (gaps_filter m [x] [y]).
Qed.
Lemma gaps_app a : forall k b, gaps k (a ++ b) = gaps k a ++ gaps (k + length a) b.
Proof.
  induction a as [|p a IH]; intros k b; cbn [app gaps length]; [now rewrite Nat.add_0_r|]. rewrite IH. replace (S k + length a) with (k + S (length a)) by lia. now destruct (is_nil p).
Qed.
Lemma gaps_none k m : Forall (fun p => p <> []) m -> gaps k m = [].
Proof. intros F. revert k. induction F as [|p m H F IH]; intros k; [reflexivity|]. cbn. destruct p; [congruence|]. apply IH. Qed.
Lemma gaps_nil m : forall k, gaps k m = [] -> Forall (fun p => p <> []) m.
Proof. induction m as [|p m IH]; intros k E; [constructor|]. cbn in E. destruct p; [discriminate|]. constructor; [discriminate|exact (IH _ E)]. Qed.
Lemma gaps_one m : forall k i, gaps k m = [i] -> exists a b, m = a ++ [] :: b /\ i = k + length a.
Proof.
  induction m as [|p m IH]; intros k i E; [discriminate|]. cbn in E. destruct p as [|c p].
  - exists [], m. split; [reflexivity|]. cbn in E. injection E as <- _. cbn [length]. lia.
  - destruct (IH _ _ E) as (a & b & -> & ->). exists ((c :: p) :: a), b. split; [reflexivity|]. cbn [length]. lia.
Qed.
Lemma groups_nonempty ps l : Forall2 group_text ps l -> Forall (fun p => p <> []) ps.
Proof. induction 1 as [|p n ps l G F IH]; constructor; [apply (group_plain _ _ G)|exact IH]. Qed.
Lemma ends (P : list str) : 2 <= length P -> exists x m y, P = x :: m ++ [y].
Proof.
  intros L. destruct P as [|x P]; [cbn in L; lia|]. assert (NE : P <> []) by (destruct P; [cbn in L; lia|discriminate]).
  exists x, (removelast P), (last P []). now rewrite <- app_removelast_last.
Qed.
Lemma last_snoc (x : str) m y : last (x :: m ++ [y]) [] = y.
Proof. change (x :: m ++ [y]) with ((x :: m) ++ [y]). apply last_last. Qed.
Lemma value_from_app a b : forall n, value_from n (a ++ b) = value_from (value_from n a) b.
Proof. intros n. apply fold_left_app. Qed.
Lemma value_zeros k : forall n, value_from n (repeat 0%Z k) = (n * 65536 ^ Z.of_nat k)%Z.
Proof.
  induction k as [|k IH]; intros n; [cbn; lia|]. cbn [repeat]. change (value_from n (0%Z :: repeat 0%Z k)) with (value_from (n * 2 ^ 16 + 0) (repeat 0%Z k)).
  rewrite IH, Nat2Z.inj_succ, Z.pow_succ_r by lia. change (2 ^ 16)%Z with 65536%Z. lia.
Qed.
Lemma is_nil_true s : is_nil s = true -> s = [].
Proof. now destruct s. Qed.
Lemma is_nil_false s : is_nil s = false -> s <> [].
Proof. now destruct s. Qed.
Lemma nonempty_is s : s <> [] -> is_nil s = false.
Proof. now destruct s. Qed.

(** ** IPv6 *)
Lemma Forall2_length {A B} {R : A -> B -> Prop} {l m} : Forall2 R l m -> length l = length m.
Proof. induction 1; [reflexivity|]. cbn [length]. congruence. Qed.
(** The parts on one side of "::", and their groups *)
Definition side (ps : list str) (l : list Z) : Prop := (ps = [[]] /\ l = []) \/ (ps <> [] /\ Forall2 group_text ps l).
Lemma side_length ps l : side ps l -> length ps = Nat.max 1 (length l) /\ (l = [] -> ps = [[]]).
Proof.
  intros [[-> ->]|[N F]]; [split; reflexivity|]. pose proof (Forall2_length F) as L. destruct ps; [congruence|]. split; [rewrite <- L; cbn [length]; lia|].
  intros ->. cbn in L. lia.
Qed.
Lemma side_nonempty ps l : side ps l -> ps <> [].
Proof. intros [[-> _]|[N _]]; [discriminate|exact N]. Qed.
Lemma side_hi ps l : side ps l -> exists x a, ps = x :: a /\ Forall (fun p => p <> []) a /\ (is_nil x = true -> a = [] /\ l = []) /\ (is_nil x = false -> length l = S (length a))
  /\ read_groups (firstn (length l) ps) 0 = Some (value_from 0 l).
Proof.
  intros [[-> ->]|[N F]].
  - exists [], []. split; [reflexivity|]. split; [constructor|]. split; [auto|]. split; [discriminate|reflexivity].
  - destruct F as [|x n a l G F]; [congruence|]. exists x, a. split; [reflexivity|]. split; [eapply groups_nonempty; eassumption|]. pose proof (group_plain _ _ G) as (NX & _).
    split; [intros E; apply is_nil_true in E; congruence|]. pose proof (Forall2_length F) as L. split; [intros _; cbn [length]; lia|].
    cbn [length]. rewrite <- L. rewrite firstn_all2 by (cbn [length]; lia). apply read_groups_iff. exists (n :: l). split; [now constructor|reflexivity].
Qed.
Lemma side_lo ps l acc : side ps l -> exists b y, ps = b ++ [y] /\ Forall (fun p => p <> []) b /\ (is_nil y = true -> b = [] /\ l = []) /\ (is_nil y = false -> length l = S (length b))
  /\ read_groups (skipn (length ps - length l) ps) acc = Some (value_from acc l).
Proof.
  intros [[-> ->]|[N F]].
  - exists [], []. split; [reflexivity|]. split; [constructor|]. split; [auto|]. split; [discriminate|reflexivity].
  - pose proof (app_removelast_last [] N) as E. pose proof (Forall2_length F) as L. pose proof (groups_nonempty _ _ F) as NE. exists (removelast ps), (last ps []). split; [exact E|].
    rewrite E in NE. apply Forall_app in NE as [NE1 NE2]. inversion NE2 as [|? ? NY _]; subst. split; [exact NE1|].
    split; [intros X; apply is_nil_true in X; destruct (NY X)|]. assert (LP : length ps = length (removelast ps) + 1) by (rewrite E at 1; now rewrite app_length).
    split; [intros _; lia|]. rewrite L, Nat.sub_diag. cbn [skipn]. apply read_groups_iff. exists l. split; [exact F|reflexivity].
Qed.
Lemma short_value hi k lo : groups_value (hi ++ repeat 0%Z k ++ lo) = value_from (value_from 0 hi * 65536 ^ Z.of_nat k) lo.
Proof. change groups_value with (value_from 0). rewrite !value_from_app, value_zeros. reflexivity. Qed.
Lemma firstn_app_le {A} k (a b : list A) : k <= length a -> firstn k (a ++ b) = firstn k a.
Proof. intros H. rewrite firstn_app. replace (k - length a) with 0 by lia. cbn [firstn]. apply app_nil_r. Qed.
Lemma skipn_app_ge {A} k (a b : list A) : length a <= k -> skipn k (a ++ b) = skipn (k - length a) b.
Proof. intros H. rewrite skipn_app. rewrite skipn_all2 by exact H. reflexivity. Qed.
Lemma v6_of_full s l : groups_text true s l -> length l = 8 -> v6_of_text s = Some (groups_value l).
Proof.
  intros G L. destruct (groups_true_parts _ _ G) as (ps & E & F). unfold v6_of_text. pose proof (split_on_nonempty 58 s) as NE.
  pose proof (expand_length _ _ NE E) as LE. pose proof (Forall2_length F) as LF. destruct (Nat.ltb_spec (length (split_on 58 s)) 3) as [X|X]; [lia|]. rewrite E.
  destruct (Nat.ltb_spec 9 (length ps)) as [Y|Y]; [lia|]. destruct (ends ps ltac:(lia)) as (x & m & y & EP). pose proof (groups_nonempty _ _ F) as NN.
  rewrite EP in NN. inversion NN as [|? ? N1 N2]; subst x0 l0. apply Forall_app in N2 as [N2 N3]. inversion N3 as [|? ? N4 _]; subst x0 l0.
  assert (SK : skips ps = []) by (rewrite EP, skips_gaps; now apply gaps_none). rewrite SK. rewrite LF, L.
  assert (H1 : is_nil (hd [] ps) = false) by (rewrite EP; now apply nonempty_is). assert (H2 : is_nil (last ps []) = false) by (rewrite EP, last_snoc; now apply nonempty_is).
  rewrite H1, H2. cbn [negb Nat.eqb orb]. apply read_groups_iff. exists l. split; [exact F|reflexivity].
Qed.
Ltac slia := unfold str in *; lia.
Lemma short_parts (ps A B : list str) hi lo : ps = A ++ @cons str [] B -> side A hi -> side B lo -> length hi + length lo <= 7 ->
  exists x a b y, ps = x :: (a ++ @cons str [] b) ++ [y] /\ skips ps = [length A] /\ 3 <= length ps <= 9.
Proof.
  intros -> SA SB L. pose proof (side_length _ _ SA) as [LA _]. pose proof (side_length _ _ SB) as [LB _].
  assert (LN : 3 <= length (A ++ @cons str [] B) <= 9) by (rewrite app_length; cbn [length]; slia).
  destruct (side_hi _ _ SA) as (x & a & -> & NA & _). destruct (side_lo _ _ 0%Z SB) as (b & y & -> & NB & _).
  exists x, a, b, y. assert (E : (x :: a) ++ @cons str [] (b ++ [y]) = x :: (a ++ @cons str [] b) ++ [y]) by (cbn [app]; now rewrite <- app_assoc). split; [exact E|]. split.
  - transitivity (skips (x :: (a ++ @cons str [] b) ++ [y])); [f_equal; exact E|]. rewrite skips_gaps, gaps_app. rewrite gaps_none by exact NA. cbn [app gaps is_nil length]. now rewrite gaps_none by exact NB.
  - exact LN.
Qed.
Lemma v6_of_short s t hi lo k : some_groups false s hi -> some_groups true t lo -> 1 <= k -> length hi + k + length lo = 8 ->
  v6_of_text (s ++ lit "::" ++ t) = Some (groups_value (hi ++ repeat 0%Z k ++ lo)).
Proof.
  intros SS T K L. assert (SA : side (split_on 58 s) hi).
  { destruct SS as [[-> ->]|G]; [left; split; reflexivity|]. right. split; [apply split_on_nonempty|]. now apply groups_false_parts. }
  assert (SB : exists B, expand (split_on 58 t) = Some B /\ side B lo).
  { destruct T as [[-> ->]|G]; [exists [[]]; split; [reflexivity|left; split; reflexivity]|]. destruct (groups_true_parts _ _ G) as (ps & E & F). exists ps. split; [exact E|].
    right. split; [|exact F]. pose proof (expand_length _ _ (split_on_nonempty 58 t) E) as LL. intros ->. pose proof (split_on_nonempty 58 t). destruct (split_on 58 t); [congruence|cbn in LL; slia]. }
  destruct SB as (B & EB & SB). change (lit "::") with [58%N; 58%N]. cbn [app].
  assert (EP : split_on 58 (s ++ 58%N :: 58%N :: t) = split_on 58 s ++ @cons str [] (split_on 58 t)).
  { rewrite split_colon_app. reflexivity. }
  unfold v6_of_text. rewrite EP. pose proof (split_on_nonempty 58 s) as NS. pose proof (split_on_nonempty 58 t) as NT.
  destruct (Nat.ltb_spec (length (split_on 58 s ++ @cons str [] (split_on 58 t))) 3) as [X|_].
  { exfalso. rewrite app_length in X. cbn [length] in X. destruct (split_on 58 s), (split_on 58 t); cbn [length] in X; try congruence; slia. }
  change (split_on 58 s ++ @cons str [] (split_on 58 t)) with (split_on 58 s ++ @cons str [] [] ++ split_on 58 t). rewrite !expand_app by (try exact NT; discriminate). rewrite EB. cbn [option_map app].
  set (A := split_on 58 s) in *. destruct (short_parts _ A B hi lo eq_refl SA SB ltac:(slia)) as (x & a & b & y & EQ & SK & LN).
  destruct (Nat.ltb_spec 9 (length (A ++ @cons str [] B))) as [X|_]; [slia|]. rewrite SK.
  pose proof (side_length _ _ SA) as [LA HA]. pose proof (side_length _ _ SB) as [LB HB].
  destruct (side_hi _ _ SA) as (x' & a' & EA & _ & X1 & X2 & RA). assert (HX : is_nil (hd [] (A ++ @cons str [] B)) = is_nil x') by (rewrite EA; reflexivity).
  destruct (side_lo _ _ (value_from 0 hi * 65536 ^ Z.of_nat k)%Z SB) as (b' & y' & EB' & _ & Y1 & Y2 & RB).
  assert (HY : is_nil (last (A ++ @cons str [] B) []) = is_nil y').
  { rewrite EB'. change (A ++ @cons str [] (b' ++ [y'])) with (A ++ (@cons str [] b') ++ [y']). now rewrite app_assoc, last_last. }
  rewrite HX, HY. assert (LL : length (A ++ @cons str [] B) = length A + S (length B)) by now rewrite app_length.
  assert (H1 : (if is_nil x' then length A - 1 else length A) = length hi).
  { destruct (is_nil x'); [destruct (X1 eq_refl) as [_ ->]; rewrite LA; reflexivity|]. rewrite LA. specialize (X2 eq_refl). slia. }
  assert (H2 : (if is_nil y' then length (A ++ @cons str [] B) - length A - 1 - 1 else length (A ++ @cons str [] B) - length A - 1) = length lo).
  { rewrite LL. destruct (is_nil y'); [destruct (Y1 eq_refl) as [_ E]; rewrite E in *; cbn [length] in *; slia|]. specialize (Y2 eq_refl). slia. }
  rewrite H1, H2.
  assert (C1 : (is_nil x' && negb (Nat.eqb (length hi) 0))%bool = false) by (destruct (is_nil x'); [destruct (X1 eq_refl) as [_ E]; rewrite E|]; reflexivity).
  assert (C2 : (is_nil y' && negb (Nat.eqb (length lo) 0))%bool = false) by (destruct (is_nil y'); [destruct (Y1 eq_refl) as [_ E]; rewrite E|]; reflexivity).
  rewrite C1, C2. destruct (Nat.leb_spec 8 (length hi + length lo)) as [X|_]; [slia|].
  rewrite firstn_app_le by slia. rewrite RA. replace (8 - (length hi + length lo)) with k by slia. rewrite short_value, <- RB.
  f_equal. rewrite LL. rewrite skipn_app_ge by slia. replace (length A + S (length B) - length lo - length A) with (S (length B - length lo)) by slia. reflexivity.
Qed.
Lemma v6_of_text_sound s n : v6_of_text s = Some n -> ipv6_text s n.
Proof.
  unfold v6_of_text. pose proof (split_on_nonempty 58 s) as NE. pose proof (join_split_on 58 s) as J. destruct (Nat.ltb_spec (length (split_on 58 s)) 3) as [X|X]; [discriminate|].
  destruct (expand (split_on 58 s)) as [ps|] eqn:E; [|discriminate]. pose proof (expand_length _ _ NE E) as LE. destruct (Nat.ltb_spec 9 (length ps)) as [Y|Y]; [discriminate|].
  destruct (ends ps ltac:(slia)) as (x & m & y & EP). destruct (skips ps) as [|i [|]] eqn:SK; [| |discriminate].
  - destruct (Nat.eqb_spec (length ps) 8) as [L8|]; [|discriminate]. destruct (is_nil (hd [] ps)) eqn:H1; [discriminate|]. destruct (is_nil (last ps [])) eqn:H2; [discriminate|].
    cbn [negb orb]. intros R. apply read_groups_iff in R as (l & F & ->). change (value_from 0 l) with (groups_value l). apply v6_full; [|now rewrite <- (Forall2_length F)].
    rewrite <- J. eapply parts_groups_true; eassumption.
  - rewrite EP, skips_gaps in SK. destruct (gaps_one _ _ _ SK) as (a & b & -> & ->).
    assert (EQ : ps = (x :: a) ++ @cons str [] (b ++ [y])) by (rewrite EP; cbn [app]; now rewrite <- app_assoc).
    assert (H1 : hd [] ps = x) by now rewrite EP. assert (H2 : last ps [] = y) by (rewrite EP; apply last_snoc). rewrite H1, H2. clear H1 H2.
    assert (LL : length ps = length a + length b + 3) by (rewrite EQ, app_length; cbn [length]; rewrite app_length; cbn [length]; slia). rewrite LL.
    destruct (expand_split _ (x :: a) (b ++ [y]) NE ltac:(destruct b; discriminate) ltac:(rewrite E, EQ; reflexivity)) as (B0 & N0 & ES & EB).
    set (hi := if is_nil x then 1 + length a - 1 else 1 + length a). set (lo := if is_nil y then length a + length b + 3 - (1 + length a) - 1 - 1 else length a + length b + 3 - (1 + length a) - 1).
    destruct (is_nil x && negb (Nat.eqb hi 0))%bool eqn:C1; [discriminate|]. destruct (is_nil y && negb (Nat.eqb lo 0))%bool eqn:C2; [discriminate|].
    destruct (Nat.leb_spec 8 (hi + lo)) as [|C3]; [discriminate|]. destruct (read_groups (firstn hi ps) 0) as [va|] eqn:RA; [|discriminate]. intros RB.
    apply read_groups_iff in RA as (lh & FA & ->). apply read_groups_iff in RB as (ll & FB & ->).
    assert (SA : side (x :: a) lh /\ length lh = hi).
    { destruct (is_nil x) eqn:NX; subst hi; cbn [andb] in C1.
      - apply is_nil_true in NX. subst x. apply negb_false_iff, Nat.eqb_eq in C1. assert (a = []) by (destruct a; [reflexivity|cbn [length] in C1; slia]). subst a. cbn in FA. inversion FA. split; [left; split; reflexivity|reflexivity].
      - rewrite EQ, firstn_app_le in FA by (cbn [length]; slia). rewrite firstn_all2 in FA by (cbn [length]; slia). split; [right; split; [discriminate|exact FA]|]. rewrite <- (Forall2_length FA). reflexivity. }
    assert (SB : side (b ++ [y]) ll /\ length ll = lo).
    { destruct (is_nil y) eqn:NY; subst lo; cbn [andb] in C2.
      - apply is_nil_true in NY. subst y. apply negb_false_iff, Nat.eqb_eq in C2. assert (b = []) by (destruct b; [reflexivity|cbn [length] in C2; slia]). subst b. rewrite C2 in FB. rewrite skipn_all2 in FB by slia. inversion FB. split; [left; split; reflexivity|]. rewrite C2. reflexivity.
      - rewrite EQ, skipn_app_ge in FB by (cbn [length]; slia).
        match type of FB with Forall2 _ (skipn ?k _) _ => replace k with 1 in FB by (cbn [length]; slia) end. cbn [skipn] in FB. split; [right; split; [destruct b; discriminate|exact FB]|].
        rewrite <- (Forall2_length FB), app_length. cbn [length]. slia. }
    destruct SA as [SA LA], SB as [SB LB]. rewrite <- short_value. rewrite <- J, ES. rewrite join_app by discriminate. 
    assert (JB : join [58%N] ([] :: B0) = 58%N :: join [58%N] B0) by (destruct B0; [congruence|reflexivity]). rewrite JB.
    change (ipv6_text (join [58%N] (x :: a) ++ lit "::" ++ join [58%N] B0) (groups_value (lh ++ repeat 0%Z (8 - (hi + lo)) ++ ll))).
    apply v6_short; [| |slia|slia].
    + destruct SA as [[EA ->]|[_ F]]; [left; rewrite EA; split; reflexivity|]. right. now apply groups_join.
    + destruct SB as [[EB' ->]|[_ F]]; [|right; eapply parts_groups_true; eassumption]. left. split; [|reflexivity]. rewrite EB' in EB.
      pose proof (expand_length _ _ N0 EB) as L1. destruct B0 as [|q [|]]; [congruence| |cbn [length] in L1; slia]. rewrite expand_one in EB. destruct (has 46 q); [|injection EB as ->; reflexivity].
      destruct (v4_of_text q); discriminate.
Qed.
Lemma v6_of_text_iff s n : v6_of_text s = Some n <-> ipv6_text s n.
Proof.
  split; [apply v6_of_text_sound|]. intros [s' l G L|s' t hi lo k SS T K L]; [now apply v6_of_full|now apply v6_of_short].
Qed.

(** ** Writing *)
Definition zero : str := lit "0".
Definition runs (p : list str) (st : nat * nat * option nat * nat) : Prop :=
  let '(best, best_len, start, len) := st in
  (exists A B, p = A ++ repeat zero best_len ++ B /\ length A = best)
  /\ match start with None => len = 0 | Some k => exists C, p = C ++ repeat zero len /\ length C = k end.
Lemma repeat_snoc {A} (x : A) n : repeat x (S n) = repeat x n ++ [x].
Proof. induction n as [|n IH]; [reflexivity|]. cbn [repeat app]. f_equal. exact IH. Qed.
Lemma run_step_ok p x st : runs p st -> runs (p ++ [x]) (run_step st (length p, x)).
Proof.
  destruct st as [[[best bl] start] len]. intros [(A & B & EA & LA) H]. unfold run_step. change (lit "0") with zero. destruct (str_eqb x zero) eqn:E.
  - apply str_eqb_eq in E. subst x. assert (HS : exists C, p ++ [zero] = C ++ repeat zero (S len) /\ length C = match start with None => length p | Some k => k end).
    { destruct start as [k|].
      - destruct H as (C & EC & LC). exists C. split; [|exact LC]. rewrite EC at 1. rewrite repeat_snoc. now rewrite app_assoc.
      - subst len. exists p. split; reflexivity. }
    destruct (Nat.ltb_spec bl (S len)).
    + split; [|exact HS]. destruct HS as (C & EC & LC). exists C, []. split; [|exact LC]. now rewrite app_nil_r.
    + split; [|exact HS]. exists A, (B ++ [zero]). split; [|exact LA]. rewrite EA at 1. now rewrite !app_assoc.
  - split; [|reflexivity]. exists A, (B ++ [x]). split; [|exact LA]. rewrite EA at 1. now rewrite !app_assoc.
Qed.
Lemma combine_snoc {X Y} (a : list X) (b : list Y) x y : length a = length b -> combine (a ++ [x]) (b ++ [y]) = combine a b ++ [(x, y)].
Proof. revert b. induction a as [|u a IH]; intros [|v b] L; try discriminate; [reflexivity|]. cbn [app combine]. f_equal. apply IH. now injection L. Qed.
Lemma runs_ok l : runs l (fold_left run_step (combine (seq 0 (length l)) l) (0, 0, None, 0)).
Proof.
  induction l as [|x l IH] using rev_ind; [split; [exists [], []; split; reflexivity|reflexivity]|].
  rewrite app_length. cbn [length]. rewrite seq_app. cbn [seq Nat.add]. rewrite combine_snoc by apply seq_length. rewrite fold_left_app. cbn [fold_left]. now apply run_step_ok.
Qed.
Definition or_blank (l : list str) : list str := match l with [] => [[]] | _ => l end.
Lemma compress_ok l : compress l = l \/ exists A k B, 2 <= k /\ l = A ++ repeat zero k ++ B /\ compress l = or_blank A ++ @cons str [] (or_blank B).
Proof.
  unfold compress. pose proof (runs_ok l) as R. destruct (fold_left run_step (combine (seq 0 (length l)) l) (0, 0, None, 0)) as [[[best bl] start] len].
  destruct R as [(A & B & E & LA) _]. destruct (Nat.ltb_spec 1 bl) as [H|H]; [right|left; reflexivity]. exists A, bl, B. split; [lia|]. split; [exact E|].
  assert (LL : length l = best + bl + length B) by (rewrite E, !app_length, repeat_length; lia).
  assert (X : (if best + bl =? length l then l ++ [[]] else l) = A ++ repeat zero bl ++ or_blank B).
  { destruct B as [|b B]; cbn [length] in LL.
    - rewrite LL, Nat.add_0_r, Nat.eqb_refl. cbn [or_blank]. rewrite E. rewrite app_nil_r. now rewrite <- app_assoc.
    - destruct (Nat.eqb_spec (best + bl) (length l)); [lia|]. exact E. }
  rewrite X. assert (F : firstn best (A ++ repeat zero bl ++ or_blank B) = A) by (rewrite firstn_app_le by lia; apply firstn_all2; lia).
  assert (G : skipn (best + bl) (A ++ repeat zero bl ++ or_blank B) = or_blank B).
  { rewrite app_assoc, skipn_app_ge by (rewrite app_length, repeat_length; lia). rewrite app_length, repeat_length. replace (best + bl - (length A + bl)) with 0 by lia. reflexivity. }
  rewrite F, G. destruct A as [|a A]; cbn [length] in LA; subst best; reflexivity.
Qed.
Lemma or_blank_join l : join [58%N] (or_blank l) = join [58%N] l.
Proof. now destruct l. Qed.
Lemma or_blank_some v l gs : Forall2 group_text l gs -> some_groups v (join [58%N] l) gs.
Proof. intros F. destruct l as [|p l]; [inversion F; left; split; reflexivity|]. right. apply groups_join; [discriminate|exact F]. Qed.
Lemma zeros_groups k gs : Forall2 group_text (repeat zero k) gs -> gs = repeat 0%Z k.
Proof.
  revert gs. induction k as [|k IH]; intros gs F; inversion F as [|? g ? gs' G F']; subst; [reflexivity|]. cbn [repeat]. f_equal; [|now apply IH].
  apply parse_hextet_iff in G. injection G as <-. reflexivity.
Qed.
Lemma compress_text l gs : Forall2 group_text l gs -> length l = 8 -> ipv6_text (join [58%N] (compress l)) (groups_value gs).
Proof.
  intros F L. pose proof (Forall2_length F) as LF. destruct (compress_ok l) as [->|(A & k & B & K & E & ->)].
  - apply v6_full; [|congruence]. apply groups_join; [|exact F]. intros ->. discriminate.
  - rewrite E in F. apply Forall2_app_inv_l in F as (ga & gr & FA & FR & ->). apply Forall2_app_inv_l in FR as (gz & gb & FZ & FB & ->). apply zeros_groups in FZ. subst gz.
    rewrite join_app by (try discriminate; destruct A; discriminate).
    assert (JB : join [58%N] (@cons str [] (or_blank B)) = 58%N :: join [58%N] (or_blank B)) by (destruct B; reflexivity). rewrite JB, !or_blank_join.
    change (ipv6_text (join [58%N] A ++ lit "::" ++ join [58%N] B) (groups_value (ga ++ repeat 0%Z k ++ gb))).
    apply v6_short; [now apply or_blank_some|now apply or_blank_some|lia|]. rewrite <- (Forall2_length FA), <- (Forall2_length FB).
    rewrite E, !app_length, repeat_length in L. slia.
Qed.
Lemma div_step n k : (0 <= k)%Z -> (n / 65536 ^ (k + 1) = n / 65536 ^ k / 65536)%Z.
Proof. intros K. rewrite Z.pow_add_r, Z.pow_1_r by lia. symmetry. apply Z.div_div; [|lia]. assert (0 < 65536 ^ k)%Z by (apply Z.pow_pos_nonneg; lia). lia. Qed.
Lemma v6_text_ok n : (0 <= n < 2 ^ 128)%Z -> ipv6_text (v6_text n) n.
Proof.
  intros R. unfold v6_text.
  assert (V : groups_value (map (fun k => n / 65536 ^ k mod 65536) [7; 6; 5; 4; 3; 2; 1; 0])%Z = n).
  { cbn [map]. pose proof (div_step n 0 ltac:(lia)) as Q1. pose proof (div_step n 1 ltac:(lia)) as Q2. pose proof (div_step n 2 ltac:(lia)) as Q3. pose proof (div_step n 3 ltac:(lia)) as Q4.
    pose proof (div_step n 4 ltac:(lia)) as Q5. pose proof (div_step n 5 ltac:(lia)) as Q6. pose proof (div_step n 6 ltac:(lia)) as Q7.
    change (0 + 1)%Z with 1%Z in Q1. change (1 + 1)%Z with 2%Z in Q2. change (2 + 1)%Z with 3%Z in Q3. change (3 + 1)%Z with 4%Z in Q4. change (4 + 1)%Z with 5%Z in Q5. change (5 + 1)%Z with 6%Z in Q6. change (6 + 1)%Z with 7%Z in Q7.
    assert (Q0 : (n / 65536 ^ 0 = n)%Z) by apply Z.div_1_r. rewrite Q0 in *.
    assert (B : (0 <= n / 65536 ^ 7 < 65536)%Z). { split; [apply Z.div_pos; [lia|apply Z.pow_pos_nonneg; lia]|]. apply Z.div_lt_upper_bound; [apply Z.pow_pos_nonneg; lia|]. change (65536 ^ 7 * 65536)%Z with (2 ^ 128)%Z. lia. }
    set (q7 := (n / 65536 ^ 7)%Z) in *. set (q6 := (n / 65536 ^ 6)%Z) in *. set (q5 := (n / 65536 ^ 5)%Z) in *. set (q4 := (n / 65536 ^ 4)%Z) in *.
    set (q3 := (n / 65536 ^ 3)%Z) in *. set (q2 := (n / 65536 ^ 2)%Z) in *. set (q1 := (n / 65536 ^ 1)%Z) in *. clearbody q1 q2 q3 q4 q5 q6 q7.
    unfold groups_value. cbn [fold_left]. change (2 ^ 16)%Z with 65536%Z. rewrite (Z.mod_small q7) by exact B. clear R.
    pose proof (Z.div_mod n 65536 ltac:(lia)). pose proof (Z.div_mod q1 65536 ltac:(lia)). pose proof (Z.div_mod q2 65536 ltac:(lia)). pose proof (Z.div_mod q3 65536 ltac:(lia)).
    pose proof (Z.div_mod q4 65536 ltac:(lia)). pose proof (Z.div_mod q5 65536 ltac:(lia)). pose proof (Z.div_mod q6 65536 ltac:(lia)).
    rewrite <- Q1 in H. rewrite <- Q2 in H0. rewrite <- Q3 in H1. rewrite <- Q4 in H2. rewrite <- Q5 in H3. rewrite <- Q6 in H4. rewrite <- Q7 in H5. clear Q1 Q2 Q3 Q4 Q5 Q6 Q7 Q0 B. lia. }
  assert (G : forall k, group_text (hextet (n / 65536 ^ k mod 65536)) (n / 65536 ^ k mod 65536)%Z) by (intros k; apply hextet_group, Z.mod_pos_bound; lia).
  pose proof (compress_text (map (fun k => hextet (n / 65536 ^ k mod 65536)) [7; 6; 5; 4; 3; 2; 1; 0]%Z) (map (fun k => n / 65536 ^ k mod 65536) [7; 6; 5; 4; 3; 2; 1; 0])%Z) as T.
  rewrite V in T. apply T; [|reflexivity]. clear T V. induction [7; 6; 5; 4; 3; 2; 1; 0]%Z as [|k ks IH]; constructor; [apply G|exact IH].
Qed.

(** ** Addresses *)
Lemma groups_plain v s l : groups_text v s l -> ~ In 47%N s /\ ~ In 37%N s /\ (2 < length l -> In 58%N s).
Proof.
  induction 1 as [s n G|s n _ V|s n t l G _ (I1 & I2 & _)].
  - pose proof (group_plain _ _ G) as (_ & _ & _ & _ & A & B). repeat split; [exact A|exact B|cbn; lia].
  - pose proof (ipv4_plain _ _ V) as (_ & _ & _ & A & B). repeat split; [exact A|exact B|cbn; lia].
  - pose proof (group_plain _ _ G) as (_ & _ & _ & _ & A & B). change (lit ":") with [58%N]. rewrite !in_app_iff. cbn [In]. repeat split; try tauto; intuition discriminate.
Qed.
Lemma some_plain v s l : some_groups v s l -> ~ In 47%N s /\ ~ In 37%N s.
Proof. intros [[-> _]|G]; [split; intros []|]. apply groups_plain in G. tauto. Qed.
Lemma ipv6_plain s n : ipv6_text s n -> ~ In 47%N s /\ ~ In 37%N s /\ In 58%N s.
Proof.
  intros [s' l G L|s' t hi lo k SS T _ _].
  - apply groups_plain in G as (A & B & C). repeat split; [exact A|exact B|]. apply C. lia.
  - apply some_plain in SS as [A B], T as [C D]. change (lit "::") with [58%N; 58%N]. rewrite !in_app_iff. cbn [In]. repeat split; try tauto; intuition discriminate.
Qed.
Lemma value_range l : forall a j, (0 <= a < 2 ^ (16 * j))%Z -> (0 <= j)%Z -> Forall (fun g => 0 <= g < 65536)%Z l -> (0 <= value_from a l < 2 ^ (16 * (j + Z.of_nat (length l))))%Z.
Proof.
  induction l as [|g l IH]; intros a j R J F; [cbn [length value_from fold_left]; rewrite Z.add_0_r; exact R|]. inversion F as [|? ? G F']; subst.
  change (value_from a (g :: l)) with (value_from (a * 2 ^ 16 + g) l). replace (j + Z.of_nat (length (g :: l)))%Z with (j + 1 + Z.of_nat (length l))%Z by (cbn [length]; lia). apply IH; [|lia|exact F'].
  replace (16 * (j + 1))%Z with (16 * j + 16)%Z by lia. rewrite Z.pow_add_r by lia. change (2 ^ 16)%Z with 65536%Z. nia.
Qed.
Lemma groups_range v s l : groups_text v s l -> Forall (fun g => 0 <= g < 65536)%Z l.
Proof.
  induction 1 as [s n G|s n _ V|s n t l G _ IH].
  - constructor; [apply (group_plain _ _ G)|constructor].
  - pose proof (ipv4_plain _ _ V) as (R & _). apply split_halves in R as [R1 R2]. change (2 ^ 16)%Z with 65536%Z. constructor; [exact R1|constructor; [exact R2|constructor]].
  - constructor; [apply (group_plain _ _ G)|exact IH].
Qed.
Lemma ipv6_range s n : ipv6_text s n -> (0 <= n < 2 ^ 128)%Z.
Proof.
  assert (X : forall l, length l = 8 -> Forall (fun g => 0 <= g < 65536)%Z l -> (0 <= groups_value l < 2 ^ 128)%Z).
  { intros l L F. pose proof (value_range l 0%Z 0%Z ltac:(cbn; lia) ltac:(lia) F) as H. rewrite L in H. exact H. }
  assert (Y : forall v s l, some_groups v s l -> Forall (fun g => 0 <= g < 65536)%Z l) by (intros v s' l [[_ ->]|G]; [constructor|eapply groups_range; eassumption]).
  intros [s' l G L|s' t hi lo k SS T K L].
  - apply X; [exact L|]. eapply groups_range; eassumption.
  - apply X; [rewrite !app_length, repeat_length; lia|]. apply Forall_app. split; [eapply Y; eassumption|]. apply Forall_app. split; [|eapply Y; eassumption].
    apply Forall_forall. intros g I. apply repeat_spec in I. subst. lia.
Qed.
Lemma v6_address_iff s n zone : v6_address s = Some (n, zone) <-> ipv6_zoned s n zone.
Proof.
  unfold v6_address, ipv6_zoned. split.
  - pose proof (split1_spec 37 s) as H. destruct (split1 37 s) as [a [z|]].
    + destruct H as [-> NI]. destruct (is_nil z) eqn:Z1; [discriminate|]. destruct (has 37 z) eqn:Z2; [discriminate|]. cbn [orb]. destruct (v6_of_text a) as [m|] eqn:V; [|discriminate]. intros [= <- <-].
      split; [now apply is_nil_false|]. split; [intros I; apply has_in in I; change (chr "%") with 37%N in I; congruence|]. exists a. split; [reflexivity|]. now apply v6_of_text_iff.
    + destruct H as [-> NI]. destruct (v6_of_text a) as [m|] eqn:V; [|discriminate]. intros [= <- <-]. now apply v6_of_text_iff.
  - destruct zone as [z|].
    + intros (NZ & NP & t & -> & V). change (lit "%") with [37%N]. cbn [app]. rewrite split1_app by apply (ipv6_plain _ _ V). rewrite nonempty_is by exact NZ. rewrite has_out by exact NP.
      cbn [orb]. apply v6_of_text_iff in V. now rewrite V.
    + intros V. rewrite split1_none by apply (ipv6_plain _ _ V). apply v6_of_text_iff in V. now rewrite V.
Qed.
Lemma zoned_colon s n zone : ipv6_zoned s n zone -> In 58%N s.
Proof.
  destruct zone as [z|]; cbn.
  - intros (_ & _ & t & -> & V). apply ipv6_plain in V. apply in_app_iff. tauto.
  - intros V. apply ipv6_plain in V. tauto.
Qed.
Lemma ip_v4_iff a n : ip_address a = Some (V4 n) <-> is_ipv4 a n.
Proof.
  destruct a as [s|z]; cbn [ip_address is_ipv4].
  - split.
    + destruct (has 47 s); [discriminate|]. destruct (v4_of_text s) as [m|] eqn:V; [intros [= <-]; now apply v4_of_text_iff|]. destruct (v6_address s); discriminate.
    + intros V. pose proof (ipv4_plain _ _ V) as (_ & _ & _ & H & _). rewrite has_out by exact H. apply v4_of_text_iff in V. now rewrite V.
  - change (2 ^ 32 - 1)%Z with 4294967295%Z. change (2 ^ 128 - 1)%Z with 340282366920938463463374607431768211455%Z. change (2 ^ 32)%Z with 4294967296%Z.
    destruct (Z.ltb_spec z 0), (Z.ltb_spec 4294967295 z); cbn [orb]; (split; [|intros [-> ?]]); try discriminate; try lia; try (destruct (340282366920938463463374607431768211455 <? z)%Z; discriminate); [|reflexivity].
    intros [= ->]. lia.
Qed.
Lemma ip_v6_iff a n zone : ip_address a = Some (V6 n zone) <-> is_ipv6 a n zone /\ forall m, ~ is_ipv4 a m.
Proof.
  split.
  - intros H. split; [|intros m M; apply ip_v4_iff in M; congruence]. destruct a as [s|z]; cbn [ip_address is_ipv6] in *.
    + destruct (has 47 s) eqn:E; [discriminate|]. destruct (v4_of_text s); [discriminate|]. destruct (v6_address s) as [[m z]|] eqn:V; [|discriminate]. injection H as <- <-.
      split; [now apply v6_address_iff|]. intros I. apply has_in in I. change (chr "/") with 47%N in I. congruence.
    + change (2 ^ 128)%Z with 340282366920938463463374607431768211456%Z. change (2 ^ 128 - 1)%Z with 340282366920938463463374607431768211455%Z in H.
      destruct ((z <? 0) || (2 ^ 32 - 1 <? z))%Z%bool; [|discriminate]. destruct (Z.ltb_spec z 0), (Z.ltb_spec 340282366920938463463374607431768211455 z); try discriminate. cbn [orb] in H. injection H as <- <-. repeat split; lia.
  - intros [H N4]. destruct a as [s|z]; cbn [ip_address is_ipv6] in *.
    + destruct H as [H S]. rewrite has_out by exact S. destruct (v4_of_text s) as [m|] eqn:V; [apply v4_of_text_iff in V; destruct (N4 _ V)|]. apply v6_address_iff in H. now rewrite H.
    + destruct H as (-> & -> & R). specialize (N4 z). cbn [is_ipv4] in N4. change (2 ^ 32)%Z with 4294967296%Z in N4. change (2 ^ 128)%Z with 340282366920938463463374607431768211456%Z in R.
      change (2 ^ 32 - 1)%Z with 4294967295%Z. change (2 ^ 128 - 1)%Z with 340282366920938463463374607431768211455%Z.
      destruct (Z.ltb_spec z 0), (Z.ltb_spec 4294967295 z), (Z.ltb_spec 340282366920938463463374607431768211455 z); try lia; cbn [orb]; reflexivity.
Qed.
Lemma ip_range a n : is_ipv4 a n -> (0 <= n < 2 ^ 32)%Z.
Proof. destruct a as [s|z]; cbn [is_ipv4]; [intros V; apply (ipv4_plain _ _ V)|intros [-> R]; exact R]. Qed.
Lemma ip6_range a n zone : is_ipv6 a n zone -> (0 <= n < 2 ^ 128)%Z.
Proof.
  destruct a as [s|z]; cbn [is_ipv6]; [|intros (-> & _ & R); exact R]. intros [V _]. destruct zone as [z|]; cbn [ipv6_zoned] in V; [|now apply ipv6_range in V].
  destruct V as (_ & _ & t & _ & V). now apply ipv6_range in V.
Qed.
Lemma ip_text_v6 a n zone : is_ipv6 a n zone -> ipv6_zoned (ip_text (V6 n zone)) n zone.
Proof.
  intros H. pose proof (v6_text_ok n (ip6_range _ _ _ H)) as T. destruct zone as [z|]; cbn [ip_text ipv6_zoned]; [|now rewrite app_nil_r].
  assert (Z : z <> [] /\ ~ In (chr "%") z) by (destruct a; cbn [is_ipv6 ipv6_zoned] in H; [tauto|destruct H as (_ & X & _); discriminate]). destruct Z as [Z1 Z2].
  split; [exact Z1|]. split; [exact Z2|]. exists (v6_text n). destruct z as [|c z]; [congruence|]. split; [reflexivity|exact T].
Qed.
Lemma is_ipv4_fun a n m : is_ipv4 a n -> is_ipv4 a m -> n = m.
Proof. intros H1 H2. apply ip_v4_iff in H1, H2. congruence. Qed.
Lemma ipv4_fun s n m : ipv4_text s n -> ipv4_text s m -> n = m.
Proof. exact (is_ipv4_fun (IpText s) n m). Qed.
Lemma zoned_fun s n m z w : ipv6_zoned s n z -> ipv6_zoned s m w -> n = m /\ z = w.
Proof. intros H1 H2. apply v6_address_iff in H1, H2. split; congruence. Qed.
Lemma small_text s n zone : is_ipv6 (IpText s) n zone -> forall m, ~ is_ipv4 (IpText s) m.
Proof. intros [H _] m M. apply zoned_colon in H. cbn [is_ipv4] in M. apply ipv4_plain in M. tauto. Qed.
Lemma v6_given a : (exists n zone, ip_address a = Some (V6 n zone)) <-> (exists n zone, is_ipv6 a n zone) /\ forall z, a = IpInt z -> (2 ^ 32 <= z)%Z.
Proof.
  split.
  - intros (n & zone & H). apply ip_v6_iff in H as [H N4]. split; [eauto|]. intros z ->. specialize (N4 z). cbn [is_ipv4] in N4. pose proof (ip6_range _ _ _ H). destruct H as (-> & _). lia.
  - intros [(n & zone & H) Z]. exists n, zone. apply ip_v6_iff. split; [exact H|]. destruct a as [s|z]; [eapply small_text; eassumption|]. intros m [-> R]. specialize (Z z eq_refl). lia.
Qed.
Lemma v4_given a : (exists n, ip_address a = Some (V4 n)) <-> exists n, is_ipv4 a n.
Proof. split; intros (n & H); exists n; now apply ip_v4_iff. Qed.

(** ** The endpoint *)
Lemma groups_ascii v s l : groups_text v s l -> Proof_ZipkinDoc.ascii s.
Proof.
  assert (G0 : forall s n, group_text s n -> Proof_ZipkinDoc.ascii s).
  { intros s' n [H _]. induction H as [c v' H|s' n c v' H IH D]; [constructor; [eapply hexd_ascii; eassumption|constructor]|]. apply ascii_app; [exact IH|]. constructor; [eapply hexd_ascii; eassumption|constructor]. }
  induction 1 as [s n G|s n _ V|s n t l G _ IH]; [eauto| |].
  - destruct V as (a & b & c & d & na & nb & nc & nd & -> & A & B & C & D & _). destruct A as (((_ & A) & _) & _), B as (((_ & B) & _) & _), C as (((_ & C) & _) & _), D as (((_ & D) & _) & _).
    repeat apply ascii_app; try now apply digits_ascii. all: apply asciib_ok; reflexivity.
  - apply ascii_app; [eauto|]. apply ascii_app; [apply asciib_ok; reflexivity|exact IH].
Qed.
Lemma ipv4_ascii s n : ipv4_text s n -> Proof_ZipkinDoc.ascii s.
Proof. intros V. exact (groups_ascii true s _ (gs_v4 true s n eq_refl V)). Qed.
Lemma some_ascii v s l : some_groups v s l -> Proof_ZipkinDoc.ascii s.
Proof. intros [[-> _]|G]; [constructor|eapply groups_ascii; eassumption]. Qed.
Lemma ipv6_ascii s n : ipv6_text s n -> Proof_ZipkinDoc.ascii s.
Proof.
  intros [s' l G _|s' t hi lo k SS T _ _]; [eapply groups_ascii; eassumption|]. apply ascii_app; [eapply some_ascii; eassumption|]. apply ascii_app; [apply asciib_ok; reflexivity|eapply some_ascii; eassumption].
Qed.
Lemma new_endpoint_ok ipv4 ipv6 port attrs service : dget SERVICE_NAME attrs = Some service ->
  match new_endpoint ipv4 ipv6 port attrs with
  | Ok e => accepted ipv4 ipv6 /\ ne_port e = port /\ ne_service e = service
      /\ match ipv4 with None => ne_ipv4 e = None | Some a => exists n, ne_ipv4 e = Some (V4 n) /\ is_ipv4 a n end
      /\ match ipv6 with None => ne_ipv6 e = None | Some a => exists n z, ne_ipv6 e = Some (V6 n z) /\ is_ipv6 a n z end
  | Raises err => err = "ValueError"%string /\ ~ accepted ipv4 ipv6
  end.
Proof.
  intros S. unfold new_endpoint.
  assert (H4 : match set_ipv4 ipv4 with
               | Ok v => (forall a, ipv4 = Some a -> exists n, is_ipv4 a n) /\ match ipv4 with None => v = None | Some a => exists n, v = Some (V4 n) /\ is_ipv4 a n end
               | Raises err => err = "ValueError"%string /\ ~ (forall a, ipv4 = Some a -> exists n, is_ipv4 a n) end).
  { destruct ipv4 as [a|]; cbn [set_ipv4]; [|split; [discriminate|reflexivity]].
    assert (X : (forall n, ip_address a <> Some (V4 n)) -> ~ (forall b, Some a = Some b -> exists n, is_ipv4 b n)).
    { intros N H. destruct (H a eq_refl) as [n I]. apply ip_v4_iff in I. exact (N n I). }
    destruct (ip_address a) as [[n|n z]|] eqn:E; [|split; [reflexivity|apply X; discriminate]..]. apply ip_v4_iff in E. split; [intros b [= <-]; eauto|eauto]. }
  destruct (set_ipv4 ipv4) as [v4|err]; cbn [bind_out]; [|destruct H4 as [-> N]; split; [reflexivity|]; intros [H _]; exact (N H)].
  assert (H6 : match set_ipv6 ipv6 with
               | Ok v => (forall a, ipv6 = Some a -> (exists n z, is_ipv6 a n z) /\ forall z, a = IpInt z -> (2 ^ 32 <= z)%Z) /\ match ipv6 with None => v = None | Some a => exists n z, v = Some (V6 n z) /\ is_ipv6 a n z end
               | Raises err => err = "ValueError"%string /\ ~ (forall a, ipv6 = Some a -> (exists n z, is_ipv6 a n z) /\ forall z, a = IpInt z -> (2 ^ 32 <= z)%Z) end).
  { destruct ipv6 as [a|]; cbn [set_ipv6]; [|split; [discriminate|reflexivity]].
    assert (X : (forall n z, ip_address a <> Some (V6 n z)) -> ~ (forall b, Some a = Some b -> (exists n z, is_ipv6 b n z) /\ forall z, b = IpInt z -> (2 ^ 32 <= z)%Z)).
    { intros N H. specialize (H a eq_refl). apply v6_given in H as (n & z & I). exact (N n z I). }
    destruct (ip_address a) as [[n|n z]|] eqn:E; [split; [reflexivity|apply X; discriminate]| |split; [reflexivity|apply X; discriminate]].
    split; [intros b [= <-]; apply v6_given; eauto|]. apply ip_v6_iff in E as [E _]. eauto. }
  destruct (set_ipv6 ipv6) as [v6|err]; cbn [bind_out]; [|destruct H6 as [-> N]; split; [reflexivity|]; intros [_ H]; exact (N H)].
  rewrite S. cbn [ne_ipv4 ne_ipv6 ne_port ne_service]. destruct H4 as [A4 H4], H6 as [A6 H6]. repeat split; try assumption; apply A6; assumption.
Qed.
Lemma with_service_kept e l : ne_ipv4 (with_service e l) = ne_ipv4 e /\ ne_ipv6 (with_service e l) = ne_ipv6 e /\ ne_port (with_service e l) = ne_port e.
Proof.
  unfold with_service. destruct l as [|s l]; [auto|]. destruct (dget SERVICE_NAME (r_attrs (rs_resource s))) as [v|]; [|auto]. destruct (Model_Span.truthy v); auto.
Qed.
Lemma after_kept bs : forall e, ne_ipv4 (after_batches e bs) = ne_ipv4 e /\ ne_ipv6 (after_batches e bs) = ne_ipv6 e /\ ne_port (after_batches e bs) = ne_port e.
Proof.
  induction bs as [|l bs IH]; intros e; [auto|]. destruct (IH (with_service e l)) as (A & B & C). destruct (with_service_kept e l) as (A' & B' & C'). cbn [after_batches fold_left] in *.
  repeat split; etransitivity; eassumption.
Qed.
Lemma with_service_named e l : named_by_text l -> (unnamed l /\ with_service e l = e) \/ (~ unnamed l /\ exists sub t, service_of l = Some (PStr sub t) /\ unicode t /\ ne_service (with_service e l) = PStr sub t).
Proof.
  intros N. unfold with_service, named_by_text, unnamed, service_of in *. change SERVICE_NAME with (lit "service.name"). destruct l as [|s l]; [left; auto|].
  destruct (dget (lit "service.name") (r_attrs (rs_resource s))) as [v|]; [|left; auto]. destruct (N v eq_refl) as (sub & t & -> & U). destruct t as [|c t]; cbn [Model_Span.truthy].
  - left. split; [right; eauto|reflexivity].
  - right. split; [intros [H|[x H]]; discriminate|]. eauto.
Qed.
Lemma after_service bs : forall e, Forall named_by_text bs -> sent_for (ne_service e) bs (ne_service (after_batches e bs))
  /\ (sayable (fun _ => False) (ne_service e) -> sayable (fun _ => False) (ne_service (after_batches e bs))).
Proof.
  induction bs as [|l bs IH] using rev_ind; intros e F; [split; [constructor; constructor|auto]|]. apply Forall_app in F as [F FL]. inversion FL as [|? ? N _]; subst.
  unfold after_batches. rewrite fold_left_app. cbn [fold_left]. fold (after_batches e bs). destruct (IH e F) as [S W].
  destruct (with_service_named (after_batches e bs) l N) as [[U E]|(U & sub & t & E & UT & ES)].
  - rewrite E. split; [|exact W]. destruct S as [bs FU|bs l' v bs' EV NU FU].
    + apply sf_initial. apply Forall_app. split; [exact FU|]. constructor; [exact U|constructor].
    + rewrite <- app_assoc. cbn [app]. apply sf_batch; [exact EV|exact NU|]. apply Forall_app. split; [exact FU|]. constructor; [exact U|constructor].
  - rewrite ES. split; [|intros _; now apply sy_str]. apply sf_batch; [exact E|exact U|constructor].
Qed.
Lemma sent_for_last initial bs l v w : service_of l = Some v -> ~ unnamed l -> sent_for initial (bs ++ [l]) w -> w = v.
Proof.
  intros E N S. remember (bs ++ [l]) as all eqn:EA. destruct S as [bs0 F|bs0 l' v' bs' EV NU F]; subst.
  - apply Forall_app in F as [_ F]. inversion F. tauto.
  - destruct bs' as [|x bs'] using rev_ind.
    + apply app_inj_tail in EA as [_ ->]. congruence.
    + rewrite app_comm_cons, app_assoc in EA. apply app_inj_tail in EA as [_ ->]. apply Forall_app in F as [_ F]. inversion F. tauto.
Qed.
Lemma endpoint_ok ipv4 ipv6 port attrs service e bs : dget SERVICE_NAME attrs = Some service -> new_endpoint ipv4 ipv6 port attrs = Ok e ->
  unicode_arg ipv6 -> sayable (fun _ => False) service -> Forall named_by_text bs ->
  let f := after_batches e bs in
  sent_for service bs (ne_service f) /\ writable_node (as_node f) /\ forall ep, object_of (endpoint_member (as_node f)) ep -> object_of (endpoint_says ipv4 ipv6 port (ne_service f)) ep.
Proof.
  intros S E U W0 NB f. pose proof (new_endpoint_ok ipv4 ipv6 port attrs service S) as H. rewrite E in H. destruct H as (_ & EP & ES0 & H4 & H6).
  destruct (after_service bs e NB) as [SF W]. rewrite ES0 in SF, W. specialize (W W0). fold f in SF, W. destruct (after_kept bs e) as (K4 & K6 & KP). fold f in K4, K6, KP.
  rewrite <- K4 in H4. rewrite <- K6 in H6. rewrite <- KP in EP. assert (ES : ne_service f = ne_service f) by reflexivity. clearbody f. clear E ES0 K4 K6 KP. split; [exact SF|]. split.
  - split; [cbn [as_node nd_service]; exact W|]. cbn [as_node nd_ipv4 nd_ipv6]. split.
    + intros s X. destruct ipv4 as [a|]; [|rewrite H4 in X; discriminate]. destruct H4 as (n & EN & I). rewrite EN in X. injection X as <-. cbn [ip_text].
      apply ascii_unicode. eapply ipv4_ascii, v4_text_ok, ip_range; eassumption.
    + intros s X. destruct ipv6 as [a|]; [|rewrite H6 in X; discriminate]. destruct H6 as (n & z & EN & I). rewrite EN in X. injection X as <-. cbn [ip_text].
      apply Forall_app. split; [apply ascii_unicode; eapply ipv6_ascii, v6_text_ok, ip6_range; eassumption|]. destruct z as [[|c z]|]; [constructor| |constructor].
      destruct a as [s|k]; [|destruct I as (_ & I & _); discriminate]. specialize (U s eq_refl). destruct I as [(_ & _ & t & -> & _) _]. apply Forall_app in U as [_ U]. exact U.
  - intros ep (l & -> & ND & I1 & I2). exists l. split; [reflexivity|]. split; [exact ND|]. split.
    + intros k v I. destruct (I1 k v I) as [j V|s V|s V|p V]; cbn [as_node nd_service nd_ipv4 nd_ipv6 nd_port] in V.
      * apply es_service. exact V.
      * destruct ipv4 as [a|]; [|rewrite H4 in V; discriminate]. destruct H4 as (n & EN & A). rewrite EN in V. injection V as <-. eapply es_ipv4; [reflexivity|exact A|]. cbn [ip_text]. eapply v4_text_ok, ip_range; eassumption.
      * destruct ipv6 as [a|]; [|rewrite H6 in V; discriminate]. destruct H6 as (n & z & EN & A). rewrite EN in V.
        assert (X : s = ip_text (V6 n z)) by (cbn [option_map] in V; congruence). rewrite X. eapply es_ipv6; [reflexivity|exact A|]. eapply ip_text_v6; eassumption.
      * apply es_port. now rewrite <- EP.
    + intros k v [j V|a n s X A _|a n z s X A _|p X].
      * apply (I2 _ j). apply em_service. exact V.
      * rewrite X in H4. destruct H4 as (m & EN & _). apply (I2 _ (JStr (ip_text (V4 m)))). apply em_ipv4. cbn [as_node nd_ipv4]. now rewrite EN.
      * rewrite X in H6. destruct H6 as (m & w & EN & _). apply (I2 _ (JStr (ip_text (V6 m w)))). apply em_ipv6. cbn [as_node nd_ipv6]. now rewrite EN.
      * apply (I2 _ (JInt p)). apply em_port. cbn [as_node nd_port]. now rewrite EP.
Qed.
