(** Facts about the circular buckets (Model_ExpHist.v). *)
From Coq Require Import Lia Permutation.
From Verif Require Import Spec_ExpHist.
Local Open Scope Z_scope.

(** ** Lists *)
Lemma add_at_length p d l : length (add_at p d l) = length l.
Proof. revert p. induction l as [|x l IH]; intros [|p]; cbn; auto. Qed.
Lemma nth_add_at p d l q : nth q (add_at p d l) 0 = nth q l 0 + (if Nat.eqb p q && Nat.ltb q (length l) then d else 0).
Proof.
  revert p q. induction l as [|x l IH]; intros p q.
  - cbn. destruct p, q; cbn; try lia; rewrite ?andb_false_r; lia.
  - destruct p as [|p], q as [|q]; cbn [add_at nth length]; try (cbn; lia).
    rewrite IH. cbn [Nat.eqb]. change (S q <? S (length l))%nat with (q <? length l)%nat. reflexivity.
Qed.
Lemma nth_repeat0 n q : nth q (repeat 0 n) 0 = 0.
Proof. revert q. induction n as [|n IH]; intros [|q]; cbn; auto. Qed.
Lemma nth_skipn {X} n (l : list X) q d : nth q (skipn n l) d = nth (n + q) l d.
Proof. revert l. induction n as [|n IH]; intros [|x l]; cbn; auto. now destruct q. Qed.
Lemma nth_firstn {X} n (l : list X) q d : (q < n)%nat -> nth q (firstn n l) d = nth q l d.
Proof. revert l q. induction n as [|n IH]; intros [|x l] [|q] H; cbn; try lia; auto. apply IH. lia. Qed.

Lemma firstn_repeat0 k n : (k <= n)%nat -> firstn k (repeat 0 n) = repeat 0 k.
Proof. revert n. induction k as [|k IH]; intros [|n] H; cbn; try lia; [reflexivity..|]. now rewrite IH by lia. Qed.
Lemma skipn_repeat0 k n : skipn k (repeat 0 n) = repeat 0 (n - k).
Proof. revert n. induction k as [|k IH]; intros [|n]; cbn; auto. Qed.

(** ** Cells: where index [i] is in the backing list; this does not depend on the start. *)
Definition size (b : buckets) : Z := Z.of_nat (length (b_counts b)).
Definition cell (b : buckets) (i : Z) : nat :=
  Z.to_nat (if i <? b_base b then size b + (i - b_base b) else i - b_base b).
Definition wf (b : buckets) : Prop :=
  b_start b <= b_base b <= b_end b
  /\ b_end b - b_start b < size b
  /\ forall i, b_end b < i < b_start b + size b -> nth (cell b i) (b_counts b) 0 = 0.

Lemma size_nonneg b : 0 <= size b. Proof. unfold size. lia. Qed.
Lemma offset_counts b : b_start b <= b_base b <= b_start b + size b ->
  get_offset_counts b
  = skipn (Z.to_nat (size b - (b_base b - b_start b))) (b_counts b)
    ++ firstn (Z.to_nat (size b - (b_base b - b_start b))) (b_counts b).
Proof.
  intros H. unfold get_offset_counts, slice_from, slice_to, pos_of. set (bias := b_base b - b_start b) in *.
  destruct (Z.ltb_spec (- bias) 0).
  - unfold size in *. replace (Z.of_nat (length (b_counts b)) + - bias) with (Z.of_nat (length (b_counts b)) - bias) by lia.
    reflexivity.
  - assert (bias = 0) as -> by lia. cbn [Z.opp Z.to_nat skipn firstn]. rewrite app_nil_r.
    unfold size. rewrite Z.sub_0_r, Nat2Z.id, skipn_all, firstn_all. reflexivity.
Qed.
Lemma offset_counts_length b : b_start b <= b_base b <= b_start b + size b ->
  length (get_offset_counts b) = length (b_counts b).
Proof.
  intros H. rewrite offset_counts by assumption. rewrite app_length, skipn_length, firstn_length. unfold size in *. lia.
Qed.
Lemma offset_counts_nth b j : b_start b <= b_base b <= b_start b + size b -> (j < length (b_counts b))%nat ->
  nth j (get_offset_counts b) 0 = nth (cell b (b_start b + Z.of_nat j)) (b_counts b) 0.
Proof.
  intros H Hj. rewrite offset_counts by assumption. unfold cell. unfold size in *.
  set (bias := b_base b - b_start b) in *. set (n := length (b_counts b)) in *.
  destruct (Z.ltb_spec (b_start b + Z.of_nat j) (b_base b)).
  - rewrite app_nth1 by (rewrite skipn_length; fold n; lia). rewrite nth_skipn. f_equal. lia.
  - rewrite app_nth2 by (rewrite skipn_length; fold n; lia). rewrite skipn_length. fold n.
    rewrite nth_firstn by lia. f_equal. lia.
Qed.
Lemma wf_bias b : wf b -> b_start b <= b_base b <= b_start b + size b.
Proof. intros (H1 & H2 & _). lia. Qed.
Lemma count_at_cell b i : wf b -> b_start b <= i < b_start b + size b -> count_at b i = nth (cell b i) (b_counts b) 0.
Proof.
  intros W H. unfold count_at. destruct (Z.ltb_spec i (b_start b)); [lia|].
  rewrite offset_counts_nth by (try apply wf_bias; auto; unfold size in *; lia). f_equal. f_equal. lia.
Qed.
Lemma count_at_out b i : wf b -> i < b_start b \/ b_end b < i -> count_at b i = 0.
Proof.
  intros W H. unfold count_at. destruct (Z.ltb_spec i (b_start b)); [reflexivity|].
  destruct (Z_lt_le_dec (i - b_start b) (size b)) as [L|L].
  - pose proof (count_at_cell b i W ltac:(lia)) as E. unfold count_at in E.
    destruct (Z.ltb_spec i (b_start b)); [lia|]. rewrite E. apply W. lia.
  - apply nth_overflow. rewrite offset_counts_length by now apply wf_bias. unfold size in *. lia.
Qed.
Lemma cell_lt b i : wf b -> b_start b <= i < b_start b + size b -> (cell b i < length (b_counts b))%nat.
Proof. intros (H1 & H2 & _) H. unfold cell, size in *. destruct (Z.ltb_spec i (b_base b)); lia. Qed.
Lemma cell_inj b i j : wf b -> b_start b <= i < b_start b + size b -> b_start b <= j < b_start b + size b ->
  cell b i = cell b j -> i = j.
Proof.
  intros (H1 & H2 & _) Hi Hj E. unfold cell, size in *.
  destruct (Z.ltb_spec i (b_base b)), (Z.ltb_spec j (b_base b)); lia.
Qed.

(** ** A new bucket list, and the first index *)
Lemma wf_fresh i : wf (B [0] i i i).
Proof. split; [cbn; lia|]. split; [cbn; lia|]. intros j Hj. cbn in Hj. lia. Qed.
Lemma count_at_fresh i j : count_at (B [0] i i i) j = 0.
Proof.
  destruct (Z.eq_dec i j) as [<-|N].
  - rewrite count_at_cell; [|apply wf_fresh|cbn; lia]. unfold cell, size. cbn [b_base b_counts length].
    rewrite Z.ltb_irrefl, Z.sub_diag. reflexivity.
  - apply count_at_out; [apply wf_fresh|]. cbn. lia.
Qed.

(** ** Adding to an index inside the window *)
Lemma add_index_spec b i d : wf b -> b_start b <= i <= b_end b ->
  exists b', add_index b i d = Some b' /\ wf b' /\ size b' = size b /\ b_start b' = b_start b /\ b_end b' = b_end b
    /\ forall j, count_at b' j = count_at b j + (if j =? i then d else 0).
Proof.
  intros W Hi. pose proof W as (H1 & H2 & H3). unfold add_index.
  set (pos := if i - b_base b <? 0 then i - b_base b + Z.of_nat (length (b_counts b)) else i - b_base b).
  assert (P : 0 <= pos < Z.of_nat (length (b_counts b))).
  { unfold pos, size in *. destruct (Z.ltb_spec (i - b_base b) 0); lia. }
  assert (Pc : Z.to_nat pos = cell b i).
  { unfold pos, cell, size in *. f_equal.
    destruct (Z.ltb_spec (i - b_base b) 0), (Z.ltb_spec i (b_base b)); lia. }
  unfold increment_bucket, in_range. destruct (Z.leb_spec (- Z.of_nat (length (b_counts b))) pos); [|lia].
  destruct (Z.ltb_spec pos (Z.of_nat (length (b_counts b)))); [|lia]. cbn [andb].
  set (b' := B _ _ _ _). exists b'.
  assert (Sz : size b' = size b) by (unfold size, b'; cbn; now rewrite add_at_length).
  assert (Cl : forall j, cell b' j = cell b j) by (intros j; unfold cell; rewrite Sz; reflexivity).
  assert (Ct : forall q, nth q (b_counts b') 0
      = nth q (b_counts b) 0 + (if Nat.eqb (cell b i) q && Nat.ltb q (length (b_counts b)) then d else 0)).
  { intros q. unfold b'. cbn [b_counts]. unfold pos_of. destruct (Z.ltb_spec pos 0); [lia|].
    rewrite nth_add_at, Pc. reflexivity. }
  assert (W' : wf b').
  { split; [exact H1|]. split; [rewrite Sz; exact H2|]. intros j Hj. rewrite Sz in Hj. cbn [b' b_end b_start] in Hj.
    rewrite Ct, Cl. destruct (Nat.eqb_spec (cell b i) (cell b j)) as [E|E].
    - apply cell_inj in E; auto; lia.
    - cbn. rewrite H3 by exact Hj. lia. }
  repeat split; auto; try (apply W').
  intros j. destruct (Z_lt_le_dec j (b_start b)) as [Lj|Lj];
    [rewrite !count_at_out by (auto; cbn; lia); destruct (Z.eqb_spec j i); lia|].
  destruct (Z_lt_le_dec j (b_start b + size b)) as [Lj'|Lj'].
  - rewrite !count_at_cell by (auto; try rewrite Sz; cbn [b' b_start]; lia). rewrite Ct, Cl.
    destruct (Nat.ltb_spec (cell b j) (length (b_counts b))) as [Lt|Lt];
      [|pose proof (cell_lt b j W ltac:(lia)); lia]. rewrite andb_true_r.
    destruct (Nat.eqb_spec (cell b i) (cell b j)) as [E|E], (Z.eqb_spec j i) as [E'|E']; try lia.
    + apply cell_inj in E; auto; lia.
    + subst. congruence.
  - rewrite !count_at_out by (auto; cbn; lia). destruct (Z.eqb_spec j i); lia.
Qed.

(** ** Growing *)
Lemma grow_counts b needed max_size : b_start b <= b_base b <= b_start b + size b ->
  let n' := Z.min (2 ^ Z.log2_up needed) max_size in size b <= n' ->
  b_counts (grow b needed max_size)
  = firstn (Z.to_nat (size b - (b_base b - b_start b))) (b_counts b)
    ++ repeat 0 (Z.to_nat (n' - size b))
    ++ skipn (Z.to_nat (size b - (b_base b - b_start b))) (b_counts b).
Proof.
  intros H n' Hn. unfold grow. cbn [b_counts]. fold n'. set (bias := b_base b - b_start b) in *.
  change (Z.of_nat (length (b_counts b))) with (size b).
  unfold slice_to, slice_from, pos_of. rewrite repeat_length.
  destruct (Z.ltb_spec (size b - bias) 0); [lia|]. destruct (Z.ltb_spec (n' - bias) 0); [lia|].
  f_equal. rewrite firstn_repeat0 by lia. rewrite skipn_app, repeat_length, skipn_repeat0.
  replace (Z.to_nat (size b - bias) - Z.to_nat (n' - bias))%nat with 0%nat by lia. cbn [skipn]. f_equal. f_equal. lia.
Qed.
Lemma grow_spec b needed max_size : wf b -> size b < needed <= max_size ->
  let b' := grow b needed max_size in
  wf b' /\ needed <= size b' <= max_size /\ b_base b' = b_base b /\ b_start b' = b_start b /\ b_end b' = b_end b
  /\ forall j, count_at b' j = count_at b j.
Proof.
  intros W Hn b'. pose proof W as (H1 & H2 & H3). pose proof (wf_bias b W) as Hb. pose proof (size_nonneg b) as Hs.
  set (n' := Z.min (2 ^ Z.log2_up needed) max_size).
  assert (needed <= 2 ^ Z.log2_up needed).
  { destruct (Z.eq_dec needed 1) as [->|]; [cbn; lia|]. apply Z.log2_up_spec. lia. }
  assert (Hn' : needed <= n' <= max_size) by lia.
  pose proof (grow_counts b needed max_size Hb) as Ec. cbn zeta in Ec. fold n' b' in Ec.
  specialize (Ec ltac:(lia)). set (opl := Z.to_nat (size b - (b_base b - b_start b))) in *.
  assert (Hopl : (opl <= length (b_counts b))%nat) by (unfold opl, size in *; lia).
  assert (Sz : size b' = n').
  { unfold size at 1. rewrite Ec, !app_length, firstn_length, repeat_length, skipn_length. unfold size in *. lia. }
  assert (Cl : forall i, b_start b <= i < b_start b + size b ->
             nth (cell b' i) (b_counts b') 0 = nth (cell b i) (b_counts b) 0).
  { intros i Hi. unfold cell at 1. rewrite Sz. change (b_base b') with (b_base b). unfold cell. rewrite Ec.
    destruct (Z.ltb_spec i (b_base b)).
    - rewrite app_nth2 by (rewrite firstn_length; unfold size in *; lia).
      rewrite firstn_length, Nat.min_l by exact Hopl.
      rewrite app_nth2 by (rewrite repeat_length; unfold size in *; lia).
      rewrite repeat_length, nth_skipn. f_equal. unfold size in *. lia.
    - rewrite app_nth1 by (rewrite firstn_length; unfold size in *; lia). apply nth_firstn. unfold size in *. lia. }
  assert (Clz : forall i, b_start b + size b <= i < b_start b + n' -> nth (cell b' i) (b_counts b') 0 = 0).
  { intros i Hi. unfold cell. rewrite Sz. change (b_base b') with (b_base b). rewrite Ec.
    destruct (Z.ltb_spec i (b_base b)); [lia|].
    rewrite app_nth2 by (rewrite firstn_length; unfold size in *; lia).
    rewrite app_nth1 by (rewrite firstn_length, repeat_length; unfold size in *; lia). apply nth_repeat0. }
  assert (W' : wf b').
  { split; [exact H1|]. split; [rewrite Sz; cbn [b' grow b_end b_start]; lia|].
    intros i Hi. rewrite Sz in Hi. change (b_end b') with (b_end b) in Hi. change (b_start b') with (b_start b) in Hi.
    destruct (Z_lt_le_dec i (b_start b + size b)); [rewrite Cl by lia; apply H3; lia|apply Clz; lia]. }
  split; [exact W'|]. split; [lia|]. repeat split.
  intros j. destruct (Z_lt_le_dec j (b_start b)) as [L|L]; [now rewrite !count_at_out by (auto; cbn; lia)|].
  destruct (Z_lt_le_dec j (b_start b + size b)) as [L'|L'].
  - rewrite !count_at_cell by (auto; try rewrite Sz; change (b_start b') with (b_start b); lia). apply Cl. lia.
  - now rewrite !count_at_out by (auto; change (b_end b') with (b_end b); lia).
Qed.

(** ** Moving the start or the end over unused cells *)
Lemma move_start b i : wf b -> i <= b_start b -> b_end b - i < size b ->
  let b' := B (b_counts b) (b_base b) i (b_end b) in wf b' /\ forall j, count_at b' j = count_at b j.
Proof.
  intros W Hi Hs b'. pose proof W as (H1 & H2 & H3).
  assert (Cl : forall j, cell b' j = cell b j) by reflexivity.
  assert (Sz : size b' = size b) by reflexivity.
  assert (W' : wf b').
  { split; [cbn; lia|]. split; [rewrite Sz; cbn; lia|]. intros j Hj. rewrite Sz in Hj. cbn [b' b_end b_start] in Hj.
    apply H3. lia. }
  split; [exact W'|]. intros j.
  destruct (Z_lt_le_dec j i) as [L|L]; [now rewrite !count_at_out by (auto; cbn; lia)|].
  destruct (Z_lt_le_dec j (b_start b)) as [L'|L'].
  - rewrite (count_at_out b) by (auto; lia). rewrite count_at_cell by (auto; rewrite Sz; cbn; lia). rewrite Cl.
    cbn [b' b_counts]. transitivity (nth (cell b (j + size b)) (b_counts b) 0); [|apply H3; lia].
    f_equal. unfold cell. destruct (Z.ltb_spec j (b_base b)), (Z.ltb_spec (j + size b) (b_base b)); lia.
  - destruct (Z_le_gt_dec j (b_end b)).
    + rewrite !count_at_cell by (auto; try rewrite Sz; cbn [b' b_start]; lia). reflexivity.
    + now rewrite !count_at_out by (auto; cbn [b' b_end]; lia).
Qed.
Lemma move_end b i : wf b -> b_end b <= i -> i - b_start b < size b ->
  let b' := B (b_counts b) (b_base b) (b_start b) i in wf b' /\ forall j, count_at b' j = count_at b j.
Proof.
  intros W Hi Hs b'. pose proof W as (H1 & H2 & H3).
  assert (Sz : size b' = size b) by reflexivity.
  assert (W' : wf b').
  { split; [cbn; lia|]. split; [rewrite Sz; cbn; lia|]. intros j Hj. rewrite Sz in Hj. cbn [b' b_end b_start] in Hj.
    apply (H3 j). lia. }
  split; [exact W'|]. intros j. reflexivity.
Qed.
(** Lines 786-802: the window now includes [index], and nothing else changed. *)
Lemma make_room_spec b i max_size : wf b -> size b <= max_size -> b_end b - i < max_size -> i - b_start b < max_size ->
  let b' := make_room b i max_size in
  wf b' /\ size b' <= max_size /\ b_start b' = Z.min (b_start b) i /\ b_end b' = Z.max (b_end b) i
  /\ forall j, count_at b' j = count_at b j.
Proof.
  intros W Hs Hl Hh b'. pose proof W as (H1 & H2 & _). unfold b', make_room.
  change (Z.of_nat (length (b_counts b))) with (size b).
  destruct (Z.ltb_spec i (b_start b)).
  - destruct (Z.leb_spec (size b) (b_end b - i)) as [L|L].
    + destruct (grow_spec b (b_end b - i + 1) max_size W ltac:(lia)) as (W1 & S1 & B1 & St1 & E1 & C1).
      set (g := grow b (b_end b - i + 1) max_size) in *.
      destruct (move_start g i W1 ltac:(lia) ltac:(lia)) as (W2 & C2). rewrite E1, B1 in *.
      split; [exact W2|]. split; [change (size g <= max_size); lia|].
      split; [cbn [b_start]; lia|]. split; [cbn [b_end]; lia|].
      intros j. rewrite C2. apply C1.
    + destruct (move_start b i W ltac:(lia) ltac:(lia)) as (W2 & C2).
      split; [exact W2|]. split; [exact Hs|]. split; [cbn [b_start]; lia|]. split; [cbn [b_end]; lia|exact C2].
  - destruct (Z.ltb_spec (b_end b) i).
    + destruct (Z.leb_spec (size b) (i - b_start b)) as [L|L].
      * destruct (grow_spec b (i - b_start b + 1) max_size W ltac:(lia)) as (W1 & S1 & B1 & St1 & E1 & C1).
        set (g := grow b (i - b_start b + 1) max_size) in *.
        destruct (move_end g i W1 ltac:(lia) ltac:(lia)) as (W2 & C2). rewrite St1, B1 in *.
        split; [exact W2|]. split; [change (size g <= max_size); lia|].
      split; [cbn [b_start]; lia|]. split; [cbn [b_end]; lia|].
        intros j. rewrite C2. apply C1.
      * destruct (move_end b i W ltac:(lia) ltac:(lia)) as (W2 & C2).
        split; [exact W2|]. split; [exact Hs|]. split; [cbn [b_start]; lia|]. split; [cbn [b_end]; lia|exact C2].
    + split; [exact W|]. split; [exact Hs|]. split; [lia|]. split; [lia|reflexivity].
Qed.

(** ** Scaling down *)
Lemma pow2_pos k : 0 <= k -> 0 < 2 ^ k.
Proof. intros H. apply Z.pow_pos_nonneg; lia. Qed.
Section Collapse.
Variables (L : list Z) (s k : Z) (sz : nat).
Hypothesis (Hk : 0 <= k) (Hsz : (sz <= length L)%nat).

Definition out (q : nat) : nat := Z.to_nat (Z.shiftr (s + Z.of_nat q) k - Z.shiftr s k).
Definition gsum (p x : nat) : Z := total (map (fun q => if Nat.eqb (out q) x then nth q L 0 else 0) (seq 0 p)).
Lemma total_snoc l x : total (l ++ [x]) = total l + x.
Proof using. clear. unfold total. induction l as [|y l IH]; cbn; lia. Qed.
Lemma gsum_S p x : gsum (S p) x = gsum p x + (if Nat.eqb (out p) x then nth p L 0 else 0).
Proof using. unfold gsum. rewrite seq_S, map_app. cbn [map]. now rewrite total_snoc, Nat.add_0_l. Qed.
Let pow_pos : 0 < 2 ^ k := pow2_pos k Hk.
Lemma out_Z q : Z.of_nat (out q) = (s + Z.of_nat q) / 2 ^ k - s / 2 ^ k.
Proof using Hk. clear Hsz.
  unfold out. rewrite !Z.shiftr_div_pow2 by exact Hk. rewrite Z2Nat.id; [reflexivity|].
  pose proof pow_pos. assert (s / 2 ^ k <= (s + Z.of_nat q) / 2 ^ k) by (apply Z.div_le_mono; lia). lia.
Qed.
Lemma out_0 : out 0 = 0%nat.
Proof using. unfold out. rewrite Z.add_0_r, Z.sub_diag. reflexivity. Qed.
Lemma out_step q : (out q <= out (S q) <= S (out q))%nat.
Proof using Hk. clear Hsz.
  pose proof (out_Z q) as E. pose proof (out_Z (S q)) as E'. pose proof pow_pos as P.
  replace (s + Z.of_nat (S q)) with (s + Z.of_nat q + 1) in E' by lia. set (x := s + Z.of_nat q) in *.
  assert (x / 2 ^ k <= (x + 1) / 2 ^ k) by (apply Z.div_le_mono; lia).
  assert ((x + 1) / 2 ^ k <= x / 2 ^ k + 1).
  { rewrite <- Z.div_add with (b := 1) (c := 2 ^ k) by lia. apply Z.div_le_mono; lia. }
  lia.
Qed.
Lemma out_le q : (out q <= q)%nat.
Proof using Hk. clear Hsz. induction q as [|q IH]; [rewrite out_0; lia|]. pose proof (out_step q). lia. Qed.
Lemma out_same q : (s + Z.of_nat q) mod 2 ^ k + 1 < 2 ^ k -> out (S q) = out q /\ (s + Z.of_nat (S q)) mod 2 ^ k = (s + Z.of_nat q) mod 2 ^ k + 1.
Proof using Hk. clear Hsz.
  intros H. pose proof pow_pos as P. replace (s + Z.of_nat (S q)) with (s + Z.of_nat q + 1) by lia.
  pose proof (out_Z q) as E. pose proof (out_Z (S q)) as E'.
  replace (s + Z.of_nat (S q)) with (s + Z.of_nat q + 1) in E' by lia. set (x := s + Z.of_nat q) in *.
  pose proof (Z.div_mod x (2 ^ k) ltac:(lia)) as D. pose proof (Z.mod_pos_bound x (2 ^ k) P) as M.
  assert (D' : (x + 1) / 2 ^ k = x / 2 ^ k) by (symmetry; apply Z.div_unique with (r := x mod 2 ^ k + 1); lia).
  assert (M' : (x + 1) mod 2 ^ k = x mod 2 ^ k + 1) by (symmetry; apply Z.mod_unique with (q := x / 2 ^ k); lia).
  split; [lia|exact M'].
Qed.
Lemma out_next q : (s + Z.of_nat q) mod 2 ^ k + 1 = 2 ^ k -> out (S q) = S (out q).
Proof using Hk. clear Hsz.
  intros H. pose proof pow_pos as P. pose proof (out_Z q) as E. pose proof (out_Z (S q)) as E'.
  replace (s + Z.of_nat (S q)) with (s + Z.of_nat q + 1) in E' by lia. set (x := s + Z.of_nat q) in *.
  pose proof (Z.div_mod x (2 ^ k) ltac:(lia)) as D.
  assert (D' : (x + 1) / 2 ^ k = x / 2 ^ k + 1) by (symmetry; apply Z.div_unique with (r := 0); lia).
  lia.
Qed.
Lemma gsum_high p x : (p <= x)%nat -> gsum p x = 0.
Proof using Hk L. clear Hsz.
  induction p as [|p IH]; intros H; [reflexivity|]. rewrite gsum_S, IH by lia.
  destruct (Nat.eqb_spec (out p) x) as [E|E]; [pose proof (out_le p); lia|lia].
Qed.

Definition inv (p : nat) (c : list Z) : Prop :=
  length c = length L /\ forall x, nth x c 0 = if Nat.ltb x p then gsum p x else nth x L 0.
Lemma inv_step p c : (p < sz)%nat -> inv p c ->
  inv (S p) (if Z.of_nat (out p) =? Z.of_nat p then c
             else let x := item (Z.of_nat p) c in
                  add_at (Z.to_nat (Z.of_nat p)) (- x) (add_at (Z.to_nat (Z.of_nat (out p))) x c)).
Proof.
  intros Hp (Hl & Hn). pose proof (out_le p) as Ho.
  assert (It : item (Z.of_nat p) c = nth p L 0).
  { unfold item, pos_of. destruct (Z.ltb_spec (Z.of_nat p) 0); [lia|]. rewrite Nat2Z.id, Hn, Nat.ltb_irrefl. reflexivity. }
  cbn zeta. rewrite It, !Nat2Z.id. destruct (Z.eqb_spec (Z.of_nat (out p)) (Z.of_nat p)) as [E|E].
  - assert (out p = p) as Eo by lia. split; [exact Hl|]. intros x. rewrite Hn, gsum_S, Eo.
    destruct (Nat.ltb_spec x p), (Nat.ltb_spec x (S p)), (Nat.eqb_spec p x); try lia.
    subst x. rewrite gsum_high by lia. lia.
  - split; [now rewrite !add_at_length|]. intros x. rewrite !nth_add_at, !add_at_length, Hl, Hn, gsum_S.
    destruct (Nat.ltb_spec x (length L)) as [Lx|Lx]; rewrite ?andb_true_r, ?andb_false_r.
    + destruct (Nat.ltb_spec x p), (Nat.ltb_spec x (S p)), (Nat.eqb_spec (out p) x), (Nat.eqb_spec p x); try lia.
      subst x. rewrite gsum_high by lia. lia.
    + destruct (Nat.ltb_spec x p), (Nat.ltb_spec x (S p)); try lia.
Qed.
Lemma inner_spec fuel : forall p c, inv p c -> (p < sz)%nat -> (sz - p <= fuel)%nat ->
  exists p' c', collapse_inner fuel (2 ^ k) (Z.of_nat sz) ((s + Z.of_nat p) mod 2 ^ k) c (Z.of_nat p) (Z.of_nat (out p)) (s + Z.of_nat p)
    = (c', Z.of_nat p', s + Z.of_nat p') /\ inv p' c' /\ (p < p' <= sz)%nat /\ (p' = sz \/ out p' = S (out p)).
Proof.
  induction fuel as [|f IH]; intros p c I Hp Hf; [lia|]. pose proof pow_pos as P.
  pose proof (Z.mod_pos_bound (s + Z.of_nat p) (2 ^ k) P) as M. cbn [collapse_inner].
  destruct (Z.ltb_spec ((s + Z.of_nat p) mod 2 ^ k) (2 ^ k)); [|lia].
  destruct (Z.ltb_spec (Z.of_nat p) (Z.of_nat sz)); [|lia]. cbn [andb].
  pose proof (inv_step p c Hp I) as I'. set (c1 := if Z.of_nat (out p) =? Z.of_nat p then c else _) in *.
  replace (Z.of_nat p + 1) with (Z.of_nat (S p)) by lia. replace (s + Z.of_nat p + 1) with (s + Z.of_nat (S p)) by lia.
  destruct (Z.eq_dec ((s + Z.of_nat p) mod 2 ^ k + 1) (2 ^ k)) as [E|E].
  - exists (S p), c1. split.
    { rewrite E. destruct f; cbn [collapse_inner]; [reflexivity|]. now rewrite Z.ltb_irrefl. }
    split; [exact I'|]. split; [lia|]. right. now apply out_next.
  - destruct (out_same p ltac:(lia)) as (Eo & Em).
    destruct (Nat.eq_dec (S p) sz) as [Es|Es].
    + exists (S p), c1. split.
      { destruct f; cbn [collapse_inner]; [reflexivity|]. rewrite <- Es, Z.ltb_irrefl, andb_false_r. reflexivity. }
      split; [exact I'|]. split; [lia|]. now left.
    + destruct (IH (S p) c1 I' ltac:(lia) ltac:(lia)) as (p' & c' & Ec & I2 & Hp' & Ho).
      exists p', c'. rewrite Em, Eo in Ec. rewrite Ec. split; [reflexivity|]. split; [exact I2|].
      split; [lia|]. destruct Ho as [->|Ho]; [now left|right; congruence].
Qed.
Lemma collapse_spec fuel : forall p o c, inv p c -> (p <= sz)%nat -> (p < sz -> o = Z.of_nat (out p))%nat -> (sz - p <= fuel)%nat ->
  inv sz (collapse fuel (2 ^ k) (Z.of_nat sz) (s + Z.of_nat sz - 1) c (Z.of_nat p) o (s + Z.of_nat p)).
Proof.
  induction fuel as [|f IH]; intros p o c I Hp Ho Hf; cbn [collapse].
  - replace sz with p by lia. exact I.
  - destruct (Z.leb_spec (s + Z.of_nat p) (s + Z.of_nat sz - 1)).
    + rewrite (Ho ltac:(lia)). destruct (inner_spec (Z.to_nat (Z.of_nat sz)) p c I ltac:(lia) ltac:(lia)) as (p' & c' & E & I' & Hp' & Ho').
      rewrite E. apply IH; [exact I'|lia| |lia]. intros Hlt. destruct Ho' as [->|Ho']; [lia|]. lia.
    + replace sz with p at 1 by lia. exact I.
Qed.
End Collapse.

Lemma rotate_counts b : wf b ->
  (if b_base b - b_start b =? 0 then b_counts b
   else let r := rev (b_counts b) in rev (slice_to (b_base b - b_start b) r) ++ rev (slice_from (b_base b - b_start b) r))
  = get_offset_counts b.
Proof.
  intros W. pose proof (wf_bias b W) as Hb. pose proof W as (H1 & _). rewrite offset_counts by exact Hb.
  set (bias := b_base b - b_start b) in *. destruct (Z.eqb_spec bias 0) as [E|E].
  - unfold size. rewrite E, Z.sub_0_r, Nat2Z.id, skipn_all, firstn_all. reflexivity.
  - cbn zeta. unfold slice_to, slice_from, pos_of. destruct (Z.ltb_spec bias 0); [lia|].
    rewrite firstn_rev, skipn_rev, !rev_involutive.
    replace (Z.to_nat (size b - bias)) with (length (b_counts b) - Z.to_nat bias)%nat by (unfold size in *; lia).
    reflexivity.
Qed.

(** The buckets hold the indexes [l]. *)
Definition rep (b : buckets) (l : list Z) : Prop := forall i, count_at b i = count_in (fun x => x =? i) l.
Lemma count_in_nonneg p l : 0 <= count_in p l. Proof. unfold count_in. lia. Qed.
Lemma count_in_cons p x l : count_in p (x :: l) = (if p x then 1 else 0) + count_in p l.
Proof. unfold count_in. cbn [filter]. destruct (p x); cbn [length]; lia. Qed.
Lemma count_in_In p l x : In x l -> p x = true -> 0 < count_in p l.
Proof. intros Hx Hp. unfold count_in. assert (In x (filter p l)) by (apply filter_In; auto). destruct (filter p l); [contradiction|cbn; lia]. Qed.
Lemma rep_range b l x : wf b -> rep b l -> In x l -> b_start b <= x <= b_end b.
Proof.
  intros W R Hx. pose proof (count_in_In (fun y => y =? x) l x Hx (Z.eqb_refl x)) as P. rewrite <- R in P.
  destruct (Z_lt_le_dec x (b_start b)); [rewrite count_at_out in P by auto; lia|].
  destruct (Z_lt_le_dec (b_end b) x); [rewrite count_at_out in P by auto; lia|lia].
Qed.
Lemma total_map_zero {X} (f : X -> Z) l : (forall x, In x l -> f x = 0) -> total (map f l) = 0.
Proof. induction l as [|x l IH]; intros H; [reflexivity|]. unfold total in *. cbn. rewrite IH, H; cbn; auto. intros; apply H; now right. Qed.
Lemma total_map_add {X} (f g : X -> Z) l : total (map (fun x => f x + g x) l) = total (map f l) + total (map g l).
Proof. unfold total. induction l as [|x l IH]; cbn in *; lia. Qed.
Lemma total_single f m q : (q < m)%nat -> (forall x, x <> q -> f x = 0) -> total (map f (seq 0 m)) = f q.
Proof.
  intros Hq Hf. replace m with (q + S (m - q - 1))%nat by lia. rewrite seq_app, map_app. cbn [seq map].
  unfold total. rewrite fold_right_app. cbn [fold_right]. fold (total (map f (seq (S (0 + q)) (m - q - 1)))).
  rewrite total_map_zero by (intros x Hx; apply in_seq in Hx; apply Hf; lia).
  assert (H : forall a l, fold_right Z.add a l = a + total l).
  { intros a l. unfold total. induction l; cbn; lia. }
  rewrite H, total_map_zero; [rewrite Nat.add_0_l; lia|]. intros x Hx. apply in_seq in Hx. apply Hf. lia.
Qed.
(** Summing the counts of the merged indexes counts the merged list. *)
Lemma regroup l s k sz j : (forall x, In x l -> s <= x < s + Z.of_nat sz) ->
  total (map (fun q => if Z.shiftr (s + Z.of_nat q) k =? j then count_in (fun x => x =? s + Z.of_nat q) l else 0) (seq 0 sz))
  = count_in (fun x => x =? j) (map (fun i => Z.shiftr i k) l).
Proof.
  induction l as [|y l IH]; intros H.
  - cbn [map]. rewrite total_map_zero; [reflexivity|]. intros q _. destruct (_ =? j); reflexivity.
  - cbn [map]. rewrite count_in_cons, <- IH by (intros; apply H; now right).
    rewrite (map_ext _ (fun q => (if Z.shiftr (s + Z.of_nat q) k =? j then if y =? s + Z.of_nat q then 1 else 0 else 0)
                          + (if Z.shiftr (s + Z.of_nat q) k =? j then count_in (fun x => x =? s + Z.of_nat q) l else 0))).
    2:{ intros q. rewrite count_in_cons. destruct (_ =? j); lia. }
    rewrite total_map_add. f_equal. pose proof (H y (or_introl eq_refl)) as Hy.
    rewrite total_single with (q := Z.to_nat (y - s)); [|lia|].
    + replace (s + Z.of_nat (Z.to_nat (y - s))) with y by lia. rewrite Z.eqb_refl. destruct (_ =? j); reflexivity.
    + intros q Hq. destruct (_ =? j); [|reflexivity]. destruct (Z.eqb_spec y (s + Z.of_nat q)); [lia|reflexivity].
Qed.

Lemma downscale_spec b k l : wf b -> 0 <= k -> rep b l ->
  let b' := downscale b k in
  wf b' /\ size b' = size b /\ b_start b' = Z.shiftr (b_start b) k /\ b_end b' = Z.shiftr (b_end b) k
  /\ rep b' (map (fun i => Z.shiftr i k) l).
Proof.
  intros W Hk R b'. pose proof W as (H1 & H2 & H3). set (L := get_offset_counts b).
  pose proof (wf_bias b W) as Hb. pose proof (offset_counts_length b Hb) as HL. fold L in HL.
  set (sz := Z.to_nat (1 + b_end b - b_start b)).
  assert (Hsz : (sz <= length L)%nat) by (rewrite HL; unfold sz, size in *; lia).
  assert (I : inv L (b_start b) k sz (b_counts b')).
  { unfold b', downscale. cbn [b_counts]. rewrite rotate_counts by exact W. fold L.
    rewrite Z.shiftl_mul_pow2, Z.mul_1_l by exact Hk.
    replace (1 + b_end b - b_start b) with (Z.of_nat sz) by (unfold sz; lia).
    replace (Z.to_nat (Z.of_nat sz)) with sz by lia.
    pose proof (collapse_spec L (b_start b) k sz Hk Hsz sz 0 0 L) as C.
    replace (b_start b + Z.of_nat sz - 1) with (b_end b) in C by (unfold sz; lia).
    rewrite Z.add_0_r in C. apply C; try lia.
    - split; [reflexivity|]. intros x. reflexivity.
    - intros _. rewrite out_0. reflexivity. }
  destruct I as (Hl & Hn).
  assert (Sz : size b' = size b) by (unfold size; rewrite Hl, HL; reflexivity).
  assert (M : Z.shiftr (b_start b) k <= Z.shiftr (b_end b) k).
  { rewrite !Z.shiftr_div_pow2 by exact Hk. apply Z.div_le_mono; [apply pow2_pos; exact Hk|lia]. }
  assert (D : Z.shiftr (b_end b) k - Z.shiftr (b_start b) k <= b_end b - b_start b).
  { pose proof (out_le (b_start b) k Hk (Z.to_nat (b_end b - b_start b))) as O. unfold out in O.
    replace (b_start b + Z.of_nat (Z.to_nat (b_end b - b_start b))) with (b_end b) in O by lia. lia. }
  assert (Lz : forall x, (sz <= x)%nat -> nth x L 0 = 0).
  { intros x Hx. destruct (Nat.lt_ge_cases x (length L)) as [Lt|Ge]; [|now apply nth_overflow].
    unfold L. rewrite offset_counts_nth by (auto; congruence). apply H3. rewrite HL in Lt. unfold sz, size in *. lia. }
  assert (Nth : forall x, nth x (b_counts b') 0 = gsum L (b_start b) k sz x).
  { intros x. rewrite Hn. destruct (Nat.ltb_spec x sz) as [Lt|Ge]; [reflexivity|].
    rewrite Lz by exact Ge. symmetry. apply gsum_high; auto. }
  assert (Cl : forall i, Z.shiftr (b_start b) k <= i -> cell b' i = Z.to_nat (i - Z.shiftr (b_start b) k)).
  { intros i Hi. unfold cell. cbn [b' downscale b_base]. destruct (Z.ltb_spec i (Z.shiftr (b_start b) k)); [lia|reflexivity]. }
  assert (W' : wf b').
  { split; [cbn [b' downscale b_base b_start b_end]; lia|]. split; [rewrite Sz; cbn [b' downscale b_start b_end]; lia|].
    intros i Hi. cbn [b' downscale b_start b_end] in Hi. rewrite Cl by lia. rewrite Nth. unfold gsum.
    apply total_map_zero. intros q Hq. apply in_seq in Hq.
    destruct (Nat.eqb_spec (out (b_start b) k q) (Z.to_nat (i - Z.shiftr (b_start b) k))) as [E|E]; [|reflexivity].
    exfalso. unfold out in E.
    assert (Z.shiftr (b_start b + Z.of_nat q) k <= Z.shiftr (b_end b) k).
    { rewrite !Z.shiftr_div_pow2 by exact Hk. apply Z.div_le_mono; [apply pow2_pos; exact Hk|]. unfold sz in Hq. lia. }
    lia. }
  split; [exact W'|]. split; [exact Sz|]. split; [reflexivity|]. split; [reflexivity|].
  assert (Hr : forall x, In x l -> b_start b <= x < b_start b + Z.of_nat sz).
  { intros x Hx. pose proof (rep_range b l x W R Hx). unfold sz. lia. }
  intros j. rewrite <- (regroup l (b_start b) k sz j Hr).
  assert (Term : forall q, (q < sz)%nat -> count_in (fun x => x =? b_start b + Z.of_nat q) l = nth q L 0).
  { intros q Hq. rewrite <- R. rewrite count_at_cell by (auto; unfold sz, size in *; lia). unfold L.
    rewrite offset_counts_nth by (auto; rewrite <- HL; lia). reflexivity. }
  rewrite (map_ext_in _ (fun q => if Z.shiftr (b_start b + Z.of_nat q) k =? j then nth q L 0 else 0)).
  2:{ intros q Hq. apply in_seq in Hq. rewrite Term by lia. reflexivity. }
  destruct (Z_lt_le_dec j (Z.shiftr (b_start b) k)) as [Lt|Ge].
  - rewrite count_at_out by (auto; cbn [b' downscale b_start]; lia). symmetry. apply total_map_zero. intros q Hq.
    destruct (Z.eqb_spec (Z.shiftr (b_start b + Z.of_nat q) k) j) as [E|E]; [|reflexivity]. exfalso.
    assert (Z.shiftr (b_start b) k <= Z.shiftr (b_start b + Z.of_nat q) k).
    { rewrite !Z.shiftr_div_pow2 by exact Hk. apply Z.div_le_mono; [apply pow2_pos; exact Hk|lia]. }
    lia.
  - assert (Eq : count_at b' j = nth (Z.to_nat (j - Z.shiftr (b_start b) k)) (b_counts b') 0).
    { destruct (Z_lt_le_dec (j - Z.shiftr (b_start b) k) (size b')) as [Lt|Ge'].
      - rewrite count_at_cell by (auto; cbn [b' downscale b_start]; lia). now rewrite Cl.
      - rewrite count_at_out by (auto; cbn [b' downscale b_end]; lia). symmetry. apply nth_overflow. unfold size in Ge'. lia. }
    rewrite Eq, Nth. unfold gsum. f_equal. apply map_ext_in. intros q Hq.
    assert (Z.shiftr (b_start b) k <= Z.shiftr (b_start b + Z.of_nat q) k).
    { rewrite !Z.shiftr_div_pow2 by exact Hk. apply Z.div_le_mono; [apply pow2_pos; exact Hk|lia]. }
    unfold out. destruct (Nat.eqb_spec (Z.to_nat (Z.shiftr (b_start b + Z.of_nat q) k - Z.shiftr (b_start b) k))
                        (Z.to_nat (j - Z.shiftr (b_start b) k))), (Z.eqb_spec (Z.shiftr (b_start b + Z.of_nat q) k) j);
      try reflexivity; lia.
Qed.
