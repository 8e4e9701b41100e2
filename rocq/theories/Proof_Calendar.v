(** Dates and texts of times. *)
From Coq Require Import String List NArith ZArith Bool Lia Znumtheory.
From Verif Require Import Model_Str Model_Span Spec_Times.
Import ListNotations.
Local Open Scope Z_scope.

Lemma divides_mod a y : 0 < a -> (y mod a =? 0) = true <-> (a | y).
Proof. intros H. rewrite Z.eqb_eq. apply Z.mod_divide. lia. Qed.
Lemma is_leap_spec y : is_leap y = true <-> leap_year y.
Proof.
  unfold is_leap, leap_year. rewrite andb_true_iff, orb_true_iff, negb_true_iff, !divides_mod by lia.
  rewrite <- (divides_mod 100) by lia. destruct (y mod 100 =? 0); intuition congruence.
Qed.
Lemma is_leap_not y : is_leap y = false <-> ~ leap_year y.
Proof. rewrite <- is_leap_spec. destruct (is_leap y); intuition congruence. Qed.

Lemma find_year_ok fuel : forall y n d y' d', find_year fuel y d = (y', d') -> new_year y n -> 0 <= d -> d < 365 * (Z.of_nat fuel + 1) ->
  exists n', new_year y' n' /\ n' + d' = n + d /\ 0 <= d' < (if is_leap y' then 366 else 365) /\ y <= y'.
Proof.
  induction fuel as [|fuel IH]; intros y n d y' d' H Hn H0 Hd; cbn [find_year] in H.
  - apply pair_equal_spec in H as [<- <-]. exists n. repeat split; try lia; try assumption. destruct (is_leap y); lia.
  - destruct (Z.ltb_spec d (if is_leap y then 366 else 365)) as [L|L].
    + apply pair_equal_spec in H as [<- <-]. exists n. repeat split; try lia; assumption.
    + assert (Hn' : new_year (y + 1) (n + (if is_leap y then 366 else 365))).
      { destruct (is_leap y) eqn:E; [apply ny_leap; [|now apply is_leap_spec]|apply ny_common; [|now apply is_leap_not]]; assumption. }
      destruct (IH _ _ _ _ _ H Hn') as (n' & A & B & C & D).
      * lia.
      * destruct (is_leap y); lia.
      * exists n'. repeat split; try lia; assumption.
Qed.
Lemma month_has_list y m k : month_has y m k <-> 1 <= m <= 12 /\ nth_error (month_lengths y) (Z.to_nat (m - 1)) = Some k.
Proof.
  assert (T : forall j, In j [1;2;3;4;5;6;7;8;9;10;11;12] <-> 1 <= j <= 12).
  { intros j. cbn [In]. lia. }
  split.
  - intros H. assert (In m [1;2;3;4;5;6;7;8;9;10;11;12]) as Hm.
    { inversion H; subst; cbn [In] in *; tauto. }
    split; [now apply T|].
    destruct H as [H|H|m H|m H]; unfold month_lengths.
    + apply is_leap_not in H. now rewrite H.
    + apply is_leap_spec in H. now rewrite H.
    + cbn [In] in H. repeat (destruct H as [<-|H]; [reflexivity|]). destruct H.
    + cbn [In] in H. repeat (destruct H as [<-|H]; [reflexivity|]). destruct H.
  - intros [Hm H]. apply T in Hm. unfold month_lengths in H.
    cbn [In] in Hm. repeat (destruct Hm as [<-|Hm]; [cbn in H; injection H as <-|]); [..|destruct Hm];
      try (apply mh_31; cbn [In]; tauto); try (apply mh_30; cbn [In]; tauto).
    destruct (is_leap y) eqn:E; [apply mh_feb_leap; now apply is_leap_spec|apply mh_feb_common; now apply is_leap_not].
Qed.
Lemma find_month_ok y : forall l m n d m' d', find_month l m d = (m', d') -> 1 <= m ->
  l = skipn (Z.to_nat (m - 1)) (month_lengths y) -> month_starts y m n -> 0 <= d < fold_right Z.add 0 l ->
  exists n' k, month_starts y m' n' /\ n' + d' = n + d /\ month_has y m' k /\ 0 <= d' < k.
Proof.
  induction l as [|k l IH]; intros m n d m' d' H Hm Hl Hs Hd; cbn [find_month fold_right] in *; [lia|].
  assert (Hk : month_has y m k).
  { apply month_has_list. assert (E : nth_error (month_lengths y) (Z.to_nat (m - 1)) = Some k).
    { rewrite <- (firstn_skipn (Z.to_nat (m - 1)) (month_lengths y)). rewrite <- Hl.
      assert (L : (Z.to_nat (m - 1) <= length (month_lengths y))%nat).
      { destruct (Nat.le_gt_cases (Z.to_nat (m - 1)) (length (month_lengths y))); [assumption|].
        rewrite skipn_all2 in Hl by lia. discriminate. }
      rewrite nth_error_app2; rewrite firstn_length_le by assumption; [|lia]. now rewrite Nat.sub_diag. }
    split; [|exact E]. assert (Z.to_nat (m - 1) < 12)%nat; [|lia].
    change 12%nat with (length (month_lengths y)). apply nth_error_Some. congruence. }
  destruct (Z.ltb_spec d k) as [L|L].
  - apply pair_equal_spec in H as [<- <-]. exists n, k. repeat split; try lia; assumption.
  - destruct (IH _ (n + k) _ _ _ H) as (n' & k' & A & B & C & D).
    + lia.
    + replace (Z.to_nat (m + 1 - 1)) with (S (Z.to_nat (m - 1))) by lia.
      change (S (Z.to_nat (m - 1))) with (1 + Z.to_nat (m - 1))%nat. rewrite Nat.add_comm.
      assert (SK : forall (a b : nat) (L : list Z), skipn (a + b) L = skipn b (skipn a L)).
      { clear. induction a as [|a IH]; intros b L; [reflexivity|]. destruct L; cbn [Nat.add skipn]; [now destruct b|]. apply IH. }
      rewrite SK, <- Hl. reflexivity.
    + now apply ms_next.
    + lia.
    + exists n', k'. repeat split; try lia; assumption.
Qed.

(** ** Digits *)

Lemma pad_length w : forall z, length (pad w z) = w.
Proof. induction w as [|w IH]; intros z; cbn [pad]; [reflexivity|]. rewrite app_length, IH. cbn. lia. Qed.
Lemma pad_digits w z : digits w (pad w z).
Proof.
  split; [apply pad_length|]. revert z. induction w as [|w IH]; intros z; cbn [pad]; [constructor|].
  apply Forall_app. split; [apply IH|]. constructor; [|constructor]. pose proof (Z.mod_pos_bound z 10). lia.
Qed.
Lemma decimal_snoc s c : decimal (s ++ [c]) = 10 * decimal s + (Z.of_N c - 48).
Proof. unfold decimal. now rewrite fold_left_app. Qed.
Lemma decimal_pad w : forall z, 0 <= z < 10 ^ Z.of_nat w -> decimal (pad w z) = z.
Proof.
  induction w as [|w IH]; intros z Hz.
  - change (10 ^ Z.of_nat 0) with 1 in Hz. cbn. lia.
  - cbn [pad]. rewrite decimal_snoc. rewrite Nat2Z.inj_succ, Z.pow_succ_r in Hz by lia. rewrite IH.
    + pose proof (Z.mod_pos_bound z 10). pose proof (Z.div_mod z 10). lia.
    + split; [apply Z.div_pos; lia|]. apply Z.div_lt_upper_bound; lia.
Qed.
Lemma decimal_bound n s : digits n s -> 0 <= decimal s < 10 ^ Z.of_nat n.
Proof.
  revert n. induction s as [|c s IH] using rev_ind; intros n [Hl Hf].
  - cbn in Hl. subst n. cbn. lia.
  - rewrite app_length in Hl. cbn in Hl. apply Forall_app in Hf as [Hf Hc]. inversion Hc; subst.
    rewrite decimal_snoc. specialize (IH (length s) (conj eq_refl Hf)).
    replace (Z.of_nat (length s + 1)) with (Z.succ (Z.of_nat (length s))) by lia. rewrite Z.pow_succ_r by lia. lia.
Qed.

(** ** Writing *)

Theorem utc_text_ok s us text : 0 <= s -> 0 <= us < 10 ^ 6 -> utc_text s us = Ok text -> utc_instant text (s * 10 ^ 6 + us).
Proof.
  intros Hs Hu H. unfold utc_text in H.
  assert (Hd : 0 <= s / 86400) by (apply Z.div_pos; lia).
  destruct (find_year (Z.to_nat (s / 86400 / 365)) 1970 (s / 86400)) as [y yd] eqn:Ey.
  apply (find_year_ok _ _ 0) in Ey as (ny & Hny & Ny & By & Hy); [|constructor|assumption|].
  2:{ rewrite Z2Nat.id by (apply Z.div_pos; lia). pose proof (Z.mod_pos_bound (s / 86400) 365).
      pose proof (Z.div_mod (s / 86400) 365). lia. }
  destruct (find_month (month_lengths y) 1 yd) as [m md] eqn:Em.
  apply (find_month_ok y _ _ ny) in Em as (nm & k & Hm & Nm & Hk & Bm); [|lia|reflexivity|now constructor|].
  2:{ cbn [month_lengths fold_right]. destruct (is_leap y); lia. }
  destruct (Z.ltb_spec 9999 y) as [|Ly]; [discriminate|]. injection H as <-.
  assert (Bm' : 1 <= m <= 12) by now apply month_has_list in Hk.
  assert (Bk : k <= 31) by (inversion Hk; subst; lia).
  pose proof (Z.mod_pos_bound s 86400 ltac:(lia)) as Br. set (r := s mod 86400) in *.
  pose proof (Z.div_mod s 86400 ltac:(lia)) as Es. fold r in Es.
  pose proof (Z.div_mod r 3600 ltac:(lia)) as E1. pose proof (Z.mod_pos_bound r 3600 ltac:(lia)) as B1.
  pose proof (Z.div_mod r 60 ltac:(lia)) as E2. pose proof (Z.mod_pos_bound r 60 ltac:(lia)) as B2.
  pose proof (Z.div_mod (r / 60) 60 ltac:(lia)) as E3. pose proof (Z.mod_pos_bound (r / 60) 60 ltac:(lia)) as B3.
  replace (r / 60 / 60) with (r / 3600) in E3 by (rewrite Z.div_div by lia; reflexivity).
  assert (D1 : 0 <= r / 3600 < 24) by (split; [apply Z.div_pos; lia|apply Z.div_lt_upper_bound; lia]).
  pose proof (ui_text (pad 4 y) (pad 2 m) (pad 2 (md + 1)) (pad 2 (r / 3600)) (pad 2 (r / 60 mod 60)) (pad 2 (r mod 60)) (pad 6 us) (s / 86400)) as U.
  rewrite !decimal_pad in U by (cbn; lia).
  replace (s * 10 ^ 6 + us) with ((((s / 86400 * 24 + r / 3600) * 60 + r / 60 mod 60) * 60 + r mod 60) * 1000000 + us) by lia.
  apply U; try apply pad_digits; try lia.
  exists nm, k. repeat split; try assumption; lia.
Qed.

(** ** Reading *)

Lemma new_year_days y n : new_year y n -> 1970 <= y /\ days_before_year y - days_before_year 1970 = n.
Proof.
  unfold days_before_year.
  assert (S : forall y a, 0 < a -> (y + 1 - 1) / a = (y - 1) / a + (if y mod a =? 0 then 1 else 0)).
  { clear. intros y a Ha. replace (y + 1 - 1) with y by lia.
    pose proof (Z.div_mod y a ltac:(lia)). pose proof (Z.mod_pos_bound y a Ha).
    destruct (Z.eqb_spec (y mod a) 0) as [E|E].
    - replace (y - 1) with ((y / a - 1) * a + (a - 1)) by lia. rewrite Z.div_add_l by lia. rewrite (Z.div_small (a - 1)) by lia. lia.
    - replace (y - 1) with (y / a * a + (y mod a - 1)) by lia. rewrite Z.div_add_l by lia. rewrite (Z.div_small (y mod a - 1)) by lia. lia. }
  assert (M : forall y, (y mod 100 =? 0) = true -> (y mod 4 =? 0) = true).
  { intros z. rewrite !divides_mod by lia. intros [k ->]. exists (k * 25). lia. }
  assert (M' : forall y, (y mod 400 =? 0) = true -> (y mod 100 =? 0) = true).
  { intros z. rewrite !divides_mod by lia. intros [k ->]. exists (k * 4). lia. }
  induction 1 as [|y n H IH L|y n H IH L].
  - split; [lia|]. vm_compute. reflexivity.
  - split; [lia|]. destruct IH as [_ IH]. rewrite !S by lia. apply is_leap_not in L. unfold is_leap in L.
    specialize (M y). specialize (M' y).
    destruct (y mod 4 =? 0), (y mod 100 =? 0), (y mod 400 =? 0); cbn in L; try discriminate L; try lia; now (discriminate (M' eq_refl) || discriminate (M eq_refl)).
  - split; [lia|]. destruct IH as [_ IH]. rewrite !S by lia. apply is_leap_spec in L. unfold is_leap in L.
    specialize (M y). specialize (M' y).
    destruct (y mod 4 =? 0), (y mod 100 =? 0), (y mod 400 =? 0); cbn in L; try discriminate L; try lia; now (discriminate (M' eq_refl) || discriminate (M eq_refl)).
Qed.
Lemma month_starts_days y m n : month_starts y m n -> 1 <= m /\ days_before_year y + days_before_month y m - days_before_year 1970 = n /\ 1970 <= y.
Proof.
  induction 1 as [n H|m n k H IH Hk].
  - apply new_year_days in H. split; [lia|]. unfold days_before_month. cbn [Z.to_nat Z.sub Z.add Z.opp Z.pos_sub firstn fold_right]. lia.
  - destruct IH as (A & B & C). split; [lia|]. split; [|assumption].
    apply month_has_list in Hk as [Bm Hk]. unfold days_before_month in *.
    replace (Z.to_nat (m + 1 - 1)) with (S (Z.to_nat (m - 1))) by lia.
    assert (F : forall (l : list Z) i k, nth_error l i = Some k -> fold_right Z.add 0 (firstn (S i) l) = fold_right Z.add 0 (firstn i l) + k).
    { clear. induction l as [|x l IH]; intros [|i] k H; cbn [nth_error] in H; try discriminate.
      - injection H as ->. cbn. lia.
      - specialize (IH _ _ H). cbn [firstn fold_right] in *. lia. }
    rewrite (F _ _ _ Hk). lia.
Qed.
Lemma date_days y m d n : date y m d n -> ymd_to_ord y m d - ymd_to_ord 1970 1 1 = n /\ 1970 <= y /\ 1 <= m <= 12
  /\ 1 <= d <= nth (Z.to_nat (m - 1)) (month_lengths y) 0.
Proof.
  intros (f & len & Hf & Hl & Hd & ->). apply month_starts_days in Hf as (A & B & C). apply month_has_list in Hl as [Bm Hl].
  unfold ymd_to_ord. change (days_before_month 1970 1) with 0. split; [lia|]. split; [assumption|]. split; [assumption|].
  now rewrite (nth_error_nth _ _ 0 Hl).
Qed.
Lemma digits_value_ok s : Forall (fun c => (48 <= c <= 57)%N) s -> forall acc,
  digits_value s acc = Some (fold_left (fun a c => 10 * a + (Z.of_N c - 48)) s acc).
Proof.
  induction 1 as [|c s Hc H IH]; intros acc; cbn [digits_value fold_left]; [reflexivity|].
  rewrite (proj2 (N.leb_le 48 c)), (proj2 (N.leb_le c 57)) by lia. cbn [andb]. rewrite IH. do 2 f_equal. lia.
Qed.
Lemma take_field_ok n X c r : digits n X -> take_field n c (X ++ c :: r) = Some (decimal X, r).
Proof.
  intros [Hl Hf]. unfold take_field. subst n. rewrite firstn_app, firstn_all, Nat.sub_diag. cbn [firstn]. rewrite app_nil_r.
  rewrite skipn_app, skipn_all, Nat.sub_diag. cbn [skipn app]. rewrite digits_value_ok by assumption.
  rewrite N.eqb_refl, Nat.eqb_refl. reflexivity.
Qed.
Theorem strptime_ok text us : utc_instant text us -> exists s u, strptime text = Some (s, u) /\ us = s * 10 ^ 6 + u /\ 0 <= u < 10 ^ 6.
Proof.
  intros [Y M D h m s f days HY HM HD Hh Hm Hs Hf Hd Bh Bm Bs]. unfold strptime.
  cbn [lit chr app]. change (lit "-") with [45%N]. change (lit "T") with [84%N]. change (lit ":") with [58%N].
  change (lit ".") with [46%N]. change (lit "Z") with [90%N]. cbn [app].
  rewrite !take_field_ok by assumption.
  apply date_days in Hd as (E & B1 & B2 & B3).
  rewrite (proj2 (Z.leb_le 1 (decimal Y))), (proj2 (Z.leb_le 1 (decimal M))), (proj2 (Z.leb_le (decimal M) 12)), (proj2 (Z.leb_le 1 (decimal D))),
    (proj2 (Z.leb_le (decimal D) _)), (proj2 (Z.ltb_lt (decimal h) 24)), (proj2 (Z.ltb_lt (decimal m) 60)), (proj2 (Z.ltb_lt (decimal s) 60)) by lia.
  cbn [andb]. eexists _, _. split; [reflexivity|]. apply decimal_bound in Hf. change (10 ^ Z.of_nat 6) with (10 ^ 6) in Hf. split; [lia|exact Hf].
Qed.
Theorem utc_instant_fun text a b : utc_instant text a -> utc_instant text b -> a = b.
Proof.
  intros A B. apply strptime_ok in A as (s & u & A & -> & _). apply strptime_ok in B as (s' & u' & B & -> & _).
  rewrite A in B. injection B as <- <-. reflexivity.
Qed.
Lemma utc_instant_pos text a : utc_instant text a -> 0 <= a.
Proof.
  intros [Y M D h m s f days HY HM HD Hh Hm Hs Hf Hd Bh Bm Bs].
  apply decimal_bound in Hh, Hm, Hs, Hf. destruct Hd as (first & len & Hf' & _ & Hd & ->).
  assert (P : forall y m n, month_starts y m n -> 0 <= n).
  { assert (P : forall y n, new_year y n -> 0 <= n) by (induction 1; lia).
    induction 1 as [n H|m' n k H IH Hk]; [eauto|]. inversion Hk; subst; lia. }
  specialize (P _ _ _ Hf'). lia.
Qed.
(** Which times have a text *)
Theorem utc_text_ex s us : 0 <= s < 2 ^ 33 -> exists text, utc_text s us = Ok text.
Proof.
  intros Hs. unfold utc_text. assert (Hd : 0 <= s / 86400) by (apply Z.div_pos; lia).
  destruct (find_year (Z.to_nat (s / 86400 / 365)) 1970 (s / 86400)) as [y yd] eqn:Ey.
  destruct (find_month (month_lengths y) 1 yd) as [m md].
  assert (Hy : forall fuel y0 d y' d', find_year fuel y0 d = (y', d') -> y' <= y0 + Z.of_nat fuel).
  { induction fuel as [|fuel IH]; intros y0 d y' d' H; cbn [find_year] in H; [apply pair_equal_spec in H as [<- _]; lia|].
    destruct (d <? _); [apply pair_equal_spec in H as [<- _]; lia|]. apply IH in H. lia. }
  apply Hy in Ey. rewrite Z2Nat.id in Ey by (apply Z.div_pos; lia).
  assert (s / 86400 / 365 <= 300).
  { rewrite Z.div_div by lia. apply Z.lt_succ_r, Z.div_lt_upper_bound; [lia|]. change (86400 * 365 * Z.succ 300) with 9492336000. lia. }
  destruct (Z.ltb_spec 9999 y); [lia|]. eauto.
Qed.
