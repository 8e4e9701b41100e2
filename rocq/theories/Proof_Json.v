(** JSON: what is written is in the grammar, and what is in the grammar is read as what it stands for. *)
From Verif Require Import Spec_Json Proof_Dict.
From Coq Require Import Lia ZifyBool ZifyN.
Ltac Zify.zify_post_hook ::= Z.to_euclidean_division_equations.

Fixpoint jv_rect' (P : jv -> Prop) (H0 : P JNull) (H1 : forall b, P (JBool b)) (H2 : forall z, P (JInt z)) (H3 : forall f, P (JFloat f))
    (H4 : forall s, P (JStr s)) (H5 : forall l, Forall P l -> P (JArr l)) (H6 : forall l, Forall (fun kv => P (snd kv)) l -> P (JObj l)) (j : jv) : P j :=
  let rec := jv_rect' P H0 H1 H2 H3 H4 H5 H6 in
  match j with
  | JNull => H0 | JBool b => H1 b | JInt z => H2 z | JFloat f => H3 f | JStr s => H4 s
  | JArr l => H5 l ((fix go l : Forall P l := match l with [] => Forall_nil _ | x :: l' => Forall_cons _ (rec x) (go l') end) l)
  | JObj l => H6 l ((fix go l : Forall (fun kv => P (snd kv)) l :=
                       match l with [] => Forall_nil _ | kv :: l' => Forall_cons _ (rec (snd kv)) (go l') end) l)
  end.

(** ** Characters *)
Lemma digit_iff c : digit c <-> (48 <= c <= 57)%N.
Proof.
  unfold digit. cbn. split; [intuition lia|]. intro H.
  assert (E : (c = 48 \/ c = 49 \/ c = 50 \/ c = 51 \/ c = 52 \/ c = 53 \/ c = 54 \/ c = 55 \/ c = 56 \/ c = 57)%N) by lia. intuition idtac; subst; auto 20.
Qed.
Lemma digit_is c : is_digit c = true <-> digit c.
Proof. rewrite digit_iff. unfold is_digit, in_range. lia. Qed.
Definition hex_values : list (N * N) :=
  combine (lit "0123456789abcdefABCDEF") [0; 1; 2; 3; 4; 5; 6; 7; 8; 9; 10; 11; 12; 13; 14; 15; 10; 11; 12; 13; 14; 15]%N.
Lemma hexd_val c v : hexd c v -> is_hex c = true /\ hex_val c = v.
Proof.
  intro H. assert (A : forallb (fun cv => is_hex (fst cv) && N.eqb (hex_val (fst cv)) (snd cv)) hex_values = true) by (vm_compute; reflexivity).
  rewrite forallb_forall in A. specialize (A (c, v) H). cbn [fst snd] in A. apply andb_true_iff in A as [A1 A2]. apply N.eqb_eq in A2. now split.
Qed.
Lemma hexd_char d : (d < 16)%N -> hexd (hex_char d) d.
Proof.
  intro B. assert (A : forallb (fun n => existsb (fun cv => N.eqb (fst cv) (hex_char n) && N.eqb (snd cv) n) hex_values) (map N.of_nat (seq 0 16)) = true)
    by (vm_compute; reflexivity).
  rewrite forallb_forall in A. specialize (A d). destruct (existsb_exists (fun cv => N.eqb (fst cv) (hex_char d) && N.eqb (snd cv) d) hex_values) as [E _].
  destruct E as ([c v] & I & Ex).
  { apply A. apply in_map_iff. exists (N.to_nat d). split; [apply N2Nat.id|]. apply in_seq. lia. }
  cbn [fst snd] in Ex. apply andb_true_iff in Ex as [E1 E2]. apply N.eqb_eq in E1, E2. subst. exact I.
Qed.
Lemma u_escape_text v : (v < 65536)%N -> u_text (u_escape v) v.
Proof.
  intro B. unfold u_escape. do 4 eexists. exists (v / 4096)%N, (v / 256 mod 16)%N, (v / 16 mod 16)%N, (v mod 16)%N.
  split; [reflexivity|]. repeat split; try (apply hexd_char); lia.
Qed.
Lemma u_text_app u v u' v' s s' : u_text u v -> u_text u' v' -> u ++ s = u' ++ s' -> v = v' /\ s = s'.
Proof.
  intros (a & b & c & d & w & x & y & z & -> & A & B & C & D & ->) (a' & b' & c' & d' & w' & x' & y' & z' & -> & A' & B' & C' & D' & ->) E.
  cbn [app lit] in E. injection E as -> -> -> -> ->. split; [|reflexivity].
  apply hexd_val in A as [_ <-], B as [_ <-], C as [_ <-], D as [_ <-], A' as [_ <-], B' as [_ <-], C' as [_ <-], D' as [_ <-]. reflexivity.
Qed.
Lemma u_text_head u v : u_text u v -> exists r, u = 92%N :: 117%N :: r.
Proof. intros (a & b & c & d & w & x & y & z & -> & _). eexists. reflexivity. Qed.

Lemma esc_char_cases c : (c <= 1114111)%N ->
  (exists e, In (e, c) escapes /\ esc_char c = [chr "\"; e])
  \/ ((32 <= c)%N /\ c <> 34%N /\ c <> chr "\" /\ esc_char c = [c])
  \/ ((c < 65536)%N /\ esc_char c = u_escape c)
  \/ ((65536 <= c)%N /\ exists v v', esc_char c = u_escape v ++ u_escape v' /\ high v /\ low v' /\ c = (65536 + (v - 55296) * 1024 + (v' - 56320))%N).
Proof.
  intro B. unfold esc_char.
  destruct (N.eqb_spec c 34) as [->|N1]; [left; exists 34%N; split; [cbn; auto 10|reflexivity]|].
  destruct (N.eqb_spec c 92) as [->|N2]; [left; exists 92%N; split; [cbn; auto 10|reflexivity]|].
  destruct (N.eqb_spec c 10) as [->|_]; [left; exists (chr "n"); split; [cbn; auto 10|reflexivity]|].
  destruct (N.eqb_spec c 13) as [->|_]; [left; exists (chr "r"); split; [cbn; auto 10|reflexivity]|].
  destruct (N.eqb_spec c 9) as [->|_]; [left; exists (chr "t"); split; [cbn; auto 10|reflexivity]|].
  destruct (N.eqb_spec c 12) as [->|_]; [left; exists (chr "f"); split; [cbn; auto 10|reflexivity]|].
  destruct (N.eqb_spec c 8) as [->|_]; [left; exists (chr "b"); split; [cbn; auto 10|reflexivity]|].
  destruct (in_range 32 126 c) eqn:R.
  { right. left. unfold in_range in R. split; [lia|]. split; [exact N1|]. split; [exact N2|reflexivity]. }
  destruct (N.ltb_spec c 65536) as [L|L]; [right; right; left; split; [exact L|reflexivity]|].
  right. right. right. split; [exact L|]. eexists. eexists. split; [reflexivity|].
  unfold high, low. set (n := (c - 65536)%N). assert (n < 1048576)%N as Hn by (unfold n; lia). repeat split; lia.
Qed.
(** The text of a string is in the grammar. *)
Lemma chars_written (python : bool) s : (if python then unpaired s else unicode s) -> chars python (flat_map esc_char s) s.
Proof.
  induction s as [|c s IH]; intro U; [constructor|].
  assert (B : (c <= 1114111)%N).
  { destruct python; [destruct U as [U _]|]; apply Forall_cons_iff in U as [U _]; [exact U|apply U]. }
  assert (IH' : chars python (flat_map esc_char s) s).
  { apply IH. destruct python.
    - destruct U as [U1 U2]. apply Forall_cons_iff in U1 as [_ U1]. split; [exact U1|]. intros a h l b E. apply (U2 (c :: a) h l b). cbn. now rewrite E.
    - now apply Forall_cons_iff in U as [_ U]. }
  cbn [flat_map]. destruct (esc_char_cases c B) as [(e & I & ->)|[(L & N1 & N2 & ->)|[(L & ->)|(L & v & v' & -> & Hv & Lv & E)]]].
  - apply ch_escape; assumption.
  - apply ch_plain; assumption.
  - destruct python eqn:P.
    + destruct (N.leb_spec 55296 c) as [G|G]; [|apply ch_unit; [now apply u_escape_text| | |exact IH']; unfold high, low; lia].
      destruct (N.leb_spec c 57343) as [G'|G']; [|apply ch_unit; [now apply u_escape_text| | |exact IH']; unfold high, low; lia].
      apply ch_lone; [reflexivity|now apply u_escape_text| |exact IH'].
      destruct (N.leb_spec c 56319) as [G2|G2]; [left|right; unfold low; lia]. split; [unfold high; lia|].
      intros u' v' s' E T Lw. destruct s as [|c' s].
      { cbn [flat_map] in E. destruct (u_text_head _ _ T) as [r ->]. discriminate. }
      destruct U as [U1 U2]. apply Forall_cons_iff in U1 as [_ U1]. apply Forall_cons_iff in U1 as [B' _]. cbn [flat_map] in E.
      destruct (u_text_head _ _ T) as [r Er].
      destruct (esc_char_cases c' B') as [(e & I & E')|[(_ & _ & N2 & E')|[(L' & E')|(L' & w & w' & E' & Hw & _ & _)]]]; rewrite E' in E.
      * rewrite Er in E. cbn [app] in E. injection E as Ee _. subst e. cbn in I. intuition congruence.
      * rewrite Er in E. cbn [app] in E. injection E as Ee _. now apply N2.
      * apply (u_text_app _ _ _ _ _ _ (u_escape_text c' L') T) in E as [<- _]. now apply (U2 [] c c' s eq_refl); [unfold high; lia|].
      * rewrite <- app_assoc in E. apply (u_text_app _ w _ _ _ _ (u_escape_text w ltac:(unfold high in Hw; lia)) T) in E as [<- _]. unfold high, low in *. lia.
    + apply Forall_cons_iff in U as [(_ & U1 & U2) _]. apply ch_unit; [now apply u_escape_text|exact U1|exact U2|exact IH'].
  - rewrite E, <- app_assoc. apply ch_pair; try assumption; apply u_escape_text; unfold high, low in *; lia.
Qed.
Lemma dump_str_quoted (python : bool) s : (if python then unpaired s else unicode s) -> quoted python (dump_str s) s.
Proof. intro U. exists (flat_map esc_char s). split; [now apply chars_written|reflexivity]. Qed.

(** ** Numbers *)
Lemma number_snoc s c acc : number (s ++ [c]) acc = (10 * number s acc + (Z.of_N c - 48))%Z.
Proof. revert acc. induction s as [|d s IH]; intro acc; [reflexivity|]. cbn [app number]. apply IH. Qed.
Lemma dec_digits_ok fuel : forall n acc, (n < 10 ^ N.of_nat fuel)%N -> fuel <> 0 ->
  exists ds, dec_digits fuel n acc = ds ++ acc /\ int_part ds /\ number ds 0 = Z.of_N n.
Proof.
  induction fuel as [|k IH]; intros n acc B N; [contradiction|]. cbn [dec_digits].
  destruct (N.ltb_spec n 10) as [L|L].
  - exists [(48 + n mod 10)%N]. split; [reflexivity|]. rewrite N.mod_small by exact L. split; [|cbn [number]; lia].
    split; [split; [discriminate|constructor; [apply digit_iff; lia|constructor]]|].
    destruct (N.eq_dec n 0) as [->|Nz]; [now left|right]. cbn [hd]. change (chr "0") with 48%N. lia.
  - assert (Kz : k <> 0) by (intros ->; cbn in B; lia).
    destruct (IH (n / 10)%N ((48 + n mod 10)%N :: acc)) as (ds & E & (D & I) & V).
    + rewrite Nat2N.inj_succ, N.pow_succ_r' in B. apply N.div_lt_upper_bound; [discriminate|exact B].
    + exact Kz.
    + exists (ds ++ [(48 + n mod 10)%N]). split; [rewrite E, <- app_assoc; reflexivity|]. destruct D as [Dn Df].
      split; [split; [split|]|].
      * intro X. now destruct ds.
      * apply Forall_app. split; [exact Df|]. constructor; [apply digit_iff; lia|constructor].
      * right. destruct I as [->|I]; [cbn in V; lia|]. destruct ds; [contradiction|exact I].
      * rewrite number_snoc, V. lia.
Qed.
Lemma dec_ok n : int_part (dec n) /\ number (dec n) 0 = Z.of_N n.
Proof.
  unfold dec. destruct (dec_digits_ok (S (N.to_nat (N.log2 n))) n []) as (ds & E & I & V); [|discriminate|].
  - destruct (N.eq_dec n 0) as [->|Hn]; [cbn; lia|]. pose proof (N.log2_spec n ltac:(lia)) as [_ Hlt].
    rewrite Nat2N.inj_succ, N2Nat.id. apply (N.lt_le_trans _ _ _ Hlt). apply N.pow_le_mono_l. lia.
  - rewrite app_nil_r in E. rewrite E. now split.
Qed.

(** ** Writing *)
Section Write.
Variable python : bool.
Variable kind : Z -> float_kind.
Variable read_float : str -> Z.
Variable nan inf neg_inf : Z.
Hypothesis PF : python_floats kind read_float nan inf neg_inf.
Notation doc := (doc python (float_of read_float nan inf neg_inf)).
Notation items := (items python (float_of read_float nan inf neg_inf)).
Notation members := (members python (float_of read_float nan inf neg_inf)).
Definition text_ok (s : str) : Prop := if python then unpaired s else unicode s.

Lemma dump_int_doc z : doc (dump_int z) (JInt z).
Proof.
  destruct z as [|p|p]; cbn [dump_int].
  - apply (d_int python _ false (lit "0")). split; [split; [discriminate|constructor; [apply digit_iff; cbn; lia|constructor]]|now left].
  - destruct (dec_ok (Z.to_N (Z.pos p))) as [I V]. rewrite Z2N.id in V by lia. pose proof (d_int python (float_of read_float nan inf neg_inf) false _ I) as D. cbn [minus app] in D. now rewrite V in D.
  - destruct (dec_ok (N.pos p)) as [I V]. pose proof (d_int python (float_of read_float nan inf neg_inf) true _ I) as D. cbn [minus] in D. rewrite V in D. exact D.
Qed.
Lemma ws_newline i n : ws (newline i n).
Proof.
  destruct i as [k|]; cbn [newline]; [|constructor]. constructor; [cbn; auto|]. apply Forall_forall. intros c I. apply repeat_spec in I. subst c. cbn. auto.
Qed.
Lemma item_sep_ws i n : exists w, ws w /\ item_sep i n = lit "," ++ w.
Proof. destruct i; cbn [item_sep]; [exists (newline (Some n0) n); split; [apply ws_newline|reflexivity]|]. exists (lit " "). split; [constructor; [cbn; auto|constructor]|reflexivity]. Qed.
Lemma ws_app a b : ws a -> ws b -> ws (a ++ b).
Proof. intros A B. apply Forall_app. now split. Qed.
Lemma items_joined w sep ts l : ws w -> sep = lit "," ++ w -> Forall2 doc ts l -> ts <> [] ->
  forall a b, ws a -> ws b -> items (a ++ join sep ts ++ b) l.
Proof.
  intros W Es F. induction F as [|t j ts l D F IH]; intros N a b A B; [contradiction|]. destruct ts as [|t' ts].
  - inversion F; subst. cbn [join]. now apply i_one.
  - assert (R : items (w ++ join sep (t' :: ts) ++ b) l) by (apply IH; [discriminate|exact W|exact B]).
    pose proof (i_more python _ a t [] j _ _ A D (Forall_nil _) R) as X.
    change (join sep (t :: t' :: ts)) with (t ++ sep ++ join sep (t' :: ts)). rewrite Es in *. rewrite <- !app_assoc in *. exact X.
Qed.
Lemma members_joined w sep ts l : ws w -> sep = lit "," ++ w ->
  Forall2 (fun t kj => exists q s, t = q ++ lit ": " ++ s /\ quoted python q (fst kj) /\ doc s (snd kj)) ts l -> ts <> [] ->
  forall a b, ws a -> ws b -> members (a ++ join sep ts ++ b) l.
Proof.
  intros W Es F. induction F as [|t [k j] ts l (q & s & -> & Q & D) F IH]; intros N a b A B; [contradiction|]. cbn [fst snd] in *.
  assert (W1 : ws (lit " ")) by (constructor; [cbn; auto|constructor]). destruct ts as [|t' ts].
  - inversion F; subst. cbn [join]. pose proof (m_one python _ a q k [] (lit " ") s b j A Q (Forall_nil _) W1 D B) as X.
    rewrite <- !app_assoc. exact X.
  - assert (R : members (w ++ join sep (t' :: ts) ++ b) l) by (apply IH; [discriminate|exact W|exact B]).
    pose proof (m_more python _ a q k [] (lit " ") s [] j _ _ A Q (Forall_nil _) W1 D (Forall_nil _) R) as X.
    change (join sep ((q ++ lit ": " ++ s) :: t' :: ts)) with ((q ++ lit ": " ++ s) ++ sep ++ join sep (t' :: ts)).
    rewrite Es in *. rewrite <- !app_assoc in *. exact X.
Qed.
Lemma every_arr P l : every P (JArr l) -> P (JArr l) /\ Forall (every P) l.
Proof. intro E. inversion E; subst; [exfalso; eapply H0; reflexivity|now split]. Qed.
Lemma every_obj P l : every P (JObj l) -> P (JObj l) /\ Forall (fun kv => every P (snd kv)) l.
Proof. intro E. inversion E; subst; [exfalso; eapply H1; reflexivity|now split]. Qed.
Lemma every_self P j : every P j -> P j.
Proof. intro E. now inversion E. Qed.
Lemma dump_doc i j : every (texts text_ok) j -> (python = false -> every (finite_floats kind) j) -> forall level, doc (dump kind i level j) j.
Proof.
  induction j as [|b|z|f|s|l IH|l IH] using jv_rect'; intros T F level.
  - apply d_null.
  - destruct b; [apply d_true|apply d_false].
  - apply dump_int_doc.
  - cbn [dump]. unfold dump_float. pose proof (PF f) as P. destruct (kind f) as [r| | |] eqn:K.
    + destruct P as [P1 P2]. apply d_float; [exact P1|]. left. split; [exact P1|now symmetry].
    + destruct python eqn:E; [|destruct (every_self _ _ (F eq_refl) f eq_refl) as [r X]; congruence].
      apply d_other; [reflexivity|cbn; auto|]. right. left. now split.
    + destruct python eqn:E; [|destruct (every_self _ _ (F eq_refl) f eq_refl) as [r X]; congruence].
      apply d_other; [reflexivity|cbn; auto|]. right. right. left. now split.
    + destruct python eqn:E; [|destruct (every_self _ _ (F eq_refl) f eq_refl) as [r X]; congruence].
      apply d_other; [reflexivity|cbn; auto|]. right. right. right. now split.
  - apply d_str. apply dump_str_quoted. apply every_self in T as [T _]. exact (T s eq_refl).
  - destruct (item_sep_ws i (S level)) as (w & W & Es). destruct l as [|x l]; [apply (d_arr0 _ _ []); constructor|].
    change (dump kind i level (JArr (x :: l))) with
      (lit "[" ++ newline i (S level) ++ join (item_sep i (S level)) (map (dump kind i (S level)) (x :: l)) ++ newline i level ++ lit "]").
    pose proof (d_arr python (float_of read_float nan inf neg_inf) (newline i (S level) ++ join (item_sep i (S level)) (map (dump kind i (S level)) (x :: l)) ++ newline i level) (x :: l)) as X.
    rewrite <- !app_assoc in X. apply X. apply (items_joined w); [exact W|exact Es| |discriminate|apply ws_newline|apply ws_newline].
    apply every_arr in T as [_ T]. assert (F' : python = false -> Forall (every (finite_floats kind)) (x :: l)) by (intro E; now apply every_arr in F as [_ F]).
    remember (x :: l) as L eqn:EL. clear - IH T F' PF. induction IH as [|y l Hy IH IHl]; [constructor|]. apply Forall_cons_iff in T as [Ty T]. constructor.
    + apply Hy; [exact Ty|]. intro E. specialize (F' E). now apply Forall_cons_iff in F' as [F' _].
    + apply IHl; [exact T|]. intro E. specialize (F' E). now apply Forall_cons_iff in F' as [_ F'].
  - destruct (item_sep_ws i (S level)) as (w & W & Es). destruct l as [|x l]; [apply (d_obj0 _ _ []); constructor|].
    set (one := fun kv : str * jv => match kv with (k, x) => dump_str k ++ lit ": " ++ dump kind i (S level) x end).
    change (dump kind i level (JObj (x :: l))) with
      (lit "{" ++ newline i (S level) ++ join (item_sep i (S level)) (map one (x :: l)) ++ newline i level ++ lit "}").
    pose proof (d_obj python (float_of read_float nan inf neg_inf) (newline i (S level) ++ join (item_sep i (S level)) (map one (x :: l)) ++ newline i level) (x :: l)) as X.
    rewrite <- !app_assoc in X. apply X. apply (members_joined w); [exact W|exact Es| |discriminate|apply ws_newline|apply ws_newline].
    apply every_obj in T as [[_ Tk] T]. specialize (Tk _ eq_refl).
    assert (F' : python = false -> Forall (fun kv => every (finite_floats kind) (snd kv)) (x :: l)) by (intro E; now apply every_obj in F as [_ F]).
    remember (x :: l) as L eqn:EL. clear - IH T Tk F' PF. subst one. induction IH as [|[k y] l Hy IH IHl]; [constructor|]. apply Forall_cons_iff in T as [Ty T]. apply Forall_cons_iff in Tk as [Tky Tk]. cbn [fst snd] in *. constructor.
    + exists (dump_str k), (dump kind i (S level) y). split; [reflexivity|]. split; [now apply dump_str_quoted|]. apply Hy; [exact Ty|].
      intro E. specialize (F' E). now apply Forall_cons_iff in F' as [F' _].
    + apply IHl; [exact Tk|exact T|]. intro E. specialize (F' E). now apply Forall_cons_iff in F' as [_ F'].
Qed.
End Write.

(** ** Reading *)
Definition blank_free (s : str) : Prop := match s with [] => True | c :: _ => json_ws c = false end.
Lemma json_ws_in c : json_ws c = true <-> In c [32; 9; 10; 13]%N.
Proof. unfold json_ws. cbn. lia. Qed.
Lemma skip_ws_app a s : ws a -> skip_ws (a ++ s) = skip_ws s.
Proof.
  unfold skip_ws. induction 1 as [|c a I W IH]; [reflexivity|]. cbn [app lstrip]. apply json_ws_in in I. now rewrite I.
Qed.
Lemma skip_ws_id s : blank_free s -> skip_ws s = s.
Proof. destruct s as [|c s]; [reflexivity|]. cbn. intros ->. reflexivity. Qed.

Lemma scan_units_chars s t rest : chars true s t ->
  exists l, scan_units (s ++ 34%N :: rest) = Some (l, rest) /\ join_units l = t
  /\ forall v l', l = Esc v :: l' -> exists u s', s = u ++ s' /\ u_text u v.
Proof.
  assert (UT : forall u v s l, u_text u v -> scan_units (s ++ 34%N :: rest) = Some (l, rest) ->
               scan_units ((u ++ s) ++ 34%N :: rest) = Some (Esc v :: l, rest)).
  { intros u v s' l (a & b & c & d & w & x & y & z & -> & A & B & C & D & ->) E.
    apply hexd_val in A as [A1 A2], B as [B1 B2], C as [C1 C2], D as [D1 D2].
    change ((lit "\u" ++ [a; b; c; d]) ++ s') with (92%N :: 117%N :: a :: b :: c :: d :: s').
    cbn [app scan_units]. cbn [N.eqb Pos.eqb]. unfold hex4. rewrite A1, B1, C1, D1, E, A2, B2, C2, D2. reflexivity. }
  induction 1 as [|c s t L N1 N2 C IH|e c s t I C IH|u v s t T Nh Nl C IH|u v u' v' s t T T' Hv Lv C IH|u v s t P T S C IH].
  - exists []. split; [reflexivity|]. split; [reflexivity|]. discriminate.
  - destruct IH as (l & E & J & _). exists (Raw c :: l). split; [|split; [cbn [join_units]; now rewrite J|discriminate]].
    cbn [app scan_units]. change (chr "\") with 92%N in N2. rewrite (proj2 (N.eqb_neq _ _) N1), (proj2 (N.eqb_neq _ _) N2), (proj2 (N.ltb_ge _ _) L), E. reflexivity.
  - destruct IH as (l & E & J & _). exists (Raw c :: l). split; [|split; [cbn [join_units]; now rewrite J|discriminate]].
    cbn [app]. change (chr "\") with 92%N. cbn [escapes In] in I.
    repeat (destruct I as [I|I]; [apply pair_equal_spec in I as [<- <-]; cbn [scan_units N.eqb Pos.eqb]; cbn [N.eqb Pos.eqb backslash]; rewrite E; reflexivity|]). destruct I.
  - destruct IH as (l & E & J & H). exists (Esc v :: l). split; [now apply UT|]. split; [|intros v0 l' [= <- <-]; exists u, s; now split].
    cbn [join_units]. replace (is_high v) with false by (unfold is_high, in_range, high in *; lia). cbn [andb]. destruct l as [|[c|w] l]; now rewrite J.
  - destruct IH as (l & E & J & H). exists (Esc v :: Esc v' :: l). split.
    + apply UT; [exact T|]. now apply UT.
    + split; [|intros v0 l' [= <- <-]; exists u, (u' ++ s); now split].
      cbn [join_units]. replace (is_high v) with true by (unfold is_high, in_range, high in *; lia). replace (is_low v') with true by (unfold is_low, in_range, low in *; lia).
      cbn [andb]. now rewrite J.
  - destruct IH as (l & E & J & H). exists (Esc v :: l). split; [now apply UT|]. split; [|intros v0 l' [= <- <-]; exists u, s; now split].
    cbn [join_units]. destruct l as [|[c|w] l]; [now rewrite J|now rewrite J|].
    replace (is_high v && is_low w)%bool with false; [now rewrite J|]. symmetry. apply andb_false_iff. destruct S as [[_ S]|S].
    + right. destruct (H w l eq_refl) as (u' & s' & Es & T'). specialize (S u' w s' Es T'). unfold is_low, in_range, low in *. lia.
    + left. unfold is_high, in_range, low in *. lia.
Qed.
Lemma scan_str_quoted s t rest : chars true s t -> scan_str (s ++ 34%N :: rest) = Some (t, rest).
Proof. intro C. destruct (scan_units_chars s t rest C) as (l & E & J & _). unfold scan_str. now rewrite E, J. Qed.

Definition not_digit_next (s : str) : Prop := match s with [] => True | c :: _ => is_digit c = false end.
Definition ended (s : str) : Prop := match s with [] => True | c :: _ => In c [44; 93; 125; 32; 9; 10; 13]%N end.
Lemma span_digits_app ds rest : Forall digit ds -> not_digit_next rest -> span_digits (ds ++ rest) = (ds, rest).
Proof.
  intros F N. induction F as [|c ds D F IH].
  - destruct rest as [|c r]; [reflexivity|]. cbn in *. now rewrite N.
  - cbn [app span_digits]. apply digit_is in D. now rewrite D, IH.
Qed.
Lemma ended_not_digit s : ended s -> not_digit_next s.
Proof. destruct s as [|c s]; [easy|]. cbn. unfold is_digit, in_range. lia. Qed.
Lemma frac_ended s : ended s -> scan_frac s = ([], s).
Proof. destruct s as [|c s]; [easy|]. cbn [ended scan_frac]. intro I. destruct (N.eqb_spec c 46) as [->|_]; [cbn in I; lia|reflexivity]. Qed.
Lemma exp_ended s : ended s -> scan_exp s = ([], s).
Proof.
  destruct s as [|c s]; [easy|]. cbn [ended scan_exp]. intro I. destruct (N.eqb_spec c 101) as [->|_]; [cbn in I; lia|].
  destruct (N.eqb_spec c 69) as [->|_]; [cbn in I; lia|reflexivity].
Qed.
Lemma frac_ok f rest : frac_part f -> not_digit_next rest -> scan_frac (f ++ rest) = (f, rest).
Proof.
  intros (ds & [Dn D] & ->) N. change (lit "." ++ ds) with (46%N :: ds). cbn [app scan_frac N.eqb Pos.eqb]. rewrite (span_digits_app _ _ D N).
  destruct ds; [contradiction|reflexivity].
Qed.
Lemma exp_ok e rest : exp_part e -> not_digit_next rest -> scan_exp (e ++ rest) = (e, rest) /\ scan_frac (e ++ rest) = ([], e ++ rest) /\ not_digit_next (e ++ rest).
Proof.
  intros (c & sign & ds & Ec & Es & [Dn D] & ->) N.
  destruct ds as [|d ds]; [contradiction|]. assert (Dd : is_digit d = true) by (apply Forall_cons_iff in D as [D _]; now apply digit_is).
  assert (E1 : N.eqb d 43 = false /\ N.eqb d 45 = false) by (unfold is_digit, in_range in Dd; lia). destruct E1 as [E1 E2].
  pose proof (span_digits_app _ _ D N) as S. cbn [app] in S.
  destruct Ec as [->| ->]; (destruct Es as [->|[->| ->]]; cbn [lit app scan_exp scan_frac]; cbn - [span_digits is_digit]; rewrite ?E1, ?E2; cbn [orb]; rewrite S; repeat split).
Qed.
Lemma dec_value_number s : Forall digit s -> Z.of_N (dec_value s) = number s 0.
Proof.
  unfold dec_value. intro F. change 0%Z with (Z.of_N 0). generalize 0%N as a. induction F as [|c s D F IH]; intro a; [reflexivity|].
  cbn [fold_left number]. rewrite IH. f_equal. apply digit_iff in D. lia.
Qed.

Section Read.
Variable read_float : str -> Z.
Variable nan inf neg_inf : Z.
Notation means := (float_of read_float nan inf neg_inf).
Notation doc := (doc true means).
Notation items := (items true means).
Notation members := (members true means).
Notation scan_once := (scan_once read_float nan inf neg_inf).
Notation scan_items := (scan_items read_float nan inf neg_inf).
Notation scan_members := (scan_members read_float nan inf neg_inf).

Lemma int_part_scan i rest : int_part i -> not_digit_next rest ->
  match i ++ rest with c :: r => if N.eqb c 48 then ([c], r) else span_digits (i ++ rest) | [] => ([], []) end = (i, rest).
Proof.
  intros [[Dn D] [->|Z0]] N; [reflexivity|]. destruct i as [|c i]; [contradiction|]. cbn [hd] in Z0. change (chr "0") with 48%N in Z0.
  cbn [app]. rewrite (proj2 (N.eqb_neq _ _) Z0). change (c :: i ++ rest) with ((c :: i) ++ rest). now apply span_digits_app.
Qed.
Lemma scan_number_ok (neg : bool) i fe rest j : int_part i -> ended rest ->
  (fe = [] /\ j = JInt (if neg then - number i 0 else number i 0)
   \/ (frac_part fe \/ exp_part fe \/ exists f e, frac_part f /\ exp_part e /\ fe = f ++ e) /\ j = JFloat (read_float (minus neg ++ i ++ fe))) ->
  scan_number read_float (minus neg ++ i ++ fe ++ rest) = Some (j, rest).
Proof.
  intros I En H. unfold scan_number.
  assert (Hd : exists c r, i = c :: r /\ digit c).
  { destruct I as [[Dn D] _]. destruct i as [|c r]; [contradiction|]. exists c, r. apply Forall_cons_iff in D as [D _]. now split. }
  destruct Hd as (c0 & r0 & Ei & Dc).
  match goal with |- (let (a, b) := ?M in _) = _ => replace M with (neg, i ++ fe ++ rest) end.
  2:{ destruct neg; [reflexivity|]. rewrite Ei. cbn [minus app]. apply digit_iff in Dc. rewrite (proj2 (N.eqb_neq c0 45)) by lia. reflexivity. }
  assert (ND : not_digit_next (fe ++ rest)).
  { destruct H as [[-> _]|[[(ds & _ & ->)|[X|(f & e & (ds & _ & ->) & _ & ->)]] _]].
    - now apply ended_not_digit.
    - reflexivity.
    - apply exp_ok; [exact X|now apply ended_not_digit].
    - reflexivity. }
  cbv beta iota zeta. rewrite (int_part_scan i (fe ++ rest) I ND). cbv beta iota zeta. rewrite Ei at 1. cbv beta iota zeta.
  assert (Neg : (if neg then lit "-" else []) = minus neg) by reflexivity.
  assert (Fd : Forall digit i) by apply I.
  destruct H as [[-> ->]|[H ->]].
  - cbn [app]. rewrite (frac_ended _ En), (exp_ended _ En). cbn [app]. rewrite (dec_value_number i Fd). reflexivity.
  - assert (R : exists f e, fe = f ++ e /\ fe <> [] /\ scan_frac (fe ++ rest) = (f, e ++ rest) /\ scan_exp (e ++ rest) = (e, rest)).
    { destruct H as [F|[E|(f & e & F & E & ->)]].
      - exists fe, []. split; [now rewrite app_nil_r|]. split; [destruct F as (ds & _ & ->); discriminate|]. split; [apply frac_ok; [exact F|now apply ended_not_digit]|now apply exp_ended].
      - exists [], fe. split; [reflexivity|]. split; [destruct E as (c & sg & ds & [->| ->] & _ & _ & ->); discriminate|].
        destruct (exp_ok fe rest E (ended_not_digit _ En)) as (A & B & _). now split.
      - exists f, e. split; [reflexivity|]. split; [destruct F as (ds & _ & ->); discriminate|]. destruct (exp_ok e rest E (ended_not_digit _ En)) as (A & _ & B).
        split; [|exact A]. rewrite <- app_assoc. now apply frac_ok. }
    destruct R as (f & e & Efe & Nn & A & B). rewrite A, B, <- Efe. destruct fe as [|c fe]; [contradiction|]. reflexivity.
Qed.
(** How a document starts *)
Definition starts_doc (s : str) : Prop := match s with [] => False | c :: _ => ~ In c [32; 9; 10; 13; 44; 58; 93; 125]%N end.
Lemma minus_int_start neg i r : int_part i -> starts_doc (minus neg ++ i ++ r).
Proof.
  intros [[Dn D] _]. destruct neg; [cbn; lia|]. destruct i as [|c i]; [contradiction|]. apply Forall_cons_iff in D as [D _]. apply digit_iff in D. cbn. lia.
Qed.
Lemma quoted_start s t : quoted true s t -> exists r, s = 34%N :: r.
Proof. intros (c & _ & ->). eexists. reflexivity. Qed.
Lemma doc_start s j : doc s j -> starts_doc s.
Proof.
  intro D. destruct D as [| | |neg i I|s f (neg & i & fe & I & -> & _) _|s f _ I _|s t Q|w W|s l It|w W|s l M]; try (cbn; lia).
  - rewrite <- (app_nil_r i). now apply minus_int_start.
  - now apply minus_int_start.
  - cbn in I. destruct I as [<-|[<-|[<-|[]]]]; cbn; lia.
  - destruct (quoted_start _ _ Q) as [r ->]. cbn. lia.
Qed.
Lemma starts_blank_free s r : starts_doc s -> blank_free (s ++ r).
Proof. destruct s as [|c s]; [easy|]. cbn. unfold json_ws. lia. Qed.
Lemma ws_ended w c r : ws w -> In c [44; 93; 125]%N -> ended (w ++ c :: r).
Proof. intros W I. destruct W as [|d w Id W]; cbn in *; lia. Qed.
Lemma skip_ws_end w c r : ws w -> In c [44; 93; 125; 58]%N -> skip_ws (w ++ c :: r) = c :: r.
Proof. intros W I. rewrite skip_ws_app by exact W. apply skip_ws_id. cbn in *. unfold json_ws. lia. Qed.
Lemma scan_other n c r : In c [45%N] \/ digit c -> forall d r', c :: r = d :: r' ->
  (forall s, r <> 73%N :: s) ->
  scan_once (S n) (c :: r) = scan_number read_float (c :: r).
Proof.
  intros H d r' _ NI. cbn [Model_Json.scan_once]. destruct H as [[<-|[]]|D].
  - assert (S : strip_prefix (lit "-Infinity") (45%N :: r) = None).
    { destruct r as [|e r]; [reflexivity|]. change (lit "-Infinity") with (45%N :: 73%N :: lit "nfinity"). cbn [strip_prefix]. rewrite N.eqb_refl.
      destruct (N.eqb_spec 73 e) as [<-|_]; [destruct (NI r eq_refl)|reflexivity]. }
    rewrite S. reflexivity.
  - apply digit_iff in D.
    rewrite (proj2 (N.eqb_neq c 34)), (proj2 (N.eqb_neq c 123)), (proj2 (N.eqb_neq c 91)) by lia.
    cbn - [scan_number N.eqb]. repeat match goal with |- context [N.eqb ?a c] => rewrite (proj2 (N.eqb_neq a c)) by lia end. reflexivity.
Qed.
Lemma scan_numeral n (neg : bool) i fe rest j : int_part i -> ended rest ->
  (fe = [] /\ j = JInt (if neg then - number i 0 else number i 0)
   \/ (frac_part fe \/ exp_part fe \/ exists f e, frac_part f /\ exp_part e /\ fe = f ++ e) /\ j = JFloat (read_float (minus neg ++ i ++ fe))) ->
  scan_once (S n) (minus neg ++ i ++ fe ++ rest) = Some (j, rest).
Proof.
  intros I En H. rewrite <- (scan_number_ok neg i fe rest j I En H).
  assert (Hd : exists c r, i = c :: r /\ digit c).
  { destruct I as [[Dn D] _]. destruct i as [|c r]; [contradiction|]. exists c, r. apply Forall_cons_iff in D as [D _]. now split. }
  destruct Hd as (c0 & r0 & Ei & Dc).
  destruct neg; cbn [minus app].
  - change (lit "-" ++ i ++ fe ++ rest) with (45%N :: i ++ fe ++ rest). eapply scan_other; [left; now left|reflexivity|].
    intros s E. rewrite Ei in E. injection E as E _. apply digit_iff in Dc. lia.
  - rewrite Ei. cbn [app]. eapply scan_other; [now right|reflexivity|].
    intros s E. destruct r0 as [|c1 r1].
    + cbn [app] in E. destruct H as [[-> _]|[H _]].
      * cbn [app] in E. subst rest. cbn in En. lia.
      * destruct H as [(ds & _ & ->)|[(e & sg & ds & [->| ->] & _ & _ & ->)|(f & e & (ds & _ & ->) & _ & ->)]]; discriminate.
    + cbn [app] in E. injection E as E _. destruct I as [[_ D] _]. rewrite Ei in D. apply Forall_cons_iff in D as [_ D]. apply Forall_cons_iff in D as [D _].
      apply digit_iff in D. lia.
Qed.

Scheme doc_mind := Minimality for Spec_Json.doc Sort Prop
  with items_mind := Minimality for Spec_Json.items Sort Prop
  with members_mind := Minimality for Spec_Json.members Sort Prop.
Combined Scheme grammar_mind from doc_mind, items_mind, members_mind.

Lemma app_cons_assoc {A} (a : list A) c b : (a ++ [c]) ++ b = a ++ c :: b.
Proof. now rewrite <- app_assoc. Qed.

Lemma scan_arr n r : scan_once (S n) (91%N :: r) =
  match skip_ws r with
  | d :: r' => if N.eqb d 93 then Some (JArr [], r') else match scan_items n (d :: r') with Some (l, r) => Some (JArr l, r) | None => None end
  | [] => None
  end.
Proof. reflexivity. Qed.
Lemma scan_obj n r : scan_once (S n) (123%N :: r) =
  match skip_ws r with
  | d :: r' => if N.eqb d 125 then Some (JObj [], r') else match scan_members n (d :: r') with Some (l, r) => Some (JObj (dict_of l), r) | None => None end
  | [] => None
  end.
Proof. reflexivity. Qed.
Lemma scan_items_S n s : scan_items (S n) s =
  match scan_once n s with
  | None => None
  | Some (j, r) =>
      match skip_ws r with
      | c :: r' => if N.eqb c 93 then Some ([j], r')
                   else if N.eqb c 44 then match scan_items n (skip_ws r') with Some (l, r) => Some (j :: l, r) | None => None end else None
      | [] => None
      end
  end.
Proof. reflexivity. Qed.
Lemma scan_members_S n r0 : scan_members (S n) (34%N :: r0) =
  match scan_str r0 with
  | None => None
  | Some (k, r) =>
      match skip_ws r with
      | colon :: r1 =>
          if N.eqb colon 58 then
            match scan_once n (skip_ws r1) with
            | None => None
            | Some (j, r) =>
                match skip_ws r with
                | c :: r' => if N.eqb c 125 then Some ([(k, j)], r')
                             else if N.eqb c 44 then match scan_members n (skip_ws r') with Some (l, r) => Some ((k, j) :: l, r) | None => None end
                             else None
                | [] => None
                end
            end
          else None
      | [] => None
      end
  end.
Proof. reflexivity. Qed.

Definition keyed (j : jv) : Prop := every keys_differ j.
Lemma scan_all :
  (forall s j, doc s j -> keyed j -> forall fuel rest, length s <= fuel -> ended rest -> scan_once fuel (s ++ rest) = Some (j, rest))
  /\ (forall s l, items s l -> Forall keyed l -> forall fuel rest, S (length s) <= fuel ->
        scan_items fuel (skip_ws (s ++ 93%N :: rest)) = Some (l, rest) /\ (exists c r, skip_ws (s ++ 93%N :: rest) = c :: r /\ c <> 93%N))
  /\ (forall s l, members s l -> Forall (fun kv => keyed (snd kv)) l -> forall fuel rest, S (length s) <= fuel ->
        scan_members fuel (skip_ws (s ++ 125%N :: rest)) = Some (l, rest) /\ (exists c r, skip_ws (s ++ 125%N :: rest) = c :: r /\ c <> 125%N)).
Proof.
  apply grammar_mind.
  - intros _ fuel rest L En. destruct fuel; [cbn in L; lia|]. reflexivity.
  - intros _ fuel rest L En. destruct fuel; [cbn in L; lia|]. reflexivity.
  - intros _ fuel rest L En. destruct fuel; [cbn in L; lia|]. reflexivity.
  - intros neg i I _ fuel rest L En. destruct fuel as [|n].
    { destruct I as [[Dn _] _]. destruct i; [contradiction|]. rewrite app_length in L. cbn in L. lia. }
    rewrite <- app_assoc. apply (scan_numeral n neg i [] rest); [exact I|exact En|left; now split].
  - intros s f (neg & i & fe & I & -> & Fe) M _ fuel rest L En. destruct fuel as [|n].
    { destruct I as [[Dn _] _]. destruct i; [contradiction|]. rewrite !app_length in L. cbn in L. lia. }
    rewrite <- !app_assoc. apply (scan_numeral n neg i fe rest); [exact I|exact En|right; split; [exact Fe|]].
    destruct M as [[_ ->]|M]; [reflexivity|]. exfalso. destruct I as [[Dn D] _]. destruct i as [|c i]; [contradiction|]. apply Forall_cons_iff in D as [D _]. apply digit_iff in D.
    destruct M as [[M _]|[[M _]|[M _]]]; destruct neg; cbn in M; injection M as M; lia.
  - intros s f _ I M _ fuel rest L En. cbn [In] in I.
    assert (NF : forall s, In s [lit "NaN"; lit "Infinity"; lit "-Infinity"] -> ~ float_text s).
    { clear. intros s I (neg & i & fe & [[Dn D] _] & -> & _). destruct i as [|c i]; [contradiction|]. apply Forall_cons_iff in D as [D _]. apply digit_iff in D.
      cbn [In] in I. destruct I as [I|[I|[I|[]]]]; destruct neg; cbn in I; injection I as I; lia. }
    destruct M as [[M _]|M]; [destruct (NF s I M)|]. destruct fuel as [|n]; [destruct I as [<-|[<-|[<-|[]]]]; cbn in L; lia|].
    destruct M as [[-> ->]|[[-> ->]|[-> ->]]]; reflexivity.
  - intros s t (c & C & ->) _ fuel rest L En. destruct fuel as [|n]; [cbn in L; lia|].
    change (([34%N] ++ c ++ [34%N]) ++ rest) with (34%N :: (c ++ [34%N]) ++ rest). rewrite app_cons_assoc.
    cbn [Model_Json.scan_once N.eqb Pos.eqb]. now rewrite (scan_str_quoted c t rest C).
  - intros w W _ fuel rest L En. destruct fuel as [|n]; [cbn in L; lia|].
    change ((lit "[" ++ w ++ lit "]") ++ rest) with (91%N :: (w ++ [93%N]) ++ rest). rewrite app_cons_assoc.
    cbn [Model_Json.scan_once N.eqb Pos.eqb]. rewrite skip_ws_end by (cbn; auto). reflexivity.
  - intros s l It IH K fuel rest L En. destruct fuel as [|n]; [cbn in L; lia|].
    change ((lit "[" ++ s ++ lit "]") ++ rest) with (91%N :: (s ++ [93%N]) ++ rest). rewrite app_cons_assoc.
    apply every_arr in K as [_ K]. cbn [lit app length] in L. rewrite app_length in L. cbn [length] in L.
    destruct (IH K n rest ltac:(lia)) as [E (c & r & Ec & Nc)]. rewrite ?scan_arr, ?scan_obj. rewrite Ec in *.
    rewrite (proj2 (N.eqb_neq _ _) Nc), E. reflexivity.
  - intros w W _ fuel rest L En. destruct fuel as [|n]; [cbn in L; lia|].
    change ((lit "{" ++ w ++ lit "}") ++ rest) with (123%N :: (w ++ [125%N]) ++ rest). rewrite app_cons_assoc.
    cbn [Model_Json.scan_once N.eqb Pos.eqb]. rewrite skip_ws_end by (cbn; auto). reflexivity.
  - intros s l It IH K fuel rest L En. destruct fuel as [|n]; [cbn in L; lia|].
    change ((lit "{" ++ s ++ lit "}") ++ rest) with (123%N :: (s ++ [125%N]) ++ rest). rewrite app_cons_assoc.
    apply every_obj in K as [Kd K]. specialize (Kd l eq_refl). cbn [lit app length] in L. rewrite app_length in L. cbn [length] in L.
    destruct (IH K n rest ltac:(lia)) as [E (c & r & Ec & Nc)]. rewrite ?scan_arr, ?scan_obj. rewrite Ec in *.
    rewrite (proj2 (N.eqb_neq _ _) Nc), E. rewrite dict_of_NoDup by exact Kd. reflexivity.
  - intros a s b j A D IH B K fuel rest L. apply Forall_cons_iff in K as [K _]. rewrite !app_length in L. destruct fuel as [|n]; [lia|].
    rewrite <- !app_assoc, skip_ws_app by exact A. pose proof (doc_start _ _ D) as St. rewrite skip_ws_id by (now apply starts_blank_free).
    split; [|destruct s as [|c s]; [destruct St|]; exists c; eexists; split; [reflexivity|cbn in St; lia]].
    rewrite scan_items_S. rewrite (IH K n _ ltac:(lia) (ws_ended b 93%N rest B ltac:(cbn; auto))). rewrite skip_ws_end by (cbn; auto). reflexivity.
  - intros a s b j r l A D IH B It IHr K fuel rest L. apply Forall_cons_iff in K as [K Kl]. rewrite !app_length in L. cbn [lit length] in L. destruct fuel as [|n]; [lia|].
    rewrite <- !app_assoc, skip_ws_app by exact A. pose proof (doc_start _ _ D) as St. rewrite skip_ws_id by (now apply starts_blank_free).
    split; [|destruct s as [|c s]; [destruct St|]; exists c; eexists; split; [reflexivity|cbn in St; lia]].
    change (lit "," ++ r ++ 93%N :: rest) with (44%N :: r ++ 93%N :: rest).
    rewrite scan_items_S. rewrite (IH K n _ ltac:(lia) (ws_ended b 44%N _ B ltac:(cbn; auto))). rewrite skip_ws_end by (cbn; auto).
    cbn [N.eqb Pos.eqb]. destruct (IHr Kl n rest ltac:(cbn in L; lia)) as [-> _]. reflexivity.
  - intros a q k b c s d j A Q B C D IH W K fuel rest L. apply Forall_cons_iff in K as [K _]. cbn [snd] in K. rewrite !app_length in L. destruct fuel as [|n]; [lia|].
    destruct Q as (cs & Cs & ->). rewrite <- !app_assoc, skip_ws_app by exact A. rewrite skip_ws_id by reflexivity.
    split; [|eexists; eexists; split; [reflexivity|discriminate]].
    change ([34%N] ++ cs ++ [34%N] ++ b ++ lit ":" ++ c ++ s ++ d ++ 125%N :: rest) with (34%N :: cs ++ 34%N :: b ++ 58%N :: c ++ s ++ d ++ 125%N :: rest).
    rewrite scan_members_S. rewrite (scan_str_quoted _ _ _ Cs). rewrite skip_ws_end by (cbn; auto). cbn [N.eqb Pos.eqb].
    rewrite skip_ws_app by exact C. pose proof (doc_start _ _ D) as St. rewrite skip_ws_id by (now apply starts_blank_free).
    rewrite (IH K n _ ltac:(cbn in L; lia) (ws_ended d 125%N rest W ltac:(cbn; auto))). rewrite skip_ws_end by (cbn; auto). reflexivity.
  - intros a q k b c s d j r l A Q B C D IH W M IHr K fuel rest L. apply Forall_cons_iff in K as [K Kl]. cbn [snd] in K. rewrite !app_length in L. destruct fuel as [|n]; [lia|].
    destruct Q as (cs & Cs & ->). rewrite <- !app_assoc, skip_ws_app by exact A. rewrite skip_ws_id by reflexivity.
    split; [|eexists; eexists; split; [reflexivity|discriminate]].
    change ([34%N] ++ cs ++ [34%N] ++ b ++ lit ":" ++ c ++ s ++ d ++ lit "," ++ r ++ 125%N :: rest) with (34%N :: cs ++ 34%N :: b ++ 58%N :: c ++ s ++ d ++ 44%N :: r ++ 125%N :: rest).
    rewrite scan_members_S. rewrite (scan_str_quoted _ _ _ Cs). rewrite skip_ws_end by (cbn; auto). cbn [N.eqb Pos.eqb].
    rewrite skip_ws_app by exact C. pose proof (doc_start _ _ D) as St. rewrite skip_ws_id by (now apply starts_blank_free).
    rewrite (IH K n _ ltac:(cbn in L; lia) (ws_ended d 44%N _ W ltac:(cbn; auto))). rewrite skip_ws_end by (cbn; auto). cbn [N.eqb Pos.eqb].
    destruct (IHr Kl n rest ltac:(cbn in L; lia)) as [-> _]. reflexivity.
Qed.
Lemma loads_doc s j : json_text true means s j -> keyed j -> loads read_float nan inf neg_inf s = Some j.
Proof.
  intros (a & t & b & A & D & B & ->) K. unfold loads. rewrite skip_ws_app by exact A. pose proof (doc_start _ _ D) as St.
  rewrite skip_ws_id by (now apply starts_blank_free). rewrite (proj1 scan_all t j D K).
  - replace (skip_ws b) with (@nil N); [reflexivity|]. pose proof (skip_ws_app b [] B) as X. rewrite app_nil_r in X. now rewrite X.
  - rewrite !app_length. lia.
  - destruct B as [|c b I B]; [exact I|]. cbn in *. lia.
Qed.
End Read.

(** ** Texts that are not JSON: the characters outside of strings *)
Inductive place := Out | In_str | After.
Fixpoint walk (p : place) (s : str) : place * str :=
  match s with
  | [] => (p, [])
  | c :: r =>
      match p with
      | Out => if N.eqb c 34 then walk In_str r else let (q, o) := walk Out r in (q, c :: o)
      | In_str => if N.eqb c 34 then walk Out r else if N.eqb c 92 then walk After r else walk In_str r
      | After => walk In_str r
      end
  end.
Lemma walk_app p s r : walk p (s ++ r) = (fst (walk (fst (walk p s)) r), snd (walk p s) ++ snd (walk (fst (walk p s)) r)).
Proof.
  revert p. induction s as [|c s IH]; intro p; [cbn; now destruct (walk p r)|]. cbn [app walk].
  destruct p; repeat match goal with |- context [if ?b then _ else _] => destruct b end; rewrite ?IH; try reflexivity.
  destruct (walk Out s) as [q o]. reflexivity.
Qed.
Lemma walk_app_at p q o s r : walk p s = (q, o) -> walk p (s ++ r) = (fst (walk q r), o ++ snd (walk q r)).
Proof. intro E. rewrite walk_app, E. reflexivity. Qed.
Lemma walk_out s : Forall (fun c => c <> 34%N) s -> walk Out s = (Out, s).
Proof. induction 1 as [|c s N F IH]; [reflexivity|]. cbn [walk]. now rewrite (proj2 (N.eqb_neq _ _) N), IH. Qed.
Lemma walk_in s : Forall (fun c => c <> 34%N /\ c <> 92%N) s -> walk In_str s = (In_str, []).
Proof. induction 1 as [|c s [N1 N2] F IH]; [reflexivity|]. cbn [walk]. now rewrite (proj2 (N.eqb_neq _ _) N1), (proj2 (N.eqb_neq _ _) N2). Qed.
Definition bad (c : N) : Prop := c = chr "N" \/ c = chr "I".
Definition passes (s : str) : Prop := exists o, walk Out s = (Out, o) /\ Forall (fun c => ~ bad c) o.
Lemma passes_app s r : passes s -> passes r -> passes (s ++ r).
Proof.
  intros (o & E & F) (o' & E' & F'). exists (o ++ o'). rewrite (walk_app_at _ _ _ _ _ E), E'. split; [reflexivity|]. apply Forall_app. now split.
Qed.
Lemma passes_plain s : Forall (fun c => c <> 34%N /\ ~ bad c) s -> passes s.
Proof. intro F. exists s. split; [apply walk_out|]; apply (Forall_impl _ (fun c H => proj1 H) F) || apply (Forall_impl _ (fun c H => proj2 H) F). Qed.
Lemma passes_ws w : ws w -> passes w.
Proof. intro W. apply passes_plain. apply (Forall_impl _ (P := fun c => In c [32; 9; 10; 13]%N)); [|exact W]. unfold bad. cbn. intros. lia. Qed.
Lemma walk_hexd c v : hexd c v -> c <> 34%N /\ c <> 92%N.
Proof. intro H. apply hexd_val in H as [H _]. split; intros ->; discriminate H. Qed.
Lemma walk_u u v : u_text u v -> walk In_str u = (In_str, []).
Proof.
  intros (a & b & c & d & w & x & y & z & -> & A & B & C & D & _). change (lit "\u" ++ [a; b; c; d]) with (92%N :: 117%N :: [a; b; c; d]).
  change (walk In_str (92%N :: 117%N :: [a; b; c; d])) with (walk In_str [a; b; c; d]). apply walk_in. apply walk_hexd in A, B, C, D. repeat constructor; tauto.
Qed.
Lemma walk_chars python c t : chars python c t -> walk In_str c = (In_str, []).
Proof.
  induction 1 as [|c s t L N1 N2 C IH|e c s t I C IH|u v s t T Nh Nl C IH|u v u' v' s t T T' Hv Lv C IH|u v s t P T S C IH].
  - reflexivity.
  - change (chr "\") with 92%N in N2. cbn [walk]. now rewrite (proj2 (N.eqb_neq _ _) N1), (proj2 (N.eqb_neq _ _) N2).
  - cbn [walk]. exact IH.
  - rewrite (walk_app_at _ _ _ _ _ (walk_u _ _ T)), IH. reflexivity.
  - rewrite (walk_app_at _ _ _ _ _ (walk_u _ _ T)), (walk_app_at _ _ _ _ _ (walk_u _ _ T')), IH. reflexivity.
  - rewrite (walk_app_at _ _ _ _ _ (walk_u _ _ T)), IH. reflexivity.
Qed.
Lemma walk_quote c : walk In_str c = (In_str, []) -> walk Out ([34%N] ++ c ++ [34%N]) = (Out, []).
Proof. intro E. change (walk Out ([34%N] ++ c ++ [34%N])) with (walk In_str (c ++ [34%N])). rewrite (walk_app_at _ _ _ _ _ E). reflexivity. Qed.
Lemma passes_quoted python s t : quoted python s t -> passes s.
Proof. intros (c & C & ->). exists []. split; [|constructor]. apply walk_quote. now apply walk_chars in C. Qed.
Lemma digits_plain s : Forall digit s -> Forall (fun c => c <> 34%N /\ ~ bad c) s.
Proof. apply Forall_impl. intros c D. apply digit_iff in D. unfold bad. change (chr "N") with 78%N. change (chr "I") with 73%N. lia. Qed.
Lemma minus_plain neg : Forall (fun c => c <> 34%N /\ ~ bad c) (minus neg).
Proof. destruct neg; [|constructor]. constructor; [|constructor]. unfold bad. cbn. lia. Qed.
Lemma exp_plain e : exp_part e -> Forall (fun c => c <> 34%N /\ ~ bad c) e.
Proof.
  intros (c & sg & ds & Ec & Es & [_ D] & ->). apply Forall_app. split; [destruct Ec as [->| ->]; (constructor; [unfold bad; cbn; lia|constructor])|].
  apply Forall_app. split; [|now apply digits_plain]. destruct Es as [->|[->| ->]]; [constructor| |]; (constructor; [unfold bad; cbn; lia|constructor]).
Qed.
Lemma frac_plain e : frac_part e -> Forall (fun c => c <> 34%N /\ ~ bad c) e.
Proof. intros (ds & [_ D] & ->). constructor; [unfold bad; cbn; lia|]. now apply digits_plain. Qed.
Lemma float_plain s : float_text s -> Forall (fun c => c <> 34%N /\ ~ bad c) s.
Proof.
  intros (neg & i & fe & [[_ D] _] & -> & F). apply Forall_app. split; [apply minus_plain|]. apply Forall_app. split; [now apply digits_plain|].
  destruct F as [F|[F|(f & e & F & E & ->)]]; [now apply frac_plain|now apply exp_plain|]. apply Forall_app. split; [now apply frac_plain|now apply exp_plain].
Qed.
Ltac lit_passes := apply passes_plain; repeat (constructor; [unfold bad; cbn; lia|]); constructor.
Lemma passes_all means :
  (forall s j, doc false means s j -> passes s) /\ (forall s l, items false means s l -> passes s) /\ (forall s l, members false means s l -> passes s).
Proof.
  assert (P1 : forall c, In c (lit ",:[]{}") -> passes [c]).
  { intros c I. apply passes_plain. constructor; [|constructor]. unfold bad. cbn in *. lia. }
  apply grammar_mind; intros.
  1-3: lit_passes.
  - apply passes_plain. apply Forall_app. split; [apply minus_plain|]. destruct H as [[_ D] _]. now apply digits_plain.
  - apply passes_plain. now apply float_plain.
  - discriminate.
  - now apply passes_quoted in H.
  - repeat apply passes_app; [apply P1; cbn; auto 10|now apply passes_ws|apply P1; cbn; auto 10].
  - repeat apply passes_app; [apply P1; cbn; auto 10|assumption|apply P1; cbn; auto 10].
  - repeat apply passes_app; [apply P1; cbn; auto 10|now apply passes_ws|apply P1; cbn; auto 10].
  - repeat apply passes_app; [apply P1; cbn; auto 10|assumption|apply P1; cbn; auto 10].
  - repeat apply passes_app; try assumption; now apply passes_ws.
  - repeat apply passes_app; try assumption; try (now apply passes_ws). apply P1; cbn; auto.
  - repeat apply passes_app; try assumption; try (now apply passes_ws); [now apply passes_quoted in H0|apply P1; cbn; auto].
  - repeat apply passes_app; try assumption; try (now apply passes_ws); [now apply passes_quoted in H0|apply P1; cbn; auto|apply P1; cbn; auto].
Qed.
Lemma passes_text means s j : json_text false means s j -> passes s.
Proof. intros (a & t & b & A & D & B & ->). repeat apply passes_app; [now apply passes_ws|now apply passes_all in D|now apply passes_ws]. Qed.

Lemma walk_esc c : walk In_str (esc_char c) = (In_str, []).
Proof.
  assert (U : forall v, walk In_str (u_escape v) = (In_str, [])).
  { intro v. unfold u_escape. set (a := hex_char (v / 4096)). set (b := hex_char (v / 256 mod 16)). set (d := hex_char (v / 16 mod 16)). set (e := hex_char (v mod 16)).
    change (walk In_str (lit "\u" ++ [a; b; d; e])) with (walk In_str [a; b; d; e]). apply walk_in.
    assert (X : forall n, hex_char n <> 34%N /\ hex_char n <> 92%N).
    { intro n. unfold hex_char. destruct (N.ltb_spec n 10); lia. }
    repeat constructor; apply X. }
  unfold esc_char. repeat match goal with |- context [if N.eqb c ?k then _ else _] => destruct (N.eqb_spec c k) as [->|?]; [reflexivity|] end.
  destruct (in_range 32 126 c) eqn:R; [apply walk_in; constructor; [now split|constructor]|].
  destruct (N.ltb c 65536); [apply U|]. cbv zeta. rewrite (walk_app_at _ _ _ _ _ (U _)), U. reflexivity.
Qed.
Lemma walk_dump_str s : walk Out (dump_str s) = (Out, []).
Proof.
  unfold dump_str. apply walk_quote. induction s as [|c s IH]; [reflexivity|]. cbn [flat_map]. rewrite (walk_app_at _ _ _ _ _ (walk_esc c)), IH. reflexivity.
Qed.
Lemma dump_int_out z : Forall (fun c => c <> 34%N) (dump_int z).
Proof.
  assert (D : forall n, Forall (fun c => c <> 34%N) (dec n)).
  { intro n. destruct (dec_ok n) as [[[_ F] _] _]. apply digits_plain in F. apply (Forall_impl _ (fun c H => proj1 H) F). }
  destruct z; cbn [dump_int]; [apply D|apply D|]. constructor; [cbn; lia|apply D].
Qed.
Definition goes (s : str) (P : Prop) : Prop := exists o, walk Out s = (Out, o) /\ (P -> Exists bad o).
Lemma goes_app s r P Q : goes s P -> goes r Q -> goes (s ++ r) (P \/ Q).
Proof.
  intros (o & E & F) (o' & E' & F'). exists (o ++ o'). rewrite (walk_app_at _ _ _ _ _ E), E'. split; [reflexivity|]. intros [H|H]; apply Exists_app; auto.
Qed.
Lemma goes_impl s (P Q : Prop) : (Q -> P) -> goes s P -> goes s Q.
Proof. intros H (o & E & F). exists o. auto. Qed.
Lemma goes_plain s : Forall (fun c => c <> 34%N) s -> goes s False.
Proof. intro F. exists s. split; [now apply walk_out|easy]. Qed.
Lemma goes_join {A} sep (P : A -> Prop) (f : A -> str) l : Forall (fun c => c <> 34%N) sep -> Forall (fun x => goes (f x) (P x)) l -> goes (join sep (map f l)) (Exists P l).
Proof.
  intros S F. induction F as [|x l G F IH]; [apply (goes_impl _ False); [intro H; inversion H|apply goes_plain; constructor]|].
  destruct l as [|y l]; cbn [map join] in *.
  - apply (goes_impl _ (P x)); [|exact G]. intro H. inversion H as [? ? H1|? ? H1]; [exact H1|inversion H1].
  - apply (goes_impl _ (P x \/ (False \/ Exists P (y :: l)))).
    + intro H. inversion H; auto.
    + apply goes_app; [exact G|]. apply goes_app; [now apply goes_plain|exact IH].
Qed.
Section Nan.
Variable kind : Z -> float_kind.
Hypothesis KF : forall f r, kind f = Finite r -> float_text r.
Definition off (j : jv) : Prop := exists f, part (JFloat f) j /\ (forall r, kind f <> Finite r).
Lemma newline_out i n : Forall (fun c => c <> 34%N) (newline i n).
Proof. destruct i; [|constructor]. constructor; [discriminate|]. apply Forall_forall. intros c I. apply repeat_spec in I. now subst. Qed.
Lemma item_sep_out i n : Forall (fun c => c <> 34%N) (item_sep i n).
Proof. destruct i; cbn [item_sep]; [constructor; [cbn; lia|apply newline_out]|]. repeat (constructor; [cbn; lia|]). constructor. Qed.
Lemma dump_goes i j : forall level, goes (dump kind i level j) (off j).
Proof.
  assert (Leaf : forall s j, Forall (fun c => c <> 34%N) s -> (forall l, j <> JArr l) -> (forall l, j <> JObj l) -> (forall f, j <> JFloat f) -> goes s (off j)).
  { intros s j' F A O Fl. apply (goes_impl _ False); [|now apply goes_plain]. intros (f & P & _). inversion P; subst; [now apply (Fl f)|now apply (A l)|now apply (O l)]. }
  assert (Fin : forall s, goes s False -> goes s False) by auto.
  induction j as [|b|z|f|s|l IH|l IH] using jv_rect'; intro level.
  - apply Leaf; try discriminate. repeat (constructor; [cbn; lia|]). constructor.
  - apply Leaf; try discriminate. destruct b; repeat (constructor; [cbn; lia|]); constructor.
  - apply Leaf; try discriminate. apply dump_int_out.
  - cbn [dump]. unfold dump_float. assert (X : forall s, Forall (fun c => c <> 34%N) s -> Exists bad s -> goes s (off (JFloat f))).
    { intros s F B. exists s. split; [now apply walk_out|easy]. }
    destruct (kind f) as [r| | |] eqn:K.
    + exists r. pose proof (float_plain r (KF f r K)) as F. split; [apply walk_out; apply (Forall_impl _ (fun c H => proj1 H) F)|].
      intros (g & P & N). inversion P; subst. now destruct (N r).
    + apply X; [repeat (constructor; [cbn; lia|]); constructor|]. left. now left.
    + apply X; [repeat (constructor; [cbn; lia|]); constructor|]. left. now right.
    + apply X; [repeat (constructor; [cbn; lia|]); constructor|]. right. left. now right.
  - cbn [dump]. exists []. split; [apply walk_dump_str|]. intros (f & P & _). inversion P.
  - destruct l as [|x l].
    { apply (goes_impl _ False); [|apply goes_plain; repeat (constructor; [cbn; lia|]); constructor]. intros (f & P & _). inversion P; subst. contradiction. }
    change (dump kind i level (JArr (x :: l))) with
      (lit "[" ++ newline i (S level) ++ join (item_sep i (S level)) (map (dump kind i (S level)) (x :: l)) ++ newline i level ++ lit "]").
    apply (goes_impl _ (False \/ (False \/ (Exists off (x :: l) \/ (False \/ False))))).
    + intros (f & P & N). right. right. left. inversion P as [|l' j I P' E|]; subst. apply Exists_exists. exists j. split; [exact I|]. now exists f.
    + repeat apply goes_app; try (apply goes_plain; apply newline_out); try (apply goes_plain; repeat (constructor; [cbn; lia|]); constructor).
      apply goes_join; [apply item_sep_out|]. eapply Forall_impl; [|exact IH]. cbv beta. intros y H. apply H.
  - destruct l as [|x l].
    { apply (goes_impl _ False); [|apply goes_plain; repeat (constructor; [cbn; lia|]); constructor]. intros (f & P & _). inversion P; subst. contradiction. }
    set (one := fun kv : str * jv => match kv with (k, x) => dump_str k ++ lit ": " ++ dump kind i (S level) x end).
    change (dump kind i level (JObj (x :: l))) with
      (lit "{" ++ newline i (S level) ++ join (item_sep i (S level)) (map one (x :: l)) ++ newline i level ++ lit "}").
    apply (goes_impl _ (False \/ (False \/ (Exists (fun kv => off (snd kv)) (x :: l) \/ (False \/ False))))).
    + intros (f & P & N). right. right. left. inversion P as [| |l' k j I P' E]; subst. apply Exists_exists. exists (k, j). split; [exact I|]. now exists f.
    + repeat apply goes_app; try (apply goes_plain; apply newline_out); try (apply goes_plain; repeat (constructor; [cbn; lia|]); constructor).
      apply goes_join; [apply item_sep_out|]. apply (Forall_impl _ (P := fun kv => forall level, goes (dump kind i level (snd kv)) (off (snd kv)))); [|exact IH].
      intros [k y] H. cbn [snd] in *. unfold one. apply (goes_impl _ (False \/ (False \/ off y))); [auto|].
      apply goes_app; [exists []; split; [apply walk_dump_str|easy]|]. apply goes_app; [|apply H]. apply goes_plain. repeat (constructor; [cbn; lia|]); constructor.
Qed.
Lemma off_not_json means i j j' : off j -> ~ json_text false means (dumps kind i j) j'.
Proof.
  intros O T. apply passes_text in T as (o & E & F). destruct (dump_goes i j 0) as (o' & E' & B). unfold dumps in E. rewrite E' in E. apply pair_equal_spec in E as [_ <-].
  apply Exists_exists in B as (c & I & B); [|exact O]. rewrite Forall_forall in F. now apply (F c I).
Qed.
End Nan.
