(** Documents: each member says what it should, and the whole is JSON. *)
From Verif Require Import Spec_Times Proof_Times Spec_Zipkin Proof_Zipkin Proof_Json.
From Verif Require Import Spec_Document.
From Coq Require Import Lia ZifyBool ZifyN.

(** ** Texts *)
Definition unicodeb (s : str) : bool := forallb (fun c => N.leb c 1114111 && negb (in_range 55296 57343 c)) s.
Lemma unicodeb_ok s : unicodeb s = true -> unicode s.
Proof.
  intro H. unfold unicodeb in H. rewrite forallb_forall in H. apply Forall_forall. intros c I. specialize (H c I). unfold high, low, in_range in *. lia.
Qed.
Lemma unicode_app a b : unicode a -> unicode b -> unicode (a ++ b).
Proof. intros A B. apply Forall_app. now split. Qed.
Lemma unicode_below s : Forall (fun c => (c < 55296)%N) s -> unicode s.
Proof. apply Forall_impl. unfold high, low. intros c. lia. Qed.
Lemma unicode_join sep l : unicode sep -> Forall unicode l -> unicode (join sep l).
Proof.
  intros S F. induction F as [|x l U F IH]; [constructor|]. destruct l as [|y l]; [exact U|]. change (join sep (x :: y :: l)) with (x ++ sep ++ join sep (y :: l)).
  repeat apply unicode_app; assumption.
Qed.
Lemma hex_id_unicode w z h : hex_id w z h -> unicode h.
Proof.
  intros (_ & F & _). rewrite forallb_forall in F. apply unicode_below. apply Forall_forall. intros c I. specialize (F c I).
  unfold is_lhex, is_digit, in_range in F. lia.
Qed.
Lemma instant_unicode t us : utc_instant t us -> unicode t.
Proof.
  intros [Y M D h m s f days HY HM HD Hh Hm Hs Hf _ _ _ _].
  assert (G : forall n x, Spec_Times.digits n x -> unicode x).
  { intros n x [_ F]. apply unicode_below. apply (Forall_impl _ (P := fun c => (48 <= c <= 57)%N)); [lia|exact F]. }
  repeat apply unicode_app; try (eapply G; eassumption); apply unicodeb_ok; reflexivity.
Qed.

Section Doc.
Variable kind : Z -> float_kind.
Variable read_float : str -> Z.
Variable nan inf neg_inf : Z.
Hypothesis PF : python_floats kind read_float nan inf neg_inf.
Variable str_repr : str -> str.
Hypothesis SR : forall s, unicode s -> unicode (str_repr s).
Notation means := (float_of read_float nan inf neg_inf).
Variable allowed : Z -> Prop.

(** ** JSON values that are written and read well *)
Definition fine1 (j : jv) : Prop := texts unicode j /\ (forall f, j = JFloat f -> allowed f) /\ keys_differ j.
Definition fine (j : jv) : Prop := every fine1 j.
Lemma every_impl (P Q : jv -> Prop) : (forall j, P j -> Q j) -> forall j, every P j -> every Q j.
Proof.
  intros H j. induction j as [|b|z|f|s|l IH|l IH] using jv_rect'; intro E.
  1-5: apply ev_leaf; [apply H; now apply every_self in E|discriminate|discriminate].
  - apply every_arr in E as [A F]. apply ev_arr; [now apply H|]. rewrite Forall_forall in *. intros x I. apply (IH x I). now apply F.
  - apply every_obj in E as [A F]. apply ev_obj; [now apply H|]. rewrite Forall_forall in *. intros x I. apply (IH x I). now apply F.
Qed.
Lemma fine_leaf j : fine1 j -> (forall l, j <> JArr l) -> (forall l, j <> JObj l) -> fine j.
Proof. now apply ev_leaf. Qed.
Ltac leaf := apply fine_leaf; [split; [split; discriminate|split; [intros ? [=]|discriminate]]|discriminate|discriminate].
Lemma fine_null : fine JNull. Proof. leaf. Qed.
Lemma fine_bool b : fine (JBool b). Proof. leaf. Qed.
Lemma fine_int z : fine (JInt z). Proof. leaf. Qed.
Lemma fine_str s : unicode s -> fine (JStr s).
Proof. intro U. apply fine_leaf; [split; [split; [intros ? [= <-]; exact U|discriminate]|split; discriminate]|discriminate|discriminate]. Qed.
Lemma fine_float f : allowed f -> fine (JFloat f).
Proof. intro U. apply fine_leaf; [split; [split; discriminate|split; [intros ? [= <-]; exact U|discriminate]]|discriminate|discriminate]. Qed.
Lemma fine_arr l : Forall fine l -> fine (JArr l).
Proof. intro F. apply ev_arr; [|exact F]. split; [split; discriminate|split; discriminate]. Qed.
Lemma fine_obj l : NoDup (map fst l) -> Forall unicode (map fst l) -> Forall fine (map snd l) -> fine (JObj l).
Proof.
  intros N U F. apply ev_obj.
  - split; [split; [discriminate|intros ? [= <-]]|split; [discriminate|intros ? [= <-]; exact N]]. rewrite Forall_map in U. exact U.
  - rewrite Forall_map in F. exact F.
Qed.
Fixpoint nodupb (l : list str) : bool := match l with [] => true | x :: l' => negb (existsb (str_eqb x) l') && nodupb l' end.
Lemma nodupb_ok l : nodupb l = true -> NoDup l.
Proof.
  induction l as [|x l IH]; intro H; [constructor|]. cbn [nodupb] in H. apply andb_true_iff in H as [H1 H2]. constructor; [|auto].
  intro I. apply negb_true_iff in H1. assert (E : existsb (str_eqb x) l = true); [|congruence]. apply existsb_exists. exists x. split; [exact I|].
  unfold str_eqb. destruct (str_eq_dec x x); [reflexivity|contradiction].
Qed.
Lemma fine_obj_lit l : nodupb (map fst l) && forallb unicodeb (map fst l) = true -> Forall fine (map snd l) -> fine (JObj l).
Proof.
  intros H F. apply andb_true_iff in H as [H1 H2]. apply fine_obj; [now apply nodupb_ok| |exact F]. rewrite forallb_forall in H2. apply Forall_forall.
  intros s I. apply unicodeb_ok. now apply H2.
Qed.
Lemma unicode_unpaired s : unicode s -> unpaired s.
Proof.
  intro U. split; [apply (Forall_impl _ (fun c H => proj1 H) U)|]. intros a h l b -> Hh _. unfold unicode in U. apply Forall_app in U as [_ U].
  apply Forall_cons_iff in U as [(_ & U & _) _]. contradiction.
Qed.
Lemma fine_doc python indent j : (python = false -> forall f, allowed f -> a_number kind f) -> fine j -> doc python means (dumps kind indent j) j.
Proof.
  intros N F. apply (dump_doc python kind read_float nan inf neg_inf PF).
  - revert F. apply every_impl. intros x (A & _ & _). destruct python; [|exact A]. destruct A as [A B].
    split; [intros s E; apply unicode_unpaired; now apply A|intros l E; apply (Forall_impl _ (fun kv => unicode_unpaired (fst kv)) (B l E))].
  - intro E. revert F. apply every_impl. intros x (_ & A & _) f Ef. now apply (N E), A.
Qed.
Lemma fine_text python indent j : (python = false -> forall f, allowed f -> a_number kind f) -> fine j -> json_text python means (dumps kind indent j) j.
Proof.
  intros N F. exists [], (dumps kind indent j), []. split; [constructor|]. split; [|split; [constructor|now rewrite app_nil_r]]. now apply fine_doc.
Qed.
Lemma fine_keyed j : fine j -> every keys_differ j.
Proof. apply every_impl. now intros x (_ & _ & A). Qed.
Lemma fine_loads indent j : fine j -> loads read_float nan inf neg_inf (dumps kind indent j) = Some j.
Proof. intro F. apply loads_doc; [now apply fine_text|now apply fine_keyed]. Qed.
Lemma reload_ok indent j : fine j -> reload kind read_float nan inf neg_inf indent (Ok j) = Ok j.
Proof. intro F. unfold reload, bind_out. now rewrite fine_loads. Qed.

(** ** The parts *)
Definition made {A} (f : outcome_of jv) (says : A -> jv -> Prop) (x : A) : Prop := exists j, f = Ok j /\ says x j /\ fine j.
Lemma map_out_made {A} (f : A -> outcome_of jv) says l : Forall (fun x => made (f x) says x) l ->
  exists js, map_out f l = Ok js /\ Forall2 says l js /\ Forall fine js.
Proof.
  induction 1 as [|x l (j & E & S & F) H (js & Es & Ss & Fs)]; [exists []; repeat constructor|].
  exists (j :: js). cbn [map_out]. rewrite E. cbn [bind_out]. rewrite Es. cbn [bind_out]. split; [reflexivity|]. split; constructor; assumption.
Qed.
Fixpoint pyval_ind2 (P : pyval -> Prop) (H0 : P PNone) (H1 : forall b, P (PBool b)) (H2 : forall s z, P (PInt s z)) (H3 : forall s f, P (PFloat s f))
    (H4 : forall s x, P (PStr s x)) (H5 : forall s x, P (PBytes s x)) (H6 : forall t l, Forall P l -> P (PSeq t l)) (H7 : forall i, P (PObj i)) (v : pyval) : P v :=
  match v with
  | PNone => H0 | PBool b => H1 b | PInt s z => H2 s z | PFloat s f => H3 s f | PStr s x => H4 s x | PBytes s x => H5 s x | PObj i => H7 i
  | PSeq t l => H6 t l ((fix go l : Forall P l := match l with [] => Forall_nil _
      | x :: l' => Forall_cons _ (pyval_ind2 P H0 H1 H2 H3 H4 H5 H6 H7 x) (go l') end) l)
  end.
Lemma pv_json_made v : sayable allowed v -> made (pv_json v) value_says v.
Proof.
  induction v as [|b|s z|s f|s x|s x|t l IH|i] using pyval_ind2; intro S; cbn [pv_json].
  - exists JNull. split; [reflexivity|]. split; [constructor|apply fine_null].
  - exists (JBool b). split; [reflexivity|]. split; [constructor|apply fine_bool].
  - exists (JInt z). split; [reflexivity|]. split; [constructor|apply fine_int].
  - exists (JFloat f). split; [reflexivity|]. split; [constructor|apply fine_float]. now inversion S.
  - exists (JStr x). split; [reflexivity|]. split; [constructor|apply fine_str]. now inversion S.
  - inversion S.
  - assert (F : Forall (sayable allowed) l) by now inversion S.
    assert (M : Forall (fun x => made (pv_json x) value_says x) l).
    { rewrite Forall_forall in *. intros x I. apply (IH x I). now apply F. }
    destruct (map_out_made pv_json value_says l M) as (js & E & Ss & Fs).
    assert (E' : (fix go (l : list pyval) : outcome_of (list jv) :=
                   match l with
                   | [] => Ok []
                   | x :: l' => bind_out (pv_json x) (fun y => bind_out (go l') (fun ys => Ok (y :: ys)))
                   end) l = Ok js).
    { rewrite <- E. clear. induction l as [|x l IH]; [reflexivity|]. cbn [map_out]. now rewrite IH. }
    rewrite E'. exists (JArr js). split; [reflexivity|]. split; [now constructor|now apply fine_arr].
  - inversion S.
Qed.
Fixpoint anyv_ind2 (P : anyv -> Prop) (H0 : P ANone) (H1 : forall b, P (ABool b)) (H2 : forall z, P (AInt z)) (H3 : forall f, P (AFloat f))
    (H4 : forall x, P (AStr x)) (H5 : forall x, P (ABytes x)) (H6 : forall l, Forall P l -> P (ASeq l)) (H7 : forall l, Forall (fun kv => P (snd kv)) l -> P (AMap l))
    (H8 : P AOther) (v : anyv) : P v :=
  let rec := anyv_ind2 P H0 H1 H2 H3 H4 H5 H6 H7 H8 in
  match v with
  | ANone => H0 | ABool b => H1 b | AInt z => H2 z | AFloat f => H3 f | AStr x => H4 x | ABytes x => H5 x | AOther => H8
  | ASeq l => H6 l ((fix go l : Forall P l := match l with [] => Forall_nil _ | x :: l' => Forall_cons _ (rec x) (go l') end) l)
  | AMap l => H7 l ((fix go l : Forall (fun kv => P (snd kv)) l := match l with [] => Forall_nil _ | kv :: l' => Forall_cons _ (rec (snd kv)) (go l') end) l)
  end.
Lemma Forall2_keys {A B C} (R : B -> C -> Prop) (l : list (A * B)) (l' : list (A * C)) :
  Forall2 (fun kv kj => fst kj = fst kv /\ R (snd kv) (snd kj)) l l' -> map fst l' = map fst l.
Proof. induction 1 as [|x y l l' [E _] F IH]; [reflexivity|]. cbn. now rewrite E, IH. Qed.
Lemma anyv_json_made v : sayable_body allowed v -> made (anyv_json v) body_says v.
Proof.
  induction v as [|b|z|f|x|x|l IH|l IH|] using anyv_ind2; intro S; cbn [anyv_json].
  - exists JNull. split; [reflexivity|]. split; [constructor|apply fine_null].
  - exists (JBool b). split; [reflexivity|]. split; [constructor|apply fine_bool].
  - exists (JInt z). split; [reflexivity|]. split; [constructor|apply fine_int].
  - exists (JFloat f). split; [reflexivity|]. split; [constructor|apply fine_float]. now inversion S.
  - exists (JStr x). split; [reflexivity|]. split; [constructor|apply fine_str]. now inversion S.
  - inversion S.
  - assert (F : Forall (sayable_body allowed) l) by now inversion S.
    assert (M : Forall (fun x => made (anyv_json x) body_says x) l).
    { rewrite Forall_forall in *. intros x I. apply (IH x I). now apply F. }
    destruct (map_out_made anyv_json body_says l M) as (js & E & Ss & Fs).
    assert (E' : (fix go (l : list anyv) : outcome_of (list jv) :=
                   match l with
                   | [] => Ok []
                   | x :: l' => bind_out (anyv_json x) (fun y => bind_out (go l') (fun ys => Ok (y :: ys)))
                   end) l = Ok js).
    { rewrite <- E. clear. induction l as [|x l IH]; [reflexivity|]. cbn [map_out]. now rewrite IH. }
    rewrite E'. exists (JArr js). split; [reflexivity|]. split; [now constructor|now apply fine_arr].
  - inversion S as [| | | | | |l0 N F E]; subst l0.
    assert (G : exists js, (fix go (l : list (str * anyv)) : outcome_of (list (str * jv)) :=
                   match l with
                   | [] => Ok []
                   | (k, x) :: l' => bind_out (anyv_json x) (fun y => bind_out (go l') (fun ys => Ok ((k, y) :: ys)))
                   end) l = Ok js /\ Forall2 (fun kv kj => fst kj = fst kv /\ body_says (snd kv) (snd kj)) l js /\ Forall fine (map snd js)).
    { clear - IH F. induction IH as [|[k v] l Hv IH IHl]; [exists []; repeat constructor|]. apply Forall_cons_iff in F as [[_ Sv] F]. cbn [fst snd] in *.
      destruct (Hv Sv) as (j & E & Sj & Fj). destruct (IHl F) as (js & Es & Ss & Fs). exists ((k, j) :: js). rewrite E. cbn [bind_out]. rewrite Es. cbn [bind_out].
      split; [reflexivity|]. split; [constructor; [now split|exact Ss]|]. constructor; [exact Fj|exact Fs]. }
    destruct G as (js & -> & Ss & Fs). exists (JObj js). split; [reflexivity|]. split; [now constructor|].
    apply fine_obj; [rewrite (Forall2_keys _ _ _ Ss); exact N| |exact Fs]. rewrite (Forall2_keys _ _ _ Ss), Forall_map. apply (Forall_impl _ (fun c H => proj1 H) F).
  - inversion S.
Qed.
Lemma attrs_json_made d : sayable_attrs allowed d -> made (attrs_json d) attrs_say d.
Proof.
  intros [N F]. unfold attrs_json.
  assert (G : exists js, map_out (fun kv => bind_out (pv_json (snd kv)) (fun j => Ok (fst kv, j))) d = Ok js
    /\ Forall2 (fun kv kj => fst kj = fst kv /\ value_says (snd kv) (snd kj)) d js /\ Forall fine (map snd js)).
  { clear N. induction F as [|[k v] l [_ Sv] F (js & Es & Ss & Fs)]; [exists []; repeat constructor|]. cbn [fst snd map_out] in *.
    destruct (pv_json_made v Sv) as (j & E & Sj & Fj). exists ((k, j) :: js). rewrite E. cbn [bind_out]. rewrite Es. cbn [bind_out].
    split; [reflexivity|]. split; [constructor; [now split|exact Ss]|]. constructor; [exact Fj|exact Fs]. }
  destruct G as (js & -> & Ss & Fs). exists (JObj js). split; [reflexivity|]. split; [exists js; now split|].
  apply fine_obj; [rewrite (Forall2_keys _ _ _ Ss); exact N| |exact Fs]. rewrite (Forall2_keys _ _ _ Ss), Forall_map. apply (Forall_impl _ (fun c H => proj1 H) F).
Qed.
Lemma id_ok32 z : (0 <= z < 2 ^ 128)%Z -> id_says 32 z (JStr (lit "0x" ++ format_trace_id z)) /\ fine (JStr (lit "0x" ++ format_trace_id z)).
Proof.
  intro H. pose proof (trace_id_read z H) as I. split; [now exists (format_trace_id z)|]. apply fine_str. apply unicode_app; [apply unicodeb_ok; reflexivity|].
  now apply hex_id_unicode in I.
Qed.
Lemma id_ok16 z : (0 <= z < 2 ^ 64)%Z -> id_says 16 z (JStr (lit "0x" ++ format_span_id z)) /\ fine (JStr (lit "0x" ++ format_span_id z)).
Proof.
  intro H. pose proof (span_id_read z H) as I. split; [now exists (format_span_id z)|]. apply fine_str. apply unicode_app; [apply unicodeb_ok; reflexivity|].
  now apply hex_id_unicode in I.
Qed.
Lemma context_ok c : sayable_context c -> context_says str_repr c (context_json str_repr c) /\ fine (context_json str_repr c).
Proof.
  intros [[Ht Hs] St]. destruct (id_ok32 _ Ht) as [T1 T2]. destruct (id_ok16 _ Hs) as [S1 S2]. split.
  - do 2 eexists. split; [reflexivity|]. split; assumption.
  - apply fine_obj_lit; [reflexivity|]. cbn [map snd]. constructor; [exact T2|]. constructor; [exact S2|]. constructor; [|constructor]. apply fine_str.
    unfold state_repr. apply unicode_app; [apply unicodeb_ok; reflexivity|]. apply unicode_app; [|apply unicodeb_ok; reflexivity].
    apply unicode_join; [apply unicodeb_ok; reflexivity|]. rewrite Forall_map. apply (Forall_impl _ (P := fun kv => unicode (fst kv) /\ unicode (snd kv))); [|exact St].
    intros [k v] [Uk Uv]. cbn [fst snd] in *. apply SR. repeat apply unicode_app; try assumption; apply unicodeb_ok; reflexivity.
Qed.
Lemma time_ok t : (0 <= t < until_2106)%Z -> exists text, ns_to_iso_str t = Ok text /\ time_says t (JStr text) /\ fine (JStr text).
Proof.
  intro H. destruct (printed_ok t H) as (text & us & E & U & B & _). exists text. split; [exact E|]. split; [now exists text, us|]. apply fine_str. now apply instant_unicode in U.
Qed.
Lemma time_json_made o : later_than_1970 o -> made (time_json o) (or_null time_says) o.
Proof.
  intro H. destruct o as [t|]; cbn [time_json]; [|exists JNull; split; [reflexivity|split; [reflexivity|apply fine_null]]].
  specialize (H t eq_refl). destruct (time_ok t) as (text & E & S & F); [lia|]. rewrite (proj2 (Z.eqb_neq t 0)) by lia. rewrite E. exists (JStr text). split; [reflexivity|now split].
Qed.
Lemma resource_json_made r : sayable_resource allowed r -> made (resource_json r) resource_says r.
Proof.
  intros [A U]. destruct (attrs_json_made _ A) as (j & E & S & F). unfold resource_json. rewrite E. cbn [bind_out]. eexists. split; [reflexivity|].
  split; [exists j; now split|]. apply fine_obj_lit; [reflexivity|]. constructor; [exact F|]. constructor; [now apply fine_str|constructor].
Qed.
Lemma made_reload {A} indent f (says : A -> jv -> Prop) x : made f says x -> made (reload kind read_float nan inf neg_inf indent f) says x.
Proof. intros (j & E & S & F). exists j. rewrite E, reload_ok by exact F. now repeat split. Qed.
Lemma event_made e : unicode (ev_name e) /\ printable_time (ev_ts e) /\ sayable_attrs allowed (ba_dict (ev_attrs e)) -> made (event_json e) event_says e.
Proof.
  intros (U & T & A). destruct (time_ok _ T) as (text & E & S & F). destruct (attrs_json_made _ A) as (j & Ej & Sj & Fj). unfold event_json. rewrite E. cbn [bind_out].
  rewrite Ej. cbn [bind_out]. eexists. split; [reflexivity|]. split; [do 2 eexists; split; [reflexivity|now split]|].
  apply fine_obj_lit; [reflexivity|]. constructor; [now apply fine_str|]. constructor; [exact F|]. constructor; [exact Fj|constructor].
Qed.
Lemma link_made l : sayable_context (lk_ctx l) /\ sayable_attrs allowed (ba_dict (lk_attrs l)) -> made (link_json str_repr l) (link_says str_repr) l.
Proof.
  intros (C & A). destruct (context_ok _ C) as [S F]. destruct (attrs_json_made _ A) as (j & Ej & Sj & Fj). unfold link_json. rewrite Ej. cbn [bind_out].
  eexists. split; [reflexivity|]. split; [do 2 eexists; split; [reflexivity|now split]|].
  apply fine_obj_lit; [reflexivity|]. constructor; [exact F|]. constructor; [exact Fj|constructor].
Qed.
Lemma status_made st : st_desc st = PNone \/ (exists sub d, st_desc st = PStr sub d /\ unicode d) -> made (status_json st) status_says st.
Proof.
  intro H. destruct st as [c d]. cbn [st_desc] in H. unfold status_json. cbn [st_desc st_code].
  assert (K : exists code, match c with UNSET => lit "UNSET" | OK => lit "OK" | ERROR => lit "ERROR" end = code /\ unicode code
              /\ In (c, code) [(UNSET, lit "UNSET"); (OK, lit "OK"); (ERROR, lit "ERROR")]).
  { eexists. split; [reflexivity|]. destruct c; (split; [apply unicodeb_ok; reflexivity|cbn; auto]). }
  destruct K as (code & -> & Uc & Ic).
  assert (Plain : forall d', d' = PNone \/ (exists sub, d' = PStr sub []) -> made (Ok (JObj [(lit "status_code", JStr code)])) status_says (St c d')).
  { intros d' Hd. eexists. split; [reflexivity|]. split.
    - exists code, []. split; [reflexivity|]. split; [exact Ic|]. cbn [st_desc]. split; [|reflexivity]. intros sub x -> Nx. destruct Hd as [Hd|[sub' Hd]]; [discriminate|]. now injection Hd.
    - apply fine_obj_lit; [reflexivity|]. constructor; [now apply fine_str|constructor]. }
  destruct H as [->|(sub & x & -> & U)]; [apply Plain; now left|]. destruct x as [|a x]; [apply Plain; right; now exists sub|].
  cbn [Model_Span.truthy pv_json bind_out]. eexists. split; [reflexivity|]. split.
  - exists code, [(lit "description", JStr (a :: x))]. split; [reflexivity|]. split; [exact Ic|]. cbn [st_desc]. split; [now intros ? ? [= _ <-] _|].
    intros [H|[? H]]; discriminate.
  - apply fine_obj_lit; [reflexivity|]. constructor; [now apply fine_str|]. constructor; [now apply fine_str|constructor].
Qed.
Lemma kind_ok k : (0 <= k <= 4)%Z -> exists n, kind_str k = lit "SpanKind." ++ n /\ In (k, n) kinds /\ unicode n.
Proof.
  intro H. assert (C : (k = 0 \/ k = 1 \/ k = 2 \/ k = 3 \/ k = 4)%Z) by lia.
  destruct C as [->|[->|[->|[->| ->]]]]; eexists; (split; [reflexivity|]); (split; [cbn; auto 10|apply unicodeb_ok; reflexivity]).
Qed.
Ltac fines := repeat (constructor; [assumption || (apply fine_str; assumption) || (apply fine_arr; assumption) || apply fine_int || apply fine_null|]); try constructor.
Theorem span_made s r : sayable_span allowed s r -> made (span_json kind read_float nan inf neg_inf str_repr s r) (fun s => span_says str_repr s r) s.
Proof.
  intros (Un & C & K & P & T1 & T2 & D & A & E & L & R). unfold span_json.
  destruct (time_json_made _ T1) as (j1 & -> & S1 & F1). cbn [bind_out].
  destruct (time_json_made _ T2) as (j2 & -> & S2 & F2). cbn [bind_out].
  destruct (status_made _ D) as (j3 & -> & S3 & F3). cbn [bind_out].
  destruct (attrs_json_made _ A) as (j4 & -> & S4 & F4). cbn [bind_out].
  destruct (map_out_made event_json event_says (bl_items (sp_events s))) as (j5 & -> & S5 & F5); [apply (Forall_impl _ event_made E)|]. cbn [bind_out].
  destruct (map_out_made (link_json str_repr) (link_says str_repr) (bl_items (sp_links s))) as (j6 & -> & S6 & F6); [apply (Forall_impl _ link_made L)|]. cbn [bind_out].
  destruct (made_reload (Some 4) _ _ _ (resource_json_made _ R)) as (j7 & -> & S7 & F7). cbn [bind_out].
  destruct (context_ok _ C) as [S8 F8]. destruct (kind_ok _ K) as (n & -> & Ik & Uk).
  assert (Pa : exists p, opt_json (fun p => JStr (lit "0x" ++ format_span_id (sc_span_id p))) (sp_parent s) = p /\ or_null (fun c => id_says 16 (sc_span_id c)) (sp_parent s) p /\ fine p).
  { eexists. split; [reflexivity|]. destruct (sp_parent s) as [p|]; cbn [opt_json or_null]; [|split; [reflexivity|apply fine_null]].
    destruct (P p eq_refl) as [[_ Hp] _]. now apply id_ok16. }
  destruct Pa as (p & -> & Sp & Fp).
  eexists. split; [reflexivity|]. split.
  - exists (context_json str_repr (sp_ctx s)), n, p, j1, j2, j3, j4, j5, j6, j7. split; [reflexivity|]. repeat (split; [assumption|]). assumption.
  - apply fine_obj_lit; [reflexivity|]. cbn [map snd]. assert (Ukk : unicode (lit "SpanKind." ++ n)) by (apply unicode_app; [apply unicodeb_ok; reflexivity|exact Uk]). fines.
Qed.
Theorem log_made r : sayable_log allowed r -> made (log_json kind read_float nan inf neg_inf r) log_says r.
Proof.
  intros (B & Sv & A & (t & Et & Ht) & (o & Eo & Ho) & Ti & Si & R). unfold log_json, log_times. rewrite Et, Eo.
  destruct (time_ok _ Ht) as (x1 & -> & S1 & F1). destruct (time_ok _ Ho) as (x2 & -> & S2 & F2). cbn [bind_out fst snd].
  destruct (made_reload (Some 4) _ _ _ (resource_json_made _ R)) as (j3 & -> & S3 & F3). cbn [bind_out].
  destruct (anyv_json_made _ B) as (j4 & -> & S4 & F4). cbn [bind_out].
  assert (Ha : exists j5, match lr_attrs r with [] => Ok JNull | _ => attrs_json (lr_attrs r) end = Ok j5 /\ (lr_attrs r = [] -> j5 = JNull)
                /\ (lr_attrs r <> [] -> attrs_say (lr_attrs r) j5) /\ fine j5).
  { destruct (lr_attrs r) as [|kv d]; [exists JNull; split; [reflexivity|split; [easy|split; [easy|apply fine_null]]]|].
    destruct (attrs_json_made _ A) as (j5 & E5 & S5 & F5). exists j5. split; [exact E5|]. split; [discriminate|]. now split. }
  destruct Ha as (j5 & E5 & S5a & S5b & F5).
  assert (Em : match lr_attrs r with [] => Ok JNull | d => attrs_json d end = Ok j5) by (rewrite <- E5; now destruct (lr_attrs r)). 
  match goal with |- made (bind_out ?M _) _ _ => replace M with (@Ok jv j5) end. cbn [bind_out].
  assert (Hi : exists ti, JStr (match lr_trace_id r with Some t => lit "0x" ++ format_trace_id t | None => [] end) = ti
               /\ match lr_trace_id r with Some z => id_says 32 z ti | None => ti = JStr [] end /\ fine ti).
  { eexists. split; [reflexivity|]. destruct (lr_trace_id r) as [z|]; [|split; [reflexivity|apply fine_str; constructor]]. now apply id_ok32, Ti. }
  destruct Hi as (ti & -> & S6 & F6).
  assert (Hi : exists ti, JStr (match lr_span_id r with Some t => lit "0x" ++ format_span_id t | None => [] end) = ti
               /\ match lr_span_id r with Some z => id_says 16 z ti | None => ti = JStr [] end /\ fine ti).
  { eexists. split; [reflexivity|]. destruct (lr_span_id r) as [z|]; [|split; [reflexivity|apply fine_str; constructor]]. now apply id_ok16, Si. }
  destruct Hi as (si & -> & S7 & F7).
  eexists. split; [reflexivity|]. split.
  - exists j4, j5, (JStr x1), (JStr x2), ti, si, j3. split; [reflexivity|]. split; [exact S4|]. split; [exact S5a|]. split; [exact S5b|].
    split; [exists t; now split|]. split; [exists o; now split|]. split; [exact S6|]. split; [exact S7|exact S3].
  - assert (G : forall o, fine (opt_json JInt o)) by (intros [z|]; [apply fine_int|apply fine_null]).
    assert (G' : fine (opt_json JStr (lr_severity_text r))) by (destruct (lr_severity_text r); [apply fine_str; now apply Sv|apply fine_null]).
    apply fine_obj_lit; [reflexivity|]. cbn [map snd]. repeat (constructor; [assumption || apply G || apply fine_int|]). constructor.
Qed.

(** ** Metrics *)
Lemma number_ok n : sayable_number allowed n -> number_says n (number_json n) /\ fine (number_json n).
Proof. intro S. destruct n as [z|f]; cbn; [split; [reflexivity|apply fine_int]|]. split; [reflexivity|]. apply fine_float. now apply S. Qed.
Lemma opt_number_ok o : sayable_opt allowed o -> or_null number_says o (opt_json number_json o) /\ fine (opt_json number_json o).
Proof. intro S. destruct o as [n|]; cbn [opt_json or_null]; [apply number_ok; now apply S|]. split; [reflexivity|apply fine_null]. Qed.
Lemma opt_int_ok o : or_null int_says o (opt_json JInt o) /\ fine (opt_json JInt o).
Proof. destruct o as [n|]; cbn; split; try reflexivity; [apply fine_int|apply fine_null]. Qed.
Lemma ints_ok l : ints_say l (JArr (map JInt l)) /\ fine (JArr (map JInt l)).
Proof.
  split; [exists (map JInt l); split; [reflexivity|]; induction l; constructor; [reflexivity|assumption]|].
  apply fine_arr. rewrite Forall_map. apply Forall_forall. intros z _. apply fine_int.
Qed.
Lemma numbers_ok l : Forall (sayable_number allowed) l -> numbers_say l (JArr (map number_json l)) /\ fine (JArr (map number_json l)).
Proof.
  intro F. split.
  - exists (map number_json l). split; [reflexivity|]. induction F as [|n l S F IH]; constructor; [now apply number_ok|exact IH].
  - apply fine_arr. rewrite Forall_map. apply (Forall_impl _ (P := sayable_number allowed)); [|exact F]. intros n S. now apply number_ok.
Qed.
Ltac members := apply fine_obj_lit; [reflexivity|]; cbn [map snd]; repeat (constructor; [assumption || apply fine_int || (apply fine_arr; assumption)|]); constructor.
Lemma exemplar_made e : sayable_exemplar allowed e -> made (exemplar_json e) exemplar_says e.
Proof.
  intros [A V]. unfold exemplar_json. destruct (attrs_json_made _ A) as (j & -> & S & F). cbn [bind_out]. destruct (number_ok _ V) as [Sv Fv].
  destruct (opt_int_ok (ex_span e)) as [S1 F1]. destruct (opt_int_ok (ex_trace e)) as [S2 F2].
  eexists. split; [reflexivity|]. split; [|members]. do 4 eexists. split; [reflexivity|]. repeat split; assumption.
Qed.
Lemma num_point_made p : sayable_num allowed p -> made (num_point_json p) num_point_says p.
Proof.
  intros (A & V & E). unfold num_point_json. destruct (attrs_json_made _ A) as (j & -> & S & F). cbn [bind_out].
  destruct (map_out_made exemplar_json exemplar_says _ (Forall_impl _ exemplar_made E)) as (ex & -> & Se & Fe). cbn [bind_out].
  destruct (number_ok _ V) as [Sv Fv]. destruct (opt_int_ok (n_start p)) as [S1 F1].
  eexists. split; [reflexivity|]. split; [|members]. do 4 eexists. split; [reflexivity|]. repeat split; assumption.
Qed.
Lemma hist_point_made p : sayable_hist allowed p -> made (hist_point_json p) hist_point_says p.
Proof.
  intros (A & V & B & Mn & Mx & E). unfold hist_point_json. destruct (attrs_json_made _ A) as (j & -> & S & F). cbn [bind_out].
  destruct (map_out_made exemplar_json exemplar_says _ (Forall_impl _ exemplar_made E)) as (ex & -> & Se & Fe). cbn [bind_out].
  destruct (number_ok _ V) as [Sv Fv]. destruct (opt_int_ok (h_start p)) as [S1 F1]. destruct (ints_ok (h_buckets p)) as [S2 F2]. destruct (numbers_ok _ B) as [S3 F3].
  destruct (opt_number_ok _ Mn) as [S4 F4]. destruct (opt_number_ok _ Mx) as [S5 F5].
  eexists. split; [reflexivity|]. split; [|members]. do 8 eexists. split; [reflexivity|]. repeat (split; [assumption|]). assumption.
Qed.
Lemma ebuckets_ok b : ebuckets_say b (ebuckets_json b) /\ fine (ebuckets_json b).
Proof.
  destruct (ints_ok (eb_counts b)) as [S F]. split; [eexists; split; [reflexivity|exact S]|]. unfold ebuckets_json. members.
Qed.
Lemma exp_point_made p : sayable_exp allowed p -> made (exp_point_json p) exp_point_says p.
Proof.
  intros (A & V & Mn & Mx & E). unfold exp_point_json. destruct (attrs_json_made _ A) as (j & -> & S & F). cbn [bind_out].
  destruct (map_out_made exemplar_json exemplar_says _ (Forall_impl _ exemplar_made E)) as (ex & -> & Se & Fe). cbn [bind_out].
  destruct (number_ok _ V) as [Sv Fv]. destruct (opt_int_ok (e_start p)) as [S1 F1]. destruct (ebuckets_ok (e_pos p)) as [S2 F2]. destruct (ebuckets_ok (e_neg p)) as [S3 F3].
  destruct (opt_number_ok _ Mn) as [S4 F4]. destruct (opt_number_ok _ Mx) as [S5 F5].
  eexists. split; [reflexivity|]. split; [|members]. do 8 eexists. split; [reflexivity|]. repeat (split; [assumption|]). assumption.
Qed.
Lemma points_made {P} indent (f : P -> outcome_of jv) says (sayb : P -> Prop) l : (forall p, sayb p -> made (f p) says p) -> Forall sayb l ->
  exists js, map_out (fun p => reload kind read_float nan inf neg_inf indent (f p)) l = Ok js /\ Forall2 says l js /\ Forall fine js.
Proof.
  intros H F. apply map_out_made. apply (Forall_impl _ (P := sayb)); [|exact F]. intros p S. apply made_reload. now apply H.
Qed.
Lemma data_made indent d : sayable_data allowed d -> made (data_json kind read_float nan inf neg_inf indent d) data_says d.
Proof.
  assert (B : forall b, fine (JBool b)) by apply fine_bool.
  destruct d as [l|l t m|l t|l t|]; cbn [sayable_data data_json]; intro S; [| | | |destruct S].
  - destruct (points_made indent num_point_json num_point_says _ l num_point_made S) as (ps & -> & Sp & Fp). cbn [bind_out]. eexists. split; [reflexivity|].
    split; [exists ps, []; split; [reflexivity|now split]|members].
  - destruct (points_made indent num_point_json num_point_says _ l num_point_made S) as (ps & -> & Sp & Fp). cbn [bind_out]. eexists. split; [reflexivity|].
    split; [exists ps; eexists; split; [reflexivity|now split]|].
    apply fine_obj_lit; [reflexivity|]. constructor; [now apply fine_arr|]. constructor; [apply fine_int|]. constructor; [apply B|constructor].
  - destruct (points_made indent hist_point_json hist_point_says _ l hist_point_made S) as (ps & -> & Sp & Fp). cbn [bind_out]. eexists. split; [reflexivity|].
    split; [exists ps; eexists; split; [reflexivity|now split]|members].
  - destruct (points_made indent exp_point_json exp_point_says _ l exp_point_made S) as (ps & -> & Sp & Fp). cbn [bind_out]. eexists. split; [reflexivity|].
    split; [exists ps; eexists; split; [reflexivity|now split]|members].
Qed.
Lemma text_ok_or_empty o : unicode_opt o -> text_or_empty o (JStr (match o with Some s => s | None => [] end)) /\ fine (JStr (match o with Some s => s | None => [] end)).
Proof. intro U. destruct o as [s|]; cbn; (split; [reflexivity|apply fine_str]); [now apply U|constructor]. Qed.
Lemma metric_made indent m : sayable_metric allowed m -> made (metric_json kind read_float nan inf neg_inf indent m) metric_says m.
Proof.
  intros (N & D & U & S). unfold metric_json. destruct (made_reload indent _ _ _ (data_made indent _ S)) as (d & -> & Sd & Fd). cbn [bind_out].
  destruct (text_ok_or_empty _ D) as [S1 F1]. destruct (text_ok_or_empty _ U) as [S2 F2]. pose proof (fine_str _ N) as FN.
  eexists. split; [reflexivity|]. split; [|members]. do 3 eexists. split; [reflexivity|]. repeat (split; [assumption|]). assumption.
Qed.
Lemma scope_made s : sayable_scope allowed s -> made (scope_json s) scope_says s.
Proof.
  intros (N & V & U & A). unfold scope_json.
  assert (Ha : exists j5, match sco_attrs s with [] => Ok JNull | d => attrs_json d end = Ok j5 /\ (sco_attrs s = [] -> j5 = JNull)
                /\ (sco_attrs s <> [] -> attrs_say (sco_attrs s) j5) /\ fine j5).
  { destruct (sco_attrs s) as [|kv d]; [exists JNull; split; [reflexivity|split; [easy|split; [easy|apply fine_null]]]|].
    destruct (attrs_json_made _ A) as (j5 & E5 & S5 & F5). exists j5. split; [exact E5|]. split; [discriminate|]. now split. }
  destruct Ha as (j5 & -> & S5a & S5b & F5). cbn [bind_out]. pose proof (fine_str _ N) as F1. pose proof (fine_str _ U) as F2.
  assert (F3 : fine (opt_json JStr (sco_version s))) by (destruct (sco_version s); [apply fine_str; now apply V|apply fine_null]).
  eexists. split; [reflexivity|]. split; [|members]. do 2 eexists. split; [reflexivity|]. split; [|now split]. now destruct (sco_version s).
Qed.
Definition sayable_sms (s : scope_metrics) : Prop := sayable_scope allowed (sms_scope s) /\ unicode (sms_schema s) /\ Forall (sayable_metric allowed) (sms_metrics s).
Lemma scope_metrics_made indent s : sayable_sms s -> made (scope_metrics_json kind read_float nan inf neg_inf indent s) scope_metrics_say s.
Proof.
  intros (S & U & M). unfold scope_metrics_json. destruct (made_reload indent _ _ _ (scope_made _ S)) as (j & -> & Sj & Fj). cbn [bind_out].
  destruct (points_made indent (metric_json kind read_float nan inf neg_inf indent) metric_says _ _ (metric_made indent) M) as (ms & -> & Sm & Fm). cbn [bind_out].
  pose proof (fine_str _ U) as FU. eexists. split; [reflexivity|]. split; [|members]. do 2 eexists. split; [reflexivity|now split].
Qed.
Definition sayable_rms (r : resource_metrics) : Prop := sayable_resource allowed (rms_resource r) /\ unicode (rms_schema r) /\ Forall sayable_sms (rms_scopes r).
Lemma resource_metrics_made indent r : sayable_rms r -> made (resource_metrics_json kind read_float nan inf neg_inf indent r) resource_metrics_say r.
Proof.
  intros (S & U & M). unfold resource_metrics_json. destruct (made_reload indent _ _ _ (resource_json_made _ S)) as (j & -> & Sj & Fj). cbn [bind_out].
  destruct (points_made indent (scope_metrics_json kind read_float nan inf neg_inf indent) scope_metrics_say _ _ (scope_metrics_made indent) M) as (ms & -> & Sm & Fm). cbn [bind_out].
  pose proof (fine_str _ U) as FU. eexists. split; [reflexivity|]. split; [|members]. do 2 eexists. split; [reflexivity|now split].
Qed.
Theorem metrics_made indent l : sayable_metrics allowed l -> made (metrics_data_json kind read_float nan inf neg_inf indent l) metrics_say l.
Proof.
  intro M. unfold metrics_data_json.
  destruct (points_made indent (resource_metrics_json kind read_float nan inf neg_inf indent) resource_metrics_say _ _ (resource_metrics_made indent) M) as (ms & -> & Sm & Fm). cbn [bind_out].
  eexists. split; [reflexivity|]. split; [|members]. eexists. split; [reflexivity|exact Sm].
Qed.

(** ** Texts and streams *)
Lemma to_text_made {A} python indent f (says : A -> jv -> Prop) x : (python = false -> forall f, allowed f -> a_number kind f) -> made f says x ->
  exists t j, to_text kind indent f = Ok t /\ says x j /\ json_text python means t j /\ loads read_float nan inf neg_inf t = Some j.
Proof.
  intros N (j & -> & S & F). exists (dumps kind indent j), j. split; [reflexivity|]. split; [exact S|]. split; [now apply fine_text|now apply fine_loads].
Qed.
Lemma console_made {A} python indent (f : A -> outcome_of jv) (says : A -> jv -> Prop) l : (python = false -> forall f, allowed f -> a_number kind f) ->
  Forall (fun x => made (f x) says x) l -> forall out,
  exists s js, console_export (fun x => to_text kind indent (f x)) l out = (out ++ s, Ok tt) /\ stream (doc python means) s js /\ Forall2 says l js /\ Forall (every keys_differ) js.
Proof.
  intro N. induction 1 as [|x l (j & E & S & F) H IH]; intro out.
  - exists [], []. cbn. rewrite app_nil_r. repeat constructor.
  - cbn [console_export]. rewrite E. cbn [to_text bind_out]. destruct (IH (out ++ dumps kind indent j ++ [10%N])) as (s & js & Es & St & Ss & Ks).
    exists (dumps kind indent j ++ [10%N] ++ s), (j :: js). rewrite Es. split; [f_equal; now rewrite <- !app_assoc|]. split; [|split; constructor; try assumption; now apply fine_keyed].
    constructor; [|exact St]. now apply fine_doc.
Qed.
End Doc.
(** A stream can be read in one way only. *)
Lemma stream_unique read_float nan inf neg_inf s l l' :
  stream (doc true (float_of read_float nan inf neg_inf)) s l -> stream (doc true (float_of read_float nan inf neg_inf)) s l' ->
  Forall (every keys_differ) l -> Forall (every keys_differ) l' -> l = l'.
Proof.
  intro S. revert l'. induction S as [|t j s l D S IH]; intros l' S' K K'.
  - inversion S' as [|t' j' s' l0 D' S0 E]; [reflexivity|]. apply doc_start in D'. destruct t'; [destruct D'|discriminate].
  - remember (t ++ [10%N] ++ s) as u eqn:Eu. destruct S' as [|t' j' s' l' D' S'].
    + apply doc_start in D. destruct t; [destruct D|discriminate].
    + apply Forall_cons_iff in K as [K1 K]. apply Forall_cons_iff in K' as [K1' K'].
      assert (En : forall r, ended (10%N :: r)) by (intro; cbn; auto 10).
      pose proof (proj1 (scan_all read_float nan inf neg_inf) t j D K1 (length t + length t') ([10%N] ++ s) ltac:(lia) (En _)) as E1.
      pose proof (proj1 (scan_all read_float nan inf neg_inf) t' j' D' K1' (length t + length t') ([10%N] ++ s') ltac:(lia) (En _)) as E2.
      rewrite Eu in E2. rewrite E1 in E2. injection E2 as <- <-. f_equal. now apply IH.
Qed.

(** ** What attributes keep can be said *)
From Verif Require Import Spec_Attr Proof_Attr.
Lemma elem_said v : v = PNone \/ elem_type (type_of v) -> exists j, pv_json v = Ok j /\ value_says v j.
Proof.
  intro H. destruct v as [|b|b z|b z|b z|b z|b z|b]; cbn [pv_json]; try (eexists; split; [reflexivity|constructor]); exfalso.
  - destruct H as [H|H]; [discriminate|]. unfold elem_type in H. destruct b; cbn in H; intuition discriminate.
  - destruct H as [H|H]; [discriminate|]. unfold elem_type in H. cbn in H. intuition discriminate.
  - destruct H as [H|H]; [discriminate|]. unfold elem_type in H. cbn in H. intuition discriminate.
Qed.
Lemma elems_said l : Forall (fun v => exists j, pv_json v = Ok j /\ value_says v j) l ->
  exists js, map_out pv_json l = Ok js /\ Forall2 value_says l js.
Proof.
  induction 1 as [|v l (j & E & S) F (js & Es & Ss)]; [exists []; split; [reflexivity|constructor]|].
  exists (j :: js). cbn [map_out]. rewrite E. cbn [bind_out]. rewrite Es. cbn [bind_out]. split; [reflexivity|now constructor].
Qed.
Lemma storable_said limit v : storable limit v -> exists j, pv_json v = Ok j /\ value_says v j.
Proof.
  intro S. destruct v as [|b|b z|b z|b z|b z|b l|b]; cbn [storable] in S; try (destruct S; fail); try (eexists; split; [reflexivity|constructor]).
  destruct S as (_ & (t & Et & F) & _).
  destruct (elems_said l) as (js & E & Ss).
  { apply (Forall_impl _ (P := fun e => e = PNone \/ type_of e = t)); [|exact F]. intros e H. apply elem_said. destruct H as [H|H]; [now left|right; now rewrite H]. }
  assert (E' : pv_json (PSeq b l) = bind_out (map_out pv_json l) (fun ys => Ok (JArr ys))).
  { cbn [pv_json]. f_equal. clear. induction l as [|x l IH]; [reflexivity|]. cbn [map_out]. now rewrite IH. }
  rewrite E', E. exists (JArr js). split; [reflexivity|now constructor].
Qed.
Lemma stored_said d : Forall (fun kv => exists j, pv_json (snd kv) = Ok j /\ value_says (snd kv) j) d -> exists j, attrs_json d = Ok j /\ attrs_say d j.
Proof.
  intro F. unfold attrs_json.
  assert (G : exists js, map_out (fun kv => bind_out (pv_json (snd kv)) (fun j => Ok (fst kv, j))) d = Ok js
    /\ Forall2 (fun kv kj => fst kj = fst kv /\ value_says (snd kv) (snd kj)) d js).
  { induction F as [|[k v] l (j & E & Sj) F (js & Es & Ss)]; [exists []; split; [reflexivity|constructor]|]. cbn [fst snd map_out] in *.
    exists ((k, j) :: js). rewrite E. cbn [bind_out]. rewrite Es. cbn [bind_out]. split; [reflexivity|]. constructor; [now split|exact Ss]. }
  destruct G as (js & -> & Ss). exists (JObj js). split; [reflexivity|]. exists js. now split.
Qed.

(** ** Floats in documents *)
Lemma attr_part d j k sub f : attrs_say d j -> In (k, PFloat sub f) d -> part (JFloat f) j.
Proof.
  intros (js & -> & F) I. assert (G : exists k', In (k', JFloat f) js).
  { induction F as [|[k1 v1] [k2 j2] d js [_ S] F IH]; [destruct I|]. destruct I as [[= -> ->]|I].
    - cbn [snd] in S. inversion S; subst. exists k2. now left.
    - destruct (IH I) as [k' H]. exists k'. now right. }
  destruct G as [k' I']. eapply part_obj; [exact I'|constructor].
Qed.
Lemma Forall2_image {A B} (R : A -> B -> Prop) l l' x : Forall2 R l l' -> In x l -> exists y, In y l' /\ R x y.
Proof.
  induction 1 as [|a b l l' H F IH]; intro I; [destruct I|]. destruct I as [->|I]; [exists b; split; [now left|exact H]|].
  destruct (IH I) as (y & Iy & Ry). exists y. split; [now right|exact Ry].
Qed.
Lemma console_raises {A} (f : A -> outcome_of str) before x after out out' : (exists e, f x = Raises e) ->
  console_export f before out = (out', Ok tt) -> exists e, console_export f (before ++ x :: after) out = (out', Raises e).
Proof.
  intros [e E]. exists e. revert out H. induction before as [|b before IH]; intros p C; cbn [app console_export] in *.
  - rewrite E. now injection C as ->.
  - destruct (f b); [now apply IH|discriminate].
Qed.
Lemma map_out_raises {A B} (f : A -> outcome_of B) l x : In x l -> (exists e, f x = Raises e) -> exists e, map_out f l = Raises e.
Proof.
  intros I [e E]. induction l as [|y l IH]; [destruct I|]. cbn [map_out]. destruct (f y) as [b|e'] eqn:Ey; [|now exists e'].
  destruct I as [->|I]; [congruence|]. destruct (IH I) as [e2 ->]. now exists e2.
Qed.
Lemma bind_raises {A B} (o : outcome_of A) (g : A -> outcome_of B) : (forall a, o = Ok a -> exists e, g a = Raises e) -> exists e, bind_out o g = Raises e.
Proof. intro H. destruct o as [a|e]; [now apply H|now exists e]. Qed.
