(** C116: the JSON that is written.

    [python_floats]: what is assumed of Python's floats.  [float_of]: the float that a number is read as. *)
From Verif Require Import Spec_Json Proof_Json.
From Coq Require Import Lia.

(** An instance of the floats: the float f is written as f.0 *)
Definition ex_kind (f : Z) : float_kind :=
  match f with 0%Z => NaN | 1%Z => PosInf | (-1)%Z => NegInf | _ => Finite (dump_int f ++ lit ".0") end.
Definition ex_read (s : str) : Z :=
  match scan_number (fun _ => 0%Z) (rev (tl (tl (rev s)))) with Some (JInt z, _) => z | _ => 0%Z end.
Example C116_floats : python_floats ex_kind ex_read 0 1 (-1).
Proof.
  assert (F : forall f, float_text (dump_int f ++ lit ".0") /\ ex_read (dump_int f ++ lit ".0") = f).
  { intro f.
    assert (P : exists neg i, int_part i /\ dump_int f = minus neg ++ i /\ f = (if neg then - number i 0 else number i 0)%Z).
    { destruct f as [|p|p].
      - exists false, (lit "0"). split; [|now split]. split; [split; [discriminate|constructor; [cbn; auto|constructor]]|now left].
      - destruct (dec_ok (Z.to_N (Z.pos p))) as [I V]. exists false, (dec (Z.to_N (Z.pos p))). split; [exact I|]. split; [reflexivity|]. rewrite V. reflexivity.
      - destruct (dec_ok (N.pos p)) as [I V]. exists true, (dec (N.pos p)). split; [exact I|]. split; [reflexivity|]. rewrite V. reflexivity. }
    destruct P as (neg & i & I & E & V). split.
    - exists neg, i, (lit ".0"). split; [exact I|]. split; [now rewrite E, <- app_assoc|]. left. exists (lit "0"). split; [|reflexivity].
      split; [discriminate|constructor; [cbn; auto|constructor]].
    - unfold ex_read. rewrite rev_app_distr. change (rev (lit ".0")) with [48; 46]%N. cbn [app tl]. rewrite rev_involutive, E.
      rewrite <- (app_nil_r i), <- (app_nil_r (i ++ [])), <- app_assoc. rewrite (scan_number_ok _ neg i [] [] (JInt f) I Logic.I); [reflexivity|]. left. split; [reflexivity|]. now rewrite V. }
  intro f. destruct f as [|p|p]; [reflexivity| |]; destruct p; try reflexivity; apply F.
Qed.

Section C116.
Variable kind : Z -> float_kind.
Variable read_float : str -> Z.
Variable nan inf neg_inf : Z.
Hypothesis floats : python_floats kind read_float nan inf neg_inf.
Notation means := (float_of read_float nan inf neg_inf).

(** What [json.dumps] writes, with any indentation, is a JSON text that stands for the value, if its texts are Unicode and its
    floats are numbers. *)
Theorem C116_written (indent : option nat) (j : jv) :
  every (texts unicode) j -> every (finite_floats kind) j -> json_text false means (dumps kind indent j) j.
Proof.
  intros T F. exists [], (dumps kind indent j), []. split; [constructor|]. split; [|split; [constructor|now rewrite app_nil_r]].
  apply (dump_doc false kind read_float nan inf neg_inf floats); [exact T|auto].
Qed.
(** [json.loads] reads every JSON text - also with NaN, Infinity, -Infinity and lone surrogates - as the value for which it stands,
    if the keys of each object differ. *)
Theorem C116_read (t : str) (j : jv) :
  json_text true means t j -> every keys_differ j -> loads read_float nan inf neg_inf t = Some j.
Proof. apply loads_doc. Qed.
(** No text stands for two values. *)
Theorem C116_one_value (t : str) (j j' : jv) :
  json_text true means t j -> json_text true means t j' -> every keys_differ j -> every keys_differ j' -> j = j'.
Proof. intros D D' K K'. pose proof (C116_read t j D K). pose proof (C116_read t j' D' K'). congruence. Qed.
(** What was written is read as what it was, also if a float is not a number. *)
Theorem C116_round_trip (indent : option nat) (j : jv) :
  every (texts unpaired) j -> every keys_differ j -> loads read_float nan inf neg_inf (dumps kind indent j) = Some j.
Proof.
  intros T K. apply C116_read; [|exact K]. exists [], (dumps kind indent j), []. split; [constructor|]. split; [|split; [constructor|now rewrite app_nil_r]].
  apply (dump_doc true kind read_float nan inf neg_inf floats); [exact T|discriminate].
Qed.
(** Refuted: that what is written is JSON.  If there is a NaN or an infinity anywhere in the value, the text is not JSON, whatever
    numbers are taken to stand for. *)
Theorem C116_not_a_number_refuted (stands_for : str -> Z -> Prop) (indent : option nat) (j : jv) (f : Z) :
  part (JFloat f) j -> (forall r, kind f <> Finite r) -> forall j', ~ json_text false stands_for (dumps kind indent j) j'.
Proof.
  intros P N j'. apply off_not_json; [|now exists f]. intros g r E. pose proof (floats g) as G. rewrite E in G. apply G.
Qed.
(** Refuted: that different texts are written differently; a character beyond U+FFFF and its two surrogates, which a Python string may
    have as two characters, are written alike. *)
Theorem C116_surrogates_refuted (indent : option nat) :
  exists s s', s <> s' /\ Forall (fun c => (c <= 1114111)%N) (s ++ s') /\ dumps kind indent (JStr s) = dumps kind indent (JStr s').
Proof.
  exists [128512%N], [55357; 56832]%N. split; [discriminate|]. split; [repeat constructor; discriminate|]. vm_compute. reflexivity.
Qed.
End C116.
Print Assumptions C116_written.
Print Assumptions C116_read.
Print Assumptions C116_one_value.
Print Assumptions C116_round_trip.
Print Assumptions C116_not_a_number_refuted.
Print Assumptions C116_surrogates_refuted.

(** A document with all kinds of values, an indentation, an emoji and a quotation mark *)
Definition ex_json : jv :=
  JObj [(lit "name", JStr (lit "a\b" ++ [34; 10; 233; 128512]%N)); (lit "n", JArr [JInt (-120); JInt 0; JFloat 7; JNull]);
        (lit "empty", JObj []); (lit "t", JArr [JArr []; JBool true; JBool false])].
Example C116_written_example :
  every (texts unicode) ex_json /\ every (texts unpaired) ex_json /\ every keys_differ ex_json /\ every (finite_floats ex_kind) ex_json
  /\ dumps ex_kind (Some 4) ex_json =
     lit "{" ++ [10%N] ++ lit "    ""name"": ""a\\b\""\n\u00e9\ud83d\ude00""," ++ [10%N]
     ++ lit "    ""n"": [" ++ [10%N] ++ lit "        -120," ++ [10%N] ++ lit "        0," ++ [10%N] ++ lit "        7.0," ++ [10%N] ++ lit "        null" ++ [10%N]
     ++ lit "    ]," ++ [10%N] ++ lit "    ""empty"": {}," ++ [10%N]
     ++ lit "    ""t"": [" ++ [10%N] ++ lit "        []," ++ [10%N] ++ lit "        true," ++ [10%N] ++ lit "        false" ++ [10%N] ++ lit "    ]" ++ [10%N] ++ lit "}"
  /\ loads ex_read 0 1 (-1) (dumps ex_kind None ex_json) = Some ex_json.
Proof.
  assert (E : forall P : jv -> Prop, P ex_json ->
     (forall s, s = lit "a\b" ++ [34; 10; 233; 128512]%N -> P (JStr s)) -> P (JInt (-120)) -> P (JInt 0) -> P (JFloat 7) -> P JNull ->
     P (JArr [JInt (-120); JInt 0; JFloat 7; JNull]) -> P (JObj []) -> P (JArr []) -> P (JBool true) -> P (JBool false) ->
     P (JArr [JArr []; JBool true; JBool false]) -> every P ex_json).
  { intros P H H0 H1 H2 H3 H4 H5 H6 H7 H8 H9 H10.
    assert (L : forall j, P j -> (forall l, j <> JArr l) -> (forall l, j <> JObj l) -> every P j) by (intros; now apply ev_leaf).
    apply ev_obj; [exact H|].
    constructor; [apply L; [now apply H0|discriminate|discriminate]|].
    constructor; [apply ev_arr; [exact H5|]; repeat (constructor; [apply L; [assumption|discriminate|discriminate]|]); constructor|].
    constructor; [apply ev_obj; [exact H6|constructor]|].
    constructor; [apply ev_arr; [exact H10|]|constructor].
    constructor; [apply ev_arr; [exact H7|constructor]|]. repeat (constructor; [apply L; [assumption|discriminate|discriminate]|]); constructor. }
  assert (T : forall Q : str -> Prop, Q (lit "a\b" ++ [34; 10; 233; 128512]%N) -> Q (lit "name") -> Q (lit "n") -> Q (lit "empty") -> Q (lit "t") -> every (texts Q) ex_json).
  { intros Q Q1 Q2 Q3 Q4 Q5. apply E; try (split; [intros s [= <-]|intros l [= <-]]; repeat constructor; cbn [fst]; assumption || discriminate);
      try (split; [discriminate|intros l Hl; discriminate Hl || (injection Hl as <-; repeat constructor; assumption)]).
    intros s ->. split; [intros s [= <-]; assumption|discriminate]. }
  assert (Uq : forall c, (c <=? 1114111)%N && negb (in_range 55296 57343 c) = true -> (c <= 1114111)%N /\ ~ high c /\ ~ low c).
  { intros c H. unfold high, low, in_range in *. lia. }
  assert (Uf : forall s, forallb (fun c => (c <=? 1114111)%N && negb (in_range 55296 57343 c)) s = true -> unicode s).
  { intros s H. rewrite forallb_forall in H. apply Forall_forall. intros c I. apply Uq. now apply H. }
  assert (Up : forall s, unicode s -> unpaired s).
  { intros s U. split; [apply (Forall_impl _ (fun c H => proj1 H) U)|]. intros a h l b -> Hh _. unfold unicode in U. apply Forall_app in U as [_ U]. apply Forall_cons_iff in U as [(_ & U & _) _]. contradiction. }
  split; [apply T; apply Uf; reflexivity|]. split; [apply T; apply Up; apply Uf; reflexivity|].
  split; [apply E; [| intros s ->; intros x Hx; discriminate Hx | ..]; try (intros l Hl; discriminate Hl || (injection Hl as <-)); try (cbn [map fst]; repeat constructor; cbn; intuition discriminate)|].
  split; [apply E; [| intros s ->; intros x Hx; discriminate Hx | ..]; try (intros f Hf; discriminate Hf || (injection Hf as <-; eexists; reflexivity))|].
  split; vm_compute; reflexivity.
Qed.
(** A NaN in a list *)
Example C116_not_a_number_example :
  part (JFloat 0) (JArr [JInt 1; JFloat 0]) /\ (forall r, ex_kind 0 <> Finite r) /\ dumps ex_kind None (JArr [JInt 1; JFloat 0]) = lit "[1, NaN]"
  /\ loads ex_read 0 1 (-1) (lit "[1, NaN]") = Some (JArr [JInt 1; JFloat 0]).
Proof. split; [apply (part_arr _ _ (JFloat 0)); [cbn; auto|constructor]|]. split; [discriminate|]. split; vm_compute; reflexivity. Qed.
