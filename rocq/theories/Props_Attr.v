(** Property theorems C20, C21, C22: bounded attributes, attribute cleaning, bounded lists and dicts.
    Vocabulary: Model_Attr.v (Python values, containers), Spec_Attr.v (what cleaning means, windows,
    counting). *)
From Verif Require Import Spec_Attr Proof_Attr.

(** C20: after any calls the keys are unique and there are at most maxlen entries. *)
Theorem C20_capacity :
  forall (maxlen : option Z) attrs immutable limit a (ops : list baop),
    ba_new maxlen attrs immutable limit = Ok a ->
    let a' := fold_left ba_step ops a in
    NoDup (keys (ba_dict a')) /\ forall m, maxlen = Some m -> (Z.of_nat (length (ba_dict a')) <= m)%Z.
Proof. exact c20_capacity. Qed.
Print Assumptions C20_capacity.

(** ... entries, dropped and deleted ones together are the keys that were entered ... *)
Theorem C20_accounting :
  forall (maxlen : option Z) limit a (ops : list baop),
    ba_new maxlen [] false limit = Ok a -> maxlen <> Some 0%Z ->
    let a' := fold_left ba_step ops a in
    length (ba_dict a') + ba_dropped a' + ba_deleted a ops = ba_entered a ops.
Proof. exact c20_accounting. Qed.
Print Assumptions C20_accounting.

(** ... with capacity zero nothing is stored and every assignment counts as dropped (valid or not) ... *)
Theorem C20_zero_capacity :
  forall attrs immutable limit a (ops : list baop),
    ba_new (Some 0%Z) attrs immutable limit = Ok a -> immutable = false ->
    let a' := fold_left ba_step ops a in
    ba_dict a' = []
    /\ ba_dropped a'
       = length attrs + length (filter (fun o => match o with BSet _ _ => true | BDel _ => false end) ops).
Proof. exact c20_zero. Qed.
Print Assumptions C20_zero_capacity.

(** ... an assignment overwrites (and moves the entry to the end), evicts the oldest entry of a full
    mapping, or appends; a value that cannot be cleaned changes nothing ... *)
Theorem C20_assignment :
  forall a key v (limit : option nat),
    ba_immutable a = false -> ba_maxlen a <> Some 0 -> ba_max_value_len a = zlim limit ->
    let a' := ba_step a (BSet key v) in
    ((forall sub k v', key = PStr sub k -> k <> [] -> ~ cleaned limit v v') -> a' = a)
    /\ (forall sub k v', key = PStr sub k -> k <> [] -> cleaned limit v v' ->
         (In k (keys (ba_dict a)) ->
            ba_dict a' = ddel k (ba_dict a) ++ [(k, v')] /\ ba_dropped a' = ba_dropped a)
         /\ (~ In k (keys (ba_dict a)) -> ba_maxlen a = Some (length (ba_dict a)) ->
            ba_dict a' = tl (ba_dict a) ++ [(k, v')] /\ ba_dropped a' = S (ba_dropped a))
         /\ (~ In k (keys (ba_dict a)) -> ba_maxlen a <> Some (length (ba_dict a)) ->
            ba_dict a' = ba_dict a ++ [(k, v')] /\ ba_dropped a' = ba_dropped a)).
Proof. exact c20_set. Qed.
Print Assumptions C20_assignment.

(** ... the constructor keeps the last maxlen of the latest assignments ... *)
Theorem C20_constructor_window :
  forall (maxlen : option Z) attrs immutable (limit : option nat) a t,
    ba_new maxlen attrs immutable (zlim limit) = Ok a -> takes limit attrs t ->
    ba_dict a = match maxlen with Some z => lastn (Z.to_nat z) (latest t) | None => latest t end.
Proof. exact ba_new_taken. Qed.
Print Assumptions C20_constructor_window.

(** ... and an immutable mapping rejects every change. *)
Theorem C20_immutable :
  forall a o, ba_immutable a = true ->
    (match o with BSet k v => ba_set k v a | BDel k => ba_del k a end) = Raises "TypeError"
    /\ ba_step a o = a.
Proof. exact c20_immutable. Qed.
Print Assumptions C20_immutable.

Example C20_example :
  let a := BA (Some 2) None false [] 0 in
  let ops := [BSet (PStr false (lit "a")) (PInt false 1); BSet (PStr false (lit "b")) (PInt false 2); BSet (PStr false (lit "a")) (PInt false 3);
              BSet (PStr false (lit "c")) (PInt false 4); BDel (PStr false (lit "a")); BSet (PStr false (lit "")) (PInt false 5); BSet (PStr false (lit "d")) PNone] in
  ba_new (Some 2%Z) [] false None = Ok a
  /\ fold_left ba_step ops a = BA (Some 2) None false [(lit "c", PInt false 4)] 1
  /\ ba_entered a ops = 3 /\ ba_deleted a ops = 1.
Proof. vm_compute. repeat split. Qed.

Example C20_example_window :
  let attrs := [(PStr false (lit "a"), PInt false 1); (PStr false (lit "b"), PInt false 2); (PStr false (lit "c"), PNone); (PStr false (lit "a"), PBool true)] in
  takes None attrs [(lit "a", PInt false 1); (lit "b", PInt false 2); (lit "a", PBool true)]
  /\ exists a, ba_new (Some 1%Z) attrs true None = Ok a /\ ba_dict a = [(lit "a", PBool true)] /\ ba_dropped a = 2.
Proof.
  split.
  - constructor; [discriminate|repeat constructor|]. constructor; [discriminate|repeat constructor|].
    apply tk_no.
    + intros sub k v' _ _ H. inversion H as [v v0 Hp|]. inversion Hp.
    + constructor; [discriminate|repeat constructor|constructor].
  - eexists. split; [reflexivity|]. vm_compute. split; reflexivity.
Qed.

(** C21: cleaning is exactly the relation [cleaned], for non-empty string keys ... *)
Theorem C21_cleaning :
  forall (key v : pyval) (limit : option nat) (v' : pyval),
    clean_attribute key v (zlim limit) = Some v' <->
    (exists sub c s, key = PStr sub (c :: s)) /\ cleaned limit v v'.
Proof. exact clean_attribute_spec. Qed.
Print Assumptions C21_cleaning.

(** ... cleaning a clean value changes nothing ... *)
Theorem C21_idempotent :
  forall (key v : pyval) (limit : option nat) (v' : pyval),
    clean_attribute key v (zlim limit) = Some v' -> clean_attribute key v' (zlim limit) = Some v'.
Proof. exact clean_idempotent. Qed.
Print Assumptions C21_idempotent.

(** ... whatever the history, every stored entry has a non-empty key and a storable value ... *)
Theorem C21_stored_values :
  forall maxlen attrs immutable (limit : option nat) a (ops : list baop) k v,
    ba_new maxlen attrs immutable (zlim limit) = Ok a ->
    In (k, v) (ba_dict (fold_left ba_step ops a)) -> k <> [] /\ storable limit v.
Proof. exact c21_stored. Qed.
Print Assumptions C21_stored_values.

(** ... and a string is stored as its first max_value_len characters. *)
Theorem C21_strings_are_cut :
  forall maxlen attrs (n : nat) a0 (ops : list baop) sub k sub' s,
    ba_new maxlen attrs false (Some (Z.of_nat n)) = Ok a0 -> maxlen <> Some 0%Z -> k <> [] ->
    let a := fold_left ba_step ops a0 in
    dget k (ba_dict (ba_step a (BSet (PStr sub k) (PStr sub' s)))) = Some (PStr false (firstn n s)).
Proof. exact c21_cut. Qed.
Print Assumptions C21_strings_are_cut.

(** A negative limit, which BoundedAttributes does not reject, cuts from the end instead, so cleaning
    twice is not cleaning once. *)
Theorem C21_negative_limit_refuted :
  exists v v', clean_attribute (PStr false (lit "k")) v (Some (-1)%Z) = Some v'
    /\ clean_attribute (PStr false (lit "k")) v' (Some (-1)%Z) <> Some v'.
Proof. exists (PStr false (lit "abc")), (PStr false (lit "ab")). split; [reflexivity|discriminate]. Qed.
Print Assumptions C21_negative_limit_refuted.

Example C21_example :
  let k := PStr false (lit "k") in
  clean_attribute k (PSeq false [PStr false (lit "abc"); PNone; PBytes false [200%N]; PBytes false (lit "xyz")]) (Some 2%Z)
    = Some (PSeq true [PStr false (lit "ab"); PNone; PNone; PStr false (lit "xy")])
  /\ clean_attribute k (PSeq false [PBool true; PInt false 1]) None = None
  /\ clean_attribute k (PSeq false [PSeq true []]) None = None
  /\ clean_attribute k (PStr false (lit "abc")) (Some 2%Z) = Some (PStr false (lit "ab")).
Proof. vm_compute. repeat split. Qed.

(** C22: a BoundedList holds the last maxlen of all items offered and counts the others ... *)
Theorem C22_bounded_list :
  forall (A : Type) (maxlen : option nat) (ops : list (blop A)),
    let all := concat (map offered ops) in
    let b := fold_left bl_step ops (bl_new maxlen) in
    match maxlen with
    | Some m => bl_items b = lastn m all /\ bl_dropped b = length all - m
    | None => bl_items b = all /\ bl_dropped b = 0
    end.
Proof. exact @c22_list. Qed.
Print Assumptions C22_bounded_list.

(** ... a BoundedDict has unique keys and never more than maxlen of them ... *)
Theorem C22_bounded_dict :
  forall (V : Type) (maxlen : option nat) (ops : list (bdop str V)),
    let b := fold_left bd_step ops (BD maxlen [] 0) in
    bd_maxlen b = maxlen /\ NoDup (keys (bd_dict b))
    /\ (forall m, maxlen = Some m -> length (bd_dict b) <= m).
Proof. exact (fun V => @bd_history_inv str V EqDec_str). Qed.
Print Assumptions C22_bounded_dict.

(** ... and built from a mapping it has the last maxlen entries. *)
Theorem C22_bounded_dict_window :
  forall (V : Type) (maxlen : option nat) (l : list (str * V)),
    bd_dict (bd_from_map maxlen l)
    = match maxlen with Some m => lastn m (latest l) | None => latest l end.
Proof. exact (fun V => @bd_set_window str V EqDec_str). Qed.
Print Assumptions C22_bounded_dict_window.

(** ... each assignment goes to the end, a deletion takes one key out, what is then too much is cut off at the front, and dropped counts
    what was ever cut off. *)
Definition without {V} (k : str) (d : list (str * V)) : list (str * V) := filter (fun kv => if str_eq_dec (fst kv) k then false else true) d.
Definition cut_to {A} (maxlen : option nat) (l : list A) : list A := match maxlen with Some m => lastn m l | None => l end.
Theorem C22_bounded_dict_dropped :
  forall (V : Type) (maxlen : option nat) (ops : list (bdop str V)) (k : str) (v : V),
    let b := fold_left bd_step ops (BD maxlen [] 0) in
    let set := bd_step b (DSet k v) in
    let del := bd_step b (DDel k) in
    bd_dict set = cut_to maxlen (without k (bd_dict b) ++ [(k, v)])
    /\ bd_dropped set + length (bd_dict set) = bd_dropped b + length (without k (bd_dict b) ++ [(k, v)])
    /\ bd_dict del = without k (bd_dict b) /\ bd_dropped del = bd_dropped b.
Proof.
  intros V maxlen ops k v b set del. destruct (@bd_history_inv str V EqDec_str maxlen ops) as (Em & Nd & Bd). fold b in Em, Nd, Bd.
  assert (W : without k (bd_dict b) = ddel k (bd_dict b)).
  { clear - Nd. induction (bd_dict b) as [|[x y] d IH]; [reflexivity|]. cbn [without filter fst keys map ddel] in *. apply NoDup_cons_iff in Nd as [N Nd].
    destruct (eq_dec k x) as [->|E].
    - destruct (str_eq_dec x x); [|contradiction]. clear - N. induction d as [|[a c] d IH]; [reflexivity|]. cbn [filter fst keys map In] in *.
      destruct (str_eq_dec a x) as [->|]; [tauto|]. f_equal. tauto.
    - destruct (str_eq_dec x k); [congruence|]. f_equal. now apply IH. }
  rewrite W. unfold set, del. cbn [bd_step]. split; [|split; [|now split]].
  - unfold bd_set. rewrite Em. destruct maxlen as [[|m]|].
    + cbn. specialize (Bd 0 eq_refl). destruct (bd_dict b); [|cbn in Bd; lia]. reflexivity.
    + pose proof (bput_window (S m) (bd_dict b) k v (bd_dropped b) Nd (Nat.lt_0_succ m)) as H. rewrite lastn_all in H by now apply Bd.
      destruct (bput _ _ _ _ _). exact H.
    + pose proof (bput_none (bd_dict b) k v (bd_dropped b)) as H. destruct (bput _ _ _ _ _). exact H.
  - unfold bd_set. rewrite Em. rewrite app_length. cbn [length]. destruct maxlen as [[|m]|].
    + cbn. specialize (Bd 0 eq_refl). destruct (bd_dict b); [|cbn in Bd; lia]. cbn. lia.
    + destruct (bput_cases (Some (S m)) k v (bd_dict b) (bd_dropped b)) as [[Hk ->]|[(Hk & (m' & [= <-] & El) & ->)|(Hk & Hl & ->)]]; cbn [bd_dict bd_dropped].
      * rewrite app_length. cbn [length]. lia.
      * rewrite (ddel_notin _ _ Hk), app_length. destruct (bd_dict b); cbn in *; lia.
      * rewrite (ddel_notin _ _ Hk), app_length. cbn. lia.
    + destruct (bput_cases None k v (bd_dict b) (bd_dropped b)) as [[Hk ->]|[(Hk & (m' & [=] & El) & ->)|(Hk & Hl & ->)]]; cbn [bd_dict bd_dropped].
      * rewrite app_length. cbn [length]. lia.
      * rewrite (ddel_notin _ _ Hk), app_length. cbn. lia.
Qed.
Print Assumptions C22_bounded_dict_dropped.

Example C22_example :
  fold_left bl_step [LAppend 1; LExtend [2; 3; 4]; LAppend 5] (bl_new (Some 2)) = BL (Some 2) [4; 5] 3
  /\ bd_from_map (Some 2) [(lit "a", 1); (lit "b", 2); (lit "a", 3); (lit "c", 4)]
     = BD (Some 2) [(lit "a", 3); (lit "c", 4)] 1.
Proof. vm_compute. split; reflexivity. Qed.
