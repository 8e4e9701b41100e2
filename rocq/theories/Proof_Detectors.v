(** Proofs about the built-in resource detectors. *)
From Verif Require Import Proof_Dict Proof_Str Proof_Url Proof_Utf8 Proof_Attr Proof_Env Proof_Json Proof_Resource.
From Verif Require Import Model_Json.
From Verif Require Import Spec_Detectors.
From Coq Require Import Lia.

(** ** Texts *)
Lemma separated_join sep l t : separated sep l t <-> l <> [] /\ join sep l = t.
Proof.
  split.
  - induction 1 as [w|w x ws l H [_ IH]]; [split; [discriminate|reflexivity]|]. split; [discriminate|]. rewrite <- IH. reflexivity.
  - intros [N <-]. induction l as [|w l IH]; [contradiction|]. destruct l as [|x l]; [constructor|].
    change (join sep (w :: x :: l)) with (w ++ sep ++ join sep (x :: l)). constructor. apply IH. discriminate.
Qed.
Lemma digit_range c : Spec_Json.digit c -> (48 <= c <= 57)%N.
Proof. intros H. apply digit_iff in H. lia. Qed.
Lemma number_positive s : forall c acc, Forall Spec_Json.digit (c :: s) -> (0 <= acc)%Z -> (c <> 48)%N \/ (0 < acc)%Z -> (0 < Spec_Json.number (c :: s) acc)%Z.
Proof.
  induction s as [|d s IH]; intros c acc F A H; inversion F as [|? ? D F']; subst; apply digit_range in D; cbn [Spec_Json.number].
  - lia.
  - apply (IH d); [exact F'|lia|]. right. lia.
Qed.
Definition plain_digits (s : str) : Prop := Forall Spec_Json.digit s /\ (s = [] \/ hd 0%N s <> 48%N).
Lemma plain_init s c : plain_digits (s ++ [c]) -> plain_digits s.
Proof.
  intros [F H]. apply Forall_app in F as [F _]. split; [exact F|]. destruct s as [|d s]; [left; reflexivity|]. right.
  destruct H as [H|H]; [discriminate|exact H].
Qed.
Lemma plain_positive s : plain_digits s -> s <> [] -> (0 < Spec_Json.number s 0)%Z.
Proof. intros [F [H|H]] N; [contradiction|]. destruct s as [|c s]; [contradiction|]. apply number_positive; [exact F|lia|left; exact H]. Qed.
Lemma plain_eq s : forall t, plain_digits s -> plain_digits t -> Spec_Json.number s 0 = Spec_Json.number t 0 -> s = t.
Proof.
  induction s as [|c s IH] using rev_ind; intros t P Q E.
  - destruct t as [|d t]; [reflexivity|]. pose proof (plain_positive _ Q ltac:(discriminate)) as X. rewrite <- E in X. cbn in X. lia.
  - destruct t as [|d t _] using rev_ind.
    + assert (X : (0 < Spec_Json.number (s ++ [c]) 0)%Z) by (apply plain_positive; [exact P|intros Y; apply app_eq_nil in Y as [_ Y]; discriminate]).
      rewrite E in X. cbn in X. lia.
    + rewrite !number_snoc in E. pose proof P as [F _]. pose proof Q as [G _]. apply Forall_app in F as [_ F]. apply Forall_app in G as [_ G].
      inversion F as [|? ? C _]; subst. inversion G as [|? ? D _]; subst. apply digit_range in C, D.
      assert (c = d) by lia. subst d. f_equal. apply IH; [apply (plain_init _ _ P)|apply (plain_init _ _ Q)|lia].
Qed.
Lemma int_part_eq s t : Spec_Json.int_part s -> Spec_Json.int_part t -> Spec_Json.number s 0 = Spec_Json.number t 0 -> s = t.
Proof.
  intros [[N F] H] [[M G] K] E. change (chr "0") with 48%N in *.
  destruct H as [->|H], K as [->|K]; [reflexivity| | |].
  - pose proof (plain_positive t (conj G (or_intror K)) M) as X. rewrite <- E in X. cbn in X. lia.
  - pose proof (plain_positive s (conj F (or_intror H)) N) as X. rewrite E in X. cbn in X. lia.
  - apply plain_eq; [split; [exact F|right; exact H]|split; [exact G|right; exact K]|exact E].
Qed.
Lemma numeral_iff s n : numeral s n <-> s = dec n.
Proof.
  unfold numeral. destruct (dec_ok n) as [I V]. split; [|intros ->; split; assumption].
  intros [J W]. apply int_part_eq; [exact J|exact I|congruence].
Qed.
Lemma version_iff v t : version_text v t <-> runtime_version v = t.
Proof.
  unfold version_text, runtime_version.
  assert (B : str_eqb (vi_level v) (lit "final") && N.eqb (vi_serial v) 0 = true <-> vi_level v = lit "final" /\ vi_serial v = 0%N).
  { rewrite andb_true_iff, N.eqb_eq, str_eqb_eq. reflexivity. }
  split.
  - intros (a & b & c & A & B' & C & [[P S]|[P (s & D & S)]]); apply numeral_iff in A, B', C; subst a b c; apply separated_join in S as [_ <-].
    + apply B in P. rewrite P. reflexivity.
    + destruct (str_eqb (vi_level v) (lit "final") && N.eqb (vi_serial v) 0); [exfalso; apply P, B; reflexivity|]. apply numeral_iff in D. subst s. reflexivity.
  - intros <-. exists (dec (vi_major v)), (dec (vi_minor v)), (dec (vi_micro v)).
    split; [apply numeral_iff; reflexivity|]. split; [apply numeral_iff; reflexivity|]. split; [apply numeral_iff; reflexivity|].
    destruct (str_eqb (vi_level v) (lit "final") && N.eqb (vi_serial v) 0) eqn:Q.
    + left. split; [apply B; reflexivity|]. apply separated_join. split; [discriminate|reflexivity].
    + right. split; [intros X; apply B in X; discriminate|]. exists (dec (vi_serial v)). split; [apply numeral_iff; reflexivity|].
      apply separated_join. split; [discriminate|reflexivity].
Qed.

(** ** Directories *)
Lemma lstrip_all p a b : forallb p a = true -> lstrip p (a ++ b) = lstrip p b.
Proof. induction a as [|c a IH]; [reflexivity|]. cbn. destruct (p c); [exact IH|discriminate]. Qed.
Lemma rstrip_all p a b : forallb p b = true -> rstrip p (a ++ b) = rstrip p a.
Proof. intros H. unfold rstrip. rewrite rev_app_distr, lstrip_all; [reflexivity|]. rewrite forallb_forall in *. intros x I. apply H, in_rev, I. Qed.
Lemma rstrip_stop p a c : p c = false -> rstrip p (a ++ [c]) = a ++ [c].
Proof. intros H. unfold rstrip. rewrite rev_app_distr. cbn. rewrite H. cbn. rewrite rev_involutive. reflexivity. Qed.
Lemma no_slash_all f : ~ In (chr "/") f -> forallb not_slash f = true.
Proof. intros H. apply forallb_forall. intros x I. unfold not_slash. destruct (N.eqb_spec x (chr "/")) as [->|]; [contradiction|reflexivity]. Qed.
Lemma slashes_last s : slashes s -> exists s', s = s' ++ [chr "/"].
Proof.
  intros [N F]. destruct s as [|d s _] using rev_ind; [contradiction|]. apply Forall_app in F as [_ F]. inversion F; subst. eauto.
Qed.
Lemma slashes_all s : slashes s -> forallb (N.eqb (chr "/")) s = true.
Proof. intros [_ F]. apply forallb_forall. intros x I. rewrite Forall_forall in F. rewrite (F _ I). apply N.eqb_refl. Qed.
Lemma head_of s f : slashes s -> ~ In (chr "/") f -> forall d, rstrip not_slash (d ++ s ++ f) = d ++ s.
Proof.
  intros S F d. rewrite app_assoc, rstrip_all by apply no_slash_all, F. destruct (slashes_last _ S) as [s' ->].
  rewrite app_assoc. apply rstrip_stop. reflexivity.
Qed.
Lemma directory_dirname p d : directory p d -> dirname p = d.
Proof.
  unfold dirname. intros [f F|s f S F|d' c s f C S F].
  - rewrite <- (app_nil_l f), rstrip_all by apply no_slash_all, F. reflexivity.
  - pose proof (head_of s f S F []) as H. cbn [app] in H. rewrite H. rewrite slashes_all by exact S. reflexivity.
  - rewrite (head_of s f S F). rewrite !forallb_app. cbn [forallb]. destruct (N.eqb_spec (chr "/") c) as [E|_]; [subst c; contradiction|].
    rewrite andb_false_r. cbn [andb]. rewrite rstrip_all by apply slashes_all, S. apply rstrip_stop.
    destruct (N.eqb_spec (chr "/") c) as [E|_]; [subst c; contradiction|reflexivity].
Qed.
Lemma last_split (q : N -> bool) s : exists a b, s = a ++ b /\ Forall (fun c => q c = true) b /\ (a = [] \/ exists a' c, a = a' ++ [c] /\ q c = false).
Proof.
  induction s as [|c s (a & b & -> & B & A)] using rev_ind; [exists [], []; split; [reflexivity|]; split; [constructor|left; reflexivity]|].
  destruct (q c) eqn:Q.
  - exists a, (b ++ [c]). split; [symmetry; apply app_assoc|]. split; [apply Forall_app; split; [exact B|constructor; [exact Q|constructor]]|exact A].
  - exists ((a ++ b) ++ [c]), []. split; [symmetry; apply app_nil_r|]. split; [constructor|]. right. exists (a ++ b), c. split; [reflexivity|exact Q].
Qed.
Lemma directory_total p : exists d, directory p d.
Proof.
  destruct (last_split not_slash p) as (a & f & -> & F & A).
  assert (NF : ~ In (chr "/") f) by (intros I; rewrite Forall_forall in F; specialize (F _ I); discriminate).
  destruct A as [->|(a' & c & -> & C)]; [exists []; cbn [app]; constructor; exact NF|].
  unfold not_slash in C. apply negb_false_iff, N.eqb_eq in C. subst c.
  destruct (last_split (N.eqb (chr "/")) a') as (d & s & -> & S & D).
  assert (SS : slashes (s ++ [chr "/"])).
  { split; [intros X; apply app_eq_nil in X as [_ X]; discriminate|]. apply Forall_app. split; [|constructor; [reflexivity|constructor]].
    eapply Forall_impl; [|exact S]. cbn. intros c X. symmetry. apply N.eqb_eq, X. }
  destruct D as [->|(d' & c & -> & C)].
  - exists (s ++ [chr "/"]). cbn [app]. constructor; assumption.
  - exists (d' ++ [c]). replace ((((d' ++ [c]) ++ s) ++ [chr "/"]) ++ f) with ((d' ++ [c]) ++ (s ++ [chr "/"]) ++ f) by (rewrite !app_assoc; reflexivity).
    constructor; [|exact SS|exact NF]. intros ->. discriminate.
Qed.
Lemma directory_iff p d : directory p d <-> dirname p = d.
Proof.
  split; [apply directory_dirname|]. intros <-. destruct (directory_total p) as [d D]. rewrite (directory_dirname _ _ D). exact D.
Qed.

(** ** The process *)
Lemma clean_strings l : forall first, first = None \/ first = Some TStr -> clean_seq first (map (PStr false) l) None = Some (map (PStr false) l).
Proof.
  induction l as [|s l IH]; intros first F; [reflexivity|]. cbn [map clean_seq clean_value type_of].
  destruct F as [->| ->]; [rewrite IH by (right; reflexivity); reflexivity|].
  destruct (pytype_eq_dec TStr TStr); [|congruence]. rewrite IH by (right; reflexivity). reflexivity.
Qed.
Definition process_list (p : process_facts) (exe command : str) : list (str * pyval) :=
  [(lit "process.runtime.description", PStr false (pr_version p));
   (lit "process.runtime.name", PStr false (pr_implementation p));
   (lit "process.runtime.version", PStr false (runtime_version (pr_info p)));
   (lit "process.pid", PInt false (pr_pid p));
   (lit "process.executable.name", PStr false exe);
   (lit "process.executable.path", PStr false (dirname exe));
   (lit "process.command", PStr false command);
   (lit "process.command_line", PStr false (join (lit " ") (pr_argv p)));
   (lit "process.command_args", PSeq true (map (PStr false) (pr_argv p)))]
  ++ match pr_ppid p with Some n => [(lit "process.parent_pid", PInt false n)] | None => [] end
  ++ match pr_owner p with Some (Some u) => [(lit "process.owner", PStr false u)] | _ => [] end.
Lemma process_list_nodup p exe command : NoDup (keys (process_list p exe command)).
Proof.
  assert (X : forall l : list str, (fix nd (l : list str) : bool := match l with [] => true | x :: r => if in_dec str_eq_dec x r then false else nd r end) l = true -> NoDup l).
  { induction l as [|x l IH]; [constructor|]. intros H. destruct (in_dec str_eq_dec x l); [discriminate|]. constructor; [assumption|apply IH, H]. }
  apply X. unfold process_list. destruct (pr_ppid p), (pr_owner p) as [[|]|]; reflexivity.
Qed.
Lemma dset_new {V} k (v : V) (d : dict str V) : existsb (str_eqb k) (keys d) = false -> dset k v d = d ++ [(k, v)].
Proof.
  induction d as [|[a b] d IH]; [reflexivity|]. cbn [keys map fst existsb dset app]. intros H. apply orb_false_iff in H as [H1 H2].
  destruct (eq_dec k a) as [->|N]; [rewrite str_eqb_refl in H1; discriminate|]. f_equal. apply IH, H2.
Qed.
Lemma process_result p e c args : pr_executable p = Some e -> pr_argv p = c :: args -> pr_owner p <> Some None ->
  process_detect p = Ok (Res (process_list p e c) []).
Proof.
  intros E A O. unfold process_detect. rewrite E, A. rewrite <- A.
  assert (R : forall l l', accepted None (as_arg l) = l' -> NoDup (keys l') -> res_new (as_arg l) None = Res l' []).
  { intros l l' H N. rewrite res_new_dict, H, latest_id by exact N. reflexivity. }
  assert (CL : clean_attribute (PStr false (lit "process.command_args")) (PSeq false (map (PStr false) (pr_argv p))) None
               = Some (PSeq true (map (PStr false) (pr_argv p)))).
  { unfold clean_attribute. change (valid_key (PStr false (lit "process.command_args"))) with (Some (lit "process.command_args")).
    cbv iota. rewrite clean_strings by (left; reflexivity). reflexivity. }
  pose proof (process_list_nodup p e c) as ND. unfold process_list in *. revert CL ND.
  generalize (runtime_version (pr_info p)) (dirname e) (join (lit " ") (pr_argv p)) (map (PStr false) (pr_argv p)).
  intros rv dn jn ag CL ND.
  destruct (pr_ppid p) as [n|], (pr_owner p) as [[u|]|]; try contradiction (O eq_refl); f_equal; apply R; try exact ND;
    unfold accepted, as_arg; rewrite ?dset_new by (vm_compute; reflexivity); cbn [map flat_map fst snd app]; rewrite ?CL; reflexivity.
Qed.
Lemma ok_eq {A} (a b : A) : Ok a = Ok b -> a = b.
Proof. intros H. congruence. Qed.
Lemma process_is_resource p r : process_detect p = Ok r -> is_resource r.
Proof.
  unfold process_detect. destruct (pr_executable p) as [e|]; [|discriminate]. destruct (pr_argv p) as [|c args]; [discriminate|]. cbv zeta.
  destruct (pr_owner p) as [[u|]|]; [|discriminate|]; intros R; apply ok_eq in R; subst r; eexists; eexists; reflexivity.
Qed.
Theorem process_described p : describable p -> exists r, process_detect p = Ok r /\ is_resource r /\ r_schema r = []
  /\ forall k v, dget k (r_attrs r) = Some v <-> process_attribute p k v.
Proof.
  intros (HE & HA & HO). destruct (pr_executable p) as [e|] eqn:E; [|congruence]. destruct (pr_argv p) as [|c args] eqn:A; [congruence|].
  exists (Res (process_list p e c) []). pose proof (process_result p e c args E A HO) as R. split; [exact R|]. split.
  { exact (process_is_resource _ _ R). }
  split; [reflexivity|]. intros k v. cbn [r_attrs]. split.
  - intros G. apply dget_In in G. unfold process_list in G. rewrite !in_app_iff in G. destruct G as [G|[G|G]].
    + cbn [In] in G. repeat destruct G as [G|G]; try (injection G as <- <-); try constructor; try contradiction.
      * apply version_iff. reflexivity.
      * exact E.
      * apply (pa_path p e); [exact E|]. apply directory_iff. reflexivity.
      * apply (pa_command p c args). exact A.
      * apply separated_join. split; [congruence|reflexivity].
    + destruct (pr_ppid p) eqn:P; [|destruct G]. destruct G as [G|[]]. injection G as <- <-. constructor. exact P.
    + destruct (pr_owner p) as [[u|]|] eqn:P; try destruct G. injection H as <- <-. constructor. exact P. destruct H.
  - intros H. apply In_dget; [apply process_list_nodup|]. unfold process_list. rewrite !in_app_iff.
    destruct H as [| |t V| |e' V|e' d V D|c' args' V|l V| |n V|u V]; try (left; cbn [In]; repeat (first [left; reflexivity|right]); fail).
    + apply version_iff in V. subst t. left. cbn [In]. repeat (first [left; reflexivity|right]).
    + rewrite E in V. injection V as V. subst e'. left. cbn [In]. repeat (first [left; reflexivity|right]).
    + rewrite E in V. injection V as V. subst e'. apply directory_iff in D. subst d. left. cbn [In]. repeat (first [left; reflexivity|right]).
    + rewrite A in V. injection V as V _. subst c'. left. cbn [In]. repeat (first [left; reflexivity|right]).
    + apply separated_join in V as [_ V]. subst l. left. cbn [In]. repeat (first [left; reflexivity|right]).
    + right. left. rewrite V. left. reflexivity.
    + right. right. rewrite V. left. reflexivity.
Qed.
Theorem process_raises p : (exists e, process_detect p = Raises e) <-> ~ describable p.
Proof.
  unfold describable. split.
  - intros [x H] (HE & HA & HO). destruct (pr_executable p) as [e|] eqn:E; [|congruence]. destruct (pr_argv p) as [|c args] eqn:A; [congruence|].
    rewrite (process_result p e c args E A HO) in H. discriminate.
  - intros H. unfold process_detect. destruct (pr_executable p) as [e|]; [|eauto]. destruct (pr_argv p) as [|c args]; [eauto|].
    destruct (pr_owner p) as [[u|]|]; [|eauto|]; exfalso; apply H; repeat split; discriminate.
Qed.

(** ** Operating system and host *)
Lemma two_texts k1 k2 a b : k1 <> [] -> k2 <> [] -> k1 <> k2 ->
  res_new (as_arg [(k1, PStr false a); (k2, PStr false b)]) None = Res [(k1, PStr false a); (k2, PStr false b)] [].
Proof.
  intros N1 N2 N. apply (res_new_id [(k1, PStr false a); (k2, PStr false b)] None). split.
  - cbn. constructor; [intros [X|[]]; congruence|]. constructor; [intros []|constructor].
  - intros k v [X|[X|[]]]; injection X as <- <-; (split; [assumption|]); [destruct k1|destruct k2]; congruence || reflexivity.
Qed.
Lemma os_attrs pylower system release version : exists t v, os_described (pylower system) release version t v
  /\ os_detect pylower system release version = Res [(lit "os.type", PStr false t); (lit "os.version", PStr false v)] [].
Proof.
  unfold os_detect. destruct (str_eqb (pylower system) (lit "windows")) eqn:W.
  - apply str_eqb_eq in W. rewrite W. exists (lit "windows"), version. split; [constructor; reflexivity|]. apply two_texts; discriminate.
  - apply str_eqb_neq in W. destruct (str_eqb (pylower system) (lit "sunos")) eqn:S.
    + apply str_eqb_eq in S. rewrite S. exists (lit "solaris"), version. split; [apply od_solaris; reflexivity|]. apply two_texts; discriminate.
    + apply str_eqb_neq in S. exists (pylower system), release. split; [constructor; assumption|]. apply two_texts; discriminate.
Qed.
Theorem os_found pylower system release version t v : os_described (pylower system) release version t v ->
  r_schema (os_detect pylower system release version) = []
  /\ r_attrs (os_detect pylower system release version) = [(lit "os.type", PStr false t); (lit "os.version", PStr false v)].
Proof.
  intros H. destruct (os_attrs pylower system release version) as (t' & v' & H' & ->). cbn [r_schema r_attrs]. split; [reflexivity|].
  assert (t' = t /\ v' = v) as [-> ->]; [|reflexivity]. destruct H as [H|H|H1 H2], H' as [H'|H'|H1' H2']; try (split; reflexivity); try contradiction; exfalso; rewrite H in H'; discriminate.
Qed.
Theorem host_found name machine : host_detect name machine = Res [(lit "host.name", PStr false name); (lit "host.arch", PStr false machine)] [].
Proof. apply two_texts; discriminate. Qed.

(** ** What the environment says *)
Lemma says_step items pairs : env_says items pairs -> forall m, fold_left env_step items m = dupdate m pairs.
Proof.
  induction 1 as [|k v k' v' t items pairs K SK SV T _ IH|x items pairs N _ IH]; intros m; [reflexivity| |].
  - cbn [fold_left]. unfold env_step at 2. change (k ++ lit "=" ++ v) with (k ++ chr "=" :: v). rewrite split1_app by exact K.
    apply stripped_iff in SK, SV. apply text_read_iff in T. rewrite SK, SV, T, IH. reflexivity.
  - cbn [fold_left]. unfold env_step at 2. rewrite split1_none by exact N. apply IH.
Qed.
Lemma says_total items : exists pairs, env_says items pairs.
Proof.
  induction items as [|x items [pairs IH]]; [exists []; constructor|].
  pose proof (split1_spec (chr "=") x) as S. destruct (split1 (chr "=") x) as [k [v|]]; destruct S as [-> N].
  - exists ((strip py_space k, unquote (strip py_space v)) :: pairs). change (k ++ chr "=" :: v) with (k ++ lit "=" ++ v).
    apply (es_pair k v (strip py_space k) (strip py_space v)); [exact N|apply stripped_iff; reflexivity|apply stripped_iff; reflexivity|apply text_read_iff; reflexivity|exact IH].
  - exists pairs. constructor; assumption.
Qed.
Lemma new_strings_any (d : dict str str) : NoDup (keys d) -> forall k,
  dget k (r_attrs (res_new (map (fun kv => (PStr false (fst kv), PStr false (snd kv))) d) None))
  = match k with [] => None | _ => option_map (PStr false) (dget k d) end.
Proof.
  intros N k. rewrite res_new_dict. cbn [r_attrs].
  assert (A : accepted None (map (fun kv => (PStr false (fst kv), PStr false (snd kv))) d)
            = map (fun kv => (fst kv, PStr false (snd kv))) (filter (fun kv => match fst kv with [] => false | _ => true end) d)).
  { clear. induction d as [|[[|c a] b] d IH]; [reflexivity|exact IH|]. unfold accepted in *. cbn [map flat_map fst snd filter]. rewrite <- IH. reflexivity. }
  rewrite A. clear A.
  set (f := filter (fun kv : str * str => match fst kv with [] => false | _ => true end) d). assert (NF : NoDup (map fst (map (fun kv : str * str => (fst kv, PStr false (snd kv))) f))).
  { rewrite map_map. cbn [fst]. subst f. clear k. induction d as [|[a b] d IH]; [constructor|]. cbn in N. inversion N as [|? ? NI N']; subst. cbn [filter fst].
    destruct a as [|c a]; [apply IH, N'|]. cbn [map fst]. constructor; [|apply IH, N']. intros I. apply NI. apply in_map_iff in I as ([x y] & <- & I).
    apply filter_In in I as [I _]. apply (in_map fst) in I. exact I. }
  rewrite latest_id by exact NF. rewrite dget_map_strings. subst f. clear NF.
  assert (G : dget k (filter (fun kv => match fst kv with [] => false | _ => true end) d) = match k with [] => None | _ => dget k d end).
  { clear N. induction d as [|[a b] d IH]; [destruct k; reflexivity|]. cbn [filter fst]. destruct a as [|c a].
    - rewrite IH. destruct k as [|x k]; [reflexivity|]. cbn [dget]. destruct (eq_dec (x :: k) []); [discriminate|reflexivity].
    - cbn [dget]. destruct (eq_dec k (c :: a)) as [->|X]; [reflexivity|exact IH]. }
  rewrite G. destruct k; reflexivity.
Qed.
Theorem any_environment items pairs name : items <> [] -> Forall (fun s => ~ In (chr ",") s) items -> env_says items pairs ->
  let r := otel_detect (Some (join (lit ",") items)) name in
  is_resource r /\ r_schema r = []
  /\ forall k, dget k (r_attrs r)
     = match k with
       | [] => None
       | _ => option_map (PStr false)
                (match name with
                 | Some (c :: s) => if str_eq_dec k (lit "service.name") then Some (c :: s) else dget k (latest pairs)
                 | _ => dget k (latest pairs)
                 end)
       end.
Proof.
  intros NE NC S. unfold otel_detect.
  assert (M : match Some (join (lit ",") items) with Some (c :: s) => fold_left env_step (split_on (chr ",") (c :: s)) [] | _ => [] end = dict_of pairs).
  { destruct (join (lit ",") items) as [|c s] eqn:J.
    - destruct items as [|x [|y items]]; [contradiction| |].
      + cbn in J. subst x. inversion S as [|k v k' v' t i' p' K SK SV T S' E| x' i' p' N S']; subst; [destruct k; discriminate|]. inversion S'; subst. reflexivity.
      + cbn [join] in J. apply app_eq_nil in J as [_ J]. discriminate.
    - rewrite <- J. change (lit ",") with [chr ","]. rewrite split_on_join by assumption. apply says_step, S. }
  cbv beta iota zeta. rewrite M. split; [eexists; eexists; reflexivity|]. split; [now rewrite res_new_dict|]. intros k.
  assert (G : forall k, dget k (dict_of pairs) = dget k (latest pairs)).
  { intro k'. unfold dict_of. rewrite dget_latest. now destruct (dget k' (latest pairs)). }
  destruct name as [[|c s]|]; rewrite new_strings_any by (try apply NoDup_dset; apply NoDup_dict_of); destruct k as [|x k]; try reflexivity; rewrite ?dget_dset, ?G; reflexivity.
Qed.

(** ** [Resource.create] with these detectors *)
Section Create.
Variable pylower : str -> str.
Variable sr : surroundings.
Notation entry := (sdk_entry_point pylower sr).
Lemma entry_quiet n d : entry n = Some d -> det_raise d = false.
Proof.
  unfold sdk_entry_point. repeat (match goal with |- (if ?b then _ else _) = _ -> _ => destruct b end); intros H; try discriminate; injection H as <-; reflexivity.
Qed.
Lemma otel_is_resource a b : is_resource (otel_detect a b) /\ r_schema (otel_detect a b) = [].
Proof. unfold otel_detect. split; [eexists; eexists; reflexivity|rewrite res_new_dict; reflexivity]. Qed.
(** What the detectors can find *)
Inductive found_by : str -> resource -> Prop :=
| fb_otel : found_by (lit "otel") (otel_detect (sr_attributes sr) (sr_service_name sr))
| fb_process r : process_detect (sr_process sr) = Ok r -> found_by (lit "process") r
| fb_os : found_by (lit "os") (os_detect pylower (sr_system sr) (sr_release sr) (sr_version sr))
| fb_host : found_by (lit "host") (host_detect (sr_host sr) (sr_machine sr)).
Lemma entry_found n r : (exists b, entry n = Some (Det b (Some r))) <-> found_by n r.
Proof.
  unfold sdk_entry_point. split.
  - intros [b H]. destruct (str_eqb n (lit "otel")) eqn:E1; [apply str_eqb_eq in E1; subst n; injection H as <- <-; constructor|].
    destruct (str_eqb n (lit "process")) eqn:E2.
    { apply str_eqb_eq in E2. subst n. destruct (process_detect (sr_process sr)) as [r'|e] eqn:P; [|discriminate].
      assert (X : r' = r) by congruence. subst r'. constructor. exact P. }
    destruct (str_eqb n (lit "os")) eqn:E3.
    { apply str_eqb_eq in E3. subst n. assert (X : os_detect pylower (sr_system sr) (sr_release sr) (sr_version sr) = r) by congruence. rewrite <- X. constructor. }
    destruct (str_eqb n (lit "host")) eqn:E4; [|discriminate].
    apply str_eqb_eq in E4. subst n. assert (X : host_detect (sr_host sr) (sr_machine sr) = r) by congruence. rewrite <- X. constructor.
  - intros H. exists false. destruct H as [|r P| |]; rewrite ?P; reflexivity.
Qed.
Lemma found_resource n r : found_by n r -> is_resource r /\ r_schema r = [].
Proof.
  intros [|r' P| |].
  - apply otel_is_resource.
  - split; [apply (process_is_resource _ _ P)|]. destruct (process_described (sr_process sr)) as (r2 & R & _ & S & _).
    { assert (D : ~ ~ describable (sr_process sr)) by (rewrite <- process_raises; intros [e X]; congruence).
      unfold describable in *. destruct (pr_executable _), (pr_argv _), (pr_owner _) as [[|]|]; try (exfalso; apply D; intros (A & B & C); congruence); repeat split; discriminate. }
    congruence.
  - destruct (os_attrs pylower (sr_system sr) (sr_release sr) (sr_version sr)) as (t & v & _ & E). rewrite E. split; [|reflexivity].
    exists (as_arg [(lit "os.type", PStr false t); (lit "os.version", PStr false v)]), None. symmetry. apply two_texts; discriminate.
  - split; [eexists; eexists; reflexivity|]. rewrite host_found. reflexivity.
Qed.
Lemma in_found order r : In r (found (load_detectors entry order)) <-> exists n, In n order /\ found_by (strip py_space n) r.
Proof.
  unfold found, load_detectors. rewrite in_flat_map. split.
  - intros (d & I & R). apply in_flat_map in I as (n & I & J). exists n. split; [exact I|]. apply entry_found.
    destruct (entry (strip py_space n)) as [d'|]; [|destruct J]. destruct J as [->|[]]. destruct d as [b [r'|]]; [|destruct R].
    destruct R as [->|[]]. exists b. reflexivity.
  - intros (n & I & F). apply entry_found in F as [b F]. exists (Det b (Some r)). split; [|left; reflexivity].
    apply in_flat_map. exists n. split; [exact I|]. rewrite F. left. reflexivity.
Qed.
Lemma top_agree (layers : list (dict str pyval)) k v :
  (forall d, In d layers -> dget k d = Some v \/ dget k d = None) -> (exists d, In d layers /\ dget k d = Some v) -> top layers k = Some v.
Proof.
  assert (W : forall ls, (forall d, In d ls -> dget k d = Some v \/ dget k d = None) -> top ls k = Some v \/ top ls k = None /\ (forall d, In d ls -> dget k d = None)).
  { induction ls as [|d ls IH]; intros H; [right; split; [reflexivity|intros d []]|]. cbn [top].
    destruct IH as [E|[E A]]; [intros d' I; apply H; right; exact I|left; rewrite E; reflexivity|]. rewrite E.
    destruct (H d (or_introl eq_refl)) as [X|X]; [left; exact X|right]. split; [exact X|]. intros d' [<-|I]; [exact X|apply A, I]. }
  intros H (d & I & E). destruct (W layers H) as [T|[_ A]]; [exact T|]. rewrite (A d I) in E. discriminate.
Qed.
Lemma top_in (layers : list (dict str pyval)) k v : top layers k = Some v -> exists d, In d layers /\ dget k d = Some v.
Proof.
  induction layers as [|d ls IH]; intros H; [discriminate|]. cbn [top] in H. destruct (top ls k) as [w|] eqn:E.
  - destruct (IH H) as (d' & I & G). exists d'. split; [right; exact I|exact G].
  - exists d. split; [left; reflexivity|exact H].
Qed.
Lemma otel_strings a b k v : dget k (r_attrs (otel_detect a b)) = Some v -> exists s, v = PStr false s.
Proof.
  unfold otel_detect. rewrite res_new_dict. cbn [r_attrs]. intros G. apply dget_In, latest_In in G. unfold accepted in G.
  apply in_flat_map in G as (kv & I & G). apply in_map_iff in I as (x & <- & _). cbn [fst snd] in G.
  destruct (fst x) as [|c s]; [destruct G|]. cbn in G. destruct G as [G|[]]. injection G as _ <-. eauto.
Qed.
Lemma top_none (layers : list (dict str pyval)) k : (forall d, In d layers -> dget k d = None) -> top layers k = None.
Proof. induction layers as [|d ls IH]; intros H; [reflexivity|]. cbn [top]. rewrite IH by (intros d' I; apply H; right; exact I). apply H. left. reflexivity. Qed.
Lemma process_key p k v : process_attribute p k v -> exists rest, k = lit "process." ++ rest.
Proof. intros H. destruct H; eexists; vm_compute; reflexivity. Qed.
Lemma os_key t v rest : dget (lit "process." ++ rest) [(lit "os.type", PStr false t); (lit "os.version", PStr false v)] = None.
Proof. cbn [dget]. repeat (match goal with |- context [eq_dec ?a ?b] => destruct (eq_dec a b) as [X|_]; [discriminate X|] end). reflexivity. Qed.
Lemma host_key t v rest : dget (lit "process." ++ rest) [(lit "host.name", PStr false t); (lit "host.arch", PStr false v)] = None.
Proof. cbn [dget]. repeat (match goal with |- context [eq_dec ?a ?b] => destruct (eq_dec a b) as [X|_]; [discriminate X|] end). reflexivity. Qed.
Lemma sdk_key version rest : dget (lit "process." ++ rest) (sdk_attributes version) = None.
Proof. unfold sdk_attributes. cbn [dget]. repeat (match goal with |- context [eq_dec ?a ?b] => destruct (eq_dec a b) as [X|_]; [discriminate X|] end). reflexivity. Qed.
Lemma decided p : ~ ~ describable p -> describable p.
Proof.
  intros D. unfold describable in *. destruct (pr_executable p), (pr_argv p), (pr_owner p) as [[|]|]; try (exfalso; apply D; intros (A & B & C); congruence); repeat split; discriminate.
Qed.
(** Which values the layers have for a key of the process *)
Lemma layers_process version order ud rest v :
  (forall w, process_attribute (sr_process sr) (lit "process." ++ rest) w -> w = v) ->
  dget (lit "process." ++ rest) (r_attrs (otel_detect (sr_attributes sr) (sr_service_name sr))) = None ->
  dget (lit "process." ++ rest) ud = None ->
  forall d, In d (sdk_attributes version :: map r_attrs (found (load_detectors entry order)) ++ [ud]) ->
  dget (lit "process." ++ rest) d = Some v \/ dget (lit "process." ++ rest) d = None.
Proof.
  intros U O D d [<-|I]; [right; apply sdk_key|]. apply in_app_iff in I as [I|[<-|[]]]; [|right; exact D].
  apply in_map_iff in I as (r & <- & I). apply in_found in I as (n & _ & F). inversion F as [E1 E2|r' P E1 E2|E1 E2|E1 E2]; subst.
  - right. exact O.
  - destruct (process_described (sr_process sr)) as (r2 & R & _ & _ & A); [apply decided; rewrite <- process_raises; intros [e X]; congruence|].
    assert (r2 = r) by congruence. subst r2. destruct (dget (lit "process." ++ rest) (r_attrs r)) as [w|] eqn:G; [left|right; reflexivity].
    apply A in G. rewrite (U _ G). reflexivity.
  - right. destruct (os_attrs pylower (sr_system sr) (sr_release sr) (sr_version sr)) as (t & w & _ & ->). apply os_key.
  - right. rewrite host_found. apply host_key.
Qed.
Lemma process_layer version order ud k v : In (lit "process") order -> describable (sr_process sr) -> process_attribute (sr_process sr) k v ->
  exists d, In d (sdk_attributes version :: map r_attrs (found (load_detectors entry order)) ++ [ud]) /\ dget k d = Some v.
Proof.
  intros I D P. destruct (process_described _ D) as (r & R & _ & _ & A). exists (r_attrs r). split; [|apply A, P].
  right. apply in_app_iff. left. apply in_map. apply in_found. exists (lit "process"). split; [exact I|]. change (strip py_space (lit "process")) with (lit "process").
  constructor. exact R.
Qed.
Lemma process_functional p k v w : describable p -> process_attribute p k v -> process_attribute p k w -> v = w.
Proof. intros D V W. destruct (process_described _ D) as (r & _ & _ & _ & A). apply A in V, W. congruence. Qed.

Theorem created fzero version order attrs schema ud :
  attributes_of (match attrs with Some a => a | None => [] end) ud ->
  (forall v, dget (lit "process.executable.name") ud = Some v -> exists sub s, v = PStr sub s) ->
  let detected := r_attrs (otel_detect (sr_attributes sr) (sr_service_name sr)) in
  exists r, res_create fzero version entry order attrs schema = Ok r
  /\ (exists v, dget (lit "service.name") (r_attrs r) = Some v /\ ~ empty_value fzero v)
  /\ (forall k v, k <> lit "service.name" -> dget k ud = Some v -> dget k (r_attrs r) = Some v)
  /\ (In (lit "process") order -> describable (sr_process sr) ->
      (forall k v, process_attribute (sr_process sr) k v -> dget k ud = None -> dget k detected = None -> dget k (r_attrs r) = Some v)
      /\ (forall e, pr_executable (sr_process sr) = Some e -> e <> [] ->
          dget (lit "service.name") ud = None -> dget (lit "service.name") detected = None ->
          dget (lit "process.executable.name") ud = None -> dget (lit "process.executable.name") detected = None ->
          dget (lit "service.name") (r_attrs r) = Some (PStr false (lit "unknown_service" ++ lit ":" ++ e)))).
Proof.
  intros UD US detected.
  destruct (c51_create' fzero version entry order attrs schema (match schema with Some s => s | None => [] end) ud) as (r & R & K & v & G & NE & W & X).
  - unfold load_detectors. apply Forall_forall. intros d I _. apply in_flat_map in I as (n & _ & I). destruct (entry (strip py_space n)) as [d'|] eqn:E; [|destruct I].
    destruct I as [<-|[]]. apply (entry_quiet _ _ E).
  - apply Forall_forall. intros r I. apply in_found in I as (n & _ & F). destruct (found_resource _ _ F) as [A B]. split; [exact A|]. left. exact B.
  - right. reflexivity.
  - exact UD.
  - intros _ v G _. apply top_in in G as (d & I & G). destruct I as [<-|I]; [discriminate G|]. apply in_app_iff in I as [I|[<-|[]]]; [|apply US, G].
    apply in_map_iff in I as (r & <- & I). apply in_found in I as (n & _ & F). inversion F as [E1 E2|r' P E1 E2|E1 E2|E1 E2]; subst.
    + apply otel_strings in G as [s ->]. eauto.
    + destruct (process_described (sr_process sr)) as (r2 & R & _ & _ & A); [apply decided; rewrite <- process_raises; intros [e X]; congruence|].
      assert (r2 = r) by congruence. subst r2. apply A in G. inversion G; subst. eauto.
    + destruct (os_attrs pylower (sr_system sr) (sr_release sr) (sr_version sr)) as (t & w & _ & E). rewrite E in G. discriminate G.
    + rewrite host_found in G. discriminate G.
  - exists r. split; [exact R|]. split; [exists v; split; assumption|]. split.
    { intros k w N D. rewrite (K k N). rewrite app_comm_cons, top_app, D. reflexivity. }
    intros IN DP. split.
    + intros k w P D O. destruct (process_key _ _ _ P) as [rest ->]. rewrite K by discriminate. apply top_agree.
      * apply layers_process; [|exact O|exact D]. intros w' P'. apply (process_functional _ _ _ _ DP P' P).
      * apply process_layer; assumption.
    + intros e E NE' S1 S2 E1 E2. transitivity (Some v); [exact G|]. f_equal.
      assert (TS : top (r_attrs (DEFAULT_RESOURCE version) :: map r_attrs (found (load_detectors entry order)) ++ [ud]) (lit "service.name") = None).
      { apply top_none. intros d [<-|I]; [reflexivity|]. apply in_app_iff in I as [I|[<-|[]]]; [|exact S1].
        apply in_map_iff in I as (r' & <- & I). apply in_found in I as (n & _ & F). inversion F as [Q1 Q2|r'' P Q1 Q2|Q1 Q2|Q1 Q2]; subst.
        - exact S2.
        - destruct (process_described _ DP) as (r2 & R2 & _ & _ & A). assert (r2 = r') by congruence. subst r2.
          destruct (dget (lit "service.name") (r_attrs r')) as [w|] eqn:Y; [|reflexivity]. apply A, process_key in Y as [rest Y]. discriminate Y.
        - destruct (os_attrs pylower (sr_system sr) (sr_release sr) (sr_version sr)) as (t & w & _ & ->). reflexivity.
        - rewrite host_found. reflexivity. }
      assert (TE : top (r_attrs (DEFAULT_RESOURCE version) :: map r_attrs (found (load_detectors entry order)) ++ [ud]) (lit "process.executable.name") = Some (PStr false e)).
      { change (lit "process.executable.name") with (lit "process." ++ lit "executable.name") in *. apply top_agree.
        - apply layers_process; [|exact E2|exact E1]. intros w' P'. apply (process_functional _ _ _ _ DP P'). apply (pa_executable _ _ E).
        - apply process_layer; [exact IN|exact DP|]. apply (pa_executable _ _ E). }
      destruct X as [[X _]|(sub & s & X & V)].
      * intros w Y. change SERVICE_NAME with (lit "service.name") in Y. rewrite TS in Y. discriminate.
      * exfalso. change PROCESS_EXECUTABLE_NAME with (lit "process.executable.name") in X. specialize (X _ TE).
        destruct X as [X|[X|[(? & X)|[(? & ? & X & _)|[(? & X)|[(? & X)|(? & X)]]]]]]; try discriminate. injection X as _ X. contradiction.
      * change PROCESS_EXECUTABLE_NAME with (lit "process.executable.name") in X. rewrite TE in X. injection X as _ X. subst s. exact V.
Qed.
(** A detector that raises changes nothing. *)
Lemma merge_resource a b : is_resource a -> is_resource (res_merge a b).
Proof. intros H. unfold res_merge. repeat (match goal with |- context [if ?b then _ else _] => destruct b end); try exact H; eexists; eexists; reflexivity. Qed.
Lemma aggregated_skip ds : forall acc, is_resource acc -> Forall (fun d => det_result d = None -> det_raise d = false) ds ->
  aggregated ds acc = aggregated (filter (fun d => match det_result d with Some _ => true | None => false end) ds) acc.
Proof.
  induction ds as [|d ds IH]; intros acc A F; [reflexivity|]. inversion F as [|? ? Q F']; subst. cbn [aggregated filter].
  destruct (det_result d) as [r|] eqn:D.
  - cbn [aggregated]. rewrite D. apply IH; [apply merge_resource, A|exact F'].
  - rewrite (Q eq_refl). destruct (c50_empty acc A) as [_ E]. rewrite E. apply IH; assumption.
Qed.
Theorem skipped fzero version order attrs schema : ~ describable (sr_process sr) ->
  res_create fzero version entry order attrs schema
  = res_create fzero version entry (filter (fun n => negb (str_eqb (strip py_space n) (lit "process"))) order) attrs schema.
Proof.
  intros N. apply process_raises in N as [x N].
  assert (Q : forall l, Forall (fun d => det_result d = None -> det_raise d = false) (load_detectors entry l)).
  { intros l. apply Forall_forall. intros d I _. apply in_flat_map in I as (n & _ & I). destruct (entry (strip py_space n)) as [d'|] eqn:E; [|destruct I].
    destruct I as [<-|[]]. apply (entry_quiet _ _ E). }
  assert (A : aggregated (load_detectors entry order) (DEFAULT_RESOURCE version)
            = aggregated (load_detectors entry (filter (fun n => negb (str_eqb (strip py_space n) (lit "process"))) order)) (DEFAULT_RESOURCE version)).
  { rewrite aggregated_skip by (try apply Q; eexists; eexists; reflexivity). rewrite (aggregated_skip (load_detectors entry (filter _ order))) by (try apply Q; eexists; eexists; reflexivity).
    f_equal. induction order as [|n order IH]; [reflexivity|]. cbn [filter]. destruct (str_eqb (strip py_space n) (lit "process")) eqn:E; cbn [negb].
    - unfold load_detectors in *. cbn [flat_map]. rewrite filter_app, IH. apply str_eqb_eq in E. rewrite E. unfold sdk_entry_point at 1. rewrite N. reflexivity.
    - unfold load_detectors in *. cbn [flat_map]. rewrite !filter_app, IH. reflexivity. }
  unfold res_create. rewrite A. reflexivity.
Qed.
End Create.
