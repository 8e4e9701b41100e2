(** Regular expressions over code points, with an executable matcher (Brzozowski
    derivatives) standing for Python's [re.fullmatch(...) is not None].
    The language [lang] a regular expression denotes is the textbook definition; that the
    matcher decides it is proved in Proof_Regex.v.  Only the operators used by the
    modelled code are covered: classes, concatenation, alternation, [*], [?], [{m}], [{0,n}]. *)
From Verif Require Export Model_Str.

Inductive re :=
| RVoid
| REps
| RCls (p : N -> bool)          (* one character of a class, [abc] *)
| RCat (a b : re)
| RAlt (a b : re)               (* a|b *)
| RStar (a : re).               (* a* *)

(** The language denoted by a regular expression. *)
Inductive lang : re -> str -> Prop :=
| L_eps : lang REps []
| L_cls p c : p c = true -> lang (RCls p) [c]
| L_cat a b s t : lang a s -> lang b t -> lang (RCat a b) (s ++ t)
| L_altl a b s : lang a s -> lang (RAlt a b) s
| L_altr a b s : lang b s -> lang (RAlt a b) s
| L_star0 a : lang (RStar a) []
| L_star1 a s t : lang a s -> lang (RStar a) t -> lang (RStar a) (s ++ t).

Fixpoint nullable (r : re) : bool :=
  match r with
  | RVoid | RCls _ => false
  | REps | RStar _ => true
  | RCat a b => nullable a && nullable b
  | RAlt a b => nullable a || nullable b
  end.

(** Smart constructors keep derivatives small. *)
Definition rcat (a b : re) : re :=
  match a, b with
  | RVoid, _ => RVoid
  | _, RVoid => RVoid
  | REps, _ => b
  | _, _ => RCat a b
  end.
Definition ralt (a b : re) : re :=
  match a, b with
  | RVoid, _ => b
  | _, RVoid => a
  | _, _ => RAlt a b
  end.

Fixpoint deriv (c : N) (r : re) : re :=
  match r with
  | RVoid | REps => RVoid
  | RCls p => if p c then REps else RVoid
  | RCat a b =>
      if nullable a then ralt (rcat (deriv c a) b) (deriv c b) else rcat (deriv c a) b
  | RAlt a b => ralt (deriv c a) (deriv c b)
  | RStar a => rcat (deriv c a) (RStar a)
  end.

(** [re.fullmatch(r, s) is not None] *)
Fixpoint fullmatch (r : re) (s : str) : bool :=
  match s with
  | [] => nullable r
  | c :: s' => fullmatch (deriv c r) s'
  end.

(** a? *)
Definition ropt (a : re) : re := RAlt REps a.
(** a{n} *)
Fixpoint rrep (n : nat) (a : re) : re :=
  match n with O => REps | S n' => RCat a (rrep n' a) end.
(** a{0,n} *)
Fixpoint rupto (n : nat) (a : re) : re :=
  match n with O => REps | S n' => RAlt REps (RCat a (rupto n' a)) end.
(** a+ *)
Definition rplus (a : re) : re := RCat a (RStar a).
(** a literal character / string *)
Definition rchr (c : N) : re := RCls (N.eqb c).
Fixpoint rlit (s : str) : re :=
  match s with [] => REps | c :: s' => RCat (rchr c) (rlit s') end.
