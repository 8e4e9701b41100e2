(** Python strings, modelled as lists of Unicode code points, and the handful of
    string operations of the Python standard library that the modelled code uses. *)
From Coq Require Export String Ascii NArith ZArith Bool Arith Lia List.
Export ListNotations.
Open Scope list_scope.

(** A Python [str]: the sequence of its code points. *)
Definition str := list N.

(** Literals: [lit "abc"] is the Python literal "abc" (ASCII only). *)
Fixpoint lit (s : string) : str :=
  match s with
  | EmptyString => []
  | String a s' => N_of_ascii a :: lit s'
  end.

Definition chr (s : string) : N := hd 0%N (lit s).

(** Python [==] on [str]. *)
Definition str_eq_dec : forall a b : str, {a = b} + {a <> b} := list_eq_dec N.eq_dec.
Definition str_eqb (a b : str) : bool := if str_eq_dec a b then true else false.

(** [lo <= c <= hi], the character classes [\xLO-\xHI] of [re]. *)
Definition in_range (lo hi c : N) : bool := (N.leb lo c && N.leb c hi)%bool.

Definition is_lower (c : N) : bool := in_range 97 122 c.            (* [a-z] *)
Definition is_upper (c : N) : bool := in_range 65 90 c.             (* [A-Z] *)
Definition is_digit (c : N) : bool := in_range 48 57 c.             (* [0-9] *)
Definition is_lhex (c : N) : bool := is_digit c || in_range 97 102 c.   (* [0-9a-f] *)
Definition is_hex (c : N) : bool := is_lhex c || in_range 65 70 c.      (* [0-9a-fA-F] *)
Definition is_ows (c : N) : bool := (N.eqb c 32 || N.eqb c 9)%bool.       (* [ \t] *)

(** Characters removed by Python's [str.strip()] without argument (Unicode whitespace). *)
Definition py_space (c : N) : bool :=
  in_range 9 13 c || in_range 28 32 c || N.eqb c 133 || N.eqb c 160 || N.eqb c 5760
  || in_range 8192 8202 c || N.eqb c 8232 || N.eqb c 8233 || N.eqb c 8239
  || N.eqb c 8287 || N.eqb c 12288.

(** [s.lstrip(chars)], [s.rstrip(chars)], [s.strip(chars)] for a character class. *)
Fixpoint lstrip (p : N -> bool) (s : str) : str :=
  match s with
  | [] => []
  | c :: s' => if p c then lstrip p s' else s
  end.
Definition rstrip (p : N -> bool) (s : str) : str := rev (lstrip p (rev s)).
Definition strip (p : N -> bool) (s : str) : str := rstrip p (lstrip p s).

(** [s.split(sep)] for a one-character separator: always at least one piece. *)
Fixpoint split_on (c : N) (s : str) : list str :=
  match s with
  | [] => [[]]
  | x :: s' =>
      if N.eqb x c then [] :: split_on c s'
      else match split_on c s' with
           | [] => [[x]]
           | p :: ps => (x :: p) :: ps
           end
  end.

(** [s.split(sep, 1)]: the part before the first separator, and the rest if there is one. *)
Fixpoint split1 (c : N) (s : str) : str * option str :=
  match s with
  | [] => ([], None)
  | x :: s' =>
      if N.eqb x c then ([], Some s')
      else let (a, b) := split1 c s' in (x :: a, b)
  end.

(** [sep.join(pieces)]. *)
Fixpoint join (sep : str) (l : list str) : str :=
  match l with
  | [] => []
  | [x] => x
  | x :: l' => x ++ sep ++ join sep l'
  end.

(** [s.startswith(p)] and the remainder after the prefix. *)
Fixpoint strip_prefix (p s : str) : option str :=
  match p, s with
  | [], _ => Some s
  | _, [] => None
  | a :: p', b :: s' => if N.eqb a b then strip_prefix p' s' else None
  end.

(** ASCII [str.lower()]. Non-ASCII case mapping is not modelled. *)
Definition lower_char (c : N) : N := if is_upper c then (c + 32)%N else c.
Definition lower (s : str) : str := map lower_char s.

(** ** Hexadecimal numbers *)

(** The digit character of 0..15, lower case. *)
Definition hex_char (d : N) : N := if N.ltb d 10 then (48 + d)%N else (87 + d)%N.

(** Value of a hexadecimal digit (either case). *)
Definition hex_val (c : N) : N :=
  if is_digit c then (c - 48)%N
  else if in_range 97 102 c then (c - 87)%N
  else (c - 55)%N.

(** Digits of [n] in base 16, most significant first; [fuel] bounds their number. *)
Fixpoint hex_digits (fuel : nat) (n : N) (acc : str) : str :=
  match fuel with
  | O => acc
  | S f =>
      let acc' := hex_char (N.modulo n 16) :: acc in
      if N.eqb (N.div n 16) 0 then acc' else hex_digits f (N.div n 16) acc'
  end.

(** [format(n, "x")] for [n >= 0]. *)
Definition hex (n : N) : str := hex_digits (S (N.to_nat (N.log2 n))) n [].

(** [format(n, "0<w>x")] for [n >= 0]: padded on the left with zeros to width [w]. *)
Definition hex_pad (w : nat) (n : N) : str :=
  let h := hex n in repeat 48%N (w - length h) ++ h.

(** [int(s, 16)] for a string that consists of hexadecimal digits only. *)
Definition hex_value (s : str) : N := fold_left (fun a c => (16 * a + hex_val c)%N) s 0%N.
