(** String helpers: source/Misc.cpp l.39-169, source/Misc.hpp l.700-706.
    A std::string is a list of bytes. The character classes are those of the
    "C" locale; bytes >= 128 are in no class (std::isspace on a negative char is
    formally undefined, the model gives it the glibc answer: false). *)
From Coq Require Import List Ascii NArith ZArith Bool.
Import ListNotations.

Definition str := list ascii.

Definition code (c : ascii) : N := N_of_ascii c.

(** <cctype> predicates in the "C" locale *)
Definition is_upper (c : ascii) : bool := ((65 <=? code c) && (code c <=? 90))%N.
Definition is_lower (c : ascii) : bool := ((97 <=? code c) && (code c <=? 122))%N.
Definition is_alpha (c : ascii) : bool := is_upper c || is_lower c.
Definition is_digit (c : ascii) : bool := ((48 <=? code c) && (code c <=? 57))%N.
Definition is_space (c : ascii) : bool :=
  (((9 <=? code c) && (code c <=? 13)) || (code c =? 32))%N.

Definition to_upper (c : ascii) : ascii :=
  if is_lower c then ascii_of_N (code c - 32) else c.
Definition to_lower (c : ascii) : ascii :=
  if is_upper c then ascii_of_N (code c + 32) else c.

(** str::lower, Misc.cpp l.41-47; str::upper, l.49-55 *)
Definition lower (s : str) : str := map to_lower s.
Definition upper (s : str) : str := map to_upper s.

Fixpoint str_eqb (a b : str) : bool :=
  match a, b with
  | [], [] => true
  | x :: a', y :: b' => Ascii.eqb x y && str_eqb a' b'
  | _, _ => false
  end.

(** str::startswith, Misc.cpp l.57-61: rfind(prefix, 0) == 0 *)
Fixpoint startswith (s prefix : str) : bool :=
  match prefix, s with
  | [], _ => true
  | p :: ps, c :: cs => Ascii.eqb p c && startswith cs ps
  | _ :: _, [] => false
  end.

(** std::string::find(term) != npos *)
Fixpoint contains (s term : str) : bool :=
  startswith s term || match s with [] => false | _ :: s' => contains s' term end.

(** str::has, Misc.cpp l.63-72 *)
Fixpoint has (s : str) (terms : list str) : bool :=
  match terms with
  | [] => false
  | t :: ts => if contains s t then true else has s ts
  end.

(** str::isOneOf, Misc.cpp l.134-144 *)
Fixpoint isOneOf (s : str) (values : list str) : bool :=
  match values with
  | [] => false
  | v :: vs => if str_eqb s v then true else isOneOf s vs
  end.

(** std::getline(stream, token, sep) on a non-exhausted stream: the token and
    what is left; [None] when the end of the stream was reached. *)
Fixpoint getline (sep : ascii) (s : str) : str * option str :=
  match s with
  | [] => ([], None)
  | c :: s' =>
      if Ascii.eqb c sep then ([], Some s')
      else let '(tok, r) := getline sep s' in (c :: tok, r)
  end.

(** Loop `while (getline(..)) ...`: all the tokens. getline fails when nothing is
    left to extract. One unit of fuel per character suffices. *)
Fixpoint getlines (fuel : nat) (sep : ascii) (s : str) : list str :=
  match fuel, s with
  | _, [] => []
  | O, _ => []
  | S f, _ =>
      let '(tok, r) := getline sep s in
      tok :: match r with None => [] | Some r' => getlines f sep r' end
  end.

Definition nonempty {A} (l : list A) : bool := match l with [] => false | _ => true end.

(** str::split(str, sep), Misc.cpp l.74-85 *)
Definition split_sep (s : str) (sep : ascii) : list str :=
  filter nonempty (getlines (length s) sep s).

Definition space : ascii := " "%char.
Definition tab : ascii := ascii_of_N 9.
Definition newline : ascii := ascii_of_N 10.
Definition cr : ascii := ascii_of_N 13.

(** str::split(s), Misc.hpp l.700-706 *)
Definition split (s : str) : list str :=
  let sout := split_sep s space in
  match sout with
  | [w] => split_sep w tab
  | _ => sout
  end.

Fixpoint dropwhile {A} (f : A -> bool) (l : list A) : list A :=
  match l with [] => [] | x :: l' => if f x then dropwhile f l' else l end.

(** str::rtrim, Misc.cpp l.87-94: erase from the position after the last
    non-space character *)
Definition rtrim (s : str) : str := rev (dropwhile is_space (rev s)).

(** fileIO::fileToLines, Misc.cpp l.149-169, on the contents of an opened file *)
Definition file_to_lines (contents : str) : list str :=
  map rtrim (getlines (length contents) newline contents).

(** str::decomposeString, Misc.cpp l.96-132. The loop collects the positions
    (`markers`) where letters and digits alternate, at most five. [pos] is the
    iterator, [was_alpha] the flag wasLastAlpha, [room] how many markers may
    still be set. *)
Fixpoint markers_loop (s : str) (pos : nat) (was_alpha : bool) (room : nat) : list nat :=
  match s, room with
  | [], _ => []
  | _, O => []
  | c :: s', S room' =>
      if (is_alpha c || is_digit c) && negb (eqb (is_alpha c) was_alpha)
      then pos :: markers_loop s' (S pos) (negb was_alpha) room'
      else markers_loop s' (S pos) was_alpha room
  end.

(** the string between two iterators *)
Definition slice (s : str) (a b : nat) : str := firstn (b - a) (skipn a s).

Record decomposed := { d_let1 : str; d_num1 : str; d_let2 : str; d_num2 : str; d_let3 : str; d_ret : Z }.

Definition decomposeString (outWord : str) : decomposed :=
  let u := upper outWord in
  let e := length u in
  let ms := markers_loop u 0 true 5 in
  let m i := nth i ms e in
  let num1 := slice u (m 0%nat) (m 1%nat) in
  {| d_let1 := slice u 0 (m 0%nat);
     d_num1 := num1;
     d_let2 := slice u (m 1%nat) (m 2%nat);
     d_num2 := slice u (m 2%nat) (m 3%nat);
     d_let3 := slice u (m 3%nat) e;
     d_ret := if nonempty num1 then 0%Z else (-1)%Z |}.
