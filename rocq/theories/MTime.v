(** Bookkeeping of the time integrators: registration of objects (source/Time.hpp
    l.60-196, l.325-525), creation by name (Time.cpp l.805-888) and the calculation mask of
    the local schemes (Time.cpp l.242-328). *)
From Coq Require Import List Arith ZArith Bool Reals Ascii String Lia.
From Verif Require Import MErr MStr MStateOps MScheme.
Import ListNotations.

(** One kind of object (lines, points, rods or bodies; the code repeats the same functions
    for the four kinds): the registered objects, the entry of each one in every r[k] and
    rd[k], and its mask. Objects are identified by a number (their address). *)
Record slots (A B : Type) := Slots { ids : list nat; ss : list (list A); sd : list (list B); msk : list bool }.
Arguments Slots {A B}. Arguments ids {A B}. Arguments ss {A B}. Arguments sd {A B}. Arguments msk {A B}.
(** std::find and std::distance *)
Fixpoint find_at (o : nat) (l : list nat) : option nat :=
  match l with [] => None | x :: l' => if (x =? o)%nat then Some 0%nat else match find_at o l' with Some i => Some (S i) | None => None end end.
(** v.erase(v.begin() + i) *)
Fixpoint erase {A} (l : list A) (i : nat) : outcome (list A) :=
  match l, i with
  | [], _ => UB
  | _ :: l', O => Ok l'
  | x :: l', S i' => r <- erase l' i' ;; Ok (x :: r)
  end.
(** for (i = 0; i < r.size(); i++) r[i].X.erase(r[i].X.begin() + i): the inner i hides the
    index of the removed object *)
Fixpoint erase_diag {A} (rs : list (list A)) (i : nat) : outcome (list (list A)) :=
  match rs with
  | [] => Ok []
  | x :: rs' => y <- erase x i ;; ys <- erase_diag rs' (S i) ;; Ok (y :: ys)
  end.
(** TimeSchemeBase::AddLine l.330-352 with TimeScheme::AddLine l.69-78, and likewise
    AddPoint, AddRod, AddBody; s0 and d0 are the zero state and derivative pushed *)
Definition add_obj {A B} (s0 : A) (d0 : B) (o : nat) (s : slots A B) : outcome (slots A B) :=
  match find_at o (ids s) with
  | Some _ => Throw ExInvalidValue
  | None => Ok (Slots (ids s ++ [o]) (map (fun l => l ++ [s0]) (ss s)) (map (fun l => l ++ [d0]) (sd s)) (msk s ++ [true]))
  end.
(** TimeSchemeBase::RemoveLine l.360-375 with TimeScheme::RemoveLine l.86-97, and likewise
    the other kinds *)
Definition remove_obj {A B} (o : nat) (s : slots A B) : outcome (slots A B * nat) :=
  match find_at o (ids s) with
  | None => Throw ExInvalidValue
  | Some i => is <- erase (ids s) i ;; rs <- erase_diag (ss s) 0 ;; ds <- erase_diag (sd s) 0 ;;
              ms <- erase (msk s) i ;; Ok (Slots is rs ds ms, i)
  end.
(** a new scheme with n states and m derivatives *)
Definition no_slots {A B} (n m : nat) : slots A B := Slots [] (repeat [] n) (repeat [] m) [].

(** std::stoi: blanks, sign, digits; the rest of the string is ignored *)
Fixpoint digits (s : str) (acc : Z) : Z :=
  match s with
  | c :: s' => if is_digit c then digits s' (10 * acc + Z.of_N (code c - 48)) else acc
  | [] => acc
  end.
Definition stoi (s : str) : outcome Z :=
  let s := dropwhile is_space s in
  let '(sign, s) := match s with c :: s' => if Ascii.eqb c "-" then ((-1)%Z, s') else if Ascii.eqb c "+" then (1%Z, s') else (1%Z, s) | [] => (1%Z, s) end in
  match s with
  | c :: _ => if is_digit c then
                let v := (sign * digits s 0)%Z in
                if ((- 2 ^ 31 <=? v) && (v <? 2 ^ 31))%Z then Ok v else Throw ExStd
              else Throw ExInvalidValue
  | [] => Throw ExInvalidValue
  end.
(** conversion of int to unsigned int *)
Definition to_unsigned (v : Z) : nat := Z.to_nat (v mod 2 ^ 32).
Definition stm (s : string) : str := list_ascii_of_string s.
Definition iters_of (name : str) (n : nat) : outcome nat := v <- stoi (skipn n name) ;; Ok (to_unsigned v).
(** create_time_scheme, Time.cpp l.805-888. The exception std::invalid_argument of stoi is
    turned into invalid_value_error; std::out_of_range is not caught. *)
Definition create_time_scheme (name : str) : outcome scheme :=
  let n := lower name in
  let is w := str_eqb n (stm w) in
  if is "euler"%string then Ok Euler
  else if is "leuler"%string then Ok LocalEuler
  else if is "heun"%string then Ok Heun
  else if is "rk2"%string then Ok RK2
  else if is "rk4"%string then Ok RK4
  else if is "ab2"%string then Ok (AB 2 false)
  else if is "ab3"%string then Ok (AB 3 false)
  else if is "ab4"%string then Ok (AB 4 false)
  else if is "lab2"%string then Ok (AB 2 false)
  else if is "lab3"%string then Ok (AB 3 false)
  else if is "lab4"%string then Ok (AB 4 false)
  else if startswith n (stm "beuler") then i <- iters_of name 6 ;; Ok (ImplicitEuler i 1)
  else if startswith n (stm "midpoint") then i <- iters_of name 8 ;; Ok (ImplicitEuler i 0.5)
  else if startswith n (stm "anderson") then i <- iters_of name 8 ;; Ok (AndersonEuler i 0.5)
  else if startswith n (stm "aca") then i <- iters_of name 3 ;; Ok (Newmark i 0.5 0.25)
  else if startswith n (stm "wilson") then i <- iters_of name 6 ;; Ok (Wilson i 1.37)
  else Throw ExInvalidValue.

(** SetCalcMask for one object, Time.cpp l.242-283: new counter _dt and mask *)
Definition set_mask (dt0 cnt dt : R) : R * bool :=
  if Rge_dec (cnt + dt) dt0 then (dt, true) else ((cnt + dt)%R, false).
(** counters of a line (dt_line = cfl2dt(cfl)) and of the other objects, ComputeDt l.285-328 *)
Definition line_dt0 (dt_line : R) : R := (0.999 * dt_line)%R.
Definition line_cnt (dt_line : R) : R := dt_line.
Definition other_dt0 : R := 0.
Definition other_cnt : R := 0.
(** a sequence of steps, with the mask of each one *)
Fixpoint mask_run (dt0 cnt : R) (dts : list R) : list (R * bool) :=
  match dts with [] => [] | dt :: dts' => let '(c, m) := set_mask dt0 cnt dt in (dt, m) :: mask_run dt0 c dts' end.
