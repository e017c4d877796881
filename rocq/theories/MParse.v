(** Reading the input file: MoorDyn::ReadInFile and its helpers, source/MoorDyn2.cpp l.847-2200.
    Oracles: atof, stof and stold of the C and C++ libraries, the file system (curve files, the
    seafloor file, creation of output files and of the log).
    Simplifications: log messages are left out; the objects are the values given to their setup
    functions, in the order of the lists; atoi ignores overflow; the registration of the objects
    in the time integrator and the waves (l.1622-1670) is reduced to what null pointers do. *)
From Coq Require Import String Ascii List Arith NArith ZArith Bool Reals.
From Verif Require Import MErr MStr MVec MStateOps MBody MCurve MDetach.
From Verif Require MTime MScheme.
Import ListNotations.
Local Open Scope nat_scope.

Definition tx (s : string) : str := list_ascii_of_string s.
(** atoi: blanks, sign, digits; 0 if there are none *)
Definition atoi (s : str) : Z :=
  match dropwhile is_space s with
  | c :: s' => if Ascii.eqb c "-" then (- MTime.digits s' 0)%Z else if Ascii.eqb c "+" then MTime.digits s' 0 else MTime.digits (c :: s') 0
  | [] => 0%Z
  end.
(** int to unsigned int *)
Definition u32 (v : Z) : Z := (v mod 2 ^ 32)%Z.
(** stoi with the exceptions of the standard library *)
Definition std_stoi (s : str) : outcome Z := match MTime.stoi s with Ok v => Ok v | _ => Throw ExStd end.

(* ------------------------------ the file as lines ------------------------------ *)
(** readFileIntoBuffers, l.1677-1693: a file that ends with a newline gives a last empty line *)
Definition file_lines (contents : str) : list str := map rtrim (good_lines (S (length contents)) contents).
(** in_txt[i]: beyond the end undefined behaviour *)
Definition line_at (in_txt : list str) (i : nat) : outcome str :=
  match nth_error in_txt i with Some l => Ok l | None => UB end.
(** a line containing "---" ends a section *)
Definition dashes (l : str) : bool := contains l (tx "---").
(** findStartOfSection, l.1695-1714; None for -1 *)
Fixpoint find_header (in_txt : list str) (names : list str) (i : nat) : option nat :=
  match in_txt with
  | [] => None
  | l :: ls => if dashes l && has (upper l) names then Some i else find_header ls names (S i)
  end.
Definition find_start (in_txt : list str) (names : list string) (skip : nat) : option nat :=
  match find_header in_txt (map tx names) 0 with Some i => Some (i + skip) | None => None end.

(** The loop `while ((in_txt[i].find("---") == npos) && (i < in_txt.size()))` of every section,
    l.863 and so on: the line is read before the index is checked. `get` is in_txt[i]; each turn
    either goes on or returns an error code from ReadInFile. [n] is in_txt.size(). *)
Section Rows.
Context {S0 : Type} (get : nat -> outcome str) (n : nat) (body : str -> S0 -> outcome (S0 + Z)).
Fixpoint rows (fuel i : nat) (s : S0) : outcome (S0 + Z) :=
  match fuel with
  | O => Diverges
  | S fuel' =>
    l <- get i ;;
    if dashes l then Ok (inl s)
    else if i <? n then
      r <- body l s ;;
      match r with inl s' => rows fuel' (S i) s' | inr e => Ok (inr e) end
    else Ok (inl s)
  end.
End Rows.
(** a section that may be missing; one unit of fuel for each line and one more suffice *)
Definition section {S0} (get : nat -> outcome str) (in_txt : list str) (names : list string) (skip : nat) (body : str -> S0 -> outcome (S0 + Z)) (s : S0) : outcome (S0 + Z) :=
  match find_start in_txt names skip with
  | None => Ok (inl s)
  | Some i => rows get (length in_txt) body (S (S (length in_txt))) i s
  end.
(** return of an error code from ReadInFile *)
Definition rbind {A B} (r : outcome (A + Z)) (f : A -> outcome (B + Z)) : outcome (B + Z) :=
  x <- r ;; match x with inl a => f a | inr e => Ok (inr e) end.

(* ------------------------------ objects ------------------------------ *)
(** Rod::types, Rod.hpp l.185-205 *)
Inductive rodtype := RFixed | RPinned | RCoupled | RCpldPin | RFree.
(** the body an object is put on: the ground body, or a body by its index in BodyList *)
Inductive parent := NoParent | OnGround | OnBody (i : nat).
Record lprop := Lprop { lp_type : str; lp_num : list R; lp_EA : props_curve; lp_c : props_curve; lp_EI : props_curve }.
Record rprop := Rprop { rp_type : str; rp_num : list R }.
Record body_in := BodyIn { bi_number : Z; bi_type : btype; bi_r6 : list R; bi_M : R; bi_V : R; bi_rCG : list R; bi_I : list R; bi_CdA : list R; bi_Ca : list R }.
Record point_in := PointIn { pi_number : Z; pi_type : ptype; pi_r0 : list R; pi_M : R; pi_V : R; pi_F : list R; pi_CdA : R; pi_Ca : R; pi_on : parent }.
Record rod_in := RodIn { ri_number : Z; ri_type : rodtype; ri_prop : nat; ri_ends : list R; ri_segs : Z; ri_chan : str; ri_on : parent }.
Record line_in := LineIn { li_number : Z; li_prop : nat; li_len : R; li_segs : Z; li_chan : str; li_a : place; li_b : place }.
Record fail_in := FailIn { fi_at : place; fi_lines : list nat; fi_time : R; fi_ten : R }.
(** OutChanProps, Misc.hpp l.1219-1231, without the units; the quantity is its QTypeEnum value *)
Record chan := Chan { ch_name : str; ch_q : nat; ch_o : nat; ch_node : Z; ch_obj : Z }.
(** the options of the file, l.2093-2188; numbers not modelled elsewhere are kept by name *)
Record options := Options { o_real : list (string * R); o_int : list (string * Z); o_scheme : option MScheme.scheme; o_depth : R; o_floor : option str }.
(** the system under construction; None in s_rods is a null pointer *)
Record sys := Sys { s_opt : options; s_lprops : list lprop; s_rprops : list rprop; s_bodies : list body_in; s_points : list point_in;
  s_rods : list (option rod_in); s_lines : list line_in; s_fails : list fail_in; s_chans : list chan; s_nX : Z }.
Definition set_opt (s : sys) o := Sys o (s_lprops s) (s_rprops s) (s_bodies s) (s_points s) (s_rods s) (s_lines s) (s_fails s) (s_chans s) (s_nX s).
Definition add_lprop (s : sys) x := Sys (s_opt s) (s_lprops s ++ [x]) (s_rprops s) (s_bodies s) (s_points s) (s_rods s) (s_lines s) (s_fails s) (s_chans s) (s_nX s).
Definition add_rprop (s : sys) x := Sys (s_opt s) (s_lprops s) (s_rprops s ++ [x]) (s_bodies s) (s_points s) (s_rods s) (s_lines s) (s_fails s) (s_chans s) (s_nX s).
Definition add_body (s : sys) x n := Sys (s_opt s) (s_lprops s) (s_rprops s) (s_bodies s ++ [x]) (s_points s) (s_rods s) (s_lines s) (s_fails s) (s_chans s) (u32 (s_nX s + n)).
Definition add_point (s : sys) x n := Sys (s_opt s) (s_lprops s) (s_rprops s) (s_bodies s) (s_points s ++ [x]) (s_rods s) (s_lines s) (s_fails s) (s_chans s) (u32 (s_nX s + n)).
Definition add_rod (s : sys) x n := Sys (s_opt s) (s_lprops s) (s_rprops s) (s_bodies s) (s_points s) (s_rods s ++ [x]) (s_lines s) (s_fails s) (s_chans s) (u32 (s_nX s + n)).
Definition add_line (s : sys) x n := Sys (s_opt s) (s_lprops s) (s_rprops s) (s_bodies s) (s_points s) (s_rods s) (s_lines s ++ [x]) (s_fails s) (s_chans s) (u32 (s_nX s + n)).
Definition add_fail (s : sys) x := Sys (s_opt s) (s_lprops s) (s_rprops s) (s_bodies s) (s_points s) (s_rods s) (s_lines s) (s_fails s ++ [x]) (s_chans s) (s_nX s).
Definition add_chan (s : sys) x := Sys (s_opt s) (s_lprops s) (s_rprops s) (s_bodies s) (s_points s) (s_rods s) (s_lines s) (s_fails s) (s_chans s ++ [x]) (s_nX s).

Definition is_any (w : str) (ws : list string) : bool := isOneOf w (map tx ws).
Definition is_txt (w : str) (v : string) : bool := str_eqb w (tx v).
(** entries[i], only used after the number of entries is checked *)
Definition ent (es : list str) (i : nat) : str := nth i es [].
(** entries[i] without a check of the number of entries *)
Definition ent_ub (es : list str) (i : nat) : outcome str := match nth_error es i with Some e => Ok e | None => UB end.
(** the index of the last element of a list with a property: the loop for TypeNum, l.1142-1146 *)
Fixpoint last_index {A} (f : A -> bool) (l : list A) (i : nat) (found : option nat) : option nat :=
  match l with [] => found | x :: l' => last_index f l' (S i) (if f x then Some i else found) end.

Section Read.
Variable atof : str -> R.
(** std::stof: None if it throws *)
Variable stof : str -> option R.
Variable stold : str -> stold_res.
Variable opened : str -> option str.
Variable basepath : str.
(** opening an output file for the object of the given kind (0 body, 1 rod, 2 line) and number *)
Variable can_create : nat -> Z -> bool.
(** SetupLog with the given writeLog *)
Variable setup_log : Z -> Z.
(** Seafloor::setup with the given path *)
Variable floor_setup : str -> outcome unit.
Definition nums (es : list str) (i k : nat) : list R := map (fun j => atof (ent es (i + j))) (seq 0 k).

(** readLineProps, l.1716-1767; None for nullptr *)
Definition read_line_props (l : str) : option lprop :=
  let es := split_sep l space in
  if length es <? 10 then None
  else match read_curve_props stold atof opened basepath (ent es 3) with
       | PErr _ => None
       | ea => match read_curve_props stold atof opened basepath (ent es 4) with
               | PErr _ => None
               | c => match read_curve_props stold atof opened basepath (ent es 5) with
                      | PErr _ => None
                      | ei => Some (Lprop (ent es 0) (nums es 1 2 ++ nums es 6 4) ea c ei)
                      end
               end
       end.
Definition row_line_props (l : str) (s : sys) : outcome (sys + Z) :=
  match read_line_props l with Some p => Ok (inl (add_lprop s p)) | None => Ok (inr MOORDYN_INVALID_INPUT) end.
(** readRodProps, l.1769-1796 *)
Definition row_rod_props (l : str) (s : sys) : outcome (sys + Z) :=
  let es := split_sep l space in
  if length es <? 7 then Ok (inr MOORDYN_INVALID_INPUT)
  else Ok (inl (add_rprop s (Rprop (ent es 0) (nums es 1 6)))).

(** one or three values, the first case giving `one`, l.1817-1848 *)
Definition one_or_three (one : R -> list R) (e : str) : option (list R) :=
  match split_sep e "|" with
  | [a] => Some (one (atof a))
  | [a; b; c] => Some [atof a; atof b; atof c]
  | _ => None
  end.
(** CdA, l.1850-1878: a vector of zeros is filled, from index 1 on in the cases of three and
    six values *)
Definition read_CdA (e : str) : option (list R) :=
  match split_sep e "|" with
  | [a] => let x := atof a in Some [x; x; x; x; x; x]
  | [a; b] => let x := atof a in let y := atof b in Some [x; x; x; y; y; y]
  | [a; b; c] => Some [0%R; atof b; atof c; 0%R; atof b; atof c]
  | [a; b; c; d; e; f] => Some [0%R; atof b; atof c; atof d; atof e; atof f]
  | _ => None
  end.
(** the type of a body and its number of states, l.1899-1929 *)
Definition body_type (let1 : str) : btype * Z :=
  if is_any let1 ["ANCHOR"; "FIXED"; "FIX"]%string then (BFixed, 0%Z)
  else if is_any let1 ["VESSEL"; "VES"; "COUPLED"; "CPLD"]%string then (BCoupled, 0%Z)
  else if is_any let1 ["VESSELPINNED"; "VESPIN"; "CPLDPIN"; "COUPLEDPINNED"]%string then (BCpldPin, 6%Z)
  else (BFree, 12%Z).
(** readBody, l.1798-1946. The states of a body whose output file cannot be opened are counted
    already, but then reading fails. *)
Definition row_body (l : str) (s : sys) : outcome (sys + Z) :=
  let es := split_sep l space in
  if length es <? 14 then Ok (inr MOORDYN_INVALID_INPUT)
  else match one_or_three (fun z => [0%R; 0%R; z]) (ent es 9), one_or_three (fun x => [x; x; x]) (ent es 10), read_CdA (ent es 12), one_or_three (fun x => [x; x; x]) (ent es 13) with
       | Some cg, Some inert, Some cda, Some ca =>
         let '(ty, n) := body_type (d_let1 (decomposeString (ent es 1))) in
         let number := atoi (ent es 0) in
         if can_create 0 number then Ok (inl (add_body s (BodyIn number ty (nums es 2 6) (atof (ent es 8)) (atof (ent es 11)) cg inert cda (ca ++ [0%R; 0%R; 0%R])) n))
         else Ok (inr MOORDYN_INVALID_INPUT)
       | _, _, _, _ => Ok (inr MOORDYN_INVALID_INPUT)
       end.

(** the point table, l.976-1096. stoi of a number too big for an int throws. *)
Definition point_type (let1 num1 : str) (nbodies : nat) : option (ptype * Z * option str) :=
  if is_any let1 ["ANCHOR"; "FIXED"; "FIX"]%string then Some (PFixed, 0%Z, None)
  else if is_txt let1 "BODY" then
    if nonempty num1 then
      let id := u32 (atoi num1) in
      if (id =? 0)%Z || (Z.of_nat nbodies <? id)%Z then None else Some (PFixed, 0%Z, Some num1)
    else None
  else if is_any let1 ["FAIRLEAD"; "VESSEL"; "VES"; "COUPLED"; "CPLD"]%string then Some (PCoupled, 0%Z, None)
  else if is_any let1 ["POINT"; "CONNECT"; "CON"; "FREE"]%string then Some (PFree, 6%Z, None)
  else None.
(** BodyList[stoi(num1) - 1] *)
Definition body_at (num1 : str) (nbodies : nat) : outcome parent :=
  id <- std_stoi num1 ;; if (1 <=? id)%Z && (id <=? Z.of_nat nbodies)%Z then Ok (OnBody (Z.to_nat (id - 1))) else UB.
Definition row_point (l : str) (s : sys) : outcome (sys + Z) :=
  let es := split_sep l space in
  if length es <? 9 then Ok (inr MOORDYN_INVALID_INPUT)
  else
    let number := atoi (ent es 0) in
    let r0 := nums es 2 3 in
    let force := 12 <=? length es in
    let F := if force then nums es 7 3 else [0%R; 0%R; 0%R] in
    let CdA := atof (ent es (if force then 10 else 7)) in
    let Ca := atof (ent es (if force then 11 else 8)) in
    let d := decomposeString (ent es 1) in
    match point_type (d_let1 d) (d_num1 d) (length (s_bodies s)) with
    | None => Ok (inr MOORDYN_INVALID_INPUT)
    | Some (ty, n, b) =>
      let z := nth 2 r0 0%R in
      let o := s_opt s in
      let o' := if Rlt_dec z (- o_depth o) then Options (o_real o) (o_int o) (o_scheme o) (- z)%R (o_floor o) else o in
      on <- match b with Some num1 => body_at num1 (length (s_bodies s))
                       | None => Ok (if is_any (d_let1 d) ["ANCHOR"; "FIXED"; "FIX"]%string then OnGround else NoParent) end ;;
      Ok (inl (add_point (set_opt s o') (PointIn number ty r0 (atof (ent es 5)) (atof (ent es 6)) F CdA Ca on) n))
    end.

(** readRod, l.1948-2091: the states are counted before the remaining checks *)
Definition rod_type (let1 num1 let2 : str) (nbodies : nat) : option (rodtype * Z) :=
  if is_any let1 ["ANCHOR"; "FIXED"; "FIX"]%string then Some (RFixed, 0%Z)
  else if is_any let1 ["PINNED"; "PIN"]%string then Some (RPinned, 6%Z)
  else if is_txt let1 "BODY" then
    if nonempty num1 then
      let id := u32 (atoi num1) in
      if (id =? 0)%Z || (Z.of_nat nbodies <? id)%Z then None
      else if is_any let2 ["PINNED"; "PIN"]%string then Some (RPinned, 6%Z) else Some (RFixed, 0%Z)
    else None
  else if is_any let1 ["VESSEL"; "VES"; "COUPLED"; "CPLD"]%string then Some (RCoupled, 0%Z)
  else if is_any let1 ["VESSELPINNED"; "VESPIN"; "CPLDPIN"; "COUPLEDPINNED"]%string then Some (RCpldPin, 6%Z)
  else if is_any let1 ["POINT"; "CON"; "FREE"]%string then Some (RFree, 12%Z)
  else None.
(** an output file is opened if one of the known flags is among the channels, l.2053-2065 *)
Definition wants_output (channels : str) : bool := existsb (fun c => existsb (Ascii.eqb c) (tx "pvUDctsd")) channels.
(** the rod, or a null pointer; and the number of states counted *)
Definition read_rod (l : str) (s : sys) : outcome (option rod_in * Z) :=
  let es := split_sep l space in
  if length es <? 11 then Ok (None, 0%Z)
  else
    let number := atoi (ent es 0) in
    let d := decomposeString (ent es 2) in
    match rod_type (d_let1 d) (d_num1 d) (d_let2 d) (length (s_bodies s)) with
    | None => Ok (None, 0%Z)
    | Some (ty, n) =>
      match last_index (fun p => str_eqb (rp_type p) (ent es 1)) (s_rprops s) 0 None with
      | None => Ok (None, n)
      | Some p =>
        if wants_output (ent es 10) && negb (can_create 1 number) then Ok (None, n)
        else
          on <- (if is_any (d_let1 d) ["ANCHOR"; "FIXED"; "FIX"; "PINNED"; "PIN"]%string then Ok OnGround
                 else if is_txt (d_let1 d) "BODY" then body_at (d_num1 d) (length (s_bodies s)) else Ok NoParent) ;;
          Ok (Some (RodIn number ty p (nums es 3 6) (atoi (ent es 9)) (ent es 10) on), n)
      end
    end.
(** the rod table, l.1098-1112: a null pointer is stored too *)
Definition row_rod (l : str) (s : sys) : outcome (sys + Z) :=
  r <- read_rod l s ;; Ok (inl (add_rod s (fst r) (snd r))).

(** an attachment of a line end, l.1191-1244, or of a failure, l.1275-1321; using a null rod
    (deref) is undefined behaviour, storing it is not *)
Definition read_place (deref : bool) (e : str) (s : sys) : outcome (place + Z) :=
  let d := decomposeString e in
  if nonempty (d_num1 d) then
    let id := u32 (atoi (d_num1 d)) in
    if is_any (d_let1 d) ["R"; "ROD"]%string then
      if (id =? 0)%Z || (Z.of_nat (length (s_rods s)) <? id)%Z then Ok (inr MOORDYN_INVALID_INPUT)
      else
        let k := Z.to_nat (id - 1) in
        let use (x : lend) := if deref then match nth_error (s_rods s) k with Some (Some _) => Ok (inl (AtRod k x)) | _ => UB end else Ok (inl (AtRod k x)) in
        if is_txt (d_let2 d) "A" then use EndA
        else if is_txt (d_let2 d) "B" then use EndB
        else Ok (inr MOORDYN_INVALID_INPUT)
    else if negb (nonempty (d_let1 d)) || is_any (d_let1 d) ["C"; "CON"; "P"; "POINT"]%string then
      if (id =? 0)%Z || (Z.of_nat (length (s_points s)) <? id)%Z then Ok (inr MOORDYN_INVALID_INPUT)
      else Ok (inl (AtPoint (Z.to_nat (id - 1))))
    else Ok (inr MOORDYN_INVALID_INPUT)
  else Ok (inr MOORDYN_INVALID_INPUT).
(** the line table, l.1124-1246. The line is stored before its attachments are read; when these
    fail, so does reading. NumSegs is stored as unsigned, and counted as an int. *)
Definition row_line (l : str) (s : sys) : outcome (sys + Z) :=
  let es := split_sep l space in
  if length es <? 7 then Ok (inr MOORDYN_INVALID_INPUT)
  else match last_index (fun p => str_eqb (lp_type p) (ent es 1)) (s_lprops s) 0 None with
       | None => Ok (inr MOORDYN_INVALID_INPUT)
       | Some p =>
         let number := atoi (ent es 0) in
         let segs := atoi (ent es 5) in
         if wants_output (ent es 6) && negb (can_create 2 number) then Ok (inr MOORDYN_INVALID_OUTPUT_FILE)
         else
           rbind (read_place true (ent es 2) s) (fun a =>
           rbind (read_place true (ent es 3) s) (fun b =>
           Ok (inl (add_line s (LineIn number p (atof (ent es 4)) (u32 segs) (ent es 6) a b) (6 * (segs - 1))))))
       end.

(** the failure table, l.1248-1346: four fields are required, the fifth is read *)
Fixpoint fail_lines (ws : list str) (nlines : nat) : option (list nat) :=
  match ws with
  | [] => Some []
  | w :: ws' => let id := u32 (atoi w) in
                if (id =? 0)%Z || (Z.of_nat nlines <? id)%Z then None
                else match fail_lines ws' nlines with Some l => Some (Z.to_nat (id - 1) :: l) | None => None end
  end.
Definition row_fail (l : str) (s : sys) : outcome (sys + Z) :=
  let es := split_sep l space in
  if length es <? 4 then Ok (inr MOORDYN_INVALID_INPUT)
  else rbind (read_place false (ent es 1) s) (fun a =>
       match fail_lines (split_sep (ent es 2) ",") (length (s_lines s)) with
       | None => Ok (inr MOORDYN_INVALID_INPUT)
       | Some ls => t <- ent_ub es 4 ;; Ok (inl (add_fail s (FailIn a ls (atof (ent es 3)) (atof t))))
       end).

(** the words of the output section, l.1349-1584 *)
Definition quantity (w : str) : option nat :=
  let is v := is_txt w v in
  if is "PX"%string then Some 1 else if is "PY"%string then Some 2 else if is "PZ"%string then Some 3
  else if is "RX"%string then Some 4 else if is "RY"%string then Some 5 else if is "RZ"%string then Some 6
  else if is "VX"%string then Some 7 else if is "VY"%string then Some 8 else if is "VZ"%string then Some 9
  else if is "RVX"%string then Some 10 else if is "RVY"%string then Some 11 else if is "RVZ"%string then Some 12
  else if is "AX"%string then Some 13 else if is "AY"%string then Some 14 else if is "AZ"%string then Some 15
  else if is "RAX"%string then Some 16 else if is "RAY"%string then Some 17 else if is "RAZ"%string then Some 18
  else if is "T"%string || is "TEN"%string then Some 19
  else if is "TA"%string || is "TENA"%string then Some 27 else if is "TB"%string || is "TENB"%string then Some 28
  else if is "FX"%string then Some 20 else if is "FY"%string then Some 21 else if is "FZ"%string then Some 22
  else if is "MX"%string then Some 23 else if is "MY"%string then Some 24 else if is "MZ"%string then Some 25
  else if is "SUB"%string then Some 26 else None.
(** LineList[ObjID - 1]->getN() and RodList[ObjID - 1]->getN(), the index not being checked *)
Definition line_N (s : sys) (obj : Z) : outcome Z :=
  if (1 <=? obj)%Z then match nth_error (s_lines s) (Z.to_nat (obj - 1)) with Some x => Ok (li_segs x) | None => UB end else UB.
Definition rod_N (s : sys) (obj : Z) : outcome Z :=
  if (1 <=? obj)%Z then match nth_error (s_rods s) (Z.to_nat (obj - 1)) with Some (Some x) => Ok (u32 (ri_segs x)) | _ => UB end else UB.
(** object type (0 for the -1 of the code), node, and let2 with a leading NA or NB removed *)
Definition chan_object (s : sys) (d : decomposed) (obj : Z) : outcome (option (nat * Z * str)) :=
  let ends (n : outcome Z) (rest : outcome (option (nat * Z * str))) (ty : nat) :=
    if str_eqb (firstn 2 (d_let2 d)) (tx "NA") then Ok (Some (ty, 0%Z, skipn 2 (d_let2 d)))
    else if str_eqb (firstn 2 (d_let2 d)) (tx "NB") then x <- n ;; Ok (Some (ty, x, skipn 2 (d_let2 d)))
    else rest in
  if is_any (d_let1 d) ["L"; "LINE"]%string then
    if nonempty (d_let3 d) then Ok (Some (1, atoi (d_num2 d), d_let2 d))
    else ends (line_N s obj) (if nonempty (d_num2 d) then Ok (Some (0, 0%Z, d_let2 d)) else Ok (Some (1, 0%Z, d_let2 d))) 1
  else if is_any (d_let1 d) ["P"; "POINT"]%string then Ok (Some (2, (-1)%Z, d_let2 d))
  else if is_any (d_let1 d) ["R"; "ROD"]%string then
    if nonempty (d_let3 d) then
      if nonempty (d_num2 d) then Ok (Some (3, atoi (d_num2 d), d_let2 d)) else Ok (Some (0, 0%Z, d_let2 d))
    else ends (rod_N s obj) (Ok (Some (3, (-1)%Z, d_let2 d))) 3
  else if is_any (d_let1 d) ["B"; "BODY"]%string then Ok (Some (4, (-1)%Z, d_let2 d))
  else Ok None.
Definition read_chan (w : str) (s : sys) : outcome (option chan) :=
  let d := decomposeString w in
  let obj := atoi (d_num1 d) in
  if is_txt (d_let1 d) "FAIRTEN" then n <- line_N s obj ;; Ok (Some (Chan w 19 1 n obj))
  else if is_txt (d_let1 d) "ANCHTEN" then Ok (Some (Chan w 19 1 0%Z obj))
  else
    o <- chan_object s d obj ;;
    match o with
    | None => Ok None
    | Some (ty, node, let2) =>
      match quantity (if nonempty (d_let3 d) then d_let3 d else let2) with
      | None => Ok None
      | Some q => if ty =? 0 then Ok None
                  else Ok (Some (Chan (if (ty =? 3) && (q =? 19) then if (0 <? node)%Z then tx "TenEndB" else tx "TenEndA" else w) q ty node obj))
      end
    end.
Fixpoint read_chans (ws : list str) (s : sys) : outcome sys :=
  match ws with
  | [] => Ok s
  | w :: ws' => c <- read_chan w s ;; read_chans ws' (match c with Some x => add_chan s x | None => s end)
  end.
Definition row_output (l : str) (s : sys) : outcome (sys + Z) := s' <- read_chans (split_sep l space) s ;; Ok (inl s').

(** readOptionsLine, l.2093-2188; each alternative of the chain of ifs is a list of names, the
    first of which is used for the value here *)
Definition real_options : list (list string) :=
  [["dtM"; "DT"]; ["CFL"; "cfl"]; ["g"; "gravity"]; ["Rho"; "rho"; "WtrDnsty"]; ["kBot"; "kbot"; "kb"]; ["cBot"; "cbot"; "cb"];
   ["dtIC"; "ICdt"]; ["TmaxIC"; "ICTmax"]; ["CdScaleIC"; "ICDfac"]; ["threshIC"; "ICthresh"];
   ["FrictionCoefficient"]; ["FricDamp"]; ["StatDynFricScale"]; ["dtOut"]; ["ICgenDynamic"]]%string.
Definition put_real (o : options) (k : string) (v : R) := Options ((k, v) :: o_real o) (o_int o) (o_scheme o) (o_depth o) (o_floor o).
Definition put_int (o : options) (k : string) (v : Z) := Options (o_real o) ((k, v) :: o_int o) (o_scheme o) (o_depth o) (o_floor o).
Definition put_option (value name : str) (o : options) : outcome options :=
  match find (fun ks => is_any name ks) real_options with
  | Some ks => Ok (put_real o (hd ""%string ks) (atof value))
  | None =>
    if is_txt name "tScheme" then
      match MTime.create_time_scheme value with
      | Ok x => Ok (Options (o_real o) (o_int o) (Some x) (o_depth o) (o_floor o))
      | Throw e => match moordyn_catcher e with Returns _ => Ok o | Escapes e => Throw e end
      | UB => UB | Diverges => Diverges end
    else if is_txt name "WtrDpth" then Ok (Options (o_real o) (o_int o) (o_scheme o) (atof value) (o_floor o))
    else if is_txt name "WaveKin" then v <- std_stoi value ;; Ok (put_int o "WaveKin" v)
    else if is_txt name "dtWave" then match stof value with Some v => Ok (put_real o "dtWave" v) | None => Throw ExStd end
    else if is_txt name "Currents" then v <- std_stoi value ;; Ok (put_int o "Currents" v)
    else if is_txt name "UnifyCurrentGrid" then
      Ok (if is_txt value "1" then put_int o "UnifyCurrentGrid" 1 else if is_txt value "0" then put_int o "UnifyCurrentGrid" 0 else o)
    else if is_txt name "WriteUnits" then Ok (put_int o "WriteUnits" (atoi value))
    else if is_txt name "SeafloorFile" then u <- floor_setup value ;; Ok (Options (o_real o) (o_int o) (o_scheme o) (o_depth o) (Some value))
    else Ok o
  end.
(** l.879-896; writeLog is skipped here *)
Definition row_option (l : str) (s : sys) : outcome (sys + Z) :=
  match split_sep l space with
  | value :: name :: _ => if is_txt name "writeLog" then Ok (inl s) else o <- put_option value name (s_opt s) ;; Ok (inl (set_opt s o))
  | _ => Ok (inl s)
  end.
(** the first pass over the options, l.857-878, which stops at the first writeLog; the state is
    the value found *)
Fixpoint find_writeLog (get : nat -> outcome str) (n fuel i : nat) : outcome (option Z) :=
  match fuel with
  | O => Diverges
  | S fuel' =>
    l <- get i ;;
    if dashes l then Ok None
    else if i <? n then
      match split_sep l space with
      | value :: name :: _ => if is_txt name "writeLog" then Ok (Some (atoi value)) else find_writeLog get n fuel' (S i)
      | _ => find_writeLog get n fuel' (S i)
      end
    else Ok None
  end.

(** what the null pointers of l.1108 do in l.1632-1660: AddRod refuses the second one, and
    setWaves is called with one *)
Definition check_rods (s : sys) : outcome (sys + Z) :=
  match length (filter (fun r => match r with None => true | Some _ => false end) (s_rods s)) with
  | O => Ok (inl s) | S O => UB | _ => Throw ExInvalidValue end.

Definition no_options : options := Options [] [] None 0 None.
Definition no_sys : sys := Sys no_options [] [] [] [] [] [] [] [] 0.
(** ReadInFile, l.847-1674, reading lines with `get`; inr for an error code *)
Definition read_with (get : nat -> outcome str) (in_txt : list str) : outcome (sys + Z) :=
  w <- match find_start in_txt ["OPTIONS"]%string 1 with
       | Some i => find_writeLog get (length in_txt) (S (S (length in_txt))) i
       | None => Ok None end ;;
  let err := match w with Some v => setup_log v | None => MOORDYN_SUCCESS end in
  if negb (err =? MOORDYN_SUCCESS)%Z then Ok (inr err) else
  rbind (section get in_txt ["OPTIONS"]%string 1 row_option no_sys) (fun s =>
  rbind (section get in_txt ["LINE DICTIONARY"; "LINE TYPES"]%string 3 row_line_props s) (fun s =>
  rbind (section get in_txt ["ROD DICTIONARY"; "ROD TYPES"]%string 3 row_rod_props s) (fun s =>
  rbind (section get in_txt ["BODIES"; "BODY LIST"; "BODY PROPERTIES"]%string 3 row_body s) (fun s =>
  rbind (section get in_txt ["POINTS"; "POINT LIST"; "POINT PROPERTIES"; "CONNECTION PROPERTIES"; "NODE PROPERTIES"]%string 3 row_point s) (fun s =>
  rbind (section get in_txt ["RODS"; "ROD LIST"; "ROD PROPERTIES"]%string 3 row_rod s) (fun s =>
  rbind (match find_start in_txt ["LINES"; "LINE LIST"; "LINE PROPERTIES"]%string 3, s_lprops s with
         | Some _, [] => Ok (inr MOORDYN_INVALID_INPUT)
         | _, _ => section get in_txt ["LINES"; "LINE LIST"; "LINE PROPERTIES"]%string 3 row_line s end) (fun s =>
  rbind (section get in_txt ["FAILURE"]%string 3 row_fail s) (fun s =>
  rbind (section get in_txt ["OUTPUT"]%string 1 row_output s) check_rods)))))))).
Definition read_file (in_txt : list str) : outcome (sys + Z) := read_with (line_at in_txt) in_txt.
(** the constructor, l.143-147, and MoorDyn_Create, l.2330-2350: None for NULL; exceptions that
    are not caught escape *)
Definition create (in_txt : list str) : outcome (option sys) :=
  match read_file in_txt with
  | Ok (inl s) => Ok (Some s)
  | Ok (inr e) => match moordyn_throw e with
                  | Some x => match moordyn_catcher x with Returns _ => Ok None | Escapes x => Throw x end
                  | None => UB end
  | Throw x => match moordyn_catcher x with Returns _ => Ok None | Escapes x => Throw x end
  | UB => UB
  | Diverges => Diverges
  end.
End Read.
