(** Specification vocabulary for the input file. *)
From Coq Require Import String Ascii List Arith ZArith Bool Reals.
From Verif Require Import MErr MStr MBody MDetach MParse.
Import ListNotations.
Local Open Scope nat_scope.

(** one text contains another *)
Definition inside (part whole : str) : Prop := exists a b, whole = a ++ part ++ b.
(** a line that may begin or end a section *)
Definition dashed (l : str) : Prop := inside (tx "---") l.
(** a line that is taken as the header of a section *)
Definition is_header (keys : list string) (l : str) : Prop := dashed l /\ exists k, In k keys /\ inside (tx k) (upper l).
(** the header of a section is the first such line *)
Definition header_at (t : list str) (keys : list string) (i : nat) : Prop :=
  (exists l, nth_error t i = Some l /\ is_header keys l) /\ forall j l, j < i -> nth_error t j = Some l -> ~ is_header keys l.
(** the sections, by their keywords, and how many lines after the header their rows start *)
Definition all_sections : list (list string * nat) :=
  [(["OPTIONS"], 1); (["LINE DICTIONARY"; "LINE TYPES"], 3); (["ROD DICTIONARY"; "ROD TYPES"], 3);
   (["BODIES"; "BODY LIST"; "BODY PROPERTIES"], 3);
   (["POINTS"; "POINT LIST"; "POINT PROPERTIES"; "CONNECTION PROPERTIES"; "NODE PROPERTIES"], 3);
   (["RODS"; "ROD LIST"; "ROD PROPERTIES"], 3); (["LINES"; "LINE LIST"; "LINE PROPERTIES"], 3);
   (["FAILURE"], 3); (["OUTPUT"], 1)]%string.
(** a line with dashes follows the rows of the section *)
Definition closed (t : list str) (keys : list string) (skip : nat) : Prop :=
  forall i, header_at t keys i -> exists j l, i + skip <= j /\ nth_error t j = Some l /\ dashed l.
Definition all_closed (t : list str) : Prop := forall keys skip, In (keys, skip) all_sections -> closed t keys skip.
(** a way of reading lines that is right within the file *)
Definition reads (t : list str) (get : nat -> outcome str) : Prop := forall i l, nth_error t i = Some l -> get i = Ok l.
(** the rows of a section: from its start to the next line with dashes *)
Definition rows_are (t : list str) (keys : list string) (skip : nat) (rs : list str) : Prop :=
  exists i l rest, header_at t keys i /\ skipn (i + skip) t = rs ++ l :: rest /\ dashed l /\ forall r, In r rs -> ~ dashed r.

(** degrees of freedom integrated for an object *)
Definition body_dof (b : body_in) : Z := match bi_type b with BFree => 6 | BCpldPin => 3 | _ => 0 end%Z.
Definition point_dof (p : point_in) : Z := match pi_type p with PFree => 3 | _ => 0 end%Z.
Definition rod_dof (r : option rod_in) : Z := match r with Some r => match ri_type r with RFree => 6 | RPinned | RCpldPin => 3 | _ => 0 end | None => 0 end%Z.
Definition line_dof (l : line_in) : Z := (3 * (li_segs l - 1))%Z.
Definition zsum (l : list Z) : Z := fold_right Z.add 0%Z l.
Definition dof (s : sys) : Z := (zsum (map body_dof (s_bodies s)) + zsum (map point_dof (s_points s)) + zsum (map rod_dof (s_rods s)) + zsum (map line_dof (s_lines s)))%Z.
(** numbers in the integrated state of the objects that move on their own: position, quaternion
    and six velocities for bodies and rods, position and velocity for points and nodes *)
Definition numbers (s : sys) : Z :=
  (zsum (map (fun b => match bi_type b with BFree | BCpldPin => 13 | _ => 0 end) (s_bodies s))
   + zsum (map (fun p => match pi_type p with PFree => 6 | _ => 0 end) (s_points s))
   + zsum (map (fun r => match r with Some r => match ri_type r with RFree | RPinned | RCpldPin => 13 | _ => 0 end | None => 0 end) (s_rods s))
   + zsum (map (fun l => 6 * (li_segs l - 1)) (s_lines s)))%Z.

(** the references between the objects of a system are valid *)
Definition place_ok (s : sys) (p : place) : Prop :=
  match p with AtPoint i => i < length (s_points s) | AtRod i _ => exists r, nth_error (s_rods s) i = Some (Some r) end.
Definition parent_ok (s : sys) (p : parent) : Prop := match p with OnBody i => i < length (s_bodies s) | _ => True end.
Definition sound (s : sys) : Prop :=
  (forall p, In p (s_points s) -> parent_ok s (pi_on p)) /\
  (forall r, In r (s_rods s) -> exists r', r = Some r' /\ parent_ok s (ri_on r') /\ ri_prop r' < length (s_rprops s)) /\
  (forall l, In l (s_lines s) -> li_prop l < length (s_lprops s) /\ place_ok s (li_a l) /\ place_ok s (li_b l)) /\
  (forall f, In f (s_fails s) -> place_ok s (fi_at f) /\ forall k, In k (fi_lines f) -> k < length (s_lines s)).

(** the fields of a row of a table *)
Definition field (r : str) (i : nat) : str := nth i (split_sep r space) [].
Definition fields (r : str) : nat := length (split_sep r space).
(** the place a word names: a point by its number, or the end of a rod *)
Definition names_place (w : str) (p : place) : Prop :=
  let d := decomposeString w in
  u32 (atoi (d_num1 d)) = (Z.of_nat (match p with AtPoint i | AtRod i _ => i end) + 1)%Z /\
  match p with
  | AtPoint _ => In (d_let1 d) (map tx [""; "C"; "CON"; "P"; "POINT"]%string)
  | AtRod _ e => In (d_let1 d) (map tx ["R"; "ROD"]%string) /\ d_let2 d = tx (match e with EndA => "A" | EndB => "B" end)
  end.
Section Made.
Variable atof : str -> R.
Definition value (r : str) (i : nat) : R := atof (field r i).
(** the objects a row of a table describes *)
Definition body_row (r : str) (b : body_in) : Prop :=
  14 <= fields r /\ bi_number b = atoi (field r 0) /\ bi_r6 b = map (value r) [2; 3; 4; 5; 6; 7] /\ bi_M b = value r 8 /\ bi_V b = value r 11.
Definition point_row (r : str) (p : point_in) : Prop :=
  9 <= fields r /\ pi_number p = atoi (field r 0) /\ pi_r0 p = map (value r) [2; 3; 4] /\ pi_M p = value r 5 /\ pi_V p = value r 6 /\
  if 12 <=? fields r then pi_F p = map (value r) [7; 8; 9] /\ pi_CdA p = value r 10 /\ pi_Ca p = value r 11
  else pi_F p = [0; 0; 0]%R /\ pi_CdA p = value r 7 /\ pi_Ca p = value r 8.
Definition rod_row (types : list rprop) (r : str) (o : option rod_in) : Prop :=
  exists x p, o = Some x /\ 11 <= fields r /\ ri_number x = atoi (field r 0) /\ nth_error types (ri_prop x) = Some p /\ rp_type p = field r 1 /\
  ri_ends x = map (value r) [3; 4; 5; 6; 7; 8] /\ ri_segs x = atoi (field r 9) /\ ri_chan x = field r 10.
Definition line_row (types : list lprop) (r : str) (x : line_in) : Prop :=
  exists p, 7 <= fields r /\ li_number x = atoi (field r 0) /\ nth_error types (li_prop x) = Some p /\ lp_type p = field r 1 /\
  names_place (field r 2) (li_a x) /\ names_place (field r 3) (li_b x) /\ li_len x = value r 4 /\ li_segs x = u32 (atoi (field r 5)) /\ li_chan x = field r 6.
End Made.
(** the table of a section gives these objects, none if the section is missing *)
Definition table {A} (t : list str) (keys : list string) (skip : nat) (made : str -> A -> Prop) (xs : list A) : Prop :=
  (forall rs, rows_are t keys skip rs -> Forall2 made rs xs) /\ ((forall i, ~ header_at t keys i) -> xs = []).

(** what the documentation says of one, two, three and six drag coefficients *)
Definition documented_CdA (vs : list R) : option (list R) :=
  match vs with
  | [a] => Some [a; a; a; a; a; a]
  | [a; b] => Some [a; a; a; b; b; b]
  | [a; b; c] => Some [a; b; c; a; b; c]
  | [a; b; c; d; e; f] => Some vs
  | _ => None
  end%R.

(** a section has the same rows in two files, or is missing in both *)
Definition same_section (t u : list str) (keys : list string) (skip : nat) : Prop :=
  (exists rs, rows_are t keys skip rs /\ rows_are u keys skip rs) \/ ((forall i, ~ header_at t keys i) /\ forall i, ~ header_at u keys i).
(** not one of the options whose values can make reading fail in another way *)
Definition harmless (l : str) : Prop := forall v n r, split_sep l space = v :: n :: r -> ~ In n (map tx ["tScheme"; "WaveKin"; "dtWave"; "Currents"; "SeafloorFile"]%string).
(** the number of the body is one that stoi and atoi read in the same way *)
Definition short_body (l : str) : Prop := d_let1 (decomposeString (field l 1)) = tx "BODY" -> exists id, std_stoi (d_num1 (decomposeString (field l 1))) = Ok id /\ u32 (atoi (d_num1 (decomposeString (field l 1)))) = id.
(** the errors for what is wrong in a file *)
Definition known (e : Z) : Prop := e = MOORDYN_INVALID_INPUT \/ e = MOORDYN_INVALID_OUTPUT_FILE.
