(** The values of the output channels: MoorDyn::GetOutput, source/MoorDyn2.hpp l.804-819, and the
    functions of the objects behind it. The objects are what these functions read of them. *)
From Coq Require Import String Ascii List Arith ZArith Bool Reals.
From Verif Require Import MErr MStr MVec MStateOps MBody MDetach MParse.
Import ListNotations.
Local Open Scope nat_scope.

(** r, rd, Fnet, T, Td of a Line, Line.hpp; v_N is N *)
Record line_v := LineV { v_N : nat; v_r : list v3; v_rd : list v3; v_F : list v3; v_T : list v3; v_Td : list v3 }.
(** r, rd, acc, Fnet of a Point *)
Record point_v := PointV { w_r : v3; w_rd : v3; w_acc : v3; w_F : v3 }.
(** r7.pos, roll, pitch, v6, acc6, FextA, FextB, getFnet(), and of the nodes r, rd, Fnet, VOF of a Rod *)
Record rod_v := RodV { u_N : nat; u_pos : v3; u_roll : R; u_pitch : R; u_v6 : v6; u_a6 : v6; u_FA : v3; u_FB : v3; u_F6 : v6;
  u_r : list v3; u_rd : list v3; u_F : list v3; u_VOF : list R }.
(** r7.pos, rad2deg * Quat2Euler(r7.quat), v6, a6, F6net and getFnet() of a Body *)
Record body_v := BodyV { z_pos : v3; z_rot : v3; z_v6 : v6; z_a6 : v6; z_F6 : v6; z_Fout : v6 }.
Record all_v := AllV { a_lines : list line_v; a_points : list point_v; a_rods : list rod_v; a_bodies : list body_v }.

(** operator[] of a std::vector with an int *)
Definition at_ub {A} (l : list A) (i : Z) : outcome A :=
  if (0 <=? i)%Z then match nth_error l (Z.to_nat i) with Some x => Ok x | None => UB end else UB.
(** Line::getNodeForce, Line.hpp l.499-507 *)
Definition ch_force (L : line_v) (node : Z) : outcome v3 :=
  let i := u32 node in if (Z.of_nat (v_N L) <? i)%Z then Throw ExInvalidValue else at_ub (v_F L) i.
(** Line::getNodeTen, Line.hpp l.519-532 *)
Definition ch_ten (L : line_v) (node : Z) : outcome v3 :=
  let i := u32 node in
  if (Z.of_nat (v_N L) <? i)%Z then Throw ExInvalidValue
  else if (i =? 0)%Z then a <- at_ub (v_T L) 0 ;; b <- at_ub (v_Td L) 0 ;; Ok (vadd a b)
  else if (i =? Z.of_nat (v_N L))%Z then a <- at_ub (v_T L) (Z.of_nat (v_N L) - 1) ;; b <- at_ub (v_Td L) (Z.of_nat (v_N L) - 1) ;; Ok (vadd a b)
  else a <- at_ub (v_T L) i ;; b <- at_ub (v_T L) (i - 1) ;; c <- at_ub (v_Td L) i ;; d <- at_ub (v_Td L) (i - 1) ;;
       Ok (vscale 0.5 (vadd (vadd (vadd a b) c) d)).
Definition omap {A B} (f : A -> B) (o : outcome A) : outcome B := x <- o ;; Ok (f x).
(** Line::GetLineOutput, Line.cpp l.540-572 *)
Definition line_output (L : line_v) (c : chan) : outcome R :=
  let n := ch_node c in
  match ch_q c with
  | 1 => omap vx (at_ub (v_r L) n) | 2 => omap vy (at_ub (v_r L) n) | 3 => omap vz (at_ub (v_r L) n)
  | 7 => omap vx (at_ub (v_rd L) n) | 8 => omap vy (at_ub (v_rd L) n) | 9 => omap vz (at_ub (v_rd L) n)
  | 19 => if (n =? 0)%Z || (n =? Z.of_nat (v_N L))%Z then omap norm (ch_force L n) else omap norm (ch_ten L n)
  | 27 => omap norm (ch_force L 0) | 28 => omap norm (ch_force L (Z.of_nat (v_N L)))
  | 20 => omap vx (ch_force L n) | 21 => omap vy (ch_force L n) | 22 => omap vz (ch_force L n)
  | _ => Ok 0%R
  end.
(** Point::GetPointOutput, Point.cpp l.172-202 *)
Definition point_output (P : point_v) (c : chan) : R :=
  match ch_q c with
  | 1 => vx (w_r P) | 2 => vy (w_r P) | 3 => vz (w_r P) | 7 => vx (w_rd P) | 8 => vy (w_rd P) | 9 => vz (w_rd P)
  | 13 => vx (w_acc P) | 14 => vy (w_acc P) | 15 => vz (w_acc P) | 19 => norm (w_F P)
  | 20 => vx (w_F P) | 21 => vy (w_F P) | 22 => vz (w_F P)
  | _ => 0%R
  end.
(** the sum of VOF[0], ..., VOF[N] *)
Fixpoint vof_sum (l : list R) (n : nat) : outcome R :=
  match n, l with
  | O, x :: _ => Ok x
  | S n', x :: l' => r <- vof_sum l' n' ;; Ok (x + r)%R
  | _, [] => UB
  end.
(** Rod::GetRodOutput, Rod.cpp l.343-425 *)
Definition rod_output (D : rod_v) (c : chan) : outcome R :=
  let n := ch_node c in
  let deg (x : R) := (x * 180 / PI)%R in
  if (n =? -1)%Z then
    match ch_q c with
    | 1 => Ok (vx (u_pos D)) | 2 => Ok (vy (u_pos D)) | 3 => Ok (vz (u_pos D))
    | 4 => Ok (deg (u_roll D)) | 5 => Ok (deg (u_pitch D))
    | 7 => Ok (vx (v6hd (u_v6 D))) | 8 => Ok (vy (v6hd (u_v6 D))) | 9 => Ok (vz (v6hd (u_v6 D)))
    | 10 => Ok (deg (vx (v6tl (u_v6 D)))) | 11 => Ok (deg (vy (v6tl (u_v6 D))))
    | 13 => Ok (vx (v6hd (u_a6 D))) | 14 => Ok (vy (v6hd (u_a6 D))) | 15 => Ok (vz (v6hd (u_a6 D)))
    | 16 => Ok (deg (vx (v6tl (u_a6 D)))) | 17 => Ok (deg (vy (v6tl (u_a6 D))))
    | 27 => Ok (norm (u_FA D)) | 28 => Ok (norm (u_FB D))
    | 20 => Ok (vx (v6hd (u_F6 D))) | 21 => Ok (vy (v6hd (u_F6 D))) | 22 => Ok (vz (v6hd (u_F6 D)))
    | 23 => Ok (vx (v6tl (u_F6 D))) | 24 => Ok (vy (v6tl (u_F6 D))) | 25 => Ok (vz (v6tl (u_F6 D)))
    | 26 => omap (fun s => (s / INR (length (u_VOF D)))%R) (vof_sum (u_VOF D) (u_N D))
    | _ => Ok 0%R
    end
  else
    match ch_q c with
    | 1 => omap vx (at_ub (u_r D) n) | 2 => omap vy (at_ub (u_r D) n) | 3 => omap vz (at_ub (u_r D) n)
    | 7 => omap vx (at_ub (u_rd D) n) | 8 => omap vy (at_ub (u_rd D) n) | 9 => omap vz (at_ub (u_rd D) n)
    | 20 => omap vx (at_ub (u_F D) n) | 21 => omap vy (at_ub (u_F D) n) | 22 => omap vz (at_ub (u_F D) n)
    | _ => Ok 0%R
    end.
(** Body::GetBodyOutput, Body.cpp l.324-390 *)
Definition body_output (B : body_v) (c : chan) : R :=
  let deg (x : R) := (x * 180 / PI)%R in
  match ch_q c with
  | 1 => vx (z_pos B) | 2 => vy (z_pos B) | 3 => vz (z_pos B)
  | 4 => vx (z_rot B) | 5 => vy (z_rot B) | 6 => vz (z_rot B)
  | 7 => vx (v6hd (z_v6 B)) | 8 => vy (v6hd (z_v6 B)) | 9 => vz (v6hd (z_v6 B))
  | 10 => deg (vx (v6tl (z_v6 B))) | 11 => deg (vy (v6tl (z_v6 B))) | 12 => deg (vz (v6tl (z_v6 B)))
  | 13 => vx (v6hd (z_a6 B)) | 14 => vy (v6hd (z_a6 B)) | 15 => vz (v6hd (z_a6 B))
  | 16 => deg (vx (v6tl (z_a6 B))) | 17 => deg (vy (v6tl (z_a6 B))) | 18 => deg (vz (v6tl (z_a6 B)))
  | 19 => norm (v6hd (z_F6 B))
  | 20 => vx (v6hd (z_Fout B)) | 21 => vy (v6hd (z_Fout B)) | 22 => vz (v6hd (z_Fout B))
  | 23 => vx (v6tl (z_Fout B)) | 24 => vy (v6tl (z_Fout B)) | 25 => vz (v6tl (z_Fout B))
  | _ => 0%R
  end.
(** GetOutput *)
Definition get_output (a : all_v) (c : chan) : outcome R :=
  match ch_o c with
  | 1 => L <- at_ub (a_lines a) (ch_obj c - 1) ;; line_output L c
  | 2 => omap (fun P => point_output P c) (at_ub (a_points a) (ch_obj c - 1))
  | 3 => D <- at_ub (a_rods a) (ch_obj c - 1) ;; rod_output D c
  | 4 => omap (fun B => body_output B c) (at_ub (a_bodies a) (ch_obj c - 1))
  | _ => Throw ExInvalidValue
  end.
(** UnitList, MoorDyn2.cpp l.70-77, without the trailing blanks, and its use: TenA and TenB have
    the unit of Ten *)
Definition unit_list : list string := ["(s)"; "(m)"; "(m)"; "(m)"; "(deg)"; "(deg)"; "(deg)"; "(m/s)"; "(m/s)"; "(m/s)"; "(deg/s)"; "(deg/s)"; "(deg/s)"; "(m/s2)"; "(m/s2)";
  "(m/s2)"; "(deg/s2)"; "(deg/s2)"; "(deg/s2)"; "(N)"; "(N)"; "(N)"; "(N)"; "(Nm)"; "(Nm)"; "(Nm)"; "(frac)"]%string.
Definition chan_unit (c : chan) : string := nth (if (ch_q c =? 27) || (ch_q c =? 28) then 19 else ch_q c) unit_list ""%string.
