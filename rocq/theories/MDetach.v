(** Attachment of line ends to points and rod ends, and detachment of lines by failures:
    source/Point.cpp l.101-136 and l.259-277, Rod.cpp l.183-231, MoorDyn2.cpp l.1187-1240
    (attachments read from the file), l.714-735 (failures in Step) and l.2204-2276. *)
From Coq Require Import List Arith Bool Reals Lia.
From Verif Require Import MErr MStateOps MVec.
Import ListNotations.

(** EndPoints, Misc.hpp l.517-526 *)
Inductive lend := EndA | EndB.
Definition lend_eqb (a b : lend) := match a, b with EndA, EndA | EndB, EndB => true | _, _ => false end.
(** an entry of Point::attached, Rod::attachedA or Rod::attachedB: a line and which of its ends *)
Definition att := (nat * lend)%type.
(** position and velocity *)
Definition kin := (v3 * v3)%type.

(** Point: attached lines, kinematics r and rd, and the children of its CFL (Util/CFL.hpp
    l.255-274). Lines are identified by their index in LineList. *)
Record pnt := Pnt { p_att : list att; p_kin : kin; p_kids : list nat }.
(** Rod: lines attached to ends A and B, kinematics of both ends, and children of its CFL.
    The interior nodes are not modelled. *)
Record rodn := Rdn { r_attA : list att; r_attB : list att; r_kinA : kin; r_kinB : kin; r_kids : list nat }.
(** PointList, RodList, and the kinematics of each line end (r[0], rd[0] and r[N], rd[N]) *)
Record net := Net { points : list pnt; rods : list rodn; lkin : nat -> lend -> kin }.

Definition upd {A} (l : list A) (i : nat) (a : A) : list A := firstn i l ++ a :: skipn (S i) l.

(** SuperCFL::RemoveChild, Util/CFL.hpp l.266-269: every occurrence is removed *)
Definition remove_child (l : nat) (k : list nat) : list nat := filter (fun x => negb (x =? l)%nat) k.
(** Point::addLine, Point.cpp l.102-111 *)
Definition point_add (p : pnt) (l : nat) (e : lend) : pnt := Pnt (p_att p ++ [(l, e)]) (p_kin p) (p_kids p ++ [l]).
(** Rod::addLine, Rod.cpp l.183-202; the two values of EndPoints are the only ones *)
Definition rod_add (d : rodn) (l : nat) (e : lend) (at_ : lend) : rodn :=
  match at_ with
  | EndA => Rdn (r_attA d ++ [(l, e)]) (r_attB d) (r_kinA d) (r_kinB d) (r_kids d ++ [l])
  | EndB => Rdn (r_attA d) (r_attB d ++ [(l, e)]) (r_kinA d) (r_kinB d) (r_kids d ++ [l])
  end.
(** the loop of removeLine: the first entry of the line is erased *)
Fixpoint take_line (l : nat) (as_ : list att) : option (lend * list att) :=
  match as_ with
  | [] => None
  | (l', e) :: as' => if (l' =? l)%nat then Some (e, as')
                      else match take_line l as' with Some (e', r) => Some (e', (l', e) :: r) | None => None end
  end.
(** Point::removeLine, Point.cpp l.113-136 *)
Definition point_remove (p : pnt) (l : nat) : outcome (lend * pnt) :=
  match take_line l (p_att p) with
  | Some (e, r) => Ok (e, Pnt r (p_kin p) (remove_child l (p_kids p)))
  | None => Throw ExInvalidValue
  end.
(** Rod::removeLine, Rod.cpp l.204-231 *)
Definition rod_remove (d : rodn) (at_ : lend) (l : nat) : outcome (lend * rodn) :=
  match at_ with
  | EndA => match take_line l (r_attA d) with
            | Some (e, r) => Ok (e, Rdn r (r_attB d) (r_kinA d) (r_kinB d) (remove_child l (r_kids d)))
            | None => Throw ExInvalidValue end
  | EndB => match take_line l (r_attB d) with
            | Some (e, r) => Ok (e, Rdn (r_attA d) r (r_kinA d) (r_kinB d) (remove_child l (r_kids d)))
            | None => Throw ExInvalidValue end
  end.

(** where an end is attached: to a point, or to an end of a rod *)
Inductive place := AtPoint (i : nat) | AtRod (i : nat) (e : lend).
(** MoorDyn2.cpp l.1187-1240: one end of a line; indices out of range are input errors *)
Definition attach (s : net) (l : nat) (e : lend) (at_ : place) : outcome net :=
  match at_ with
  | AtPoint i => match nth_error (points s) i with
                 | Some p => Ok (Net (upd (points s) i (point_add p l e)) (rods s) (lkin s))
                 | None => Throw ExInput end
  | AtRod i re => match nth_error (rods s) i with
                  | Some d => Ok (Net (points s) (upd (rods s) i (rod_add d l e re)) (lkin s))
                  | None => Throw ExInput end
  end.
(** all the lines of the file, in order, the line of index l first *)
Fixpoint attach_lines (l : nat) (ends : list (place * place)) (s : net) : outcome net :=
  match ends with
  | [] => Ok s
  | (a, b) :: ends' => s <- attach s l EndA a ;; s <- attach s l EndB b ;; attach_lines (S l) ends' s
  end.

(** FailProps, Misc.hpp l.1014-1032, and MoorDyn2.cpp l.1263-1345. The tension criterion is
    read but never used by the code. *)
Record failure := Fail { f_rod : option nat; f_rend : lend; f_point : option nat; f_lines : list nat; f_time : R; f_status : bool }.

(** kinematics of the old attachment, MoorDyn2.cpp l.2248-2257 (the NaN check of getNodePos is
    not modelled); invalid pointers are undefined behaviour *)
Definition old_kin (s : net) (f : failure) : outcome kin :=
  match f_rod f, f_point f with
  | Some i, _ => match nth_error (rods s) i with Some d => Ok (match f_rend f with EndA => r_kinA d | EndB => r_kinB d end) | None => UB end
  | None, Some i => match nth_error (points s) i with Some p => Ok (p_kin p) | None => UB end
  | None, None => UB
  end.
(** one line is moved to the point of index o, MoorDyn2.cpp l.2261-2270 *)
Definition move_line (s : net) (f : failure) (o : nat) (l : nat) : outcome net :=
  match nth_error (points s) o with
  | None => UB
  | Some _ =>
    match f_rod f, f_point f with
    | Some i, _ => match nth_error (rods s) i with
                   | None => UB
                   | Some d => ed <- rod_remove d (f_rend f) l ;;
                               match nth_error (points s) o with
                               | Some q => Ok (Net (upd (points s) o (point_add q l (fst ed))) (upd (rods s) i (snd ed)) (lkin s))
                               | None => UB end
                   end
    | None, Some i => match nth_error (points s) i with
                      | None => UB
                      | Some p => ep <- point_remove p l ;;
                                  let ps := upd (points s) i (snd ep) in
                                  match nth_error ps o with
                                  | Some q => Ok (Net (upd ps o (point_add q l (fst ep))) (rods s) (lkin s))
                                  | None => UB end
                      end
    | None, None => UB
    end
  end.
(** the state left behind with the error, if any: exceptions do not undo anything *)
Fixpoint move_lines (s : net) (f : failure) (o : nat) (ls : list nat) : net * outcome unit :=
  match ls with
  | [] => (s, Ok tt)
  | l :: ls' => match move_line s f o l with
                | Ok s' => move_lines s' f o ls'
                | Throw e => (s, Throw e) | UB => (s, UB) | Diverges => (s, Diverges)
                end
  end.
(** Point::setState of a free point, Point.cpp l.259-277: the kinematics are passed to the
    attached line ends (Line::setEndKinematics, Line.cpp l.684-701) *)
Definition pass_kin (as_ : list att) (k : kin) (m : nat -> lend -> kin) : nat -> lend -> kin :=
  fold_left (fun m a l e => if ((l =? fst a)%nat && lend_eqb e (snd a))%bool then k else m l e) as_ m.
Definition point_set (s : net) (o : nat) (k : kin) : net :=
  match nth_error (points s) o with
  | Some p => Net (upd (points s) o (Pnt (p_att p) k (p_kids p))) (rods s) (pass_kin (p_att p) k (lkin s))
  | None => s
  end.
Definition v00 : v3 := vzero.
(** MoorDyn::detachLines, MoorDyn2.cpp l.2204-2276. The new point is the last one of
    PointList; nX, FreePointIs and PointStateIs are not modelled. *)
Definition detach (s : net) (f : failure) : net * outcome unit :=
  match f_rod f, f_point f with
  | Some _, Some _ | None, None => (s, Throw ExUnhandled)
  | _, _ =>
    let o := length (points s) in
    let s1 := Net (points s ++ [Pnt [] (v00, v00) []]) (rods s) (lkin s) in
    match old_kin s1 f with
    | Ok k => match move_lines s1 f o (f_lines f) with
              | (s2, Ok _) => (point_set s2 o k, Ok tt)
              | r => r
              end
    | Throw e => (s1, Throw e) | UB => (s1, UB) | Diverges => (s1, Diverges)
    end
  end.
Definition set_status (f : failure) : failure := Fail (f_rod f) (f_rend f) (f_point f) (f_lines f) (f_time f) true.
(** l.720: the failures skipped by Step at time t *)
Definition skipped (f : failure) (t : R) : bool := (f_status f || if Rlt_dec (f_time f) t then true else false)%bool.
(** the loop of MoorDyn::Step over FailList, MoorDyn2.cpp l.716-735: the first error ends it.
    status is set at the beginning of detachLines. *)
Fixpoint step_failures (s : net) (fs : list failure) (t : R) : net * list failure * outcome unit :=
  match fs with
  | [] => (s, [], Ok tt)
  | f :: fs' =>
    if skipped f t then let '(s', gs, r) := step_failures s fs' t in (s', f :: gs, r)
    else match detach s f with
         | (s1, Ok _) => let '(s', gs, r) := step_failures s1 fs' t in (s', set_status f :: gs, r)
         | (s1, r) => (s1, set_status f :: fs', r)
         end
  end.
