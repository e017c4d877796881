(** The C interfaces: source/MoorDyn.cpp (version 1, one system per process) and the object getters of
    source/MoorDyn2.cpp l.2350-2660, source/Line.cpp, Point.cpp, Rod.cpp l.1560-1850 / 490-575 / 1582-1668.
    Simplifications: what a system does when created, initialised or stepped is given by functions
    (oracles) that return the error code of the call; the memory of the process is a finite map from
    addresses to the systems that have been allocated and not deleted. *)
From Coq Require Import String ZArith List Arith Bool Reals.
From Verif Require Import MErr MStateOps MVec MInterp.
Import ListNotations.
Open Scope Z_scope.

(* ------------------------------ getters ------------------------------ *)
(** MoorDyn_GetBody, GetRod, GetPoint, GetLine, MoorDyn2.cpp l.2520-2616: [b] is an unsigned int, a NULL
    handle is [None] *)
Definition get_object {A} (l : list A) (b : Z) : option A :=
  if (b =? 0) || (Z.of_nat (length l) <? b) then None else nth_error l (Z.to_nat (b - 1)).
(** conversion of an int argument to unsigned int *)
Definition to_uint (i : Z) : Z := i mod 2 ^ 32.

(** what a C function leaves: a code and, if it wrote its output argument, the value *)
Record reply (A : Type) := Reply { rp_code : Z; rp_out : option A }.
Arguments Reply {A} _ _. Arguments rp_code {A} _. Arguments rp_out {A} _.
(** CHECK_SYSTEM, CHECK_LINE, CHECK_POINT, CHECK_ROD, CHECK_BODY: MoorDyn2.cpp l.2353-2358, Line.cpp
    l.1560-1565, Point.cpp l.490-495, Rod.cpp l.1582-1587, Body.cpp l.793-798 *)
Definition check {O A} (h : option O) (k : O -> reply A) : reply A :=
  match h with None => Reply MOORDYN_INVALID_VALUE None | Some o => k o end.
(** a query guarded by try and MOORDYN_CATCHER *)
Definition guarded {A} (o : outcome A) : outcome (reply A) :=
  match o with
  | Ok a => Ok (Reply MOORDYN_SUCCESS (Some a))
  | Throw e => match moordyn_catcher e with Returns c => Ok (Reply c None) | Escapes e => Throw e end
  | UB => UB
  | Diverges => Diverges
  end.

(** the data of a line that can be queried per node, Line.hpp l.441-640 *)
Record line_data := LineData { ld_number : Z; ld_N : nat; ld_r : nat -> v3; ld_rd : nat -> v3; ld_Fnet : nat -> v3; ld_T : nat -> v3; ld_Td : nat -> v3;
  ld_Bs : nat -> v3; ld_W : nat -> v3; ld_Dp : nat -> v3; ld_Dq : nat -> v3; ld_Ap : nat -> v3; ld_Aq : nat -> v3; ld_B : nat -> v3 }.
Inductive node_query := QPos | QVel | QForce | QTen | QBendStiff | QWeight | QDrag | QFroudeKrilov | QSeabedForce.
(** Line::getNodePos ... getNodeSeabedForce, Line.hpp l.441-625 (NaN values are not modelled) *)
Definition line_node (q : node_query) (L : line_data) (i : nat) : outcome v3 :=
  if Nat.ltb (ld_N L) i then Throw ExInvalidValue else
  Ok (match q with
      | QPos => ld_r L i | QVel => ld_rd L i | QForce => ld_Fnet L i
      | QTen => if Nat.eqb i 0 then vadd (ld_T L 0%nat) (ld_Td L 0%nat)
                else if Nat.eqb i (ld_N L) then vadd (ld_T L (ld_N L - 1)%nat) (ld_Td L (ld_N L - 1)%nat)
                else vscale 0.5 (vadd (vadd (vadd (ld_T L i) (ld_T L (i - 1)%nat)) (ld_Td L i)) (ld_Td L (i - 1)%nat))
      | QBendStiff => ld_Bs L i | QWeight => ld_W L i
      | QDrag => vadd (ld_Dp L i) (ld_Dq L i)
      | QFroudeKrilov => vadd (ld_Ap L i) (ld_Aq L i)
      | QSeabedForce => vadd (ld_B L i) (ld_Bs L i)
      end).
(** MoorDyn_GetLineNodePos ... MoorDyn_GetLineNodeSeabedForce, Line.cpp l.1672-1797 *)
Definition MoorDyn_GetLineNode (q : node_query) (h : option line_data) (i : nat) : outcome (reply v3) :=
  match h with None => Ok (Reply MOORDYN_INVALID_VALUE None) | Some L => guarded (line_node q L i) end.
(** MoorDyn_GetLineID, GetLineN and GetLineNumberNodes, Line.cpp l.1567-1591 *)
Definition MoorDyn_GetLineID (h : option line_data) : reply Z := check h (fun L => Reply MOORDYN_SUCCESS (Some (ld_number L))).
Definition MoorDyn_GetLineN (h : option line_data) : reply nat := check h (fun L => Reply MOORDYN_SUCCESS (Some (ld_N L))).
Definition MoorDyn_GetLineNumberNodes (h : option line_data) : reply nat :=
  let r := MoorDyn_GetLineN h in
  if negb (rp_code r =? MOORDYN_SUCCESS) then Reply (rp_code r) (rp_out r)
  else Reply MOORDYN_SUCCESS (match rp_out r with Some n => Some (n + 1)%nat | None => None end).
(** MoorDyn_GetLineFairTen, Line.cpp l.1826-1832 *)
Definition MoorDyn_GetLineFairTen (h : option line_data) : outcome (reply R) :=
  match h with
  | None => Ok (Reply MOORDYN_INVALID_VALUE None)
  | Some L => obind (line_node QTen L (ld_N L)) (fun t => Ok (Reply MOORDYN_SUCCESS (Some (norm t))))
  end.
(** MoorDyn_GetPointNAttached and GetPointAttached, Point.cpp l.549-574 *)
Definition MoorDyn_GetPointNAttached {A} (h : option (list A)) : reply nat := check h (fun l => Reply MOORDYN_SUCCESS (Some (length l))).
Definition MoorDyn_GetPointAttached {A} (h : option (list A)) (i : nat) : outcome (reply A) :=
  match h with
  | None => Ok (Reply MOORDYN_INVALID_VALUE None)
  | Some l => if Nat.leb (length l) i then Ok (Reply MOORDYN_INVALID_VALUE None)
              else obind (vget l i) (fun a => Ok (Reply MOORDYN_SUCCESS (Some a)))
  end.
(** MoorDyn_GetFASTtens, MoorDyn2.cpp l.2618-2640: the number of lines is an int compared as unsigned;
    [q] is what Line::getFASTtens writes for one line *)
Fixpoint fast_loop {A B} (q : A -> B) (lines : list A) (l n : nat) : outcome (list B) :=
  match n with
  | O => Ok []
  | S n' => x <- vget lines l ;; r <- fast_loop q lines (S l) n' ;; Ok (q x :: r)
  end.
Definition MoorDyn_GetFASTtens {A B} (q : A -> B) (h : option (list A)) (numLines : Z) : outcome (reply (list B)) :=
  match h with
  | None => Ok (Reply MOORDYN_INVALID_VALUE None)
  | Some lines =>
      if Z.of_nat (length lines) <? to_uint numLines then Ok (Reply MOORDYN_INVALID_VALUE None)
      else r <- fast_loop q lines 0 (Z.to_nat numLines) ;; Ok (Reply MOORDYN_SUCCESS (Some r))
  end.

(* ------------------------------ version 1 ------------------------------ *)
Section V1.
Variables (Sys X F : Type).
(** MoorDyn_Create (None: NULL), MoorDyn_Init and MoorDyn_Step on a valid system *)
Variable create : string -> option Sys.
Variable init : Sys -> X -> Z * Sys.
Variable step : Sys -> X -> Z * F * Sys.
Variable nlines : Sys -> list line_data.

(** the process: systems that are allocated, next free address, md_singleton (MoorDyn.cpp l.80) *)
Record process := Proc { heap : list (nat * Sys); next : nat; single : option nat }.
Definition start : process := Proc [] 1 None.
Fixpoint lookup (h : list (nat * Sys)) (a : nat) : option Sys :=
  match h with [] => None | (b, s) :: r => if Nat.eqb a b then Some s else lookup r a end.
Fixpoint store (h : list (nat * Sys)) (a : nat) (s : Sys) : list (nat * Sys) :=
  match h with [] => [] | (b, t) :: r => if Nat.eqb a b then (b, s) :: r else (b, t) :: store r a s end.
Definition release (h : list (nat * Sys)) (a : nat) : list (nat * Sys) := filter (fun p => negb (Nat.eqb a (fst p))) h.

(** MoorDynInit, MoorDyn.cpp l.85-158, without the console of Windows *)
Definition MoorDynInit (x : X) (name : string) (p : process) : Z * process :=
  match create name with
  | None => (MOORDYN_UNHANDLED_ERROR, p)
  | Some s =>
      let a := next p in
      let '(err, s) := init s x in
      let p := Proc ((a, s) :: heap p) (S a) (single p) in
      if negb (err =? MOORDYN_SUCCESS) then (err, p)
      else
        let h := match single p with Some old => release (heap p) old | None => heap p end in
        (MOORDYN_SUCCESS, Proc h (next p) (Some a))
  end.
(** MoorDynStep, l.163-174; a dangling pointer is undefined behaviour *)
Definition MoorDynStep (x : X) (p : process) : outcome (Z * option F * process) :=
  match single p with
  | None => Ok (MOORDYN_INVALID_VALUE, None, p)
  | Some a => match lookup (heap p) a with
              | None => UB
              | Some s => let '(err, f, s) := step s x in Ok (err, Some f, Proc (store (heap p) a s) (next p) (single p))
              end
  end.
(** MoorDynClose, l.176-198, with MoorDyn_Close, MoorDyn2.cpp l.2428-2434 *)
Definition MoorDynClose (p : process) : outcome (Z * process) :=
  match single p with
  | None => Ok (MOORDYN_INVALID_VALUE, p)
  | Some a => match lookup (heap p) a with
              | None => UB
              | Some _ => Ok (0, Proc (release (heap p) a) (next p) None)
              end
  end.
(** GetFairTen, l.234-243: [t] is not initialised, and read even if the query failed *)
Definition GetFairTen (l : Z) (p : process) : outcome R :=
  match single p with
  | None => Ok (-1)%R
  | Some a => match lookup (heap p) a with
              | None => UB
              | Some s =>
                  r <- MoorDyn_GetLineFairTen (get_object (nlines s) (to_uint l)) ;;
                  match rp_out r with Some t => Ok t | None => UB end
              end
  end.
(** GetNodePos, l.276-283 *)
Definition GetNodePos (l : Z) (i : Z) (p : process) : outcome (reply v3) :=
  match single p with
  | None => Ok (Reply MOORDYN_MEM_ERROR None)
  | Some a => match lookup (heap p) a with
              | None => UB
              | Some s => MoorDyn_GetLineNode QPos (get_object (nlines s) (to_uint l)) (Z.to_nat (to_uint i))
              end
  end.

Inductive v1call := VInit (x : X) (name : string) | VStep (x : X) | VClose.
Definition v1_do (c : v1call) (p : process) : outcome (Z * process) :=
  match c with
  | VInit x name => Ok (MoorDynInit x name p)
  | VStep x => r <- MoorDynStep x p ;; let '(e, _, p) := r in Ok (e, p)
  | VClose => MoorDynClose p
  end.
Fixpoint v1_run (h : list v1call) (p : process) : outcome process :=
  match h with [] => Ok p | c :: r => q <- v1_do c p ;; v1_run r (snd q) end.
End V1.
