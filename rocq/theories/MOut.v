(** The texts of the output files: the individual files of lines, rods and bodies, and the main output file.
    Line::initialize and Line::Output (source/Line.cpp l.258-398, l.1268-1365), Rod::openoutput and Rod::Output
    (Rod.cpp l.233-298, l.1363-1411), Body::initialize and Body::Output (Body.cpp l.214-245, l.635-655), the part of
    MoorDyn::Init that calls them (MoorDyn2.cpp l.416-500, l.570-603; Time.hpp l.532-563), MoorDyn::AllOutput
    (MoorDyn2.cpp l.2278-2318) and the creation of the files (l.1155-1169, l.1931-1937, l.2050-2061).
    A file is the list of the characters written to it. How a number is written is a parameter. The files are taken to
    stay open. *)
From Coq Require Import String Ascii List Arith Bool Reals DecimalString.
From Verif Require Import MErr MStr MVec MStateOps.
Import ListNotations.
Local Open Scope nat_scope.

Definition ot (s : string) : str := list_ascii_of_string s.
Definition TAB : ascii := "009"%char.
Definition NL : ascii := "010"%char.
Definition SP : ascii := " "%char.
(** an unsigned int written to a stream *)
Definition dec (n : nat) : str := ot (NilZero.string_of_uint (Nat.to_uint n)).
(** channels.find(...) != string::npos *)
Definition has (c : ascii) (channels : str) : bool := existsb (Ascii.eqb c) channels.
(** strcspn(channels, "pvUDctsd") < strlen(channels): MoorDyn2.cpp l.1156-1158 (lines) and l.2050-2051 (rods) *)
Definition makes_file (channels : str) : bool := existsb (fun c => has c (ot "pvUDctsd")) channels.

Section Text.
Variable show : R -> str.
(** the three columns of a node or segment in a header, as in Line.cpp l.273-274, and a single one, as in l.280 *)
Definition cols3 (what q : string) (i : nat) : str :=
  ot what ++ dec i ++ ot q ++ ot "x " ++ [TAB; SP] ++ ot what ++ dec i ++ ot q ++ ot "y " ++ [TAB; SP] ++ ot what ++ dec i ++ ot q ++ ot "z " ++ [TAB; SP].
Definition col1 (what q : string) (i : nat) : str := ot what ++ dec i ++ ot q ++ [SP; TAB; SP].
Definition loop (f : nat -> str) (from n : nat) : str := concat (map f (seq from n)).
Definition iff (b : bool) (s : str) : str := if b then s else [].
(** numbers followed by a tab and a blank *)
Definition num (x : R) : str := show x ++ [TAB; SP].
Definition num3 (v : v3) : str := num (vx v) ++ num (vy v) ++ num (vz v).

(** Line.cpp l.264-340 *)
Definition line_header (N : nat) (ch : str) : str :=
  ot "Time" ++ [TAB; SP] ++
  iff (has "p" ch) (loop (cols3 "Node" "p") 0 (N + 1)) ++
  iff (has "K" ch) (loop (col1 "Node" "Ku") 0 (N + 1)) ++
  iff (has "v" ch) (loop (cols3 "Node" "v") 0 (N + 1)) ++
  iff (has "U" ch) (loop (cols3 "Node" "U") 0 (N + 1)) ++
  iff (has "D" ch) (loop (cols3 "Node" "D") 0 (N + 1)) ++
  iff (has "t" ch) (loop (col1 "Seg" "Te") 1 N) ++
  iff (has "c" ch) (loop (cols3 "Seg" "c") 1 N) ++
  iff (has "s" ch) (loop (col1 "Seg" "St") 1 N) ++
  iff (has "d" ch) (loop (col1 "Seg" "dSt") 1 N) ++
  iff (has "b" ch) (loop (cols3 "Node" "b") 0 (N + 1)) ++
  [NL].
(** Line.cpp l.342-397; for (i = 0; i <= 3 * N + 2; i++) has 3 N + 3 turns. Simplification: 3 * N + 2 does not overflow *)
Definition times (n : nat) (s : str) : str := concat (repeat s n).
Definition line_units (N : nat) (ch : str) : str :=
  ot "(s)" ++ [TAB; SP] ++
  iff (has "p" ch) (times (S (3 * N + 2)) (ot "(m) " ++ [TAB])) ++
  iff (has "K" ch) (times (S N) (ot "(1/m) " ++ [TAB; SP])) ++
  iff (has "v" ch) (times (S (3 * N + 2)) (ot "(m/s) " ++ [TAB])) ++
  iff (has "U" ch) (times (S (3 * N + 2)) (ot "(m/s) " ++ [TAB])) ++
  iff (has "D" ch) (times (S (3 * N + 2)) (ot "(N) " ++ [TAB])) ++
  iff (has "t" ch) (times N (ot "(N) " ++ [TAB])) ++
  iff (has "c" ch) (times (3 * N) (ot "(N) " ++ [TAB])) ++
  iff (has "s" ch) (times N (ot "(-) " ++ [TAB])) ++
  iff (has "d" ch) (times N (ot "(-/s) " ++ [TAB])) ++
  iff (has "b" ch) (times (S (3 * N + 2)) (ot "(N) " ++ [TAB])) ++
  [NL].
(** what Line::Output reads: r, Kurv, rd, the water velocity U, Dp, Dq, Ap, Aq, T, Td, lstr, ldstr, l, B. Simplification:
    the vectors have the sizes given to them in Line::setup, N + 1 for nodes and N for segments *)
Record lsnap := Lsnap { o_r : nat -> v3; o_K : nat -> R; o_rd : nat -> v3; o_U : nat -> v3; o_Dp : nat -> v3; o_Dq : nat -> v3; o_Ap : nat -> v3; o_Aq : nat -> v3;
  o_T : nat -> v3; o_Td : nat -> v3; o_lstr : nat -> R; o_ldstr : nat -> R; o_l : nat -> R; o_B : nat -> v3 }.
(** Line.cpp l.1283-1362 *)
Definition line_row (N : nat) (ch : str) (t : R) (q : lsnap) : str :=
  num t ++
  iff (has "p" ch) (loop (fun i => num3 (o_r q i)) 0 (N + 1)) ++
  iff (has "K" ch) (loop (fun i => num (o_K q i)) 0 (N + 1)) ++
  iff (has "v" ch) (loop (fun i => num3 (o_rd q i)) 0 (N + 1)) ++
  iff (has "U" ch) (loop (fun i => num3 (o_U q i)) 0 (N + 1)) ++
  iff (has "D" ch) (loop (fun i => num3 (vadd (vadd (vadd (o_Dp q i) (o_Dq q i)) (o_Ap q i)) (o_Aq q i))) 0 (N + 1)) ++
  iff (has "t" ch) (loop (fun i => num (norm (o_T q i))) 0 N) ++
  iff (has "c" ch) (loop (fun i => num3 (o_Td q i)) 0 N) ++
  iff (has "s" ch) (loop (fun i => num (o_lstr q i / o_l q i - 1)%R) 0 N) ++
  iff (has "d" ch) (loop (fun i => num (o_ldstr q i / o_l q i)%R) 0 N) ++
  iff (has "b" ch) (loop (fun i => num3 (o_B q i)) 0 (N + 1)) ++
  [NL].

(** Rod.cpp l.243-269, l.271-294, l.1381-1408; r, rd, Fnet *)
Definition rod_header (N : nat) (ch : str) : str :=
  ot "Time" ++ [TAB; SP] ++
  iff (has "p" ch) (loop (cols3 "Node" "p") 0 (N + 1)) ++
  iff (has "v" ch) (loop (cols3 "Node" "v") 0 (N + 1)) ++
  iff (has "f" ch) (loop (cols3 "Node" "F") 0 (N + 1)) ++
  [NL].
Definition rod_units (N : nat) (ch : str) : str :=
  ot "(s)" ++ [TAB; SP] ++
  iff (has "p" ch) (times (S (3 * N + 2)) (ot "(m) " ++ [TAB])) ++
  iff (has "v" ch) (times (S (3 * N + 2)) (ot "(m/s) " ++ [TAB])) ++
  iff (has "f" ch) (times (S (3 * N + 2)) (ot "(N) " ++ [TAB])) ++
  [NL].
Record rsnap := Rsnap { q_r : nat -> v3; q_rd : nat -> v3; q_F : nat -> v3 }.
Definition rod_row (N : nat) (ch : str) (t : R) (q : rsnap) : str :=
  num t ++
  iff (has "p" ch) (loop (fun i => num3 (q_r q i)) 0 (N + 1)) ++
  iff (has "v" ch) (loop (fun i => num3 (q_rd q i)) 0 (N + 1)) ++
  iff (has "f" ch) (loop (fun i => num3 (q_F q i)) 0 (N + 1)) ++
  [NL].

(** Body.cpp l.224-243, l.645-652; position and angles in degrees *)
Definition body_header : str := ot "Time" ++ [TAB; SP] ++ ot "x" ++ [TAB] ++ ot "y" ++ [TAB] ++ ot "z" ++ [TAB] ++ ot "roll" ++ [TAB] ++ ot "pitch" ++ [TAB] ++ ot "yaw" ++ [NL].
Definition body_units : str := ot "(s)" ++ [TAB; SP] ++ ot "(m)" ++ [TAB] ++ ot "(m)" ++ [TAB] ++ ot "(m)" ++ [TAB] ++ ot "(deg)" ++ [TAB] ++ ot "(deg)" ++ [TAB] ++ ot "(deg)" ++ [NL].
Definition body_row (t : R) (pos ang : v3) : str :=
  num t ++ num3 pos ++ show (vx ang) ++ [TAB; SP] ++ show (vy ang) ++ [TAB; SP] ++ show (vz ang) ++ [NL].

(** the main file: MoorDyn2.cpp l.586-600, and a row, l.2294-2307. A channel has a name and a text for its unit; an
    exception of GetOutput ends the row where it is, without an end of line *)
Definition main_header (names : list str) : str := ot "Time" ++ [TAB; SP] ++ concat (map (fun n => n ++ [TAB; SP]) names) ++ [NL].
Definition main_units (us : list str) : str := ot "(s)" ++ [TAB; SP] ++ concat (map (fun n => n ++ [TAB; SP]) us) ++ [NL].
Fixpoint main_cells (vals : list (outcome R)) : str * outcome unit :=
  match vals with
  | [] => ([NL], Ok tt)
  | Ok x :: vs => let r := main_cells vs in (num x ++ fst r, snd r)
  | Throw e :: _ => ([], Throw e)
  | UB :: _ => ([], UB)
  | Diverges :: _ => ([], Diverges)
  end.
Definition main_row (t : R) (vals : list (outcome R)) : str * outcome unit := let r := main_cells vals in (num t ++ fst r, snd r).

(** the objects that write files: N and channels of lines and rods; the file of a line or rod is there if the channels
    ask for it, that of a body always *)
Record odef := Odef { d_N : nat; d_ch : str }.
(** openedoutfile of a rod is not set before openoutput (Rod.hpp l.216): None *)
Record rfile := Rfile { opened : option bool; rtext : str }.
Record files := Files { f_main : str; f_lines : list (option str); f_rods : list (option rfile); f_bodies : list str }.
Definition with_units (u : bool) (h us : str) : str := h ++ iff u us.
(** Rod::openoutput, l.233-298 *)
Definition open_rod (u : bool) (d : odef) (f : rfile) : rfile := Rfile (Some true) (rtext f ++ with_units u (rod_header (d_N d) (d_ch d)) (rod_units (d_N d) (d_ch d))).
(** Rod::Output, l.1370-1410 *)
Definition rod_out (u : bool) (t : R) (d : odef) (q : rsnap) (f : option rfile) : outcome (option rfile) :=
  match f with
  | None => Ok None
  | Some f =>
      match opened f with
      | None => UB
      | Some o => let f' := if o then f else open_rod u d f in Ok (Some (Rfile (opened f') (rtext f' ++ rod_row (d_N d) (d_ch d) t q)))
      end
  end.
Definition line_out (t : R) (d : odef) (q : lsnap) (f : option str) : option str :=
  match f with None => None | Some f => Some (f ++ line_row (d_N d) (d_ch d) t q) end.
Definition body_out (t : R) (q : v3 * v3) (f : str) : str := f ++ body_row t (fst q) (snd q).
(** one call of AllOutput that is not skipped by dtOut, l.2288-2315 *)
Record snap := Snap { s_time : R; s_vals : list (outcome R); s_lines : list lsnap; s_rods : list rsnap; s_bodies : list (v3 * v3) }.
Fixpoint map3 {A B C D} (g : A -> B -> C -> D) (a : list A) (b : list B) (c : list C) : list D :=
  match a, b, c with x :: a', y :: b', z :: c' => g x y z :: map3 g a' b' c' | _, _, _ => [] end.
Fixpoint oseq {A} (l : list (outcome A)) : outcome (list A) :=
  match l with [] => Ok [] | o :: l' => x <- o ;; r <- oseq l' ;; Ok (x :: r) end.
Definition all_output (u : bool) (lds rds : list odef) (s : snap) (f : files) : files * outcome unit :=
  let r := main_row (s_time s) (s_vals s) in
  let m := f_main f ++ fst r in
  match snd r with
  | Ok _ =>
      match oseq (map3 (rod_out u (s_time s)) rds (s_rods s) (f_rods f)) with
      | Ok rods => (Files m (map3 (line_out (s_time s)) lds (s_lines s) (f_lines f)) rods
                          (map (fun p => body_out (s_time s) (fst p) (snd p)) (combine (s_bodies s) (f_bodies f))), Ok tt)
      | Throw e => (f, Throw e) | UB => (f, UB) | Diverges => (f, Diverges)
      end
  | e => (Files m (f_lines f) (f_rods f) (f_bodies f), e)
  end.
(** several calls, the first failure being reported *)
Fixpoint outputs (u : bool) (lds rds : list odef) (ss : list snap) (f : files) : files * outcome unit :=
  match ss with
  | [] => (f, Ok tt)
  | s :: ss' => match all_output u lds rds s f with (f', Ok _) => outputs u lds rds ss' f' | r => r end
  end.
End Text.

(** which objects are initialized by MoorDyn::Init, in which order: the types of rods and bodies, and the rods attached
    to the ground and to every body *)
Inductive rty := RFree | RPinned | RCoupled | RCpldPin | RFixed.
Inductive bty := BFree | BCoupled | BCpldPin | BFixed.
Definition rty_eqb (a b : rty) : bool := match a, b with RFree, RFree | RPinned, RPinned | RCoupled, RCoupled | RCpldPin, RCpldPin | RFixed, RFixed => true | _, _ => false end.
Definition bty_eqb (a b : bty) : bool := match a, b with BFree, BFree | BCoupled, BCoupled | BCpldPin, BCpldPin | BFixed, BFixed => true | _, _ => false end.
Record moor := Moor { m_rods : list rty; m_ground : list nat; m_bodies : list (bty * list nat) }.
Inductive call := InitRod (k : nat) | InitBody (k : nat) | InitLine (k : nat).
Definition rtype (m : moor) (k : nat) : rty := nth k (m_rods m) RFree.
(** Body::initializeUnfreeBody, Body.cpp l.167-187, and the same loop in Body::initialize, l.204-207: the rods of type FIXED *)
Definition fixed_rods (m : moor) (att : list nat) : list call := map InitRod (filter (fun k => rty_eqb (rtype m k) RFixed) att).
(** MoorDyn::Init, MoorDyn2.cpp l.422-475: ground, fixed bodies, coupled bodies, coupled rods *)
Definition unfree (m : moor) : list call :=
  fixed_rods m (m_ground m) ++
  flat_map (fun b => if bty_eqb (fst b) BFixed then fixed_rods m (snd b) else []) (m_bodies m) ++
  flat_map (fun b => if bty_eqb (fst b) BCoupled || bty_eqb (fst b) BCpldPin then fixed_rods m (snd b) else []) (m_bodies m) ++
  map InitRod (filter (fun k => rty_eqb (rtype m k) RCoupled || rty_eqb (rtype m k) RCpldPin) (seq 0 (length (m_rods m)))).
(** Body::initialize, Body.cpp l.188-250, for the body k *)
Definition init_body (m : moor) (k : nat) (b : bty * list nat) : list call :=
  if bty_eqb (fst b) BFree then fixed_rods m (snd b) ++ [InitBody k]
  else if bty_eqb (fst b) BCpldPin then [InitBody k] else [].
(** TimeSchemeBase::Init, Time.hpp l.532-563 (the one of the dynamic or of the static solver); nl lines *)
Definition scheme_init (m : moor) (nl : nat) : list call :=
  concat (map (fun p => init_body m (fst p) (snd p)) (combine (seq 0 (length (m_bodies m))) (m_bodies m))) ++
  map InitRod (filter (fun k => rty_eqb (rtype m k) RFree || rty_eqb (rtype m k) RPinned) (seq 0 (length (m_rods m)))) ++
  map InitLine (seq 0 nl).
Definition init_calls (m : moor) (nl : nat) : list call := unfree m ++ scheme_init m nl.
(** what one of these calls writes *)
Fixpoint upd {A} (k : nat) (g : A -> A) (l : list A) : list A :=
  match k, l with O, x :: l' => g x :: l' | S k', x :: l' => x :: upd k' g l' | _, [] => [] end.
Definition do_call (u : bool) (lds rds : list odef) (c : call) (f : files) : files :=
  match c with
  | InitRod k => Files (f_main f) (f_lines f) (upd k (fun o => match o with None => None | Some r => Some (open_rod u (nth k rds (Odef 0 [])) r) end) (f_rods f)) (f_bodies f)
  | InitBody k => Files (f_main f) (f_lines f) (f_rods f) (upd k (fun s => s ++ with_units u body_header body_units) (f_bodies f))
  | InitLine k => let d := nth k lds (Odef 0 []) in
      Files (f_main f) (upd k (fun o => match o with None => None | Some s => Some (s ++ with_units u (line_header (d_N d) (d_ch d)) (line_units (d_N d) (d_ch d))) end) (f_lines f)) (f_rods f) (f_bodies f)
  end.
(** the files after the reading of the input: empty, there if asked for *)
Definition created (lds rds : list odef) (nb : nat) : files :=
  Files [] (map (fun d => if makes_file (d_ch d) then Some [] else None) lds)
        (map (fun d => if makes_file (d_ch d) then Some (Rfile None []) else None) rds) (repeat [] nb).
(** MoorDyn::Init as far as the files are concerned, and the outputs after it (the first one at t = 0 is part of Init,
    l.603) *)
Definition initialized (u : bool) (lds rds : list odef) (m : moor) (names us : list str) : files :=
  let f := fold_left (fun f c => do_call u lds rds c f) (init_calls m (length lds)) (created lds rds (length (m_bodies m))) in
  Files (f_main f ++ with_units u (main_header names) (main_units us)) (f_lines f) (f_rods f) (f_bodies f).
