(** C117: the VTK files show the system as it is. *)
From Coq Require Import String Ascii Reals ZArith List Arith Bool Lia Lra.
From Verif Require Import MErr MStr MVec MStateOps MMat MRodS MVtk SVtk PVtk.
Import ListNotations.

(** for the cases: a line of two segments and a rod of one, in whole numbers *)
Definition demo_line : line Z := Line Z 2 [(0, 0, 0); (1, 0, 2); (2, 0, 4)]%Z [(0, 0, 0); (1, 1, 1); (0, 0, 0)]%Z [0; 5; 0]%Z [(7, 7, 7); (8, 8, 8); (9, 9, 9)]%Z
  [[1; 0; 0; 0; 1; 0; 0; 0; 1]; [2; 0; 0; 0; 2; 0; 0; 0; 2]; [1; 0; 0; 0; 1; 0; 0; 0; 1]]%Z [(1, 0, 0); (2, 0, 0); (3, 0, 0)]%Z [(0, 1, 0); (0, 2, 0); (0, 3, 0)]%Z
  [10; 11]%Z [0; 1]%Z [4; 4]%Z [(50, 0, 0); (60, 0, 0)]%Z [1; 1; 1]%Z [(0, 0, 0); (0, 0, 0); (3, 0, 0)]%Z.
Definition demo_rod (n : nat) : rod Z := Rod Z n (repeat (1, 2, 3)%Z (Datatypes.S n)) (repeat (4, 5, 6)%Z (Datatypes.S n)) (repeat (7, 8, 9)%Z (Datatypes.S n)).

(** The polydata of a line: its nodes in their order, a cell for each segment, and fields with the value of each node and
    of each segment. Missing: the wet parts "F" of the segments, and lines with no segment, see below. *)
Theorem C117_line_partial : forall F G (narrow : F -> G) plus L, line_sized F L -> l_N F L <> 0%nat -> exists p, line_vtk F G narrow plus L = Ok p /\
  points_at narrow p (l_r F L) /\ py_verts G p = [] /\ length (py_lines G p) = l_N F L /\
  (forall i, (i < l_N F L)%nat -> nth_error (py_lines G p) i = Some [i; Datatypes.S i]) /\
  field_shows narrow (py_pdata G p) "rd" 3 (comps F) (l_rd F L) /\ field_shows narrow (py_pdata G p) "Kurv" 1 (fun x => [x]) (l_Kurv F L) /\
  field_shows narrow (py_pdata G p) "M" 9 (fun m => m) (l_M F L) /\ field_shows narrow (py_pdata G p) "Fnet" 3 (comps F) (l_Fnet F L) /\
  field_shows narrow (py_pdata G p) "Drag" 3 (fun d => map (fun p => plus (fst p) (snd p)) (combine (comps F (fst d)) (comps F (snd d)))) (combine (l_Dq F L) (l_Dp F L)) /\
  field_shows narrow (py_pdata G p) "U" 3 (comps F) (l_U F L) /\
  field_shows narrow (py_cdata G p) "lstr" 1 (fun x => [x]) (l_lstr F L) /\ field_shows narrow (py_cdata G p) "ldstr" 1 (fun x => [x]) (l_ldstr F L) /\
  field_shows narrow (py_cdata G p) "V" 1 (fun x => [x]) (l_V F L) /\ field_shows narrow (py_cdata G p) "T" 3 (comps F) (l_T F L) /\
  Forall (fits (Datatypes.S (l_N F L))) (py_pdata G p) /\ Forall (fun a => va_name G a <> "F"%string -> fits (l_N F L) a) (py_cdata G p).
Proof.
  intros F G narrow plus L HL HN. destruct (line_shown narrow plus L HL HN) as (p & H1 & H2 & H3 & H4 & H5 & H6 & H7 & H8 & H9 & H10 & H11 & H12 & H13 & H14 & H15 & _ & H17 & H18).
  exists p. repeat (split; [assumption|]). assumption.
Qed.
Print Assumptions C117_line_partial.
Example C117_line_ok : line_sized Z demo_line /\ l_N Z demo_line <> 0%nat /\
  exists p, line_vtk Z Z (fun z => z) Z.add demo_line = Ok p /\ py_points Z p = [[0; 0; 0]; [1; 0; 2]; [2; 0; 4]]%Z /\ py_lines Z p = [[0; 1]; [1; 2]]%nat /\
    field (py_pdata Z p) "Drag" = Some (VArr Z "Drag" 3 [Some [1; 1; 0]; Some [2; 2; 0]; Some [3; 3; 0]]%Z).
Proof. split; [repeat split; repeat constructor|]. split; [discriminate|]. eexists. split; [reflexivity|]. repeat split. Qed.

(** Refuted: the polydata of a line is never well formed. Among the fields of the cells, of which there is one per segment,
    there is "F", with a value per node. *)
Theorem C117_line_refuted : forall F G (narrow : F -> G) plus L p, line_sized F L -> line_vtk F G narrow plus L = Ok p ->
  ~ well_formed p /\ exists a, field (py_cdata G p) "F" = Some a /\ length (va_tuples G a) = Datatypes.S (length (py_lines G p)).
Proof.
  intros F G narrow plus L p HL E. split; [exact (line_bad narrow plus L p HL E)|]. destruct (Nat.eq_dec (l_N F L) 0) as [H|H]; [rewrite (line_empty narrow plus L HL H) in E; discriminate|].
  destruct (line_shown narrow plus L HL H) as (p' & E' & _ & _ & Hc & _ & _ & _ & _ & _ & _ & _ & _ & _ & _ & _ & (a & Ha & _ & La & _) & _). rewrite E in E'. injection E' as <-.
  exists a. split; [exact Ha|]. rewrite La, Hc. apply HL.
Qed.
Print Assumptions C117_line_refuted.
Example C117_line_bad : exists p, line_vtk Z Z (fun z => z) Z.add demo_line = Ok p /\ length (py_lines Z p) = 2%nat /\ field (py_cdata Z p) "F" = Some (VArr Z "F" 1 [Some [1]; Some [1]; Some [1]]%Z).
Proof. eexists. split; [reflexivity|]. repeat split. Qed.

(** Refuted: a line with no segment makes the program read the front of an empty vector. *)
Theorem C117_segments_refuted : forall F G (narrow : F -> G) plus L, line_sized F L -> l_N F L = 0%nat -> line_vtk F G narrow plus L = UB.
Proof. intros F G narrow plus. exact (line_empty narrow plus). Qed.
Print Assumptions C117_segments_refuted.
Example C117_segments_ok : line_sized Z (Line Z 0 [(0, 0, 0)]%Z [(0, 0, 0)]%Z [0]%Z [(0, 0, 0)]%Z [[1; 0; 0; 0; 1; 0; 0; 0; 1]]%Z [(0, 0, 0)]%Z [(0, 0, 0)]%Z [] [] [] [] [0]%Z [(0, 0, 0)]%Z).
Proof. repeat split; repeat constructor. Qed.

(** The polydata of a rod: its nodes in their order and a line through them, or a vertex if it has no segment; the fields
    have the values of the nodes. *)
Theorem C117_rod : forall F G (narrow : F -> G) R n, r_N F R = n -> length (r_r F R) = Datatypes.S n -> length (r_rd F R) = Datatypes.S n -> length (r_Fnet F R) = Datatypes.S n ->
  exists p, rod_vtk F G narrow R = Ok p /\ well_formed p /\ points_at narrow p (r_r F R) /\
    (if Nat.eqb n 0 then py_verts G p = [[0%nat]] /\ py_lines G p = [] else py_verts G p = [] /\ py_lines G p = [seq 0 (Datatypes.S n)]) /\
    field_shows narrow (py_pdata G p) "rd" 3 (comps F) (r_rd F R) /\ field_shows narrow (py_pdata G p) "Fnet" 3 (comps F) (r_Fnet F R).
Proof. intros F G narrow. exact (rod_shown narrow). Qed.
Print Assumptions C117_rod.
Example C117_rod_ok : (forall n, r_N Z (demo_rod n) = n /\ length (r_r Z (demo_rod n)) = Datatypes.S n /\ length (r_rd Z (demo_rod n)) = Datatypes.S n /\ length (r_Fnet Z (demo_rod n)) = Datatypes.S n) /\
  exists p, rod_vtk Z Z (fun z => z) (demo_rod 1) = Ok p /\ py_lines Z p = [[0; 1]]%nat /\ py_points Z p = [[1; 2; 3]; [1; 2; 3]]%Z.
Proof. split; [intro n; cbn; rewrite !repeat_length; auto|]. eexists. split; [reflexivity|]. repeat split. Qed.

(** The polydata of a point: a vertex where it is, with its velocity, its mass matrix and the force. *)
Theorem C117_point : forall F G (narrow : F -> G) r rd M f, length M = 9%nat -> exists p, point_vtk F G narrow r rd M f = Ok p /\ well_formed p /\ points_at narrow p [r] /\
  py_verts G p = [[0%nat]] /\ py_lines G p = [] /\
  field_shows narrow (py_pdata G p) "rd" 3 (comps F) [rd] /\ field_shows narrow (py_pdata G p) "M" 9 (fun m => m) [M] /\ field_shows narrow (py_pdata G p) "Fnet" 3 (comps F) [f].
Proof. intros F G narrow. exact (point_shown narrow). Qed.
Print Assumptions C117_point.
Example C117_point_ok : exists p, point_vtk Z Z (fun z => z) (1, 2, 3)%Z (4, 5, 6)%Z [1; 0; 0; 0; 1; 0; 0; 0; 1]%Z (7, 8, 9)%Z = Ok p /\ py_points Z p = [[1; 2; 3]]%Z /\
  field (py_pdata Z p) "Fnet" = Some (VArr Z "Fnet" 3 [Some [7; 8; 9]%Z]).
Proof. eexists. split; [reflexivity|]. split; reflexivity. Qed.

(** A point of the model of a body is drawn where a point attached there would be, whatever the orientation, also if the
    quaternion is not of length one. *)
Theorem C117_body : forall r7 vel v, body_vtk r7 v = fst (body_point (qrot (qnormalized (xq_quat r7))) (xq_pos r7) vel v).
Proof. exact body_shown. Qed.
Print Assumptions C117_body.
Example C117_body_ok : body_vtk (XQ (V3 10 20 30) (Q4 0 0 0 2)) (V3 1 0 5) = V3 9 20 35.
Proof.
  rewrite (C117_body _ (V6 (V3 0 0 0) (V3 0 0 0))). unfold body_point, transformKinematics, qnormalized. cbn [xq_quat xq_pos fst qw qx qy qz]. cbv zeta.
  destruct (Rlt_dec _ _) as [_|H]; [|lra]. replace (0 * 0 + 0 * 0 + 0 * 0 + 2 * 2)%R with (2 * 2)%R by ring. rewrite sqrt_square by lra.
  unfold qrot, qscale, mmulv, vadd, dot. cbn [qw qx qy qz mr0 mr1 mr2 vx vy vz]. f_equal; field.
Qed.
(** The axes drawn for a body with no model of its own start at its place and end one length along its axes. *)
Theorem C117_axes : forall r7 l a b, In l default_lines -> l = [a; b] ->
  let m := qrot (qnormalized (xq_quat r7)) in
  option_map (body_vtk r7) (nth_error default_points a) = Some (xq_pos r7) /\
  exists e, In e [V3 1 0 0; V3 0 1 0; V3 0 0 1] /\ nth_error [V3 1 0 0; V3 0 1 0; V3 0 0 1] (b - 1) = Some e /\ option_map (body_vtk r7) (nth_error default_points b) = Some (vadd (mmulv m e) (xq_pos r7)).
Proof.
  intros r7 l a b Hl E m. assert (Z0 : body_vtk r7 (V3 0 0 0) = xq_pos r7).
  { rewrite (body_shown r7 (V6 (V3 0 0 0) (V3 0 0 0))). unfold body_point, transformKinematics. cbn [fst]. fold m. destruct r7 as [[x y z] q]. cbn [xq_pos]. unfold mmulv, vadd, dot. cbn [vx vy vz]. f_equal; ring. }
  unfold default_lines in Hl. cbn [In] in Hl. destruct Hl as [<-|[<-|[<-|[]]]]; injection E as <- <-; cbn [nth_error default_points option_map Nat.sub]; rewrite Z0; (split; [reflexivity|]; eexists; split; [|split; [reflexivity|]; rewrite (body_shown r7 (V6 (V3 0 0 0) (V3 0 0 0))); reflexivity]; cbn; auto).
Qed.
Print Assumptions C117_axes.
Example C117_axes_ok : In [0%nat; 3%nat] default_lines /\ length default_lines = 3%nat.
Proof. split; [right; right; left; reflexivity|reflexivity]. Qed.

(** The blocks of a system: an object in each, the bodies, the points, the rods and the lines, in their order. *)
Theorem C117_system : forall A (bodies points rods lines : list A), system_vtk bodies points rods lines = map Some (bodies ++ points ++ rods ++ lines).
Proof. intros A. exact system_shown. Qed.
Print Assumptions C117_system.
Example C117_system_ok : system_vtk ["b1"; "b2"; "b3"]%string ["p1"]%string [] ["l1"; "l2"]%string = [Some "b1"; Some "b2"; Some "b3"; Some "p1"; Some "l1"; Some "l2"]%string.
Proof. reflexivity. Qed.

(** A failure to write is always reported by a code, and success only without failure. *)
Theorem C117_save : forall e, exists c, save_vtk e = Returns c /\ (c = MOORDYN_SUCCESS <-> e = NoError).
Proof. intros e. exists (vtk_error e). split; [exact (save_code e)|exact (save_zero e)]. Qed.
Print Assumptions C117_save.
Example C117_save_ok : save_vtk OutOfDiskSpaceError = Returns MOORDYN_MEM_ERROR.
Proof. reflexivity. Qed.

(** A model of a body is read from a file with the ending .vtp or .stl, in capitals or not; any other ending is refused, and
    a file that cannot be read leaves the model as it was. Missing: names without an ending, and the code of a missing
    file, see below. *)
Theorem C117_model_partial : forall A (reader : format -> str -> vtkerr * A) stem e m, e <> [] -> ~ In "."%char e ->
  let name := (stem ++ "."%char :: e)%list in
  let answer f := Ok (match reader f name with (NoError, x) => (MOORDYN_SUCCESS, x) | (err, _) => (vtk_error err, m) end) in
  (lower e = ["v"; "t"; "p"]%char -> use_body reader name m = answer FormatXML) /\
  (lower e = ["s"; "t"; "l"]%char -> use_body reader name m = answer FormatSTL) /\
  (lower e <> ["v"; "t"; "p"]%char -> lower e <> ["s"; "t"; "l"]%char -> use_body reader name m = Ok (MOORDYN_INVALID_INPUT_FILE, m)).
Proof. intros A. exact use_body_ext. Qed.
Print Assumptions C117_model_partial.
Example C117_model_ok : use_body (fun f n => match f with FormatSTL => (NoError, 1%nat) | FormatXML => (FileFormatError, 2%nat) end) ["b"; "."; "S"; "t"; "L"]%char 0%nat = Ok (MOORDYN_SUCCESS, 1%nat) /\
  use_body (fun f n => match f with FormatSTL => (NoError, 1%nat) | FormatXML => (FileFormatError, 2%nat) end) ["b"; "."; "v"; "t"; "p"]%char 0%nat = Ok (MOORDYN_INVALID_VALUE, 0%nat).
Proof. split; reflexivity. Qed.
(** Refuted: the empty name, or one with nothing but dots, makes the program read the back of an empty vector; and a model
    that is not there is reported as an output file that cannot be written. *)
Theorem C117_model_refuted : (forall A (reader : format -> str -> vtkerr * A) k m, use_body reader (repeat "."%char k) m = UB) /\
  exists A (reader : format -> str -> vtkerr * A) name m, reader FormatXML name = (FileNotFoundError, m) /\ use_body reader name m = Ok (MOORDYN_INVALID_OUTPUT_FILE, m).
Proof.
  split; [intros A; exact ub_name|]. exists nat, (fun _ _ => (FileNotFoundError, 0%nat)), ["b"; "."; "v"; "t"; "p"]%char, 0%nat. split; reflexivity.
Qed.
Print Assumptions C117_model_refuted.
