(** Model of the Python layer of the wrapper: wrappers/python/moordyn/moordyn.py, and of the table of methods
    of the module it calls, wrappers/python/cmoordyn.cpp l.2736-3013.

    Each function of moordyn.py that does nothing but call one function of the module is a row of a table,
    read from the source; Log and SetWaveKin are written out. The names of the arguments are replaced by
    their numbers, and calls with keyword arguments are not modelled. *)
From Coq Require Import String Ascii ZArith List Arith Bool.
From Verif Require Import MPy.
Import ListNotations.
Open Scope string_scope.
Open Scope Z_scope.

(** a function of the module with one handle and plain arguments (see [f_simple]) *)
Record crow := CRow { c_name : string; c_kind : kind; c_fmt : list funit; c_uns : bool; c_fun : string; c_shape : shape }.
(** cmoordyn.cpp, the functions at the lines given; all of them are in the table of methods, l.2739-2996, under
    their own names *)
Definition ctable : list crow := [
  (** l.105-126 *) CRow "n_coupled_dof" KSystem [] false "MoorDyn_NCoupledDOF" RInt;
  (** l.132-147 *) CRow "set_verbosity" KSystem [FI] false "MoorDyn_SetVerbosity" RCode;
  (** l.153-168 *) CRow "set_logfile" KSystem [FS] false "MoorDyn_SetLogFile" RCode;
  (** l.174-189 *) CRow "set_loglevel" KSystem [FI] false "MoorDyn_SetLogLevel" RCode;
  (** l.195-211 *) CRow "log" KSystem [FI; FS] false "MoorDyn_Log" RCode;
  (** l.378-398 *) CRow "get_waves" KSystem [] false "MoorDyn_GetWaves" (RCap KWaves);
  (** l.404-424 *) CRow "get_seafloor" KSystem [] false "MoorDyn_GetSeafloor" (RCap KSeafloor);
  (** l.430-450 *) CRow "ext_wave_init" KSystem [] false "MoorDyn_ExternalWaveKinInit" RErr0;
  (** l.456-476 *) CRow "ext_wave_n" KSystem [] false "MoorDyn_ExternalWaveKinGetN" RInt;
  (** l.593-613 *) CRow "get_number_bodies" KSystem [] false "MoorDyn_GetNumberBodies" RInt;
  (** l.619-640 *) CRow "get_body" KSystem [FI] false "MoorDyn_GetBody" (RCap KBody);
  (** l.646-666 *) CRow "get_number_rods" KSystem [] false "MoorDyn_GetNumberRods" RInt;
  (** l.672-693 *) CRow "get_rod" KSystem [FI] false "MoorDyn_GetRod" (RCap KRod);
  (** l.699-719 *) CRow "get_number_points" KSystem [] false "MoorDyn_GetNumberPoints" RInt;
  (** l.725-746 *) CRow "get_point" KSystem [FI] false "MoorDyn_GetPoint" (RCap KPoint);
  (** l.752-772 *) CRow "get_number_lines" KSystem [] false "MoorDyn_GetNumberLines" RInt;
  (** l.778-799 *) CRow "get_line" KSystem [FI] false "MoorDyn_GetLine" (RCap KLine);
  (** l.939-959 *) CRow "save" KSystem [FS] false "MoorDyn_Save" RNone;
  (** l.965-985 *) CRow "load" KSystem [FS] false "MoorDyn_Load" RNone;
  (** l.991-1006 *) CRow "save_vtk" KSystem [FS] false "MoorDyn_SaveVTK" RCode;
  (** l.1069-1091 *) CRow "seafloor_getdepth" KSeafloor [FD; FD] false "MoorDyn_GetDepthAt" RFlt;
  (** l.1097-1118 *) CRow "seafloor_getavgdepth" KSeafloor [] false "MoorDyn_GetAverageDepth" RFlt;
  (** l.1124-1145 *) CRow "seafloor_getmindepth" KSeafloor [] false "MoorDyn_GetMinDepth" RFlt;
  (** l.1154-1175 *) CRow "body_get_id" KBody [] false "MoorDyn_GetBodyID" RInt;
  (** l.1181-1202 *) CRow "body_get_type" KBody [] false "MoorDyn_GetBodyType" RInt;
  (** l.1208-1239 *) CRow "body_get_state" KBody [] false "MoorDyn_GetBodyState" (RMat 2 6);
  (** l.1245-1271 *) CRow "body_get_pos" KBody [] false "MoorDyn_GetBodyPos" (RVec 3);
  (** l.1277-1303 *) CRow "body_get_angle" KBody [] false "MoorDyn_GetBodyAngle" (RVec 3);
  (** l.1309-1335 *) CRow "body_get_vel" KBody [] false "MoorDyn_GetBodyVel" (RVec 3);
  (** l.1341-1367 *) CRow "body_get_angvel" KBody [] false "MoorDyn_GetBodyAngVel" (RVec 3);
  (** l.1373-1399 *) CRow "body_get_force" KBody [] false "MoorDyn_GetBodyForce" (RVec 6);
  (** l.1405-1435 *) CRow "body_get_m" KBody [] false "MoorDyn_GetBodyM" (RMat 6 6);
  (** l.1441-1456 *) CRow "body_save_vtk" KBody [FS] false "MoorDyn_SaveBodyVTK" RCode;
  (** l.1462-1477 *) CRow "body_use_vtk" KBody [FS] false "MoorDyn_UseBodyVTK" RCode;
  (** l.1486-1507 *) CRow "rod_get_id" KRod [] false "MoorDyn_GetRodID" RInt;
  (** l.1513-1534 *) CRow "rod_get_type" KRod [] false "MoorDyn_GetRodType" RInt;
  (** l.1540-1566 *) CRow "rod_get_force" KRod [] false "MoorDyn_GetRodForce" (RVec 6);
  (** l.1572-1602 *) CRow "rod_get_m" KRod [] false "MoorDyn_GetRodM" (RMat 6 6);
  (** l.1608-1629 *) CRow "rod_get_n" KRod [] false "MoorDyn_GetRodN" RInt;
  (** l.1635-1661 *) CRow "rod_get_node_pos" KRod [FI] true "MoorDyn_GetRodNodePos" (RVec 3);
  (** l.1667-1693 *) CRow "rod_get_node_vel" KRod [FI] true "MoorDyn_GetRodNodeVel" (RVec 3);
  (** l.1699-1714 *) CRow "rod_save_vtk" KRod [FS] false "MoorDyn_SaveRodVTK" RCode;
  (** l.1723-1744 *) CRow "point_get_id" KPoint [] false "MoorDyn_GetPointID" RInt;
  (** l.1750-1771 *) CRow "point_get_type" KPoint [] false "MoorDyn_GetPointType" RInt;
  (** l.1777-1802 *) CRow "point_get_pos" KPoint [] false "MoorDyn_GetPointPos" (RVec 3);
  (** l.1808-1833 *) CRow "point_get_vel" KPoint [] false "MoorDyn_GetPointVel" (RVec 3);
  (** l.1839-1864 *) CRow "point_get_force" KPoint [] false "MoorDyn_GetPointForce" (RVec 3);
  (** l.1870-1900 *) CRow "point_get_m" KPoint [] false "MoorDyn_GetPointM" (RMat 3 3);
  (** l.1906-1927 *) CRow "point_get_nattached" KPoint [] false "MoorDyn_GetPointNAttached" RInt;
  (** l.1965-1980 *) CRow "point_save_vtk" KPoint [FS] false "MoorDyn_SavePointVTK" RCode;
  (** l.1989-2010 *) CRow "line_get_id" KLine [] false "MoorDyn_GetLineID" RInt;
  (** l.2016-2037 *) CRow "line_get_n" KLine [] false "MoorDyn_GetLineN" RInt;
  (** l.2043-2064 *) CRow "line_get_ulen" KLine [] false "MoorDyn_GetLineUnstretchedLength" RFlt;
  (** l.2070-2091 *) CRow "line_set_ulen" KLine [FD] false "MoorDyn_SetLineUnstretchedLength" RNone;
  (** l.2097-2118 *) CRow "line_set_ulenv" KLine [FD] false "MoorDyn_SetLineUnstretchedLengthVel" RNone;
  (** l.2124-2145 *) CRow "line_is_const_ea" KLine [] false "MoorDyn_IsLineConstantEA" RInt;
  (** l.2151-2172 *) CRow "line_get_const_ea" KLine [] false "MoorDyn_GetLineConstantEA" RFlt;
  (** l.2178-2199 *) CRow "line_set_const_ea" KLine [FD] false "MoorDyn_SetLineConstantEA" RNone;
  (** l.2205-2226 *) CRow "line_is_pbend" KLine [] false "MoorDyn_IsLinePressBend" RBool;
  (** l.2311-2337 *) CRow "line_get_node_pos" KLine [FI] true "MoorDyn_GetLineNodePos" (RVec 3);
  (** l.2343-2369 *) CRow "line_get_node_vel" KLine [FI] true "MoorDyn_GetLineNodeVel" (RVec 3);
  (** l.2375-2401 *) CRow "line_get_node_force" KLine [FI] true "MoorDyn_GetLineNodeForce" (RVec 3);
  (** l.2407-2433 *) CRow "line_get_node_ten" KLine [FI] true "MoorDyn_GetLineNodeTen" (RVec 3);
  (** l.2439-2465 *) CRow "line_get_node_bend" KLine [FI] true "MoorDyn_GetLineNodeBendStiff" (RVec 3);
  (** l.2471-2497 *) CRow "line_get_node_w" KLine [FI] true "MoorDyn_GetLineNodeWeight" (RVec 3);
  (** l.2503-2529 *) CRow "line_get_node_drag" KLine [FI] true "MoorDyn_GetLineNodeDrag" (RVec 3);
  (** l.2535-2561 *) CRow "line_get_node_froudekrylov" KLine [FI] true "MoorDyn_GetLineNodeFroudeKrilov" (RVec 3);
  (** l.2567-2593 *) CRow "line_get_node_seabed" KLine [FI] true "MoorDyn_GetLineNodeSeabedForce" (RVec 3);
  (** l.2599-2621 *) CRow "line_get_node_curv" KLine [FI] true "MoorDyn_GetLineNodeCurv" RFlt;
  (** l.2627-2658 *) CRow "line_get_node_m" KLine [FI] true "MoorDyn_GetLineNodeM" (RMat 3 3);
  (** l.2665-2686 *) CRow "line_get_fairlead_tension" KLine [] false "MoorDyn_GetLineFairTen" RFlt;
  (** l.2692-2713 *) CRow "line_get_max_tension" KLine [] false "MoorDyn_GetLineMaxTen" RFlt;
  (** l.2719-2734 *) CRow "line_save_vtk" KLine [FS] false "MoorDyn_SaveLineVTK" RCode
].

(** an argument in a call of moordyn.py: an argument of the function, list(argument), a number, or a name that is
    not defined anywhere *)
Inductive pyexpr := EArg (n : nat) | EList (n : nat) | EInt (z : Z) | EFree.
(** what moordyn.py does with the result: it returns it, returns whether it is not 0, returns None, returns None if
    RuntimeError is raised, groups it by three, makes a tuple of its first four entries *)
Inductive pypost := PId | PNonzero | PDiscard | PCatch | PGroup | PFour.
(** a function of moordyn.py: how many arguments, the values of those that may be left out, the function of the
    module it calls and with which arguments *)
Record yrow (F : Type) := YRow { y_name : string; y_params : nat; y_defaults : list (pyv F); y_target : string;
  y_args : list pyexpr; y_post : pypost }.
Arguments YRow {F} _ _ _ _ _ _. Arguments y_name {F} _. Arguments y_params {F} _. Arguments y_defaults {F} _.
Arguments y_target {F} _. Arguments y_args {F} _. Arguments y_post {F} _.
(** moordyn.py, the functions at the lines given *)
Definition ytable {F : Type} : list (yrow F) := [
  (** l.65-76 *) YRow "Create" 1 [PStr ""] "create" [EArg 0] PId;
  (** l.79-89 *) YRow "NCoupledDOF" 1 [] "n_coupled_dof" [EArg 0] PId;
  (** l.92-108 *) YRow "SetVerbosity" 2 [] "set_verbosity" [EArg 0; EArg 1] PId;
  (** l.111-122 *) YRow "SetLogFile" 2 [] "set_logfile" [EArg 0; EArg 1] PId;
  (** l.125-141 *) YRow "SetLogLevel" 2 [] "set_loglevel" [EArg 0; EArg 1] PId;
  (** l.177-192 *) YRow "Init" 3 [] "init" [EArg 0; EList 1; EList 2; EInt 0] PId;
  (** l.195-211 *) YRow "Init_NoIC" 3 [] "init" [EArg 0; EList 1; EList 2; EInt 1] PId;
  (** l.214-228 *) YRow "Step" 5 [] "step" [EArg 0; EList 1; EList 2; EArg 3; EArg 4] PId;
  (** l.231-241 *) YRow "Close" 1 [] "close" [EArg 0] PId;
  (** l.244-257 *) YRow "GetWaves" 1 [] "get_waves" [EArg 0] PId;
  (** l.260-275 *) YRow "GetSeafloor" 1 [] "get_seafloor" [EArg 0] PCatch;
  (** l.278-291 *) YRow "ExternalWaveKinInit" 1 [] "ext_wave_init" [EArg 0] PId;
  (** l.294-306 *) YRow "ExternalWaveKinGetN" 1 [] "ext_wave_init" [EArg 0] PId;
  (** l.309-328 *) YRow "GetWaveKinCoordinates" 1 [] "ext_wave_coords" [EArg 0] PGroup;
  (** l.358-370 *) YRow "GetNumberBodies" 1 [] "get_number_bodies" [EArg 0] PId;
  (** l.373-386 *) YRow "GetBody" 2 [] "get_body" [EArg 0; EArg 1] PId;
  (** l.389-401 *) YRow "GetNumberRods" 1 [] "get_number_rods" [EArg 0] PId;
  (** l.404-417 *) YRow "GetRod" 2 [] "get_rod" [EArg 0; EArg 1] PId;
  (** l.420-432 *) YRow "GetNumberPoints" 1 [] "get_number_points" [EArg 0] PId;
  (** l.435-448 *) YRow "GetPoint" 2 [] "get_point" [EArg 0; EArg 1] PId;
  (** l.451-463 *) YRow "GetNumberLines" 1 [] "get_number_lines" [EArg 0] PId;
  (** l.466-479 *) YRow "GetLine" 2 [] "get_line" [EArg 0; EArg 1] PId;
  (** l.482-498 *) YRow "GetFASTtens" 2 [] "get_fast_tens" [EArg 0; EArg 1] PFour;
  (** l.501-512 *) YRow "Serialize" 1 [] "serialize" [EArg 0] PId;
  (** l.515-526 *) YRow "Deserialize" 2 [] "deserialize" [EArg 0; EArg 1] PDiscard;
  (** l.529-541 *) YRow "Save" 2 [] "save" [EArg 0; EArg 1] PDiscard;
  (** l.544-558 *) YRow "Load" 2 [] "load" [EArg 0; EArg 1] PDiscard;
  (** l.561-572 *) YRow "SaveVTK" 2 [] "save_vtk" [EArg 0; EArg 1] PId;
  (** l.579-597 *) YRow "GetWavesKin" 6 [PNone] "waves_getkin" [EArg 0; EArg 1; EArg 2; EArg 3; EArg 4; EArg 5] PId;
  (** l.604-616 *) YRow "GetDepthAt" 3 [] "seafloor_getdepth" [EArg 0; EArg 1; EArg 2] PId;
  (** l.619-634 *) YRow "GetAverageDepth" 1 [] "seafloor_getavgdepth" [EArg 0] PId;
  (** l.637-647 *) YRow "GetMinDepth" 1 [] "seafloor_getmindepth" [EArg 0] PId;
  (** l.653-663 *) YRow "GetBodyID" 1 [] "body_get_id" [EArg 0] PId;
  (** l.666-676 *) YRow "GetBodyType" 1 [] "body_get_type" [EArg 0] PId;
  (** l.679-690 *) YRow "GetBodyState" 1 [] "body_get_state" [EArg 0] PId;
  (** l.693-703 *) YRow "GetBodyPos" 1 [] "body_get_pos" [EArg 0] PId;
  (** l.706-716 *) YRow "GetBodyAngle" 1 [] "body_get_angle" [EArg 0] PId;
  (** l.719-729 *) YRow "GetBodyVel" 1 [] "body_get_vel" [EArg 0] PId;
  (** l.732-742 *) YRow "GetBodyAngVel" 1 [] "body_get_angvel" [EArg 0] PId;
  (** l.745-755 *) YRow "GetBodyForce" 1 [] "body_get_force" [EArg 0] PId;
  (** l.758-768 *) YRow "GetBodyM" 1 [] "body_get_m" [EArg 0] PId;
  (** l.771-782 *) YRow "SaveBodyVTK" 2 [] "body_save_vtk" [EArg 0; EArg 1] PId;
  (** l.785-796 *) YRow "UseBodyVTK" 2 [] "use_save_vtk" [EArg 0; EArg 1] PId;
  (** l.802-812 *) YRow "GetRodID" 1 [] "rod_get_id" [EArg 0] PId;
  (** l.815-825 *) YRow "GetRodType" 1 [] "rod_get_type" [EArg 0] PId;
  (** l.828-838 *) YRow "GetRodForce" 1 [] "rod_get_force" [EArg 0] PId;
  (** l.841-851 *) YRow "GetRodM" 1 [] "rod_get_m" [EArg 0] PId;
  (** l.854-864 *) YRow "GetRodN" 1 [] "rod_get_n" [EArg 0] PId;
  (** l.867-878 *) YRow "GetRodNodePos" 2 [] "rod_get_node_pos" [EArg 0; EArg 1] PId;
  (** l.881-892 *) YRow "GetRodNodeVel" 2 [] "rod_get_node_vel" [EArg 0; EArg 1] PId;
  (** l.895-906 *) YRow "SaveRodVTK" 2 [] "rod_save_vtk" [EArg 0; EArg 1] PId;
  (** l.912-922 *) YRow "GetPointID" 1 [] "point_get_id" [EArg 0] PId;
  (** l.925-935 *) YRow "GetPointType" 1 [] "point_get_type" [EArg 0] PId;
  (** l.938-948 *) YRow "GetPointPos" 1 [] "point_get_pos" [EArg 0] PId;
  (** l.951-961 *) YRow "GetPointVel" 1 [] "point_get_vel" [EArg 0] PId;
  (** l.964-974 *) YRow "GetPointForce" 1 [] "point_get_force" [EArg 0] PId;
  (** l.977-987 *) YRow "GetPointM" 1 [] "point_get_m" [EArg 0] PId;
  (** l.990-1000 *) YRow "GetPointNAttached" 1 [] "point_get_nattached" [EArg 0] PId;
  (** l.1003-1015 *) YRow "GetPointAttached" 2 [] "point_get_attached" [EArg 0; EArg 1] PId;
  (** l.1018-1029 *) YRow "SavePointVTK" 2 [] "point_save_vtk" [EArg 0; EArg 1] PId;
  (** l.1035-1045 *) YRow "GetLineID" 1 [] "line_get_id" [EArg 0] PId;
  (** l.1048-1058 *) YRow "GetLineN" 1 [] "line_get_n" [EArg 0] PId;
  (** l.1061-1071 *) YRow "GetLineUnstretchedLength" 1 [] "line_get_ulen" [EArg 0] PId;
  (** l.1074-1082 *) YRow "SetLineUnstretchedLength" 2 [] "line_set_ulen" [EArg 0; EArg 1] PId;
  (** l.1085-1093 *) YRow "SetLineUnstretchedLengthVel" 2 [] "line_set_ulenv" [EArg 0; EArg 1] PId;
  (** l.1096-1108 *) YRow "IsLineConstantEA" 1 [] "line_is_const_ea" [EArg 0] PNonzero;
  (** l.1111-1123 *) YRow "GetLineConstantEA" 1 [] "line_get_const_ea" [EArg 0] PId;
  (** l.1126-1136 *) YRow "SetLineConstantEA" 2 [] "line_set_const_ea" [EArg 0; EArg 1] PId;
  (** l.1139-1149 *) YRow "IsLinePressBend" 1 [] "line_is_pbend" [EFree] PId;
  (** l.1152-1163 *) YRow "SetLinePressBend" 2 [] "line_set_pbend" [EArg 0; EArg 1] PId;
  (** l.1166-1174 *) YRow "SetLinePressInt" 2 [] "line_set_pint" [EArg 0; EList 1] PId;
  (** l.1177-1188 *) YRow "GetLineNodePos" 2 [] "line_get_node_pos" [EArg 0; EArg 1] PId;
  (** l.1191-1202 *) YRow "GetLineNodeVel" 2 [] "line_get_node_vel" [EArg 0; EArg 1] PId;
  (** l.1205-1226 *) YRow "GetLineNodeForce" 2 [] "line_get_node_force" [EArg 0; EArg 1] PId;
  (** l.1229-1242 *) YRow "GetLineNodeTen" 2 [] "line_get_node_ten" [EArg 0; EArg 1] PId;
  (** l.1245-1256 *) YRow "GetLineNodeBendStiff" 2 [] "line_get_node_bend" [EArg 0; EArg 1] PId;
  (** l.1259-1270 *) YRow "GetLineNodeWeight" 2 [] "line_get_node_w" [EArg 0; EArg 1] PId;
  (** l.1273-1284 *) YRow "GetLineNodeDrag" 2 [] "line_get_node_drag" [EArg 0; EArg 1] PId;
  (** l.1287-1298 *) YRow "GetLineNodeFroudeKrilov" 2 [] "line_get_node_froudekrylov" [EArg 0; EArg 1] PId;
  (** l.1301-1312 *) YRow "GetLineNodeSeabedForce" 2 [] "line_get_node_froudekrylov" [EArg 0; EArg 1] PId;
  (** l.1315-1326 *) YRow "GetLineNodeCurv" 2 [] "line_get_node_curv" [EArg 0; EArg 1] PId;
  (** l.1329-1340 *) YRow "GetLineNodeM" 2 [] "line_get_node_m" [EArg 0; EArg 1] PId;
  (** l.1343-1353 *) YRow "GetLineFairTen" 1 [] "line_get_fairlead_tension" [EArg 0] PId;
  (** l.1356-1366 *) YRow "GetLineMaxTen" 1 [] "line_get_max_tension" [EArg 0] PId;
  (** l.1369-1380 *) YRow "SaveLineVTK" 2 [] "line_save_vtk" [EArg 0; EArg 1] PId
].

Section PyL.
Context {S F : Type}.
Variable L : lib S F.
Variable mok : nat -> nat -> bool.
(** what an int of the stack holds before line_set_pbend writes one byte of it *)
Variable junk : Z.
(** the place of the call, as Log writes it: file, line and function of the caller (moordyn.py l.170-173) *)
Variable place : string.
Notation W := (world S F).
Notation Mu := (@M S F unit).
Notation "a <- m ;; f" := (bnd m (fun a => f)) (at level 61, m at next level, right associativity).
Notation "m ;; f" := (bnd m (fun _ => f)) (at level 61, right associativity).

(** point_get_attached, cmoordyn.cpp l.1933-1959; the two integers written by the library, the line and its end (0 or
    1), are put together in [c_int]: twice the line plus the end *)
Definition f_point_attached (args : list (pyv F)) : Mu :=
  a <- parse_tuple L [FO; FI] [] args ;;
  c <- need (s_obj a 0) ;; n <- need (s_int a 1) ;;
  h <- pointer KPoint (snd c) ;;
  r <- ccall L "MoorDyn_GetPointAttached" (fst h) (snd h) [CInt (n mod 2 ^ 32)] ;;
  check_err (c_err r) ;;
  o <- newobj (PTup [PCap KLine (fst h) (Z.to_nat (c_int r / 2)); PInt (c_int r mod 2)]) ;;
  leave (Some o).

(** getattr(cmoordyn, name): the table of methods, l.2739-2996 *)
Definition method (name : string) : option (list (pyv F) -> Mu) :=
  match find (fun r => String.eqb (c_name r) name) ctable with
  | Some r => Some (f_simple L (c_kind r) (c_fmt r) (c_uns r) (c_fun r) (c_shape r))
  | None =>
      if String.eqb name "create" then Some (f_create L) else
      if String.eqb name "init" then Some (f_init L mok) else
      if String.eqb name "step" then Some (f_step L mok) else
      if String.eqb name "close" then Some (f_close L) else
      if String.eqb name "ext_wave_coords" then Some (f_ext_wave_coords L mok) else
      if String.eqb name "ext_wave_set" then Some (f_ext_wave_set L mok) else
      if String.eqb name "get_fast_tens" then Some (f_get_fast_tens L mok) else
      if String.eqb name "serialize" then Some (f_serialize L mok) else
      if String.eqb name "deserialize" then Some (f_deserialize L) else
      if String.eqb name "waves_getkin" then Some (f_waves_getkin L) else
      if String.eqb name "line_set_pbend" then Some (f_line_set_pbend L junk) else
      if String.eqb name "line_set_pint" then Some (f_line_set_pint L mok) else
      if String.eqb name "point_get_attached" then Some f_point_attached else None
  end.

(** list(x) *)
Definition py_list (v : pyv F) : pyv F + pyx :=
  match v with
  | PLst l | PTup l => inl (PLst l)
  | PItr l r => if r then inr XUser else inl (PLst l)
  | PStr s => inl (PLst (map (fun c => PStr (String c EmptyString)) (list_ascii_of_string s)))
  | PByt l => inl (PLst (map PInt l))
  | _ => inr XType
  end.
Definition py_expr (a : list (pyv F)) (e : pyexpr) : pyv F + pyx :=
  match e with
  | EArg n => inl (nth n a PNone)
  | EList n => py_list (nth n a PNone)
  | EInt z => inl (PInt z)
  | EFree => inr XName
  end.
(** the arguments of a call, from left to right *)
Fixpoint py_exprs (a : list (pyv F)) (l : list pyexpr) : list (pyv F) + pyx :=
  match l with
  | nil => inl nil
  | e :: l => match py_expr a e with
              | inr x => inr x
              | inl v => match py_exprs a l with inr x => inr x | inl vs => inl (v :: vs) end
              end
  end.
(** positional arguments bound to the parameters of a function *)
Definition py_bind (params : nat) (defaults args : list (pyv F)) : option (list (pyv F)) :=
  if Nat.ltb params (length args) || Nat.ltb (length args + length defaults) params then None
  else Some (args ++ skipn (length args + length defaults - params) defaults)%list.
(** GetWaveKinCoordinates, l.322-328 *)
Fixpoint group3 (l : list (pyv F)) : list (pyv F) :=
  match l with a :: b :: c :: l => PLst [a; b; c] :: group3 l | _ => nil end.
Definition py_post (p : pypost) (r : @pyres F) : @pyres F :=
  match r with
  | PyVal v =>
      match p with
      | PId | PCatch => PyVal v
      | PNonzero => PyVal (PBool (match v with PInt z => negb (z =? 0) | _ => true end))
      | PDiscard => PyVal PNone
      | PGroup => match v with PTup l => PyVal (PLst (group3 l)) | _ => PyExc XType end
      | PFour => match v with PTup (a :: b :: c :: d :: _) => PyVal (PTup [a; b; c; d]) | _ => PyExc XType end
      end
  | PyExc e => match p, e with PCatch, XRuntime => PyVal PNone | _, _ => PyExc e end
  | PyCrash => PyCrash
  end.
(** the call of a function of the module: the attribute is looked up first, then the arguments are evaluated *)
Definition py_module (target : string) (args : list (pyv F) + pyx) (post : pypost) (w : W) : @pyres F * option W :=
  match method target with
  | None => (PyExc XAttribute, Some w)
  | Some f => match args with
              | inr e => (PyExc e, Some w)
              | inl l => let r := pycall f l w in (py_post post (fst r), snd r)
              end
  end.

(** len(v) *)
Definition py_len (v : pyv F) : option nat :=
  match v with
  | PLst l | PTup l => Some (length l)
  | PStr s => Some (String.length s)
  | PByt l => Some (length l)
  | _ => None
  end.
(** the entries of a value with a length: v[0], v[1], ... *)
Definition py_entries (v : pyv F) : list (pyv F) :=
  match v with
  | PLst l | PTup l => l
  | PStr s => map (fun c => PStr (String c EmptyString)) (list_ascii_of_string s)
  | PByt l => map PInt l
  | _ => nil
  end.
(** SetWaveKin, l.350-354: the loop; assert raises AssertionError, unless Python runs with -O *)
Fixpoint flatten3 (u a uu aa : list (pyv F)) : (list (pyv F) * list (pyv F)) + pyx :=
  match u, a with
  | x :: u, y :: a =>
      match py_len x with
      | None => inr XType
      | Some n => if negb (Nat.eqb n 3) then inr XAssertion else
          match py_len y with
          | None => inr XType
          | Some m => if negb (Nat.eqb m 3) then inr XAssertion else flatten3 u a (uu ++ py_entries x)%list (aa ++ py_entries y)%list
          end
      end
  | _, _ => inl (uu, aa)
  end.
(** SetWaveKin, l.331-355 *)
Definition set_wave_kin (args : list (pyv F)) (w : W) : @pyres F * option W :=
  match args with
  | [inst; u; a; t] =>
      match py_len u, py_len a with
      | Some n, Some m => if negb (Nat.eqb n m) then (PyExc XAssertion, Some w) else
          match flatten3 (py_entries u) (py_entries a) [] [] with
          | inr e => (PyExc e, Some w)
          | inl (uu, aa) => py_module "ext_wave_set" (inl [inst; PLst uu; PLst aa; t]) PId w
          end
      | _, _ => (PyExc XType, Some w)
      end
  | _ => (PyExc XType, Some w)
  end.
(** Log, l.144-174; a level that is not an int makes the call fail with TypeError sooner or later *)
Definition log_ (args : list (pyv F)) (w : W) : @pyres F * option W :=
  match args with
  | [inst; PInt level; PStr msg] =>
      let head := if 3 <=? level then "ERR " else if level =? 2 then "WRN " else if level =? 1 then "MSG " else "DBG " in
      py_module "log" (inl [inst; PInt level; PStr (head ++ place ++ msg)]) PId w
  | _ => (PyExc XType, Some w)
  end.
(** moordyn.name(args...) *)
Definition pyfun (name : string) (args : list (pyv F)) (w : W) : @pyres F * option W :=
  match find (fun r => String.eqb (y_name r) name) ytable with
  | Some r =>
      match py_bind (y_params r) (y_defaults r) args with
      | None => (PyExc XType, Some w)
      | Some a => py_module (y_target r) (py_exprs a (y_args r)) (y_post r) w
      end
  | None =>
      if String.eqb name "SetWaveKin" then set_wave_kin args w else
      if String.eqb name "Log" then log_ args w else (PyExc XAttribute, Some w)
  end.
End PyL.
