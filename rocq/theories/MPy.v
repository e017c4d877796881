(** The Python extension module: wrappers/python/cmoordyn.cpp.
    What is modelled: parsing of the arguments (PyArg_ParseTuple), capsules and the pointers they hold, the
    references the wrapper takes and gives back, the memory it allocates and releases, the exception it
    sets, the calls into the library and the object it returns.
    Simplifications: a floating point number is an element of any type [F]; the library is given by functions
    (oracles) that return the error code, the numbers written and the new state of the system; Python objects
    can always be created (PyTuple_New, PyFloat_FromDouble, PyLong_FromLong, PyBytes_FromStringAndSize and
    PyCapsule_New do not fail), while malloc may fail; the items of a sequence do not change the sequence
    while they are converted to floats; strings hold no null character; objects with __index__ or __float__
    methods are not accepted as numbers; unsigned int does not overflow. *)
From Coq Require Import String ZArith List Arith Bool.
Import ListNotations.
Open Scope Z_scope.

(** the names of the capsules, cmoordyn.cpp l.36-42 *)
Inductive kind := KSystem | KWaves | KSeafloor | KBody | KRod | KPoint | KLine.
Definition kind_eqb (a b : kind) : bool :=
  match a, b with
  | KSystem, KSystem | KWaves, KWaves | KSeafloor, KSeafloor | KBody, KBody | KRod, KRod | KPoint, KPoint
  | KLine, KLine => true
  | _, _ => false
  end.

(** A Python value. A capsule holds a pointer into the system [h] (the object number [i] of its kind); an
    iterator yields its items and may raise an exception on the way. *)
Inductive pyv (F : Type) :=
| PNone
| PBool (b : bool)
| PInt (z : Z)
| PFlt (f : F)
| PStr (s : string)
| PByt (l : list Z)
| PCap (k : kind) (h i : nat)
| PLst (l : list (pyv F))
| PTup (l : list (pyv F))
| PItr (l : list (pyv F)) (raises : bool)
| POpq.
Arguments PNone {F}. Arguments PBool {F} _. Arguments PInt {F} _. Arguments PFlt {F} _. Arguments PStr {F} _.
Arguments PByt {F} _. Arguments PCap {F} _ _ _. Arguments PLst {F} _. Arguments PTup {F} _.
Arguments PItr {F} _ _. Arguments POpq {F}.

(** the exceptions that are raised *)
Inductive pyx := XType | XValue | XOverflow | XMemory | XRuntime | XSystem | XUser | XName | XAttribute | XAssertion.

(** the identity of a Python object: None, an argument of the call, an object made during a call *)
Inductive obj := ONone | OArg (i : nat) | ONew (n : nat).
Definition obj_eqb (a b : obj) : bool :=
  match a, b with
  | ONone, ONone => true
  | OArg i, OArg j => Nat.eqb i j
  | ONew i, ONew j => Nat.eqb i j
  | _, _ => false
  end.

(** an argument of a C function of the library *)
Inductive carg (F : Type) := CInt (z : Z) | CDbl (f : F) | CStr (s : string) | CArr (l : list F) | CPtr (p : option nat).
Arguments CInt {F} _. Arguments CDbl {F} _. Arguments CStr {F} _. Arguments CArr {F} _. Arguments CPtr {F} _.

(** What a C function does: its error code, the integer and the numbers it writes, the state it leaves. *)
Record creply (S F : Type) := CReply { c_err : Z; c_int : Z; c_out : nat -> F; c_sys : S }.
Arguments CReply {S F} _ _ _ _. Arguments c_err {S F} _. Arguments c_int {S F} _. Arguments c_out {S F} _.
Arguments c_sys {S F} _.

(** The library (source/MoorDyn2.cpp l.2342-2790 and the C functions of Waves.cpp, Seafloor.cpp, Body.cpp,
    Rod.cpp, Point.cpp and Line.cpp): *)
Record lib (S F : Type) := Lib {
  (** MoorDyn_Create *)
  l_create : option string -> option S;
  (** MoorDyn_NCoupledDOF, MoorDyn_ExternalWaveKinGetN, MoorDyn_GetLineN, number of lines *)
  l_ndof : S -> nat; l_wn : S -> nat; l_lineN : S -> nat -> nat; l_nlines : S -> nat;
  (** MoorDyn_Serialize (code and bytes), MoorDyn_Deserialize ([None]: it reads behind the bytes given) *)
  l_ser : S -> Z * list Z; l_deser : S -> list Z -> option (Z * S);
  (** MoorDyn_GetWaves, GetSeafloor, GetBody, ...: is there such an object? *)
  l_obj : S -> kind -> Z -> option nat;
  (** any other function, by name, on the system or its object number [i] *)
  l_call : string -> S -> nat -> list (carg F) -> creply S F;
  (** conversions of the interpreter: an int to a double, PyNumber_Float on any value *)
  l_ofZ : Z -> F; l_tofloat : pyv F -> option F }.
Arguments l_create {S F} _ _. Arguments l_ndof {S F} _ _. Arguments l_wn {S F} _ _. Arguments l_lineN {S F} _ _ _.
Arguments l_nlines {S F} _ _. Arguments l_ser {S F} _ _. Arguments l_deser {S F} _ _ _. Arguments l_obj {S F} _ _ _ _.
Arguments l_call {S F} _ _ _ _ _. Arguments l_ofZ {S F} _ _. Arguments l_tofloat {S F} _ _.

(** The state of the process: the references the wrapper holds, those it gave away without holding them,
    the blocks it has allocated (a cell that was never written is [None]), the next fresh name, the
    exception that is set, the objects made, the systems alive. *)
Record world (S F : Type) := World { w_refs : list obj; w_stolen : list obj; w_blocks : list (nat * list (option F));
  w_next : nat; w_exc : option pyx; w_objs : list (nat * pyv F); w_sys : nat -> option S }.
Arguments World {S F} _ _ _ _ _ _ _. Arguments w_refs {S F} _. Arguments w_stolen {S F} _. Arguments w_blocks {S F} _.
Arguments w_next {S F} _. Arguments w_exc {S F} _. Arguments w_objs {S F} _. Arguments w_sys {S F} _ _.

(** the result of a piece of C code: it goes on with a value, it has returned an object or NULL, or its
    behaviour is undefined *)
Inductive res (S F A : Type) := Val (a : A) (w : world S F) | Ret (o : option obj) (w : world S F) | Und.
Arguments Val {S F A} _ _. Arguments Ret {S F A} _ _. Arguments Und {S F A}.

Section Py.
Context {S F : Type}.
Variable L : lib S F.
(** malloc: does the request number [n] for [k] cells succeed? *)
Variable mok : nat -> nat -> bool.

Definition M (A : Type) := world S F -> res S F A.
(** sequencing *)
Definition ret {A} (a : A) : M A := fun w => Val a w.
Definition bnd {A B} (m : M A) (f : A -> M B) : M B :=
  fun w => match m w with Val a w' => f a w' | Ret o w' => Ret o w' | Und => Und end.
Notation "x <- e ;; k" := (bnd e (fun x => k)) (at level 61, e at next level, right associativity).
Notation "e ;; k" := (bnd e (fun _ => k)) (at level 61, right associativity).
(** return statement *)
Definition leave {A} (o : option obj) : M A := fun w => Ret o w.
Definition und {A} : M A := fun _ => Und.
(** PyErr_SetString *)
Definition raise (e : pyx) : M unit :=
  fun w => Val tt (World (w_refs w) (w_stolen w) (w_blocks w) (w_next w) (Some e) (w_objs w) (w_sys w)).

(* --------------------------- references and memory --------------------------- *)
(** Py_INCREF *)
Definition incref (o : obj) : M unit :=
  fun w => Val tt (World (o :: w_refs w) (w_stolen w) (w_blocks w) (w_next w) (w_exc w) (w_objs w) (w_sys w)).
Fixpoint drop (o : obj) (l : list obj) : option (list obj) :=
  match l with
  | nil => None
  | a :: l => if obj_eqb a o then Some l else match drop o l with Some l' => Some (a :: l') | None => None end
  end.
(** Py_DECREF; of a reference that is not held: undefined *)
Definition decref (o : obj) : M unit :=
  fun w => match drop o (w_refs w) with
           | Some r => Val tt (World r (w_stolen w) (w_blocks w) (w_next w) (w_exc w) (w_objs w) (w_sys w))
           | None => Und
           end.
(** a new object, with the reference its creator holds *)
Definition newobj (v : pyv F) : M obj :=
  fun w => let n := w_next w in
    Val (ONew n) (World (ONew n :: w_refs w) (w_stolen w) (w_blocks w) (Datatypes.S n) (w_exc w) ((n, v) :: w_objs w) (w_sys w)).
(** malloc of [k] numbers *)
Definition malloc (k : nat) : M (option nat) :=
  fun w => let n := w_next w in
    if mok n k then Val (Some n) (World (w_refs w) (w_stolen w) ((n, repeat None k) :: w_blocks w) (Datatypes.S n) (w_exc w) (w_objs w) (w_sys w))
    else Val None (World (w_refs w) (w_stolen w) (w_blocks w) (Datatypes.S n) (w_exc w) (w_objs w) (w_sys w)).
Fixpoint bget (p : nat) (l : list (nat * list (option F))) : option (list (option F)) :=
  match l with nil => None | (q, c) :: l => if Nat.eqb q p then Some c else bget p l end.
Fixpoint bset (p : nat) (c' : list (option F)) (l : list (nat * list (option F))) : list (nat * list (option F)) :=
  match l with nil => nil | (q, c) :: l => if Nat.eqb q p then (q, c') :: l else (q, c) :: bset p c' l end.
Fixpoint bdel (p : nat) (l : list (nat * list (option F))) : list (nat * list (option F)) :=
  match l with nil => nil | (q, c) :: l => if Nat.eqb q p then l else (q, c) :: bdel p l end.
Definition set_blocks (b : list (nat * list (option F))) (w : world S F) : world S F :=
  World (w_refs w) (w_stolen w) b (w_next w) (w_exc w) (w_objs w) (w_sys w).
(** free; of a block that is not alive: undefined *)
Definition free (p : nat) : M unit :=
  fun w => match bget p (w_blocks w) with
           | Some _ => Val tt (set_blocks (bdel p (w_blocks w)) w)
           | None => Und
           end.
(** arr[i] = f *)
Fixpoint put_cell (i : nat) (f : F) (c : list (option F)) : option (list (option F)) :=
  match c, i with
  | nil, _ => None
  | _ :: c, O => Some (Some f :: c)
  | a :: c, Datatypes.S i => match put_cell i f c with Some c' => Some (a :: c') | None => None end
  end.
Definition store (p i : nat) (f : F) : M unit :=
  fun w => match bget p (w_blocks w) with
           | Some c => match put_cell i f c with
                       | Some c' => Val tt (set_blocks (bset p c' (w_blocks w)) w)
                       | None => Und
                       end
           | None => Und
           end.
(** the first [n] cells, all of them written before *)
Fixpoint cells (n : nat) (c : list (option F)) : option (list F) :=
  match n, c with
  | O, _ => Some nil
  | Datatypes.S n, Some f :: c => match cells n c with Some l => Some (f :: l) | None => None end
  | Datatypes.S _, _ => None
  end.
Definition fetch (p n : nat) : M (list F) :=
  fun w => match bget p (w_blocks w) with
           | Some c => match cells n c with Some l => Val l w | None => Und end
           | None => Und
           end.
(** the library writes [n] cells *)
Fixpoint put_all (n : nat) (f : nat -> F) (c : list (option F)) : option (list (option F)) :=
  match n, c with
  | O, c => Some c
  | Datatypes.S n, _ :: c => match put_all n (fun i => f (Datatypes.S i)) c with Some c' => Some (Some (f O) :: c') | None => None end
  | Datatypes.S _, nil => None
  end.
Definition fill (p n : nat) (f : nat -> F) : M unit :=
  fun w => match bget p (w_blocks w) with
           | Some c => match put_all n f c with
                       | Some c' => Val tt (set_blocks (bset p c' (w_blocks w)) w)
                       | None => Und
                       end
           | None => Und
           end.

(* -------------------------------- arguments -------------------------------- *)
Inductive funit := FO | FI | FB | FD | FS.
Inductive slot := VO (o : obj) (v : pyv F) | VI (z : Z) | VB (z : Z) | VD (f : F) | VS (s : string).
Definition int_min : Z := - 2 ^ 31.
Definition int_max : Z := 2 ^ 31 - 1.
(** one unit of a format of PyArg_ParseTuple: any object, int, unsigned char, double, string *)
Definition parse1 (u : funit) (i : nat) (a : pyv F) : slot + pyx :=
  match u with
  | FO => inl (VO (OArg i) a)
  | FI => match a with
          | PInt z => if (int_min <=? z) && (z <=? int_max) then inl (VI z) else inr XOverflow
          | PBool b => inl (VI (if b then 1 else 0))
          | _ => inr XType
          end
  | FB => match a with
          | PInt z => if (0 <=? z) && (z <=? 255) then inl (VB z) else inr XOverflow
          | PBool b => inl (VB (if b then 1 else 0))
          | _ => inr XType
          end
  | FD => match a with
          | PFlt f => inl (VD f)
          | PInt z => inl (VD (l_ofZ L z))
          | PBool b => inl (VD (l_ofZ L (if b then 1 else 0)))
          | _ => inr XType
          end
  | FS => match a with PStr s => inl (VS s) | _ => inr XType end
  end.
Fixpoint parse_all (fmt : list funit) (i : nat) (args : list (pyv F)) : list slot + pyx :=
  match args, fmt with
  | nil, _ => inl nil
  | _ :: _, nil => inr XType
  | a :: args, u :: fmt =>
      match parse1 u i a with
      | inr e => inr e
      | inl s => match parse_all fmt (Datatypes.S i) args with inr e => inr e | inl l => inl (s :: l) end
      end
  end.
(** PyArg_ParseTuple(args, "req|opt", ...): the variables of missing optional arguments are not written *)
Definition parse (req opt : list funit) (args : list (pyv F)) : list slot + pyx :=
  if Nat.ltb (length args) (length req) || Nat.ltb (length req + length opt) (length args) then inr XType
  else parse_all (req ++ opt) 0 args.
(** if (!PyArg_ParseTuple(...)) return NULL; *)
Definition parse_tuple (req opt : list funit) (args : list (pyv F)) : M (list slot) :=
  match parse req opt args with
  | inl l => ret l
  | inr e => raise e ;; leave None
  end.
(** the variables the slots are written to *)
Definition s_obj (l : list slot) (k : nat) : option (obj * pyv F) := match nth_error l k with Some (VO o v) => Some (o, v) | _ => None end.
Definition s_int (l : list slot) (k : nat) : option Z := match nth_error l k with Some (VI z) => Some z | _ => None end.
Definition s_dbl (l : list slot) (k : nat) : option F := match nth_error l k with Some (VD f) => Some f | _ => None end.
Definition s_str (l : list slot) (k : nat) : option string := match nth_error l k with Some (VS s) => Some s | _ => None end.
Definition s_byte (l : list slot) (k : nat) : option Z := match nth_error l k with Some (VB z) => Some z | _ => None end.
(** reading a variable that was never written is undefined *)
Definition need {A} (o : option A) : M A := match o with Some a => ret a | None => und end.

(** PyCapsule_GetPointer(capsule, name) and the test of its result; a capsule holds no null pointer *)
Definition pointer (k : kind) (v : pyv F) : M (nat * nat) :=
  match v with
  | PCap k' h i => if kind_eqb k k' then ret (h, i) else raise XValue ;; leave None
  | _ => raise XValue ;; leave None
  end.
(** the system a pointer leads to; after MoorDyn_Close it leads nowhere *)
Definition live (h : nat) : M S := fun w => match w_sys w h with Some s => Val s w | None => Und end.
Definition keep (h : nat) (s : S) : M unit :=
  fun w => Val tt (World (w_refs w) (w_stolen w) (w_blocks w) (w_next w) (w_exc w) (w_objs w)
                     (fun k => if Nat.eqb k h then Some s else w_sys w k)).
Definition gone (h : nat) : M unit :=
  fun w => Val tt (World (w_refs w) (w_stolen w) (w_blocks w) (w_next w) (w_exc w) (w_objs w)
                     (fun k => if Nat.eqb k h then None else w_sys w k)).
(** a call of a function of the library *)
Definition ccall (f : string) (h i : nat) (args : list (carg F)) : M (creply S F) :=
  s <- live h ;;
  let r := l_call L f s i args in
  keep h (c_sys r) ;; ret r.
(** if (err != 0) { PyErr_SetString(PyExc_RuntimeError, ...); return NULL; } *)
Definition check_err (err : Z) : M unit := if err =? 0 then ret tt else raise XRuntime ;; leave None.

(** PySequence_Fast(o, msg): a list or a tuple itself, with one more reference; the list of what an iterator
    yields; NULL otherwise *)
Definition seq_fast (a : obj * pyv F) : M (option (obj * list (pyv F))) :=
  match snd a with
  | PLst l | PTup l => incref (fst a) ;; ret (Some (fst a, l))
  | PItr l false => o <- newobj (PLst l) ;; ret (Some (o, l))
  | PItr _ true => raise XUser ;; ret None
  | PStr s => o <- newobj (PLst (map (fun c => PStr (String c EmptyString)) (list_ascii_of_string s))) ;;
              ret (Some (o, map (fun c => PStr (String c EmptyString)) (list_ascii_of_string s)))
  | PByt l => o <- newobj (PLst (map PInt l)) ;; ret (Some (o, map PInt l))
  | _ => raise XType ;; ret None
  end.
(** x_lst = PySequence_Fast(...); if (!x_lst) return NULL; if (PySequence_Fast_GET_SIZE(x_lst) != n) {
    PyErr_SetString(PyExc_ValueError, ...); return NULL; }: cmoordyn.cpp l.237-255, 300-318, 553-571 *)
Definition get_seq (a : obj * pyv F) (n : nat) : M (obj * list (pyv F)) :=
  q <- seq_fast a ;;
  match q with
  | None => leave None
  | Some (o, l) => if Nat.eqb (length l) n then ret (o, l) else raise XValue ;; leave None
  end.
(** the loop of py_iterable_to_double, l.58-73 *)
Fixpoint conv_loop (p i : nat) (l : list (pyv F)) : M (option nat) :=
  match l with
  | nil => ret (Some p)
  | a :: l =>
      match l_tofloat L a with
      | None => free p ;; raise XType ;; ret None
      | Some f => store p i f ;; conv_loop p (Datatypes.S i) l
      end
  end.
(** py_iterable_to_double, l.48-76 *)
Definition py_iterable_to_double (l : list (pyv F)) : M (option nat) :=
  m <- malloc (length l) ;;
  match m with
  | None => raise XMemory ;; ret None
  | Some p => conv_loop p 0 l
  end.
(** PyTuple_New(n) and the loop of PyTuple_SET_ITEM over the first [n] numbers of a block *)
Definition tuple_of (p n : nat) : M obj := l <- fetch p n ;; newobj (PTup (map PFlt l)).

(* -------------------------------- functions -------------------------------- *)
(** create, l.84-99 *)
Definition f_create (args : list (pyv F)) : M unit :=
  a <- parse_tuple [] [FS] args ;;
  match l_create L (s_str a 0) with
  | None => raise XRuntime ;; leave None
  | Some s => fun w => (o <- newobj (PCap KSystem (w_next w) 0) ;; keep (w_next w) s ;; leave (Some o)) w
  end.
(** init, l.217-274 *)
Definition f_init (args : list (pyv F)) : M unit :=
  a <- parse_tuple [FO; FO; FO] [FI] args ;;
  c <- need (s_obj a 0) ;; x <- need (s_obj a 1) ;; v <- need (s_obj a 2) ;;
  let skip_ic := match s_int a 3 with Some z => z | None => 0 end in
  h <- pointer KSystem (snd c) ;;
  s <- live (fst h) ;;
  let n_dof := l_ndof L s in
  x <- get_seq x n_dof ;;
  v <- get_seq v n_dof ;;
  x_arr <- py_iterable_to_double (snd x) ;;
  decref (fst x) ;;
  v_arr <- py_iterable_to_double (snd v) ;;
  decref (fst v) ;;
  match x_arr, v_arr with
  | Some px, Some pv =>
      xs <- fetch px n_dof ;; vs <- fetch pv n_dof ;;
      r <- ccall (if skip_ic =? 0 then "MoorDyn_Init" else "MoorDyn_Init_NoIC") (fst h) 0 [CArr xs; CArr vs] ;;
      free px ;; free pv ;;
      o <- newobj (PInt (c_err r)) ;; leave (Some o)
  | _, _ => leave None
  end.
(** step, l.280-351 *)
Definition f_step (args : list (pyv F)) : M unit :=
  a <- parse_tuple [FO; FO; FO; FD; FD] [] args ;;
  c <- need (s_obj a 0) ;; x <- need (s_obj a 1) ;; v <- need (s_obj a 2) ;;
  t <- need (s_dbl a 3) ;; dt <- need (s_dbl a 4) ;;
  h <- pointer KSystem (snd c) ;;
  s <- live (fst h) ;;
  let n_dof := l_ndof L s in
  x <- get_seq x n_dof ;;
  v <- get_seq v n_dof ;;
  x_arr <- py_iterable_to_double (snd x) ;;
  decref (fst x) ;;
  v_arr <- py_iterable_to_double (snd v) ;;
  decref (fst v) ;;
  match x_arr, v_arr with
  | Some px, Some pv =>
      forces <- malloc n_dof ;;
      match forces with
      | None => raise XMemory ;; leave None
      | Some pf =>
          xs <- fetch px n_dof ;; vs <- fetch pv n_dof ;;
          r <- ccall "MoorDyn_Step" (fst h) 0 [CArr xs; CArr vs; CDbl t; CDbl dt] ;;
          (if c_err r =? 0 then fill pf n_dof (c_out r) else ret tt) ;;
          free px ;; free pv ;;
          check_err (c_err r) ;;
          o <- tuple_of pf n_dof ;;
          free pf ;;
          leave (Some o)
      end
  | _, _ => leave None
  end.
(** close, l.357-372: the capsule keeps the pointer *)
Definition f_close (args : list (pyv F)) : M unit :=
  a <- parse_tuple [FO] [] args ;;
  c <- need (s_obj a 0) ;;
  h <- pointer KSystem (snd c) ;;
  s <- live (fst h) ;;
  gone (fst h) ;;
  o <- newobj (PInt 0) ;; leave (Some o).
(** ext_wave_coords, l.483-523 *)
Definition f_ext_wave_coords (args : list (pyv F)) : M unit :=
  a <- parse_tuple [FO] [] args ;;
  c <- need (s_obj a 0) ;;
  h <- pointer KSystem (snd c) ;;
  s <- live (fst h) ;;
  let n := l_wn L s in
  m <- malloc (n * 3) ;;
  match m with
  | None => raise XRuntime ;; leave None
  | Some p =>
      r <- ccall "MoorDyn_ExternalWaveKinGetCoordinates" (fst h) 0 [] ;;
      (if c_err r =? 0 then fill p (n * 3) (c_out r) else ret tt) ;;
      (if c_err r =? 0 then ret tt else free p ;; raise XRuntime ;; leave None) ;;
      o <- tuple_of p (n * 3) ;;
      free p ;;
      leave (Some o)
  end.
(** ext_wave_set, l.529-587 *)
Definition f_ext_wave_set (args : list (pyv F)) : M unit :=
  a <- parse_tuple [FO; FO; FO; FD] [] args ;;
  c <- need (s_obj a 0) ;; v <- need (s_obj a 1) ;; u <- need (s_obj a 2) ;; t <- need (s_dbl a 3) ;;
  h <- pointer KSystem (snd c) ;;
  s <- live (fst h) ;;
  let n := (l_wn L s * 3)%nat in
  v <- get_seq v n ;;
  u <- get_seq u n ;;
  v_arr <- py_iterable_to_double (snd v) ;;
  decref (fst v) ;;
  a_arr <- py_iterable_to_double (snd u) ;;
  decref (fst u) ;;
  match v_arr, a_arr with
  | Some pv, Some pa =>
      vs <- fetch pv n ;; us <- fetch pa n ;;
      r <- ccall "MoorDyn_ExternalWaveKinSet" (fst h) 0 [CArr vs; CArr us; CDbl t] ;;
      free pv ;; free pa ;;
      o <- newobj (PInt (c_err r)) ;; leave (Some o)
  | _, _ => leave None
  end.
(** line_set_pint, l.2259-2305 *)
Definition f_line_set_pint (args : list (pyv F)) : M unit :=
  a <- parse_tuple [FO; FO] [] args ;;
  c <- need (s_obj a 0) ;; p <- need (s_obj a 1) ;;
  h <- pointer KLine (snd c) ;;
  q <- seq_fast p ;;
  match q with
  | None => leave None
  | Some (o, l) =>
      s <- live (fst h) ;;
      let n := (l_lineN L s (snd h) + 1)%nat in
      (if Nat.eqb (length l) n then ret tt else raise XValue ;; leave None) ;;
      pin <- py_iterable_to_double l ;;
      decref o ;;
      match pin with
      | None => leave None
      | Some b =>
          xs <- fetch b n ;;
          r <- ccall "MoorDyn_SetLinePressInt" (fst h) (snd h) [CArr xs] ;;
          free b ;;
          check_err (c_err r) ;;
          leave (Some ONone)
      end
  end.
(** get_fast_tens, l.806-863: malloc of a negative number of cells, converted to size_t, fails *)
Definition f_get_fast_tens (args : list (pyv F)) : M unit :=
  a <- parse_tuple [FO; FI] [] args ;;
  c <- need (s_obj a 0) ;; n <- need (s_int a 1) ;;
  h <- pointer KSystem (snd c) ;;
  let mall := if n <? 0 then ret None else malloc (Z.to_nat n) in
  m1 <- mall ;; m2 <- mall ;; m3 <- mall ;; m4 <- mall ;;
  match m1, m2, m3, m4 with
  | Some p1, Some p2, Some p3, Some p4 =>
      s <- live (fst h) ;;
      let k := Z.to_nat n in
      (** MoorDyn_GetFASTtens, MoorDyn2.cpp l.2617-2628 *)
      (if Nat.ltb (l_nlines L s) k then raise XRuntime ;; leave None else ret tt) ;;
      r1 <- ccall "FairHTen" (fst h) 0 [CInt n] ;; fill p1 k (c_out r1) ;;
      r2 <- ccall "FairVTen" (fst h) 0 [CInt n] ;; fill p2 k (c_out r2) ;;
      r3 <- ccall "AnchHTen" (fst h) 0 [CInt n] ;; fill p3 k (c_out r3) ;;
      r4 <- ccall "AnchVTen" (fst h) 0 [CInt n] ;; fill p4 k (c_out r4) ;;
      l1 <- fetch p1 k ;; l2 <- fetch p2 k ;; l3 <- fetch p3 k ;; l4 <- fetch p4 k ;;
      free p1 ;; free p2 ;; free p3 ;; free p4 ;;
      o <- newobj (PTup [PTup (map PFlt l1); PTup (map PFlt l2); PTup (map PFlt l3); PTup (map PFlt l4)]) ;;
      leave (Some o)
  | _, _, _, _ => raise XMemory ;; leave None
  end.
(** serialize, l.869-906; a block of bytes is modelled by a block without content *)
Definition f_serialize (args : list (pyv F)) : M unit :=
  a <- parse_tuple [FO] [] args ;;
  c <- need (s_obj a 0) ;;
  h <- pointer KSystem (snd c) ;;
  s <- live (fst h) ;;
  check_err (fst (l_ser L s)) ;;
  m <- malloc (length (snd (l_ser L s))) ;;
  match m with
  | None => raise XMemory ;; leave None
  | Some p =>
      check_err (fst (l_ser L s)) ;;
      o <- newobj (PByt (snd (l_ser L s))) ;;
      free p ;;
      leave (Some o)
  end.
(** deserialize, l.912-933: the length of the bytes is not handed over *)
Definition f_deserialize (args : list (pyv F)) : M unit :=
  a <- parse_tuple [FO; FO] [] args ;;
  c <- need (s_obj a 0) ;; b <- need (s_obj a 1) ;;
  h <- pointer KSystem (snd c) ;;
  match snd b with
  | PByt l =>
      s <- live (fst h) ;;
      match l_deser L s l with
      | None => und
      | Some (err, s') => keep (fst h) s' ;; check_err err ;; leave (Some ONone)
      end
  | _ => leave None
  end.
(** waves_getkin, l.1016-1060 *)
Definition f_waves_getkin (args : list (pyv F)) : M unit :=
  a <- parse_tuple [FO; FD; FD; FD] [FO] args ;;
  c <- need (s_obj a 0) ;; x <- need (s_dbl a 1) ;; y <- need (s_dbl a 2) ;; z <- need (s_dbl a 3) ;;
  h <- pointer KWaves (snd c) ;;
  sf <- need (s_obj a 4) ;;
  seabed <- (match snd sf with PNone => ret None | v => q <- pointer KSeafloor v ;; ret (Some (snd q)) end) ;;
  r <- ccall "MoorDyn_GetWavesKin" (fst h) (snd h) [CDbl x; CDbl y; CDbl z; CPtr seabed] ;;
  check_err (c_err r) ;;
  let f i := PFlt (c_out r i) in
  o <- newobj (PTup [PTup [f 0%nat; f 1%nat; f 2%nat]; PTup [f 3%nat; f 4%nat; f 5%nat]; f 6%nat; f 7%nat]) ;;
  leave (Some o).
(** line_set_pbend, l.2232-2253: the format "b" writes one byte of the int [b] (the lowest one: little
    endian), whose other bytes hold whatever was there, [junk] *)
Definition f_line_set_pbend (junk : Z) (args : list (pyv F)) : M unit :=
  a <- parse_tuple [FO; FB] [] args ;;
  c <- need (s_obj a 0) ;; z <- need (s_byte a 1) ;;
  h <- pointer KLine (snd c) ;;
  let b := (junk / 256) * 256 + z in
  r <- ccall "MoorDyn_SetLinePressBend" (fst h) (snd h) [CInt (if b =? 0 then 0 else 1)] ;;
  check_err (c_err r) ;;
  leave (Some ONone).
(* ---------------------------- the simple functions ---------------------------- *)
(** what a function returns: the error code itself, the integer written, one number, a tuple of numbers, a
    tuple of tuples of numbers, None, a bool, or a capsule on an object of the system *)
Inductive shape := RCode | RErr0 | RInt | RFlt | RVec (n : nat) | RMat (n m : nat) | RNone | RBool | RCap (k : kind).
(** the arguments behind the capsule, as handed to the library; an int given to an unsigned parameter is
    taken modulo 2^32 ([unsigned] = true) *)
Definition cargs (unsigned : bool) (l : list slot) : list (carg F) :=
  map (fun s => match s with
                | VI z => CInt (if unsigned then z mod 2 ^ 32 else z)
                | VB z => CInt z
                | VD f => CDbl f
                | VS s => CStr s
                | VO _ _ => CPtr None
                end) l.
(** [rows n m f]: the rows of an n by m array *)
Definition vec (n : nat) (f : nat -> F) : pyv F := PTup (map (fun i => PFlt (f i)) (seq 0 n)).
Definition mat (n m : nat) (f : nat -> F) : pyv F := PTup (map (fun i => vec m (fun j => f (i * m + j)%nat)) (seq 0 n)).
Definition f_simple (k : kind) (fmt : list funit) (uns : bool) (cname : string) (r : shape) (args : list (pyv F)) : M unit :=
  a <- parse_tuple (FO :: fmt) [] args ;;
  c <- need (s_obj a 0) ;;
  h <- pointer k (snd c) ;;
  match r with
  | RCap k' =>
      s <- live (fst h) ;;
      match l_obj L s k' (match s_int a 1 with Some z => z mod 2 ^ 32 | None => 0 end) with
      | None => raise XRuntime ;; leave None
      | Some i => o <- newobj (PCap k' (fst h) i) ;; leave (Some o)
      end
  | _ =>
      q <- ccall cname (fst h) (snd h) (cargs uns (tl a)) ;;
      match r with
      | RCode => o <- newobj (PInt (c_err q)) ;; leave (Some o)
      | _ =>
          check_err (c_err q) ;;
          match r with
          | RErr0 => o <- newobj (PInt (c_err q)) ;; leave (Some o)
          | RInt => o <- newobj (PInt (c_int q)) ;; leave (Some o)
          | RFlt => o <- newobj (PFlt (c_out q 0%nat)) ;; leave (Some o)
          | RVec n => o <- newobj (vec n (c_out q)) ;; leave (Some o)
          | RMat n m => o <- newobj (mat n m (c_out q)) ;; leave (Some o)
          | RBool => o <- newobj (PBool (negb (c_int q =? 0))) ;; leave (Some o)
          | _ => leave (Some ONone)
          end
      end
  end.

(* ---------------------------- the call protocol ---------------------------- *)
(** what the Python program sees of a call *)
Inductive pyres := PyVal (v : pyv F) | PyExc (e : pyx) | PyCrash.
Fixpoint oget (n : nat) (l : list (nat * pyv F)) : pyv F :=
  match l with nil => POpq | (k, v) :: l => if Nat.eqb k n then v else oget n l end.
(** The interpreter takes over the reference that is returned; NULL without an exception is a SystemError,
    and so is an object with one. The exception is then taken out of the state. *)
Definition finish (args : list (pyv F)) (r : res S F unit) : pyres * option (world S F) :=
  match r with
  | Val _ _ | Und => (PyCrash, None)
  | Ret o w =>
      let w' refs stolen := World refs stolen (w_blocks w) (w_next w) None (w_objs w) (w_sys w) in
      match o with
      | None => (PyExc (match w_exc w with Some e => e | None => XSystem end), Some (w' (w_refs w) (w_stolen w)))
      | Some o =>
          let v := match o with ONone => PNone | OArg i => nth i args POpq | ONew n => oget n (w_objs w) end in
          ((match w_exc w with Some _ => PyExc XSystem | None => PyVal v end),
           Some (match drop o (w_refs w) with
                 | Some r => w' r (w_stolen w)
                 | None => w' (w_refs w) (o :: w_stolen w)
                 end))
      end
  end.
Definition pycall (f : list (pyv F) -> M unit) (args : list (pyv F)) (w : world S F) : pyres * option (world S F) :=
  finish args (f args w).
(** calls one after the other, each started from where the one before left *)
Fixpoint pycalls (l : list ((list (pyv F) -> M unit) * list (pyv F))) (w : world S F) : option (world S F) :=
  match l with
  | nil => Some w
  | (f, args) :: l => match snd (pycall f args w) with Some w' => pycalls l w' | None => None end
  end.

End Py.
