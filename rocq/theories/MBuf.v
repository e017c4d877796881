(** Arrays handed over by the caller: MoorDyn_GetTimeScheme, source/MoorDyn2.cpp l.2665-2678, MoorDyn_Serialize, l.2704-2724, and
    MoorDyn_Deserialize, l.2726-2745, and the names of the time schemes, Time.cpp l.157, 228, 333, 351, 374, 398, 438-443, 641-643,
    678-681, 718-721 and 766-769. An array is the list of its cells; writing behind its end is [UB]. Sizes are integers: they are the
    sizes of objects in memory, so std::size_t holds them. *)
From Coq Require Import String Ascii List Arith ZArith Bool Reals.
From Verif Require Import MErr MStr MOut MScheme MIO MObj.
Import ListNotations.
Local Open Scope nat_scope.

(** operator<< for the factors create_time_scheme gives to the schemes, Time.cpp l.836-873, with the six digits of a stream; any
    other number, which no scheme of the system has, is written as nothing *)
Definition factor (x : R) : str :=
  if Req_EM_T x 1 then ot "1" else if Req_EM_T x 0.5 then ot "0.5" else if Req_EM_T x 0.25 then ot "0.25" else if Req_EM_T x 1.37 then ot "1.37" else [].
(** the name set by the constructor of each scheme *)
Definition scheme_name (c : MScheme.scheme) : str :=
  match c with
  | Stationary => ot "Stationary solution"
  | Euler => ot "1st order Euler"
  | LocalEuler => ot "1st order Local-Timestep Euler"
  | Heun => ot "2nd order Heun"
  | RK2 => ot "2nd order Runge-Kutta"
  | RK4 => ot "4th order Runge-Kutta"
  | AB order local => dec order ++ ot "th order " ++ (if local then ot "Local-" else []) ++ ot "Adam-Bashforth"
  | ImplicitEuler iters k => ot "k=" ++ factor k ++ ot " implicit Euler (" ++ dec iters ++ ot " iterations)"
  | AndersonEuler iters k => ot "k=" ++ factor k ++ ot " implicit Anderson Euler (" ++ dec iters ++ ot " iterations)"
  | Newmark iters g b => ot "gamma=" ++ factor g ++ ot ",beta=" ++ factor b ++ ot " implicit Newmark (" ++ dec iters ++ ot " iterations)"
  | Wilson iters t => ot "theta=" ++ factor t ++ ot " implicit Wilson (" ++ dec iters ++ ot " iterations)"
  end.

(** memcpy to the start of an array *)
Definition memcpy {A} (buf data : list A) : outcome (list A) := if length data <=? length buf then Ok (data ++ skipn (length data) buf) else UB.
Definition nul : ascii := "000"%char.
(** std::string::c_str as the C library reads it *)
Fixpoint cstr (s : str) : str := match s with [] => [] | c :: s' => if Ascii.eqb c nul then [] else c :: cstr s' end.
(** strncpy: at most [n] characters, filled up with NUL *)
Definition strncpy (buf s : str) (n : nat) : outcome str := let w := firstn n (cstr s) in memcpy buf (w ++ repeat nul (n - length w)).
(** buf[i] = c *)
Definition store {A} (buf : list A) (i : nat) (c : A) : outcome (list A) := if i <? length buf then Ok (firstn i buf ++ c :: skipn (S i) buf) else UB.

(** MoorDyn_GetTimeScheme: the code returned, the array and the number; NULL is [None] *)
Definition get_time_scheme (sys : option MScheme.scheme) (name : option str) (name_len : option nat) : outcome (Z * option str * option nat) :=
  match sys with
  | None => Ok (MOORDYN_INVALID_VALUE, name, name_len)
  | Some c =>
      let out := scheme_name c in
      let len := match name_len with Some _ => Some (length out + 1) | None => None end in
      match name with
      | None => Ok (MOORDYN_SUCCESS, None, len)
      | Some buf => obind (strncpy buf out (length out)) (fun buf => obind (store buf (length out) nul) (fun buf => Ok (MOORDYN_SUCCESS, Some buf, len)))
      end
  end.

(** the code of an error, after MOORDYN_CATCHER *)
Definition code_of (r : c_result) : outcome Z := match r with Returns z => Ok z | Escapes e => Throw e end.
(** MoorDyn_Serialize: the array has words of 64 bits, the size is in bytes *)
Definition serialize (be : bool) (fuel : nat) (sys : option system) (size : option nat) (data : option (list Z)) : outcome (Z * option nat * option (list Z)) :=
  match sys with
  | None => Ok (MOORDYN_INVALID_VALUE, size, data)
  | Some s =>
      match ser_system be fuel s with
      | Ok backup =>
          let size := match size with Some _ => Some (length backup * 8) | None => None end in
          match data with
          | None => Ok (MOORDYN_SUCCESS, size, None)
          | Some buf => obind (memcpy buf backup) (fun buf => Ok (MOORDYN_SUCCESS, size, Some buf))
          end
      | Throw e => obind (code_of (moordyn_catcher e)) (fun z => Ok (z, size, data))
      | UB => UB
      | Diverges => Diverges
      end
  end.
(** MoorDyn_Deserialize: the code and the system afterwards *)
Definition deserialize (be : bool) (sys : option system) (data : option (list Z)) : outcome (Z * option system) :=
  match sys, data with
  | None, _ | Some _, None => Ok (MOORDYN_INVALID_VALUE, sys)
  | Some s, Some ws =>
      let '(s', r) := system_deserialize be s ws in
      match r with
      | Ok _ => Ok (MOORDYN_SUCCESS, Some s')
      | Throw e => obind (code_of (moordyn_catcher e)) (fun z => Ok (z, Some s'))
      | UB => UB
      | Diverges => Diverges
      end
  end.
