(** Floating point packing: source/IO.cpp l.50-147 (pack754, unpack754).

    Numbers are exact: a finite number is [FFin neg m e] = (-1)^neg * m * 2^e with
    m > 0.  The code computes in long double; every operation it performs on a
    normal double (halving, doubling, subtracting 1, scaling by a power of two)
    is exact there, so exact dyadic arithmetic is what the machine does. *)
From Coq Require Import ZArith List Bool.
From Verif Require Import MErr.
Open Scope Z_scope.

Inductive fval :=
| FZero
| FFin (neg : bool) (m e : Z)
| FInf (neg : bool)
| FNaN.

(** non-negative dyadic m * 2^e *)
Definition dyadic := (Z * Z)%type.

Definition d_align (a b : dyadic) : Z * Z * Z :=
  let e := Z.min (snd a) (snd b) in
  (fst a * 2 ^ (snd a - e), fst b * 2 ^ (snd b - e), e).
Definition d_leb (a b : dyadic) : bool :=
  let '(x, y, _) := d_align a b in x <=? y.
Definition d_ltb (a b : dyadic) : bool :=
  let '(x, y, _) := d_align a b in x <? y.
Definition d_sub (a b : dyadic) : dyadic :=
  let '(x, y, e) := d_align a b in (x - y, e).
Definition d_mul (a b : dyadic) : dyadic := (fst a * fst b, snd a + snd b).
Definition d_half (a : dyadic) : dyadic := (fst a, snd a - 1).   (* a /= 2.0 *)
Definition d_double (a : dyadic) : dyadic := (fst a, snd a + 1). (* a *= 2.0 *)
(** conversion to integer: truncation *)
Definition d_trunc (a : dyadic) : Z :=
  if 0 <=? snd a then fst a * 2 ^ snd a else fst a / 2 ^ (- snd a).

Definition d_one : dyadic := (1, 0).
Definition d_two : dyadic := (2, 0).

(** The value held by the long double variable [fnorm]: infinity stays infinite
    when halved or doubled and is larger than everything; every comparison with
    a NaN is false. *)
Inductive xval := XFin (d : dyadic) | XInf | XNaN.
Definition x_ge2 (x : xval) : bool :=
  match x with XFin d => d_leb d_two d | XInf => true | XNaN => false end.
Definition x_lt1 (x : xval) : bool :=
  match x with XFin d => d_ltb d d_one | XInf => false | XNaN => false end.
Definition x_half (x : xval) : xval :=
  match x with XFin d => XFin (d_half d) | y => y end.
Definition x_double (x : xval) : xval :=
  match x with XFin d => XFin (d_double d) | y => y end.

(** while (fnorm >= 2.0) { fnorm /= 2.0; shift++; }   IO.cpp l.83-86.
    [None]: the loop has not ended within the given number of iterations. *)
Fixpoint norm_down (fuel : nat) (fnorm : xval) (shift : Z) : option (xval * Z) :=
  match fuel with
  | O => None
  | S f => if x_ge2 fnorm then norm_down f (x_half fnorm) (shift + 1)
           else Some (fnorm, shift)
  end.

(** while (fnorm < 1.0) { fnorm *= 2.0; shift--; }   IO.cpp l.87-90 *)
Fixpoint norm_up (fuel : nat) (fnorm : xval) (shift : Z) : option (xval * Z) :=
  match fuel with
  | O => None
  | S f => if x_lt1 fnorm then norm_up f (x_double fnorm) (shift - 1)
           else Some (fnorm, shift)
  end.

(** The multiplier ((1LL << significandbits) + 0.5f): long long + float is
    computed in float, where 2^52 + 0.5 = 2^52. *)
Definition sig_scale (significandbits : Z) : dyadic := (1, significandbits).

(** fnorm = |f|, IO.cpp l.74-80; [None] for f == 0.0 (l.71-72) *)
Definition pack_abs (f : fval) : option (Z * xval) :=
  match f with
  | FZero => None
  | FFin neg m e => Some (if neg then 1 else 0, XFin (m, e))
  | FInf neg => Some (if neg then 1 else 0, XInf)
  | FNaN => Some (0, XNaN)                         (* f < 0 is false *)
  end.

(** pack754, IO.cpp l.62-102. Converting a NaN or an infinity to long long and
    shifting a negative [exp] to the left are undefined behaviour (C++17). The
    result is the two's complement bit pattern of the returned long long, as an
    integer in [0, 2^bits). *)
Definition pack754 (fuel : nat) (f : fval) (bits expbits : Z) : outcome Z :=
  let significandbits := bits - expbits - 1 in
  match pack_abs f with
  | None => Ok 0
  | Some (sign, x) =>
      match norm_down fuel x 0 with
      | None => Diverges
      | Some (f1, s1) =>
          match norm_up fuel f1 s1 with
          | None => Diverges
          | Some (XFin f2, shift) =>
              let fnorm := d_sub f2 d_one in
              let significand := d_trunc (d_mul fnorm (sig_scale significandbits)) in
              let exp := shift + (Z.shiftl 1 (expbits - 1) - 1) in
              if exp <? 0 then UB
              else Ok (Z.lor (Z.lor (Z.shiftl sign (bits - 1))
                                    (Z.shiftl exp (bits - expbits - 1)))
                             significand)
          | Some (_, _) => UB
          end
      end
  end.

(** while (shift > 0) { result *= 2.0; shift--; } and the converse loop,
    IO.cpp l.133-140 *)
Definition scale_loop (r : dyadic) (shift : Z) : dyadic :=
  if 0 <? shift then Nat.iter (Z.to_nat shift) d_double r
  else Nat.iter (Z.to_nat (- shift)) d_half r.

(** unpack754, IO.cpp l.115-147, in long double *)
Definition unpack754 (i bits expbits : Z) : fval :=
  let significandbits := bits - expbits - 1 in
  if i =? 0 then FZero
  else
    let r0 : dyadic := (Z.land i (Z.shiftl 1 significandbits - 1), - significandbits) in
    (* result += 1.0f *)
    let r1 : dyadic := (fst r0 + 2 ^ significandbits, - significandbits) in
    let bias := Z.shiftl 1 (expbits - 1) - 1 in
    let shift := Z.land (Z.shiftr i significandbits) (Z.shiftl 1 expbits - 1) - bias in
    let r2 := scale_loop r1 shift in
    let neg := negb (Z.land (Z.shiftr i (bits - 1)) 1 =? 0) in
    FFin neg (fst r2) (snd r2).

(** pack754_64, unpack754_64, IO.cpp l.151-154.  The number of loop iterations
    is not bounded by the code; the model takes a bound as parameter. *)
Definition pack754_64 (fuel : nat) (f : fval) : outcome Z := pack754 fuel f 64 11.
Definition unpack754_64 (i : Z) : fval := unpack754 i 64 11.
