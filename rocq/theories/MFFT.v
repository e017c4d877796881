(** Model of the Fourier transforms used for the waves: source/kiss_fft.cpp, source/kiss_fftr.cpp and
    source/_kiss_fft_guts.h, with kiss_fft_scalar = double (kiss_fft.h l.62-64), modelled over the reals
    (no rounding).
    Memory is a total function from indices to numbers: what lies outside an array is an arbitrary
    value, so a theorem about all such functions is about the array only.  The OpenMP variant of kf_work,
    l.253-289, runs the same work units, on disjoint parts of the output, and is not modelled. *)
From Coq Require Import Reals List Arith Bool.
From Verif Require Import MErr MStateOps.
Import ListNotations.
Open Scope R_scope.

(** kiss_fft_cpx, kiss_fft.h l.68-72 *)
Record cpx := Cx { re : R; im : R }.
(** C_ADD, C_SUB, C_MUL, _kiss_fft_guts.h l.88-139 *)
Definition cadd (a b : cpx) : cpx := Cx (re a + re b) (im a + im b).
Definition csub (a b : cpx) : cpx := Cx (re a - re b) (im a - im b).
Definition cmul (a b : cpx) : cpx := Cx (re a * re b - im a * im b) (re a * im b + im a * re b).
(** kf_cexp, l.156-160 *)
Definition cexp (phase : R) : cpx := Cx (cos phase) (sin phase).

Definition buf := nat -> cpx.
Definition upd (b : buf) (i : nat) (v : cpx) : buf := fun j => if Nat.eqb j i then v else b j.
(** the body for 0, 1, ..., n - 1 in this order *)
Fixpoint loop {A} (n : nat) (body : nat -> A -> A) (s : A) : A :=
  match n with O => s | S k => body k (loop k body s) end.

Local Open Scope nat_scope.
(** struct kiss_fft_state, _kiss_fft_guts.h l.22-28; [factors] as pairs (p, m) *)
Record cfg := Cfg { nfft : nat; inverse : bool; factors : list (nat * nat); twiddles : nat -> cpx }.

Section Butterflies.
Variable c : cfg.
Let tw := twiddles c.
(** kf_bfly2, kiss_fft.cpp l.15-33; [o] is the running pointer Fout *)
Definition bfly2_body (fs m base u : nat) (b : buf) : buf :=
  let o := base + u in
  let t := cmul (b (o + m)) (tw (u * fs)) in
  let b := upd b (o + m) (csub (b o) t) in
  upd b o (cadd (b o) t).
(** kf_bfly4, l.35-82 *)
Definition bfly4_body (fs m base u : nat) (b : buf) : buf :=
  let o := base + u in
  let s0 := cmul (b (o + m)) (tw (u * fs)) in
  let s1 := cmul (b (o + 2 * m)) (tw (u * (fs * 2))) in
  let s2 := cmul (b (o + 3 * m)) (tw (u * (fs * 3))) in
  let s5 := csub (b o) s1 in
  let b := upd b o (cadd (b o) s1) in
  let s3 := cadd s0 s2 in
  let s4 := csub s0 s2 in
  let b := upd b (o + 2 * m) (csub (b o) s3) in
  let b := upd b o (cadd (b o) s3) in
  if inverse c then
    let b := upd b (o + m) (Cx (re s5 - im s4) (im s5 + re s4)) in
    upd b (o + 3 * m) (Cx (re s5 + im s4) (im s5 - re s4))
  else
    let b := upd b (o + m) (Cx (re s5 + im s4) (im s5 - re s4)) in
    upd b (o + 3 * m) (Cx (re s5 - im s4) (im s5 + re s4)).
(** kf_bfly3, l.84-127; HALF_OF(x) is x * .5 *)
Definition bfly3_body (fs m base u : nat) (b : buf) : buf :=
  let epi3 := tw (fs * m) in
  let o := base + u in
  let s1 := cmul (b (o + m)) (tw (u * fs)) in
  let s2 := cmul (b (o + 2 * m)) (tw (u * (fs * 2))) in
  let s3 := cadd s1 s2 in
  let s0 := csub s1 s2 in
  let b := upd b (o + m) (Cx (re (b o) - re s3 * 0.5) (im (b o) - im s3 * 0.5)) in
  let s0 := Cx (re s0 * im epi3) (im s0 * im epi3) in
  let b := upd b o (cadd (b o) s3) in
  let b := upd b (o + 2 * m) (Cx (re (b (o + m)) + im s0) (im (b (o + m)) - re s0)) in
  upd b (o + m) (Cx (re (b (o + m)) - im s0) (im (b (o + m)) + re s0)).
(** kf_bfly5, l.129-196 *)
Definition bfly5_body (fs m base u : nat) (b : buf) : buf :=
  let ya := tw (fs * m) in
  let yb := tw (fs * 2 * m) in
  let o := base + u in
  let s0 := b o in
  let s1 := cmul (b (o + m)) (tw (u * fs)) in
  let s2 := cmul (b (o + 2 * m)) (tw (2 * u * fs)) in
  let s3 := cmul (b (o + 3 * m)) (tw (3 * u * fs)) in
  let s4 := cmul (b (o + 4 * m)) (tw (4 * u * fs)) in
  let s7 := cadd s1 s4 in
  let s10 := csub s1 s4 in
  let s8 := cadd s2 s3 in
  let s9 := csub s2 s3 in
  let b := upd b o (Cx (re (b o) + (re s7 + re s8)) (im (b o) + (im s7 + im s8))) in
  let s5 := Cx (re s0 + re s7 * re ya + re s8 * re yb) (im s0 + im s7 * re ya + im s8 * re yb) in
  let s6 := Cx (im s10 * im ya + im s9 * im yb) (- (re s10 * im ya) - re s9 * im yb) in
  let b := upd b (o + m) (csub s5 s6) in
  let b := upd b (o + 4 * m) (cadd s5 s6) in
  let s11 := Cx (re s0 + re s7 * re yb + re s8 * re ya) (im s0 + im s7 * re yb + im s8 * re ya) in
  let s12 := Cx (- (im s10 * im yb) + im s9 * im ya) (re s10 * im yb - re s9 * im ya) in
  let b := upd b (o + 2 * m) (cadd s11 s12) in
  upd b (o + 3 * m) (csub s11 s12).
(** kf_bfly_generic, l.198-237: the inner loop l.224-230 for q = 1, ..., p - 1 ... *)
Definition generic_inner (fs base k : nat) (scratch : nat -> cpx) (q : nat) (s : nat * buf) : nat * buf :=
  let i := fst s + fs * k in
  let i := if Nat.leb (nfft c) i then i - nfft c else i in
  (i, upd (snd s) (base + k) (cadd (snd s (base + k)) (cmul (scratch (S q)) (tw i)))).
(** ... and the loops around it *)
Definition generic_body (p fs m base u : nat) (b : buf) : buf :=
  let scratch := fun q => b (base + (u + q * m)) in
  loop p (fun q1 b =>
    let k := u + q1 * m in
    snd (loop (p - 1) (generic_inner fs base k scratch) (0, upd b (base + k) (scratch 0)))) b.
(** the switch of kf_work, l.308-325 *)
Definition bfly (p fs m base : nat) (b : buf) : buf :=
  match p with
  | 2 => loop m (bfly2_body fs m base) b
  | 3 => loop m (bfly3_body fs m base) b
  | 4 => loop m (bfly4_body fs m base) b
  | 5 => loop m (bfly5_body fs m base) b
  | _ => loop m (generic_body p fs m base) b
  end.
(** kf_work, l.239-326: [fo] and [base] are the offsets of the pointers f and Fout; the recursion ends
    at m = 1, before the end of the list of factors *)
Fixpoint kf_work (f : buf) (istr : nat) (fl : list (nat * nat)) (fs fo base : nat) (b : buf) : buf :=
  match fl with
  | [] => b
  | (p, m) :: rest =>
      let b :=
        if Nat.eqb m 1 then loop p (fun q b => upd b (base + q) (f (fo + q * (fs * istr)))) b
        else loop p (fun q b => kf_work f istr rest (fs * p) (fo + q * (fs * istr)) (base + q * m) b) b in
      bfly p fs m base b
  end.
(** kiss_fft_stride and kiss_fft, l.402-425: the copy through a temporary buffer when the input is the
    output has the same effect *)
Definition kiss_fft (f b : buf) : buf := kf_work f 1 (factors c) 1 0 0 b.
End Butterflies.

(** kf_factor, l.328-360.  [s] is floor(sqrt(n)); the loops run on fuel, [None] when it is exhausted. *)
Definition next_radix (p : nat) : nat := match p with 4 => 2 | 2 => 3 | _ => p + 2 end.
Fixpoint radix (fuel n p s : nat) : option nat :=
  if Nat.eqb (n mod p) 0 then Some p
  else match fuel with
       | O => None
       | S fuel' => let p := next_radix p in radix fuel' n (if Nat.ltb s p then n else p) s
       end.
Fixpoint factor_loop (fuel n p s : nat) : option (list (nat * nat)) :=
  match fuel with
  | O => None
  | S fuel' =>
      match radix (n + s + 4) n p s with
      | None => None
      | Some p =>
          let m := n / p in
          if Nat.ltb 1 m then match factor_loop fuel' m p s with None => None | Some l => Some ((p, m) :: l) end
          else Some [(p, m)]
      end
  end.
Definition kf_factor (n : nat) : option (list (nat * nat)) := factor_loop (S n) n 4 (Nat.sqrt n).
(** kiss_fft_alloc, l.369-400: phase = -2 * pi * i / nfft, negated for the inverse *)
Definition twiddle (inv : bool) (n i : nat) : cpx :=
  cexp (let ph := (-2 * PI * INR i / INR n)%R in if inv then (ph * -1)%R else ph).
Definition kiss_fft_alloc (n : nat) (inv : bool) (tw : nat -> cpx) : option cfg :=
  match kf_factor n with
  | None => None
  | Some fl => Some (Cfg n inv fl (fun i => if Nat.ltb i n then twiddle inv n i else tw i))
  end.

(** kiss_fftr_alloc, kiss_fftr.cpp l.22-63: NULL for odd sizes; [garbage] is what lies behind the arrays *)
Record rcfg := RCfg { substate : cfg; super : nat -> cpx }.
Definition super_twiddle (inv : bool) (n i : nat) : cpx :=
  cexp (let ph := (- PI * (INR (i + 1) / INR n + 0.5))%R in if inv then (ph * -1)%R else ph).
Definition kiss_fftr_alloc (n : nat) (inv : bool) (g1 g2 : nat -> cpx) : option rcfg :=
  if Nat.odd n then None else
  match kiss_fft_alloc (n / 2) inv g1 with
  | None => None
  | Some c => Some (RCfg c (fun i => if Nat.ltb i (n / 2 / 2) then super_twiddle inv (n / 2) i else g2 i))
  end.
Definition cconj (a : cpx) : cpx := Cx (re a) (- im a).
(** the time data as pairs of reals: (const kiss_fft_cpx* )timedata, l.84 and l.162 *)
Definition pack (x : nat -> R) : buf := fun j => Cx (x (2 * j)) (x (2 * j + 1)).
Definition unpack (b : buf) : nat -> R := fun r => if Nat.even r then re (b (r / 2)) else im (b (r / 2)).
(** kiss_fftr, l.65-122; exit(1) for an inverse state is [None]; [fd] and [tmp] are the old contents of
    the output and of tmpbuf *)
Definition fftr_body (s : rcfg) (t : buf) (k0 : nat) (fd : buf) : buf :=
  let k := S k0 in
  let n := nfft (substate s) in
  let fpk := t k in
  let fpnk := Cx (re (t (n - k))) (- im (t (n - k))) in
  let f1k := cadd fpk fpnk in
  let f2k := csub fpk fpnk in
  let tw := cmul f2k (super s (k - 1)) in
  let fd := upd fd k (Cx ((re f1k + re tw) * 0.5) ((im f1k + im tw) * 0.5)) in
  upd fd (n - k) (Cx ((re f1k - re tw) * 0.5) ((im tw - im f1k) * 0.5)).
Definition kiss_fftr (s : rcfg) (x : nat -> R) (tmp fd : buf) : option buf :=
  if inverse (substate s) then None else
  let n := nfft (substate s) in
  let t := kiss_fft (substate s) (pack x) tmp in
  let fd := upd fd 0 (Cx (re (t 0) + im (t 0)) 0) in
  let fd := upd fd n (Cx (re (t 0) - im (t 0)) 0) in
  Some (loop (n / 2) (fftr_body s t) fd).
(** kiss_fftri, l.124-163 *)
Definition fftri_body (s : rcfg) (fd : buf) (k0 : nat) (t : buf) : buf :=
  let k := S k0 in
  let n := nfft (substate s) in
  let fk := fd k in
  let fnkc := Cx (re (fd (n - k))) (- im (fd (n - k))) in
  let fek := cadd fk fnkc in
  let tmp := csub fk fnkc in
  let fok := cmul tmp (super s (k - 1)) in
  let t := upd t k (cadd fek fok) in
  let t := upd t (n - k) (csub fek fok) in
  upd t (n - k) (Cx (re (t (n - k))) (im (t (n - k)) * -1)).
Definition kiss_fftri (s : rcfg) (fd tmp out : buf) : option (nat -> R) :=
  if inverse (substate s) then
    let n := nfft (substate s) in
    let t := upd tmp 0 (Cx (re (fd 0) + re (fd n)) (re (fd 0) - re (fd n))) in
    let t := loop (n / 2) (fftri_body s fd) t in
    Some (unpack (kiss_fft (substate s) t out))
  else None.
