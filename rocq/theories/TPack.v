(** Properties C01 and C02: numbers in a state file.
    A finite nonzero double is written (-1)^neg * m * 2^e with a 53-bit mantissa
    m; it is normal when -1074 <= e <= 971.  [fuel] bounds the loop iterations
    of the model; the statements hold for every sufficiently large bound. *)
From Coq Require Import ZArith List Bool Lia.
From Verif Require Import MErr MPack PPack.
Open Scope Z_scope.

(** C01: the word is the IEEE-754 binary64 pattern
    sign * 2^63 + (exponent + 1023) * 2^52 + fraction ... *)
Theorem C01_word_is_ieee754 : forall fuel neg m e,
  1100 <= Z.of_nat fuel -> 2 ^ 52 <= m < 2 ^ 53 -> -1074 <= e <= 971 ->
  pack754_64 fuel (FFin neg m e)
  = Ok ((if neg then 2 ^ 63 else 0) + ((e + 52) + 1023) * 2 ^ 52 + (m - 2 ^ 52)).
Proof. exact pack_normal_ieee. Qed.
Print Assumptions C01_word_is_ieee754.

(** ... and it is read back exactly. *)
Theorem C01_number_roundtrip : forall fuel neg m e,
  1100 <= Z.of_nat fuel -> 2 ^ 52 <= m < 2 ^ 53 -> -1074 <= e <= 971 ->
  exists w, pack754_64 fuel (FFin neg m e) = Ok w /\ 0 <= w < 2 ^ 64
            /\ unpack754_64 w = FFin neg m e.
Proof. exact number_roundtrip. Qed.
Print Assumptions C01_number_roundtrip.

Theorem C01_zero_roundtrip : forall fuel,
  pack754_64 fuel FZero = Ok 0 /\ unpack754_64 0 = FZero.
Proof. exact zero_roundtrip. Qed.
Print Assumptions C01_zero_roundtrip.

(** Every word whose exponent field is that of a normal number is the word of
    the number read from it: the encoding is a bijection. *)
Theorem C01_word_roundtrip : forall fuel w,
  1100 <= Z.of_nat fuel -> 0 <= w < 2 ^ 64 -> 1 <= (w / 2 ^ 52) mod 2 ^ 11 <= 2046 ->
  pack754_64 fuel (unpack754_64 w) = Ok w.
Proof. exact word_roundtrip. Qed.
Print Assumptions C01_word_roundtrip.

(* -0.1 = -0x1.999999999999ap-4 *)
Example C01_ex : exists fuel, 1100 <= Z.of_nat fuel /\
  pack754_64 fuel (FFin true 7205759403792794 (-56)) = Ok 13815242216921733530 /\
  unpack754_64 13815242216921733530 = FFin true 7205759403792794 (-56).
Proof. exists 1100%nat. repeat split; vm_compute; congruence. Qed.
(* the extreme normal doubles meet the hypotheses *)
Example C01_ex_max : 2 ^ 52 <= 2 ^ 53 - 1 < 2 ^ 53 /\ -1074 <= 971 <= 971
  /\ (2 ^ 53 - 1) * 2 ^ 971 < 2 ^ 1024.
Proof. repeat split; vm_compute; congruence. Qed.

(** C02, what holds: zero, all normal numbers (C01) and the subnormal numbers
    strictly between 2^-1023 and 2^-1022 in magnitude. Missing: the values of
    the refutations below. *)
Theorem C02_large_subnormals_partial : forall fuel neg m,
  1100 <= Z.of_nat fuel -> 2 ^ 52 < m < 2 ^ 53 ->
  exists w, pack754_64 fuel (FFin neg m (-1075)) = Ok w
            /\ unpack754_64 w = FFin neg m (-1075).
Proof. exact pack_subnormal_big'. Qed.
Print Assumptions C02_large_subnormals_partial.

(** Findings. Saving an infinite value never terminates, *)
Theorem C02_infinity_refuted : forall neg, forall fuel, pack754_64 fuel (FInf neg) = Diverges.
Proof. exact pack_inf'. Qed.
Print Assumptions C02_infinity_refuted.

(** saving a NaN is undefined behaviour, *)
Theorem C02_nan_refuted : forall fuel, (0 < fuel)%nat -> pack754_64 fuel FNaN = UB.
Proof. exact pack_nan. Qed.
Print Assumptions C02_nan_refuted.

(** the subnormal number 2^-1023 is read back as zero, *)
Theorem C02_subnormal_lost_refuted : forall fuel, 1100 <= Z.of_nat fuel ->
  exists w, pack754_64 fuel (FFin false (2 ^ 52) (-1075)) = Ok w /\ unpack754_64 w = FZero.
Proof. exact pack_subnormal_min'. Qed.
Print Assumptions C02_subnormal_lost_refuted.

(** and every smaller subnormal number shifts a negative exponent. *)
Theorem C02_small_subnormals_refuted : forall fuel neg m e,
  1100 <= Z.of_nat fuel -> 2 ^ 52 <= m < 2 ^ 53 -> -1127 <= e < -1075 ->
  pack754_64 fuel (FFin neg m e) = UB.
Proof. exact pack_subnormal_ub'. Qed.
Print Assumptions C02_small_subnormals_refuted.
(* 5e-324, the smallest positive double: 2^-1074 = 2^52 * 2^-1126 *)
Example C02_ex : 2 ^ 52 <= 2 ^ 52 < 2 ^ 53 /\ -1127 <= -1126 < -1075.
Proof. repeat split; vm_compute; congruence. Qed.
