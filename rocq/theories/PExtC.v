(** Versions of builds and one-sided damping curves: proofs. *)
From Coq Require Import ZArith List Arith Bool Reals Lra Lia.
From Verif Require Import MErr MVec MStateOps MInterp MLine SLine PLine PLineB MIO MIOFile PIOFile.
Import ListNotations.

Lemma own_files_rejected maj min : (0 <= maj)%Z -> (0 <= min)%Z -> ~ (2 <= maj < 256 /\ 2 <= min < 256)%Z ->
  forall St be alloc_ok (des : St -> list Z -> St * outcome (list Z)) st data,
  load be (min_version maj min) alloc_ok des st (save be maj min data) = (st, Throw ExInputFile).
Proof.
  intros A B N St be alloc_ok des st data. apply load_bad_version.
  assert (M : nth 7 (save be maj min data) 0%Z = (maj mod 256)%Z) by reflexivity. assert (M' : nth 8 (save be maj min data) 0%Z = (min mod 256)%Z) by reflexivity. rewrite M, M'. clear M M'.
  pose proof (Z.mod_pos_bound maj 256 ltac:(lia)) as P. pose proof (Z.mod_pos_bound min 256 ltac:(lia)) as Q. unfold min_version. destruct (Z.leb_spec 2 maj) as [C|C]; cbn [fst snd].
  - destruct (Z.lt_ge_cases maj 256) as [G|G]; [|left; lia]. right. rewrite (Z.mod_small maj) by lia. split; [reflexivity|]. destruct (Z.leb_spec 2 min) as [D|D]; [lia|]. rewrite Z.mod_small by lia. lia.
  - left. rewrite Z.mod_small by lia. lia.
Qed.
Open Scope R_scope.
Lemma one_sided_power L i x0 xs Y : ldx L = x0 :: xs -> 0 <= x0 -> 0 < ll L i -> tol < norm (seg L i) ->
  stretch_rate L i <> 0 -> interp (ldx L) (ldy L) (Rabs (stretch_rate L i / ll L i)) = Ok Y ->
  exists Td, lTd L i = Some Td /\ dot Td (vsub (lrd L i) (lrd L (S i))) = - (larea L * Y * stretch_rate L i).
Proof.
  intros E X K T R I. eexists. split; [exact (damp_one_sided L i x0 xs Y E X K T R I)|]. pose proof tol_pos. unfold stretch_rate. set (n := norm (seg L i)) in *.
  destruct (seg L i) as [a b c], (lrd L i) as [d e f], (lrd L (S i)) as [g h j]. unfold dot, vscale, vsub. cbn. field. lra.
Qed.
Lemma one_sided_drives_all L i x0 xs Y : ldx L = x0 :: xs -> 0 <= x0 -> 0 < ll L i -> tol < norm (seg L i) ->
  stretch_rate L i < 0 -> interp (ldx L) (ldy L) (Rabs (stretch_rate L i / ll L i)) = Ok Y -> 0 < larea L -> 0 < Y ->
  exists Td, lTd L i = Some Td /\ 0 < dot Td (vsub (lrd L i) (lrd L (S i))).
Proof.
  intros E X K T R I A P. destruct (one_sided_power L i x0 xs Y E X K T ltac:(lra) I) as (Td & U & V). exists Td. split; [exact U|]. rewrite V.
  assert (0 < larea L * Y) by (apply Rmult_lt_0_compat; assumption). nra.
Qed.
