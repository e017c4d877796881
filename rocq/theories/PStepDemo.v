(** A concrete system for the examples: one coupled body, one pinned rod, one coupled point,
    one line being paid out, one failure, Euler's scheme on one scalar state. *)
From Coq Require Import Reals List Arith Bool ZArith Lra Lia.
From Verif Require Import MErr MVec MInterp MStateOps MScheme PScheme PStepInv MStep SStep PStep.
Import ListNotations.
Open Scope R_scope.

Definition Rops : sops R R :=
  Sops R R (fun a b => Ok (a + b)) (fun a b => Ok (a - b)) (fun a b g => Ok (a * (1 - g) + b * g)) (fun a k => Ok (a * k))
    (fun a b => Ok (a + b)) (fun a b => Ok (a - b)) (fun a b g => Ok (a * (1 - g) + b * g))
    (fun a b _ g _ => Ok (a * (1 - g) + b * g)) (fun a b _ _ => Ok (a + b)) (fun a _ => Ok (a, 0)).
Definition upd0 (e : sys R) (t l : R) (x : R) : outcome R := Ok x.
Definition cal0 (e : sys R) (d : R) : outcome (R * R) := Ok (e_rest R e, - e_rest R e).
Definition lim0 (e : sys R) (a b : R) := 1.
Definition msk0 (e : sys R) (d : R) : outcome R := Ok (e_rest R e).
Definition det0 (i : nat) (e : sys R) : outcome R := Ok (e_rest R e).
Definition frc0 (e : sys R) : list v6 * list v6 * list v3 :=
  (map (fun _ => v6zero) (e_bod R e), map (fun _ => v6zero) (e_rod R e), map (fun _ => V3 1 2 3) (e_pts R e)).
Definition b0 (f : bool) : cobj := Cobj f v6zero v6zero v6zero v6zero v6zero v6zero.
Definition e00 : sys R := Sys R [b0 true] [b0 false] [Cpt vzero vzero vzero vzero] [Pline 10 10 2 [5; 5]] 1.
Definition m0 : md R R R := Md R R R (Ts R R (sys R) 0 0 e00 [1] [0] 0 0 1) Euler (1 / 4) 1 [Failure 5 false; Failure (1 / 8) false] [].
Definition x0 : list R := [1; 2; 3; 4; 5; 6; 7; 8; 9; 10; 11; 12].
Definition step0 fuel m x xd dt := md_step R R R Rops upd0 cal0 lim0 msk0 (fun _ _ => true) det0 frc0 fuel m x xd dt.
Definition good (s : tsch R R (sys R)) : Prop := exists x d, rr _ _ _ s = [x] /\ rd _ _ _ s = [d].
Lemma good_step s dt : good s -> exists s', ts_step R R R Rops upd0 cal0 lim0 msk0 (fun _ _ => true) Euler s dt = Ok s' /\ good s'.
Proof.
  intros (x & d & Hx & Hd). destruct s as [t l e r0 q n er bo]. cbn in Hx, Hd. subst. eexists; split; [reflexivity|]. eexists _, _. split; reflexivity.
Qed.
Lemma good_fold l s : good s -> exists s', ofold (ts_step R R R Rops upd0 cal0 lim0 msk0 (fun _ _ => true) Euler) l s = Ok s' /\ good s'.
Proof.
  revert s; induction l as [|d l IH]; intros s G; [exists s; now split|]. cbn [ofold]. destruct (good_step s d G) as (s1 & -> & G1). cbn [obind]. now apply IH.
Qed.
Lemma fail0 t fs i e : exists r, fail_loop R det0 i t fs e = Ok r.
Proof.
  revert i e; induction fs as [|g fs IH]; intros i e; [eexists; reflexivity|]. cbn [fail_loop]. destruct (f_done g || Rltb (f_time g) t).
  - destruct (IH (S i) e) as (r & ->). eexists; reflexivity.
  - cbn [det0 obind]. destruct (IH (S i) (set_rest R e (e_rest R e))) as (r & ->). eexists; reflexivity.
Qed.
Lemma runs0 m dt : good (m_ts _ _ _ m) -> m_scheme _ _ _ m = Euler -> 0 < m_dtM _ _ _ m -> 0 < dt -> total_dof (env _ _ _ (m_ts _ _ _ m)) = 12%nat ->
  exists fuel m' fo, step0 fuel m x0 x0 dt = Ok (m', fo) /\ good (m_ts _ _ _ m').
Proof.
  intros G HE HM Hd HT. unfold step0, md_step. destruct (couple_ok R (env _ _ _ (m_ts _ _ _ m)) x0 x0 dt) as (e' & E & _); [rewrite HT; cbn; lia|rewrite HT; cbn; lia|].
  destruct (loop_exact (tsch R R (sys R)) (ts_step R R R Rops upd0 cal0 lim0 msk0 (fun _ _ => true) Euler) (m_dtM _ _ _ m) dt HM Hd) as (l & _ & HL).
  assert (G' : good (next R R R (set_env R R (sys R) (m_ts R R R m) e'))). { destruct G as (a & b & A & B). exists a, b. split; [exact A|exact B]. }
  destruct (good_fold l _ G') as (s' & Es & Gs). destruct (fail0 (MScheme.tt _ _ _ s') (m_fail _ _ _ m) 0 (env _ _ _ s')) as ([fl ef] & Ef).
  exists (S (length l)), (Md R R R (set_env _ _ _ s' ef) (m_scheme _ _ _ m) (m_dtM _ _ _ m) (m_dtOut _ _ _ m) fl
     (if row_due (m_dtOut _ _ _ m) (MScheme.tt _ _ _ s') dt then m_rows _ _ _ m ++ [MScheme.tt _ _ _ s'] else m_rows _ _ _ m)), (get_forces R frc0 ef).
  destruct (Rle_dec dt 0); [lra|]. rewrite E. cbn [obind]. rewrite HE, HL by lia. rewrite Es. cbn [obind]. rewrite Ef. cbn [obind fst snd].
  split; [reflexivity|]. destruct Gs as (a & b & A & B). exists a, b. now split.
Qed.

(** after the first coupling step of 1/2, the failure at t = 5 has been executed and the one
    at t = 1/8 has not *)
Lemma fails_wrongly : exists fuel m' fo, step0 fuel m0 x0 x0 (1 / 2) = Ok (m', fo) /\ MScheme.tt _ _ _ (m_ts _ _ _ m') = 1 / 2 /\
  m_fail _ _ _ m' = [Failure 5 true; Failure (1 / 8) false].
Proof.
  destruct (runs0 m0 (1 / 2)) as (fuel & m' & fo & E & _); [exists 1, 0; now split|reflexivity|cbn; lra|lra|reflexivity|]. exists fuel, m', fo. split; [exact E|].
  destruct (mstep_all R R R Rops _ _ _ _ _ _ _ fuel m0 x0 x0 (1 / 2) m' fo I ltac:(cbn; lra) ltac:(lra) E) as (_ & _ & _ & _ & _ & _ & _ & _ & _ & _ & T & _ & _ & _ & FL & FN & _).
  cbn in T. assert (T' : MScheme.tt _ _ _ (m_ts _ _ _ m') = 1 / 2) by lra. split; [exact T'|].
  pose proof (FN 0%nat (Failure 5 false) eq_refl) as N0. pose proof (FN 1%nat (Failure (1 / 8) false) eq_refl) as N1. rewrite T' in N0, N1. cbn [f_time f_done orb] in N0, N1.
  rewrite (proj2 (Rltb_false 5 (1 / 2))) in N0 by lra. rewrite (proj2 (Rltb_true (1 / 8) (1 / 2))) in N1 by lra.
  destruct (m_fail R R R m') as [|a [|b [|]]]; cbn in FL; try discriminate. cbn in N0, N1. congruence.
Qed.
