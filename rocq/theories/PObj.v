(** Proofs: every object restores what it saved. *)
From Coq Require Import ZArith List Bool Lia.
From Verif Require Import MErr MPack PPack MIO SIO PIO MObj SObj.
Import ListNotations.
Open Scope Z_scope.

Section RTObj.
Variable be : bool.
Variable fuel : nat.
Hypothesis Hfuel : 1100 <= Z.of_nat fuel.

Ltac proj_simpl ::= cbn [fst snd P_r P_rd P_r_ves P_rd_ves P_Fnet P_M B_r7 B_v6 B_r_ves B_rd_ves B_F6net B_M B_OrMat L_t L_r L_rd L_q L_qs L_l L_lstr L_ldstr L_Kurv L_M L_V L_T L_Td L_Bs L_W L_Dp L_Dq L_Ap L_Aq L_B L_Fnet L_F R_t R_r7 R_v6 R_r R_rd R_q R_l R_M R_V R_FextA R_FextB R_Mext R_F6net R_M6net R_W R_Bo R_Pd R_Dp R_Dq R_Ap R_Aq R_B R_Fnet R_VOF R_h0 R_r_ves R_rd_ves].

Lemma rt_point o : point_ok o -> roundtrips (ser_point be fuel) (de_point be) o.
Proof.
  destruct o as [f0 f1 f2 f3 f4 f5]; intros (H0 & H1 & H2 & H3 & H4 & H5); cbn [P_r P_rd P_r_ves P_rd_ves P_Fnet P_M] in *.
  apply (rt_vec be fuel Hfuel) in H0.
  apply (rt_vec be fuel Hfuel) in H1.
  apply (rt_vec be fuel Hfuel) in H2.
  apply (rt_vec be fuel Hfuel) in H3.
  apply (rt_vec be fuel Hfuel) in H4.
  apply (rt_mat be fuel Hfuel) in H5.
  unfold ser_point, de_point. cbn [P_r P_rd P_r_ves P_rd_ves P_Fnet P_M].
  rt_solve.
Qed.

Lemma rt_body o : body_ok o -> roundtrips (ser_body be fuel) (de_body be) o.
Proof.
  destruct o as [f0 f1 f2 f3 f4 f5 f6]; intros (H0 & H1 & H2 & H3 & H4 & H5 & H6); cbn [B_r7 B_v6 B_r_ves B_rd_ves B_F6net B_M B_OrMat] in *.
  apply (rt_xyzquat be fuel Hfuel) in H0.
  apply (rt_vec6 be fuel Hfuel) in H1.
  apply (rt_vec6 be fuel Hfuel) in H2.
  apply (rt_vec6 be fuel Hfuel) in H3.
  apply (rt_vec6 be fuel Hfuel) in H4.
  apply (rt_mat6 be fuel Hfuel) in H5.
  apply (rt_mat be fuel Hfuel) in H6.
  unfold ser_body, de_body. cbn [B_r7 B_v6 B_r_ves B_rd_ves B_F6net B_M B_OrMat].
  rt_solve.
Qed.

Lemma rt_line o : line_ok o -> roundtrips (ser_line be fuel) (de_line be) o.
Proof.
  destruct o as [f0 f1 f2 f3 f4 f5 f6 f7 f8 f9 f10 f11 f12 f13 f14 f15 f16 f17 f18 f19 f20 f21]; intros (H0 & H1 & H2 & H3 & H4 & H5 & H6 & H7 & H8 & H9 & H10 & H11 & H12 & H13 & H14 & H15 & H16 & H17 & H18 & H19 & H20 & H21); cbn [L_t L_r L_rd L_q L_qs L_l L_lstr L_ldstr L_Kurv L_M L_V L_T L_Td L_Bs L_W L_Dp L_Dq L_Ap L_Aq L_B L_Fnet L_F] in *.
  apply (rt_real be fuel Hfuel) in H0.
  apply (rt_list_ok be _ _ _ _ (rt_vec be fuel Hfuel)) in H1.
  apply (rt_list_ok be _ _ _ _ (rt_vec be fuel Hfuel)) in H2.
  apply (rt_list_ok be _ _ _ _ (rt_vec be fuel Hfuel)) in H3.
  apply (rt_list_ok be _ _ _ _ (rt_vec be fuel Hfuel)) in H4.
  apply (rt_list_ok be _ _ _ _ (rt_real be fuel Hfuel)) in H5.
  apply (rt_list_ok be _ _ _ _ (rt_real be fuel Hfuel)) in H6.
  apply (rt_list_ok be _ _ _ _ (rt_real be fuel Hfuel)) in H7.
  apply (rt_list_ok be _ _ _ _ (rt_real be fuel Hfuel)) in H8.
  apply (rt_list_ok be _ _ _ _ (rt_mat be fuel Hfuel)) in H9.
  apply (rt_list_ok be _ _ _ _ (rt_real be fuel Hfuel)) in H10.
  apply (rt_list_ok be _ _ _ _ (rt_vec be fuel Hfuel)) in H11.
  apply (rt_list_ok be _ _ _ _ (rt_vec be fuel Hfuel)) in H12.
  apply (rt_list_ok be _ _ _ _ (rt_vec be fuel Hfuel)) in H13.
  apply (rt_list_ok be _ _ _ _ (rt_vec be fuel Hfuel)) in H14.
  apply (rt_list_ok be _ _ _ _ (rt_vec be fuel Hfuel)) in H15.
  apply (rt_list_ok be _ _ _ _ (rt_vec be fuel Hfuel)) in H16.
  apply (rt_list_ok be _ _ _ _ (rt_vec be fuel Hfuel)) in H17.
  apply (rt_list_ok be _ _ _ _ (rt_vec be fuel Hfuel)) in H18.
  apply (rt_list_ok be _ _ _ _ (rt_vec be fuel Hfuel)) in H19.
  apply (rt_list_ok be _ _ _ _ (rt_vec be fuel Hfuel)) in H20.
  apply (rt_list_ok be _ _ _ _ (rt_real be fuel Hfuel)) in H21.
  unfold ser_line, de_line. cbn [L_t L_r L_rd L_q L_qs L_l L_lstr L_ldstr L_Kurv L_M L_V L_T L_Td L_Bs L_W L_Dp L_Dq L_Ap L_Aq L_B L_Fnet L_F].
  rt_solve.
Qed.

Lemma rt_rod o : rod_ok o -> roundtrips (ser_rod be fuel) (de_rod be) o.
Proof.
  destruct o as [f0 f1 f2 f3 f4 f5 f6 f7 f8 f9 f10 f11 f12 f13 f14 f15 f16 f17 f18 f19 f20 f21 f22 f23 f24 f25 f26]; intros (H0 & H1 & H2 & H3 & H4 & H5 & H6 & H7 & H8 & H9 & H10 & H11 & H12 & H13 & H14 & H15 & H16 & H17 & H18 & H19 & H20 & H21 & H22 & H23 & H24 & H25 & H26); cbn [R_t R_r7 R_v6 R_r R_rd R_q R_l R_M R_V R_FextA R_FextB R_Mext R_F6net R_M6net R_W R_Bo R_Pd R_Dp R_Dq R_Ap R_Aq R_B R_Fnet R_VOF R_h0 R_r_ves R_rd_ves] in *.
  apply (rt_real be fuel Hfuel) in H0.
  apply (rt_xyzquat be fuel Hfuel) in H1.
  apply (rt_vec6 be fuel Hfuel) in H2.
  apply (rt_list_ok be _ _ _ _ (rt_vec be fuel Hfuel)) in H3.
  apply (rt_list_ok be _ _ _ _ (rt_vec be fuel Hfuel)) in H4.
  apply (rt_vec be fuel Hfuel) in H5.
  apply (rt_list_ok be _ _ _ _ (rt_real be fuel Hfuel)) in H6.
  apply (rt_list_ok be _ _ _ _ (rt_mat be fuel Hfuel)) in H7.
  apply (rt_list_ok be _ _ _ _ (rt_real be fuel Hfuel)) in H8.
  apply (rt_vec be fuel Hfuel) in H9.
  apply (rt_vec be fuel Hfuel) in H10.
  apply (rt_vec be fuel Hfuel) in H11.
  apply (rt_vec6 be fuel Hfuel) in H12.
  apply (rt_mat6 be fuel Hfuel) in H13.
  apply (rt_list_ok be _ _ _ _ (rt_vec be fuel Hfuel)) in H14.
  apply (rt_list_ok be _ _ _ _ (rt_vec be fuel Hfuel)) in H15.
  apply (rt_list_ok be _ _ _ _ (rt_vec be fuel Hfuel)) in H16.
  apply (rt_list_ok be _ _ _ _ (rt_vec be fuel Hfuel)) in H17.
  apply (rt_list_ok be _ _ _ _ (rt_vec be fuel Hfuel)) in H18.
  apply (rt_list_ok be _ _ _ _ (rt_vec be fuel Hfuel)) in H19.
  apply (rt_list_ok be _ _ _ _ (rt_vec be fuel Hfuel)) in H20.
  apply (rt_list_ok be _ _ _ _ (rt_vec be fuel Hfuel)) in H21.
  apply (rt_list_ok be _ _ _ _ (rt_vec be fuel Hfuel)) in H22.
  apply (rt_list_ok be _ _ _ _ (rt_real be fuel Hfuel)) in H23.
  apply (rt_real be fuel Hfuel) in H24.
  apply (rt_vec6 be fuel Hfuel) in H25.
  apply (rt_vec6 be fuel Hfuel) in H26.
  unfold ser_rod, de_rod. cbn [R_t R_r7 R_v6 R_r R_rd R_q R_l R_M R_V R_FextA R_FextB R_Mext R_F6net R_M6net R_W R_Bo R_Pd R_Dp R_Dq R_Ap R_Aq R_B R_Fnet R_VOF R_h0 R_r_ves R_rd_ves].
  rt_solve.
Qed.

Lemma rt_pair {A B} (s1 : writer A) d1 (s2 : writer B) d2 p :
  roundtrips s1 d1 (fst p) -> roundtrips s2 d2 (snd p) -> roundtrips (ser_pair s1 s2) (de_pair d1 d2) p.
Proof. destruct p as [a b]; cbn [fst snd]; intros H1 H2. unfold ser_pair, de_pair. cbn [fst snd]. rt_solve. Qed.

Lemma rt_rigid p : rigid_ok p -> roundtrips (ser_rigid be fuel) (de_rigid be) p.
Proof. intros [H1 H2]. apply rt_pair; [apply rt_xyzquat|apply rt_vec6]; assumption. Qed.
Lemma rt_pstate p : pstate_ok p -> roundtrips (ser_pstate be fuel) (de_pstate be) p.
Proof. intros [H1 H2]. apply rt_pair; apply rt_vec; assumption. Qed.
Lemma rt_lstate p : lstate_ok p -> roundtrips (ser_lstate be fuel) (de_lstate be) p.
Proof.
  intros [H1 H2]. apply rt_pair; eapply rt_list_ok; try eassumption; intros; apply rt_vec; assumption.
Qed.

Lemma rt_seq_n {A} (s : writer A) (d : reader A) n l :
  length l = n -> Forall (roundtrips s d) l -> roundtrips (ser_seq s) (de_seq d n) l.
Proof. intros <-. apply rt_seq. Qed.

Lemma rt_sys_state nb nr np nl s : sys_state_ok nb nr np nl s ->
  roundtrips (ser_sys_state be fuel) (de_sys_state be nb nr np nl) s.
Proof.
  destruct s as [b r p l]; intros (Hb & Hr & Hp & Hl & Fb & Fr & Fp & Fl);
  cbn [s_bodies s_rods s_points s_lines] in *.
  apply (Forall_impl _ rt_rigid) in Fb, Fr. apply (Forall_impl _ rt_pstate) in Fp.
  apply (Forall_impl _ rt_lstate) in Fl.
  apply (rt_seq_n _ _ _ _ Hb) in Fb. apply (rt_seq_n _ _ _ _ Hr) in Fr.
  apply (rt_seq_n _ _ _ _ Hp) in Fp. apply (rt_seq_n _ _ _ _ Hl) in Fl.
  clear Hb Hr Hp Hl.
  unfold ser_sys_state, de_sys_state. rt_collect.
  eexists; split; [cbn [s_bodies s_rods s_points s_lines ser_cat];
    repeat match goal with H : _ = Ok _ |- _ => rewrite H; clear H end; cbn [obind]; reflexivity|].
  split; [repeat (apply Forall_app; split; try assumption); constructor|].
  intros rest; unfold rbind, rret.
  repeat (rewrite <- ?app_assoc;
              match goal with H : forall rest, _ (?w ++ rest) = _ |- context [?w ++ _] =>
                rewrite H; cbn [obind fst snd]; clear H end). reflexivity.
Qed.

(** ** Restoring into an existing object *)

(** [restores ws d o]: reading [ws] into any object with compatible layout *)
Lemma restore_scheme_ok s o : scheme_ok s -> same_layout_scheme s o ->
  exists ws, ser_scheme be fuel s = Ok ws /\ Forall word ws /\
  forall rest, exists o', restore_scheme be o (ws ++ rest) = Ok (o', rest)
     /\ scheme_saved o' = scheme_saved s /\ scheme_unsaved o' = scheme_unsaved o.
Proof.
  destruct s as [nb nr np nl t r rd k tl]; destruct o as [nb' nr' np' nl' t' r' rd' k' tl'].
  intros (Ht & Hr & Hrd & Hk) (E1 & E2 & E3 & E4 & E5 & E6 & E7).
  cbn [ts_nb ts_nr ts_np ts_nl ts_t ts_r ts_rd ts_steps] in *. subst nb' nr' np' nl'.
  apply (Forall_impl _ (rt_sys_state nb nr np nl)) in Hr, Hrd.
  apply (rt_seq_n _ _ _ _ E5) in Hr. apply (rt_seq_n _ _ _ _ E6) in Hrd.
  apply (rt_real be fuel Hfuel) in Ht.
  assert (Hsteps : exists ws, ser_steps be k = Ok ws /\ Forall word ws /\
     forall rest, de_steps be k' (ws ++ rest) = Ok (k, rest)).
  { destruct k as [n|].
    - destruct (rt_u64 be n) as (ws & H1 & H2 & H3); [unfold word; lia|].
      exists ws; split; [exact H1|]; split; [exact H2|]. intros rest.
      destruct k' as [m|]; [|exfalso; destruct E7 as [_ E7]; discriminate (E7 eq_refl)].
      cbn [de_steps]. unfold rbind. rewrite H3. cbn [obind fst snd]. unfold rret.
      rewrite Z.mod_small by lia. reflexivity.
    - exists []; split; [reflexivity|]; split; [constructor|]. intros rest.
      destruct k' as [m|]; [exfalso; destruct E7 as [E7 _]; discriminate (E7 eq_refl)|]. reflexivity. }
  destruct Hsteps as (wk & Hk1 & Hk2 & Hk3). clear E5 E6 E7.
  rt_collect. unfold ser_scheme, restore_scheme.
  eexists; split; [cbn [ts_t ts_r ts_rd ts_steps ser_cat];
    repeat match goal with H : _ = Ok _ |- _ => rewrite H; clear H end; cbn [obind]; reflexivity|].
  split; [repeat (apply Forall_app; split; try assumption); constructor|].
  intros rest. eexists; split.
  - unfold rbind, rret. cbn [ts_nb ts_nr ts_np ts_nl ts_t ts_r ts_rd ts_steps].
    repeat (rewrite <- ?app_assoc;
              match goal with H : forall rest, _ (?w ++ rest) = _ |- context [?w ++ _] =>
                rewrite H; cbn [obind fst snd]; clear H end). reflexivity.
  - split; reflexivity.
Qed.

Lemma restore_list_ok {A B C} (ser : writer B) (de : A -> reader A) (saved : A -> B) (unsaved : A -> C)
  (P : B -> Prop) :
  (forall b, P b -> exists ws, ser b = Ok ws /\ Forall word ws /\
     forall o rest, exists o', de o (ws ++ rest) = Ok (o', rest) /\ saved o' = b /\ unsaved o' = unsaved o) ->
  forall l l0, Forall (fun a => P (saved a)) l -> length l = length l0 ->
  exists ws, ser_seq (fun a => ser (saved a)) l = Ok ws /\ Forall word ws /\
  forall rest, exists l', restore_list de l0 (ws ++ rest) = Ok (l', rest)
     /\ map saved l' = map saved l /\ map unsaved l' = map unsaved l0.
Proof.
  clear. intros HP l. induction l as [|a l IH]; intros l0 Hf Hl.
  - destruct l0; [|discriminate]. exists []; split; [reflexivity|]; split; [constructor|].
    intros rest; exists []; repeat split.
  - destruct l0 as [|a0 l0]; [discriminate|]. inversion Hf as [|x y Ha Hf']; subst.
    destruct (HP _ Ha) as (ws & H1 & H2 & H3). injection Hl as Hl.
    destruct (IH l0 Hf' Hl) as (ws' & G1 & G2 & G3). unfold ser_seq in *.
    exists (ws ++ ws'). split; [|split].
    + cbn [map ser_cat]. rewrite H1. cbn [obind]. rewrite G1. reflexivity.
    + apply Forall_app; split; assumption.
    + intros rest. destruct (H3 a0 (ws' ++ rest)) as (o' & K1 & K2 & K3).
      destruct (G3 rest) as (l' & L1 & L2 & L3).
      exists (o' :: l'). split; [|split].
      * cbn [restore_list]. unfold rbind. rewrite <- app_assoc, K1. cbn [obind fst snd].
        rewrite L1. reflexivity.
      * cbn [map]. rewrite K2, L2. reflexivity.
      * cbn [map]. rewrite K3, L3. reflexivity.
Qed.

Lemma restore_saved_part {A B C} (ser : writer B) (de : reader B) (saved : A -> B) (unsaved : A -> C)
  (mk : A -> B -> A) :
  (forall o b, saved (mk o b) = b) -> (forall o b, unsaved (mk o b) = unsaved o) ->
  forall b, roundtrips ser de b ->
  exists ws, ser b = Ok ws /\ Forall word ws /\
     forall o rest, exists o', rbind de (fun s => rret (mk o s)) (ws ++ rest) = Ok (o', rest)
        /\ saved o' = b /\ unsaved o' = unsaved o.
Proof.
  clear. intros H1 H2 b (ws & Hs & Hw & Hd). exists ws; split; [exact Hs|]; split; [exact Hw|].
  intros o rest. exists (mk o b). unfold rbind. rewrite Hd. cbn. repeat split; auto.
Qed.

Lemma restore_bodies l l0 : Forall (fun o => body_ok (b_saved o)) l -> length l = length l0 ->
  exists ws, ser_seq (fun o => ser_body be fuel (b_saved o)) l = Ok ws /\ Forall word ws /\
  forall rest, exists l', restore_list (restore_body be) l0 (ws ++ rest) = Ok (l', rest)
   /\ map b_saved l' = map b_saved l
   /\ map (fun o => (b_dPos o, b_a6 o, b_rdd_ves o)) l' = map (fun o => (b_dPos o, b_a6 o, b_rdd_ves o)) l0.
Proof.
  apply (restore_list_ok _ _ b_saved (fun o => (b_dPos o, b_a6 o, b_rdd_ves o)) body_ok).
  intros b Hb. apply (restore_saved_part _ _ b_saved (fun o => (b_dPos o, b_a6 o, b_rdd_ves o))
     (fun o s => mkBody s (b_dPos o) (b_a6 o) (b_rdd_ves o))); try reflexivity.
  apply rt_body; assumption.
Qed.
Lemma restore_rods l l0 : Forall (fun o => rod_ok (r_saved o)) l -> length l = length l0 ->
  exists ws, ser_seq (fun o => ser_rod be fuel (r_saved o)) l = Ok ws /\ Forall word ws /\
  forall rest, exists l', restore_list (restore_rod be) l0 (ws ++ rest) = Ok (l', rest)
   /\ map r_saved l' = map r_saved l
   /\ map (fun o => (r_vel7 o, r_acc6 o, r_rdd_ves o)) l' = map (fun o => (r_vel7 o, r_acc6 o, r_rdd_ves o)) l0.
Proof.
  apply (restore_list_ok _ _ r_saved (fun o => (r_vel7 o, r_acc6 o, r_rdd_ves o)) rod_ok).
  intros b Hb. apply (restore_saved_part _ _ r_saved (fun o => (r_vel7 o, r_acc6 o, r_rdd_ves o))
     (fun o s => mkRod s (r_vel7 o) (r_acc6 o) (r_rdd_ves o))); try reflexivity.
  apply rt_rod; assumption.
Qed.
Lemma restore_points l l0 : Forall (fun o => point_ok (p_saved o)) l -> length l = length l0 ->
  exists ws, ser_seq (fun o => ser_point be fuel (p_saved o)) l = Ok ws /\ Forall word ws /\
  forall rest, exists l', restore_list (restore_point be) l0 (ws ++ rest) = Ok (l', rest)
   /\ map p_saved l' = map p_saved l /\ map p_acc l' = map p_acc l0.
Proof.
  apply (restore_list_ok _ _ p_saved p_acc point_ok).
  intros b Hb. apply (restore_saved_part _ _ p_saved p_acc (fun o s => mkPoint s (p_acc o))); try reflexivity.
  apply rt_point; assumption.
Qed.
Lemma restore_lines l l0 : Forall (fun o => line_ok (l_saved o)) l -> length l = length l0 ->
  exists ws, ser_seq (fun o => ser_line be fuel (l_saved o)) l = Ok ws /\ Forall word ws /\
  forall rest, exists l', restore_list (restore_line be) l0 (ws ++ rest) = Ok (l', rest)
   /\ map l_saved l' = map l_saved l
   /\ map (fun o => (l_UnstrLen o, l_UnstrLen0 o, l_UnstrLend o)) l' = map (fun o => (l_UnstrLen o, l_UnstrLen0 o, l_UnstrLend o)) l0.
Proof.
  apply (restore_list_ok _ _ l_saved (fun o => (l_UnstrLen o, l_UnstrLen0 o, l_UnstrLend o)) line_ok).
  intros b Hb. apply (restore_saved_part _ _ l_saved (fun o => (l_UnstrLen o, l_UnstrLen0 o, l_UnstrLend o))
     (fun o s => mkLine s (l_UnstrLen o) (l_UnstrLen0 o) (l_UnstrLend o))); try reflexivity.
  apply rt_line; assumption.
Qed.

Lemma restore_system_ok s o : system_ok s -> same_layout s o ->
  exists ws, ser_system be fuel s = Ok ws /\ Forall word ws /\
  forall rest, exists o', restore_system be o (ws ++ rest) = Ok (o', rest)
     /\ system_saved o' = system_saved s /\ system_unsaved o' = system_unsaved o.
Proof.
  intros (Hn & Hs & Hb & Hr & Hp & Hl) (Es & Eb & Er & Ep & El).
  destruct (rt_u64 be (sys_npW s)) as (w0 & A1 & A2 & A3); [unfold word; lia|].
  destruct (restore_scheme_ok _ _ Hs Es) as (w1 & B1 & B2 & B3).
  destruct (restore_bodies _ _ Hb Eb) as (w2 & C1 & C2 & C3).
  destruct (restore_rods _ _ Hr Er) as (w3 & D1 & D2 & D3).
  destruct (restore_points _ _ Hp Ep) as (w4 & F1 & F2 & F3).
  destruct (restore_lines _ _ Hl El) as (w5 & G1 & G2 & G3).
  unfold ser_system. cbn [ser_cat]. rewrite A1, B1, C1, D1, F1, G1. cbn [obind].
  eexists; split; [reflexivity|].
  split; [repeat (apply Forall_app; split; try assumption); constructor|].
  intros rest. rewrite <- !app_assoc. cbn [app].
  destruct (G3 rest) as (ls & G4 & G5 & G6).
  destruct (F3 (w5 ++ rest)) as (ps & F4 & F5 & F6).
  destruct (D3 (w4 ++ w5 ++ rest)) as (rs & D4 & D5 & D6).
  destruct (C3 (w3 ++ w4 ++ w5 ++ rest)) as (bs & C4 & C5 & C6).
  destruct (B3 (w2 ++ w3 ++ w4 ++ w5 ++ rest)) as (ts & B4 & B5 & B6).
  eexists; split.
  - unfold restore_system, rbind, rret. rewrite A3. cbn [obind fst snd]. rewrite B4. cbn [obind fst snd].
    rewrite C4. cbn [obind fst snd]. rewrite D4. cbn [obind fst snd]. rewrite F4. cbn [obind fst snd].
    rewrite G4. cbn [obind fst snd]. reflexivity.
  - unfold system_saved, system_unsaved;
    cbn [sys_npW sys_scheme sys_bodies sys_rods sys_points sys_lines sys_failed].
    rewrite B5, C5, D5, F5, G5, B6, C6, D6, F6, G6. rewrite Z.mod_small by lia. split; reflexivity.
Qed.
End RTObj.
