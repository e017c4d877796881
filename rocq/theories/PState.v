(** Save and Load of whole systems. *)
From Coq Require Import ZArith List Bool Lia.
From Verif Require Import MErr MPack PPack MIO SIO PIO MIOFile PIOFile MObj SObj PObj.
Import ListNotations.
Open Scope Z_scope.

Lemma system_save_load be fuel maj min alloc_ok s o :
  1100 <= Z.of_nat fuel ->
  2 <= maj < 256 -> 2 <= min < 256 ->
  system_ok s -> same_layout s o ->
  (forall n, alloc_ok n = true) ->
  exists words, ser_system be fuel s = Ok words /\
  (Z.of_nat (length words) < 2 ^ 61 ->
   exists o', load be (min_version maj min) alloc_ok (system_deserialize be) o (save be maj min words) = (o', Ok tt)
     /\ system_saved o' = system_saved s /\ system_unsaved o' = system_unsaved o).
Proof.
  intros Hf HM Hm Hs Hl Ha.
  destruct (restore_system_ok be fuel Hf s o Hs Hl) as (ws & H1 & H2 & H3).
  exists ws; split; [exact H1|]. intros Hlen.
  destruct (H3 []) as (o' & K1 & K2 & K3). rewrite app_nil_r in K1.
  exists o'. split; [|split; assumption].
  apply load_save; try assumption; try lia.
  - apply own_version; lia.
  - apply Ha.
  - unfold system_deserialize. rewrite K1. reflexivity.
Qed.

(** ** Witnesses *)
Definition fone := FFin false (2 ^ 52) (-52).
Definition vzero := mkVec FZero FZero FZero.
Definition vone := mkVec fone fone fone.
Definition mzero := mkMat vzero vzero vzero.
Definition pt (v : vec) := mkPoint (mkPointSaved v vzero vzero vzero vzero mzero) vzero.
Definition empty_state := mkSysState [] [] [] [].
Definition euler0 := mkScheme 0 0 0 0 FZero [empty_state] [empty_state] None FZero.
Definition sys_points_only (l : list point) := mkSystem 0 euler0 [] [] l [] [].
Definition ln (len : fval) :=
  mkLine (mkLineSaved FZero [] [] [] [] [] [] [] [] [] [] [] [] [] [] [] [] [] [] [] [] []) len len FZero.
Definition sys_one_line (l : line) := mkSystem 0 euler0 [] [] [] [l] [].
Definition words_or_nil (o : outcome (list Z)) : list Z := match o with Ok w => w | _ => [] end.

Lemma storable_zero : storable FZero. Proof. left; reflexivity. Qed.
Lemma storable_one : storable fone.
Proof. right. exists false, (2 ^ 52), (-52). split; [reflexivity|]. lia. Qed.
Lemma vzero_ok : vec_ok vzero. Proof. repeat split; apply storable_zero. Qed.
Lemma vone_ok : vec_ok vone. Proof. repeat split; apply storable_one. Qed.
Lemma mzero_ok : mat_ok mzero. Proof. repeat split; apply storable_zero. Qed.
Lemma pt_ok v : vec_ok v -> point_ok (p_saved (pt v)).
Proof. intros H. repeat split; try apply H; try apply storable_zero. Qed.
Lemma pts_ok l : Forall vec_ok l -> Forall (fun o => point_ok (p_saved o)) (map pt l).
Proof. intros H. induction H; constructor; [apply pt_ok; assumption|assumption]. Qed.
Lemma euler0_ok : scheme_ok euler0.
Proof.
  split; [apply storable_zero|]. repeat split; try (repeat constructor).
Qed.
Lemma points_only_ok l : Forall (fun o => point_ok (p_saved o)) l -> system_ok (sys_points_only l).
Proof. intros H. split; [cbn; lia|]. split; [apply euler0_ok|]. repeat split; try constructor; assumption. Qed.
Lemma ln_ok f : line_ok (l_saved (ln f)).
Proof. repeat split; try (apply storable_zero); try constructor. Qed.
Lemma one_line_ok f : system_ok (sys_one_line (ln f)).
Proof.
  split; [cbn; lia|]. split; [apply euler0_ok|]. split; [constructor|]. split; [constructor|]. split; [constructor|].
  constructor; [apply ln_ok|constructor].
Qed.

Lemma failed_load_changes_state :
  exists (s o o' : system) words,
    system_ok s /\ system_ok o /\ ser_system false 1100 s = Ok words /\
    load false (min_version 2 3) (fun _ => true) (system_deserialize false) o (save false 2 3 words) = (o', Throw ExMem)
    /\ map p_saved (sys_points o') <> map p_saved (sys_points o).
Proof.
  exists (sys_points_only (map pt [vone; vzero])), (sys_points_only (map pt [vzero])), (sys_points_only (map pt [vone])).
  exists (words_or_nil (ser_system false 1100 (sys_points_only (map pt [vone; vzero])))).
  split; [apply points_only_ok; apply pts_ok; constructor; [apply vone_ok|constructor; [apply vzero_ok|constructor]]|].
  split; [apply points_only_ok; apply pts_ok; constructor; [apply vzero_ok|constructor]|].
  split; [vm_compute; reflexivity|]. split; [vm_compute; reflexivity|].
  cbn. discriminate.
Qed.

Lemma failed_load_out_of_bounds :
  exists (s o : system) words,
    system_ok s /\ system_ok o /\ ser_system false 1100 s = Ok words /\
    snd (load false (min_version 2 3) (fun _ => true) (system_deserialize false) o (save false 2 3 words)) = UB.
Proof.
  exists (sys_points_only (map pt [vzero])), (sys_points_only (map pt [vone; vzero])).
  exists (words_or_nil (ser_system false 1100 (sys_points_only (map pt [vzero])))).
  split; [apply points_only_ok; apply pts_ok; constructor; [apply vzero_ok|constructor]|].
  split; [apply points_only_ok; apply pts_ok; constructor; [apply vone_ok|constructor; [apply vzero_ok|constructor]]|].
  split; vm_compute; reflexivity.
Qed.

Lemma load_loses_length :
  exists (s o o' : system) words,
    system_ok s /\ same_layout s o /\ ser_system false 1100 s = Ok words /\
    load false (min_version 2 3) (fun _ => true) (system_deserialize false) o (save false 2 3 words) = (o', Ok tt)
    /\ map l_UnstrLen (sys_lines o') <> map l_UnstrLen (sys_lines s).
Proof.
  exists (sys_one_line (ln fone)), (sys_one_line (ln FZero)), (sys_one_line (ln FZero)).
  exists (words_or_nil (ser_system false 1100 (sys_one_line (ln fone)))).
  split; [apply one_line_ok|]. split; [repeat split; reflexivity|].
  split; [vm_compute; reflexivity|]. split; [vm_compute; reflexivity|]. cbn. discriminate.
Qed.

Definition sys_fail (l : list bool) := mkSystem 0 euler0 [] [] [] [] l.
Lemma load_loses_failures :
  exists (s o o' : system) words,
    system_ok s /\ same_layout s o /\ ser_system false 1100 s = Ok words /\
    load false (min_version 2 3) (fun _ => true) (system_deserialize false) o (save false 2 3 words) = (o', Ok tt)
    /\ sys_failed o' <> sys_failed s.
Proof.
  exists (sys_fail [false]), (sys_fail [true]), (sys_fail [true]).
  exists (words_or_nil (ser_system false 1100 (sys_fail [false]))).
  split; [split; [cbn; lia|]; split; [apply euler0_ok|]; repeat split; constructor|].
  split; [repeat split; reflexivity|].
  split; [vm_compute; reflexivity|]. split; [vm_compute; reflexivity|]. cbn. discriminate.
Qed.

Definition v6zero := mkVec6 FZero FZero FZero FZero FZero FZero.
Definition m6zero := mkMat6 v6zero v6zero v6zero v6zero v6zero v6zero.
Definition qzero := mkXYZQuat vzero (mkQuat FZero FZero FZero FZero).
Definition bd (a : vec6) :=
  mkBody (mkBodySaved qzero v6zero v6zero v6zero v6zero m6zero mzero) qzero a v6zero.
Definition v6one := mkVec6 fone fone fone fone fone fone.
Definition sys_one_body (b : body) := mkSystem 0 euler0 [b] [] [] [] [].
Lemma load_loses_acceleration :
  exists (s o o' : system) words,
    system_ok s /\ same_layout s o /\ ser_system false 1100 s = Ok words /\
    load false (min_version 2 3) (fun _ => true) (system_deserialize false) o (save false 2 3 words) = (o', Ok tt)
    /\ map b_a6 (sys_bodies o') <> map b_a6 (sys_bodies s).
Proof.
  exists (sys_one_body (bd v6one)), (sys_one_body (bd v6zero)), (sys_one_body (bd v6zero)).
  exists (words_or_nil (ser_system false 1100 (sys_one_body (bd v6one)))).
  split; [split; [cbn; lia|]; split; [apply euler0_ok|];
          split; [constructor; [repeat split; apply storable_zero|constructor]|repeat split; constructor]|].
  split; [repeat split; reflexivity|].
  split; [vm_compute; reflexivity|]. split; [vm_compute; reflexivity|]. cbn. discriminate.
Qed.
