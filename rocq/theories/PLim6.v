From Coq Require Import Reals Lra List Bool Arith ZArith Lia.
From Verif Require MProf PProf.
From Verif Require Import PyFloat PyBase Arr PyNum MParams MKernels MAper2D MMock SParams SKernels SAper2D SAper1D SLine SLos SReach STruth SFinite SLim PParams PKernels PData PAper2D PAper2DHist PAper2DGrid PAper2DShape PAper2DTop PAper2DOk PLos PReach PReach2 PTruth PTruth2 PFinite PFinite2 PFinite3 PFinite4 PLim PLim2 PLim3 PLim4 PLim5.
Import ListNotations.
Local Open Scope R_scope.

Definition extend {A} (f : nat -> A) (x : A) : option nat -> A := fun o => match o with Some n => f n | None => x end.

Lemma arctan_approach c l van rtn sn va rt s m z :
  p_nvel (c_prof c) = 2%nat -> p_vel (c_prof c) = MProf.vel_arctan -> p_disp (c_prof c) = MProf.disp_const ->
  (forall n, shining c [Fin (van n); Fin (rtn n); Fin (sn n); m; z] l) -> shining c [Fin va; Fin rt; Fin s; m; z] l ->
  (forall n, rtn n <> 0) -> rt <> 0 -> Un_cv van va -> Un_cv rtn rt -> Un_cv sn s ->
  discs_approach c l (fun n => [Fin (van n); Fin (rtn n); Fin (sn n); m; z]) [Fin va; Fin rt; Fin s; m; z] /\ continuous_dispersion c.
Proof.
  intros Hn Hv Hd Sn Sh Rn Rt Ca Cr Cs. split.
  - split; auto.
    + rewrite Hn, Hv. cbn [firstn]. intros r h. exists (fun n => 2 / PI * van n * atan (r / rtn n)), (2 / PI * va * atan (r / rt)).
      split; [intros n; now apply PProf.vel_Fin|]. split; [now apply PProf.vel_Fin|].
      change (cv (fun o => 2 / PI * extend van va o * atan (r / extend rtn rt o))). apply cv_mult; [apply cv_mult; [apply cv_const|exact Ca]|].
      apply (cv_cont atan (fun o => r / extend rtn rt o)); [apply derivable_continuous_pt, derivable_pt_atan|]. apply cv_div; [exact Rt|apply cv_const|exact Cr].
    + rewrite Hn. cbn [nth]. now exists sn, s.
  - intros tn t _ _ Ct r h. rewrite Hd. exists tn, t. split; [intros n; cbn; f_equal; lra|]. split; [cbn; f_equal; lra|exact Ct].
Qed.

Lemma inv_cv a : Un_cv (fun n => a + / (INR n + 1)) a.
Proof.
  intros eps He. destruct (archimed_cor1 eps He) as (N & H1 & H2). exists N. intros n Hn. unfold R_dist. replace (a + / (INR n + 1) - a) with (/ (INR n + 1)) by ring.
  assert (0 < INR n + 1) by (pose proof (pos_INR n); lra). rewrite Rabs_pos_eq by (left; now apply Rinv_0_lt_compat).
  apply Rle_lt_trans with (/ INR N); [|exact H1]. apply Rinv_le_contravar; [now apply lt_0_INR|]. apply le_INR in Hn. lra.
Qed.
Lemma inv_pos n : 0 < / (INR n + 1).
Proof. apply Rinv_0_lt_compat. pose proof (pos_INR n). lra. Qed.

(* dispersions going down to 50 km/s, in the mock with everything on *)
Definition x_thn (n : nat) : list fl := [Fin 200; Fin (1/2); Fin (50 + / (INR n + 1)); Fin 0; Fin 1].
Definition x_th : list fl := [Fin 200; Fin (1/2); Fin 50; Fin 0; Fin 1].
Lemma x_lim_shining d s : 0 <= s -> shining (mock_cfg (x_mock 50) (x_mk 50) d) [Fin 200; Fin (1/2); Fin s; Fin 0; Fin 1] y_wide.
Proof. intros H. exact (x_shining s d H). Qed.
Lemma lim_example d : let c := mock_cfg (x_mock 50) (x_mk 50) d in discs_approach c y_wide x_thn x_th /\ continuous_dispersion c /\ regular c y_wide x_th.
Proof.
  cbv zeta. assert (A := arctan_approach (mock_cfg (x_mock 50) (x_mk 50) d) y_wide (fun _ => 200) (fun _ => 1/2) (fun n => 50 + / (INR n + 1)) 200 (1/2) 50 (Fin 0) (Fin 1) eq_refl eq_refl eq_refl).
  destruct A as (A1 & A2); try lra.
  - intros n. apply x_lim_shining. pose proof (inv_pos n). lra.
  - apply x_lim_shining. lra.
  - intros _. lra.
  - apply (cv_const 200).
  - apply (cv_const (1/2)).
  - apply inv_cv.
  - split; [exact A1|]. split; [exact A2|]. exists 50, 6565, 1. repeat (split; [reflexivity|]). split; [right; lra|]. intros _. rewrite Rabs_pos_eq by lra. unfold pixel_velocity, light_speed. cbn [y_wide last hd length INR]. lra.
Qed.

(* at zero dispersion the image jumps *)
Lemma y_flat_shining s : 0 <= s -> shining (y_wide_cfg 1) (y_flat s) y_wide.
Proof.
  intros Hs. destruct (y_wide_disc 1 s ltac:(lra)) as (W & _). split; [exact W|..].
  - exists 30, 1, 0. repeat split; lra.
  - exists (1 + 0). reflexivity.
  - exists 1. split; [reflexivity|lra].
  - exists [6565]. split; [reflexivity|]. intros x [<-|[]]. lra.
  - exists [1]. split; [reflexivity|]. intros x [<-|[]]. lra.
  - intros r h. eexists. apply PProf.vel_Fin. lra.
  - intros r h. exists (exp (- r)). split; [reflexivity|apply exp_pos].
  - intros t Ht r h. exists t. cbn. split; [f_equal; lra|]. split; auto.
  - exists s. split; [reflexivity|]. now right.
  - exists 0. reflexivity.
  - cbn. intros Q. lra.
Qed.
Lemma even_light s : 0 < s -> exists m, image_is (y_wide_cfg 1) (y_flat s) m /\ at2 m 0 0 = at2 m 0 1.
Proof.
  intros Hs. assert (Z : dispersion_is (y_wide_cfg 1) (y_flat s) (fun _ _ => s)) by (intros r h; cbn; split; [f_equal; lra|lra]).
  destruct (no_rotation _ _ _ _ _ _ _ _ _ _ _ _ _ (y_wide_disc 1 s ltac:(lra)) Z (or_introl eq_refl)) as (m & inc & n & nx & dx & E1 & E2 & E3 & E4 & E).
  exists m. split; [exact E1|]. rewrite (E 0%nat 0%nat), (E 0%nat 1%nat) by (cbn; lia). f_equal. f_equal. unfold spectrum. cbn [combine map fold_right fst snd y_wide nth].
  replace ((13126 - 6565 * (1 + 1) * (1 + 0 / light_speed)) ^ 2) with ((13134 - 6565 * (1 + 1) * (1 + 0 / light_speed)) ^ 2); [reflexivity|]. replace (0 / light_speed) with 0 by (unfold Rdiv; ring). ring.
Qed.
Lemma sharp_light : exists m x, image_is (y_wide_cfg 1) (y_flat 0) m /\ at2 m 0 0 = Fin x /\ 0 < x /\ at2 m 0 1 = Fin 0.
Proof.
  assert (Z : no_dispersion (y_wide_cfg 1) (y_flat 0)) by (intros r h; cbn; f_equal; lra).
  destruct (narrow_no_rotation _ _ _ _ _ _ _ _ _ _ _ _ (y_wide_disc 1 0 ltac:(lra)) Z (or_introl eq_refl)) as (m & inc & n & nx & dx & best & E1 & E2 & E3 & E4 & E5 & E).
  destruct (eval_lit _ _ _ (y_flat_shining 0 ltac:(lra))) as (m' & E' & R' & C' & N' & Lt').
  assert (m' = m) by (rewrite (image_img _ _ _ E'), (image_img _ _ _ E1); reflexivity). subst m'.
  assert (B : best (6565 * (1 + 1) * (1 + 0 / light_speed)) = 0%nat).
  { destruct (E5 (6565 * (1 + 1) * (1 + 0 / light_speed))) as (Q1 & Q2 & Q3). set (b := best _) in *. destruct (Nat.eq_dec b 0) as [Q|Q]; [exact Q|exfalso].
    assert (X : 6565 * (1 + 1) * (1 + 0 / light_speed) = 13130) by (unfold Rdiv; ring). rewrite X in *. specialize (Q3 0%nat ltac:(lia)). clear Q2.
    cbn [y_wide length] in Q1. destruct b as [|[|[|[|b]]]]; [now apply Q| | | |lia]; cbn [y_wide nth] in Q3; revert Q3; unfold Rabs; repeat destruct (Rcase_abs _); lra. }
  assert (V : forall t, (t < 4)%nat -> t <> 0%nat -> at2 m 0 t = Fin 0).
  { intros t Ht Q. rewrite (E 0%nat t) by (cbn; lia). unfold narrow. cbn [combine map fold_right fst snd]. rewrite B. destruct (Nat.eqb_spec 0 t) as [W|W]; [congruence|]. f_equal. ring. }
  destruct (Lt' 0%nat ltac:(cbn; lia)) as (j & x & Hj & Ej & Px). cbn [y_wide length] in Hj.
  exists m, x. split; [exact E1|]. destruct (Nat.eq_dec j 0) as [->|Q]; [split; [exact Ej|split; [exact Px|apply V; lia]]|]. rewrite V in Ej by assumption. injection Ej as <-. lra.
Qed.

Lemma limit_refuted : exists c l thn th mn m, discs_approach c l thn th /\ continuous_dispersion c /\ (forall n, image_is c (thn n) (mn n)) /\ image_is c th m /\
  o_adapt (c_opt c) = false /\ nth (p_nvel (c_prof c)) th NaN = Fin 0 /\
  ~ (forall i j, (i < img_rows c)%nat -> (j < length l)%nat -> approach (fun n => at2 (mn n) i j) (at2 m i j)).
Proof.
  destruct sharp_light as (m & x & E & P0 & Px & P1). exists (y_wide_cfg 1), y_wide, (fun n => y_flat (/ (INR n + 1))), (y_flat 0), (fun n => img (y_wide_cfg 1) (y_flat (/ (INR n + 1)))), m.
  assert (A := arctan_approach (y_wide_cfg 1) y_wide (fun _ => 200) (fun _ => 1/2) (fun n => / (INR n + 1)) 200 (1/2) 0 (Fin 0) (Fin 1) eq_refl eq_refl eq_refl).
  destruct A as (A1 & A2); try lra.
  - intros n. apply y_flat_shining. pose proof (inv_pos n). lra.
  - apply y_flat_shining. lra.
  - intros _. lra.
  - apply (cv_const 200).
  - apply (cv_const (1/2)).
  - intros eps He. destruct (inv_cv 0 eps He) as (N & HN). exists N. intros n Hn. specialize (HN n Hn). now rewrite Rplus_0_l in HN.
  - assert (EV : forall n, image_is (y_wide_cfg 1) (y_flat (/ (INR n + 1))) (img (y_wide_cfg 1) (y_flat (/ (INR n + 1)))) /\ at2 (img (y_wide_cfg 1) (y_flat (/ (INR n + 1)))) 0 0 = at2 (img (y_wide_cfg 1) (y_flat (/ (INR n + 1)))) 0 1).
    { intros n. destruct (even_light _ (inv_pos n)) as (m' & E' & Q'). now rewrite <- (image_img _ _ _ E'). }
    split; [exact A1|]. split; [exact A2|]. split; [intros n; apply EV|]. split; [exact E|]. split; [reflexivity|]. split; [reflexivity|]. intros Q.
    destruct (Q 0%nat 0%nat ltac:(cbn; lia) ltac:(cbn; lia)) as (g & y & G1 & G2 & G3). destruct (Q 0%nat 1%nat ltac:(cbn; lia) ltac:(cbn; lia)) as (g' & y' & K1 & K2 & K3).
    rewrite P0 in G2. rewrite P1 in K2. injection G2 as <-. injection K2 as <-.
    assert (x = 0); [|lra]. apply (UL_sequence g); [exact G3|]. intros eps He. destruct (K3 eps He) as (N & HN). exists N. intros n Hn.
    replace (g n) with (g' n); [now apply HN|]. assert (Fin (g n) = Fin (g' n)) as W by (rewrite <- (G1 n), <- (K1 n); apply EV). now injection W.
Qed.

Lemma lim_fit_example : let c := mock_cfg (x_mock 50) (x_mk 50) (x_data (fun _ _ => 1)) in
  discs_approach c y_wide x_thn x_th /\ continuous_dispersion c /\ regular c y_wide x_th /\ (exists k, history c x_kf k) /\
  (forall n, update_parameters (k_theta x_kf) (k_vary x_kf) [Fin 200; Fin (1/2); Fin (50 + / (INR n + 1))] = (x_thn n, Ok tt)) /\
  update_parameters (k_theta x_kf) (k_vary x_kf) [Fin 200; Fin (1/2); Fin 50] = (x_th, Ok tt).
Proof.
  cbv zeta. destruct (lim_example (x_data (fun _ _ => 1))) as (A & B & C). repeat (split; [assumption|]). split; [apply (x_start 50); lra|]. split; reflexivity.
Qed.
