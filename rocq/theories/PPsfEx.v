(* Proofs: a concrete instrument and galaxy for the PSF theorems. *)
From Coq Require Import Reals List Bool Arith ZArith Lra Lia.
From Verif Require Import PyFloat PyBase Arr PyNum MKernels SKernels PKernels PKernels2 MAper2D SAper2D
  PAper2DGrid PAper2DShape PAper2DOk PAper2DEx PAper2DTop SPsf PPsf.
Import ListNotations.
Local Open Scope R_scope.

(* Gaussian-like profile, FWHM of two pixels, [n] rows, a slit of [n] pixels, object at row [m]. *)
Definition e_prof (x y : R) : R := exp (- (x * x + y * y)).
Definition e_ins (n : nat) : instr := mkinstr (INR n) 1 2 (Fin 0) false
  (fun x y => match x, y with Fin a, Fin b => Fin (e_prof a b) | _, _ => NaN end).
Definition e_opt : opts := mkopts 1 0 true false false 0 Wave false false 1 false.
Definition e_cfg (n : nat) (m : R) : cfg :=
  mkcfg (mkgal (Fin 1) (Fin 0) (Fin 0) n (map Fin [1; 2]) (Fin m) [Fin 1] [Fin 1] w_data) (e_ins n) e_opt w_prof.
Definition e_cube (n p q : nat) : arr3 fl :=
  mk3 2 n n (fun w i j => Fin (if Nat.eqb w 0 && Nat.eqb i p && Nat.eqb j q then 5 else 0)).

Lemma e_prof_ok n x y : i_prof (c_ins (e_cfg n 0)) (Fin x) (Fin y) = Fin (e_prof x y) /\ 0 < e_prof x y.
Proof. split; [reflexivity|apply exp_pos]. Qed.
Lemma e_prof_dec x y y' : Rabs y < Rabs y' -> e_prof x y' < e_prof x y.
Proof.
  intros H. unfold e_prof. apply exp_increasing.
  assert (y * y < y' * y'); [|lra].
  rewrite <- (Rabs_pos_eq (y * y)), <- (Rabs_pos_eq (y' * y')) by (apply Rle_0_sqr).
  rewrite !Rabs_mult. pose proof (Rabs_pos y). nra.
Qed.
Lemma e_prof_sym x y : e_prof x (- y) = e_prof x y.
Proof. unfold e_prof. do 2 f_equal. ring. Qed.
Lemma e_point n p q : (p < n)%nat -> (q < n)%nat -> point (e_cube n p q) 0 p q 5.
Proof. intros. unfold point, e_cube. cbn [dim0 dim1 dim2]. repeat split; auto; lia. Qed.

Lemma e_posed n m : (2 <= n)%nat -> well_posed (e_cfg n m) (w_th 0) [1; 2].
Proof.
  intros Hn. assert (2 <= INR n) by (apply (le_INR 2); lia).
  unfold well_posed. cbn. repeat split; try lia; try lra; try discriminate; auto.
  all: try apply incr12.
  right. split; [lra|]. split; [lra|]. eauto.
Qed.

Lemma near_full l n c s fwhm : length l = n -> (1 <= n)%nat ->
  (forall i, (i < n)%nat -> lnth l i = Fin (c + (INR i - (INR n - 1) / 2) * s)) ->
  0 <= s -> (INR n - 1) / 2 * s <= fwhm -> near fwhm l = l.
Proof.
  intros Hl Hn H Hs HF. unfold near.
  assert (Hav : average l = Fin c).
  { rewrite (average_ap l n (c - (INR n - 1) / 2 * s) s Hl Hn).
    - f_equal. ring.
    - intros i Hi. rewrite H by assumption. f_equal. ring. }
  rewrite Hav. apply filter_all. intros x Hx.
  apply (In_nth _ _ NaN) in Hx. destruct Hx as (i & Hi & <-). fold (lnth l i).
  rewrite H by lia. unfold fsub. cbn [fadd fneg fabs fleb]. apply Rleb_true.
  assert (INR i <= INR n - 1).
  { assert (INR (S i) <= INR n) by (apply le_INR; lia). rewrite S_INR in H0. lra. }
  pose proof (pos_INR i). apply Rabs_le. split; nra.
Qed.

Lemma e_setup n m : (3 <= n)%nat -> (n <= 4)%nat -> exists a0 ker, setup_calcs (e_cfg n m) (w_th 0) = Ok a0 /\
  let g := s_grid (a_su a0) in
  m0_fit g = Fin (m + 0) /\ nY g = n /\ nX g = n /\ delt_y g = 1 /\ delt_x g = 1 /\
  a_stamp a0 = Stamp3 ker /\ dim1 ker = n /\ dim2 ker = n.
Proof.
  intros Hn Hn4. destruct (setup_ok _ _ _ (e_posed n m ltac:(lia))) as (g & w & Hg).
  destruct (setup_fields _ _ _ _ Hg) as (F1&F2&F3&F4&F5&F6&F7&F8&F9&F10&F11&F12&F13&F14&F15&F16&F17&F18&(sh&F19&F20)&_).
  cbn in F19. injection F19 as <-.
  assert (Hnr : 3 <= INR n <= 4).
  { apply le_INR in Hn, Hn4. cbn [INR] in Hn, Hn4. lra. }
  assert (P : forall x, nat_of_round (i_fwhm (c_ins (e_cfg n m)) * o_pad (c_opt (e_cfg n m)) / x) = 0%nat).
  { intros x. unfold nat_of_round. cbn [c_opt e_cfg o_pad e_opt].
    replace (_ * 0 / x) with 0 by (unfold Rdiv; ring). change 0 with (IZR 0). now rewrite Rround_IZR. }
  rewrite P in F10, F11.
  assert (EY : nY g = n) by (rewrite F13, F4, F10; cbn; lia).
  assert (EP : n_pix_x g = n).
  { rewrite F6. unfold slit_npix. cbn. rewrite Nat.mul_1_r.
    destruct (Reqb (INR n * (1 / 1)) (INR n)) eqn:E; [reflexivity|]. apply Reqb_false in E. lra. }
  assert (EX : nX g = n) by (rewrite F12, EP, F11; cbn; lia).
  assert (Dy : delt_y g = 1) by (rewrite F7; cbn; field).
  assert (Dx : delt_x g = 1) by (rewrite F9, EP; cbn; field; lra).
  unfold setup_calcs. rewrite Hg. cbn [bind].
  eexists _, _. split; [reflexivity|]. cbn [s_grid a_su a_stamp].
  split; [rewrite F20; reflexivity|]. do 4 (split; [assumption|]).
  split; [reflexivity|]. cbn [dim1 dim2].
  assert (Hm : m0_fit g = Fin (m + 0)) by (rewrite F20; reflexivity).
  destruct (x_grid_top _ _ _ _ Hg) as (Lx & Vx).
  destruct (y_grid_top _ _ _ _ _ Hg Hm ltac:(lia)) as (Ly & Vy & _).
  cbn [c_ins e_cfg i_fwhm e_ins].
  rewrite (near_full (y_arr g) n ((INR n - 1) / 2 - m) (1 - 1 / (INR n - 1)) 2).
  rewrite (near_full (x_arr g) n 0 1 2); try lia; try lra.
  - intros i Hi. rewrite Vx by lia. rewrite EX, Dx. cbn [c_opt e_cfg o_xc e_opt]. f_equal. ring.
  - lia.
  - lia.
  - intros i Hi. rewrite Vy by lia. rewrite EY, Dy, F10. unfold subpixel_y. cbn [c_opt e_cfg o_nsub e_opt INR]. f_equal. field. lra.
  - assert (1 / (INR n - 1) <= 1); [|lra]. apply Rmult_le_reg_r with (INR n - 1); [lra|].
    unfold Rdiv. rewrite Rmult_assoc, Rinv_l; lra.
  - assert (0 <= 1 / (INR n - 1)). { apply Rlt_le, Rdiv_lt_0_compat; lra. } nra.
Qed.

Lemma e_centred_hyps : exists a0 ker, setup_calcs (e_cfg 3 1) (w_th 0) = Ok a0 /\
  let c := e_cfg 3 1 in let g := s_grid (a_su a0) in
  m0_fit g = Fin ((INR (g_rows (c_gal c)) - 1) / 2) /\ o_xc (c_opt c) = 0 /\
  Nat.even (nY g) = false /\ Nat.even (nX g) = false /\ (2 <= nY g)%nat /\ 0 < i_fwhm (c_ins c) /\
  (forall x y, i_prof (c_ins c) (Fin x) (Fin y) = Fin (e_prof x y) /\ 0 < e_prof x y) /\
  point (e_cube 3 1 1) 0 1 1 5 /\ a_stamp a0 = Stamp3 ker /\ (1 <= dim1 ker)%nat /\ (1 <= dim2 ker)%nat.
Proof.
  destruct (e_setup 3 1 ltac:(lia) ltac:(lia)) as (a0 & ker & E & Hm & Hy & Hx & Dy & Dx & Hs & K1 & K2).
  exists a0, ker. split; [exact E|]. cbv zeta. rewrite Hm, Hy, Hx, K1, K2.
  split; [cbn; f_equal; lra|]. do 3 (split; [reflexivity|]). split; [lia|]. split; [cbn; lra|].
  split; [apply e_prof_ok|]. split; [apply e_point; lia|]. split; [exact Hs|]. lia.
Qed.

Lemma e_displaced_hyps : exists a0 ker, setup_calcs (e_cfg 3 0) (w_th 0) = Ok a0 /\
  let c := e_cfg 3 0 in let g := s_grid (a_su a0) in
  let sy := delt_y g * (1 - INR (o_nsub (c_opt c)) / (INR (nY g) - 1)) in
  m0_fit g = Fin 0 /\ 0 < sy /\ sy < ((INR (g_rows (c_gal c)) - 1) / 2 - 0) * i_pix (c_ins c) /\
  (2 <= nY g)%nat /\ 0 < i_fwhm (c_ins c) /\
  (forall x y, i_prof (c_ins c) (Fin x) (Fin y) = Fin (e_prof x y) /\ 0 < e_prof x y) /\
  (forall x y y', Rabs y < Rabs y' -> e_prof x y' < e_prof x y) /\
  point (e_cube 3 1 1) 0 1 1 5 /\ a_stamp a0 = Stamp3 ker /\ (3 <= dim1 ker)%nat /\ (1 <= dim2 ker)%nat.
Proof.
  destruct (e_setup 3 0 ltac:(lia) ltac:(lia)) as (a0 & ker & E & Hm & Hy & Hx & Dy & Dx & Hs & K1 & K2).
  exists a0, ker. split; [exact E|]. cbv zeta. rewrite Hm, Hy, Dy, K1, K2.
  split; [f_equal; lra|]. split; [cbn; lra|]. split; [cbn; lra|]. split; [lia|]. split; [cbn; lra|].
  split; [apply e_prof_ok|]. split; [apply e_prof_dec|]. split; [apply e_point; lia|]. split; [exact Hs|]. lia.
Qed.

Lemma e_even_hyps : exists a0 ker, setup_calcs (e_cfg 4 (3/2)) (w_th 0) = Ok a0 /\
  let c := e_cfg 4 (3/2) in let g := s_grid (a_su a0) in
  m0_fit g = Fin ((INR (g_rows (c_gal c)) - 1) / 2) /\ Nat.even (nY g) = true /\ (2 <= nY g)%nat /\
  0 < i_fwhm (c_ins c) /\
  (forall x y, i_prof (c_ins c) (Fin x) (Fin y) = Fin (e_prof x y) /\ 0 < e_prof x y) /\
  (forall x y, e_prof x (- y) = e_prof x y) /\
  point (e_cube 4 1 1) 0 1 1 5 /\ a_stamp a0 = Stamp3 ker /\ (2 <= dim1 ker)%nat /\ (1 <= dim2 ker)%nat.
Proof.
  destruct (e_setup 4 (3/2) ltac:(lia) ltac:(lia)) as (a0 & ker & E & Hm & Hy & Hx & Dy & Dx & Hs & K1 & K2).
  exists a0, ker. split; [exact E|]. cbv zeta. rewrite Hm, Hy, K1, K2.
  split; [cbn; f_equal; lra|]. split; [reflexivity|]. split; [lia|]. split; [cbn; lra|].
  split; [apply e_prof_ok|]. split; [apply e_prof_sym|]. split; [apply e_point; lia|]. split; [exact Hs|]. lia.
Qed.
