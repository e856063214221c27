(* Proofs about the 1-D aperture models: grid, stamp and images. *)
From Coq Require Import Reals List Bool Arith ZArith Lia Lra Psatz.
From Verif Require Import PyFloat PyBase Arr PyNum MKernels MAper2D MProf MAper1D SKernels SAper1D SProf
  PKernels PKernels2 PProf PProf2 PAper1D.
Import ListNotations.
Local Open Scope R_scope.

Definition gx (n : nat) (w c : R) (i : nat) : R := (INR i - (2 * INR n + 1)) * w - c.

Lemma lnth_map (f : fl -> fl) l i : (i < length l)%nat -> lnth (map f l) i = f (lnth l i).
Proof.
  intros H. unfold lnth. rewrite nth_indep with (d' := f NaN) by (now rewrite map_length).
  apply map_nth.
Qed.

Lemma axis_value n W c i : (i < 4 * n + 3)%nat ->
  let w := 1/2 * W / (INR n + 1/2) in
  lnth (map (fun x => fsub x (Fin c))
    (linspace (fmul (Fin (- 2 * INR n - 1)) (Fin w)) (fmul (Fin (2 * INR n + 1)) (Fin w)) (4 * n + 3))) i =
  Fin (gx n w c i).
Proof.
  intros Hi w. rewrite lnth_map by (now rewrite linspace_length).
  rewrite linspace_nth by auto. cbn [fmul]. rewrite linspace_at_Fin by lia.
  unfold fsub. cbn [fadd fneg]. f_equal. unfold gx.
  replace (4 * n + 3 - 1)%nat with (2 * (2 * n + 1))%nat by lia.
  rewrite mult_INR, plus_INR, mult_INR. change (INR 2) with (1 + 1). change (INR 1) with 1.
  pose proof (pos_INR n). field. lra.
Qed.

Lemma ok_inj {A} (a b : A) : Ok a = Ok b -> a = b.
Proof. intros E. now inversion E. Qed.

Lemma half_pos n : 0 < INR n + 1/2.
Proof. pose proof (pos_INR n). lra. Qed.

(** The grid in closed form. *)
Lemma grid_value o ins re q dPA W xc yc g H :
  j_slit ins = Fin W -> d_xc o = Fin xc -> d_yc o = Fin yc ->
  grid_1D o ins re q dPA = Ok g -> u_ew g = Fin H ->
  let n := u_n g in
  let wx := 1/2 * W / (INR n + 1/2) in
  let wy := 1/2 * H / (INR n + 1/2) in
  n = (if fleb re (Fin (1/10)) then (2 * d_npix o)%nat else d_npix o) /\
  u_dx g = Fin wx /\ u_dy g = Fin wy /\ u_aper g = Fin W /\
  u_padX g = (n + 1)%nat /\ u_padY g = (n + 1)%nat /\
  length (u_x g) = (4 * n + 3)%nat /\ length (u_y g) = (4 * n + 3)%nat /\
  (forall i, (i < 4 * n + 3)%nat -> lnth (u_x g) i = Fin (gx n wx xc i)) /\
  (forall i, (i < 4 * n + 3)%nat -> lnth (u_y g) i = Fin (gx n wy yc i)) /\
  (match d_ew o with Some w => w = Fin H
   | None => exists f, psf_fwhm (j_psf ins) = Some f /\ default_width re q dPA f = Fin H end).
Proof.
  intros EW Ex Ey. unfold grid_1D. rewrite EW, Ex, Ey.
  set (N := if fleb re (Fin (1/10)) then (2 * d_npix o)%nat else d_npix o).
  pose proof (half_pos N) as HN.
  destruct (match d_ew o with Some w => Ok w | None => _ end) as [ew|e] eqn:Ew; [|discriminate].
  cbn [bind]. intros E. apply ok_inj in E. subst g. cbn [u_n u_ew u_dx u_dy u_aper u_padX u_padY u_x u_y].
  intros ->.
  change (fmul (Fin (1 / 2)) (Fin W)) with (Fin (1 / 2 * W)).
  change (fmul (Fin (1 / 2)) (Fin H)) with (Fin (1 / 2 * H)).
  rewrite !(fdiv_Fin _ (INR N + 1/2)) by lra.
  split; [reflexivity|].
  split; [reflexivity|]. split; [reflexivity|]. split; [reflexivity|]. split; [reflexivity|].
  split; [reflexivity|].
  rewrite !map_length, !linspace_length. split; [reflexivity|]. split; [reflexivity|].
  split; [intros i Hi; exact (axis_value N W xc i Hi)|].
  split; [intros i Hi; exact (axis_value N H yc i Hi)|].
  destruct (d_ew o) as [w|]; [injection Ew as <-; reflexivity|].
  destruct (psf_fwhm (j_psf ins)) as [f|]; [|discriminate]. cbn [need bind] in Ew.
  injection Ew as Ew. exists f. auto.
Qed.

Lemma grid_tiles n W c : let w := 1/2 * W / (INR n + 1/2) in
  w = W / INR (2 * n + 1) /\
  tiles (gx n w c) (n + 1) (2 * n + 1) w (- W / 2 - c) (W / 2 - c).
Proof.
  pose proof (half_pos n) as H. cbv zeta.
  assert (E : INR (2 * n + 1) = 2 * INR n + 1).
  { rewrite plus_INR, mult_INR. change (INR 2) with (1 + 1). change (INR 1) with 1. ring. }
  split; [rewrite E; field; lra|]. unfold tiles, gx.
  split; [|split].
  - rewrite plus_INR. change (INR 1) with 1. field. lra.
  - replace (n + 1 + (2 * n + 1) - 1)%nat with (n + (2 * n + 1))%nat by lia.
    rewrite plus_INR, E. field. lra.
  - intros i Hi. rewrite !plus_INR, (S_INR i). generalize (1 / 2 * W / (INR n + 1 / 2)). intros w. field.
Qed.

(* ---------------- the images ---------------- *)

Lemma sqrt_sum_pos u v q : 0 < q -> 0 <= q * (u * u) + 1 / q * (v * v).
Proof.
  intros H. assert (0 < 1 / q) by (apply Rdiv_lt_0_compat; lra).
  pose proof (Rle_0_sqr u). pose proof (Rle_0_sqr v). unfold Rsqr in *. nra.
Qed.

Lemma r_int_Fin x y q a : 0 < q -> r_int_ellip (Fin x) (Fin y) (Fin q) (Fin a) = Fin (ell x y q a).
Proof.
  intros H. unfold r_int_ellip, fsub, fsq. cbn [fmul fsin fcos fadd fneg].
  rewrite (fdiv_Fin 1) by lra. cbn [fmul fadd fsqrt].
  rewrite (proj2 (Rltb_false _ _)) by (apply sqrt_sum_pos; auto).
  f_equal. unfold ell. f_equal. replace (a * (PI / 180)) with (a * PI / 180) by field. field. lra.
Qed.

Lemma ell_nonneg x y q a : 0 <= ell x y q a.
Proof. apply sqrt_pos. Qed.

Lemma Rpower_quot u v d : 0 < u -> 0 < v -> 1 / Rpower u d * Rpower v d = Rpower (v / u) d.
Proof.
  intros Hu Hv. unfold Rpower.
  assert (E : ln (v / u) = ln v - ln u).
  { unfold Rdiv. rewrite ln_mult, ln_Rinv; auto. now apply Rinv_0_lt_compat. }
  rewrite E. replace (d * (ln v - ln u)) with (- (d * ln u) + d * ln v) by ring.
  rewrite exp_plus, exp_Ropp. field. apply Rgt_not_eq, exp_pos.
Qed.

Lemma sigma_Fin r rm d c : 0 <= r -> 0 < rm -> 0 < c ->
  sigma_profile (Fin r) (Fin rm) (Fin d) (Fin c) = Fin (vds rm c d r).
Proof.
  intros Hr Hm Hc. unfold sigma_profile. cbn [fmul fadd].
  assert (0 < c * rm) by nra.
  rewrite !fdiv_Fin by lra.
  rewrite !fpow_pos by (apply Rdiv_lt_0_compat; lra).
  rewrite fdiv_Fin by (apply Rgt_not_eq; unfold Rpower; apply exp_pos).
  cbn [fmul]. f_equal. rewrite Rpower_quot by (apply Rdiv_lt_0_compat; lra).
  unfold vds. f_equal. field. split; lra.
Qed.

Lemma sers_Fin r re n c : 0 <= r -> 0 < re -> 0 < n -> 0 < c ->
  I_sersic (Fin r) (Fin re) (Fin n) (Fin 1) (Fin c) = Ok (Fin (sers re n c r)).
Proof.
  intros Hr Hre Hn Hc. unfold I_sersic. rewrite py_inv_Fin by lra. cbn [bind].
  assert (0 < c * re) by nra. unfold fsub. cbn [fmul fadd fneg].
  rewrite fdiv_Fin by lra. rewrite fpow_pos by (apply Rdiv_lt_0_compat; lra).
  cbn [fmul fadd fneg fexp]. do 2 f_equal. unfold sers. rewrite Rmult_1_l. reflexivity.
Qed.

Lemma images g n wx wy xc yc q a re nn rm c :
  length (u_x g) = (4 * n + 3)%nat -> length (u_y g) = (4 * n + 3)%nat ->
  (forall i, (i < 4 * n + 3)%nat -> lnth (u_x g) i = Fin (gx n wx xc i)) ->
  (forall i, (i < 4 * n + 3)%nat -> lnth (u_y g) i = Fin (gx n wy yc i)) ->
  0 < q -> 0 < re -> 0 < nn -> 0 < rm -> 0 < c ->
  exists B, I_image g (Fin q) (Fin a) (Fin re) (Fin nn) (Fin c) = Ok B /\
    rows B = (4 * n + 3)%nat /\ cols B = (4 * n + 3)%nat /\
    let A := mul2 (sig2_image g (Fin q) (Fin a) (Fin rm) (Fin c)) B in
    rows A = (4 * n + 3)%nat /\ cols A = (4 * n + 3)%nat /\
    forall j i, (j < 4 * n + 3)%nat -> (i < 4 * n + 3)%nat ->
      let r := ell (gx n wx xc i) (gx n wy yc j) q a in
      at2 B j i = Fin (sers re nn c r) /\
      at2 A j i = Fin (vds rm c (-89/1000) r ^ 2 * sers re nn c r).
Proof.
  intros Lx Ly Vx Vy Hq Hre Hn Hm Hc. unfold I_image. rewrite py_inv_Fin by lra. cbn [bind].
  eexists. split; [reflexivity|]. unfold mul2, sig2_image. cbn [rows cols at2].
  split; [auto|]. split; [auto|]. cbv zeta. cbn [rows cols at2]. split; [auto|]. split; [auto|].
  intros j i Hj Hi. rewrite (Vx i Hi), (Vy j Hj).
  unfold disp_square, Igal. rewrite r_int_Fin by auto.
  rewrite sigma_Fin, sers_Fin by (auto using ell_nonneg).
  split; [reflexivity|]. unfold fsq. cbn [fmul]. f_equal. ring.
Qed.

Lemma sers_pos re n c r : 0 < sers re n c r.
Proof. apply exp_pos. Qed.
Lemma vds_pos rm c d r : 0 < vds rm c d r.
Proof. unfold vds, Rpower. apply exp_pos. Qed.

(* ---------------- the stamp ---------------- *)

Lemma bell_blur F xs ys st : bell F xs ys st -> xs <> [] -> ys <> [] -> blur st.
Proof.
  intros (R0 & C0 & v & V) Hx Hy.
  assert (LX : (0 < length xs)%nat) by (destruct xs; simpl; [congruence|lia]).
  assert (LY : (0 < length ys)%nat) by (destruct ys; simpl; [congruence|lia]).
  unfold blur. rewrite R0, C0.
  assert (HH : forall m, (0 < m)%nat -> ((m - 1) / 2 < m)%nat).
  { intros m Hm. apply Nat.div_lt_upper_bound; lia. }
  split; [|split; [auto|split; [auto|]]].
  - intros j i Hj Hi. rewrite R0 in Hj. rewrite C0 in Hi. destruct (V j i Hj Hi) as (E & P & _).
    exists (v j i). split; auto. lra.
  - unfold val2. destruct (V _ _ (HH _ LY) (HH _ LX)) as (E & P & _). rewrite E. exact P.
Qed.

Lemma plain_stamp p F xs ys : plain_psf p F -> 0 < F -> xs <> [] -> ys <> [] ->
  exists k, generate_conv_stamp p (map Fin xs) (map Fin ys) None = Ok (Some k) /\ blur k.
Proof.
  intros (EF & [[Fam Dit]|(b & Fam & Hb)]) HF Hx Hy.
  - destruct (gauss_bell p xs ys F None Fam Dit) as (k & E & B); auto.
    exists k. split; auto. eapply bell_blur; eauto.
  - destruct (moffat_bell p xs ys F b None Fam) as (k & E & B); auto.
    exists k. split; auto. eapply bell_blur; eauto.
Qed.
