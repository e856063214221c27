(* Proofs about the 1-D dispersion models as constructed. *)
From Coq Require Import Reals List Bool Arith ZArith Lia Lra Psatz FunctionalExtensionality.
From Verif Require Import PyFloat PyBase Arr PyNum MKernels MAper2D MProf MAper1D SKernels SAper1D SProf
  PKernels PKernels2 PProf PProf2 PAper1D PAper1D2 PAper1D3.
Import ListNotations.
Local Open Scope R_scope.

Lemma list_of_lnth l (f : nat -> R) n : length l = n -> (forall i, (i < n)%nat -> lnth l i = Fin (f i)) ->
  l = map Fin (map f (seq 0 n)).
Proof.
  intros L H. apply nth_ext with (d := NaN) (d' := Fin 0).
  - now rewrite !map_length, seq_length.
  - intros i Hi. rewrite L in Hi. unfold lnth in H. rewrite H by auto.
    rewrite map_nth. f_equal. rewrite nth_indep with (d' := f 0%nat) by (now rewrite map_length, seq_length).
    rewrite map_nth. now rewrite seq_nth.
Qed.

Lemma stamp_ok ins g n wx wy xc yc F :
  length (u_x g) = (4 * n + 3)%nat -> length (u_y g) = (4 * n + 3)%nat ->
  (forall i, (i < 4 * n + 3)%nat -> lnth (u_x g) i = Fin (gx n wx xc i)) ->
  (forall i, (i < 4 * n + 3)%nat -> lnth (u_y g) i = Fin (gx n wy yc i)) ->
  plain_psf (j_psf ins) F -> 0 <= F ->
  exists st, stamp_1D ins g = Ok st /\ sees F st.
Proof.
  intros Lx Ly Vx Vy P HF. unfold stamp_1D.
  rewrite (list_of_lnth _ _ _ Lx Vx), (list_of_lnth _ _ _ Ly Vy).
  set (xs := map (gx n wx xc) (seq 0 (4 * n + 3))). set (ys := map (gx n wy yc) (seq 0 (4 * n + 3))).
  assert (NE : forall f : nat -> R, map f (seq 0 (4 * n + 3)) <> []).
  { intros f E. apply (f_equal (@length R)) in E. rewrite map_length, seq_length in E. simpl in E. lia. }
  rewrite !average_Fin by apply NE. rewrite !map_map. unfold fsub. cbn [fneg fadd].
  set (cx := - (rsum xs / INR (length xs))). set (cy := - (rsum ys / INR (length ys))).
  rewrite <- (map_map (fun x => x + cx) Fin xs), <- (map_map (fun x => x + cy) Fin ys).
  destruct HF as [HF|HF].
  - destruct (plain_stamp (j_psf ins) F (map (fun x => x + cx) xs) (map (fun x => x + cy) ys) P HF) as (k & E & B).
    + unfold xs. intros E. apply (f_equal (@length R)) in E. rewrite !map_length, seq_length in E. simpl in E. lia.
    + unfold ys. intros E. apply (f_equal (@length R)) in E. rewrite !map_length, seq_length in E. simpl in E. lia.
    + rewrite E. cbn [bind]. exists (Stamp2 k). split; [reflexivity|]. right. exists k. auto.
  - subst F. destruct P as (EF & [[Fam Dit]|(b & Fam & Hb)]); unfold generate_conv_stamp; rewrite Fam, EF; cbn [bind].
    + eexists. split; [reflexivity|]. left. lra.
    + rewrite py_inv_Fin by lra. cbn [bind]. eexists. split; [reflexivity|]. left. lra.
Qed.

Lemma gx_bound n w c i : 0 <= w -> (i < 4 * n + 3)%nat -> Rabs (gx n w c i + c) <= (2 * INR n + 1) * w.
Proof.
  intros Hw Hi. unfold gx. replace ((INR i - (2 * INR n + 1)) * w - c + c) with ((INR i - (2 * INR n + 1)) * w) by ring.
  rewrite Rabs_mult, (Rabs_right w) by lra. apply Rmult_le_compat_r; auto. apply Rabs_le.
  pose proof (pos_INR i). assert (INR i <= INR (4 * n + 2)) by (apply le_INR; lia).
  rewrite plus_INR, mult_INR in H0. change (INR 4) with (1+1+1+1) in H0. change (INR 2) with (1+1) in H0. lra.
Qed.

Lemma full_width n W : (2 * INR n + 1) * (1/2 * W / (INR n + 1/2)) = W.
Proof. pose proof (half_pos n). field. lra. Qed.

Lemma half_samples_eq o re : (if fleb (Fin re) (Fin (1/10)) then (2 * d_npix o)%nat else d_npix o) = half_samples o re.
Proof.
  unfold half_samples. cbn [fleb]. unfold Rleb. destruct (Rle_dec re (1/10)); reflexivity.
Qed.

(** The grid exists and has the expected values. *)
Lemma grid_exists o ins re q a W xc yc F : 0 < re -> 0 < q ->
  j_slit ins = Fin W -> d_xc o = Fin xc -> d_yc o = Fin yc -> psf_fwhm (j_psf ins) = Some (Fin F) ->
  (d_ew o = None \/ exists H, d_ew o = Some (Fin H) /\ 0 < H) ->
  exists g, grid_1D o ins (Fin re) (Fin q) (Fin a) = Ok g /\ u_ew g = Fin (width o re q a F) /\
    0 < width o re q a F.
Proof.
  intros Hre Hq EW Ex Ey EF HW. unfold grid_1D, width.
  destruct HW as [->|(H & -> & PH)].
  - rewrite EF. cbn [need bind]. destruct (width_value re q a F Hre Hq) as [E P]. rewrite E.
    eexists. split; [reflexivity|]. cbn [u_ew]. auto.
  - cbn [bind]. eexists. split; [reflexivity|]. cbn [u_ew]. auto.
Qed.

Lemma circ_Fin re q : 0 < re -> 0 < q -> circ (Fin re) (Fin q) = Fin (re * sqrt q) /\ 0 < re * sqrt q.
Proof.
  intros Hr Hq. unfold circ. cbn [fsqrt]. rewrite (proj2 (Rltb_false _ _)) by lra. cbn [fmul].
  split; auto. apply Rmult_lt_0_compat; auto. now apply sqrt_lt_R0.
Qed.

Lemma common_run m o ins g st W xc yc F re0 q0 a0 H q a re nn rm c :
  grid_1D o ins re0 q0 a0 = Ok g -> j_slit ins = Fin W -> d_xc o = Fin xc -> d_yc o = Fin yc ->
  u_ew g = Fin H -> 0 < H -> 0 < W -> sees F st -> 0 <= F ->
  0 < q -> 0 < re -> 0 < nn -> 0 < rm -> 0 < c -> m <> OtherMethod ->
  exists s, common m g st (Fin q) (Fin a) (Fin re) (Fin nn) (Fin rm) (Fin c) (Fin F) = Ok (Fin s) /\
    average_of m re nn rm c F W H xc yc q a (u_n g) s.
Proof.
  intros G EW Ex Ey EH PH PW Se HF Pq Pre Pn Pm Pc Mm.
  destruct (grid_value _ _ _ _ _ W xc yc g H EW Ex Ey G EH) as
    (_ & Gx & Gy & _ & _ & _ & Lx & Ly & Vx & Vy & _).
  set (n := u_n g) in *. pose proof (half_pos n) as HN.
  set (wx := 1/2 * W / (INR n + 1/2)) in *. set (wy := 1/2 * H / (INR n + 1/2)) in *.
  assert (Px : 0 < wx) by (apply Rdiv_lt_0_compat; lra).
  assert (Py : 0 < wy) by (apply Rdiv_lt_0_compat; lra).
  destruct (common_value m g st n wx wy xc yc H q a re nn rm c F) as (s & ES & S0 & SB & SV); auto.
  exists s. split; [exact ES|]. split; [exact S0|]. split.
  - intros lo hi L0 L. apply SB; auto. intros j i Hj Hi. apply L.
    + rewrite <- (full_width n W). apply gx_bound; [left; assumption|assumption].
    + rewrite <- (full_width n H). apply gx_bound; [left; assumption|assumption].
  - intros F0. cbv zeta. rewrite SV by lra.
    assert (GE : forall k WW cc, gx n (1/2 * WW / (INR n + 1/2)) cc (n + 1 + k) = (INR k - INR n) * (WW / INR (2 * n + 1)) - cc).
    { intros k WW cc. unfold gx. rewrite !plus_INR, mult_INR. change (INR 2) with (1+1). change (INR 1) with 1.
      field. lra. }
    unfold wx, wy. f_equal; apply rsumn_ext; intros j Hj; apply rsumn_ext; intros i Hi; rewrite !GE; reflexivity.
Qed.

Lemma disp_run quad o ins gal re q rm qm n a c W xc yc F :
  physical o ins gal re q rm qm n a c W xc yc F ->
  exists s, average_of (d_method o) (re * sqrt q) n (rm * sqrt qm) c F W (width o (re * sqrt q) 1 0 F) xc yc 1 0
              (half_samples o (re * sqrt q)) s /\
    disp_1D quad o ins gal =
      (do e <- sigma_e quad o (l_n gal) (Fin (re * sqrt q)) (Fin (rm * sqrt qm))
         (match d_rad o with Some r => r | None => Fin (re * sqrt q) end);
       Ok (mkout1 (Fin s) e (fdiv (Fin s) e))).
Proof.
  intros ((Er & Eq & Em & Eqm & En & Ea) & (Ec & EW & Ex & Ey) & (Pre & Pq & Prm & Pqm & Pn & Pc & PW) & PP & HF & Mm & HE).
  pose proof PP as (EF & _).
  unfold disp_1D. rewrite Er, Eq, Em, Eqm.
  destruct (circ_Fin re q Pre Pq) as [-> Prc]. destruct (circ_Fin rm qm Prm Pqm) as [-> Pmc].
  destruct (grid_exists o ins (re * sqrt q) 1 0 W xc yc F Prc ltac:(lra) EW Ex Ey EF HE) as (g & G & EH & PH).
  rewrite G. cbn [bind].
  destruct (grid_value _ _ _ _ _ W xc yc g _ EW Ex Ey G EH) as
    (Gn & Gx & Gy & _ & _ & _ & Lx & Ly & Vx & Vy & _).
  destruct (stamp_ok ins g _ _ _ _ _ F Lx Ly Vx Vy PP HF) as (st & Est & Se).
  rewrite Est. cbn [bind]. rewrite (sigma_aper_common _ _ _ _ _ _ _ (Fin F)) by auto.
  rewrite En, Ec.
  destruct (common_run (d_method o) o ins g st W xc yc F _ _ _ _ 1 0 (re * sqrt q) n (rm * sqrt qm) c G EW Ex Ey EH PH PW Se HF)
    as (s & ES & A); auto; try lra.
  rewrite ES. cbn [bind]. exists s. split; [|reflexivity].
  rewrite Gn, half_samples_eq in A. exact A.
Qed.

Lemma misalign_run quad o ins gal re q rm qm n a c W xc yc F :
  physical o ins gal re q rm qm n a c W xc yc F ->
  exists s, average_of (d_method o) (re * sqrt q) n (rm * sqrt qm) c F W (width o re q a F) xc yc q a
              (half_samples o re) s /\
    disp_misalign_1D quad o ins gal =
      (do e <- sigma_e quad o (l_n gal) (Fin (re * sqrt q)) (Fin (rm * sqrt qm))
         (match d_rad o with Some r => r | None => Fin (re * sqrt q) end);
       Ok (mkout1 (Fin s) e (fdiv (Fin s) e))).
Proof.
  intros ((Er & Eq & Em & Eqm & En & Ea) & (Ec & EW & Ex & Ey) & (Pre & Pq & Prm & Pqm & Pn & Pc & PW) & PP & HF & Mm & HE).
  pose proof PP as (EF & _).
  unfold disp_misalign_1D. rewrite Er, Eq, Em, Eqm, Ea.
  destruct (circ_Fin re q Pre Pq) as [-> Prc]. destruct (circ_Fin rm qm Prm Pqm) as [-> Pmc].
  destruct (grid_exists o ins re q a W xc yc F Pre Pq EW Ex Ey EF HE) as (g & G & EH & PH).
  rewrite G. cbn [bind].
  destruct (grid_value _ _ _ _ _ W xc yc g _ EW Ex Ey G EH) as
    (Gn & Gx & Gy & Ga & _ & GpY & Lx & Ly & Vx & Vy & _).
  destruct (stamp_ok ins g _ _ _ _ _ F Lx Ly Vx Vy PP HF) as (st & Est & Se).
  rewrite Est. cbn [bind]. rewrite (misalign_common _ _ _ _ _ _ _ (Fin F) (u_n g) W) by (auto; lra).
  rewrite En, Ec, Ea, Eq.
  destruct (common_run (d_method o) o ins g st W xc yc F _ _ _ _ q a (re * sqrt q) n (rm * sqrt qm) c G EW Ex Ey EH PH PW Se HF)
    as (s & ES & A); auto; try lra.
  rewrite ES. cbn [bind]. exists s. split; [|reflexivity].
  rewrite Gn, half_samples_eq in A. exact A.
Qed.

(* ---------------- round galaxies ---------------- *)

Lemma ell_round x y a b : ell x y 1 a = ell x y 1 b.
Proof.
  unfold ell. f_equal.
  assert (S : forall t, 1 * (sin t * x + cos t * y) ^ 2 + (cos t * x - sin t * y) ^ 2 / 1 = x ^ 2 + y ^ 2).
  { intros t. pose proof (sin2_cos2 t) as E. unfold Rsqr in E.
    replace (1 * (sin t * x + cos t * y) ^ 2 + (cos t * x - sin t * y) ^ 2 / 1)
      with ((sin t * sin t + cos t * cos t) * (x ^ 2 + y ^ 2)) by field. rewrite E. ring. }
  now rewrite !S.
Qed.

Lemma r_int_round x y a b : isfinite x = true -> isfinite y = true ->
  r_int_ellip x y (Fin 1) (Fin a) = r_int_ellip x y (Fin 1) (Fin b).
Proof.
  destruct x as [x| | |]; try discriminate. destruct y as [y| | |]; try discriminate. intros _ _.
  rewrite !r_int_Fin by lra. f_equal. apply ell_round.
Qed.

Lemma wide_round re a b F : 0 < re -> wide re 1 a F = wide re 1 b F.
Proof.
  intros Hr. unfold wide. f_equal. replace (2 * 1 * re) with (2 * re) by ring.
  set (S := sqrt ((2 * re) ^ 2 + F ^ 2)). assert (0 <= S) by apply sqrt_pos.
  assert (K : forall t, Rmax (Rabs (cos t) * S) S = S).
  { intros t. apply Rmax_right. assert (Rabs (cos t) <= 1) by (apply Rabs_le; pose proof (COS_bound t); lra).
    pose proof (Rabs_pos (cos t)). nra. }
  now rewrite !K.
Qed.

Lemma grid_round o ins re a b F : 0 < re -> psf_fwhm (j_psf ins) = Some (Fin F) ->
  grid_1D o ins (Fin re) (Fin 1) (Fin a) = grid_1D o ins (Fin re) (Fin 1) (Fin b).
Proof.
  intros Hr EF. unfold grid_1D. rewrite EF. cbn [need bind].
  destruct (width_value re 1 a F Hr ltac:(lra)) as [-> _]. destruct (width_value re 1 b F Hr ltac:(lra)) as [-> _].
  now rewrite (wide_round re a b F Hr).
Qed.

(** Images agree inside the grid, hence so do all results. *)
Lemma map_fun2 {A} n m (f g : nat -> nat -> A) : (forall i j, f i j = g i j) -> mk2 n m f = mk2 n m g.
Proof. intros H. f_equal. apply functional_extensionality. intros i. apply functional_extensionality. auto. Qed.

Lemma r_int_round_lnth l l' i j a b :
  (forall k, (k < length l)%nat -> isfinite (lnth l k) = true) ->
  (forall k, (k < length l')%nat -> isfinite (lnth l' k) = true) ->
  r_int_ellip (lnth l i) (lnth l' j) (Fin 1) (Fin a) = r_int_ellip (lnth l i) (lnth l' j) (Fin 1) (Fin b).
Proof.
  intros H H'. destruct (Nat.lt_ge_cases i (length l)) as [Hi|Hi].
  - destruct (Nat.lt_ge_cases j (length l')) as [Hj|Hj]; [apply r_int_round; auto|].
    assert (E : lnth l' j = NaN) by (unfold lnth; now apply nth_overflow). rewrite E.
    unfold r_int_ellip, fsub, fsq. rewrite !(fdiv_Fin 1) by lra. cbn [fmul fsin fcos].
    destruct (lnth l i); cbn [fmul fadd fneg inf_scale]; try reflexivity;
      unfold inf_scale; repeat rcases; cbn; try reflexivity;
      destruct (Bool.eqb _ _); cbn; reflexivity.
  - assert (E : lnth l i = NaN) by (unfold lnth; now apply nth_overflow). rewrite E.
    unfold r_int_ellip, fsub, fsq. rewrite !(fdiv_Fin 1) by lra. cbn [fmul fsin fcos].
    destruct (lnth l' j); cbn [fmul fadd fneg inf_scale]; reflexivity.
Qed.

Lemma common_round m g st a b re nn rm c F :
  (forall k, (k < length (u_x g))%nat -> isfinite (lnth (u_x g) k) = true) ->
  (forall k, (k < length (u_y g))%nat -> isfinite (lnth (u_y g) k) = true) ->
  common m g st (Fin 1) (Fin a) re nn rm c F = common m g st (Fin 1) (Fin b) re nn rm c F.
Proof.
  intros Hx Hy. unfold common.
  assert (E1 : I_image g (Fin 1) (Fin a) re nn c = I_image g (Fin 1) (Fin b) re nn c).
  { unfold I_image. destruct (py_inv nn); cbn [bind]; [|reflexivity]. f_equal. apply map_fun2. intros j i.
    unfold Igal. now rewrite (r_int_round_lnth _ _ i j a b Hx Hy). }
  assert (E2 : sig2_image g (Fin 1) (Fin a) rm c = sig2_image g (Fin 1) (Fin b) rm c).
  { unfold sig2_image. apply map_fun2. intros j i. unfold disp_square.
    now rewrite (r_int_round_lnth _ _ i j a b Hx Hy). }
  now rewrite E1, E2.
Qed.

Lemma round_same quad o ins gal re rm qm n a c W xc yc F :
  physical o ins gal re 1 rm qm n a c W xc yc F ->
  disp_misalign_1D quad o ins gal = disp_1D quad o ins gal.
Proof.
  intros ((Er & Eq & Em & Eqm & En & Ea) & (Ec & EW & Ex & Ey) & (Pre & Pq & Prm & Pqm & Pn & Pc & PW) & PP & HF & Mm & HE).
  pose proof PP as (EF & _).
  unfold disp_misalign_1D, disp_1D. rewrite Er, Eq, Ea.
  assert (C1 : circ (Fin re) (Fin 1) = Fin re).
  { destruct (circ_Fin re 1 Pre Pq) as [-> _]. rewrite sqrt_1. f_equal. ring. }
  rewrite C1. rewrite (grid_round o ins re a 0 F Pre EF).
  destruct (grid_exists o ins re 1 0 W xc yc F Pre Pq EW Ex Ey EF HE) as (g & G & EH & PH).
  rewrite G. cbn [bind].
  destruct (grid_value _ _ _ _ _ W xc yc g _ EW Ex Ey G EH) as
    (Gn & Gx & Gy & Ga & _ & GpY & Lx & Ly & Vx & Vy & _).
  destruct (stamp_ok ins g _ _ _ _ _ F Lx Ly Vx Vy PP HF) as (st & Est & Se).
  rewrite Est. cbn [bind]. rewrite (misalign_common _ _ _ _ _ _ _ (Fin F) (u_n g) W) by (auto; lra).
  rewrite (sigma_aper_common _ _ _ _ _ _ _ (Fin F)) by auto. rewrite Eq, Ea.
  rewrite (common_round (d_method o) g st a 0); [reflexivity| |].
  - intros k Hk. rewrite Lx in Hk. now rewrite (Vx k Hk).
  - intros k Hk. rewrite Ly in Hk. now rewrite (Vy k Hk).
Qed.
