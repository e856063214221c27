(* Proofs: the sign of the dispersion parameter in a 2-D fit. *)
From Coq Require Import Reals Lra Lia List Bool Arith ZArith FunctionalExtensionality.
From Verif Require Import PyFloat PyBase Arr PyNum MParams MKernels MAper2D SParams SMirror SSign PParams PKernels PAper2D PMirror PMirror2 PBright.
Import ListNotations.
Local Open Scope R_scope.

Lemma Reqb_opp a : Reqb (- a) 0 = Reqb a 0.
Proof. destruct (Reqb a 0) eqn:E; [apply Reqb_true in E|apply Reqb_false in E]; [apply Reqb_true|apply Reqb_false]; lra. Qed.
Lemma n_n x : fneg (fneg x) = x.
Proof. destruct x; cbn; rewrite ?Ropp_involutive; reflexivity. Qed.
Lemma n_add x y : fadd (fneg x) (fneg y) = fneg (fadd x y).
Proof. destruct x, y; cbn; try reflexivity. f_equal. lra. Qed.
Lemma n_inf_scale b a : inf_scale b (- a) = fneg (inf_scale b a).
Proof.
  unfold inf_scale. rewrite Reqb_opp. destruct (Reqb a 0) eqn:E; [reflexivity|]. apply Reqb_false in E.
  destruct (Rltb 0 a) eqn:F; [apply Rltb_true in F|apply Rltb_false in F].
  - assert (G : Rltb 0 (- a) = false) by (apply Rltb_false; lra). rewrite G. destruct b; reflexivity.
  - assert (G : Rltb 0 (- a) = true) by (apply Rltb_true; lra). rewrite G. destruct b; reflexivity.
Qed.
Lemma n_inf_scale' b a : inf_scale (negb b) a = fneg (inf_scale b a).
Proof. unfold inf_scale. destruct (Reqb a 0); [reflexivity|]. destruct b, (Rltb 0 a); reflexivity. Qed.
Lemma n_mul x y : fmul (fneg x) y = fneg (fmul x y).
Proof.
  destruct x as [a| | |], y as [b| | |]; cbn [fneg fmul]; try reflexivity; rewrite ?n_inf_scale; try reflexivity.
  - f_equal. lra.
  - exact (n_inf_scale' true b).
  - exact (n_inf_scale' false b).
Qed.
Lemma n_mul_r x y : fmul x (fneg y) = fneg (fmul x y).
Proof. now rewrite fmul_comm, n_mul, (fmul_comm y). Qed.
Lemma n_div x y : fdiv (fneg x) y = fneg (fdiv x y).
Proof.
  destruct x as [a| | |], y as [b| | |]; cbn [fneg fdiv]; try reflexivity; try (f_equal; lra).
  - rewrite Reqb_opp. destruct (Reqb b 0) eqn:E.
    + destruct (Reqb a 0) eqn:F; [reflexivity|]. apply Reqb_false in F. destruct (Rltb 0 a) eqn:G; [apply Rltb_true in G|apply Rltb_false in G].
      * assert (H : Rltb 0 (- a) = false) by (apply Rltb_false; lra). now rewrite H.
      * assert (H : Rltb 0 (- a) = true) by (apply Rltb_true; lra). now rewrite H.
    + cbn [fneg]. f_equal. unfold Rdiv. ring.
  - destruct (Rltb b 0); reflexivity.
  - destruct (Rltb b 0); reflexivity.
Qed.
Lemma n_div_both x y : fdiv (fneg x) (fneg y) = fdiv x y \/ fdiv (fneg x) (fneg y) = fneg (fdiv x y).
Proof.
  rewrite n_div. destruct y as [b| | |].
  2,3: left; destruct x; cbn; try reflexivity; f_equal; lra.
  2: left; destruct x; reflexivity.
  destruct (Req_EM_T b 0) as [->|N].
  - right. f_equal. cbn [fneg]. now rewrite Ropp_0.
  - left. destruct x as [a| | |]; cbn [fneg fdiv]; try reflexivity.
    + rewrite Reqb_opp. assert (E : Reqb b 0 = false) by now apply Reqb_false. rewrite E. cbn [fneg]. f_equal. now field.
    + destruct (Rltb b 0) eqn:E; [apply Rltb_true in E|apply Rltb_false in E].
      * assert (F : Rltb (- b) 0 = false) by (apply Rltb_false; lra). now rewrite F.
      * assert (F : Rltb (- b) 0 = true) by (apply Rltb_true; lra). now rewrite F.
    + destruct (Rltb b 0) eqn:E; [apply Rltb_true in E|apply Rltb_false in E].
      * assert (F : Rltb (- b) 0 = false) by (apply Rltb_false; lra). now rewrite F.
      * assert (F : Rltb (- b) 0 = true) by (apply Rltb_true; lra). now rewrite F.
Qed.
Lemma n_abs x : fabs (fneg x) = fabs x.
Proof. destruct x; cbn; try reflexivity. now rewrite Rabs_Ropp. Qed.
Lemma n_sq x : fsq (fneg x) = fsq x.
Proof. unfold fsq. now rewrite n_mul, n_mul_r, n_n. Qed.
Lemma n_finite x : isfinite (fneg x) = isfinite x.
Proof. now destruct x. Qed.
Lemma n_sum l : fsum (map fneg l) = fneg (fsum l).
Proof. induction l as [|a l IH]; cbn [map fsum fold_right fneg]; [now rewrite Ropp_0|]. change (fadd (fneg a) (fsum (map fneg l)) = fneg (fadd a (fsum l))). now rewrite IH, n_add. Qed.
Lemma n_sumn n f : fsumn n (fun i => fneg (f i)) = fneg (fsumn n f).
Proof. unfold fsumn. rewrite <- n_sum, map_map. reflexivity. Qed.
Notation N2 := (map2 fneg). Notation N3 := (map3 fneg).
Lemma n_sum2 a : sum2 (N2 a) = fneg (sum2 a).
Proof. unfold sum2, map2. cbn [rows cols at2]. rewrite <- n_sumn. apply fsumn_ext. intros i _. apply n_sumn. Qed.
Lemma n_sum3 a : sum3 (N3 a) = fneg (sum3 a).
Proof.
  unfold sum3, map3. cbn [dim0 dim1 dim2 at3]. rewrite <- n_sumn. apply fsumn_ext. intros i _. rewrite <- n_sumn. apply fsumn_ext. intros j _. apply n_sumn.
Qed.
Lemma n_allfin2 a : allfin2 (N2 a) = allfin2 a.
Proof. unfold allfin2, map2. cbn [rows cols at2]. apply forallb_ext_. intros i. apply forallb_ext_. intros j. apply n_finite. Qed.
Lemma n_allfin3 a : allfin3 (N3 a) = allfin3 a.
Proof. unfold allfin3, map3. cbn [dim0 dim1 dim2 at3]. apply forallb_ext_. intros i. apply forallb_ext_. intros j. apply forallb_ext_. intros l. apply n_finite. Qed.
Lemma n_conv3 a ker : conv3 (N3 a) ker = N3 (conv3 a ker).
Proof.
  unfold conv3. rewrite n_allfin3. destruct (allfin3 a && allfin3 ker); unfold map3; cbn [dim0 dim1 dim2 at3]; apply mk3_ext; intros w i j; [|reflexivity].
  rewrite <- n_sumn. apply fsumn_ext. intros v _. rewrite <- n_sumn. apply fsumn_ext. intros p _. rewrite <- n_sumn. apply fsumn_ext. intros q _. apply n_mul.
Qed.
Lemma n_conv2 a ker : conv2 (N2 a) ker = N2 (conv2 a ker).
Proof.
  unfold conv2. rewrite n_allfin2. destruct (allfin2 a && allfin2 ker); unfold map2; cbn [rows cols at2]; apply mk2_ext; intros i j; [|reflexivity].
  rewrite <- n_sumn. apply fsumn_ext. intros p _. rewrite <- n_sumn. apply fsumn_ext. intros q _. apply n_mul.
Qed.

(* up to one sign *)
Definition us {A} (f : A -> A) (x y : A) : Prop := y = x \/ y = f x.
Definition ro {A} (f : A -> A) (p q : res A) : Prop :=
  match p, q with Ok x, Ok y => us f x y | Err e, Err e' => e = e' | _, _ => False end.
Lemma ro_refl {A} (f : A -> A) p : ro f p p.
Proof. destruct p; cbn; [now left|reflexivity]. Qed.
Lemma u_PSF cube cube' fw st : us N3 cube cube' -> ro (option_map N3) (PSF_convolve cube fw st) (PSF_convolve cube' fw st).
Proof.
  intros [->| ->]; [apply ro_refl|]. unfold PSF_convolve. destruct (fgtb fw (Fin 0)); [|right; reflexivity]. destruct st as [| |ker]; try reflexivity.
  change (size3 (N3 cube)) with (size3 cube). destruct (_ || _); [left; reflexivity|]. cbv zeta. cbn [ro].
  rewrite n_conv3, !n_sum3. destruct (n_div_both (sum3 cube) (sum3 (conv3 cube ker))) as [->| ->].
  - right. cbn [option_map]. f_equal. unfold map3. cbn [dim0 dim1 dim2 at3]. apply mk3_ext. intros i j l. apply n_mul.
  - left. f_equal. unfold map3. cbn [dim0 dim1 dim2 at3]. apply mk3_ext. intros i j l. now rewrite n_mul, n_mul_r, n_n.
Qed.
Lemma u_inst m m' wave w : us N2 m m' -> ro N2 (inst_convol_complete m wave w) (inst_convol_complete m' wave w).
Proof.
  intros [->| ->]; [apply ro_refl|]. unfold inst_convol_complete. destruct w; try reflexivity. unfold convol_instconstfwhm. cbv zeta. change (size2 (N2 m)) with (size2 m).
  destruct (_ || _); [reflexivity|]. cbn [ro]. rewrite n_conv2, !n_sum2.
  match goal with |- context [fdiv (fneg ?a) (fneg ?b)] => destruct (n_div_both a b) as [->| ->] end.
  - right. unfold map2. cbn [rows cols at2]. apply mk2_ext. intros i j. apply n_mul.
  - left. unfold map2. cbn [rows cols at2]. apply mk2_ext. intros i j. now rewrite n_mul, n_mul_r, n_n.
Qed.
Lemma u_rebin a a' m n : us N2 a a' -> ro N2 (rebin2 a m n) (rebin2 a' m n).
Proof.
  intros [->| ->]; [apply ro_refl|]. unfold rebin2. destruct (_ || _); [reflexivity|]. cbv zeta. cbn [map2 rows cols]. destruct (Nat.eqb _ _); [|reflexivity]. cbn [ro]. right.
  unfold map2 at 2. cbn [rows cols at2]. apply mk2_ext. intros i j. rewrite <- n_sumn. apply fsumn_ext. intros q _. rewrite <- n_sumn. apply fsumn_ext. intros p _. reflexivity.
Qed.
Lemma n_gauss I4 wref V sg nW nZ nY nX dz cen wid : (forall x, wid (fneg x) = fneg (wid x)) ->
  gauss_line I4 wref V (N3 sg) nW nZ nY nX dz cen wid = N3 (gauss_line I4 wref V sg nW nZ nY nX dz cen wid).
Proof.
  intros H. unfold gauss_line. change (N3 (mk3 nW nY nX ?f)) with (mk3 nW nY nX (fun i j l => fneg (f i j l))).
  unfold map3. cbn [dim0 dim1 dim2 at3]. apply mk3_ext. intros w j l. rewrite <- n_mul. f_equal. rewrite <- n_sumn. apply fsumn_ext. intros m _. cbv zeta.
  rewrite H. rewrite <- n_mul_r. f_equal. generalize (wid (at3 sg m j l)). intros s. rewrite n_sq. generalize (fsub (cen (at3 V m j l)) (at4 wref w m j l)). intros d.
  assert (P0 : 0 < sqrt (2 * PI)) by (apply sqrt_lt_R0; pose proof PI_RGT_0; lra).
  destruct s as [s| | |].
  2,3: rewrite <- n_mul; f_equal; cbn [fneg fmul]; unfold inf_scale; assert (E : Reqb (sqrt (2 * PI)) 0 = false) by (apply Reqb_false; lra); assert (F : Rltb 0 (sqrt (2 * PI)) = true) by (now apply Rltb_true); rewrite E, F; cbn; f_equal; lra.
  2: reflexivity.
  destruct (Req_EM_T s 0) as [->|N].
  - cbn [fneg]. rewrite Ropp_0. cbn [fsq fmul]. rewrite !Rmult_0_l, !Rmult_0_r. cbn [fdiv].
    assert (E0 : Reqb 0 0 = true) by now apply Reqb_true. assert (E1 : Reqb 1 0 = false) by (apply Reqb_false; lra). assert (E2 : Rltb 0 1 = true) by (apply Rltb_true; lra).
    rewrite E0, E1, E2. unfold fsq.
    destruct d as [d| | |]; cbn [fmul fneg fdiv]; rewrite ?E0.
    + rewrite Reqb_opp. destruct (Reqb (d * d) 0) eqn:F; [reflexivity|]. apply Reqb_false in F.
      assert (G : Rltb 0 (- (d * d)) = false) by (apply Rltb_false; pose proof (Rle_0_sqr d); unfold Rsqr in *; lra). rewrite G. cbn [fexp fmul].
      unfold inf_scale. rewrite E0. reflexivity.
    + assert (G : Rltb 0 0 = false) by (apply Rltb_false; lra). rewrite G. cbn [fexp fmul]. unfold inf_scale. now rewrite E0.
    + assert (G : Rltb 0 0 = false) by (apply Rltb_false; lra). rewrite G. cbn [fexp fmul]. unfold inf_scale. now rewrite E0.
    + reflexivity.
  - rewrite <- n_mul. f_equal. cbn [fneg fmul]. rewrite !fdiv_Fin by nra. cbn [fneg]. f_equal. field. split; lra.
Qed.
