(* Proofs: arithmetic with a positive factor, and the numeric kernels under it. *)
From Coq Require Import Reals Lra Lia List Bool Arith ZArith FunctionalExtensionality.
From Verif Require Import PyFloat PyBase Arr PyNum MParams MKernels MAper2D SBright PKernels PAper2D PMirror.
Import ListNotations.
Local Open Scope R_scope.

Section Pos.
Variable k : R.
Hypothesis Hk : 0 < k.
Notation s := (fmul (Fin k)).

Lemma s_inf b : inf_scale b k = if b then PInf else NInf.
Proof.
  unfold inf_scale. destruct (Reqb k 0) eqn:E; [apply Reqb_true in E; lra|]. destruct (Rltb 0 k) eqn:F; [|apply Rltb_false in F; lra].
  now destruct b.
Qed.
Lemma s_PInf : s PInf = PInf. Proof. apply (s_inf true). Qed.
Lemma s_NInf : s NInf = NInf. Proof. apply (s_inf false). Qed.
Lemma s_NaN : s NaN = NaN. Proof. reflexivity. Qed.
Lemma s_Fin a : s (Fin a) = Fin (k * a). Proof. reflexivity. Qed.
Ltac sr := rewrite ?s_PInf, ?s_NInf, ?s_NaN, ?s_Fin.
Lemma Rltb_k a b : Rltb (k * a) (k * b) = Rltb a b.
Proof.
  destruct (Rltb a b) eqn:E.
  - apply Rltb_true in E. apply Rltb_true. now apply Rmult_lt_compat_l.
  - apply Rltb_false in E. apply Rltb_false. apply Rmult_le_compat_l; lra.
Qed.
Lemma Reqb_k a b : Reqb (k * a) (k * b) = Reqb a b.
Proof.
  destruct (Reqb a b) eqn:E.
  - apply Reqb_true in E. subst. now apply Reqb_true.
  - apply Reqb_false in E. apply Reqb_false. intros X. apply E. apply Rmult_eq_reg_l in X; lra.
Qed.
Lemma Rltb_k0 a : Rltb 0 (k * a) = Rltb 0 a. Proof. transitivity (Rltb (k * 0) (k * a)); [now rewrite Rmult_0_r|apply Rltb_k]. Qed.
Lemma Rltb_0k a : Rltb (k * a) 0 = Rltb a 0. Proof. transitivity (Rltb (k * a) (k * 0)); [now rewrite Rmult_0_r|apply Rltb_k]. Qed.
Lemma Reqb_k0 a : Reqb (k * a) 0 = Reqb a 0. Proof. transitivity (Reqb (k * a) (k * 0)); [now rewrite Rmult_0_r|apply Reqb_k]. Qed.

Lemma s_add x y : fadd (s x) (s y) = s (fadd x y).
Proof. destruct x, y; sr; try reflexivity; cbn [fadd]; sr; try reflexivity. f_equal. ring. Qed.
Lemma s_neg x : fneg (s x) = s (fneg x).
Proof. now rewrite fmul_neg_r. Qed.
Lemma s_sub x y : fsub (s x) (s y) = s (fsub x y).
Proof. unfold fsub. now rewrite s_neg, s_add. Qed.
Lemma inf_scale_k b a : inf_scale b (k * a) = inf_scale b a.
Proof. unfold inf_scale. now rewrite Reqb_k0, Rltb_k0. Qed.
Lemma s_inf_scale b a : s (inf_scale b a) = inf_scale b a.
Proof. unfold inf_scale. destruct (Reqb a 0); [reflexivity|]. destruct (Bool.eqb _ _); sr; reflexivity. Qed.
Lemma s_mul x y : fmul (s x) y = s (fmul x y).
Proof.
  destruct x as [a| | |], y as [b| | |]; sr; try reflexivity;
    try change (fmul (Fin (k * a)) PInf) with (inf_scale true (k * a)); try change (fmul (Fin (k * a)) NInf) with (inf_scale false (k * a));
    try change (fmul (Fin a) PInf) with (inf_scale true a); try change (fmul (Fin a) NInf) with (inf_scale false a);
    try change (fmul PInf (Fin b)) with (inf_scale true b); try change (fmul NInf (Fin b)) with (inf_scale false b);
    try change (fmul PInf PInf) with PInf; try change (fmul PInf NInf) with NInf; try change (fmul NInf PInf) with NInf; try change (fmul NInf NInf) with PInf;
    rewrite ?inf_scale_k, ?s_inf_scale; sr; try reflexivity.
  change (Fin (k * a * b) = Fin (k * (a * b))). now rewrite Rmult_assoc.
Qed.
Lemma fmul_comm x y : fmul x y = fmul y x.
Proof. destruct x, y; try reflexivity. cbn. now rewrite Rmult_comm. Qed.
Lemma s_mul_r x y : fmul x (s y) = s (fmul x y).
Proof. now rewrite fmul_comm, s_mul, (fmul_comm y). Qed.
Lemma s_div x y : fdiv (s x) y = s (fdiv x y).
Proof.
  destruct x as [a| | |], y as [b| | |]; sr; try reflexivity; cbn [fdiv]; sr; rewrite ?Rmult_0_r; try reflexivity.
  - rewrite Reqb_k0, Rltb_k0. destruct (Reqb b 0); [destruct (Reqb a 0); [|destruct (Rltb 0 a)]; sr; reflexivity|]. sr. f_equal. unfold Rdiv. ring.
  - destruct (Rltb b 0); sr; reflexivity.
  - destruct (Rltb b 0); sr; reflexivity.
Qed.
Lemma s_div_both x y : fdiv (s x) (s y) = fdiv x y.
Proof.
  destruct x as [a| | |], y as [b| | |]; sr; try reflexivity; cbn [fdiv]; rewrite ?Rltb_0k; try reflexivity.
  rewrite !Reqb_k0, Rltb_k0. destruct (Reqb b 0) eqn:E; [reflexivity|]. apply Reqb_false in E. f_equal. field. lra.
Qed.
Lemma s_abs x : fabs (s x) = s (fabs x).
Proof. destruct x; sr; cbn [fabs]; sr; try reflexivity. rewrite Rabs_mult, (Rabs_pos_eq k) by lra. reflexivity. Qed.
Lemma s_finite x : isfinite (s x) = isfinite x.
Proof. destruct x; sr; reflexivity. Qed.
Lemma s_isnan x : isnan (s x) = isnan x.
Proof. destruct x; sr; reflexivity. Qed.
Lemma s_ltb x y : fltb (s x) (s y) = fltb x y.
Proof. destruct x, y; sr; cbn [fltb]; try reflexivity. apply Rltb_k. Qed.
Lemma s_eqb x y : feqb (s x) (s y) = feqb x y.
Proof. destruct x, y; sr; cbn [feqb]; try reflexivity. apply Reqb_k. Qed.
Lemma s_eqb0 x : feqb (s x) (Fin 0) = feqb x (Fin 0).
Proof. rewrite <- (s_eqb x (Fin 0)). sr. now rewrite Rmult_0_r. Qed.
Lemma s_sum l : fsum (map s l) = s (fsum l).
Proof. induction l as [|a l IH]; cbn [map fsum fold_right]; [sr; now rewrite Rmult_0_r|]. change (fadd (s a) (fsum (map s l)) = s (fadd a (fsum l))). now rewrite IH, s_add. Qed.
Lemma s_sumn n f : fsumn n (fun i => s (f i)) = s (fsumn n f).
Proof. unfold fsumn. rewrite <- s_sum, map_map. reflexivity. Qed.
Lemma s_max l : forall a, fmax1 (s a) (map s l) = s (fmax1 a l).
Proof.
  induction l as [|b l IH]; intros a; [reflexivity|]. cbn [map fmax1]. rewrite <- IH, !s_isnan, s_ltb.
  destruct (isnan a), (isnan b), (fltb a b); reflexivity.
Qed.
Lemma s_min l : forall a, fmin1 (s a) (map s l) = s (fmin1 a l).
Proof.
  induction l as [|b l IH]; intros a; [reflexivity|]. cbn [map fmin1]. rewrite <- IH, !s_isnan, s_ltb.
  destruct (isnan a), (isnan b), (fltb b a); reflexivity.
Qed.
Definition rmap {A B} (f : A -> B) (r : res A) : res B := match r with Ok x => Ok (f x) | Err e => Err e end.
Lemma s_npmax l : np_max (map s l) = rmap s (np_max l).
Proof. destruct l; [reflexivity|]. cbn [map np_max rmap]. now rewrite s_max. Qed.
Lemma s_npmin l : np_min (map s l) = rmap s (np_min l).
Proof. destruct l; [reflexivity|]. cbn [map np_min rmap]. now rewrite s_min. Qed.
Lemma s_argmax n f g : (forall i, g i = s (f i)) -> argmax_ n g = argmax_ n f.
Proof.
  intros H. induction n as [|n IH]; [reflexivity|]. cbn [argmax_]. cbv zeta. rewrite IH, !H, !s_isnan, s_ltb. reflexivity.
Qed.
Lemma s_where l x : where_ (fun v => feqb v (s x)) (map s l) = where_ (fun v => feqb v x) l.
Proof.
  unfold where_. generalize 0%nat. induction l as [|a l IH]; intros n; [reflexivity|]. cbn [map where_from]. now rewrite s_eqb, IH.
Qed.

(* arrays *)
Lemma mk2_ext {A} r c (f g : nat -> nat -> A) : (forall i j, f i j = g i j) -> mk2 r c f = mk2 r c g.
Proof. intros H. replace g with f; [reflexivity|]. extensionality i. extensionality j. apply H. Qed.
Lemma mk3_ext {A} r c d (f g : nat -> nat -> nat -> A) : (forall i j l, f i j l = g i j l) -> mk3 r c d f = mk3 r c d g.
Proof. intros H. replace g with f; [reflexivity|]. extensionality i. extensionality j. extensionality l. apply H. Qed.
Lemma s_sum2 a : sum2 (map2 s a) = s (sum2 a).
Proof. unfold sum2, map2. cbn [rows cols at2]. rewrite <- s_sumn. apply fsumn_ext. intros i _. apply s_sumn. Qed.
Lemma s_sum3 a : sum3 (map3 s a) = s (sum3 a).
Proof.
  unfold sum3, map3. cbn [dim0 dim1 dim2 at3]. rewrite <- s_sumn. apply fsumn_ext. intros i _. rewrite <- s_sumn. apply fsumn_ext. intros j _. apply s_sumn.
Qed.
Lemma forallb_ext_ {A} (f g : A -> bool) l : (forall x, f x = g x) -> forallb f l = forallb g l.
Proof. intros H. induction l as [|a l IH]; [reflexivity|]. cbn. now rewrite H, IH. Qed.
Lemma s_allfin2 a : allfin2 (map2 s a) = allfin2 a.
Proof. unfold allfin2, map2. cbn [rows cols at2]. apply forallb_ext_. intros i. apply forallb_ext_. intros j. apply s_finite. Qed.
Lemma s_allfin3 a : allfin3 (map3 s a) = allfin3 a.
Proof. unfold allfin3, map3. cbn [dim0 dim1 dim2 at3]. apply forallb_ext_. intros i. apply forallb_ext_. intros j. apply forallb_ext_. intros l. apply s_finite. Qed.
Lemma s_conv3 a ker : conv3 (map3 s a) ker = map3 s (conv3 a ker).
Proof.
  unfold conv3. rewrite s_allfin3. destruct (allfin3 a && allfin3 ker); unfold map3; cbn [dim0 dim1 dim2 at3]; apply mk3_ext; intros w i j; [|reflexivity].
  rewrite <- s_sumn. apply fsumn_ext. intros v _. rewrite <- s_sumn. apply fsumn_ext. intros p _. rewrite <- s_sumn. apply fsumn_ext. intros q _. apply s_mul.
Qed.
Lemma s_conv2 a ker : conv2 (map2 s a) ker = map2 s (conv2 a ker).
Proof.
  unfold conv2. rewrite s_allfin2. destruct (allfin2 a && allfin2 ker); unfold map2; cbn [rows cols at2]; apply mk2_ext; intros i j; [|reflexivity].
  rewrite <- s_sumn. apply fsumn_ext. intros p _. rewrite <- s_sumn. apply fsumn_ext. intros q _. apply s_mul.
Qed.
Lemma s_PSF cube fw st : PSF_convolve (map3 s cube) fw st = rmap (option_map (map3 s)) (PSF_convolve cube fw st).
Proof.
  unfold PSF_convolve. destruct (fgtb fw (Fin 0)); [|reflexivity]. destruct st as [| |ker]; try reflexivity.
  change (size3 (map3 s cube)) with (size3 cube). destruct (_ || _); [reflexivity|]. cbv zeta. cbn [rmap option_map]. do 2 f_equal.
  rewrite s_conv3, !s_sum3, s_div_both. unfold map3. cbn [dim0 dim1 dim2 at3]. apply mk3_ext. intros i j l. apply s_mul.
Qed.
Lemma s_inst m wave w : inst_convol_complete (map2 s m) wave w = rmap (map2 s) (inst_convol_complete m wave w).
Proof.
  unfold inst_convol_complete. destruct w; try reflexivity. unfold convol_instconstfwhm. cbv zeta. change (size2 (map2 s m)) with (size2 m).
  destruct (_ || _); [reflexivity|]. cbn [rmap]. f_equal. rewrite s_conv2, !s_sum2, s_div_both. unfold map2. cbn [rows cols at2]. apply mk2_ext. intros i j. apply s_mul.
Qed.
Lemma s_rebin a m n : rebin2 (map2 s a) m n = rmap (map2 s) (rebin2 a m n).
Proof.
  unfold rebin2. destruct (_ || _); [reflexivity|]. cbv zeta. cbn [map2 rows cols]. destruct (Nat.eqb _ _); [|reflexivity]. cbn [rmap]. f_equal.
  unfold map2 at 2. cbn [rows cols at2]. apply mk2_ext. intros i j. rewrite <- s_sumn. apply fsumn_ext. intros q _. rewrite <- s_sumn. apply fsumn_ext. intros p _. reflexivity.
Qed.
Lemma s_collapse I V wave nW nZ nY nX dz l0 : I_simple_collapse (map3 s I) V wave nW nZ nY nX dz l0 = map3 s (I_simple_collapse I V wave nW nZ nY nX dz l0).
Proof.
  unfold I_simple_collapse, map3. cbn [dim0 dim1 dim2 at3]. apply mk3_ext. intros w j l. rewrite <- s_sumn. apply fsumn_ext. intros m _.
  destruct (Nat.eqb _ w); [apply s_mul|cbn; now rewrite Rmult_0_r].
Qed.
Definition map4 (f : fl -> fl) (a : arr4 fl) : arr4 fl := mk4 (d0 a) (d1 a) (d2 a) (d3 a) (fun t i j l => f (at4 a t i j l)).
Lemma s_gauss I4 wref V sg nW nZ nY nX dz cen wid : gauss_line (map4 s I4) wref V sg nW nZ nY nX dz cen wid = map3 s (gauss_line I4 wref V sg nW nZ nY nX dz cen wid).
Proof.
  unfold gauss_line, map3, map4. cbn [dim0 dim1 dim2 at3 at4]. apply mk3_ext. intros w j l. rewrite <- s_mul. f_equal. rewrite <- s_sumn. apply fsumn_ext. intros m _. apply s_mul.
Qed.
Lemma s_slit xarr wh A mu fw slit : check_slit_illum xarr wh (s A) mu fw slit = check_slit_illum xarr wh A mu fw slit.
Proof.
  unfold check_slit_illum. cbv zeta. destruct (_ || _); [|reflexivity]. f_equal. destruct (feqb _ _); [|reflexivity].
  destruct (take xarr wh) as [xs|e]; [|reflexivity]. cbn [bind].
  assert (E : map (fun x => fmul (s A) (gaus_from_fwhm x fw mu)) xs = map s (map (fun x => fmul A (gaus_from_fwhm x fw mu)) xs)).
  { rewrite map_map. apply map_ext. intros x. apply s_mul. }
  rewrite E. set (vals := map (fun x => fmul A (gaus_from_fwhm x fw mu)) xs). rewrite s_npmax. destruct (np_max vals) as [mx|e]; [|reflexivity]. cbn [rmap bind].
  assert (F : map (fun v => fabs (fsub v (fmul (Fin (1/2)) (s mx)))) (map s vals) = map s (map (fun v => fabs (fsub v (fmul (Fin (1/2)) mx))) vals)).
  { rewrite !map_map. apply map_ext. intros v. now rewrite s_mul_r, s_sub, s_abs. }
  rewrite F, s_npmin. destruct (np_min _) as [dm|e]; [|reflexivity]. cbn [rmap bind]. rewrite s_where, map_length.
  rewrite (s_argmax (length vals - 1) (lnth vals) (lnth (map s vals))); [reflexivity|].
  intros i. unfold lnth. rewrite <- s_NaN at 1. apply map_nth.
Qed.
End Pos.
