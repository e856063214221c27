(* Proofs: angles in another unit, the numeric pieces and every stage of the 2-D model. *)
From Coq Require Import Reals Lra Lia List Bool Arith ZArith FunctionalExtensionality.
From Verif Require Import PyFloat PyBase Arr PyNum MParams MKernels MAper2D SMirror SBright SAngle PKernels PAper2D PAper2DVal PMirror PMirror2 PBright PBright2 PBright3 PFrame PUnits PScale.
Import ListNotations.
Local Open Scope R_scope.

Lemma Rratio u a b : 0 < u -> u * a / (u * b) = a / b.
Proof. intros H. unfold Rdiv. rewrite Rinv_mult. transitivity (u * / u * (a * / b)); [ring|]. rewrite Rinv_r by lra. ring. Qed.
Lemma Reqb_u u a b : 0 < u -> Reqb (u * a) (u * b) = Reqb a b.
Proof. intros H. unfold Reqb. destruct (Req_EM_T (u * a) (u * b)), (Req_EM_T a b); try reflexivity; exfalso; [|subst; auto]. apply n. apply (Rmult_eq_reg_l u); [assumption|lra]. Qed.

(* the stamp may be multiplied by anything: the convolved cube is normalised *)
Lemma ker_conv3 k a ker : 0 < k -> conv3 a (map3 (fmul (Fin k)) ker) = map3 (fmul (Fin k)) (conv3 a ker).
Proof.
  intros Hk. unfold conv3. rewrite (s_allfin3 k Hk). cbn [map3 dim0 dim1 dim2]. destruct (allfin3 a && allfin3 ker); unfold map3; cbn [dim0 dim1 dim2 at3]; apply mk3_ext; intros w i j; [|reflexivity].
  rewrite <- (s_sumn k Hk). apply fsumn_ext. intros v _. rewrite <- (s_sumn k Hk). apply fsumn_ext. intros p _. rewrite <- (s_sumn k Hk). apply fsumn_ext. intros q _.
  rewrite <- (s_mul_r k Hk). f_equal. unfold opt_at.
  destruct (same_idx (dim0 ker) w v); [|now rewrite (s_0 k)]. destruct (same_idx (dim1 ker) i p); [|now rewrite (s_0 k)]. destruct (same_idx (dim2 ker) j q); [reflexivity|now rewrite (s_0 k)].
Qed.
Lemma ker_PSF u k cube f st : 0 < u -> 0 < k -> PSF_convolve cube (fmul (Fin u) f) (sst k st) = PSF_convolve cube f st.
Proof.
  intros Hu Hk. unfold PSF_convolve. rewrite (z_gt0 u f Hu). destruct (fgtb f (Fin 0)); [|reflexivity]. destruct st as [|a|a]; try reflexivity. cbn [sst].
  change (size3 (map3 (fmul (Fin k)) a)) with (size3 a). destruct (_ || _); [reflexivity|]. cbv zeta. rewrite (ker_conv3 k _ _ Hk), (s_sum3 k Hk), (s_div_r k) by exact Hk.
  do 2 f_equal. unfold map3. cbn [dim0 dim1 dim2 at3]. apply mk3_ext. intros x y z.
  rewrite (s_mul k Hk), (s_mul_r (/ k) (Rinv_0_lt_compat k Hk)). now apply s_undo.
Qed.

Section U.
Variable u : R.
Hypothesis Hu : 0 < u.
Notation s := (fmul (Fin u)).
Lemma g_take l : forall wh, take (map s l) wh = rmap (map s) (take l wh).
Proof.
  induction wh as [|i wh IH]; [reflexivity|]. cbn [take]. unfold getn. rewrite nth_error_map. destruct (nth_error l i); [|reflexivity]. cbn [option_map bind]. rewrite IH.
  destruct (take l wh); reflexivity.
Qed.
Lemma g_if (b : bool) x y : (if b then s x else s y) = s (if b then x else y).
Proof. now destruct b. Qed.
Lemma g_slit xarr wh A mu fw slit : check_slit_illum (map s xarr) wh A (s mu) (s fw) (s slit) = rmap (fun p => (s (fst p), s (snd p))) (check_slit_illum xarr wh A mu fw slit).
Proof.
  unfold check_slit_illum, fgtb. cbv zeta. rewrite !(s_mul_r u Hu), (s_sub u Hu), (s_add u Hu). repeat (rewrite (s_ltb u Hu) || rewrite g_if).
  match goal with |- context [if ?b || ?c || ?d || ?e then _ else _] => destruct (b || c || d || e) end; [|reflexivity].
  rewrite (s_sub u Hu), (s_eqb0 u Hu). repeat (rewrite (s_ltb u Hu) || rewrite g_if).
  set (x_u := if _ && _ then fmul (Fin (-1/2)) slit else _). set (x_l := if _ && _ then fmul (Fin (1/2)) slit else _).
  destruct (feqb _ _); [|reflexivity]. rewrite g_take. destruct (take xarr wh) as [xs|]; [|reflexivity]. cbn [rmap bind].
  assert (E : map (fun x => fmul A (gaus_from_fwhm x (s fw) (s mu))) (map s xs) = map (fun x => fmul A (gaus_from_fwhm x fw mu)) xs).
  { rewrite map_map. apply map_ext. intros x. now rewrite (s_gaus u Hu). }
  rewrite E. set (vals := map _ xs). destruct (np_max vals) as [mx|]; [|reflexivity]. cbn [bind]. destruct (np_min _) as [dm|]; [|reflexivity]. cbn [bind].
  destruct (getn _ 0) as [h|]; [|reflexivity]. cbn [bind rmap fst snd]. now rewrite !lnth_map_s, (s_sub u Hu).
Qed.
Lemma g_collapse I V wave nW nZ nY nX dz l0 : I_simple_collapse I V wave nW nZ nY nX (s dz) l0 = map3 s (I_simple_collapse I V wave nW nZ nY nX dz l0).
Proof.
  unfold I_simple_collapse, map3. cbn [dim0 dim1 dim2 at3]. apply mk3_ext. intros w j l. rewrite <- (s_sumn u Hu). apply fsumn_ext. intros m _. cbv zeta.
  destruct (Nat.eqb _ w); [apply (s_mul_r u Hu)|now rewrite (s_0 u)].
Qed.
Lemma g_gauss I4 wref V sg nW nZ nY nX dz cen wid : gauss_line I4 wref V sg nW nZ nY nX (s dz) cen wid = map3 s (gauss_line I4 wref V sg nW nZ nY nX dz cen wid).
Proof. unfold gauss_line, map3. cbn [dim0 dim1 dim2 at3]. apply mk3_ext. intros w j l. apply (s_mul_r u Hu). Qed.
Lemma g_add I V sg wave z rest ratio nW nz ny nx dz I4 wref sp :
  add_sigma_collapse_z I V sg wave z rest ratio nW nz ny nx (s dz) I4 wref sp = rmap (map3 s) (add_sigma_collapse_z I V sg wave z rest ratio nW nz ny nx dz I4 wref sp).
Proof.
  assert (Z3 : forall x y w, mk3 x y w (fun _ _ _ => Fin 0) = map3 s (mk3 x y w (fun _ _ _ => Fin 0))).
  { intros. unfold map3. cbn [dim0 dim1 dim2 at3]. apply mk3_ext. intros. now rewrite (s_0 u). }
  unfold add_sigma_collapse_z. cbv zeta. destruct sp.
  - destruct (Nat.eqb _ 0); [cbn [rmap]; now rewrite <- Z3|]. destruct (np_max _) as [mx|]; [|reflexivity]. cbn [bind].
    destruct (_ && _); [reflexivity|]. destruct (Nat.ltb _ _); [reflexivity|]. cbn [rmap]. f_equal.
    unfold map3 at 1. cbn [dim0 dim1 dim2 at3]. apply mk3_ext. intros w j l. rewrite <- (s_sumn u Hu). apply fsumn_ext. intros i _.
    destruct (fgtb mx (Fin 0)).
    + rewrite g_gauss. apply (s_mul u Hu).
    + rewrite g_collapse. apply (s_mul u Hu).
  - destruct (np_max _) as [mx|]; [|reflexivity]. cbn [bind]. destruct (fgtb mx (Fin 0)); [|reflexivity]. destruct (_ && _); [|reflexivity].
    cbn [rmap]. now rewrite g_gauss.
  - cbn [rmap]. now rewrite <- Z3.
Qed.
End U.
