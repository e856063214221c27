(* Proofs: the numeric kernels under a change of the unit of wavelength. *)
From Coq Require Import Reals Lra Lia List Bool Arith ZArith FunctionalExtensionality.
From Verif Require Import PyFloat PyBase Arr PyNum MParams MKernels MAper2D SFrame PKernels PAper2D PMirror PBright PBright2 PBright3.
Import ListNotations.
Local Open Scope R_scope.

Section U.
Variable u : R.
Hypothesis Hu : 0 < u.
Notation s := (fmul (Fin u)).
Notation i := (fmul (Fin (/ u))).
Lemma Hi : 0 < / u. Proof. now apply Rinv_0_lt_compat. Qed.
Lemma Huu : 0 < u * u. Proof. now apply Rmult_lt_0_compat. Qed.
Lemma one_s x : fmul (Fin 1) x = x.
Proof. destruct x; [cbn; now rewrite Rmult_1_l|apply s_PInf; lra|apply s_NInf; lra|reflexivity]. Qed.
Lemma s_fsq x : fsq (s x) = fmul (Fin (u * u)) (fsq x).
Proof. unfold fsq. rewrite (s_mul u Hu), (s_mul_r u Hu). now apply fmul_Fin2. Qed.
Lemma s_argmin n f g : (forall j, g j = s (f j)) -> argmin_ n g = argmin_ n f.
Proof. intros H. induction n as [|n IH]; [reflexivity|]. cbn [argmin_]. cbv zeta. now rewrite IH, !H, !(s_isnan u Hu), (s_ltb u Hu). Qed.
Lemma s_average l : average (map s l) = s (average l).
Proof. unfold average. now rewrite (s_sum u Hu), map_length, (s_div u Hu). Qed.
Lemma s_diffs l : diffs (map s l) = map s (diffs l).
Proof. induction l as [|a [|b l] IH]; try reflexivity. cbn [map diffs] in *. now rewrite (s_sub u Hu), IH. Qed.
Lemma s_linspace a b n : linspace (s a) (s b) n = map s (linspace a b n).
Proof.
  unfold linspace. rewrite map_map. apply map_ext. intros j. unfold linspace_at. destruct (Nat.leb n 1); [reflexivity|].
  now rewrite (s_sub u Hu), (s_div u Hu), (s_mul_r u Hu), (s_add u Hu).
Qed.
Lemma s_gaus x fw x0 : gaus_from_fwhm (s x) (s fw) (s x0) = gaus_from_fwhm x fw x0.
Proof.
  unfold gaus_from_fwhm. cbv zeta. rewrite (s_sub u Hu), (s_div u Hu), !s_fsq, !(s_mul_r (u * u) Huu), (s_div_both (u * u) Huu). reflexivity.
Qed.
Definition sidw (w : idw) : idw := match w with IdwNone => IdwNone | IdwFloat x => IdwFloat (s x) | IdwArr l => IdwArr (map s l) end.
Lemma s_droplast (l : list fl) : droplast (map s l) = map s (droplast l).
Proof. unfold droplast. now rewrite map_length, firstn_map. Qed.
Lemma frame_const m xx lc fw : convol_instconstfwhm m (map s xx) (s lc) (s fw) = convol_instconstfwhm m xx lc fw.
Proof.
  unfold convol_instconstfwhm. rewrite map_length, map_map. cbv beta zeta.
  assert (E : map (fun x => let y := gaus_from_fwhm (s x) (s fw) (s lc) in if isfinite y then y else Fin 0) xx =
              map (fun x => let y := gaus_from_fwhm x fw lc in if isfinite y then y else Fin 0) xx).
  { apply map_ext. intros x. now rewrite s_gaus. }
  cbv beta zeta in E. now rewrite E.
Qed.
Lemma frame_inst m wave w : inst_convol_complete m (map s wave) (sidw w) = inst_convol_complete m wave w.
Proof.
  unfold inst_convol_complete. cbv zeta. destruct w; try reflexivity. cbn [sidw]. rewrite map_length.
  assert (E : (if Nat.even (length wave) then droplast (map s wave) else map s wave) = map s (if Nat.even (length wave) then droplast wave else wave))
    by (destruct (Nat.even _); [apply s_droplast|reflexivity]).
  rewrite E, s_average, (s_mul u Hu). apply frame_const.
Qed.
Lemma frame_gauss I4 wref V sg nW nZ nY nX dz cen wid cen' wid' :
  (forall x, cen' x = s (cen x)) -> (forall x, wid' x = s (wid x)) ->
  gauss_line I4 (map4 s wref) V sg nW nZ nY nX dz cen' wid' = map3 i (gauss_line I4 wref V sg nW nZ nY nX dz cen wid).
Proof.
  intros Hc Hw. unfold gauss_line, map3, map4. cbn [dim0 dim1 dim2 at3 at4]. apply mk3_ext. intros w j l. rewrite <- (s_mul (/ u) Hi). f_equal.
  rewrite <- (s_sumn (/ u) Hi). apply fsumn_ext. intros m _. cbv zeta. rewrite Hc, Hw. rewrite (s_mul u Hu), (s_div_r u) by exact Hu.
  rewrite (s_sub u Hu), !s_fsq, (s_neg (u * u)), (s_mul_r (u * u) Huu), (s_div_both (u * u) Huu), (s_mul (/ u) Hi), (s_mul_r (/ u) Hi). reflexivity.
Qed.
Lemma frame_collapse I V wave nW nZ nY nX dz l0 : I_simple_collapse I V (map s wave) nW nZ nY nX dz (s l0) = I_simple_collapse I V wave nW nZ nY nX dz l0.
Proof.
  unfold I_simple_collapse. apply mk3_ext. intros w j l. apply fsumn_ext. intros m _. cbv zeta. rewrite map_length.
  rewrite (s_argmin _ (fun q => fabs (fsub (fmul l0 (fadd (Fin 1) (fdiv (at3 V m j l) (Fin c_kms)))) (lnth wave q)))); [reflexivity|].
  intros q. now rewrite lnth_map_s, (s_mul u Hu), (s_sub u Hu), (s_abs u Hu).
Qed.
Lemma frame_repeat wave a b c : repeat_wave (map s wave) a b c = map4 s (repeat_wave wave a b c).
Proof. unfold repeat_wave, map4. cbn [d0 d1 d2 d3 at4]. rewrite map_length. f_equal. extensionality w. extensionality x. extensionality y. extensionality z. apply lnth_map_s. Qed.
End U.

(* the two gains an image can have: per wavelength, or per bin when there is no dispersion *)
Definition gn (u k : R) : Prop := k = 1 \/ k = / u.
Lemma gn_pos u k : 0 < u -> gn u k -> 0 < k.
Proof. intros H [->| ->]; [lra|now apply Rinv_0_lt_compat]. Qed.
Lemma map3_ext_s k (x : arr3 fl) : map3 (fmul (Fin k)) x = mk3 (dim0 x) (dim1 x) (dim2 x) (fun a b c => fmul (Fin k) (at3 x a b c)).
Proof. reflexivity. Qed.
Lemma frame_add u v z z' I V sg wave rest ratio nW nz ny nx dz I4 wref : 0 < u -> 0 < v -> same_place u v z z' ->
  exists k, gn u k /\
  add_sigma_collapse_z I V sg (map (fmul (Fin u)) wave) z' (map (fmul (Fin v)) rest) ratio nW nz ny nx dz I4 (map4 (fmul (Fin u)) wref) Wave =
  rmap (map3 (fmul (Fin k))) (add_sigma_collapse_z I V sg wave z rest ratio nW nz ny nx dz I4 wref Wave).
Proof.
  intros Hu Hv Hz. unfold add_sigma_collapse_z. cbv zeta. rewrite map_length.
  change (shape4_eqb (map4 (fmul (Fin u)) wref) nW nz ny nx) with (shape4_eqb wref nW nz ny nx).
  assert (L : forall q, fmul (lnth (map (fmul (Fin v)) rest) q) (fadd (Fin 1) z') = fmul (Fin u) (fmul (lnth rest q) (fadd (Fin 1) z))).
  { intros q. rewrite lnth_map_s, (s_mul v Hv), <- (s_mul_r v Hv), Hz, (s_mul_r u Hu). reflexivity. }
  destruct (Nat.eqb _ 0).
  { exists 1. split; [now left|]. cbn [rmap]. f_equal. unfold map3. cbn [dim0 dim1 dim2 at3]. apply mk3_ext. intros. cbn. now rewrite Rmult_0_r. }
  destruct (np_max _) as [mx|]; [|exists 1; split; [now left|reflexivity]]. cbn [bind].
  destruct (_ && _); [exists 1; split; [now left|reflexivity]|]. destruct (Nat.ltb _ _); [exists 1; split; [now left|reflexivity]|]. cbn [rmap].
  destruct (fgtb mx (Fin 0)).
  - exists (/ u). split; [now right|]. f_equal. rewrite map3_ext_s. cbn [dim0 dim1 dim2 at3]. apply mk3_ext. intros w j l.
    rewrite <- (s_sumn (/ u) (Hi u Hu)). apply fsumn_ext. intros q _.
    rewrite (frame_gauss u Hu _ _ _ _ _ _ _ _ _ (fun v0 => fmul (fmul (lnth rest q) (fadd (Fin 1) z)) (fadd (Fin 1) (fdiv v0 (Fin c_kms))))
      (fun s0 => fmul (fdiv s0 (Fin c_kms)) (fmul (lnth rest q) (fadd (Fin 1) z)))).
    + rewrite map3_ext_s. cbn [at3]. apply (s_mul (/ u) (Hi u Hu)).
    + intros x. rewrite L. apply (s_mul u Hu).
    + intros x. rewrite L. apply (s_mul_r u Hu).
  - exists 1. split; [now left|]. f_equal. rewrite map3_ext_s. cbn [dim0 dim1 dim2 at3]. apply mk3_ext. intros w j l. rewrite one_s.
    apply fsumn_ext. intros q _. rewrite L, (frame_collapse u Hu). reflexivity.
Qed.
