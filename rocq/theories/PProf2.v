(* Proofs about PSF stamps against SProf, and concrete cases. *)
From Coq Require Import Reals List Bool Arith ZArith Lra Lia.
From Verif Require Import PyFloat PyBase Arr PyNum MKernels PKernels2 MAper2D MProf SProf PProf.
Import ListNotations.
Local Open Scope R_scope.

Lemma gauss_bell p xs ys F arg : psf_fam p = PsfGaussian -> psf_dither p = None ->
  (match arg with Some v => Some v | None => psf_fwhm p end) = Some (Fin F) -> 0 < F ->
  exists st, generate_conv_stamp p (map Fin xs) (map Fin ys) arg = Ok (Some st) /\ bell F xs ys st.
Proof.
  intros Hf Hd Ha H. unfold generate_conv_stamp. rewrite Hf, Ha, Hd. eexists. split; [reflexivity|].
  split; [|split]; [unfold psf_stamp_gauss; cbn [rows]; apply map_length|unfold psf_stamp_gauss; cbn [cols]; apply map_length|].
  exists (fun j i => gprof F (nth i xs 0 * nth i xs 0 + nth j ys 0 * nth j ys 0)).
  cbn zeta. intros j i Hj Hi. split; [|split].
  - exact (gauss_stamp_value xs ys F None j i H Hj Hi).
  - apply exp_pos.
  - intros j' i' Hj' Hi'. split; [|split].
    + intros E. now rewrite E.
    + intros L. now apply gprof_lt.
    + intros E E'. rewrite E, gprof_0. apply gprof_half; [assumption|]. rewrite E'. field.
Qed.

Lemma moffat_bell p xs ys F beta arg : psf_fam p = PsfMoffat (Some (Fin beta)) ->
  (match arg with Some v => Some v | None => psf_fwhm p end) = Some (Fin F) -> 0 < F -> 1 < beta ->
  exists st, generate_conv_stamp p (map Fin xs) (map Fin ys) arg = Ok (Some st) /\ bell F xs ys st.
Proof.
  intros Hf Ha H Hb. rewrite (moffat_generate p _ _ F beta arg Hf Ha H) by lra.
  eexists. split; [reflexivity|].
  assert (Hal : 0 < moffat_alpha F beta) by (apply moffat_alpha_pos; lra).
  split; [|split]; [unfold psf_stamp_moffat; cbn [rows]; apply map_length|unfold psf_stamp_moffat; cbn [cols]; apply map_length|].
  exists (fun j i => mprof (moffat_alpha F beta) beta (nth i xs 0 * nth i xs 0 + nth j ys 0 * nth j ys 0)).
  cbn zeta. intros j i Hj Hi. split; [|split].
  - apply moffat_stamp_value; [lra|assumption|assumption].
  - apply mprof_pos; lra.
  - intros j' i' Hj' Hi'. split; [|split].
    + intros E. now rewrite E.
    + intros L. apply mprof_lt; try lra.
      apply Rplus_le_le_0_compat; apply Rle_0_sqr.
    + intros E E'. rewrite E.
      replace (nth i' xs 0 * nth i' xs 0 + nth j' ys 0 * nth j' ys 0) with (F * F / 4) by lra.
      now apply mprof_half; lra.
Qed.

Lemma moffat_low_beta p xs ys F beta arg : psf_fam p = PsfMoffat (Some (Fin beta)) ->
  (match arg with Some v => Some v | None => psf_fwhm p end) = Some (Fin F) -> 0 < F ->
  0 < beta -> beta <= 1 ->
  exists st, generate_conv_stamp p (map Fin xs) (map Fin ys) arg = Ok (Some st) /\
    forall j i, (j < length ys)%nat -> (i < length xs)%nat ->
      exists v, at2 st j i = Fin v /\ v <= 0 /\ (beta = 1 -> v = 0) /\ (beta < 1 -> v < 0).
Proof.
  intros Hf Ha H Hb Hb1. rewrite (moffat_generate p _ _ F beta arg Hf Ha H) by lra.
  eexists. split; [reflexivity|]. intros j i Hj Hi.
  assert (Hal : 0 < moffat_alpha F beta) by (apply moffat_alpha_pos; lra).
  eexists. split; [apply moffat_stamp_value; [lra|assumption|assumption]|].
  match goal with |- mprof ?a ?b ?d <= _ /\ _ => destruct (mprof_low_beta a b d) as [A B]; [lra|] end.
  split; [|split]; auto. destruct Hb1 as [L|E]; [left; auto|right; auto].
Qed.

Lemma nth_map_lt (f : R -> R) l j : (j < length l)%nat -> nth j (map f l) 0 = f (nth j l 0).
Proof.
  intros H. rewrite (nth_indep _ 0 (f 0)) by (rewrite map_length; assumption). apply map_nth.
Qed.

Lemma gauss_dither p q xs ys F d arg :
  psf_fam p = PsfGaussian -> psf_fam q = PsfGaussian ->
  psf_dither p = Some (Fin d) -> psf_dither q = None ->
  (match arg with Some v => Some v | None => psf_fwhm p end) = Some (Fin F) ->
  (match arg with Some v => Some v | None => psf_fwhm q end) = Some (Fin F) -> 0 < F ->
  exists st s0 su sl,
    generate_conv_stamp p (map Fin xs) (map Fin ys) arg = Ok (Some st) /\
    generate_conv_stamp q (map Fin xs) (map Fin ys) arg = Ok (Some s0) /\
    generate_conv_stamp q (map Fin xs) (map Fin (map (fun y => y - d) ys)) arg = Ok (Some su) /\
    generate_conv_stamp q (map Fin xs) (map Fin (map (fun y => y + d) ys)) arg = Ok (Some sl) /\
    forall j i, (j < length ys)%nat -> (i < length xs)%nat -> exists a b c,
      at2 s0 j i = Fin a /\ at2 su j i = Fin b /\ at2 sl j i = Fin c /\
      at2 st j i = Fin (a - (b + c) / 2).
Proof.
  intros Hp Hq Dp Dq Ap Aq H.
  unfold generate_conv_stamp. rewrite Hp, Hq, Dp, Dq, Ap, Aq.
  do 4 eexists. do 4 (split; [reflexivity|]).
  intros j i Hj Hi.
  pose proof (gauss_stamp_value xs ys F None j i H Hj Hi) as E0.
  pose proof (gauss_stamp_value xs ys F (Some d) j i H Hj Hi) as E1.
  pose proof (gauss_stamp_value xs (map (fun y => y - d) ys) F None j i H) as Eu.
  pose proof (gauss_stamp_value xs (map (fun y => y + d) ys) F None j i H) as El.
  rewrite map_length in Eu, El. specialize (Eu Hj Hi). specialize (El Hj Hi).
  cbn [option_map] in *. rewrite E0, E1, Eu, El.
  do 3 eexists. do 3 (split; [reflexivity|]). unfold gauss_of. f_equal.
  rewrite !nth_map_lt by assumption. lra.
Qed.

Lemma moffat_dither_ignored p x y arg d :
  (exists b, psf_fam p = PsfMoffat b) ->
  generate_conv_stamp (mkpsf (psf_fam p) (psf_fwhm p) d) x y arg = generate_conv_stamp p x y arg.
Proof. intros [b E]. unfold generate_conv_stamp. cbn. rewrite E. reflexivity. Qed.

(** With the offset the Moffat stamp function itself would differ. *)
Lemma moffat_dither_differs :
  exists st st', generate_conv_stamp (mkpsf (PsfMoffat (Some (Fin 2))) (Some (Fin 1)) (Some (Fin 0))) [Fin 0] [Fin 0] None
     = Ok (Some st) /\
  st' = psf_stamp_moffat [Fin 0] [Fin 0] (Fin (moffat_alpha 1 2)) (Fin 2) (Some (Fin 0)) /\
  (exists v, at2 st 0 0 = Fin v /\ 0 < v) /\ at2 st' 0 0 = Fin 0.
Proof.
  rewrite (moffat_generate _ _ _ 1 2 None) by (auto; lra).
  assert (Hal : 0 < moffat_alpha 1 2) by (apply moffat_alpha_pos; lra).
  do 2 eexists. split; [reflexivity|]. split; [reflexivity|]. split.
  - eexists. split; [apply (moffat_stamp_value [0] [0] _ _ 0 0); [lra|simpl; lia|simpl; lia]|].
    apply mprof_pos; lra.
  - unfold psf_stamp_moffat. cbn [at2]. rewrite xarr_at, yarr_at by (simpl; lia).
    unfold lnth. cbn [nth fneg]. rewrite !moffat_pt_prof by lra.
    unfold fsub. cbn [fadd fmul fneg]. f_equal. rewrite !Rplus_0_r, Ropp_0, !Rplus_0_r. field.
Qed.

Lemma psf_choice ty fwhm dither beta :
  (ty = None -> instrument_psf ty fwhm dither beta = Err KeyError) /\
  (forall t, ty = Some t -> exists p, instrument_psf ty fwhm dither beta = Ok p /\
     psf_fwhm p = fwhm /\ psf_dither p = dither /\
     (t <> TyMoffat -> psf_fam p = PsfGaussian) /\
     (t = TyMoffat -> exists b, psf_fam p = PsfMoffat b)).
Proof.
  split; [intros ->; reflexivity|]. intros t ->.
  destruct t; cbn; eexists; (split; [reflexivity|]); cbn;
    (split; [reflexivity|]); (split; [reflexivity|]); split; intros; try congruence; eauto.
Qed.
