(* Slit illumination: misfit/model/kin_functions.py check_slit_illum. *)
From Coq Require Import Reals Lra List Bool Arith ZArith Lia.
From Verif Require Import PyFloat PyBase Arr PyNum MParams MKernels MAper2D PKernels2.
Import ListNotations.
Local Open Scope R_scope.

Ltac rl := repeat match goal with
  | H : context [Rltb ?a ?b] |- _ => let E := fresh in destruct (Rltb a b) eqn:E; [apply Rltb_true in E|apply Rltb_false in E]
  | |- context [Rltb ?a ?b] => let E := fresh in destruct (Rltb a b) eqn:E; [apply Rltb_true in E|apply Rltb_false in E]
  end.
Ltac step := cbn [fmul fsub fadd fneg fltb fgtb feqb andb orb bind].

Lemma slit_offset xarr wh A mu f s d w : 0 <= f -> 0 <= s ->
  check_slit_illum xarr wh A (Fin mu) (Fin f) (Fin s) = Ok (d, w) ->
  exists x, d = Fin x /\ - (s / 2) <= x <= s / 2.
Proof.
  intros Hf Hs. unfold check_slit_illum, fsub, fgtb. cbn [fmul fadd fneg fltb].
  set (h := 1 / 2 * s). set (nh := -1 / 2 * s).
  destruct (Rltb (mu + - (1 / 2 * f)) nh) eqn:E1; [apply Rltb_true in E1|apply Rltb_false in E1];
  destruct (Rltb h (mu + 1 / 2 * f)) eqn:E2; [apply Rltb_true in E2|apply Rltb_false in E2|apply Rltb_true in E2|apply Rltb_false in E2];
  cbn [orb fltb].
  4: { rl; cbn [orb andb fltb]; try (exfalso; unfold h, nh in *; lra).
       intros X. injection X as <- <-. exists mu. split; [reflexivity|]. unfold h, nh in *. lra. }
  all: match goal with |- bind ?e _ = _ -> _ => destruct e end; cbn [bind]; try discriminate;
    intros X; injection X as <- _; rl; cbn [fltb]; rl; eexists; (split; [reflexivity|]); unfold h, nh in *; lra.
Qed.

(* light that overlaps the slit: the width is that of the overlap *)
Lemma slit_width xarr wh A mu f s : 0 < f -> 0 < s -> - (s / 2) < mu + f / 2 -> mu - f / 2 < s / 2 ->
  exists d, check_slit_illum xarr wh A (Fin mu) (Fin f) (Fin s) =
   Ok (d, Fin (Rmin (mu + f / 2) (s / 2) - Rmax (mu - f / 2) (- (s / 2)))) /\
   0 < Rmin (mu + f / 2) (s / 2) - Rmax (mu - f / 2) (- (s / 2)) <= Rmin f s.
Proof.
  intros Hf Hs H1 H2. unfold check_slit_illum, fsub, fgtb. cbn [fmul fadd fneg fltb].
  set (h := 1 / 2 * s). set (nh := -1 / 2 * s).
  destruct (Rltb (mu + - (1 / 2 * f)) nh) eqn:E1; [apply Rltb_true in E1|apply Rltb_false in E1];
  destruct (Rltb h (mu + 1 / 2 * f)) eqn:E2; [apply Rltb_true in E2|apply Rltb_false in E2|apply Rltb_true in E2|apply Rltb_false in E2];
  cbn [fltb];
  match goal with |- context [Rltb ?a ?b] => destruct (Rltb a b) eqn:E3; [apply Rltb_true in E3; exfalso; unfold h, nh in *; lra|] end;
  cbn [andb orb feqb fadd fneg];
  assert (B1 : h = s / 2) by (unfold h; lra); assert (B2 : nh = - (s / 2)) by (unfold nh; lra).
  all: assert (M : 0 < Rmin (mu + f / 2) (s / 2) - Rmax (mu - f / 2) (- (s / 2)) <= Rmin f s)
    by (unfold Rmin, Rmax; repeat destruct (Rle_dec _ _); lra).
  all: match goal with |- context [Reqb ?a 0] => destruct (Reqb a 0) eqn:E4; [apply Reqb_true in E4; exfalso; unfold h, nh in *; lra|] | _ => idtac end; cbn [bind].
  all: eexists; (split; [|exact M]); do 3 f_equal; unfold Rmin, Rmax; repeat destruct (Rle_dec _ _); unfold h, nh in *; lra.
Qed.

Lemma fwhm_pos : 0 < fwhm_factor. Proof. apply fwhm_factor_pos. Qed.

Lemma gaus_val x f mu : 0 < f -> gaus_from_fwhm (Fin x) (Fin f) (Fin mu) =
  Fin (exp (- (x - mu) ^ 2 / (2 * (f / fwhm_factor) ^ 2))).
Proof.
  intros Hf. pose proof fwhm_pos as P. unfold gaus_from_fwhm, fsub, fdiv, fsq.
  destruct (Reqb fwhm_factor 0) eqn:E; [apply Reqb_true in E; lra|]. cbn [fmul fadd fneg].
  assert (Q : 0 < f / fwhm_factor) by (apply Rdiv_lt_0_compat; lra).
  match goal with |- context [Reqb (2 * ?d) 0] => destruct (Reqb (2 * d) 0) eqn:E1' end; [apply Reqb_true in E1'; nra|].
  unfold fexp. do 2 f_equal. field. lra.
Qed.

(* a source to the left of a two-sample slit: the reported width is minus the sample spacing *)
Lemma slit_left_negative x A mu f s : 0 < x -> 0 < A -> 0 < f -> 0 < s -> mu < - x -> mu + f / 2 <= - (s / 2) ->
  exists d, check_slit_illum [Fin (- x); Fin x] [0%nat; 1%nat] (Fin A) (Fin mu) (Fin f) (Fin s) = Ok (d, Fin (- x - x)).
Proof.
  intros Hx HA Hf Hs Hmx Hm. unfold check_slit_illum, fsub, fgtb. cbn [fmul fadd fneg fltb].
  set (h := 1 / 2 * s). set (nh := -1 / 2 * s).
  destruct (Rltb (mu + - (1 / 2 * f)) nh) eqn:E1; [apply Rltb_true in E1|apply Rltb_false in E1; exfalso; unfold nh in *; lra].
  destruct (Rltb h (mu + 1 / 2 * f)) eqn:E2; [apply Rltb_true in E2; exfalso; unfold h in *; lra|apply Rltb_false in E2].
  cbn [fltb].
  assert (E3 : (if Rltb (mu + 1 / 2 * f) nh && Rltb (mu + 1/2*f) nh then Fin nh else Fin (mu + 1 / 2 * f)) = Fin nh).
  { destruct (Rltb (mu + 1 / 2 * f) nh) eqn:E3; [reflexivity|]. apply Rltb_false in E3. cbn. f_equal. unfold nh in *. lra. }
  rewrite E3. cbn [orb].
  assert (E4 : (Rltb (mu + 1 / 2 * f) nh && Rltb h nh)%bool = false).
  { destruct (Rltb h nh) eqn:E4; [apply Rltb_true in E4; unfold h, nh in *; lra|]. apply andb_false_r. }
  rewrite E4. cbn [fadd fneg feqb]. replace (nh + - nh) with 0 by ring. rewrite Reqb_refl.
  cbn [take mapR bind getn nth_error map]. 
  assert (T : take [Fin (- x); Fin x] [0%nat; 1%nat] = Ok [Fin (- x); Fin x]) by reflexivity.
  rewrite ?T. cbn [bind map]. rewrite !gaus_val by auto. cbn [fmul fadd fneg].
  set (v0 := A * exp (- (- x - mu) ^ 2 / (2 * (f / fwhm_factor) ^ 2))).
  set (v1 := A * exp (- (x - mu) ^ 2 / (2 * (f / fwhm_factor) ^ 2))).
  assert (P0 : 0 < v1) by (apply Rmult_lt_0_compat; [auto|apply exp_pos]).
  assert (P1 : v1 < v0).
  { apply Rmult_lt_compat_l; auto. apply exp_increasing. pose proof fwhm_pos.
    assert (Q : 0 < f / fwhm_factor) by (apply Rdiv_lt_0_compat; lra).
    apply Rmult_lt_compat_r; [apply Rinv_0_lt_compat; nra|]. nra. }
  assert (MX : np_max [Fin v0; Fin v1] = Ok (Fin v0)).
  { cbn. unfold fmax1. cbn. destruct (Rltb v0 v1) eqn:E; [apply Rltb_true in E; lra|reflexivity]. }
  rewrite MX. cbn [bind map fmul fadd fneg fabs].
  assert (A0 : Rabs (v0 + - (1 / 2 * v0)) = v0 / 2) by (rewrite Rabs_pos_eq; lra). rewrite A0.
  set (d1 := Rabs (v1 + - (1 / 2 * v0))).
  assert (D1 : d1 < v0 / 2) by (unfold d1, Rabs; destruct (Rcase_abs _); lra).
  assert (MN : np_min [Fin (v0 / 2); Fin d1] = Ok (Fin d1)).
  { cbn. unfold fmin1. cbn. destruct (Rltb d1 (v0 / 2)) eqn:E; [reflexivity|apply Rltb_false in E; lra]. }
  rewrite MN. cbn [bind].
  assert (W : where_ (fun v => feqb v (Fin d1)) [Fin (v0 / 2); Fin d1] = [1%nat]).
  { unfold where_. cbn. destruct (Reqb (v0 / 2) d1) eqn:E; [apply Reqb_true in E; lra|]. now rewrite Reqb_refl. }
  rewrite W. cbn [getn nth_error bind length Nat.sub argmax_ lnth nth isnan fltb].
  assert (AM : Rltb v0 v1 = false) by (apply Rltb_false; lra). 
  unfold lnth. cbn [nth isnan fltb]. rewrite AM. cbn [nth fadd fneg].
  eexists. reflexivity.
Qed.

Lemma slit_width_witness : exists xarr wh A mu f s d w, 0 < f /\ 0 < s /\
  check_slit_illum xarr wh (Fin A) (Fin mu) (Fin f) (Fin s) = Ok (d, Fin w) /\ w < 0.
Proof.
  destruct (slit_left_negative (1/2) 1 (-10) 1 2) as [d Hd]; try lra.
  exists [Fin (- (1/2)); Fin (1/2)], [0%nat; 1%nat], 1, (-10), 1, 2, d, (- (1/2) - 1/2). repeat split; try lra. exact Hd.
Qed.
