(* Property theorems: C110-C111: the continuum fit *)
From Coq Require Import Reals List Bool Arith ZArith Lra Lia.
From Verif Require Import PyFloat PyBase Arr PyNum MMask SMask MTrim STrim PTrim2 MPrep SPrep SCont PCont PCont2.
Import ListNotations.
Local Open Scope R_scope.

(** Light added in the line or outside the kept range changes neither the continuum, the errors nor the masks; it stays in the flux where the image was finite. *)
Theorem C110_continuum_blind : forall c e e' r wave g g1 rm rf lo fo, q_obs (e2 e) = Some wave ->
  setting (q_rmline (e2 e)) (g_fmline c) rm -> asked (g_z c) (Some rm) None lo ->
  setting (q_rfull (e2 e)) (g_ffull c) rf -> asked (g_z c) (Some rf) None fo ->
  fleb (fst lo) (snd fo) = true -> fleb (fst fo) (snd lo) = true ->
  lit_env (off_windows lo fo wave) g g1 e e' -> subtract_continuum c e = (r, Ok tt) ->
  exists r' fx fr fr' ks, subtract_continuum c e' = (r', Ok tt) /\
    q_cont (e2 r') = q_cont (e2 r) /\ q_err (e2 r') = q_err (e2 r) /\ q_mask (e2 r') = q_mask (e2 r) /\ q_wave (e2 r') = q_wave (e2 r) /\
    q_flux (e2 e) = Some fx /\ q_flux (e2 r) = Some fr /\ q_flux (e2 r') = Some fr' /\ rows fr' = rows fr /\ cols fr' = cols fr /\ kept fo wave ks /\ cols fr = length ks /\
    forall i j k, nth_error ks j = Some k ->
      (on_line lo wave k -> isfinite (at2 fx i k) = true -> at2 fr' i j = fadd (at2 fr i j) (Fin (g i k))) /\
      (~ on_line lo wave k \/ isfinite (at2 fx i k) = false -> at2 fr' i j = at2 fr i j).
Proof. exact continuum_blind. Qed.
Print Assumptions C110_continuum_blind.

Example C110_example : let e := blind_env (ones 4 4) [Fin 1; Fin 1; Fin 1; Fin 1] in
  let e' := blind_env (mk2 4 4 (fun i j => Fin (1 + blind_light i j))) [Fin 51; Fin 1; Fin 9; Fin 1] in
  lit_env (off_windows (Fin 9, Fin 11) (Fin 5, Fin 15) [Fin 3; Fin 6; Fin 10; Fin 14]) blind_light (fun j => match j with 2%nat => 8 | _ => 50 end) e e' /\
  asked (g_z blind_cfg) (Some (Fin 9, Fin 11)) None (Fin 9, Fin 11) /\
  exists r, subtract_continuum blind_cfg e = (r, Ok tt).
Proof. exact blind_example. Qed.

(** The 1-D continuum fit leaves zeros in the 1-D mask, and in the array it came from, at the columns it takes for sky. *)
Theorem C111_sky_masked : forall c wl wr e r p t r1 m1 cut md,
  e1 e = Some t -> s_err t = Some r1 -> s_mask t = Some m1 -> q_cutoff (e2 e) = Some cut -> q_median (e2 e) = Some md ->
  cont_fit1 c wl wr e = (r, Ok p) ->
  exists m', e1 r = Some (set_s_mask m' t) /\ (k_a1 (e_k e) = true -> k_mask1 (e_k r) = m') /\ (k_a1 (e_k e) = false -> k_mask1 (e_k r) = k_mask1 (e_k e)) /\ length m' = length m1 /\
    forall j x y, nth_error m1 j = Some x -> nth_error r1 j = Some y ->
      nth_error m' j = Some (if fgeb (fsqrt (fsq (fmul y x))) (fmul (fst cut) md) then Fin 0 else x).
Proof. exact fit1_masks. Qed.
Print Assumptions C111_sky_masked.

Theorem C111_temporary_refuted : exists c wl wr e r p t m1 m', cont_fit1 c wl wr e = (r, Ok p) /\ e1 e = Some t /\ s_mask t = Some m1 /\ k_mask1 (e_k e) = m1 /\
  e1 r = Some (set_s_mask m' t) /\ k_mask1 (e_k r) = m' /\ nth_error m1 2 = Some (Fin 1) /\ nth_error m' 2 = Some (Fin 0).
Proof. exact fit1_masks_refuted. Qed.
Print Assumptions C111_temporary_refuted.
