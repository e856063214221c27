(* Property theorems: parameters with the same 2-D image (C122). *)
From Coq Require Import Reals List Bool Arith ZArith.
From Verif Require Import PyFloat PyBase Arr PyNum MProf MParams MKernels MAper2D SAper1D SAper2D SLos SMirror PKernels PAper2D PLos PMirror PMirror2 PMirror3 PMirror4 PMirror5.
Import ListNotations.
Local Open Scope R_scope.

(** C122: turning the galaxy by half a turn and reversing the sign of the rotation gives the same stamp and the same image or exception, under every option. *)
Theorem C122_half_turn : forall c d th st,
  g_dPA (c_gal c) = Fin d -> p_nvel (c_prof c) = 2%nat -> p_vel (c_prof c) = MProf.vel_arctan ->
  two_sided (p_disp (c_prof c)) -> (forall r h, p_int (c_prof c) r (fneg h) = p_int (c_prof c) r h) -> (3 <= length th)%nat ->
  same_image (aper_new c th st) (aper_new (at_angle (Fin (d + 180)) c) (flip1 th) st).
Proof. exact half_turn. Qed.
Print Assumptions C122_half_turn.

Example C122_example_half_turn : forall st, same_image (aper_new y_cfg [Fin 200; Fin (1/2); Fin 50; Fin 0; Fin 1] st)
  (aper_new (at_angle (Fin (30 + 180)) y_cfg) [Fin (-200); Fin (1/2); Fin 50; Fin 0; Fin 1] st).
Proof. exact y_turn. Qed.

(** C122: the same for every log-likelihood along a fit. *)
Theorem C122_half_turn_fit : forall c d k vs tf0 tfs,
  g_dPA (c_gal c) = Fin d -> p_nvel (c_prof c) = 2%nat -> p_vel (c_prof c) = MProf.vel_arctan ->
  two_sided (p_disp (c_prof c)) -> (forall r h, p_int (c_prof c) r (fneg h) = p_int (c_prof c) r h) ->
  (3 <= length (k_theta k))%nat -> k_vary k = true :: vs -> k_aper k = None ->
  let c' := at_angle (Fin (d + 180)) c in
  let k' := mkkm (flip1 (k_theta k)) (k_vary k) (k_noscale k) None (k_model k) (k_stamp k) in
  let p := km_make c tf0 k in let p' := km_make c' (flip1 tf0) k' in
  snd p = snd p' /\ k_model (fst p) = k_model (fst p') /\ likelihoods c (fst p) tfs = likelihoods c' (fst p') (map flip1 tfs).
Proof. exact half_turn_fit. Qed.
Print Assumptions C122_half_turn_fit.

Example C122_example_fit : let th := [Fin 200; Fin (1/2); Fin 50; Fin 0; Fin 1] in
  let c' := at_angle (Fin (30 + 180)) y_cfg in
  let p := km_make y_cfg (firstn 3 th) (y_kin th) in let p' := km_make c' (flip1 (firstn 3 th)) (y_kin (flip1 th)) in
  snd p = Ok tt /\ snd p' = Ok tt /\
  likelihoods y_cfg (fst p) [[Fin 150; Fin (1/4); Fin 40]; [Fin 90]] = likelihoods c' (fst p') [[Fin (- (150)); Fin (1/4); Fin 40]; [Fin (- (90))]].
Proof. exact y_fit. Qed.

(** C122: reversing the sign of both velocity parameters changes nothing. *)
Theorem C122_sign : forall c, p_nvel (c_prof c) = 2%nat -> p_vel (c_prof c) = MProf.vel_arctan ->
  forall th st, disc_par th -> (4 <= length th)%nat -> same_image (aper_new c th st) (aper_new c (flip2 th) st).
Proof. exact sign_image. Qed.
Print Assumptions C122_sign.

Example C122_example_sign : forall st, same_image (aper_new y_cfg [Fin 200; Fin (1/2); Fin 50; Fin 0; Fin 1] st)
  (aper_new y_cfg [Fin (- (200)); Fin (- (1/2)); Fin 50; Fin 0; Fin 1] st).
Proof. exact y_sign. Qed.

(** C122: nor does it change any log-likelihood along a fit. *)
Theorem C122_sign_fit : forall c, p_nvel (c_prof c) = 2%nat -> p_vel (c_prof c) = MProf.vel_arctan ->
  forall k vs tf0 tfs, disc_par (k_theta k) -> (4 <= length (k_theta k))%nat -> k_vary k = true :: true :: vs -> k_aper k = None ->
  Forall disc_par (tf0 :: tfs) ->
  let k' := mkkm (flip2 (k_theta k)) (k_vary k) (k_noscale k) None (k_model k) (k_stamp k) in
  let p := km_make c tf0 k in let p' := km_make c (flip2 tf0) k' in
  snd p = snd p' /\ k_model (fst p) = k_model (fst p') /\ likelihoods c (fst p) tfs = likelihoods c (fst p') (map flip2 tfs).
Proof. exact sign_fit. Qed.
Print Assumptions C122_sign_fit.

(** C122: the image of a face-on disc does not depend on the rotation. *)
Theorem C122_face_on : forall c q0, p_nvel (c_prof c) = 2%nat -> p_vel (c_prof c) = MProf.vel_arctan ->
  g_q (c_gal c) = Fin 1 -> g_q0 (c_gal c) = Fin q0 -> 0 <= q0 < 1 ->
  forall a b a' b' t st, b <> 0 -> b' <> 0 -> (2 <= length t)%nat ->
  same_image (aper_new c (Fin a :: Fin b :: t) st) (aper_new c (Fin a' :: Fin b' :: t) st).
Proof. exact face_on. Qed.
Print Assumptions C122_face_on.

Example C122_example_face_on : forall st (va va' : R), same_image
  (aper_new (mkcfg (mkgal (Fin 1) (Fin 0) (Fin 30) 3 (map Fin [13126; 13134]) (Fin 1) [Fin 6565] [Fin 1] y_data) y_ins y_opt y_prof) [Fin va; Fin (1/2); Fin 50; Fin 0; Fin 1] st)
  (aper_new (mkcfg (mkgal (Fin 1) (Fin 0) (Fin 30) 3 (map Fin [13126; 13134]) (Fin 1) [Fin 6565] [Fin 1] y_data) y_ins y_opt y_prof) [Fin va'; Fin 3; Fin 50; Fin 0; Fin 1] st).
Proof. exact y_face. Qed.

(** C122: a disc centred in the slit turning backwards gives the image with the rows in reverse order. *)
Theorem C122_backwards : forall c l d q q0 m0 z va rt sg dm (rest ratio : list R) (hr : R -> R -> R) st,
  let th v := [Fin v; Fin rt; Fin sg; Fin dm; Fin z] in
  well_posed c (th va) l -> unblurred c ->
  p_nvel (c_prof c) = 2%nat -> p_vel (c_prof c) = MProf.vel_arctan -> p_disp (c_prof c) = MProf.disp_const ->
  g_dPA (c_gal c) = Fin d -> g_q (c_gal c) = Fin q -> g_q0 (c_gal c) = Fin q0 -> 0 <= q0 < 1 -> 0 <= q <= 1 ->
  g_m0 (c_gal c) = Fin m0 -> 1 + z <> 0 -> rt <> 0 -> sg <> 0 ->
  g_rest (c_gal c) = map Fin rest -> g_ratio (c_gal c) = map Fin ratio -> (forall x, In x rest -> x <> 0) ->
  (forall r h, p_int (c_prof c) (Fin r) (Fin h) = Fin (hr r h)) -> (forall r h, hr r (- h) = hr r h) ->
  o_xc (c_opt c) = 0 -> m0 + dm = (INR (g_rows (c_gal c)) - 1) / 2 -> (2 <= g_rows (c_gal c) * o_nsub (c_opt c))%nat ->
  exists b b' m m', snd (aper_new c (th va) st) = Ok b /\ a_model b = Some m /\
    snd (aper_new c (th (- va)) st) = Ok b' /\ a_model b' = Some m' /\
    rows m = g_rows (c_gal c) /\ rows m' = g_rows (c_gal c) /\ cols m = length l /\ cols m' = length l /\
    forall i t, (i < g_rows (c_gal c))%nat -> (t < length l)%nat -> at2 m' i t = at2 m (g_rows (c_gal c) - 1 - i)%nat t.
Proof. exact backwards. Qed.
Print Assumptions C122_backwards.

(** C122: so does turning it by half a turn on the sky. *)
Theorem C122_turned : forall c l d q q0 m0 z va rt sg dm (rest ratio : list R) (hr : R -> R -> R) st,
  let th := [Fin va; Fin rt; Fin sg; Fin dm; Fin z] in
  well_posed c th l -> unblurred c ->
  p_nvel (c_prof c) = 2%nat -> p_vel (c_prof c) = MProf.vel_arctan -> p_disp (c_prof c) = MProf.disp_const ->
  g_dPA (c_gal c) = Fin d -> g_q (c_gal c) = Fin q -> g_q0 (c_gal c) = Fin q0 -> 0 <= q0 < 1 -> 0 <= q <= 1 ->
  g_m0 (c_gal c) = Fin m0 -> 1 + z <> 0 -> rt <> 0 -> sg <> 0 ->
  g_rest (c_gal c) = map Fin rest -> g_ratio (c_gal c) = map Fin ratio -> (forall x, In x rest -> x <> 0) ->
  (forall r h, p_int (c_prof c) (Fin r) (Fin h) = Fin (hr r h)) -> (forall r h, p_int (c_prof c) r (fneg h) = p_int (c_prof c) r h) ->
  o_xc (c_opt c) = 0 -> m0 + dm = (INR (g_rows (c_gal c)) - 1) / 2 -> (2 <= g_rows (c_gal c) * o_nsub (c_opt c))%nat ->
  exists b b' m m', snd (aper_new c th st) = Ok b /\ a_model b = Some m /\
    snd (aper_new (at_angle (Fin (d + 180)) c) th st) = Ok b' /\ a_model b' = Some m' /\
    rows m = g_rows (c_gal c) /\ rows m' = g_rows (c_gal c) /\ cols m = length l /\ cols m' = length l /\
    forall i t, (i < g_rows (c_gal c))%nat -> (t < length l)%nat -> at2 m' i t = at2 m (g_rows (c_gal c) - 1 - i)%nat t.
Proof. exact turned. Qed.
Print Assumptions C122_turned.

Example C122_example_turned : let th := [Fin 200; Fin (1/2); Fin 50; Fin 0; Fin 1] in
  exists b b' m m', snd (aper_new y_cfg th (Stamp3 (mk3 0 0 0 (fun _ _ _ => NaN)))) = Ok b /\ a_model b = Some m /\
    snd (aper_new (at_angle (Fin (30 + 180)) y_cfg) th (Stamp3 (mk3 0 0 0 (fun _ _ _ => NaN)))) = Ok b' /\ a_model b' = Some m' /\
    rows m = 3%nat /\ at2 m' 0 1 = at2 m 2 1 /\ at2 m' 2 0 = at2 m 0 0.
Proof. exact y_centre. Qed.
