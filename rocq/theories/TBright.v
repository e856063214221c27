(* Property theorems: units of brightness and flux in a 2-D fit (C123). *)
From Coq Require Import Reals List Bool Arith ZArith.
From Verif Require Import PyFloat PyBase Arr PyNum MProf MParams MKernels MAper2D SParams SAper2D SMirror SBright PLos PMirror5 PBright3 PBright4.
Import ListNotations.
Local Open Scope R_scope.

(** C123: a brighter disc gives the same image times a constant, or the same exception, under every option. *)
Theorem C123_bright_image : forall a b c th st,
  0 < a -> 0 < b -> (o_shift (c_opt c) || o_eff (c_opt c) = true -> scales_with a (p_lmfit (c_prof c))) ->
  image_times (gain a b c) (aper_new c th st) (aper_new (brighter a b c) th st).
Proof. exact bright_image. Qed.
Print Assumptions C123_bright_image.

Example C123_example_image : forall th st, image_times 6 (aper_new z_cfg th st) (aper_new (brighter 2 3 z_cfg) th st).
Proof. exact z_image. Qed.

(** C123: with the rows scaled to the data, the stored image and every log-likelihood along a fit do not depend on the brightness of the disc or on a common factor of the line ratios. *)
Theorem C123_bright_fit : forall a b c k tf0 tfs,
  0 < a -> 0 < b -> (o_shift (c_opt c) || o_eff (c_opt c) = true -> scales_with a (p_lmfit (c_prof c))) ->
  k_noscale k = false -> k_aper k = None ->
  let c' := brighter a b c in
  let p := km_make c tf0 k in let p' := km_make c' tf0 k in
  snd p = snd p' /\ (snd p = Ok tt -> k_model (fst p) = k_model (fst p')) /\ likelihoods c (fst p) tfs = likelihoods c' (fst p') tfs.
Proof. exact bright_fit. Qed.
Print Assumptions C123_bright_fit.

Example C123_example_fit : let th := [Fin 200; Fin (1/2); Fin 50; Fin 0; Fin 1] in let c' := brighter 2 3 y_cfg in
  let p := km_make y_cfg (firstn 3 th) (z_kin th) in let p' := km_make c' (firstn 3 th) (z_kin th) in
  snd p = Ok tt /\ snd p' = Ok tt /\ k_model (fst p) = k_model (fst p') /\
  likelihoods y_cfg (fst p) [[Fin 150; Fin (1/4); Fin 40]; [Fin 90]] = likelihoods c' (fst p') [[Fin 150; Fin (1/4); Fin 40]; [Fin 90]].
Proof. exact z_bright. Qed.

(** C123: data and errors in other units give the image in those units and a log-likelihood shifted by a constant. *)
Theorem C123_units : forall u c k k' tf M,
  0 < u -> k_noscale k = false -> same_but_image k k' -> (forall i j, at2 (smask (g_data (c_gal c))) i j = Fin (M i j)) ->
  let p := km_llike c k tf in let p' := km_llike (in_units u c) k' tf in
  same_but_image (fst p) (fst p') /\ k_noscale (fst p) = false /\
  match snd p, snd p' with
  | Ok x, Ok x' => exists m, k_model (fst p) = Some m /\ k_model (fst p') = Some (times u m) /\ x' = fadd x (Fin (- (ln u / ln 10) * in_fit M m))
  | Err e, Err e' => e = e'
  | _, _ => False
  end.
Proof. exact units_llike. Qed.
Print Assumptions C123_units.

Example C123_example_units : let th := [Fin 200; Fin (1/2); Fin 50; Fin 0; Fin 1] in
  exists k x x', km_make y_cfg (firstn 3 th) (z_kin th) = (k, Ok tt) /\
   snd (km_llike y_cfg k (firstn 3 th)) = Ok x /\ snd (km_llike (in_units 10 y_cfg) k (firstn 3 th)) = Ok x' /\ x' = fadd x (Fin (-6)).
Proof. exact z_units. Qed.

(** C123: the difference of two log-likelihoods, on which the sampler acts, does not depend on the units. *)
Theorem C123_units_difference : forall u c k1 k1' k2 k2' tf1 tf2 M x1 x2 x1' x2' m1 m2,
  0 < u -> (forall i j, at2 (smask (g_data (c_gal c))) i j = Fin (M i j)) ->
  k_noscale k1 = false -> k_noscale k2 = false -> same_but_image k1 k1' -> same_but_image k2 k2' ->
  snd (km_llike c k1 tf1) = Ok x1 -> snd (km_llike c k2 tf2) = Ok x2 ->
  snd (km_llike (in_units u c) k1' tf1) = Ok x1' -> snd (km_llike (in_units u c) k2' tf2) = Ok x2' ->
  k_model (fst (km_llike c k1 tf1)) = Some m1 -> k_model (fst (km_llike c k2 tf2)) = Some m2 -> rows m1 = rows m2 -> cols m1 = cols m2 ->
  fsub x2' x1' = fsub x2 x1.
Proof. exact units_difference. Qed.
Print Assumptions C123_units_difference.
