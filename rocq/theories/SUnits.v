(* Specification vocabulary: preparing the same spectrum expressed in another unit of flux. *)
From Coq Require Import Reals List Bool Arith ZArith.
From Verif Require Import PyFloat PyBase Arr PyNum MKernels MMask MTrim MPrep.
Import ListNotations.
Local Open Scope R_scope.

(** Every value of an image, or of a list, in a unit [u] times smaller. *)
Definition img_in (u : R) (m : arr2 fl) : arr2 fl := mk2 (rows m) (cols m) (fun i j => fmul (Fin u) (at2 m i j)).
Definition list_in (u : R) : list fl -> list fl := map (fmul (Fin u)).

(** The same spectra in that unit: flux, error, what was derived from them, and nothing else. *)
Definition sp2_in (u : R) (s : sp2) : sp2 :=
  set_q_flux (option_map (img_in u) (q_flux s)) (set_q_err (option_map (img_in u) (q_err s))
  (set_q_incl (option_map (img_in u) (q_incl s)) (set_q_cont (option_map (img_in u) (q_cont s))
  (set_q_median (option_map (fmul (Fin u)) (q_median s)) s)))).
Definition sp1_in (u : R) (t : sp1) : sp1 :=
  mkSp1 (s_wave t) (s_obs t) (s_rest t) (option_map (list_in u) (s_flux t)) (option_map (list_in u) (s_err t)) (s_mask t) (s_profile t) (s_trimo t) (s_trimr t).

(** A spectrum without the attributes that carry the unit. *)
Definition unit_free (s : sp2) : sp2 := set_q_flux None (set_q_err None (set_q_incl None (set_q_cont None (set_q_median None s)))).

(** The masks that exist are zero at a pixel. *)
Definition zero_in (o : option (arr2 fl)) (i j : nat) : Prop := forall m, o = Some m -> at2 m i j = Fin 0.
Definition masked (mk ql sk : option (arr2 fl)) (i j : nat) : Prop := zero_in mk i j /\ zero_in ql i j /\ zero_in sk i j.

(** One pixel in the two units: converted, or else masked and holding the filling value in both;
    for the continuum-subtracted flux, masked and finite in both or in neither. *)
Definition converted_or_filled (u : R) (z : Prop) (x x' : fl) : Prop := x' = fmul (Fin u) x \/ z /\ x = Fin (-99) /\ x' = Fin (-99).
Definition converted_or_masked (u : R) (z : Prop) (x x' : fl) : Prop := x' = fmul (Fin u) x \/ z /\ isfinite x = isfinite x'.

(** Images of the same shape, related pixel by pixel. *)
Definition pixelwise (Q : nat -> nat -> fl -> fl -> Prop) (a a' : arr2 fl) : Prop :=
  rows a' = rows a /\ cols a' = cols a /\ forall i j, Q i j (at2 a i j) (at2 a' i j).
Definition pixelwise_o (Q : nat -> nat -> fl -> fl -> Prop) (o o' : option (arr2 fl)) : Prop :=
  match o, o' with Some a, Some a' => pixelwise Q a a' | None, None => True | _, _ => False end.

(** Two prepared spectra that differ by the unit only: all else is equal; continuum and median noise are
    converted; flux, error and flux with continuum are converted wherever some mask is not zero. *)
Definition same_but_unit (u : R) (s s' : sp2) : Prop :=
  let z := masked (q_mask s) (q_qual s) (q_sky s) in
  unit_free s' = unit_free s /\
  pixelwise_o (fun i j => converted_or_masked u (z i j)) (q_flux s) (q_flux s') /\
  pixelwise_o (fun i j => converted_or_filled u (z i j)) (q_err s) (q_err s') /\
  pixelwise_o (fun i j => converted_or_filled u (z i j)) (q_incl s) (q_incl s') /\
  q_cont s' = option_map (img_in u) (q_cont s) /\ q_median s' = option_map (fmul (Fin u)) (q_median s).

(** The external fits and the median answer in the unit they are asked in. *)
Definition res_in {A} (f : A -> A) (r : res A) : res A := match r with Ok a => Ok (f a) | Err x => Err x end.
Definition answers_in_unit (u : R) (c : cfg) : Prop :=
  (forall l, g_median c (list_in u l) = fmul (Fin u) (g_median c l)) /\
  (forall v xs ys es ms, g_fit1 c v xs (list_in u ys) (list_in u es) ms =
     res_in (fun p => (fmul (Fin u) (fst p), fmul (Fin u) (snd p))) (g_fit1 c v xs ys es ms)) /\
  (forall i a b xs ys es ms ys' es', length ys' = length ys -> length es' = length es ->
     (forall k, converted_or_filled u (lnth ms k = Fin 0) (lnth ys k) (lnth ys' k)) ->
     (forall k, converted_or_filled u (lnth ms k = Fin 0) (lnth es k) (lnth es' k)) ->
     g_fitrow c i (fmul (Fin u) a) (fmul (Fin u) b) xs ys' es' ms = res_in (fmul (Fin u)) (g_fitrow c i a b xs ys es ms)) /\
  (forall f e w y, g_vert c (img_in u f) (img_in u e) w y = g_vert c f e w y) /\
  (g_wt c = Optimal -> forall ic ic' er er' sk, pixelwise (fun i j => converted_or_filled u (at2 sk i j = Fin 0)) ic ic' ->
     pixelwise (fun i j => converted_or_filled u (at2 sk i j = Fin 0)) er er' ->
     g_fit3 c ic' er' sk = (fmul (Fin u) (fst (fst (g_fit3 c ic er sk))), snd (fst (g_fit3 c ic er sk)), snd (g_fit3 c ic er sk))).

(** Not yet prepared: no quality mask and no sky mask given (their defaults). *)
Definition unprepared (s : sp2) : Prop := q_qual s = None /\ q_sky s = None /\ q_prepared s = false.

(** The same galaxy handed over in another unit (what arrays the caller keeps does not matter). *)
Definition handed_in (u : R) (e e' : env) : Prop :=
  e2 e' = sp2_in u (e2 e) /\ e1 e' = option_map (sp1_in u) (e1 e) /\ e_dpa e' = e_dpa e /\ e_reg e' = e_reg e.

(** Two runs that both succeed, with related results and states, or raise the same exception. *)
Definition both {S A} (V : A -> A -> S -> S -> Prop) (p p' : S * res A) : Prop :=
  match snd p, snd p' with Ok a, Ok a' => V a a' (fst p) (fst p') | Err x, Err x' => x = x' | _, _ => False end.

(** Two prepared galaxies that differ by the unit only. *)
Definition prepared_in (u : R) (f f' : env) : Prop :=
  same_but_unit u (e2 f) (e2 f') /\ e1 f' = option_map (sp1_in u) (e1 f) /\ e_dpa f' = e_dpa f /\ e_reg f' = e_reg f.

(** The data a 2-D fit compares a model with. *)
Definition fitted_data (s : sp2) (d : data2) : Prop :=
  q_flux s = Some (flux d) /\ q_err s = Some (ferr d) /\ q_mask s = Some (smask d) /\ q_wmat s = Some (fwt d) /\ q_wh_nosky s = wh_nosky d.

(** No pixel that every mask excludes in the columns from which row [i] is scaled. *)
Definition no_fill_in_row (s : sp2) (i : nat) : Prop :=
  forall j, In j (q_wh_nosky s) -> ~ masked (q_mask s) (q_qual s) (q_sky s) i j.

(** An image in the other unit, inside its bounds. *)
Definition image_in (u : R) (m m' : arr2 fl) : Prop :=
  rows m' = rows m /\ cols m' = cols m /\ forall i j, (i < rows m)%nat -> (j < cols m)%nat -> at2 m' i j = fmul (Fin u) (at2 m i j).

(** Same result up to a relation, or same exception. *)
Definition both_res {A} (V : A -> A -> Prop) (p p' : res A) : Prop :=
  match p, p' with Ok a, Ok a' => V a a' | Err x, Err x' => x = x' | _, _ => False end.
