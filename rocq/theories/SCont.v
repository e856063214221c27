(* Specification vocabulary: data sets that differ in the light of the line only. *)
From Coq Require Import Reals List Bool Arith ZArith.
From Verif Require Import PyFloat PyBase Arr PyNum MTrim STrim MPrep SPrep.
Import ListNotations.
Local Open Scope R_scope.

(** Column [j] lies in the range [r]. *)
Definition on_line (r : fl * fl) (wave : list fl) (j : nat) : Prop := exists w, nth_error wave j = Some w /\ inside r w.

(** Column [j] lies in the range of the line, or outside the range that is kept. *)
Definition off_windows (line full : fl * fl) (wave : list fl) (j : nat) : Prop := exists w, nth_error wave j = Some w /\ (inside line w \/ ~ inside full w).

(** [a'] shows [a] with the light [g] added in the columns [D]. *)
Definition lit2 (D : nat -> Prop) (g : nat -> nat -> R) (a a' : arr2 fl) : Prop :=
  rows a' = rows a /\ cols a' = cols a /\
  forall i j, (D j -> at2 a' i j = fadd (at2 a i j) (Fin (g i j))) /\ (~ D j -> at2 a' i j = at2 a i j).
(** Likewise for a 1-D flux. *)
Definition lit1 (D : nat -> Prop) (g : nat -> R) (l l' : list fl) : Prop :=
  length l' = length l /\
  forall j x, nth_error l j = Some x -> (D j -> nth_error l' j = Some (fadd x (Fin (g j)))) /\ (~ D j -> nth_error l' j = Some x).
(** 1-D spectra alike but for light in the columns [D]. *)
Definition lit_sp1 (D : nat -> Prop) (g : nat -> R) (t t' : sp1) : Prop :=
  s_wave t' = s_wave t /\ s_obs t' = s_obs t /\ s_rest t' = s_rest t /\ s_err t' = s_err t /\ s_mask t' = s_mask t /\ s_profile t' = s_profile t /\
  s_trimo t' = s_trimo t /\ s_trimr t' = s_trimr t /\
  exists f f', s_flux t = Some f /\ s_flux t' = Some f' /\ lit1 D g f f'.
(** Data sets alike but for light in the columns [D] of the 2-D and 1-D flux. *)
Definition lit_env (D : nat -> Prop) (g : nat -> nat -> R) (g1 : nat -> R) (e e' : env) : Prop :=
  (exists fx fx', q_flux (e2 e) = Some fx /\ e2 e' = set_q_flux (Some fx') (e2 e) /\ lit2 D g fx fx') /\
  match e1 e, e1 e' with None, None => True | Some t, Some t' => lit_sp1 D g1 t t' | _, _ => False end /\
  e_dpa e' = e_dpa e /\ e_reg e' = e_reg e /\
  k_err (e_k e') = k_err (e_k e) /\ k_mask (e_k e') = k_mask (e_k e) /\ k_mask1 (e_k e') = k_mask1 (e_k e) /\
  k_a2 (e_k e') = k_a2 (e_k e) /\ k_am (e_k e') = k_am (e_k e) /\ k_a1 (e_k e') = k_a1 (e_k e).

(** [out] is [l] at the columns [ks]; some column of [ks] is usable according to the mask [m]. *)
Definition columns_of (l : list fl) (ks : list nat) (out : list fl) : Prop := map (nth_error l) ks = map Some out.
Definition usable_in (m : list fl) (ks : list nat) : Prop := exists k x, In k ks /\ nth_error m k = Some x /\ fltb (Fin 0) x = true.
