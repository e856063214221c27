(* Property theorems: what the masking step of the continuum subtraction leaves behind (C130). *)
From Coq Require Import Reals List Bool Arith ZArith.
From Verif Require Import PyFloat PyBase Arr PyNum MMask SMask MTrim STrim MPrep SPrep PTrim2 PPrepEx PPrep6.
Import ListNotations.
Local Open Scope R_scope.

(** C130: the masks, the filled images and the noise level after the step, pixel by pixel (spec_mask_missing is characterised by C35, mask_edges_1D by C36). *)
Theorem C130_masks : forall c e e' fx er,
  q_flux (e2 e) = Some fx -> q_err (e2 e) = Some er -> cont_masks c e = (e', Ok tt) ->
  exists ma m fx' er', spec_mask_missing_2D fx er (q_weight (e2 e)) (q_mask (e2 e)) true = Ok ma /\
    q_mask (e2 e') = Some m /\ q_flux (e2 e') = Some fx' /\ q_err (e2 e') = Some er' /\ rows m = rows ma /\ cols m = cols ma /\
    (if g_nocont c then m = ma /\ e1 e' = e1 e else
       exists t f1 r1 m0 m1, e1 e = Some t /\ s_flux t = Some f1 /\ s_err t = Some r1 /\ spec_mask_missing_1D f1 r1 None (s_mask t) false = Ok m0 /\
         m1 = mask_edges_1D (length f1) m0 10 /\ e1 e' = Some (set_s_mask m1 t) /\
         forall i j, (nth_error m1 j = Some (Fin 0) -> at2 m i j = Fin 0) /\ (nth_error m1 j <> Some (Fin 0) -> at2 m i j = at2 ma i j)) /\
    (forall i j, at2 fx' i j = if negb (isfinite (at2 fx i j)) && feqb (at2 m i j) (Fin 0) then Fin (-99) else at2 fx i j) /\
    (forall i j, at2 er' i j = if (negb (isfinite (at2 er i j)) || feqb (at2 er i j) (Fin 0)) && feqb (at2 m i j) (Fin 0) then Fin (-99) else at2 er i j) /\
    q_median (e2 e') = Some (g_median c (map (fun j => fsqrt (fsumn (rows er') (fun i => fsq (fmul (at2 er' i j) (at2 m i j))))) (seq 0 (cols er')))).
Proof. exact masks_exact. Qed.
Print Assumptions C130_masks.

Example C130_example : exists e' m, cont_masks (ex_cfg false false) ex_env14 = (e', Ok tt) /\ q_mask (e2 e') = Some m /\
  unusable ex1 ex_r14 None false 13 /\ (forall i j, (1 <= j <= 13)%nat -> at2 m i j = Fin 0) /\ (forall i, (i < 2)%nat -> at2 m i 0%nat = Fin 1).
Proof. exact masks_example. Qed.

(** C130: in particular an unusable pixel of the 1-D spectrum masks its whole column of the image. *)
Theorem C130_columns : forall c e e' t f1 r1 i j,
  g_nocont c = false -> e1 e = Some t -> s_flux t = Some f1 -> s_err t = Some r1 ->
  length r1 = length f1 -> (forall m, s_mask t = Some m -> length m = length f1) -> (j < length f1)%nat -> unusable f1 r1 None false j ->
  cont_masks c e = (e', Ok tt) -> exists m, q_mask (e2 e') = Some m /\ at2 m i j = Fin 0.
Proof. exact masks_columns. Qed.
Print Assumptions C130_columns.
