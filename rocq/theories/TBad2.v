(* Property theorems: the likelihood of prepared data (C144). *)
From Coq Require Import Reals List Bool Arith ZArith.
From Verif Require Import PyFloat PyBase Arr PyNum MKernels MMask SMask MTrim STrim PTrim2 MPrep SPrep PPrep3 PPrep4 PPrepEx PBad2.
Import ListNotations.
Local Open Scope R_scope.

(** C144: after a successful fit preparation the log-likelihood is a number for every image, mask and weights of numbers, whatever flux and errors were missing, if no usable pixel had a zero error. *)
Theorem C144_prepared : forall c e e' wave fx er n,
  raw (e2 e) wave fx er n -> physical wave -> shared e fx er -> fit_prep c e = (e', Ok tt) ->
  no_zero_error fx er (q_mask (e2 e)) (q_weight (e2 e)) ->
  exists fx' er', q_flux (e2 e') = Some fx' /\ q_err (e2 e') = Some er' /\
     forall m w md cs, shape m (rows fx') (cols fx') -> shape w (rows fx') (cols fx') -> shape md (rows fx') (cols fx') ->
       finite2 m -> finite2 w -> finite2 md -> isfinite (model_llike (mkdata fx' er' m w cs) md) = true.
Proof. exact prep_llike. Qed.
Print Assumptions C144_prepared.

Example C144_prepared_example : exists e', fit_prep (ex_cfg true false) (ex_env (Some (Fin 2))) = (e', Ok tt) /\
  raw (e2 (ex_env (Some (Fin 2)))) [Fin 10; Fin 11] ex_flux (ones 4 2) 4 /\ physical [Fin 10; Fin 11] /\ shared (ex_env (Some (Fin 2))) ex_flux (ones 4 2) /\ at2 ex_flux 0 0 = NaN /\
  no_zero_error ex_flux (ones 4 2) (q_mask (e2 (ex_env (Some (Fin 2))))) (q_weight (e2 (ex_env (Some (Fin 2))))).
Proof. exact prep_llike_example. Qed.
