(* Property theorems: pixels with infinite errors in the reduced chi-squared (C83). *)
From Coq Require Import Reals List Bool Arith.
From Verif Require Import PyFloat PyBase Arr PyNum MKernels SKernels SBad SBad3 PBad PBad3.
Import ListNotations.
Local Open Scope R_scope.

(** C83: pixels with an infinite error add nothing to chi-squared but are counted, so the reduced chi-squared is that with these pixels masked times a known factor. *)
Theorem C83_infinite : forall B d m k r, let n := unmasked_in (fun _ _ => true) d in let u := unmasked_in B d in
  infinite_errors B d m -> (u + k < n)%nat -> model_redchisq (masked_out B d) m k = Fin r ->
  model_redchisq d m k = Fin (r * ((INR n - INR u - INR k) / (INR n - INR k))).
Proof. exact infinite_factor. Qed.
Print Assumptions C83_infinite.

Example C83_infinite_example : let B := fun i j => Nat.eqb i 0 && Nat.eqb j 0 in
  infinite_errors B (y_bad false) (fin2 3 4 (fun _ _ => 0)) /\ unmasked_in B (y_bad false) = 1%nat /\
  model_redchisq (masked_out B (y_bad false)) (fin2 3 4 (fun _ _ => 0)) 1 = Fin (11 / 10) /\
  model_redchisq (y_bad false) (fin2 3 4 (fun _ _ => 0)) 1 = Fin 1.
Proof. exact redchisq_bad_example. Qed.

(** C83: it is lower than with the pixels masked, if there is one and that value is positive. *)
Theorem C83_infinite_lower : forall B d m k r,
  infinite_errors B d m -> (unmasked_in B d + k < unmasked_in (fun _ _ => true) d)%nat -> (0 < unmasked_in B d)%nat ->
  model_redchisq (masked_out B d) m k = Fin r -> 0 < r -> fltb (model_redchisq d m k) (model_redchisq (masked_out B d) m k) = true.
Proof. exact infinite_lower. Qed.
Print Assumptions C83_infinite_lower.
