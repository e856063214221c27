(* Property theorems: error bars and fit weights multiplied by a common factor (C139). *)
From Coq Require Import Reals List Bool Arith ZArith.
From Verif Require Import PyFloat PyBase Arr PyNum MParams MKernels MAper2D MMock SParams SKernels SAper2D SMirror SBright STruth SFinite SNoise PFinite4 PNoise PNoise2.
Import ListNotations.
Local Open Scope R_scope.

(** C139: neither the errors nor the weights, multiplied by a common factor, change anything the model objects hold or raise: the row factors and the stored image are the same. *)
Theorem C139_objects : forall e w c tf k, 0 < e ->
  km_make (noisier e w c) tf k = km_make c tf k /\ km_update (noisier e w c) tf k = km_update c tf k.
Proof. exact noise_objects. Qed.
Print Assumptions C139_objects.

(** C139: the log-likelihood becomes w/e^2 times the old one plus a number that does not depend on the parameters. *)
Theorem C139_llike : forall e w S M c k tf, 0 < e -> 0 < w -> plain_errors S M (g_data (c_gal c)) ->
  let p := km_llike c k tf in let p' := km_llike (noisier e w c) k tf in
  fst p' = fst p /\
  match snd p, snd p' with
  | Ok x, Ok x' => exists m, k_model (fst p) = Some m /\ x' = fadd (fmul (Fin (w / (e * e))) x) (Fin (shift e (w / (e * e)) S M (rows m) (cols m)))
  | Err a, Err b => a = b
  | _, _ => False
  end.
Proof. exact noise_llike. Qed.
Print Assumptions C139_llike.

(** C139: for any two points of a fit the difference of log-likelihoods is divided by e^2 and multiplied by w; the order stays. *)
Theorem C139_points : forall e w S M c k0 k k' tf1 tf2 k1 k2 x1 x2, 0 < e -> 0 < w -> plain_errors S M (g_data (c_gal c)) ->
  offsets_fixed k0 -> fresh k0 -> history c k0 k -> history c k0 k' ->
  km_llike c k tf1 = (k1, Ok (Fin x1)) -> km_llike c k' tf2 = (k2, Ok (Fin x2)) ->
  exists y1 y2, km_llike (noisier e w c) k tf1 = (k1, Ok (Fin y1)) /\ km_llike (noisier e w c) k' tf2 = (k2, Ok (Fin y2)) /\
    y2 - y1 = w / (e * e) * (x2 - x1) /\ (y1 < y2 <-> x1 < x2).
Proof. exact noise_points. Qed.
Print Assumptions C139_points.

Example C139_points_example : let c := mock_cfg (x_mock 50) (x_mk 50) (x_data (fun _ _ => 1)) in
  plain_errors (fun _ _ => 1) (fun _ _ => 1) (g_data (c_gal c)) /\ offsets_fixed x_kf /\ fresh x_kf /\
  exists k k1 x, history c x_kf k /\ km_llike c k [Fin 200; Fin (1/2); Fin 50] = (k1, Ok (Fin x)).
Proof. exact points_example. Qed.

(** C139: chi-squared and the reduced chi-squared are multiplied by w/e^2, the unweighted one by 1/e^2, the reference value of the weights by w; whatever the data. *)
Theorem C139_chisq : forall e w d m nf, 0 < e -> 0 < w ->
  let d' := reweighted e w d in
  model_chisq d' m = fmul (Fin (w / (e * e))) (model_chisq d m) /\ model_redchisq d' m nf = fmul (Fin (w / (e * e))) (model_redchisq d m nf) /\
  model_redchisq_no_weight d' m nf = fmul (Fin (/ (e * e))) (model_redchisq_no_weight d m nf) /\ model_redchisq_weight_ref d' nf = fmul (Fin w) (model_redchisq_weight_ref d nf).
Proof. exact noise_chisq. Qed.
Print Assumptions C139_chisq.

Example C139_chisq_example : let d := findata 1 1 (fun _ _ => 1) (fun _ _ => 1) (fun _ _ => 1) (fun _ _ => true) [0%nat] in
  model_chisq (reweighted 2 3 d) (fin2 1 1 (fun _ _ => 0)) = Fin (3/4).
Proof. exact chisq_example. Qed.

(** C139: the common factor of the errors that makes the log-likelihood highest is the one that brings chi-squared to the number of pixels divided by ln 10. *)
Theorem C139_best_errors : forall n p F (S W : nat -> nat -> R) (ok : nat -> nat -> bool) cs M, (forall i j, S i j <> 0) ->
  let d := findata n p F S W ok cs in let m := fin2 n p M in let X := chi2 n p F M S W ok in let N := npix n p ok in
  0 < X -> 0 < N ->
  let e0 := sqrt (X * ln 10 / N) in
  0 < e0 /\ model_chisq (reweighted e0 1 d) m = Fin (N / ln 10) /\
  exists L0, model_llike (reweighted e0 1 d) m = Fin L0 /\
    forall e, 0 < e -> e <> e0 -> exists L, model_llike (reweighted e 1 d) m = Fin L /\ L < L0.
Proof. exact best_errors. Qed.
Print Assumptions C139_best_errors.

Example C139_best_errors_example : 0 < chi2 1 1 (fun _ _ => 1) (fun _ _ => 0) (fun _ _ => 1) (fun _ _ => 1) (fun _ _ => true) /\ 0 < npix 1 1 (fun _ _ => true).
Proof. exact errors_example. Qed.

(** C139: errors with a reduced chi-squared of one are not the ones the likelihood prefers. *)
Theorem C139_unit_chi2_refuted : exists d m e x x', model_redchisq d m 0 = Fin 1 /\ 0 < e /\ e <> 1 /\ model_redchisq (reweighted e 1 d) m 0 = Fin (/ ln 10) /\
  model_llike d m = Fin x /\ model_llike (reweighted e 1 d) m = Fin x' /\ x < x'.
Proof. exact unit_chi2_refuted. Qed.
Print Assumptions C139_unit_chi2_refuted.
