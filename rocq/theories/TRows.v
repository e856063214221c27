(* Property theorems: rows masked altogether (C145). *)
From Coq Require Import Reals List Bool Arith ZArith.
From Verif Require Import PyFloat PyBase Arr PyNum MParams MKernels MAper2D SParams SKernels SAper2D SMirror STruth SRows PFinite4 PRows.
Import ListNotations.
Local Open Scope R_scope.

(** C145: two data sets that differ only in rows masked altogether have the same log-likelihood at every parameter vector, with and without row scaling and after any histories of evaluations, and the stored images agree in every other row. *)
Theorem C145_rows : forall n p F S W F' S' W' ok cs c k0 k k' tf k2 x, cols_ok p cs ->
  (forall i j, (i < n)%nat -> (j < p)%nat -> S i j <> 0) -> (forall i j, (i < n)%nat -> (j < p)%nat -> S' i j <> 0) ->
  same_in_used_rows n p ok F S W F' S' W' ->
  let c1 := observed (findata n p F S W ok cs) c in let c2 := observed (findata n p F' S' W' ok cs) c in
  n = img_rows c -> p = length (g_wave (c_gal c)) -> offsets_fixed k0 -> fresh k0 ->
  history c1 k0 k -> history c2 k0 k' -> km_llike c1 k tf = (k2, Ok (Fin x)) ->
  exists k2' m m', km_llike c2 k' tf = (k2', Ok (Fin x)) /\ k_model k2 = Some m /\ k_model k2' = Some m' /\
    forall i j, (i < n)%nat -> (j < p)%nat -> used_row p ok i -> at2 m i j = at2 m' i j.
Proof. exact masked_rows. Qed.
Print Assumptions C145_rows.

Example C145_example : exists k k' k2 x, history (r_cfg 5) x_kf k /\ history (r_cfg 7) x_kf k' /\ offsets_fixed x_kf /\ fresh x_kf /\ k_noscale x_kf = false /\
  km_llike (r_cfg 5) k [Fin 200; Fin (1/2); Fin 50] = (k2, Ok (Fin x)) /\
  same_in_used_rows 3 4 r_ok (fun i _ => if Nat.eqb i 0 then 5 else 1) (fun _ _ => 1) (fun _ _ => 1) (fun i _ => if Nat.eqb i 0 then 7 else 1) (fun _ _ => 1) (fun _ _ => 1) /\ used_row 4 r_ok 1.
Proof. exact rows_example. Qed.
