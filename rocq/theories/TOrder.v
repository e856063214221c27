(* Property theorems: the order and the units of the samples of a posterior (C132). *)
From Coq Require Import String Reals List Bool Arith ZArith Permutation.
From Verif Require Import PyFloat PyBase Arr PyNum MParams MProf MPost SParams SPost SOrder PPostEx POrder PUnitsPost PUnitsPost2 POrder2.
Import ListNotations.
Local Open Scope R_scope.

(** C132: the best fit, errors and sign percentages do not depend on the order of the samples, and an analysis that fails fails in every order. *)
Theorem C132_order : forall K links f h h2,
  order_free K -> reordered (h_flat h) (h_flat h2) -> dim2 (h_chain h2) = dim2 (h_chain h) ->
  match chain_results K links f h, chain_results K links f h2 with
  | Ok (h', p), Ok (h2', p2) => p2 = p /\ reordered (h_flat h') (h_flat h2') /\ h_names h2' = h_names h'
  | Err e, Err e2 => e2 = e
  | _, _ => False
  end.
Proof. exact chain_reordered. Qed.
Print Assumptions C132_order.

Example C132_order_example : exists h2, order_free sum_kde /\ reordered (h_flat (ex_chain 3)) (h_flat h2) /\ dim2 (h_chain h2) = dim2 (h_chain (ex_chain 3)) /\
  at2 (h_flat h2) 0 0 = Fin (-101) /\ at2 (h_flat (ex_chain 3)) 0 0 = Fin (-100) /\
  exists r, chain_results sum_kde (Some [LinkInds [0; 1]%nat]) (ex_fit false true) (ex_chain 3) = Ok r.
Proof. exact order_example. Qed.

(** C132: walker by walker or step by step is such a change of order. *)
Theorem C132_walkers : forall c, reordered (by_walker c) (by_step c).
Proof. exact walkers_steps. Qed.
Print Assumptions C132_walkers.

(** C132: samples in other units give the same summaries in those units. *)
Theorem C132_units_columns : forall K links vary u a b, units_free K -> (forall j, 0 < u j) -> in_units u a b ->
  match posterior K links vary a, posterior K links vary b with
  | Ok p, Ok p' => post_in_units u p p'
  | Err e, Err e' => e' = e
  | _, _ => False
  end.
Proof. exact posterior_units. Qed.
Print Assumptions C132_units_columns.

(** C132: so does the whole analysis with derived velocities and dispersions, for the arctangent profile. *)
Theorem C132_units : forall w u K links f f' h h2,
  units_free K -> (forall i, 0 < w i) -> fit_in_units w f f' -> columns_in_units w (f_vary f) (cols (h_flat h)) u ->
  in_units u (h_flat h) (h_flat h2) -> dim2 (h_chain h2) = dim2 (h_chain h) ->
  match chain_results K links f h, chain_results K links f' h2 with
  | Ok (h', p), Ok (h2', p2) => in_units u (h_flat h') (h_flat h2') /\ h_names h2' = h_names h' /\ post_in_units u p p2
  | Err e, Err e2 => e2 = e
  | _, _ => False
  end.
Proof. exact chain_units. Qed.
Print Assumptions C132_units.

Example C132_units_example : exists h2, units_free sum_kde /\ (forall i, 0 < ex_w i) /\ fit_in_units ex_w (ex_fit false true) ex_fit' /\
  columns_in_units ex_w (f_vary (ex_fit false true)) (cols (h_flat (ex_chain 3))) ex_u /\
  in_units ex_u (h_flat (ex_chain 3)) (h_flat h2) /\ dim2 (h_chain h2) = dim2 (h_chain (ex_chain 3)) /\
  at2 (h_flat h2) 1 0 = Fin (-101000) /\ at2 (h_flat (ex_chain 3)) 1 0 = Fin (-101) /\
  exists r, chain_results sum_kde (Some [LinkInds [0; 1]%nat]) (ex_fit false true) (ex_chain 3) = Ok r.
Proof. exact units_example. Qed.
