(* Specification: numbers of processes. *)
From Coq Require Import Reals List Bool Arith ZArith.
From Verif Require Import PyFloat PyBase Arr PyNum MCpus.
Import ListNotations.
Local Open Scope R_scope.

(** What the options ask for: one process without threading, else the number given, else the whole part of
    the fraction of the cores. *)
Definition wanted (cores : Z) (o : cpu) (n : Z) : Prop :=
  p_no o = true /\ n = 1%Z \/ p_no o = false /\ p_num o = Some n \/
  p_no o = false /\ p_num o = None /\ exists f, p_frac o = Fin f /\ IZR n <= IZR cores * f < IZR n + 1.

(** The fit an action is about. *)
Definition about (a : act) : nat := match a with ARun i | AFrac i _ | ANum i _ | ANo i _ => i end.

(** Runs, changes of the fraction, and switching threading on. *)
Definition harmless (a : act) : Prop := match a with ARun _ | AFrac _ _ | ANo _ false => True | _ => False end.
