(* Specification vocabulary: line groups and tabulated lines. *)
From Coq Require Import String Reals List.
From Verif Require Import SFit1D MLines2D.
Import ListNotations.

(** The names of the group [g] are the comma-separated words of its first row. *)
Definition group_lines (t : list (string * string)) (g : string) (ns : list string) : Prop :=
  ns <> [] /\ first_row t g (joined ns) /\ Forall no_comma ns.

(** Wavelengths and strengths of the names, each from its first row. *)
Inductive tabled (t : list (string * (R * R))) : list string -> list R -> list R -> Prop :=
| tabled_nil : tabled t [] [] []
| tabled_cons n w r ns ws rs : first_row t n (w, r) -> tabled t ns ws rs -> tabled t (n :: ns) (w :: ws) (r :: rs).

(** All three arrays given, and none. *)
Definition full (ns : list string) (ws rs : list R) : lset := mkLset (Some ns) (Some ws) (Some rs).
Definition unset : lset := mkLset None None None.
