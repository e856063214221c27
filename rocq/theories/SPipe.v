(* Specification vocabulary: a fit with another outcome of its plots. *)
From Verif Require Import PyBase MPipe.

(** The same fit, whose plots end with [r]. *)
Definition with_plot {C P} (a : parts C P) (r : res unit) : parts C P :=
  mkParts (a_res a) (a_setup a) (a_run a) (a_trace a) (a_chain a) (a_fit a) (a_prune a) r (a_cname a) (a_bname a).
