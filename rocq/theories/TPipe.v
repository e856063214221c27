(* Property theorems: the steps of a 2-D fit (C116). *)
From Coq Require Import Reals List.
From Verif Require Import PyFloat PyBase PyNum MPipe SPipe PPipe.
Import ListNotations.
Local Open Scope R_scope.

(** C116: a finished fit reports, stores and models the analysis of the chain it sampled. *)
Theorem C116_this_run : forall C P (a : parts C P) j j', fit2d a j = (j', Ok tt) ->
  exists c c' p, a_run a = Ok c /\ a_chain a c = Ok (c', p) /\ j_chain j' = Some c' /\ j_post j' = Some p /\ j_best j' = Some p /\
    j_cfile j' = (if a_cname a then Some c else j_cfile j) /\ j_bfile j' = (if a_bname a then Some p else j_bfile j).
Proof. exact (@fit_this_run). Qed.
Print Assumptions C116_this_run.

Example C116_example : fit2d (parts_ex (Ok [2; 3]) (Ok tt)) (mkJob false (Some [1]) (Some 1) None (Some [1]) (Some 1)) =
  (mkJob true (Some [2; 3]) (Some 2) (Some 2) (Some [2; 3]) (Some 2), Ok tt).
Proof. exact ex_fit. Qed.

(** C116: a plot that fails loses nothing. *)
Theorem C116_plot_failure : forall C P (a : parts C P) j j' e,
  fit2d a j = (j', Ok tt) -> fit2d (with_plot a (Err e)) j = (j', Err e).
Proof. exact (@plot_failure). Qed.
Print Assumptions C116_plot_failure.

(** C116: a negative resolution is rejected with nothing changed. *)
Theorem C116_bad_resolution : forall C P (a : parts C P) j r, a_res a = Ok (Fin r) -> r < 0 -> fit2d a j = (j, Err ValueError).
Proof. exact (@bad_resolution). Qed.
Print Assumptions C116_bad_resolution.

(** C116: sampling that fails leaves chain, results and files alone, and the new model has no best fit. *)
Theorem C116_failed_run : forall C P (a : parts C P) j e, a_run a = Err e ->
  exists j' e', fit2d a j = (j', Err e') /\ j_chain j' = j_chain j /\ j_post j' = j_post j /\ j_cfile j' = j_cfile j /\ j_bfile j' = j_bfile j /\
    (forall r, a_res a = Ok (Fin r) -> 0 <= r -> j_best j' = None).
Proof. exact (@failed_run). Qed.
Print Assumptions C116_failed_run.

(** C116: in a new session the results are those of the chain on disk. *)
Theorem C116_fresh_reload : forall C P (a : parts C P) c c' p doplot resave,
  a_cname a = true -> a_setup a = Ok tt -> (exists r, a_res a = Ok r) -> a_chain a c = Ok (c', p) -> a_fit a p = Ok tt -> a_prune a = Ok tt -> a_plot a = Ok tt ->
  forall b, reload_results a doplot resave (mkJob false None None None (Some c) b) =
    (mkJob true (Some c') (Some p) (Some p) (Some c) (if resave then if a_bname a then Some p else b else b), Ok tt).
Proof. exact (@fresh_reload). Qed.
Print Assumptions C116_fresh_reload.

(** C116 refuted: with a chain in memory, the sampler file has no effect on the reloaded results. *)
Theorem C116_memory_refuted : forall C P (a : parts C P) doplot resave c m p0 b0 f f' g,
  let run x := reload_results a doplot resave (mkJob m (Some c) p0 b0 x g) in
  snd (run f) = snd (run f') /\ j_chain (fst (run f)) = j_chain (fst (run f')) /\ j_post (fst (run f)) = j_post (fst (run f')) /\
  j_bfile (fst (run f)) = j_bfile (fst (run f')).
Proof. exact (@memory_wins). Qed.
Print Assumptions C116_memory_refuted.

(** C116 refuted: after a failed trace plot the new chain is on disk, yet reloading reports and saves the results of the earlier one. *)
Theorem C116_trace_refuted : forall C P (a : parts C P) c0 c0' p0 c e r m q b f g,
  a_res a = Ok (Fin r) -> 0 <= r -> a_setup a = Ok tt -> a_run a = Ok c -> a_cname a = true -> a_trace a = Err e ->
  a_chain a c0 = Ok (c0', p0) -> a_fit a p0 = Ok tt -> a_prune a = Ok tt -> a_bname a = true ->
  exists j', fit2d a (mkJob m (Some c0) q b f g) = (j', Err e) /\ j_cfile j' = Some c /\
    exists j2, reload_results a false true j' = (j2, Ok tt) /\ j_post j2 = Some p0 /\ j_bfile j2 = Some p0 /\ j_cfile j2 = Some c.
Proof. exact (@trace_failure). Qed.
Print Assumptions C116_trace_refuted.

Example C116_example_trace : exists j' j2, fit2d (parts_ex (Ok [2; 3]) (Err OSError)) (mkJob true (Some [1]) (Some 1) (Some 1) (Some [1]) (Some 1)) = (j', Err OSError) /\
  reload_results (parts_ex (Ok [2; 3]) (Err OSError)) false true j' = (j2, Ok tt) /\ j_cfile j2 = Some [2; 3] /\ j_post j2 = Some 1.
Proof. exact ex_stale. Qed.
