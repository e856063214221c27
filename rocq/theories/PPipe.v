From Coq Require Import Reals Lra List Bool.
From Verif Require Import PyFloat PyBase PyNum MPipe SPipe PAper2D.
Import ListNotations.
Local Open Scope R_scope.

Ltac up := unfold fit2d, reload_results, do_setup, do_run, analyze_results, save_bestfit_model, reload_sampler in *; ub;
  cbn [j_model j_chain j_post j_best j_cfile j_bfile fst snd] in *.

Lemma fit_this_run {C P} (a : parts C P) j j' : fit2d a j = (j', Ok tt) ->
  exists c c' p, a_run a = Ok c /\ a_chain a c = Ok (c', p) /\ j_chain j' = Some c' /\ j_post j' = Some p /\ j_best j' = Some p /\
    j_cfile j' = (if a_cname a then Some c else j_cfile j) /\ j_bfile j' = (if a_bname a then Some p else j_bfile j).
Proof.
  up. destruct (a_res a) as [r|]; [|discriminate]. destruct (fltb r (Fin 0)); [discriminate|].
  destruct (a_setup a); [|discriminate]. cbn [j_model j_chain j_post j_best j_cfile j_bfile]. destruct (a_run a) as [c|]; [|discriminate].
  destruct (a_cname a); cbn [j_model j_chain j_post j_best j_cfile j_bfile]; (destruct (a_trace a); [|discriminate]); cbn [j_model j_chain j_post j_best j_cfile j_bfile];
  (destruct (a_chain a c) as [[c' p]|] eqn:E; [|discriminate]); cbn [fst snd j_model j_chain j_post j_best j_cfile j_bfile];
  (destruct (a_fit a p); [|discriminate]); cbn [j_model j_chain j_post j_best j_cfile j_bfile];
  (destruct (a_prune a); [|discriminate]); (destruct (a_bname a); cbn [j_model j_chain j_post j_best j_cfile j_bfile];
  (destruct (a_plot a); [|discriminate]); intros H; inversion H; subst j'; exists c, c', p; cbn; auto 10).
Qed.

Lemma plot_failure {C P} (a : parts C P) j j' e : fit2d a j = (j', Ok tt) -> fit2d (with_plot a (Err e)) j = (j', Err e).
Proof.
  unfold with_plot; up. cbn [a_res a_setup a_run a_trace a_chain a_fit a_prune a_plot a_cname a_bname].
  destruct (a_res a) as [r|]; [|discriminate]. destruct (fltb r (Fin 0)); [discriminate|].
  destruct (a_setup a); [|discriminate]. cbn [j_model j_chain j_post j_best j_cfile j_bfile]. destruct (a_run a) as [c|]; [|discriminate].
  destruct (a_cname a); cbn [j_model j_chain j_post j_best j_cfile j_bfile]; (destruct (a_trace a); [|discriminate]); cbn [j_model j_chain j_post j_best j_cfile j_bfile];
  (destruct (a_chain a c) as [[c' p]|] eqn:E; [|discriminate]); cbn [fst snd j_model j_chain j_post j_best j_cfile j_bfile];
  (destruct (a_fit a p); [|discriminate]); cbn [j_model j_chain j_post j_best j_cfile j_bfile];
  (destruct (a_prune a); [|discriminate]); (destruct (a_bname a); cbn [j_model j_chain j_post j_best j_cfile j_bfile];
  (destruct (a_plot a); [|discriminate]); intros H; inversion H; reflexivity).
Qed.

Lemma bad_resolution {C P} (a : parts C P) j r : a_res a = Ok (Fin r) -> r < 0 -> fit2d a j = (j, Err ValueError).
Proof. intros E H. up. rewrite E. cbn [fltb]. unfold Rltb. destruct (Rlt_dec r 0); [reflexivity|lra]. Qed.

(* a run that fails before it has a chain leaves chain, results and files alone *)
Lemma failed_run {C P} (a : parts C P) j e : a_run a = Err e ->
  exists j' e', fit2d a j = (j', Err e') /\ j_chain j' = j_chain j /\ j_post j' = j_post j /\ j_cfile j' = j_cfile j /\ j_bfile j' = j_bfile j /\
    (forall r, a_res a = Ok (Fin r) -> 0 <= r -> j_best j' = None).
Proof.
  intros E. up. destruct (a_res a) as [r|]; [|do 2 eexists; split; [reflexivity|]; repeat (split; [reflexivity|]); discriminate].
  destruct (fltb r (Fin 0)) eqn:L.
  - do 2 eexists. split; [reflexivity|]. repeat (split; [reflexivity|]). intros r' Q Hr. injection Q as ->. cbn [fltb] in L. apply Rltb_true in L. lra.
  - destruct (a_setup a); cbn [j_model j_chain j_post j_best j_cfile j_bfile]; [rewrite E|]; (do 2 eexists; split; [reflexivity|]; cbn; auto 10).
Qed.

(* reading results back from the files of a fit, in a new session *)
Lemma fresh_reload {C P} (a : parts C P) c c' p doplot resave : 
  a_cname a = true -> a_setup a = Ok tt -> (exists r, a_res a = Ok r) -> a_chain a c = Ok (c', p) -> a_fit a p = Ok tt -> a_prune a = Ok tt -> a_plot a = Ok tt ->
  forall b, reload_results a doplot resave (mkJob false None None None (Some c) b) =
    (mkJob true (Some c') (Some p) (Some p) (Some c) (if resave then if a_bname a then Some p else b else b), Ok tt).
Proof.
  intros N S [r R] H F U V b. up. rewrite S, R. cbn [j_model j_chain j_post j_best j_cfile j_bfile]. rewrite N. cbn [j_model j_chain j_post j_best j_cfile j_bfile].
  rewrite H. cbn [fst snd j_model j_chain j_post j_best j_cfile j_bfile]. rewrite F. cbn [j_model j_chain j_post j_best j_cfile j_bfile].
  destruct resave; [rewrite U; destruct (a_bname a)|]; destruct doplot; rewrite ?V; reflexivity.
Qed.

(* with a chain in memory the file is not read *)
Lemma memory_wins {C P} (a : parts C P) doplot resave c m p0 b0 f f' g :
  let run x := reload_results a doplot resave (mkJob m (Some c) p0 b0 x g) in
  snd (run f) = snd (run f') /\ j_chain (fst (run f)) = j_chain (fst (run f')) /\ j_post (fst (run f)) = j_post (fst (run f')) /\
  j_bfile (fst (run f)) = j_bfile (fst (run f')).
Proof.
  intros run; unfold run; clear run; up. destruct m; cbn [j_model j_chain j_post j_best j_cfile j_bfile]; [|destruct (a_setup a); cbn [j_model j_chain j_post j_best j_cfile j_bfile]; [|cbn; auto]];
  (destruct (a_res a); cbn [j_model j_chain j_post j_best j_cfile j_bfile]; [|cbn; auto]);
  (destruct (a_chain a c) as [[c' p]|]; cbn [fst snd j_model j_chain j_post j_best j_cfile j_bfile]; [|cbn; auto]);
  (destruct (a_fit a p); cbn [fst snd j_model j_chain j_post j_best j_cfile j_bfile]; [|cbn; auto]);
  (destruct resave; [destruct (a_prune a); [destruct (a_bname a)|]|]); cbn [fst snd j_model j_chain j_post j_best j_cfile j_bfile]; try (cbn; now auto);
  (destruct doplot; [destruct (a_plot a)|]; cbn; auto).
Qed.

(* a trace plot that fails: the new chain is on disk, the old one in memory, and reloading reports the old one *)
Lemma trace_failure {C P} (a : parts C P) c0 c0' p0 c e r m q b f g :
  a_res a = Ok (Fin r) -> 0 <= r -> a_setup a = Ok tt -> a_run a = Ok c -> a_cname a = true -> a_trace a = Err e ->
  a_chain a c0 = Ok (c0', p0) -> a_fit a p0 = Ok tt -> a_prune a = Ok tt -> a_bname a = true ->
  exists j', fit2d a (mkJob m (Some c0) q b f g) = (j', Err e) /\ j_cfile j' = Some c /\
    exists j2, reload_results a false true j' = (j2, Ok tt) /\ j_post j2 = Some p0 /\ j_bfile j2 = Some p0 /\ j_cfile j2 = Some c.
Proof.
  intros R Hr S Hc N T H F U B. up. rewrite R. cbn [fltb]. unfold Rltb. destruct (Rlt_dec r 0); [lra|]. rewrite S. cbn [j_model j_chain j_post j_best j_cfile j_bfile].
  rewrite Hc, N. cbn [j_model j_chain j_post j_best j_cfile j_bfile]. rewrite T. eexists. split; [reflexivity|]. cbn [j_model j_chain j_post j_best j_cfile j_bfile].
  split; [reflexivity|]. rewrite H. cbn [fst snd j_model j_chain j_post j_best j_cfile j_bfile]. rewrite F. cbn [fst snd j_model j_chain j_post j_best j_cfile j_bfile]. rewrite U, B.
  eexists. split; [reflexivity|]. cbn. auto.
Qed.

(* examples: a chain is a list of numbers, the result its first entry *)
Definition head (c : list R) : res (list R * R) := match c with [] => Err IndexError | x :: _ => Ok (c, x) end.
Definition parts_ex (run : res (list R)) (trace : res unit) : parts (list R) R :=
  mkParts (Ok (Fin 50)) (Ok tt) run trace head (fun _ => Ok tt) (Ok tt) (Ok tt) true true.

Lemma ex_fit : fit2d (parts_ex (Ok [2; 3]) (Ok tt)) (mkJob false (Some [1]) (Some 1) None (Some [1]) (Some 1)) =
  (mkJob true (Some [2; 3]) (Some 2) (Some 2) (Some [2; 3]) (Some 2), Ok tt).
Proof. up. cbn. unfold Rltb. destruct (Rlt_dec 50 0); [lra|]. reflexivity. Qed.
Lemma ex_stale : exists j' j2, fit2d (parts_ex (Ok [2; 3]) (Err OSError)) (mkJob true (Some [1]) (Some 1) (Some 1) (Some [1]) (Some 1)) = (j', Err OSError) /\
  reload_results (parts_ex (Ok [2; 3]) (Err OSError)) false true j' = (j2, Ok tt) /\ j_cfile j2 = Some [2; 3] /\ j_post j2 = Some 1.
Proof.
  assert (H : (0:R) <= 50) by lra.
  destruct (trace_failure (parts_ex (Ok [2; 3]) (Err OSError)) [1] [1] 1 [2; 3] OSError 50 true (Some 1) (Some 1) (Some [1]) (Some 1)
    eq_refl H eq_refl eq_refl eq_refl eq_refl eq_refl eq_refl eq_refl eq_refl) as (j'&A&B&j2&D&E&F&G).
  eauto 10.
Qed.
