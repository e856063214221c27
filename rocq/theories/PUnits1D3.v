(* Proofs: the 1-D fit in other units, theorem level; a common factor of the flux errors. *)
From Coq Require Import String Reals Lra Lia List Bool Arith ZArith FunctionalExtensionality.
From Verif Require Import PyFloat PyBase Arr PyNum MKernels MMask MAper1D MPost MIo MTrim MFit1D SKernels SMask STrim SPost SFit1D SUnits1D PBright PFit1DEx PUnits1D PUnits1D2.
Import ListNotations.
Local Open Scope R_scope.

Lemma rmap_id {X} (r : res X) : rmap (fun x => x) r = r. Proof. now destruct r. Qed.
Theorem fit_units a b T' M rnd c o st : 0 < a -> 0 < b -> lines_in a (t_lib c) T' -> follows_units a b M ->
  (o_reload_errors o = true -> forall m, f_file st = Some m -> cols m <> 1%nat) ->
  fit M rnd (cfg_in a b T' c) o (fit_in a b (length (t_names c)) st) =
  (fit_in a b (length (t_names c)) (fst (fit M rnd c o st)), snd (fit M rnd c o st)).
Proof.
  intros A B L F G. destruct (fit_sim a b A B T' M rnd c o L F st G) as [E _]. rewrite E. now rewrite rmap_id.
Qed.

Lemma corr_units a b T' c noErrors err_file st : 0 < a -> 0 < b ->
  inst_corr (cfg_in a b T' c) noErrors err_file (fit_in a b (length (t_names c)) st) =
  (fit_in a b (length (t_names c)) (fst (inst_corr c noErrors err_file st)), snd (inst_corr c noErrors err_file st)).
Proof.
  intros A B. destruct (corr_sim a b T' c (ex_opts true) noErrors err_file st) as [E _]; [intros W; discriminate W|]. rewrite E. now rewrite rmap_id.
Qed.

Lemma lookup_in a t l : lookup (table_in a t) l = rmap (fun r : R * R => (a * fst r, snd r)) (lookup t l).
Proof.
  unfold table_in. induction t as [|[k r] t IH]; [reflexivity|]. cbn [map lookup fst snd]. destruct (String.eqb k l); [reflexivity|]. exact IH.
Qed.
Lemma lib_lines a T : lines_in a T (lib_in a T).
Proof.
  intros name. unfold line_set. cbn [lib_in b_names b_lines]. destruct (read_line_names (b_names T) name) as [ls|e]; [|reflexivity]. cbn [bind].
  induction ls as [|l ls IH]; [reflexivity|]. cbn [mapM]. unfold read_restwave at 1 3, read_line_ratio at 1 3. rewrite lookup_in.
  destruct (lookup (b_lines T) l) as [[w r]|e]; [|reflexivity]. cbn [rmap bind fst snd]. rewrite IH.
  match goal with |- context [match ?e with Ok _ => _ | Err _ => _ end] => destruct e end; reflexivity.
Qed.

(** A common factor of the flux errors. *)
Lemma fin_s k v : 0 < k -> isfinite (s k v) = isfinite v.
Proof. intros K. destruct v; rewrite ?(s_PInf k K), ?(s_NInf k K); reflexivity. Qed.
Lemma resid_errors k T names order x data err mask q : 0 < k ->
  residual T names order x data (option_map (times k) err) mask q = rmap (times (/ k)) (residual T names order x data err mask q).
Proof.
  intros K. unfold residual. cbv zeta. destruct (take x (good_inds mask)) as [xg|e]; [|reflexivity]. cbn [bind].
  destruct (spectrum_model T names order q xg) as [m|e]; [|reflexivity]. cbn [bind].
  unfold take_o. destruct data as [data|]; [|reflexivity]. cbn [need bind]. destruct (take data _) as [dg|e]; [|reflexivity]. cbn [bind].
  destruct err as [err|]; [|reflexivity]. cbn [option_map need bind]. rewrite take_times. destruct (take err _) as [eg|e]; [|reflexivity]. cbn [rmap bind].
  f_equal. unfold times. rewrite map_map.
  revert dg eg. induction m as [|m1 m IH]; intros [|d dg] [|e eg]; auto. cbn [map combine fst snd].
  rewrite IH. f_equal. rewrite s_div_r by exact K. rewrite fin_s by now apply Rinv_0_lt_compat. destruct (isfinite _); [reflexivity|]. rewrite s_Fin. now rewrite Rmult_0_r.
Qed.
Lemma bindS_ext {X Y} (m : ST st1 X) (k k' : X -> ST st1 Y) : (forall x, k x = k' x) -> bindS m k = bindS m k'.
Proof. intros E. extensionality st. unfold bindS. destruct (m st) as [s1 [x|e]]; [now rewrite E|reflexivity]. Qed.
Lemma fit_errors M rnd k c o st : 0 < k -> insensitive M -> o_noErrors o = true ->
  fit M rnd (with_errors k c) o st = fit M rnd c o st.
Proof.
  intros K I N. enough (H : fit M rnd (with_errors k c) o = fit M rnd c o) by now rewrite H. unfold fit. rewrite N. change (s_err (t_spec (with_errors k c))) with (option_map (times k) (s_err (t_spec c))).
  assert (E : forall s x, best_params M (with_errors k c) s x (s_flux (t_spec c)) (option_map (times k) (s_err (t_spec c))) (s_mask (t_spec c)) =
     best_params M c s x (s_flux (t_spec c)) (s_err (t_spec c)) (s_mask (t_spec c))).
  { intros s x. assert (F : forall p, M (resid_fun (with_errors k c) x (s_flux (t_spec c)) (option_map (times k) (s_err (t_spec c))) (s_mask (t_spec c))) p =
       M (resid_fun c x (s_flux (t_spec c)) (s_err (t_spec c)) (s_mask (t_spec c))) p).
    { intros p. apply (I (/ k)); [now apply Rinv_0_lt_compat|]. intros q. exact (resid_errors k _ _ _ _ _ _ _ q K). }
    unfold best_params. cbv zeta. change (make_params (with_errors k c)) with (make_params c).
    destruct (make_params c s false false) as [p|e]; [|reflexivity]. cbn [bind]. rewrite F. destruct (M _ p) as [r|e]; [|reflexivity]. cbn [bind].
    destruct (pval (m_flux r) 0) as [f0|e]; [|reflexivity]. cbn [bind].
    destruct (fltb (p_val (m_vd r)) (Fin 0)), (fltb f0 (Fin 0)); cbn [andb]; try reflexivity;
    match goal with |- bind ?e _ = _ => destruct e; [|reflexivity] end; cbn [bind]; apply F. }
  change (t_inst (with_errors k c)) with (t_inst c). change (t_order (with_errors k c)) with (t_order c). change (make_params (with_errors k c)) with (make_params c).
  change (s_obs (t_spec (with_errors k c))) with (s_obs (t_spec c)). change (s_flux (t_spec (with_errors k c))) with (s_flux (t_spec c)).
  change (s_mask (t_spec (with_errors k c))) with (s_mask (t_spec c)). change (t_lib (with_errors k c)) with (t_lib c). change (t_names (with_errors k c)) with (t_names c).
  change (t_id (with_errors k c)) with (t_id c). change (t_label (with_errors k c)) with (t_label c). cbv zeta.
  do 7 (apply bindS_ext; intros ?). rewrite E. reflexivity.
Qed.

(** Examples: the optimiser that moves the start into the bounds. *)
Lemma inb_s k p : 0 < k -> inb (par_times k p) = inb p.
Proof. intros K. unfold inb, par_times. cbn [p_val p_lo p_hi]. now rewrite !fleb_s by exact K. Qed.
Lemma clip_s k p : 0 < k -> clip (par_times k p) = par_times k (clip p).
Proof.
  intros K. unfold clip. rewrite inb_s by exact K. cbn [par_times p_val p_lo p_hi]. rewrite fin_s by exact K. unfold setp, par_times. cbn [p_val p_lo p_hi]. f_equal.
  destruct (isfinite (p_val p) && inb p); [reflexivity|]. 
  destruct (p_lo p), (p_hi p); rewrite ?(s_PInf k K), ?(s_NInf k K), ?s_Fin; cbn [fmul]; rewrite ?Rmult_0_r; reflexivity.
Qed.
Lemma inb_list k l : 0 < k -> forallb inb (map (par_times k) l) = forallb inb l.
Proof. intros K. induction l as [|p l IH]; [reflexivity|]. cbn. now rewrite inb_s, IH. Qed.
Lemma inb_conts a b (A : 0 < a) (B : 0 < b) l : forall k, forallb inb (mapi_from k (fun i p => par_times (cont_factor a b i) p) l) = forallb inb l.
Proof. induction l as [|p l IH]; intros k; [reflexivity|]. cbn. rewrite inb_s, IH; [reflexivity|now apply CF]. Qed.
Lemma try_units a b : 0 < a -> 0 < b -> follows_units a b (tryM []).
Proof.
  intros A B rf rf' p _. cbn [tryM]. cbv zeta.
  set (r := mkPrm (clip (m_z p)) (clip (m_vd p)) (map clip (m_flux p)) (map clip (m_cont p))).
  assert (E : mkPrm (clip (m_z (prm_in a b p))) (clip (m_vd (prm_in a b p))) (map clip (m_flux (prm_in a b p))) (map clip (m_cont (prm_in a b p))) = prm_in a b r).
  { unfold prm_in, r. cbn [m_z m_vd m_flux m_cont]. f_equal.
    - rewrite !map_map. apply map_ext. intros q. apply clip_s. now apply AB.
    - unfold mapi. rewrite map_mapi_from, mapi_map_from. apply mapi_from_fext. intros i q. apply clip_s. now apply CF. }
  rewrite E. assert (O : okp (prm_in a b r) = okp r).
  { unfold okp, prm_in. cbn [m_z m_vd m_flux m_cont]. rewrite inb_list by now apply AB. unfold mapi. now rewrite inb_conts. }
  rewrite O. now destruct (okp r).
Qed.
Lemma try_insensitive : insensitive (tryM []).
Proof. intros k rf rf' p _ _. reflexivity. Qed.
(** One that looks at the residuals: it halves the fluxes when the first residual is positive. *)
Definition halving (rf : prm -> res (list fl)) (p : prm) : res prm :=
  do l <- rf p;
  Ok (if fltb (Fin 0) (lnth l 0) then mkPrm (m_z p) (m_vd p) (map (fun q => mkPar (fmul (Fin (1 / 2)) (p_val q)) (p_lo q) (p_hi q)) (m_flux p)) (m_cont p) else p).
Lemma halving_follows a b : 0 < a -> 0 < b -> follows_units a b halving /\ insensitive halving /\ exists rf rf' p, halving rf p <> halving rf' p.
Proof.
  intros A B. split; [|split].
  - intros rf rf' p H. unfold halving. rewrite H. destruct (rf p) as [l|e]; [|reflexivity]. cbn [bind]. f_equal. destruct (fltb (Fin 0) (lnth l 0)); [|reflexivity].
    unfold prm_in. cbn [m_z m_vd m_flux m_cont]. f_equal. rewrite !map_map. apply map_ext. intros q. unfold par_times. cbn [p_val p_lo p_hi]. f_equal.
    apply s_mul_r. now apply AB.
  - intros k rf rf' p K H. unfold halving. rewrite H. destruct (rf p) as [l|e]; [|reflexivity]. cbn [bind]. unfold times. rewrite lnth_s.
    replace (fltb (Fin 0) (s k (lnth l 0))) with (fltb (Fin 0) (lnth l 0)); [reflexivity|]. rewrite <- (s_ltb k K (Fin 0) (lnth l 0)). rewrite s_Fin. now rewrite Rmult_0_r.
  - exists (fun _ => Ok [Fin 1]), (fun _ => Ok [Fin (-1)]), (mkPrm (unbounded (Fin 0)) (unbounded (Fin 1)) [unbounded (Fin 1)] []). unfold halving. cbn [bind lnth nth fltb].
    replace (Rltb 0 1) with true by (symmetry; apply Rltb_true; lra). replace (Rltb 0 (-1)) with false by (symmetry; apply Rltb_false; lra).
    intros W. apply (f_equal (fun r => match r with Ok q => match m_flux q with [u] => match p_val u with Fin v => v | _ => 0 end | _ => 0 end | Err _ => 0 end)) in W. cbn in W. lra.
Qed.
Lemma units_ex rnd : exists s', fit (tryM []) rnd (ex_cfg1 ones3) (ex_opts true) (ex_st1 1) = (s', Ok tt) /\
  fit (tryM []) rnd (cfg_in 10 3 (lib_in 10 shipped) (ex_cfg1 ones3)) (ex_opts true) (fit_in 10 3 1 (ex_st1 1)) = (fit_in 10 3 1 s', Ok tt) /\
  f_flux (fit_in 10 3 1 (ex_st1 1)) = Some [Fin 30] /\ f_vd (fit_in 10 3 1 s') = f_vd s'.
Proof.
  destruct (ex_fit rnd) as [s' E]. exists s'. split; [exact E|]. split.
  - pose proof (fit_units 10 3 (lib_in 10 shipped) (tryM []) rnd (ex_cfg1 ones3) (ex_opts true) (ex_st1 1)) as F.
    rewrite E in F. apply F; [lra|lra|apply lib_lines|apply try_units; lra|intros W; discriminate W].
  - split; [|reflexivity]. cbn. do 3 f_equal. lra.
Qed.
Lemma errors_ex rnd : exists s', fit (tryM []) rnd (with_errors 2 (ex_cfg1 ones3)) (ex_opts true) (ex_st1 1) = (s', Ok tt) /\
  s_err (t_spec (with_errors 2 (ex_cfg1 ones3))) <> s_err (t_spec (ex_cfg1 ones3)).
Proof.
  destruct (ex_fit rnd) as [s' E]. exists s'. split.
  - rewrite fit_errors; [exact E|lra|apply try_insensitive|reflexivity].
  - cbn. intros W. injection W. lra.
Qed.
