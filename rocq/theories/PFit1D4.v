(* Proofs about the 1-D line fits: bounds, errors, instrument correction. *)
From Coq Require Import String Reals List Bool Arith ZArith Lia Lra Psatz.
From Verif Require Import PyFloat PyBase Arr PyNum MKernels MIo MAper1D MPost MTrim MFit1D SKernels SMask STrim SPost SFit1D
  PKernels PKernels2 PMask PTrim PAper1D PPost PFit1D PFit1D2 PFit1D3.
Import ListNotations.
Local Open Scope R_scope.

Lemma bind_Ok {A B} (m : res A) (f : A -> res B) b : bind m f = Ok b -> exists a, m = Ok a /\ f a = Ok b.
Proof. destruct m; cbn; [eauto|discriminate]. Qed.

Lemma make_params_inv c s fb vb p : make_params c s fb vb = Ok p ->
  exists w, first_wave c = Ok w /\
  m_z p = mkPar (f_z s) (fsub (t_gz c) (fdiv (t_del c) (Fin w))) (fadd (t_gz c) (fdiv (t_del c) (Fin w))) /\
  m_vd p = (if vb then nonneg (f_vd s) else unbounded (f_vd s)) /\
  length (m_flux p) = length (t_names c) /\
  Forall (fun a => p_lo a = (if fb then Fin 0 else NInf) /\ p_hi a = PInf) (m_flux p).
Proof.
  unfold make_params, z_par. intros H. apply bind_Ok in H. destruct H as (z & Z & H).
  apply bind_Ok in Z. destruct Z as (w & W & Z). apply bind_Ok in H. destruct H as (fs & F & H).
  apply bind_Ok in H. destruct H as (cs & C & H).
  assert (E : p = mkPrm z (if vb then nonneg (f_vd s) else unbounded (f_vd s)) (map (if fb then nonneg else unbounded) fs) (map unbounded cs))
    by (inversion H; reflexivity).
  exists w. split; [exact W|]. rewrite E. cbn [m_z m_vd m_flux].
  split; [inversion Z; reflexivity|]. split; [reflexivity|].
  unfold items in F. apply mapM_length in F. rewrite seq_length in F. rewrite map_length.
  split; [exact F|]. clear. induction fs as [|f fs IH]; cbn [map]; constructor; auto.
  destruct fb; split; reflexivity.
Qed.

Lemma within_flux p r : Forall (fun a => p_lo a = Fin 0 /\ p_hi a = PInf) (m_flux p) -> Forall2 within_par (m_flux p) (m_flux r) ->
  Forall (fun a => fleb (Fin 0) (p_val a) = true) (m_flux r).
Proof.
  intros F G. induction G as [|a b la lb W G IH]; constructor.
  - inversion F; subst. destruct W as (_ & _ & W & _). destruct H1 as [H1 _]. rewrite H1 in W. exact W.
  - apply IH. inversion F; assumption.
Qed.

Lemma pvals_In l n vs : pvals l n = Ok vs -> forall v, In v vs -> exists p, In p l /\ v = p_val p.
Proof.
  unfold pvals. intros H. apply mapM_ok in H. induction H as [|a b la lb E F IH]; intros v I; [destruct I|].
  destruct I as [<-|I]; [|apply IH, I]. unfold pval in E. destruct (nth_error l a) as [p|] eqn:N; [|discriminate].
  exists p. split; [eapply nth_error_In, N|]. congruence.
Qed.

Lemma pvals_head l n vs : pvals l (S n) = Ok vs -> exists v vs', vs = v :: vs' /\ pval l 0 = Ok v.
Proof.
  unfold pvals. cbn [seq]. intros H. pose proof H as H0. apply mapM_head in H. destruct H as (v & vs' & ->).
  exists v, vs'. split; [reflexivity|]. apply mapM_ok in H0. inversion H0; subst. assumption.
Qed.

Lemma fit_physical M rnd c o s s' : respects_bounds M -> fit M rnd c o s = (s', Ok tt) ->
  exists w rf p first, first_wave c = Ok w /\ M rf p = Ok first /\
    no_bounds (m_vd p) /\ Forall no_bounds (m_flux p) /\
    fleb (fsub (t_gz c) (fdiv (t_del c) (Fin w))) (f_z s') = true /\
    fleb (f_z s') (fadd (t_gz c) (fdiv (t_del c) (Fin w))) = true /\
    (fltb (p_val (m_vd first)) (Fin 0) = true -> fleb (Fin 0) (f_vd s') = true) /\
    (forall f0, nth_error (map p_val (m_flux first)) 0 = Some f0 -> fltb f0 (Fin 0) = true ->
       forall fs, f_flux s' = Some fs -> Forall (fun f => fleb (Fin 0) f = true) fs).
Proof.
  intros RB H. apply fit_inv in H.
  destruct H as (i & p0 & x & r & fm & fs & cs & _ & _ & _ & _ & B & _ & _ & F & _ & _ & _ & ->). cbn [f_z f_vd f_flux].
  unfold best_of, best_params in B. set (s1 := with_cont c s) in *. set (rf := resid_fun c x _ _ _) in *.
  apply bind_Ok in B. destruct B as (p & P & B). apply bind_Ok in B. destruct B as (first & Fi & B).
  apply bind_Ok in B. destruct B as (f0 & F0 & B).
  destruct (make_params_inv _ _ _ _ _ P) as (w & W & Pz & Pv & Pl & Pf).
  exists w, rf, p, first. split; [exact W|]. split; [exact Fi|].
  split. { rewrite Pv. split; reflexivity. }
  split. { exact Pf. }
  assert (G : exists p' fb vb, make_params c s1 fb vb = Ok p' /\ within_prm p' r /\
    (fltb (p_val (m_vd first)) (Fin 0) = true -> vb = true) /\ (fltb f0 (Fin 0) = true -> fb = true)).
  { destruct (fltb (p_val (m_vd first)) (Fin 0)) eqn:V; destruct (fltb f0 (Fin 0)) eqn:L; cbn [andb] in B.
    - apply bind_Ok in B. destruct B as (p' & P' & B). exists p', true, true. repeat split; auto; apply (RB _ _ _ B).
    - apply bind_Ok in B. destruct B as (p' & P' & B). exists p', false, true.
      split; [exact P'|]. split; [apply (RB _ _ _ B)|]. split; [reflexivity|discriminate].
    - apply bind_Ok in B. destruct B as (p' & P' & B). exists p', true, false.
      split; [exact P'|]. split; [apply (RB _ _ _ B)|]. split; [discriminate|reflexivity].
    - inversion B; subst. exists p, false, false. split; [exact P|]. split; [apply (RB _ _ _ Fi)|]. split; discriminate. }
  destruct G as (p' & fb & vb & P' & Wi & Gv & Gf).
  destruct (make_params_inv _ _ _ _ _ P') as (w' & W' & Pz' & Pv' & Pl' & Pf').
  assert (w' = w) by congruence. subst w'.
  destruct Wi as ((_ & _ & Z1 & Z2) & (_ & _ & V1 & _) & WF & _).
  rewrite Pz' in Z1, Z2. cbn [p_lo p_hi] in Z1, Z2. split; [exact Z1|]. split; [exact Z2|].
  split. { intros V. rewrite (Gv V) in *. rewrite Pv' in V1. exact V1. }
  intros f0' Ef L fs' Efs. assert (f0' = f0).
  { unfold pval in F0. rewrite nth_error_map in Ef. destruct (nth_error (m_flux first) 0); cbn in *; congruence. }
  subst f0'. assert (fs' = fs) by congruence. subst fs'. rewrite (Gf L) in *.
  pose proof (within_flux p' r Pf' WF) as Q. apply Forall_forall. intros v Iv.
  destruct (pvals_In _ _ _ F v Iv) as (q & Iq & ->). rewrite Forall_forall in Q. apply Q, Iq.
Qed.

(** Completing without errors. *)
Lemma items_ok l n : (n <= length l)%nat -> exists vs, items (Some l) n = Ok vs /\ length vs = n.
Proof.
  intros H. destruct (mapM_total (fun i => getn l i) (seq 0 n)) as [vs E].
  - intros i I. apply in_seq in I. destruct (nth_error l i) as [v|] eqn:N; [|apply nth_error_None in N; lia].
    exists v. apply getn_ok. exact N.
  - exists vs. split; [exact E|]. apply mapM_length in E. rewrite seq_length in E. exact E.
Qed.

Definition z_range_ok (c : cfg1) : Prop :=
  exists w l ls gz del, t_restw c = (w :: l) :: ls /\ 0 < w /\ t_gz c = Fin gz /\ t_del c = Fin del /\ 0 <= del.

Lemma feasible_unbounded v : feasible_par (unbounded v).
Proof. exists 0. split; reflexivity. Qed.

Lemma feasible_nonneg v : feasible_par (nonneg v).
Proof. exists 0. split; [cbn; apply Rleb_true; lra|reflexivity]. Qed.

Lemma make_params_ok c s fb vb : z_range_ok c ->
  (exists fs, f_flux s = Some fs /\ length (t_names c) <= length fs)%nat ->
  (exists cs, f_cont s = Some cs /\ t_order c + 1 <= length cs)%nat ->
  exists p, make_params c s fb vb = Ok p /\ length (m_flux p) = length (t_names c) /\ length (m_cont p) = (t_order c + 1)%nat /\ feasible p.
Proof.
  intros (w & l & ls & gz & del & W & Hw & Eg & Ed & Hd) (fs & F & Lf) (cs & C & Lc). unfold make_params, z_par, first_wave. rewrite W. cbn [getn bind].
  rewrite F, C. destruct (items_ok fs _ Lf) as (v & E & L). rewrite E. cbn [bind].
  destruct (items_ok cs _ Lc) as (v' & E' & L'). rewrite E'. cbn [bind]. eexists. split; [reflexivity|].
  cbn [m_flux m_cont]. rewrite !map_length. do 2 (split; [assumption|]).
  unfold feasible. cbn [m_z m_vd m_flux m_cont]. split; [|split; [|split]].
  - exists gz. rewrite Eg, Ed, fdiv_Fin by lra. unfold fsub. cbn [p_lo p_hi fneg fadd fleb].
    assert (0 <= del / w) by (unfold Rdiv; apply Rmult_le_pos; [assumption|left; apply Rinv_0_lt_compat; assumption]).
    split; apply Rleb_true; lra.
  - destruct vb; [apply feasible_nonneg|apply feasible_unbounded].
  - apply Forall_forall. intros a I. apply in_map_iff in I. destruct I as (x & <- & _).
    destruct fb; [apply feasible_nonneg|apply feasible_unbounded].
  - apply Forall_forall. intros a I. apply in_map_iff in I. destruct I as (x & <- & _). apply feasible_unbounded.
Qed.

Lemma pvals_ok l n : (n <= length l)%nat -> exists vs, pvals l n = Ok vs /\ length vs = n.
Proof.
  intros H. destruct (mapM_total (pval l) (seq 0 n)) as [vs E].
  - intros i I. apply in_seq in I. unfold pval. destruct (nth_error l i) as [v|] eqn:N; [|apply nth_error_None in N; lia]. eauto.
  - exists vs. split; [exact E|]. apply mapM_length in E. rewrite seq_length in E. exact E.
Qed.

Lemma gaussian_line_ok x mu vd f : x <> [] -> exists g, gaussian_line x mu vd f = Ok g.
Proof. intros N. unfold gaussian_line. destruct x; [congruence|]. cbn [map np_max bind]. eauto. Qed.

Lemma add_lines_ok x z vd f ls : x <> [] -> forall p, exists r, add_lines x z vd f ls p = Ok r.
Proof.
  intros N. induction ls as [|[w q] ls IH]; intros p; cbn [add_lines]; [eauto|].
  destruct (gaussian_line_ok x (fmul (Fin w) (fadd (Fin 1) z)) vd (fmul f (Fin q)) N) as [g E]. rewrite E. cbn [bind]. apply IH.
Qed.

Lemma add_sets_ok T x z vd sets : x <> [] -> (forall n f, In (n, f) sets -> exists l, line_set T n = Ok l) ->
  forall p, exists r, add_sets T x z vd sets p = Ok r.
Proof.
  intros N. induction sets as [|[n f] sets IH]; intros K p; cbn [add_sets]; [eauto|].
  destruct (K n f (or_introl eq_refl)) as [l E]. unfold line_profile. rewrite E. cbn [bind].
  destruct (add_lines_ok x z vd f l N (repeat (Fin 0) (length x))) as [r E2]. rewrite E2. cbn [bind].
  apply IH. intros n' f' I. apply (K n' f'). right. exact I.
Qed.

Lemma spectrum_model_ok T names order q x : x <> [] -> (forall n, In n names -> exists l, line_set T n = Ok l) ->
  length (m_flux q) = length names -> length (m_cont q) = (order + 1)%nat -> exists m, spectrum_model T names order q x = Ok m.
Proof.
  intros N K Lf Lc. unfold spectrum_model.
  destruct (pvals_ok (m_cont q) (order + 1)) as (cs & E & _); [lia|]. rewrite E. cbn [bind].
  destruct (pvals_ok (m_flux q) (length names)) as (fs & E2 & _); [lia|]. rewrite E2. cbn [bind].
  destruct (add_sets_ok T x (p_val (m_z q)) (p_val (m_vd q)) (combine names fs) N) with (p := repeat (Fin 0) (length x)) as [r E3].
  { intros n f I. apply in_combine_l in I. apply K, I. }
  rewrite E3. cbn [bind]. eauto.
Qed.

Lemma within_lengths p r : within_prm p r -> length (m_flux r) = length (m_flux p) /\ length (m_cont r) = length (m_cont p).
Proof.
  intros (_ & _ & F & G). split; [clear G; induction F|clear F; induction G]; cbn; congruence.
Qed.

Lemma with_cont_flux c s : f_flux (with_cont c s) = f_flux s.
Proof. unfold with_cont. destruct (f_cont s); reflexivity. Qed.

Lemma with_cont_cont c s : (forall cs, f_cont s = Some cs -> t_order c + 1 <= length cs)%nat ->
  exists cs, (f_cont (with_cont c s) = Some cs /\ t_order c + 1 <= length cs)%nat.
Proof.
  intros H. unfold with_cont. destruct (f_cont s) as [cs|] eqn:E.
  - exists cs. rewrite E. auto.
  - eexists. cbn [f_cont set_cont]. split; [reflexivity|]. rewrite repeat_length. lia.
Qed.

Lemma best_ok M c s x : respects_bounds M -> answers M -> runnable c s ->
  exists r, best_of M c s x = Ok r /\ length (m_flux r) = length (t_names c) /\ length (m_cont r) = (t_order c + 1)%nat /\
    exists rf p, M rf p = Ok r.
Proof.
  intros RB AN (_ & W & N & _ & F & C & _). unfold best_of, best_params.
  set (s1 := with_cont c s). set (rf := resid_fun c x _ _ _).
  assert (MP : forall fb vb, exists p, make_params c s1 fb vb = Ok p /\ length (m_flux p) = length (t_names c) /\ length (m_cont p) = (t_order c + 1)%nat /\ feasible p).
  { intros fb vb. apply make_params_ok; [exact W| |].
    - unfold s1. rewrite with_cont_flux. exact F.
    - apply with_cont_cont. exact C. }
  assert (MR : forall fb vb, exists r, (do p' <- make_params c s1 fb vb; M rf p') = Ok r /\
     length (m_flux r) = length (t_names c) /\ length (m_cont r) = (t_order c + 1)%nat /\ exists rf p, M rf p = Ok r).
  { intros fb vb. destruct (MP fb vb) as (p & E & L1 & L2 & FE). rewrite E. cbn [bind]. destruct (AN rf p FE) as [r R].
    exists r. split; [exact R|]. destruct (within_lengths _ _ (RB _ _ _ R)) as [L3 L4]. rewrite L3, L4. eauto. }
  destruct (MP false false) as (p & E & L1 & L2 & FE). rewrite E. cbn [bind]. destruct (AN rf p FE) as [r R]. rewrite R. cbn [bind].
  destruct (within_lengths _ _ (RB _ _ _ R)) as [L3 L4].
  unfold pval at 1. destruct (nth_error (m_flux r) 0) as [f0|] eqn:E0.
  2:{ apply nth_error_None in E0. destruct (t_names c); [congruence|cbn in *; lia]. }
  cbn [bind].
  destruct (fltb (p_val (m_vd r)) (Fin 0) && fltb (p_val f0) (Fin 0)); [apply MR|].
  destruct (fltb (p_val (m_vd r)) (Fin 0)); [apply MR|].
  destruct (fltb (p_val f0) (Fin 0)); [apply MR|].
  exists r. split; [reflexivity|]. rewrite L3, L4. eauto.
Qed.

Lemma fit_run M rnd c o s : respects_bounds M -> answers M -> runnable c s ->
  exists x r fm fs cs, s_obs (t_spec c) = Some x /\ x <> [] /\ best_of M c s x = Ok r /\ (exists rf p, M rf p = Ok r) /\
   pvals (m_flux r) (length (t_names c)) = Ok fs /\ pvals (m_cont r) (t_order c + 1) = Ok cs /\
   length fs = length (t_names c) /\ length cs = (t_order c + 1)%nat /\
   fit M rnd c o s = fit_tail M rnd c o x r fs cs (fitted_state s r fm fs cs).
Proof.
  intros RB AN RU. pose proof RU as ((i & Ei & Hi) & W & N & K & F & C & (x & Ex & Nx) & _).
  destruct (best_ok M c s x RB AN RU) as (r & B & Lf & Lc & MM).
  destruct (spectrum_model_ok (t_lib c) (t_names c) (t_order c) r x Nx K Lf Lc) as [fm E].
  destruct (pvals_ok (m_flux r) (length (t_names c))) as (fs & Ef & L1); [lia|].
  destruct (pvals_ok (m_cont r) (t_order c + 1)) as (cs & Ec & L2); [lia|].
  destruct (make_params_ok c (with_cont c s) false false W) as (p & P & _).
  { rewrite with_cont_flux. exact F. } { apply with_cont_cont. exact C. }
  exists x, r, fm, fs, cs. do 8 (split; [assumption|]).
  apply (fit_reaches M rnd c o s (Fin i) p); try assumption.
  cbn. apply Rltb_false. exact Hi.
Qed.

Lemma fit_no_errors_ok M rnd c o s : respects_bounds M -> answers M -> runnable c s -> t_id c = IdInt ->
  o_noErrors o = true -> o_noPlot o = true \/ (o_plot_file o = true /\ t_label c = true) ->
  exists s', fit M rnd c o s = (s', Ok tt).
Proof.
  intros RB AN RU ID NE PL. destruct (fit_run M rnd c o s RB AN RU) as (x & r & fm & fs & cs & H).
  decompose [and] H. eexists. rewrite H9. unfold fit_tail. cbv zeta. rewrite (bind_lift _ tt) by (rewrite ID; reflexivity).
  replace (negb (o_noPlot o) && negb (o_plot_file o)) with false.
  2:{ destruct PL as [-> | [-> _]]; [reflexivity|]. rewrite andb_false_r. reflexivity. }
  rewrite bind_ret, NE, bind_mod.
  replace (negb (o_noPlot o) && negb (t_label c)) with false.
  2:{ destruct PL as [-> | [_ ->]]; [reflexivity|]. rewrite andb_false_r. reflexivity. }
  reflexivity.
Qed.

(** Estimating errors. *)
Lemma firstn_skipn_app {A} n m (l : list A) : (n + m = length l)%nat -> firstn n l ++ firstn m (skipn n l) = l.
Proof.
  intros H. rewrite (firstn_all2 (skipn n l)) by (rewrite skipn_length; lia). apply firstn_skipn.
Qed.

Lemma errs_split n k (e : list (fl * fl)) : length e = S (S (n + k)) ->
  nth 0 e (NaN, NaN) :: nth 1 e (NaN, NaN) :: firstn n (skipn 2 e) ++ firstn k (skipn (n + 2) e) = e.
Proof.
  destruct e as [|a [|b e]]; cbn [length]; intros H; try lia. cbn [nth skipn].
  replace (skipn (n + 2) (a :: b :: e)) with (skipn n e) by (rewrite Nat.add_comm; reflexivity).
  rewrite firstn_skipn_app by lia. reflexivity.
Qed.

Lemma mc_row_ok M c o s x data err mask rnd : respects_bounds M -> answers M -> finite_answers M -> x <> [] ->
  z_range_ok c ->
  (forall n, In n (t_names c) -> exists l, line_set (t_lib c) n = Ok l) -> length data = length err ->
  (exists fs, f_flux s = Some fs /\ length (t_names c) <= length fs)%nat ->
  (exists cs, f_cont s = Some cs /\ t_order c + 1 <= length cs)%nat ->
  exists row, mc_row M c o s x (Some data) (Some err) mask rnd = Ok row /\
    length row = S (S (length (t_names c) + (t_order c + 1))) /\ Forall (fun v => isfinite v = true) row.
Proof.
  intros RB AN FA Nx W K L F C. unfold mc_row. cbn [need bind]. rewrite L, Nat.eqb_refl. cbn [bind].
  destruct (make_params_ok c s false false W F C) as (p & P & Lf & Lc & FE). unfold make_params in P.
  apply bind_Ok in P. destruct P as (z & -> & P). cbn [bind].
  apply bind_Ok in P. destruct P as (fs & -> & P). cbn [bind].
  apply bind_Ok in P. destruct P as (cs & -> & P). cbn [bind].
  assert (Ep : p = mkPrm z (unbounded (f_vd s)) (map unbounded fs) (map unbounded cs)) by (inversion P; reflexivity).
  rewrite <- Ep. set (rf := resid_fun _ _ _ _ _). destruct (AN rf p FE) as [r R]. rewrite R. cbn [bind].
  destruct (within_lengths _ _ (RB _ _ _ R)) as [L3 L4].
  assert (SM : exists m, (if o_noPlot o then Ok [] else spectrum_model (t_lib c) (t_names c) (t_order c) r x) = Ok m).
  { destruct (o_noPlot o); [eauto|]. apply spectrum_model_ok; auto; congruence. }
  destruct SM as [m ->]. cbn [bind]. unfold all_values.
  destruct (pvals_ok (m_flux r) (length (t_names c))) as (fs' & Ef & L1); [lia|]. rewrite Ef. cbn [bind].
  destruct (pvals_ok (m_cont r) (t_order c + 1)) as (cs' & Ec & L2); [lia|]. rewrite Ec. cbn [bind].
  eexists. split; [reflexivity|]. split. { cbn [length]. rewrite app_length. lia. }
  destruct (FA _ _ _ R) as (A1 & A2 & A3 & A4).
  constructor; [exact A1|]. constructor; [exact A2|]. apply Forall_app. split; apply Forall_forall; intros v I.
  - destruct (pvals_In _ _ _ Ef v I) as (q & Iq & ->). rewrite Forall_forall in A3. apply A3, Iq.
  - destruct (pvals_In _ _ _ Ec v I) as (q & Iq & ->). rewrite Forall_forall in A4. apply A4, Iq.
Qed.

Lemma mapM_Forall {A B} (f : A -> res B) (P : B -> Prop) l : (forall a, exists b, f a = Ok b /\ P b) ->
  exists r, mapM f l = Ok r /\ length r = length l /\ Forall P r.
Proof.
  intros H. induction l as [|a l (r & E & L & F)]; cbn [mapM].
  - exists []. repeat split; constructor.
  - destruct (H a) as (b & Eb & Pb). rewrite Eb. cbn [bind]. rewrite E. cbn [bind]. exists (b :: r).
    split; [reflexivity|]. split; [cbn; congruence|constructor; assumption].
Qed.

Lemma bsub_same a b : length a = length b -> bsub a b = Ok (map (fun p => fsub (fst p) (snd p)) (combine a b)).
Proof. intros E. unfold bsub. rewrite E, Nat.eqb_refl. reflexivity. Qed.

Lemma nth_error_combine_map {A B C D} (f : A -> C) (g : B -> D) (la : list A) (lb : list B) j :
  nth_error (combine (map f la) (map g lb)) j = 
  match nth_error la j, nth_error lb j with Some a, Some b => Some (f a, g b) | _, _ => None end.
Proof.
  revert lb j. induction la as [|a la IH]; intros lb j; cbn [map combine].
  - destruct j; reflexivity.
  - destruct lb as [|b lb]; cbn [map combine].
    + destruct j; [reflexivity|]. cbn. destruct (nth_error la j); reflexivity.
    + destruct j; cbn [nth_error]; [reflexivity|apply IH].
Qed.

Lemma nth_error_combine {A B} (la : list A) (lb : list B) j :
  nth_error (combine la lb) j = match nth_error la j, nth_error lb j with Some a, Some b => Some (a, b) | _, _ => None end.
Proof.
  revert lb j. induction la as [|a la IH]; intros lb j; cbn [combine].
  - destruct j; reflexivity.
  - destruct lb as [|b lb].
    + destruct j; [reflexivity|]. cbn. destruct (nth_error la j); reflexivity.
    + destruct j; cbn [nth_error]; [reflexivity|apply IH].
Qed.

Lemma matrix_col k l j : (j < k)%nat -> Forall (fun row => length row = k /\ Forall (fun v => isfinite v = true) row) l ->
  col (matrix k l) j = map Fin (rcol (matrix k l) j).
Proof.
  intros Hj F. unfold col, rcol. rewrite map_map. apply map_ext_in. intros i I. apply in_seq in I. cbn [rows matrix] in I.
  cbn [at2 matrix]. assert (G : In (nth i l []) l) by (apply nth_In; lia).
  rewrite Forall_forall in F. destruct (F _ G) as [L V]. rewrite Forall_forall in V.
  assert (X : isfinite (lnth (nth i l []) j) = true) by (apply V; unfold lnth; apply nth_In; lia).
  destruct (lnth (nth i l []) j); try discriminate. reflexivity.
Qed.

Lemma fit_errors M rnd c o s : respects_bounds M -> answers M -> finite_answers M -> runnable c s -> t_id c = IdInt ->
  o_noErrors o = false -> o_reload_errors o = false -> o_err_file o = true -> (0 < t_nmc c)%nat ->
  o_noPlot o = true \/ o_plot_file o = true ->
  exists s' m e, fit M rnd c o s = (s', Err ValueError) /\ f_file s' = Some m /\ rows m = t_nmc c /\
    cols m = length (best_values s') /\ f_errs s' = Some e /\ length (all_errs e) = length (best_values s') /\
    length (best_values s') = (2 + length (t_names c) + (t_order c + 1))%nat /\
    forall j, (j < length (best_values s'))%nat -> spans (15865 / 100000) (84135 / 100000) m (best_values s') (all_errs e) j.
Proof.
  intros RB AN FA RU ID NE NR EF NM PL.
  destruct (fit_run M rnd c o s RB AN RU) as (x & r & fm & fs & cs & Ex & Nx & B & _ & Ef & Ec & Lf & Lc & H).
  pose proof RU as (_ & W & _ & K & _ & _ & _ & (data & err & Ed & Ee & Le)).
  rewrite H. clear H. set (s1 := fitted_state s r fm fs cs). unfold fit_tail.
  replace (negb (o_noPlot o) && negb (o_plot_file o)) with false.
  2:{ destruct PL as [-> | ->]; [reflexivity|]. rewrite andb_false_r. reflexivity. }
  cbv zeta. rewrite (bind_lift _ tt) by (rewrite ID; reflexivity). rewrite bind_ret, NE, NR.
  set (T := p_val (m_z r) :: p_val (m_vd r) :: fs ++ cs).
  set (n := length (t_names c)) in *. set (k := (t_order c + 1)%nat) in *.
  assert (LT : length T = S (S (n + k))) by (unfold T; cbn [length]; rewrite app_length; lia).
  destruct (mapM_Forall (fun i => mc_row M c o s1 x (s_flux (t_spec c)) (s_err (t_spec c)) (s_mask (t_spec c)) (rnd i))
    (fun row => length row = S (S (n + k)) /\ Forall (fun v => isfinite v = true) row) (seq 0 (t_nmc c))) as (l & El & Ll & Fl).
  { intros i. rewrite Ed, Ee. apply (mc_row_ok M c o s1); auto.
    - exists fs. split; [reflexivity|lia].
    - exists cs. split; [reflexivity|lia]. }
  rewrite seq_length in Ll. set (m := matrix (length T) l).
  rewrite (bind_ok _ _ s1 (set_file (Some m) s1) m).
  2:{ rewrite bind_get. rewrite (bind_lift _ l) by exact El. unfold save_mc. rewrite EF, bind_mod. reflexivity. }
  assert (Rm : Nat.eqb (rows m) 0 = false) by (apply Nat.eqb_neq; cbn; lia).
  rewrite (bind_lift _ (map (fun j => percentile (15865 / 1000) (col m j)) (seq 0 (cols m)))).
  2:{ unfold percentiles. rewrite Rm. reflexivity. }
  rewrite (bind_lift _ (map (fun j => percentile (84135 / 1000) (col m j)) (seq 0 (cols m)))).
  2:{ unfold percentiles. rewrite Rm. reflexivity. }
  rewrite (bind_lift (bsub T _) _) by (apply bsub_same; rewrite map_length, seq_length; reflexivity).
  rewrite (bind_lift (bsub _ T) _) by (apply bsub_same; rewrite map_length, seq_length; reflexivity).
  rewrite bind_mod. set (e := combine _ _).
  set (e' := mkErrs1 _ _ _ _). exists (set_errs (Some e') (set_file (Some m) s1)), m, e'.
  split; [reflexivity|]. split; [reflexivity|]. split; [exact Ll|].
  replace (best_values (set_errs (Some e') (set_file (Some m) s1))) with T by reflexivity.
  split; [reflexivity|]. split; [reflexivity|].
  assert (Lel : length e = S (S (n + k))).
  { unfold e. rewrite combine_length, !map_length, !combine_length, !map_length, !seq_length. cbn [cols m matrix]. lia. }
  assert (AE : all_errs e' = e) by (apply (errs_split n k); exact Lel).
  rewrite AE. split; [lia|]. split; [lia|]. intros j Hj.
  assert (Hc : col m j = map Fin (rcol m j)).
  { apply matrix_col; [exact Hj|]. rewrite LT. exact Fl. }
  assert (NN : rcol m j <> []).
  { unfold rcol. cbn [rows m matrix]. destruct l; [cbn in Ll; lia|]. discriminate. }
  destruct (percentile_Fin (15865 / 1000) (rcol m j) NN) as (lo & P1 & Q1); [lra|].
  destruct (percentile_Fin (84135 / 1000) (rcol m j) NN) as (hi & P2 & Q2); [lra|].
  destruct (nth_error T j) as [b|] eqn:Eb; [|apply nth_error_None in Eb; lia].
  exists lo, hi, b. split; [replace (15865 / 100000) with (15865 / 1000 / 100) by lra; exact Q1|].
  split; [replace (84135 / 100000) with (84135 / 1000 / 100) by lra; exact Q2|]. split; [exact Eb|].
  unfold e. rewrite nth_error_combine_map, !nth_error_combine, !nth_error_map, Eb.
  rewrite (nth_error_nth' (seq 0 (cols m)) 0%nat) by (rewrite seq_length; exact Hj).
  rewrite seq_nth by exact Hj. cbn [option_map Nat.add fst snd]. rewrite Hc, P1, P2. reflexivity.
Qed.

(** A galaxy that cannot be printed. *)
Lemma fit_no_id M rnd c o o' s : respects_bounds M -> answers M -> runnable c s -> t_id c = IdNone ->
  o_noErrors o' = true -> o_noPlot o' = true ->
  exists s' s'', fit M rnd c o s = (s', Err TypeError) /\ fit M rnd (with_id IdInt false c) o' s = (s'', Ok tt) /\
    same_best s' s'' /\ f_errs s' = f_errs s /\ f_file s' = f_file s.
Proof.
  intros RB AN RU ID NE NP. pose proof RU as RU'. change (runnable (with_id IdInt false c) s) in RU'.
  destruct (fit_no_errors_ok M rnd (with_id IdInt false c) o' s RB AN RU' eq_refl NE (or_introl NP)) as [s'' F].
  pose proof (fit_inv _ _ _ _ _ _ F) as (i & p & x & r & fm & fs & cs & E1 & E2 & E3 & E4 & E5 & E6 & E7 & E8 & _ & _ & _ & E).
  pose proof (fit_reaches M rnd c o s i p x r fm fs cs E1 E2 E3 E4 E5 E6 E7 E8) as H.
  rewrite H. unfold fit_tail. cbv zeta. rewrite (bind_err _ _ _ (fitted_state s r fm fs cs) TypeError) by (rewrite ID; reflexivity).
  exists (fitted_state s r fm fs cs), s''. split; [reflexivity|]. split; [exact F|].
  split; [|split; reflexivity]. rewrite E. repeat split.
Qed.

(** A plot without a title. *)
Lemma fit_no_label M rnd c o o' s : respects_bounds M -> answers M -> runnable c s -> t_id c = IdInt -> t_label c = false ->
  o_noErrors o = true -> o_noPlot o = false -> o_plot_file o = true ->
  o_noErrors o' = true -> o_noPlot o' = true ->
  exists s', fit M rnd c o s = (s', Err TypeError) /\ fit M rnd c o' s = (s', Ok tt).
Proof.
  intros RB AN RU ID LB NE NP PF NE' NP'.
  destruct (fit_no_errors_ok M rnd c o' s RB AN RU ID NE' (or_introl NP')) as [s'' F].
  pose proof (fit_inv _ _ _ _ _ _ F) as (i & p & x & r & fm & fs & cs & E1 & E2 & E3 & E4 & E5 & E6 & E7 & E8 & _ & _ & _ & E).
  pose proof (fit_reaches M rnd c o s i p x r fm fs cs E1 E2 E3 E4 E5 E6 E7 E8) as H.
  exists s''. split; [|exact F]. rewrite H. unfold fit_tail. cbv zeta. rewrite (bind_lift _ tt) by (rewrite ID; reflexivity).
  rewrite NP, PF. cbn [negb andb]. rewrite bind_ret, NE, bind_mod, LB. cbn [negb]. rewrite E. reflexivity.
Qed.
