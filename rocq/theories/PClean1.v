(* A noise-free 1-D spectrum. *)
From Coq Require Import String Reals Lra List Bool Arith Lia.
From Verif Require Import PyFloat PyBase Arr PyNum MKernels MParams MAper2D MYprof SMask MIo MTrim MFit1D SFit1D SClean1 SRowFit PKernels PFit1D PFit1D2 PFit1D3 PFit1D4 PFit1DEx PRowFit PRowFit2.
Import ListNotations.
Local Open Scope R_scope.

Lemma chi2_nonneg r : fltb (chi2 r) (Fin 0) = false.
Proof. exact (sumsq_nonneg r). Qed.

Lemma used_lt mask ks k : used_pixels mask ks -> In k ks -> (k < length mask)%nat.
Proof. intros U I. apply used_bound, U, I. Qed.

(* the residuals at physical parameters *)
Lemma clean_residual T names order xs data err mask ks q z vd fs cs sets z0 vd0 sets0 cs0 :
  length data = length xs -> length err = length xs -> length mask = length xs -> used_pixels mask ks ->
  0 < 1 + z -> 0 < vd -> holds q z vd fs cs -> length cs = S order -> known_sets T names fs sets -> positive_lines sets ->
  ks <> [] -> clean_spectrum xs data err ks z0 vd0 sets0 cs0 ->
  exists e : nat -> R, (forall k, In k ks -> e k <> 0) /\
  residual T names order (map Fin xs) (Some data) (Some err) (Some mask) q =
  Ok (map (fun k => Fin ((spectrum_value (at_pixels xs ks) z vd sets cs (nth k xs 0) -
                          spectrum_value (at_pixels xs ks) z0 vd0 sets0 cs0 (nth k xs 0)) / e k)) ks).
Proof.
  intros Ld Le Lm U Hz Hv Hq Lc KS P N C. exists (fun k => match nth k err NaN with Fin e => e | _ => 0 end). split.
  { intros k I. destruct (C k I) as [_ [e [-> He]]]. exact He. }
  rewrite (residual_run _ _ _ _ _ _ _ ks) by (rewrite ?map_length; assumption).
  replace (map (fun k => nth k (map Fin xs) NaN) ks) with (map Fin (at_pixels xs ks)).
  2:{ unfold at_pixels. rewrite map_map. apply map_ext_in. intros i I.
      assert (Bi : (i < length xs)%nat) by (rewrite <- Lm; apply (used_lt mask ks); assumption).
      rewrite (nth_indep (map Fin xs) NaN (Fin 0)) by (rewrite map_length; exact Bi). symmetry. apply (map_nth Fin). }
  assert (NP : at_pixels xs ks <> []) by (intros H; apply map_eq_nil in H; contradiction).
  rewrite (spectrum_model_Fin T names order q _ z vd fs cs sets) by assumption. cbn [bind]. f_equal.
  generalize (spectrum_value (at_pixels xs ks) z vd sets cs). intros h. unfold clean_spectrum in C. revert C.
  generalize (spectrum_value (at_pixels xs ks) z0 vd0 sets0 cs0). intros h0 C. unfold at_pixels. rewrite map_map. clear -C.
  induction ks as [|k ks IH]; [reflexivity|]. cbn [map combine fst snd]. rewrite IH by (intros i I; apply C; right; exact I). f_equal.
  destruct (C k (or_introl eq_refl)) as [-> [e [-> He]]]. unfold fsub, fdiv. cbn [fneg fadd]. rewrite (proj2 (Reqb_false e 0)) by assumption. reflexivity.
Qed.

Lemma sumsq_nat (h : nat -> R) l : fsum (map (fun v => fmul v v) (map (fun k => Fin (h k)) l)) = Fin (rsum (map (fun k => h k * h k) l)).
Proof. induction l as [|x l IH]; [reflexivity|]. cbn [map fsum fold_right rsum fmul]. unfold fsum in IH. rewrite IH. reflexivity. Qed.

Lemma rsum_nat0 (h : nat -> R) l : rsum (map (fun x => h x * h x) l) <= 0 -> forall x, In x l -> h x = 0.
Proof.
  assert (N : forall l, 0 <= rsum (map (fun x => h x * h x) l)).
  { induction l0 as [|y l0 IH]; cbn [map rsum fold_right]; [lra|]. unfold rsum in IH. nra. }
  induction l as [|y l IH]; [intros _ x []|]. cbn [map rsum fold_right]. intros E x. specialize (N l). unfold rsum in N, IH.
  pose proof (Rle_0_sqr (h y)) as Q. unfold Rsqr in Q. intros [<-|I]; [nra|]. apply IH; [lra|assumption].
Qed.

(* the true parameters *)
Lemma clean_truth T names order xs data err mask ks q z vd fs cs sets :
  length data = length xs -> length err = length xs -> length mask = length xs -> used_pixels mask ks ->
  0 < 1 + z -> 0 < vd -> holds q z vd fs cs -> length cs = S order -> known_sets T names fs sets -> positive_lines sets ->
  ks <> [] -> clean_spectrum xs data err ks z vd sets cs ->
  let rf := residual T names order (map Fin xs) (Some data) (Some err) (Some mask) in
  chi2 (rf q) = Fin 0 /\ forall q', fltb (chi2 (rf q')) (chi2 (rf q)) = false.
Proof.
  intros Ld Le Lm U Hz Hv Hq Lc KS P N C rf.
  assert (Z : chi2 (rf q) = Fin 0).
  { destruct (clean_residual T names order xs data err mask ks q z vd fs cs sets z vd sets cs) as [e [He E]]; try assumption.
    unfold rf. rewrite E. unfold chi2. rewrite sumsq_nat. f_equal. generalize (spectrum_value (at_pixels xs ks) z vd sets cs). intros h. clear -He. induction ks as [|k ks IH]; [reflexivity|].
    cbn [map]. unfold rsum in *. cbn [fold_right]. rewrite IH by (intros i I; apply He; right; exact I). field. apply He. left. reflexivity. }
  split; [exact Z|]. intros q'. rewrite Z. apply chi2_nonneg.
Qed.

(* physical parameters that do as well reproduce every used pixel *)
Lemma clean_same T names order xs data err mask ks q z vd fs cs sets z0 vd0 sets0 cs0 :
  length data = length xs -> length err = length xs -> length mask = length xs -> used_pixels mask ks ->
  0 < 1 + z -> 0 < vd -> holds q z vd fs cs -> length cs = S order -> known_sets T names fs sets -> positive_lines sets ->
  ks <> [] -> clean_spectrum xs data err ks z0 vd0 sets0 cs0 ->
  fltb (Fin 0) (chi2 (residual T names order (map Fin xs) (Some data) (Some err) (Some mask) q)) = false ->
  forall k, In k ks -> spectrum_value (at_pixels xs ks) z vd sets cs (nth k xs 0) = spectrum_value (at_pixels xs ks) z0 vd0 sets0 cs0 (nth k xs 0).
Proof.
  intros Ld Le Lm U Hz Hv Hq Lc KS P N C B k I.
  destruct (clean_residual T names order xs data err mask ks q z vd fs cs sets z0 vd0 sets0 cs0) as [e [He E]]; try assumption.
  rewrite E in B. unfold chi2 in B. rewrite sumsq_nat in B. cbn [fltb] in B. apply Rltb_false in B.
  pose proof (rsum_nat0 _ ks B k I) as Q. cbv beta in Q. specialize (He k I).
  unfold Rdiv in Q. apply Rmult_integral in Q. destruct Q as [Q|Q]; [lra|]. exfalso. revert Q. apply Rinv_neq_0_compat. exact He.
Qed.

(* one line: a Gaussian *)
Definition amp (xs : list R) (mu sig flux : R) : R := flux / (sig * sqrt (2 * PI)) * exp (gap2 xs mu / (2 * sig ^ 2)).
Lemma line_bell xs mu sig flux x : 0 < sig -> line_value xs mu sig flux x = bell (amp xs mu sig flux) mu (sig * fwhm_factor) x.
Proof.
  intros Hs. unfold line_value, bell, amp. rewrite Rmult_assoc, <- exp_plus. do 2 f_equal. pose proof ff2 as F.
  assert (L2 : 0 < ln 2) by (rewrite <- ln_1; apply ln_increasing; lra).
  replace (sig * fwhm_factor * (sig * fwhm_factor)) with (sig * sig * (fwhm_factor * fwhm_factor)) by ring. rewrite F. field. lra.
Qed.

Lemma line_unique xs w r z vd f z0 vd0 f0 x y u : 0 < w -> r <> 0 -> 0 < 1 + z -> 0 < vd -> 0 < 1 + z0 -> 0 < vd0 -> f0 <> 0 ->
  x <> y -> x <> u -> y <> u ->
  (forall t, t = x \/ t = y \/ t = u -> set_value xs z vd f [(w, r)] t = set_value xs z0 vd0 f0 [(w, r)] t) ->
  z = z0 /\ vd = vd0 /\ f = f0.
Proof.
  intros Hw Hr Hz Hv Hz0 Hv0 Hf Nxy Nxu Nyu E. pose proof PFit1D.c_kms_pos as Pc. pose proof sqrt_2PI_pos as Ps. pose proof PSlit.fwhm_pos as Pw.
  set (mu := w * (1 + z)). set (mu0 := w * (1 + z0)).
  assert (Pm : 0 < mu) by (apply Rmult_lt_0_compat; lra). assert (Pm0 : 0 < mu0) by (apply Rmult_lt_0_compat; lra).
  pose proof (width_pos vd mu Hv Pm) as Pg. pose proof (width_pos vd0 mu0 Hv0 Pm0) as Pg0.
  assert (S : forall t, t = x \/ t = y \/ t = u -> bell (amp xs mu (width vd mu) (f * r)) mu (width vd mu * fwhm_factor) t =
     bell (amp xs mu0 (width vd0 mu0) (f0 * r)) mu0 (width vd0 mu0 * fwhm_factor) t).
  { intros t I. specialize (E t I). unfold set_value, rsum in E. cbn [map fold_right fst snd] in E. fold mu mu0 in E. rewrite !Rplus_0_r in E.
    rewrite !line_bell in E by assumption. exact E. }
  assert (An : forall m s g, 0 < s -> g <> 0 -> amp xs m s g <> 0).
  { intros m s g Hs Hg. unfold amp. apply Rmult_integral_contrapositive_currified; [|apply Rgt_not_eq, exp_pos].
    apply Rmult_integral_contrapositive_currified; [exact Hg|]. apply Rinv_neq_0_compat. apply Rgt_not_eq. apply Rmult_lt_0_compat; assumption. }
  assert (A0 : amp xs mu0 (width vd0 mu0) (f0 * r) <> 0) by (apply An; [assumption|apply Rmult_integral_contrapositive_currified; assumption]).
  assert (X : amp xs mu (width vd mu) (f * r) = amp xs mu0 (width vd0 mu0) (f0 * r) /\ mu = mu0 /\ width vd mu * fwhm_factor = width vd0 mu0 * fwhm_factor).
  { assert (P1 : 0 < width vd mu * fwhm_factor) by (apply Rmult_lt_0_compat; assumption).
    assert (P2 : 0 < width vd0 mu0 * fwhm_factor) by (apply Rmult_lt_0_compat; assumption).
    destruct (Rlt_dec 0 (amp xs mu0 (width vd0 mu0) (f0 * r))) as [G|G].
    - apply (bell_unique _ _ _ _ _ _ x y u P1 P2 G Nxy Nxu Nyu); apply S; auto.
    - assert (Neg : forall a m g t, bell (- a) m g t = - bell a m g t) by (intros; unfold bell; ring).
      destruct (bell_unique (- amp xs mu (width vd mu) (f * r)) mu (width vd mu * fwhm_factor) (- amp xs mu0 (width vd0 mu0) (f0 * r)) mu0 (width vd0 mu0 * fwhm_factor) x y u P1 P2) as [Q1 [Q2 Q3]];
        [lra|assumption|assumption|assumption|rewrite !Neg; f_equal; apply S; auto|rewrite !Neg; f_equal; apply S; auto|rewrite !Neg; f_equal; apply S; auto|]. split; [lra|]. split; assumption. }
  destruct X as [X1 [X2 X3]].
  assert (Z : z = z0). { unfold mu, mu0 in X2. apply Rmult_eq_reg_l in X2; lra. }
  assert (W : width vd mu = width vd0 mu0) by (apply (Rmult_eq_reg_r fwhm_factor); [exact X3|lra]).
  assert (V : vd = vd0). { rewrite X2 in W. unfold width in W. apply (Rmult_eq_reg_r (/ c_kms * mu0)).
    - unfold Rdiv in W. lra. - apply Rgt_not_eq. apply Rmult_lt_0_compat; [apply Rinv_0_lt_compat|]; assumption. }
  split; [exact Z|]. split; [exact V|]. rewrite W, X2 in X1. unfold amp in X1.
  apply Rmult_eq_reg_r in X1; [|apply Rgt_not_eq, exp_pos]. unfold Rdiv in X1.
  apply Rmult_eq_reg_r in X1; [|apply Rinv_neq_0_compat, Rgt_not_eq, Rmult_lt_0_compat; assumption].
  apply Rmult_eq_reg_r in X1; assumption.
Qed.

(* the result of a fit *)
Lemma Forall2_length {A B} (P : A -> B -> Prop) l l' : Forall2 P l l' -> length l = length l'.
Proof. induction 1; cbn [length]; congruence. Qed.

Lemma best_inv M c s x data err mask r : best_params M c s x data err mask = Ok r ->
  exists fb vb p, make_params c s fb vb = Ok p /\ M (resid_fun c x data err mask) p = Ok r.
Proof.
  unfold best_params. intros H. apply bind_Ok in H. destruct H as (p & Ep & H). apply bind_Ok in H. destruct H as (r1 & Er & H).
  apply bind_Ok in H. destruct H as (f0 & Ef & H). cbv zeta in H.
  destruct (fltb (p_val (m_vd r1)) (Fin 0) && fltb f0 (Fin 0)); [apply bind_Ok in H; destruct H as (p' & A & B); eauto|].
  destruct (fltb (p_val (m_vd r1)) (Fin 0)); [apply bind_Ok in H; destruct H as (p' & A & B); eauto|].
  destruct (fltb f0 (Fin 0)); [apply bind_Ok in H; destruct H as (p' & A & B); eauto|].
  injection H as <-. eauto.
Qed.

(* parameters with the given values and the bounds of [p] *)
Definition at_value (p : par) (v : R) : par := mkPar (Fin v) (p_lo p) (p_hi p).
Definition at_values (p : prm) (z vd f : R) (cs : list R) : prm :=
  mkPrm (at_value (m_z p) z) (at_value (m_vd p) vd) (map (fun a => at_value a f) (m_flux p))
        (map (fun t => at_value (fst t) (snd t)) (combine (m_cont p) cs)).

Lemma one_flux {l : list par} : length l = 1%nat -> exists a, l = [a].
Proof. destruct l as [|a [|]]; try discriminate. eauto. Qed.

Lemma cont_free c s fb vb p : make_params c s fb vb = Ok p -> length (m_cont p) = (t_order c + 1)%nat /\ Forall no_bounds (m_cont p).
Proof.
  unfold make_params. intros H. apply bind_Ok in H. destruct H as (z & Z & H). apply bind_Ok in H. destruct H as (fs & F & H).
  apply bind_Ok in H. destruct H as (cs & C & H). injection H as <-. cbn [m_cont]. unfold items in C. apply mapM_length in C. rewrite seq_length in C.
  rewrite map_length. split; [exact C|]. clear. induction cs; cbn [map]; constructor; [split; reflexivity|assumption].
Qed.

Lemma clean_fit M rnd c o s s' name w rr wave gz del xs data err mask ks z vd f cs z1 vd1 x y u :
  fit M rnd c o s = (s', Ok tt) ->
  t_names c = [name] -> line_set (t_lib c) name = Ok [(w, rr)] -> 0 < w -> rr <> 0 ->
  s_obs (t_spec c) = Some (map Fin xs) -> s_flux (t_spec c) = Some data -> s_err (t_spec c) = Some err -> s_mask (t_spec c) = Some mask ->
  length data = length xs -> length err = length xs -> length mask = length xs -> used_pixels mask ks ->
  first_wave c = Ok wave -> wave <> 0 -> t_gz c = Fin gz -> t_del c = Fin del -> gz - del / wave <= z <= gz + del / wave ->
  0 < 1 + z -> 0 < vd -> 0 < f -> length cs = S (t_order c) ->
  clean_spectrum xs data err ks z vd [(f, [(w, rr)])] cs ->
  In x ks -> In y ks -> In u ks -> nth x xs 0 <> nth y xs 0 -> nth x xs 0 <> nth u xs 0 -> nth y xs 0 <> nth u xs 0 ->
  (forall fb vb p, make_params c (with_cont c s) fb vb = Ok p -> least_squares M (resid_fun c (map Fin xs) (Some data) (Some err) (Some mask)) p) -> finite_answers M ->
  f_z s' = Fin z1 -> 0 < 1 + z1 -> f_vd s' = Fin vd1 -> 0 < vd1 -> f_cont s' = Some (map Fin cs) ->
  f_z s' = Fin z /\ f_vd s' = Fin vd /\ f_flux s' = Some [Fin f].
Proof.
  intros F En El Hw Hr Ex Ed Ee Em Ld Le Lm U W0 Nw Eg Edl Hrange Hz Hv Hf Lc C Ix Iy Iu Nxy Nxu Nyu LS FA Z1 P1 V1 Q1 C1.
  apply fit_inv in F. destruct F as (i & p0 & x0 & r & fm & fs & cs' & _ & _ & _ & X0 & B & _ & Ec & Efs & _ & _ & _ & ->).
  cbn [f_z f_vd f_flux f_cont] in *. rewrite Ex in X0. injection X0 as <-. unfold best_of in B. rewrite Ed, Ee, Em in B.
  apply best_inv in B. destruct B as (fb & vb & p & Mp & B). destruct (LS fb vb p Mp r B) as [Wr [_ Best]]. destruct (FA _ _ _ B) as [_ [_ [FF FC]]].
  destruct (make_params_inv _ _ _ _ _ Mp) as (w1 & W1 & Pz & Pv & Lf & Pf). rewrite W0 in W1. injection W1 as <-.
  destruct (cont_free _ _ _ _ _ Mp) as [Lp Pc]. rewrite En in Lf. cbn [length] in Lf. destruct (one_flux Lf) as [a Ea].
  set (q0 := at_values p z vd f cs).
  assert (H0 : holds q0 z vd [f] cs).
  { unfold holds, q0, at_values. cbn [m_z m_vd m_flux m_cont]. rewrite Ea. split; [reflexivity|]. split; [reflexivity|]. split; [reflexivity|].
    rewrite map_map. cbn [at_value p_val]. assert (L : length (m_cont p) = length cs) by lia. clear -L. revert L. generalize (m_cont p). revert cs.
    induction cs as [|b cs IH]; intros [|t l] L; cbn [length] in L; try lia; [reflexivity|]. cbn [combine map snd]. f_equal. apply IH. lia. }
  assert (WI : within_prm p q0).
  { unfold within_prm, q0, at_values. cbn [m_z m_vd m_flux m_cont]. repeat split; cbn [at_value p_lo p_hi p_val].
    - rewrite Pz. cbn [p_lo]. rewrite Eg, Edl. unfold fdiv, fsub. rewrite (proj2 (Reqb_false wave 0)) by assumption. cbn [fneg fadd fleb]. apply Rleb_true. lra.
    - rewrite Pz. cbn [p_hi]. rewrite Eg, Edl. unfold fdiv. rewrite (proj2 (Reqb_false wave 0)) by assumption. cbn [fadd fleb]. apply Rleb_true. lra.
    - rewrite Pv. destruct vb; cbn [nonneg unbounded p_lo fleb]; [apply Rleb_true; lra|reflexivity].
    - rewrite Pv. destruct vb; reflexivity.
    - rewrite Ea in Pf |- *. cbn [map]. inversion Pf as [|? ? [A1 A2] _]; subst. constructor; [|constructor]. repeat split; cbn [at_value p_lo p_hi p_val].
      + rewrite A1. destruct fb; cbn [fleb]; [apply Rleb_true; lra|reflexivity].
      + rewrite A2. reflexivity.
    - assert (L : length (m_cont p) = length cs) by lia. revert L Pc. clear. generalize (m_cont p). revert cs.
      induction cs as [|b cs IH]; intros [|t l] L Pc; cbn [length] in L; try lia; [constructor|]. cbn [combine map fst snd]. inversion Pc as [|? ? [A1 A2] Pc']; subst.
      constructor; [|apply IH; [lia|assumption]]. repeat split; cbn [at_value p_lo p_hi p_val]; [rewrite A1|rewrite A2]; reflexivity. }
  specialize (Best q0 WI). unfold resid_fun in Best. rewrite En in Best.
  assert (NK : ks <> []) by (intros ->; destruct Ix).
  assert (KS : forall g, known_sets (t_lib c) [name] [g] [(g, [(w, rr)])]) by (intros g; split; [reflexivity|]; split; [reflexivity|]; constructor; [exact El|constructor]).
  assert (PL : forall g, positive_lines [(g, [(w, rr)])]).
  { intros g s0 w0 r0 [<-|[]] [Q|[]]. injection Q as <- <-. exact Hw. }
  destruct (clean_truth (t_lib c) [name] (t_order c) xs data err mask ks q0 z vd [f] cs [(f, [(w, rr)])]) as [T0 _]; try assumption; try apply KS; try apply PL.
  cbv zeta in T0. rewrite T0 in Best.
  rewrite En in Efs. cbn [length] in Efs.
  assert (RF : exists g, m_flux r = [g] /\ fs = [p_val g]).
  { destruct Wr as [_ [_ [Wf _]]]. rewrite Ea in Wf. apply Forall2_length in Wf. cbn [length] in Wf. destruct (one_flux (eq_sym Wf)) as [g G]. exists g. split; [exact G|].
    rewrite G in Efs. unfold pvals, pval in Efs. cbn in Efs. injection Efs as <-. reflexivity. }
  destruct RF as [g [Eg1 Eg2]]. assert (Ef1 : exists f1, p_val g = Fin f1).
  { rewrite Eg1 in FF. inversion FF as [|? ? Q _]; subst. destruct (p_val g); try discriminate. eauto. }
  destruct Ef1 as [f1 Ef1].
  assert (HR : holds r z1 vd1 [f1] cs).
  { split; [exact Z1|]. split; [exact V1|]. split; [rewrite Eg1; cbn [map]; now rewrite Ef1|]. injection C1 as C1. subst cs'.
    destruct Wr as [_ [_ [_ Wc]]]. apply Forall2_length in Wc. assert (L : length (m_cont r) = (t_order c + 1)%nat) by lia.
    apply mapM_ok in Ec. revert Ec L. generalize (map Fin cs) as l2. generalize (t_order c + 1)%nat as n. generalize (m_cont r) as l1. clear.
    intros l1 n l2 Ec L. subst n. apply nth_ext with (d := NaN) (d' := NaN); [rewrite map_length; apply Forall2_length in Ec; rewrite seq_length in Ec; exact Ec|].
    assert (G : forall l b (v : list fl), Forall2 (fun a b => pval l a = Ok b) (seq b (length v)) v -> forall j, (j < length v)%nat -> pval l (b + j) = Ok (nth j v NaN)).
    { intros l b v. revert b. induction v as [|v0 v IH]; intros b H j Hj; cbn [length] in *; [lia|]. cbn [seq] in H. inversion H; subst.
      destruct j; [rewrite Nat.add_0_r; assumption|]. cbn [nth]. replace (b + S j)%nat with (S b + j)%nat by lia. apply IH; [assumption|lia]. }
    intros j Hj. rewrite map_length in Hj. assert (L2 : length l2 = length l1) by (apply Forall2_length in Ec; rewrite seq_length in Ec; lia).
    rewrite <- L2 in Ec. specialize (G _ _ _ Ec j ltac:(lia)). cbn [Nat.add] in G. unfold pval in G.
    destruct (nth_error l1 j) as [t|] eqn:E; [|discriminate]. injection G as G. rewrite <- G. apply nth_error_nth. rewrite nth_error_map, E. reflexivity. }
  pose proof (clean_same (t_lib c) [name] (t_order c) xs data err mask ks r z1 vd1 [f1] cs [(f1, [(w, rr)])] z vd [(f, [(w, rr)])] cs Ld Le Lm U P1 Q1 HR Lc (KS f1) (PL f1) NK C Best) as Same.
  destruct (line_unique (at_pixels xs ks) w rr z1 vd1 f1 z vd f (nth x xs 0) (nth y xs 0) (nth u xs 0)) as [-> [-> ->]]; try assumption; try lra.
  { intros t It. assert (I : exists k, In k ks /\ t = nth k xs 0) by (destruct It as [->|[->| ->]]; eauto). destruct I as [k [Ik ->]].
    specialize (Same k Ik). unfold spectrum_value, rsum in Same. cbn [map fold_right fst snd] in Same. lra. }
  split; [exact Z1|]. split; [exact V1|]. rewrite Eg2, Ef1. reflexivity.
Qed.

(* a noise-free H-alpha line *)
Definition k_xs : list R := [wHa - 1; wHa; wHa + 1].
Definition k_sets : list (R * list (R * R)) := [(1, [(wHa, 1)])].
Definition k_data : list fl := map (fun x => Fin (spectrum_value k_xs 0 80 k_sets [0] x)) k_xs.
Definition k_cfg : cfg1 := mkCfg1 shipped ["Halpha"%string] [[wHa]] (Fin 0) 0 (Fin 10) 2 (Some (Fin 50)) None
  (mkSp1 None (Some (map Fin k_xs)) None (Some k_data) (Some ones3) (Some ones3) None None None) IdInt false.

Lemma k_used : used_pixels ones3 [0%nat; 1%nat; 2%nat].
Proof.
  split; [repeat constructor; lia|]. intros i. unfold used. split.
  - intros [<-|[<-|[<-|[]]]]; reflexivity.
  - intros H. destruct i as [|[|[|i]]]; cbn in H; try (cbn; tauto). destruct i; discriminate.
Qed.
Lemma k_clean : clean_spectrum k_xs k_data ones3 [0%nat; 1%nat; 2%nat] 0 80 k_sets [0].
Proof.
  intros k I. change (at_pixels k_xs [0%nat; 1%nat; 2%nat]) with k_xs. destruct I as [<-|[<-|[<-|[]]]]; (split; [reflexivity|exists 1; split; [reflexivity|lra]]).
Qed.

Lemma k_params fb vb p : make_params k_cfg (with_cont k_cfg (ex_st1 1)) fb vb = Ok p ->
  holds p 0 80 [1] [0] /\ forall rf r, tryM [] rf p = Ok r -> r = p /\ within_prm p p.
Proof.
  unfold make_params, z_par. cbn [k_cfg with_cont ex_st1 f_cont t_names t_order t_restw t_gz t_del t_lib first_wave getn nth_error bind items f_z f_vd f_flux set_cont repeat Nat.add seq mapM length map].
  intros H. injection H as <-. destruct ex_z as [Z1 Z2]. rewrite (proj2 (Reqb_false wHa 0)) by (unfold wHa; lra). cbn [fneg].
  rewrite fdiv_Fin in Z1 by (unfold wHa; lra). unfold fsub in Z1. cbn [fneg fadd] in Z1.
  split; [split; [reflexivity|]; split; [destruct vb; reflexivity|]; split; [destruct fb; reflexivity|reflexivity]|].
  intros rf r. cbn [tryM m_z m_vd m_flux m_cont map]. rewrite Z1.
  assert (V : clip (if vb then nonneg (Fin 80) else unbounded (Fin 80)) = (if vb then nonneg (Fin 80) else unbounded (Fin 80))).
  { destruct vb; unfold clip, inb, setp, nonneg, unbounded; cbn [p_val p_lo p_hi fleb isfinite andb]; [|reflexivity]. rewrite (proj2 (Rleb_true 0 80)) by lra. reflexivity. }
  assert (F : clip ((if fb then nonneg else unbounded) (Fin 1)) = (if fb then nonneg else unbounded) (Fin 1)).
  { destruct fb; unfold clip, inb, setp, nonneg, unbounded; cbn [p_val p_lo p_hi fleb isfinite andb]; [|reflexivity]. rewrite (proj2 (Rleb_true 0 1)) by lra. reflexivity. }
  rewrite V, F, clip0. destruct (okp _); [|discriminate]. intros H. injection H as <-. split; [reflexivity|].
  assert (W : 0 < 10 / wHa) by (unfold wHa; lra).
  repeat split; cbn [m_z m_vd m_flux m_cont p_lo p_hi p_val fleb].
  - apply Rleb_true. lra.
  - apply Rleb_true. lra.
  - destruct vb; cbn [nonneg unbounded p_lo p_val fleb]; [apply Rleb_true; lra|reflexivity].
  - destruct vb; reflexivity.
  - constructor; [|constructor]. destruct fb; repeat split; cbn [nonneg unbounded p_lo p_hi p_val fleb]; try reflexivity. apply Rleb_true. lra.
  - constructor; [|constructor]. repeat split.
Qed.

Lemma k_truth p : holds p 0 80 [1] [0] -> chi2 (resid_fun k_cfg (map Fin k_xs) (Some k_data) (Some ones3) (Some ones3) p) = Fin 0.
Proof.
  intros H. apply (clean_truth shipped ["Halpha"%string] 0 k_xs k_data ones3 ones3 [0%nat; 1%nat; 2%nat] p 0 80 [1] [0] k_sets); try reflexivity; try lra; try discriminate.
  - exact k_used.
  - exact H.
  - split; [reflexivity|]. split; [reflexivity|]. constructor; [exact halpha|constructor].
  - intros s0 w0 r0 [<-|[]] [Q|[]]. injection Q as <- <-. unfold wHa. lra.
  - exact k_clean.
Qed.

Lemma clean_example rnd : exists s', fit (tryM []) rnd k_cfg (ex_opts true) (ex_st1 1) = (s', Ok tt) /\
  clean_spectrum k_xs k_data ones3 [0%nat; 1%nat; 2%nat] 0 80 k_sets [0] /\ finite_answers (tryM []) /\
  (forall fb vb p, make_params k_cfg (with_cont k_cfg (ex_st1 1)) fb vb = Ok p -> least_squares (tryM []) (resid_fun k_cfg (map Fin k_xs) (Some k_data) (Some ones3) (Some ones3)) p) /\
  f_z s' = Fin 0 /\ f_vd s' = Fin 80 /\ f_flux s' = Some [Fin 1] /\ f_cont s' = Some [Fin 0].
Proof.
  assert (RU : runnable k_cfg (ex_st1 1)).
  { unfold runnable. cbn [k_cfg t_inst t_restw t_gz t_del t_names t_lib t_order t_spec s_obs s_flux s_err ex_st1 f_flux f_cont].
    split; [exists 50; split; [reflexivity|lra]|]. split; [exists wHa, [], [], 0, 10; repeat split; unfold wHa; lra|].
    split; [discriminate|]. split; [intros n [<-|[]]; eexists; apply halpha|]. split; [eexists; split; [reflexivity|cbn; lia]|]. split; [discriminate|].
    split; [eexists; split; [reflexivity|discriminate]|]. do 2 eexists. split; [reflexivity|]. split; reflexivity. }
  destruct (fit_no_errors_ok (tryM []) rnd k_cfg (ex_opts true) (ex_st1 1) (try_respects []) (try_answers []) RU eq_refl eq_refl (or_introl eq_refl)) as [s' F].
  exists s'. split; [exact F|]. split; [exact k_clean|]. split; [apply try_finite|].
  assert (LS : forall fb vb p, make_params k_cfg (with_cont k_cfg (ex_st1 1)) fb vb = Ok p -> least_squares (tryM []) (resid_fun k_cfg (map Fin k_xs) (Some k_data) (Some ones3) (Some ones3)) p).
  { intros fb vb p Mp r Er. destruct (k_params fb vb p Mp) as [H X]. destruct (X _ _ Er) as [-> W]. split; [exact W|]. rewrite (k_truth p H). split; [reflexivity|]. intros q _. apply chi2_nonneg. }
  split; [exact LS|]. apply fit_inv in F. destruct F as (i & p0 & x0 & r & fm & fs & cs' & _ & _ & _ & X0 & B & _ & Ec & Efs & _ & _ & _ & ->).
  unfold best_of in B. apply best_inv in B. destruct B as (fb & vb & p & Mp & B). destruct (k_params fb vb p Mp) as [H X]. destruct (X _ _ B) as [-> _].
  destruct H as (H1 & H2 & H3 & H4). cbn [f_z f_vd f_flux f_cont]. split; [exact H1|]. split; [exact H2|].
  change (pvals (m_flux p) 1 = Ok fs) in Efs. change (pvals (m_cont p) 1 = Ok cs') in Ec.
  rewrite (pvals_Fin _ [1] 1 H3 eq_refl) in Efs. rewrite (pvals_Fin _ [0] 1 H4 eq_refl) in Ec. injection Efs as <-. injection Ec as <-. split; reflexivity.
Qed.

(* a dispersion that is not positive does as well as the truth, for any data *)
Lemma zero_dispersion T n names order x data err mask q r ls z vd :
  length data = length x -> length err = length x -> length mask = length x ->
  line_set T n = Ok ls -> ls <> [] -> (forall w r, In (w, r) ls -> 0 < w) ->
  p_val (m_z q) = Fin z -> p_val (m_vd q) = Fin vd -> 0 < 1 + z -> vd <= 0 ->
  residual T (n :: names) order x (Some data) (Some err) (Some mask) q = Ok r ->
  chi2 (residual T (n :: names) order x (Some data) (Some err) (Some mask) q) = Fin 0.
Proof.
  intros H1 H2 H3 E N P Qz Qv Hz Hv R. pose proof (residual_negative T n names order x data err mask q r ls z vd H1 H2 H3 E N P Qz Qv Hz Hv R) as Z.
  rewrite R. unfold chi2. clear -Z. induction r as [|v r IH]; [reflexivity|]. cbn [map]. unfold fsum in *. cbn [fold_right].
  rewrite IH by (intros u I; apply Z; right; exact I). rewrite (Z v (or_introl eq_refl)). cbn [fmul fadd]. f_equal. ring.
Qed.
