(* The Gaussian fit of a row of light: misfit/model/kin_functions.py:528-548. *)
From Coq Require Import Reals Lra List Bool Arith Lia.
From Verif Require Import PyFloat PyBase Arr PyNum MParams MKernels MAper2D MYprof MRowFit SRowFit PBright PSlit.
Import ListNotations.
Local Open Scope R_scope.

Lemma ff2 : fwhm_factor * fwhm_factor = 8 * ln 2.
Proof.
  unfold fwhm_factor. assert (0 < ln 2) by (rewrite <- ln_1; apply ln_increasing; lra).
  replace (2 * sqrt (2 * ln 2) * (2 * sqrt (2 * ln 2))) with (4 * (sqrt (2 * ln 2) * sqrt (2 * ln 2))) by ring.
  rewrite sqrt_sqrt by lra. ring.
Qed.

Lemma bell_val a m f x : 0 < f -> fmul (Fin a) (gaus_from_fwhm (Fin x) (Fin f) (Fin m)) = Fin (bell a m f x).
Proof.
  intros Hf. rewrite gaus_val by assumption. cbn [fmul]. unfold bell. do 3 f_equal.
  pose proof fwhm_pos. pose proof ff2 as F.
  replace (2 * (f / fwhm_factor) ^ 2) with (2 * (f * f) / (fwhm_factor * fwhm_factor)) by (field; lra).
  rewrite F. assert (0 < ln 2) by (rewrite <- ln_1; apply ln_increasing; lra). field. lra.
Qed.

(* a quadratic with three zeros *)
Lemma quad3 a b c x y z : x <> y -> x <> z -> y <> z ->
  a * x * x + b * x + c = 0 -> a * y * y + b * y + c = 0 -> a * z * z + b * z + c = 0 -> a = 0 /\ b = 0 /\ c = 0.
Proof.
  intros H1 H2 H3 E1 E2 E3.
  assert (A : a * (x + y) + b = 0). { apply (Rmult_eq_reg_l (x - y)); [|lra]. nra. }
  assert (B : a * (x + z) + b = 0). { apply (Rmult_eq_reg_l (x - z)); [|lra]. nra. }
  assert (a = 0). { apply (Rmult_eq_reg_l (y - z)); [|lra]. nra. }
  subst a. repeat split; nra.
Qed.

Lemma bell_pos a m f x : 0 < a -> 0 < bell a m f x.
Proof. intros. unfold bell. apply Rmult_lt_0_compat; [assumption|apply exp_pos]. Qed.

Lemma bell_unique a m f a0 m0 f0 x y z : 0 < f -> 0 < f0 -> 0 < a0 -> x <> y -> x <> z -> y <> z ->
  bell a m f x = bell a0 m0 f0 x -> bell a m f y = bell a0 m0 f0 y -> bell a m f z = bell a0 m0 f0 z ->
  a = a0 /\ m = m0 /\ f = f0.
Proof.
  intros Pf Pf0 Pa Nxy Nxz Nyz Ex Ey Ez.
  assert (L2 : 0 < ln 2) by (rewrite <- ln_1; apply ln_increasing; lra).
  assert (Ha : 0 < a).
  { pose proof (bell_pos a0 m0 f0 x Pa) as P. rewrite <- Ex in P. unfold bell in P.
    pose proof (exp_pos (- (4 * ln 2) * (x - m) * (x - m) / (f * f))). nra. }
  set (c := 4 * ln 2 / (f * f)). set (c0 := 4 * ln 2 / (f0 * f0)).
  assert (Lg : forall t, bell a m f t = bell a0 m0 f0 t -> (c0 - c) * t * t + (2 * (c * m - c0 * m0)) * t + (ln a - ln a0 - c * m * m + c0 * m0 * m0) = 0).
  { intros t E. unfold bell in E. apply (f_equal ln) in E. rewrite !ln_mult in E by (try assumption; apply exp_pos). rewrite !ln_exp in E.
    replace (- (4 * ln 2) * (t - m) * (t - m) / (f * f)) with (- c * (t - m) * (t - m)) in E by (unfold c; field; lra).
    replace (- (4 * ln 2) * (t - m0) * (t - m0) / (f0 * f0)) with (- c0 * (t - m0) * (t - m0)) in E by (unfold c0; field; lra). nra. }
  destruct (quad3 _ _ _ _ _ _ Nxy Nxz Nyz (Lg _ Ex) (Lg _ Ey) (Lg _ Ez)) as [A [B C]].
  assert (Pc : 0 < c) by (unfold c; apply Rdiv_lt_0_compat; nra).
  assert (Ec : c0 = c) by lra. rewrite Ec in *.
  assert (Em : m = m0) by (apply (Rmult_eq_reg_l c); lra). subst m0.
  assert (El : ln a = ln a0) by lra. apply ln_inv in El; [|assumption|assumption]. subst a0. repeat split.
  assert (Ef : f * f = f0 * f0). { unfold c, c0 in Ec. apply (Rmult_eq_reg_l (4 * ln 2 / (f * f) / (f0 * f0))).
    - transitivity (4 * ln 2 / (f0 * f0)); [field; lra|]. rewrite Ec. field. lra.
    - apply Rgt_not_eq. apply Rdiv_lt_0_compat; [exact Pc|nra]. }
  nra.
Qed.

(* the largest value of a finite list *)
Lemma max_fin l : forall a, exists m, fmax1 (Fin a) (map Fin l) = Fin m /\ a <= m.
Proof.
  induction l as [|b l IH]; intros a; [exists a; split; [reflexivity|lra]|]. cbn [map fmax1 isnan fltb].
  destruct (Rltb a b) eqn:E; [apply Rltb_true in E|].
  - destruct (IH b) as [m [-> H]]. exists m. split; [reflexivity|lra].
  - apply IH.
Qed.

Lemma resid_vals f g e l : e <> 0 -> resid3 (map (fun x => Fin (f x)) l) (map (fun x => Fin (g x)) l) (repeat (Fin e) (length l)) =
  map (fun x : R => Fin ((f x - g x) / e)) l.
Proof.
  intros He. induction l as [|x l IH]; [reflexivity|]. unfold resid3 in *. cbn [length repeat map combine fst snd]. rewrite IH. f_equal.
  unfold fsub, fdiv. cbn [fneg fadd]. destruct (Reqb e 0) eqn:E; [apply Reqb_true in E; lra|]. reflexivity.
Qed.

Lemma sumsq_vals (h : R -> R) l : fsum (map (fun v => fmul v v) (map (fun x => Fin (h x)) l)) = Fin (rsum (map (fun x => h x * h x) l)).
Proof. induction l as [|x l IH]; [reflexivity|]. cbn [map fsum fold_right rsum fmul]. unfold fsum in IH. rewrite IH. reflexivity. Qed.

Lemma rsum_sq0 (h : R -> R) l : rsum (map (fun x => h x * h x) l) = 0 -> forall x, In x l -> h x = 0.
Proof.
  assert (N : forall l, 0 <= rsum (map (fun x => h x * h x) l)).
  { induction l0 as [|y l0 IH]; cbn [map rsum fold_right]; [lra|]. unfold rsum in IH. nra. }
  induction l as [|y l IH]; [intros _ x []|]. cbn [map rsum fold_right]. intros E x. specialize (N l). unfold rsum in N, IH.
  intros [<-|I]; [nra|]. apply IH; [nra|assumption].
Qed.

(* the residuals of a Gaussian row at allowed parameters *)
Lemma row_resid (data : R -> R) xs a m f mx : 0 < f -> np_max (map (fun x => Fin (data x)) xs) = Ok (Fin mx) -> mx <> 0 ->
  gaus_residual_FWHM (mkF (Fin m) (Fin a) (Fin f)) (map Fin xs) (map (fun x => Fin (data x)) xs) None =
  Ok (map (fun x => Fin ((bell a m f x - data x) / (1 / 100 * mx))) xs).
Proof.
  intros Hf E Hm. unfold gaus_residual_FWHM. rewrite E. cbn [bind f_A f_mu f_FWHM fmul]. rewrite map_map, map_length.
  rewrite (map_ext _ (fun x => Fin (bell a m f x))) by (intros x; apply bell_val; assumption).
  rewrite resid_vals by lra. reflexivity.
Qed.

Lemma width0 x m : gaus_from_fwhm (Fin x) (Fin 0) (Fin m) = if Reqb x m then NaN else Fin 0.
Proof.
  pose proof fwhm_pos as P. unfold gaus_from_fwhm, fsub, fsq. cbn [fneg fadd fmul]. unfold fdiv at 2.
  rewrite (proj2 (Reqb_false _ _)) by lra. unfold fdiv at 1. cbn [fmul]. unfold fdiv.
  rewrite (proj2 (Reqb_false fwhm_factor 0)) by lra. cbn [fmul].
  replace (0 / fwhm_factor) with 0 by (field; lra). rewrite (proj2 (Reqb_true (2 * (0 * 0)) 0)) by ring.
  destruct (Reqb x m) eqn:E; [apply Reqb_true in E|apply Reqb_false in E].
  - subst. rewrite (proj2 (Reqb_true _ 0)) by ring. reflexivity.
  - assert (0 < (x + - m) * (x + - m)) by nra. rewrite (proj2 (Reqb_false _ 0)) by nra. rewrite (proj2 (Rltb_false 0 _)) by nra. reflexivity.
Qed.

Lemma sum_nan_or (m : R) (h : R -> R) l : let v := fsum (map (fun v => fmul v v) (map (fun x => if Reqb x m then NaN else Fin (h x)) l)) in
  v = NaN \/ v = Fin (rsum (map (fun x => h x * h x) l)).
Proof.
  cbv zeta. induction l as [|x l IH]; [right; reflexivity|]. cbn [map]. unfold fsum, rsum in *. cbn [fold_right].
  destruct (Reqb x m); [left; reflexivity|]. destruct IH as [-> | ->]; [left|right]; reflexivity.
Qed.

Lemma resid0 (data : R -> R) xs a m mx : np_max (map (fun x => Fin (data x)) xs) = Ok (Fin mx) -> mx <> 0 ->
  gaus_residual_FWHM (mkF (Fin m) (Fin a) (Fin 0)) (map Fin xs) (map (fun x => Fin (data x)) xs) None =
  Ok (map (fun x => if Reqb x m then NaN else Fin (- data x / (1 / 100 * mx))) xs).
Proof.
  intros E Hm. unfold gaus_residual_FWHM. rewrite E. cbn [bind f_A f_mu f_FWHM fmul]. rewrite map_map, map_length. f_equal.
  clear E. induction xs as [|x l IH]; [reflexivity|]. unfold resid3 in *. cbn [length repeat map combine fst snd]. rewrite IH. f_equal.
  rewrite width0. destruct (Reqb x m); [reflexivity|]. cbn [fmul]. unfold fsub, fdiv. cbn [fneg fadd]. rewrite (proj2 (Reqb_false _ _)) by lra.
  f_equal. f_equal. ring.
Qed.

(* a least-squares fit of a Gaussian row finds that Gaussian *)
Lemma best_is_truth opt xs a0 m0 f0 x y z t : 0 < a0 -> 0 < f0 ->
  In x xs -> In y xs -> In z xs -> x <> y -> x <> z -> y <> z ->
  let ys := map (fun x => Fin (bell a0 m0 f0 x)) xs in
  finds_best opt (fun q => gaus_residual_FWHM q (map Fin xs) ys None) ->
  lmfit_gaussian opt (map Fin xs) ys None = Ok t -> t = (Fin a0, Fin m0, Fin f0).
Proof.
  intros Pa Pf Ix Iy Iz Nxy Nxz Nyz ys B E.
  assert (Em : exists mx, np_max ys = Ok (Fin mx) /\ 0 < mx).
  { unfold ys. destruct xs as [|w l]; [destruct Ix|]. cbn [map np_max].
    rewrite <- (map_map (bell a0 m0 f0) Fin l). destruct (max_fin (map (bell a0 m0 f0) l) (bell a0 m0 f0 w)) as [mx [-> H]].
    exists mx. split; [reflexivity|]. pose proof (bell_pos a0 m0 f0 w Pa). lra. }
  destruct Em as [mx [Em Pm]].
  unfold lmfit_gaussian in E. rewrite Em in E. cbn [bind] in E.
  destruct (getn _ _) as [x0|]; [|discriminate]. cbn [bind] in E. destruct (np_max (map Fin xs)) as [hi|]; [|discriminate]. cbn [bind] in E.
  destruct (np_min (map Fin xs)) as [lo|]; [|discriminate]. cbn [bind] in E.
  destruct (opt _ _) as [q|] eqn:Eo; [|discriminate]. cbn [bind] in E. injection E as E.
  destruct (B _ _ Eo) as [[m [a [f [-> Hf]]]] [NN Best]]. cbn [f_A f_mu f_FWHM] in E. subst t.
  specialize (Best (mkF (Fin m0) (Fin a0) (Fin f0)) (ex_intro _ m0 (ex_intro _ a0 (ex_intro _ f0 (conj eq_refl (Rlt_le _ _ Pf)))))).
  cbv beta in Best, NN. unfold ys in Best, NN. rewrite (row_resid (bell a0 m0 f0) xs a0 m0 f0 mx) in Best by (assumption || lra).
  unfold sumsq in Best at 1. rewrite (sumsq_vals (fun x => (bell a0 m0 f0 x - bell a0 m0 f0 x) / (1 / 100 * mx))) in Best.
  assert (Z : forall l, rsum (map (fun x => (bell a0 m0 f0 x - bell a0 m0 f0 x) / (1 / 100 * mx) * ((bell a0 m0 f0 x - bell a0 m0 f0 x) / (1 / 100 * mx))) l) = 0).
  { induction l as [|w l IH]; [reflexivity|]. cbn [map]. unfold rsum in *. cbn [fold_right]. rewrite IH. field. lra. }
  rewrite Z in Best.
  destruct (Req_EM_T f 0) as [->|Nf].
  - exfalso. rewrite (resid0 (bell a0 m0 f0) xs a m mx) in Best, NN by (assumption || lra). unfold sumsq in Best, NN.
    destruct (sum_nan_or m (fun x => - bell a0 m0 f0 x / (1 / 100 * mx)) xs) as [V|V]; rewrite V in Best, NN; [discriminate NN|].
    cbn [fltb] in Best. apply Rltb_false in Best.
    assert (S0 : rsum (map (fun x => - bell a0 m0 f0 x / (1 / 100 * mx) * (- bell a0 m0 f0 x / (1 / 100 * mx))) xs) = 0).
    { apply Rle_antisym; [exact Best|]. clear. induction xs as [|w l IH]; cbn [map]; unfold rsum in *; cbn [fold_right]; [lra|].
      match goal with |- 0 <= ?u * ?u + _ => pose proof (Rle_0_sqr u) as Q; unfold Rsqr in Q end. lra. }
    pose proof (rsum_sq0 (fun x => - bell a0 m0 f0 x / (1 / 100 * mx)) xs S0 x Ix) as W. cbv beta in W.
    pose proof (bell_pos a0 m0 f0 x Pa) as Pb. assert (0 < bell a0 m0 f0 x / (1 / 100 * mx)) by (apply Rdiv_lt_0_compat; lra).
    unfold Rdiv in *. lra.
  - assert (Pq : 0 < f) by lra. rewrite (row_resid (bell a0 m0 f0) xs a m f mx) in Best by (assumption || lra). unfold sumsq in Best.
    rewrite (sumsq_vals (fun x => (bell a m f x - bell a0 m0 f0 x) / (1 / 100 * mx))) in Best. cbn [fltb] in Best. apply Rltb_false in Best.
    assert (S0 : rsum (map (fun x => (bell a m f x - bell a0 m0 f0 x) / (1 / 100 * mx) * ((bell a m f x - bell a0 m0 f0 x) / (1 / 100 * mx))) xs) = 0).
    { apply Rle_antisym; [exact Best|]. clear. induction xs as [|w l IH]; cbn [map]; unfold rsum in *; cbn [fold_right]; [lra|].
      match goal with |- 0 <= ?u * ?u + _ => pose proof (Rle_0_sqr u) as Q; unfold Rsqr in Q end. lra. }
    assert (W : forall w, In w xs -> bell a m f w = bell a0 m0 f0 w).
    { intros w Iw. pose proof (rsum_sq0 (fun x => (bell a m f x - bell a0 m0 f0 x) / (1 / 100 * mx)) xs S0 w Iw) as Q. cbv beta in Q.
      unfold Rdiv in Q. apply Rmult_integral in Q. destruct Q as [Q|Q]; [lra|]. exfalso. revert Q. apply Rinv_neq_0_compat. lra. }
    destruct (bell_unique a m f a0 m0 f0 x y z Pq Pf Pa Nxy Nxz Nyz (W x Ix) (W y Iy) (W z Iz)) as [-> [-> ->]]. reflexivity.
Qed.

(* the unit of the light *)
Lemma resid_units k q xs ys : 0 < k ->
  gaus_residual_FWHM (in_units k q) xs (map (fmul (Fin k)) ys) None = gaus_residual_FWHM q xs ys None.
Proof.
  intros Hk. unfold gaus_residual_FWHM. rewrite (s_npmax k Hk). destruct (np_max ys) as [m|e]; [|reflexivity]. cbn [rmap bind in_units f_A f_mu f_FWHM].
  rewrite map_length. f_equal. rewrite (s_mul_r k Hk). generalize (fmul (Fin (1 / 100)) m). intros e.
  revert ys. induction xs as [|x xs IH]; intros ys; [reflexivity|]. destruct ys as [|y ys]; [reflexivity|].
  unfold resid3 in *. cbn [length repeat map combine fst snd]. rewrite IH. f_equal.
  rewrite (s_mul k Hk), (s_sub k Hk). apply (s_div_both k Hk).
Qed.

Lemma units_fit opt k xs ys : unit_free opt -> 0 < k ->
  lmfit_gaussian opt xs (map (fmul (Fin k)) ys) None =
  (do t <- lmfit_gaussian opt xs ys None; Ok (fmul (Fin k) (fst (fst t)), snd (fst t), snd t)).
Proof.
  intros U Hk. unfold lmfit_gaussian. rewrite (s_npmax k Hk). destruct (np_max ys) as [m|e]; [|reflexivity]. cbn [rmap bind].
  rewrite map_length. rewrite (s_argmax k Hk _ (lnth ys)).
  2: { intros i. unfold lnth. change NaN with (fmul (Fin k) NaN) at 1. apply map_nth. }
  destruct (getn _ _) as [x0|]; [|reflexivity]. cbn [bind]. destruct (np_max xs) as [hi|]; [|reflexivity]. cbn [bind].
  destruct (np_min xs) as [lo|]; [|reflexivity]. cbn [bind].
  match goal with |- context [opt _ (mkF x0 (fmul (Fin k) m) ?w)] => change (mkF x0 (fmul (Fin k) m) w) with (in_units k (mkF x0 m w)) end.
  rewrite (U k (fun q => gaus_residual_FWHM q xs ys None) _ _ Hk) by (intros q; apply resid_units; assumption).
  destruct (opt _ _) as [q|]; reflexivity.
Qed.

(* rows that cannot be fitted *)
Lemma fmax0 l : fmax1 (Fin 0) (map (fun _ : R => Fin 0) l) = Fin 0.
Proof. induction l as [|x l IH]; [reflexivity|]. cbn [map fmax1 isnan fltb]. rewrite (proj2 (Rltb_false 0 0)) by lra. exact IH. Qed.

Lemma min_fin l : forall a, exists m, fmin1 (Fin a) (map Fin l) = Fin m.
Proof.
  induction l as [|b l IH]; intros a; [exists a; reflexivity|]. cbn [map fmin1 isnan fltb]. destruct (Rltb b a); apply IH.
Qed.

Lemma argmax_zeros l n : argmax_ n (lnth (map (fun _ : R => Fin 0) l)) = 0%nat \/ (length l <= n)%nat.
Proof.
  induction n as [|n IH]; [left; reflexivity|]. destruct IH as [IH|IH]; [|right; lia].
  destruct (le_lt_dec (length l) (S n)) as [L|L]; [right; exact L|left].
  cbn [argmax_]. rewrite IH. unfold lnth.
  assert (Z : forall i, (i < length l)%nat -> nth i (map (fun _ : R => Fin 0) l) NaN = Fin 0).
  { intros i Hi. rewrite (nth_indep _ NaN (Fin 0)) by (rewrite map_length; exact Hi). apply (map_nth (fun _ : R => Fin 0) l 0). }
  rewrite !Z by lia. cbn [isnan fltb]. rewrite (proj2 (Rltb_false 0 0)) by lra. reflexivity.
Qed.

Lemma nan_last x f mu : fdiv (fsub (fmul (Fin 0) (gaus_from_fwhm x f mu)) (Fin 0)) (fmul (Fin (1 / 100)) (Fin 0)) = NaN.
Proof.
  cbn [fmul]. replace (1 / 100 * 0) with 0 by ring.
  unfold gaus_from_fwhm, fexp. destruct (fdiv (fmul (Fin (-1)) _) _) as [r| | |]; unfold fsub; cbn [fmul fneg fadd].
  - unfold fdiv. rewrite (proj2 (Reqb_true 0 0)) by reflexivity. rewrite (proj2 (Reqb_true _ 0)) by ring. reflexivity.
  - unfold inf_scale. rewrite (proj2 (Reqb_true 0 0)) by reflexivity. reflexivity.
  - unfold fdiv. rewrite (proj2 (Reqb_true 0 0)) by reflexivity. rewrite (proj2 (Reqb_true _ 0)) by ring. reflexivity.
  - reflexivity.
Qed.

Lemma dark_row opt x xs : rejects_nan opt ->
  lmfit_gaussian opt (map Fin (x :: xs)) (map (fun _ => Fin 0) (x :: xs)) None = Err ValueError.
Proof.
  intros Rj. unfold lmfit_gaussian. assert (M : np_max (map (fun _ : R => Fin 0) (x :: xs)) = Ok (Fin 0)) by (cbn [map np_max]; now rewrite fmax0).
  rewrite M. cbn [bind]. rewrite map_length. destruct (argmax_zeros (x :: xs) (length (x :: xs) - 1)) as [A|A]; [|cbn [length] in A; lia].
  rewrite A. cbn [map getn nth_error bind np_max np_min]. destruct (max_fin xs x) as [hi [-> _]]. destruct (min_fin xs x) as [lo ->]. cbn [bind].
  match goal with |- bind (opt ?f ?p) _ = _ => enough (X : exists l, f p = Ok l /\ existsb isnan l = true) end.
  - destruct X as [l [X1 X2]]. rewrite (Rj _ _ l X1 X2). reflexivity.
  - cbv beta. unfold gaus_residual_FWHM. cbn [map] in M. rewrite M. cbn [bind f_A f_mu f_FWHM]. eexists. split; [reflexivity|].
    unfold resid3. cbn [map length repeat combine fst snd existsb]. rewrite nan_last. reflexivity.
Qed.

Lemma one_sample opt x v : rejects_nan opt -> v <> 0 -> lmfit_gaussian opt [Fin x] [Fin v] None = Err ValueError.
Proof.
  intros Rj Hv. unfold lmfit_gaussian. cbn [np_max np_min fmax1 fmin1 bind length Nat.sub argmax_ getn nth_error].
  match goal with |- bind (opt ?f ?p) _ = _ => enough (X : exists l, f p = Ok l /\ existsb isnan l = true) end.
  - destruct X as [l [X1 X2]]. rewrite (Rj _ _ l X1 X2). reflexivity.
  - cbv beta. unfold gaus_residual_FWHM. cbn [np_max fmax1 bind f_A f_mu f_FWHM]. eexists. split; [reflexivity|].
    unfold resid3. cbn [map length repeat combine fst snd existsb].
    replace (fdiv (fsub (Fin x) (Fin x)) (Fin 10)) with (Fin 0).
    + rewrite width0. rewrite (proj2 (Reqb_true x x)) by reflexivity. reflexivity.
    + unfold fsub, fdiv. cbn [fneg fadd]. rewrite (proj2 (Reqb_false 10 0)) by lra. f_equal. field.
Qed.
