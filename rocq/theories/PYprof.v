(* Proofs about the residuals of the helper fits and the size of the emission along the slit. *)
From Coq Require Import String Reals List Bool Arith ZArith Lra Lia Psatz Sorted Permutation.
From Verif Require Import PyFloat PyBase Arr PyNum PKernels MMask MPost SPost PPost MFit1D SFit1D MVert MTrim STrim PTrim MPrep PPrep4 MYprof SYprof.
Import ListNotations.
Local Open Scope R_scope.

Lemma gaus_simple_Fin A mu s x : 0 < s -> gaus_simple (Fin A) (Fin mu) (Fin s) (Fin x) = Fin (gaus_value A mu s x).
Proof.
  intros Hs. unfold gaus_simple, gaus_value, fsq, fsub. cbn [fneg fadd fmul]. rewrite fdiv_Fin by nra. cbn [fexp fsqrt].
  pose proof PI_RGT_0. assert (P : 0 < 2 * PI * s) by nra. rewrite (proj2 (Rltb_false _ _)) by lra.
  rewrite fdiv_Fin by (apply Rgt_not_eq, sqrt_lt_R0; exact P). cbn [fmul]. f_equal.
  replace (- ((x + - mu) * (x + - mu))) with (- (x - mu) ^ 2) by ring. replace (s * s) with (s ^ 2) by ring. ring.
Qed.
Lemma gaus_simple_zero A mu x : gaus_simple A mu (Fin 0) x = NaN.
Proof.
  unfold gaus_simple. assert (Z : fmul (Fin 2) (fsq (Fin 0)) = Fin 0) by (unfold fsq; cbn [fmul]; f_equal; ring). rewrite Z.
  assert (Z2 : fsqrt (fmul (Fin (2 * PI)) (Fin 0)) = Fin 0).
  { cbn [fmul fsqrt]. rewrite Rmult_0_r, (proj2 (Rltb_false _ _)) by lra. now rewrite sqrt_0. } rewrite Z2.
  assert (W : fdiv (fexp (fdiv (fneg (fsq (fsub x mu))) (Fin 0))) (Fin 0) = NaN).
  2:{ rewrite W. reflexivity. }
  assert (Neg : fneg (fsq (fsub x mu)) = NaN \/ fneg (fsq (fsub x mu)) = NInf \/ exists t, fneg (fsq (fsub x mu)) = Fin t /\ t <= 0).
  { unfold fsq. destruct (fsub x mu) as [t| | |]; cbn; auto. right. right. exists (- (t * t)). split; [reflexivity|nra]. }
  destruct Neg as [->|[->|(t & -> & Ht)]].
  - reflexivity.
  - cbn [fdiv]. rewrite (proj2 (Rltb_false _ _)) by lra. cbn [fexp fdiv]. now rewrite !Reqb_refl.
  - cbn [fdiv]. rewrite Reqb_refl. destruct (Reqb t 0) eqn:E; [reflexivity|]. apply Reqb_false in E. rewrite (proj2 (Rltb_false _ _)) by lra.
    cbn [fexp fdiv]. now rewrite !Reqb_refl.
Qed.

Lemma zero_div_not_finite a : isfinite (fdiv a (Fin 0)) = false.
Proof.
  destruct a as [a| | |]; cbn [fdiv]; rewrite ?Reqb_refl; try (destruct (Rltb 0 0); reflexivity); try reflexivity.
  destruct (Reqb a 0); [reflexivity|]. destruct (Rltb 0 a); reflexivity.
Qed.
Lemma one_residual m d e : residual_is m d e (let v := fdiv (fsub (Fin m) (Fin d)) (Fin e) in if isfinite v then v else Fin 0).
Proof.
  cbv zeta. split.
  - intros H. unfold fsub. cbn [fneg fadd]. rewrite fdiv_Fin by exact H. reflexivity.
  - intros ->. now rewrite zero_div_not_finite.
Qed.

Lemma nth_resid3 ms : forall ds es i m d e, nth_error ms i = Some m -> nth_error ds i = Some d -> nth_error es i = Some e ->
  nth_error (resid3 ms ds es) i = Some (fdiv (fsub m d) e).
Proof.
  unfold resid3. induction ms as [|m0 ms IH]; intros ds es i m d e Hm Hd He; [destruct i; discriminate|].
  destruct ds as [|d0 ds]; [destruct i; discriminate|]. destruct es as [|e0 es]; [destruct i; discriminate|].
  destruct i; cbn [nth_error] in *; [cbn; congruence|]. cbn [combine map nth_error]. apply IH; assumption.
Qed.
Lemma nth_zero_bad l i v : nth_error l i = Some v -> nth_error (zero_bad l) i = Some (if isfinite v then v else Fin 0).
Proof. intros H. unfold zero_bad. now rewrite nth_error_map, H. Qed.

Lemma profile_nth q A mu s c xx i x : gaus_values q A mu s c -> 0 < s -> nth_error xx i = Some (Fin x) ->
  nth_error (gaus_profile q xx) i = Some (Fin (gaus_value A mu s x + c)).
Proof.
  intros (HA & Hm & Hs & HC) P X. unfold gaus_profile. rewrite nth_error_map, X. cbn [option_map]. rewrite HA, Hm, Hs, gaus_simple_Fin by exact P.
  destruct HC as [[-> ->]|(p & -> & ->)]; [now rewrite Rplus_0_r|reflexivity].
Qed.

Lemma gaus_residual_entry q A mu s c xx data err i x d e : gaus_values q A mu s c -> 0 < s ->
  nth_error xx i = Some (Fin x) -> nth_error data i = Some (Fin d) -> nth_error err i = Some (Fin e) ->
  exists v, nth_error (gaus_residual q xx data err) i = Some v /\ residual_is (gaus_value A mu s x + c) d e v.
Proof.
  intros G P X D E. unfold gaus_residual.
  eexists. split; [apply nth_zero_bad, nth_resid3; [exact (profile_nth _ _ _ _ _ _ _ _ G P X)|exact D|exact E]|]. apply one_residual.
Qed.

Lemma take_nth {A} (l : list A) wh r : take l wh = Ok r -> length r = length wh /\ forall i k, nth_error wh i = Some k -> exists a, nth_error l k = Some a /\ nth_error r i = Some a.
Proof.
  revert r. induction wh as [|w wh IH]; intros r H; cbn [take] in H.
  - inversion H. split; [reflexivity|]. intros [|i] k E; discriminate.
  - destruct (getn l w) as [a|] eqn:Ea; [|discriminate]. cbn [bind] in H. destruct (take l wh) as [r'|] eqn:Er; [|discriminate]. cbn [bind] in H. inversion H; subst r.
    destruct (IH _ eq_refl) as [L N]. split; [cbn; now rewrite L|]. intros [|i] k E; cbn [nth_error] in *.
    + injection E as <-. exists a. split; [|reflexivity]. unfold getn in Ea. destruct (nth_error l w); [congruence|discriminate].
    + apply N; exact E.
Qed.

Lemma gaus_residual_mask_entry q A mu s c xx data err wh r : gaus_values q A mu s c -> 0 < s ->
  gaus_residual_mask q (map Fin xx) (map Fin data) (map Fin err) wh = Ok r ->
  length r = length wh /\ forall i k, nth_error wh i = Some k -> exists x d e v, nth_error xx k = Some x /\ nth_error data k = Some d /\ nth_error err k = Some e /\
    nth_error r i = Some v /\ residual_is (gaus_value A mu s x + c) d e v.
Proof.
  intros G P H. unfold gaus_residual_mask in H.
  destruct (take (gaus_profile q (map Fin xx)) wh) as [gs|] eqn:Eg; [|discriminate]. cbn [bind] in H.
  destruct (take (map Fin data) wh) as [ds|] eqn:Ed; [|discriminate]. cbn [bind] in H.
  destruct (take (map Fin err) wh) as [es|] eqn:Ee; [|discriminate]. cbn [bind] in H. inversion H; subst r; clear H.
  destruct (take_nth _ _ _ Eg) as [Lg Ng]. destruct (take_nth _ _ _ Ed) as [Ld Nd]. destruct (take_nth _ _ _ Ee) as [Le Ne].
  split. { unfold zero_bad, resid3. rewrite !map_length, !combine_length. lia. }
  intros i k Hk. destruct (Ng _ _ Hk) as (g & G1 & G2). destruct (Nd _ _ Hk) as (d & D1 & D2). destruct (Ne _ _ Hk) as (e & E1 & E2).
  rewrite nth_error_map in D1, E1. destruct (nth_error data k) as [d'|] eqn:Dk; [|discriminate]. destruct (nth_error err k) as [e'|] eqn:Ek; [|discriminate].
  cbn [option_map] in D1, E1. injection D1 as <-. injection E1 as <-.
  assert (Xk : exists x, nth_error xx k = Some x).
  { destruct (nth_error xx k) as [x|] eqn:Xk; [eauto|]. unfold gaus_profile in G1. rewrite nth_error_map, nth_error_map, Xk in G1. discriminate. }
  destruct Xk as (x & Xk). assert (Q := profile_nth q A mu s c (map Fin xx) k x G P). rewrite nth_error_map, Xk in Q. specialize (Q eq_refl).
  rewrite Q in G1. injection G1 as <-.
  exists x, d', e'. eexists. split; [exact Xk|]. split; [reflexivity|]. split; [reflexivity|].
  split; [apply nth_zero_bad, nth_resid3; [exact G2|exact D2|exact E2]|]. apply one_residual.
Qed.

Lemma linear_residual_entry a b xx data err mask i x d e m : nth_error xx i = Some (Fin x) -> nth_error data i = Some (Fin d) -> nth_error err i = Some (Fin e) -> nth_error mask i = Some m ->
  exists v, nth_error (weighted_linear_residual (Fin a) (Fin b) xx data err mask) i = Some v /\
    (m = Fin 0 -> v = Fin 0) /\ (m <> Fin 0 -> residual_is (a * x + b) d e v).
Proof.
  intros X D E M. unfold weighted_linear_residual.
  assert (R : nth_error (resid3 (line_at (Fin a) (Fin b) xx) data err) i = Some (fdiv (fsub (Fin (a * x + b)) (Fin d)) (Fin e))).
  { apply nth_resid3; [|exact D|exact E]. unfold line_at. now rewrite nth_error_map, X. }
  eexists. split. { apply nth_zero_bad. rewrite nth_error_map.
    assert (C : nth_error (combine (resid3 (line_at (Fin a) (Fin b) xx) data err) mask) i = Some (fdiv (fsub (Fin (a * x + b)) (Fin d)) (Fin e), m)).
    { revert R M. generalize (resid3 (line_at (Fin a) (Fin b) xx) data err). clear. intros l. revert i mask. induction l as [|u l IH]; intros [|i] [|w mask] R M; try discriminate; cbn in *; [congruence|now apply IH]. }
    rewrite C. reflexivity. }
  cbn [fst snd]. split.
  - intros ->. unfold feqb. rewrite Reqb_refl. reflexivity.
  - intros Nm. destruct (feqb m (Fin 0)) eqn:Em; [exfalso; apply Nm; unfold feqb in Em; destruct m as [m| | |]; try discriminate; apply Reqb_true in Em; now subst|]. apply one_residual.
Qed.

Lemma triple_residual_entry A s mu ml mr c xx data err i x d e : 0 < s ->
  nth_error xx i = Some (Fin x) -> nth_error data i = Some (Fin d) -> nth_error err i = Some (Fin e) ->
  exists v, nth_error (vert_triple_gaus_residual (Fin A) (Fin s) (Fin mu) (Fin ml) (Fin mr) (Fin c) xx data err) i = Some v /\
    residual_is (gaus_value A mu s x - gaus_value A ml s x - gaus_value A mr s x + c) d e v.
Proof.
  intros P X D E. unfold vert_triple_gaus_residual. eexists. split.
  { apply nth_zero_bad, nth_resid3; [|exact D|exact E]. unfold vert_triple_gaus_profile. rewrite nth_error_map, X. cbn [option_map fneg].
    rewrite !gaus_simple_Fin by exact P. cbn [fadd]. reflexivity. }
  replace (gaus_value A mu s x - gaus_value A ml s x - gaus_value A mr s x + c) with (gaus_value A mu s x + gaus_value (- A) ml s x + gaus_value (- A) mr s x + c) by (unfold gaus_value; ring).
  apply one_residual.
Qed.

(** At width 0 every residual is 0. *)
Lemma residual_width_zero q xx data err wh r : p_val (gp_sigma q) = Fin 0 -> gaus_residual_mask q xx data err wh = Ok r -> Forall (eq (Fin 0)) r.
Proof.
  intros S H. unfold gaus_residual_mask in H.
  destruct (take (gaus_profile q xx) wh) as [gs|] eqn:Eg; [|discriminate]. cbn [bind] in H.
  destruct (take data wh) as [ds|]; [|discriminate]. cbn [bind] in H. destruct (take err wh) as [es|]; [|discriminate]. cbn [bind] in H. inversion H; subst r; clear H.
  assert (N : Forall (eq NaN) gs).
  { apply Forall_forall. intros v Hv. apply In_nth_error in Hv. destruct Hv as (i & Hi). destruct (take_nth _ _ _ Eg) as [Lg Ng].
    destruct (nth_error wh i) as [k|] eqn:Hk; [|apply nth_error_None in Hk; assert (i < length gs)%nat by (apply nth_error_Some; congruence); lia].
    destruct (Ng _ _ Hk) as (a & Ha & Hb). assert (a = v) by congruence. subst a. unfold gaus_profile in Ha. rewrite nth_error_map in Ha.
    destruct (nth_error xx k); [|discriminate]. cbn [option_map] in Ha. rewrite S, gaus_simple_zero in Ha. destruct (gp_C q); injection Ha as <-; reflexivity. }
  clear Eg. unfold zero_bad, resid3. apply Forall_forall. intros v Hv. apply in_map_iff in Hv. destruct Hv as (u & <- & Hu). apply in_map_iff in Hu. destruct Hu as ((g & d & e) & <- & Hu).
  apply in_combine_l in Hu. rewrite Forall_forall in N. rewrite <- (N _ Hu). reflexivity.
Qed.

Lemma lm_par_inv v lo hi p : lm_par v lo hi = Ok p -> p_lo p = lo /\ p_hi p = hi /\ p_val p = (let v1 := if fgtb v hi then hi else v in if fltb v1 lo then lo else v1).
Proof. unfold lm_par. destruct (lm_bounds lo hi); [|discriminate]. cbn [bind]. intros H. inversion H. auto. Qed.

Lemma width_zero_allowed mu0 a b amp n smax p : y_start (Fin mu0) (Fin a) (Fin b) amp n smax = Ok p -> a <= b -> amp <> NaN -> (smax = PInf \/ exists r, smax = Fin r /\ 0 <= r) ->
  exists q, within_gprm p q /\ p_val (gp_sigma q) = Fin 0 /\ forall xx data err wh r, gaus_residual_mask q xx data err wh = Ok r -> Forall (eq (Fin 0)) r.
Proof.
  intros H Hab Ha Hs. unfold y_start in H. destruct (lm_par (Fin mu0) _ _) as [m|] eqn:Em; [|discriminate]. cbn [bind] in H.
  destruct (lm_par (fdiv _ _) _ _) as [sg|] eqn:Es; [|discriminate]. cbn [bind] in H. inversion H; subst p; clear H.
  apply lm_par_inv in Em, Es. destruct Em as (M1 & M2 & M3). destruct Es as (S1 & S2 & S3).
  exists (mkG m (unbounded amp) (mkPar (Fin 0) (p_lo sg) (p_hi sg)) None). split; [|split; [reflexivity|intros xx data err wh r; now apply residual_width_zero]].
  split; [|split]; cbn [gp_mu gp_A gp_sigma].
  - split; [reflexivity|]. split; [reflexivity|]. rewrite M1, M2, M3. cbv zeta. unfold fgtb, fltb.
    destruct (Rltb b mu0) eqn:E1; [apply Rltb_true in E1|apply Rltb_false in E1].
    + destruct (Rltb b a) eqn:E2; [apply Rltb_true in E2; lra|]. cbn [fleb]. split; apply Rleb_true; lra.
    + destruct (Rltb mu0 a) eqn:E2; [apply Rltb_true in E2|apply Rltb_false in E2]; cbn [fleb]; split; apply Rleb_true; lra.
  - split; [reflexivity|]. split; [reflexivity|]. cbn [unbounded p_lo p_hi p_val]. destruct amp; try congruence; split; reflexivity.
  - split; [reflexivity|]. split; [reflexivity|]. rewrite S1, S2. cbn [p_val]. split; [cbn [fleb]; apply Rleb_true; lra|].
    destruct Hs as [->|(r & -> & Hr)]; [reflexivity|]. cbn [fleb]. apply Rleb_true. exact Hr.
Qed.
