(* Proofs: how the normalisation of the fit weights flattens the likelihood. *)
From Coq Require Import Reals Lra Lia List Bool Arith ZArith FunctionalExtensionality.
From Verif Require Import PyFloat PyBase Arr PyNum MParams MKernels MMask MAper2D MMock SParams SKernels SMask SAper2D SMirror SBright STruth SFinite SNoise PKernels PData PMask2 PAper2D PAper2DHist PAper2DTop PBright PBright3 PTruth PTruth2 PFinite4 PNoise PNoise2.
Import ListNotations.
Local Open Scope R_scope.

Lemma fmul_1 x : fmul x (Fin 1) = x.
Proof.
  rewrite fmul_comm. destruct x; rewrite ?(s_PInf 1 Rlt_0_1), ?(s_NInf 1 Rlt_0_1); try reflexivity. cbn. f_equal. ring.
Qed.
Lemma data_ext n p F S ok Wt w cs m : weights_are n p Wt w -> rows m = n -> cols m = p ->
  let d := fitted n p F S ok Wt cs in let d' := findata n p F S (fun i _ => w i) ok cs in
  model_llike d m = model_llike d' m /\ model_chisq d m = model_chisq d' m /\ model_chisq_no_weight d m = model_chisq (findata n p F S (fun _ _ => 1) ok cs) m.
Proof.
  intros HW R C d d'. unfold model_llike, model_chisq, model_chisq_no_weight, sum2. cbn [rows cols at2 d d' fitted findata flux ferr smask fwt fin2]. rewrite R, C. split; [f_equal|split];
  (apply fsumn_ext; intros i Hi; apply fsumn_ext; intros j Hj); rewrite ?HW by assumption; try reflexivity.
  now rewrite fmul_1.
Qed.
Lemma fitted_llike n p F S ok Wt w cs m M : weights_are n p Wt w -> image_of n p m M -> (forall i j, (i < n)%nat -> (j < p)%nat -> S i j <> 0) ->
  model_llike (fitted n p F S ok Wt cs) m = Fin (- (chi2 n p F M S (fun i _ => w i) ok + ll_const n p S ok) / 2).
Proof.
  intros HW (R & C & V) HS. destruct (data_ext n p F S ok Wt w cs m HW R C) as (E & _). cbv zeta in E. rewrite E.
  destruct (llike_ext (findata n p F S (fun i _ => w i) ok cs) m (fin2 n p M)) as (E1 & _); [exact R|exact C| |].
  - intros i j Hi Hj. cbn [fin2 at2]. apply V; lia.
  - rewrite E1. now apply llike_value.
Qed.
Lemma fitted_image n p F S ok Wt w cs m x : weights_are n p Wt w -> (forall i j, (i < n)%nat -> (j < p)%nat -> S i j <> 0) -> rows m = n -> cols m = p ->
  model_llike (fitted n p F S ok Wt cs) m = Fin x -> image_of n p m (val2 m).
Proof.
  intros HW HS R C H. split; [exact R|]. split; [exact C|]. destruct (data_ext n p F S ok Wt w cs m HW R C) as (E & _). cbv zeta in E. rewrite E in H. clear E.
  intros i j Hi Hj. unfold model_llike in H.
  match type of H with fmul _ (sum2 ?a) = _ => assert (G : exists r, sum2 a = Fin r) end.
  { destruct (sum2 _) as [r| | |]; cbn [fmul] in H; [eauto| | |discriminate]; unfold inf_scale in H; destruct (Reqb _ 0) in H; try discriminate; destruct (Bool.eqb _ _) in H; discriminate. }
  destruct G as (r & G). unfold sum2 in G. cbn [rows cols at2] in G. rewrite R, C in G. destruct (sumn_fin _ _ _ G i Hi) as (b & G2).
  destruct (sumn_fin _ _ _ G2 j Hj) as (y & G3). cbn [findata flux ferr smask fwt fin2 at2] in G3. rewrite log_const in G3 by now apply HS.
  apply term_fin in G3 as (z & G3). unfold val2. now rewrite G3.
Qed.

(* the Gaussian likelihood *)
Lemma gauss_value n p F M (S : nat -> nat -> R) ok : (forall i j, (i < n)%nat -> (j < p)%nat -> 0 < S i j) ->
  gauss_loglike n p F M S ok = - / 2 * chi2 n p F M S (fun _ _ => 1) ok - rsum2 n p (fun i j => if ok i j then ln (S i j * sqrt (2 * PI)) else 0).
Proof.
  intros HS. unfold gauss_loglike, chi2, rsum2. rewrite <- rsumn_scal.
  assert (Q : forall k f g, rsumn k f - rsumn k g = rsumn k (fun i => f i - g i)).
  { intros k f g. replace (rsumn k f - rsumn k g) with (rsumn k f + -1 * rsumn k g) by ring. rewrite <- rsumn_scal, <- rsumn_plus. apply rsumn_ext. intros. ring. }
  rewrite Q. apply rsumn_ext. intros i Hi. rewrite <- rsumn_scal, Q. apply rsumn_ext. intros j Hj. destruct (ok i j); [|ring].
  specialize (HS i j Hi Hj). assert (0 < sqrt (2 * PI)) by (apply sqrt_lt_R0; pose proof PI_RGT_0; lra). assert (0 < S i j * sqrt (2 * PI)) by now apply Rmult_lt_0_compat.
  unfold Rdiv at 1. rewrite ln_mult by (try apply exp_pos; now apply Rinv_0_lt_compat). rewrite ln_exp, ln_Rinv by assumption. field. lra.
Qed.
Lemma chi2_weight n p F M S w ok : chi2 n p F M S (fun _ _ => w) ok = w * chi2 n p F M S (fun _ _ => 1) ok.
Proof. unfold chi2. rewrite <- rsum2_scal. apply rsum2_ext. intros i j. destruct (ok i j); ring. Qed.
Lemma chi2_errors n p F M S e ok : e <> 0 -> (forall i j, (i < n)%nat -> (j < p)%nat -> S i j <> 0) -> chi2 n p F M (fun i j => e * S i j) (fun _ _ => 1) ok = / (e * e) * chi2 n p F M S (fun _ _ => 1) ok.
Proof.
  intros He HS. unfold chi2, rsum2. rewrite <- rsumn_scal. apply rsumn_ext. intros i Hi. rewrite <- rsumn_scal. apply rsumn_ext. intros j Hj. specialize (HS i j Hi Hj). destruct (ok i j); [field; auto|ring].
Qed.
Lemma none_weights flux err ms low f3 prof Wt : (1 <= rows flux)%nat -> fit_weights NoWeighting flux err ms low f3 = Ok (prof, Wt) ->
  weights_are (rows flux) (cols flux) Wt (fun _ => / INR (rows flux)).
Proof.
  intros Hn E. destruct (weights_none flux err ms low f3 Hn) as (prof' & W' & E' & (ps & P1 & P2 & _ & _ & _ & _ & _ & V) & N). rewrite E in E'. injection E' as <- <-.
  intros i j Hi Hj. rewrite V by exact Hi. specialize (N i Hi). rewrite P1 in N. change NaN with NaN in N.
  rewrite (nth_indep _ NaN (Fin 0)) in N by (rewrite map_length; lia). rewrite map_nth in N. rewrite N. f_equal. field. apply not_0_INR. lia.
Qed.

Lemma sharp_images n p F (S : nat -> nat -> R) ok cs flux err ms low f3 prof Wt m1 m2 M1 M2 : (1 <= n)%nat -> rows flux = n -> cols flux = p ->
  (forall i j, (i < n)%nat -> (j < p)%nat -> 0 < S i j) -> fit_weights NoWeighting flux err ms low f3 = Ok (prof, Wt) ->
  image_of n p m1 M1 -> image_of n p m2 M2 ->
  let d := fitted n p F S ok Wt cs in
  exists x1 x2, model_llike d m1 = Fin x1 /\ model_llike d m2 = Fin x2 /\
    x2 - x1 = (gauss_loglike n p F M2 S ok - gauss_loglike n p F M1 S ok) / INR n /\
    x2 - x1 = gauss_loglike n p F M2 (fun i j => sqrt (INR n) * S i j) ok - gauss_loglike n p F M1 (fun i j => sqrt (INR n) * S i j) ok.
Proof.
  intros Hn Rf Cf HS E I1 I2 d. pose proof (none_weights flux err ms low f3 prof Wt ltac:(lia) E) as HW. rewrite Rf, Cf in HW.
  assert (HN : forall i j, (i < n)%nat -> (j < p)%nat -> S i j <> 0) by (intros i j Hi Hj; specialize (HS i j Hi Hj); lra).
  assert (PN : 0 < INR n) by (apply lt_0_INR; lia). assert (SN : 0 < sqrt (INR n)) by now apply sqrt_lt_R0.
  unfold d. rewrite (fitted_llike n p F S ok Wt _ cs m1 M1 HW I1 HN), (fitted_llike n p F S ok Wt _ cs m2 M2 HW I2 HN). do 2 eexists. split; [reflexivity|]. split; [reflexivity|].
  change (fun (i _ : nat) => (fun _ : nat => / INR n) i) with (fun (_ _ : nat) => / INR n). rewrite !(chi2_weight n p F _ S (/ INR n)).
  split.
  - rewrite !gauss_value by exact HS. field. lra.
  - rewrite !gauss_value by (intros i j Hi Hj; apply Rmult_lt_0_compat; auto). rewrite !chi2_errors by (auto; lra). rewrite sqrt_sqrt by lra. field. lra.
Qed.

Lemma sharp_fit c n p F (S : nat -> nat -> R) ok cs flux err ms low f3 prof Wt k0 k k' tf1 tf2 k1 k2 x1 x2 :
  g_data (c_gal c) = fitted n p F S ok Wt cs -> n = img_rows c -> p = length (g_wave (c_gal c)) -> (1 <= n)%nat -> rows flux = n -> cols flux = p ->
  (forall i j, (i < n)%nat -> (j < p)%nat -> 0 < S i j) -> fit_weights NoWeighting flux err ms low f3 = Ok (prof, Wt) ->
  offsets_fixed k0 -> fresh k0 -> history c k0 k -> history c k0 k' ->
  km_llike c k tf1 = (k1, Ok (Fin x1)) -> km_llike c k' tf2 = (k2, Ok (Fin x2)) ->
  exists m1 m2, k_model k1 = Some m1 /\ k_model k2 = Some m2 /\ image_of n p m1 (val2 m1) /\ image_of n p m2 (val2 m2) /\
    x2 - x1 = (gauss_loglike n p F (val2 m2) S ok - gauss_loglike n p F (val2 m1) S ok) / INR n.
Proof.
  intros D En Ep Hn Rf Cf HS E O Fr H H' E1 E2. pose proof (none_weights flux err ms low f3 prof Wt ltac:(lia) E) as HW. rewrite Rf, Cf in HW.
  assert (HN : forall i j, (i < n)%nat -> (j < p)%nat -> S i j <> 0) by (intros i j Hi Hj; specialize (HS i j Hi Hj); lra).
  assert (Q : forall q t q' x, history c k0 q -> km_llike c q t = (q', Ok (Fin x)) -> exists m, k_model q' = Some m /\ model_llike (fitted n p F S ok Wt cs) m = Fin x /\ image_of n p m (val2 m)).
  { intros q t q' x Hq L. destruct (llike_shape c k0 q t q' _ O Fr Hq L) as (m & M & R & C). apply (llike_fresh c k0 q t O Fr Hq) in L as (m' & _ & M' & V).
    rewrite M in M'. injection M' as <-. rewrite D in V. exists m. split; [exact M|]. split; [now symmetry|]. apply (fitted_image n p F S ok Wt _ cs m x HW HN); [lia|lia|now symmetry]. }
  destruct (Q _ _ _ _ H E1) as (m1 & M1 & L1 & I1). destruct (Q _ _ _ _ H' E2) as (m2 & M2 & L2 & I2). exists m1, m2. split; [exact M1|]. split; [exact M2|]. split; [exact I1|]. split; [exact I2|].
  destruct (sharp_images n p F S ok cs flux err ms low f3 prof Wt m1 m2 _ _ Hn Rf Cf HS E I1 I2) as (y1 & y2 & A & B & G & _). rewrite L1 in A. rewrite L2 in B. injection A as <-. injection B as <-. exact G.
Qed.

(* any weighting *)
Lemma rsum_pos ps : (forall x, In x ps -> 0 <= x) -> 0 <= rsum ps.
Proof.
  induction ps as [|b ps IH]; intros G; [cbn; lra|]. rewrite rsum_cons. specialize (IH (fun x Hx => G x (or_intror Hx))). specialize (G b (or_introl eq_refl)). lra.
Qed.
Lemma nth_le_sum ps : (forall x, In x ps -> 0 <= x) -> forall i, nth i ps 0 <= rsum ps /\ 0 <= nth i ps 0.
Proof.
  induction ps as [|a ps IH]; intros H i; [destruct i; cbn; lra|]. assert (0 <= a) by (apply H; now left). pose proof (rsum_pos ps (fun x Hx => H x (or_intror Hx))). rewrite rsum_cons.
  destruct i as [|i]; cbn [nth]; [lra|]. destruct (IH (fun x Hx => H x (or_intror Hx)) i). lra.
Qed.
Lemma rsumn_le n f g : (forall i, (i < n)%nat -> f i <= g i) -> rsumn n f <= rsumn n g.
Proof. induction n; intros H; cbn [rsumn]; [lra|]. specialize (IHn ltac:(intros; apply H; lia)). pose proof (H n ltac:(lia)). lra. Qed.
Lemma rsumn_eq n f g : (forall i, (i < n)%nat -> f i <= g i) -> rsumn n f = rsumn n g -> forall i, (i < n)%nat -> f i = g i.
Proof.
  induction n; intros H E i Hi; [lia|]. cbn [rsumn] in E. assert (A : rsumn n f <= rsumn n g) by (apply rsumn_le; intros; apply H; lia). pose proof (H n ltac:(lia)).
  destruct (Nat.eq_dec i n) as [->|N]; [lra|]. apply IHn; [intros; apply H; lia|lra|lia].
Qed.
Lemma sharp_any n p F (S : nat -> nat -> R) ok cs low prof Wt m M : (forall i j, (i < n)%nat -> (j < p)%nat -> S i j <> 0) -> weights_good n p low prof Wt -> image_of n p m M ->
  let d := fitted n p F S ok Wt cs in
  exists x y, model_chisq d m = Fin x /\ model_chisq_no_weight d m = Fin y /\ 0 <= x <= y /\
    (x = y -> forall i j, (i < n)%nat -> (j < p)%nat -> ok i j = true -> M i j = F i j \/ nth i prof NaN = Fin 1).
Proof.
  intros HS (ps & P1 & P2 & P3 & P4 & _ & _ & _ & V) (R & C & I) d.
  assert (HW : weights_are n p Wt (fun i => nth i ps 0)) by (intros i j Hi Hj; now apply V).
  destruct (data_ext n p F S ok Wt _ cs m HW R C) as (_ & E1 & E2). cbv zeta in E1, E2. fold d in E1, E2. rewrite E1, E2.
  assert (X : forall W, model_chisq (findata n p F S W ok cs) m = Fin (chi2 n p F M S W ok)).
  { intros W. destruct (llike_ext (findata n p F S W ok cs) m (fin2 n p M)) as (_ & Q); [exact R|exact C|intros i j Hi Hj; cbn [fin2 at2]; apply I; lia|]. rewrite Q. now apply chisq_value. }
  rewrite !X. do 2 eexists. split; [reflexivity|]. split; [reflexivity|].
  assert (B : forall i, 0 <= nth i ps 0 <= 1). { intros i. destruct (nth_le_sum ps P3 i) as (A & B). destruct P4 as [P4|P4]; [lra|]. destruct (Nat.lt_ge_cases i (length ps)) as [L|L]; [rewrite (P4 _ (nth_In ps 0 L)); lra|rewrite nth_overflow by lia; lra]. }
  assert (T : forall i j, (if ok i j then nth i ps 0 * ((F i j - M i j) / S i j) ^ 2 else 0) <= (if ok i j then 1 * ((F i j - M i j) / S i j) ^ 2 else 0)).
  { intros i j. destruct (ok i j); [|lra]. pose proof (pow2_ge_0 ((F i j - M i j) / S i j)). specialize (B i). nra. }
  split; [split|].
  - apply chi2_nonneg; auto. intros i j Hi Hj _. apply B.
  - unfold chi2, rsum2. apply rsumn_le. intros i Hi. apply rsumn_le. intros j Hj. apply T.
  - intros Q i j Hi Hj Ho. unfold chi2, rsum2 in Q.
    pose proof (rsumn_eq n _ _ (fun i Hi => rsumn_le p _ _ (fun j Hj => T i j)) Q i Hi) as Q2. cbv beta in Q2.
    pose proof (rsumn_eq p _ _ (fun j Hj => T i j) Q2 j Hj) as Q3. cbv beta in Q3. rewrite Ho in Q3.
    destruct (Req_dec (nth i ps 0) 1) as [W1|W1].
    + right. rewrite P1. rewrite (nth_indep _ NaN (Fin 0)) by (rewrite map_length; lia). rewrite map_nth. now f_equal.
    + left. assert (Z : ((F i j - M i j) / S i j) ^ 2 = 0) by nra. specialize (HS i j Hi Hj).
      assert ((F i j - M i j) / S i j = 0) by nra. assert (F i j - M i j = 0). { apply (f_equal (fun z => z * S i j)) in H. unfold Rdiv in H. rewrite Rmult_assoc, Rinv_l in H by exact HS. lra. } lra.
Qed.
