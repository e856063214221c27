(* Proofs: where PSF blurring puts a point source. *)
From Coq Require Import Reals List Bool Arith ZArith Lra Lia.
From Verif Require Import PyFloat PyBase Arr PyNum MKernels SKernels PKernels PKernels2 MAper2D SAper2D
  PAper2DGrid PAper2DTop SPsf.
Import ListNotations.
Local Open Scope R_scope.

(** A symmetric convex filter of an interval of integers keeps a centred sub-interval. *)
Lemma filter_all {A} (p : A -> bool) l : (forall x, In x l -> p x = true) -> filter p l = l.
Proof.
  induction l as [|a l IH]; intros H; [reflexivity|]. cbn [filter].
  rewrite (H a) by now left. f_equal. apply IH. intros; apply H; now right.
Qed.

Lemma seq_ends a m : seq a (S (S m)) = a :: seq (S a) m ++ [a + S m]%nat.
Proof. cbn [seq]. f_equal. change (S a :: seq (S (S a)) m) with (seq (S a) (S m)). rewrite seq_S. do 2 f_equal. lia. Qed.

Lemma filter_centred (p : nat -> bool) (n : nat) (q : R -> bool) :
  (forall i, p i = q (Rabs (INR i - (INR n - 1) / 2))) ->
  (forall u v, u <= v -> q v = true -> q u = true) -> q 0 = true ->
  forall m a, (2 * a + m = n)%nat ->
  exists b, (2 * b <= m)%nat /\ filter p (seq a m) = seq (a + b) (m - 2 * b).
Proof.
  intros Hp Hq Hq0. induction m as [m IH] using lt_wf_ind. intros a E.
  destruct m as [|[|m]].
  - exists 0%nat. split; [lia|]. reflexivity.
  - assert (Ea : p a = true).
    { rewrite Hp. assert (n = 2 * a + 1)%nat by lia. subst n.
      assert (INR (2 * a + 1) - 1 = 2 * INR a) as E2 by (rewrite plus_INR, mult_INR; simpl (INR 2); simpl (INR 1); lra).
      rewrite E2. replace (INR a - 2 * INR a / 2) with 0 by field. now rewrite Rabs_R0. }
    exists 0%nat. split; [lia|]. cbn [seq filter]. rewrite Ea, Nat.add_0_r. reflexivity.
  - assert (Hn : INR n - 1 = 2 * INR a + INR m + 1).
    { rewrite <- E, plus_INR, mult_INR, !S_INR. cbn [INR]. ring. }
    destruct (p a) eqn:Ea.
    + exists 0%nat. split; [lia|]. rewrite Nat.add_0_r, Nat.sub_0_r. apply filter_all.
      intros i Hi. apply in_seq in Hi. rewrite Hp. rewrite Hp in Ea. revert Ea. apply Hq.
      assert (INR a <= INR i) by (apply le_INR; lia).
      assert (INR i <= INR a + INR m + 1).
      { assert (INR i <= INR (a + S m)) by (apply le_INR; lia). rewrite plus_INR, S_INR in H0. lra. }
      rewrite Hn. rewrite (Rabs_left1 (INR a - _)) by (pose proof (pos_INR m); lra).
      apply Rabs_le. lra.
    + assert (El : p (a + S m)%nat = false).
      { rewrite Hp. rewrite Hp in Ea. rewrite <- Ea. f_equal. rewrite Hn, plus_INR, S_INR.
        rewrite <- Rabs_Ropp. f_equal. field. }
      destruct (IH m ltac:(lia) (S a) ltac:(lia)) as (b & Hb & F).
      exists (S b). split; [lia|].
      rewrite seq_ends. cbn [filter]. rewrite Ea, filter_app, F. cbn [filter]. rewrite El, app_nil_r.
      f_equal; lia.
Qed.

Lemma filter_map_comm {A B} (f : A -> B) (p : B -> bool) l :
  filter p (map f l) = map f (filter (fun x => p (f x)) l).
Proof. induction l as [|a l IH]; [reflexivity|]. cbn [map filter]. rewrite IH. destruct (p (f a)); reflexivity. Qed.

(** The stamp samples of an evenly spaced axis: centred on the axis' mean, same step, and an
    even number of them exactly when the axis has an even number of samples. *)
Lemma near_sym l n c s fwhm : length l = n -> (1 <= n)%nat -> 0 <= fwhm ->
  (forall i, (i < n)%nat -> lnth l i = Fin (c + (INR i - (INR n - 1) / 2) * s)) ->
  exists M, length (near fwhm l) = M /\ (M <= n)%nat /\ Nat.even M = Nat.even n /\
    forall k, (k < M)%nat -> lnth (near fwhm l) k = Fin (c + (INR k - (INR M - 1) / 2) * s).
Proof.
  intros Hl Hn HF H.
  assert (Hav : average l = Fin c).
  { rewrite (average_ap l n (c - (INR n - 1) / 2 * s) s Hl Hn).
    - f_equal. ring.
    - intros i Hi. rewrite H by assumption. f_equal. ring. }
  unfold near. rewrite Hav. rewrite (list_tab l), Hl, filter_map_comm.
  set (P := fun x => fleb (fabs (fsub (lnth l x) (Fin c))) (Fin fwhm)).
  set (q := fun u => Rleb (u * Rabs s) fwhm).
  set (P' := fun i => q (Rabs (INR i - (INR n - 1) / 2))).
  assert (EP : filter P (seq 0 n) = filter P' (seq 0 n)).
  { apply filter_ext_in. intros i Hi. apply in_seq in Hi. unfold P, P', q.
    rewrite H by lia. unfold fsub. cbn [fadd fneg fabs fleb]. f_equal.
    rewrite <- Rabs_mult. f_equal. ring. }
  destruct (filter_centred P' n q) with (m := n) (a := 0%nat) as (b & Hb & F).
  - reflexivity.
  - intros u v L E. unfold q in *. apply Rleb_true. apply Rleb_true in E.
    pose proof (Rabs_pos s). nra.
  - unfold q. apply Rleb_true. lra.
  - lia.
  - rewrite EP, F. exists (n - 2 * b)%nat. rewrite map_length, seq_length.
    split; [reflexivity|]. split; [lia|]. split.
    { replace n with ((n - 2 * b) + 2 * b)%nat at 2 by lia.
      rewrite Nat.even_add, Nat.even_mul. cbn [Nat.even orb]. destruct (Nat.even (n - 2 * b)); reflexivity. }
    intros k Hk. unfold lnth.
    rewrite (nth_indep _ NaN (lnth l 0)) by (rewrite map_length, seq_length; assumption).
    rewrite (map_nth (fun i => lnth l i)). rewrite seq_nth by assumption. cbn [plus].
    rewrite H by lia. f_equal. rewrite plus_INR, minus_INR, mult_INR by lia. simpl (INR 2). field.
Qed.

Lemma rsum3_single n m r k1 k2 k3 (F : nat -> nat -> nat -> R) :
  (k1 < n)%nat -> (k2 < m)%nat -> (k3 < r)%nat ->
  rsum3 n m r (fun a b c => (if Nat.eqb a k1 && Nat.eqb b k2 && Nat.eqb c k3 then 1 else 0) * F a b c)
  = F k1 k2 k3.
Proof.
  intros H1 H2 H3. unfold rsum3.
  rewrite <- (rsumn_single n k1 (F k1 k2 k3)) by assumption. apply rsumn_ext. intros a Ha.
  destruct (Nat.eqb_spec a k1) as [->|Na]; cbn [andb].
  - rewrite <- (rsumn_single m k2 (F k1 k2 k3)) by assumption. apply rsumn_ext. intros b Hb.
    destruct (Nat.eqb_spec b k2) as [->|Nb]; cbn [andb].
    + rewrite <- (rsumn_single r k3 (F k1 k2 k3)) at 1 by assumption. apply rsumn_ext. intros c Hc.
      destruct (Nat.eqb_spec c k3) as [->|Nc]; ring.
    + apply rsumn_zero. intros; ring.
  - apply rsumn_zero. intros b _. apply rsumn_zero. intros; ring.
Qed.

Lemma same_idx_one w v : same_idx 1 w v = if Nat.eqb w v then Some 0%nat else None.
Proof.
  unfold same_idx. change ((1 - 1) / 2)%nat with 0%nat. rewrite Nat.add_0_r.
  destruct (Nat.leb_spec v w); cbn [andb].
  - destruct (Nat.ltb_spec (w - v) 1); destruct (Nat.eqb_spec w v); try lia; auto.
    f_equal; lia.
  - destruct (Nat.eqb_spec w v); auto; lia.
Qed.

Lemma half_idx M i p k : same_idx M i p = Some k ->
  INR k - (INR M - 1) / 2 = INR i - INR p - (if Nat.even M then 1 / 2 else 0).
Proof.
  unfold same_idx. destruct (Nat.leb_spec p (i + (M - 1) / 2)); cbn [andb]; [|discriminate].
  destruct (Nat.ltb_spec (i + (M - 1) / 2 - p) M); [|discriminate].
  intros E. assert (Ek : k = (i + (M - 1) / 2 - p)%nat) by congruence. subst k.
  rewrite minus_INR, plus_INR by assumption.
  assert (HM : (0 < M)%nat) by lia.
  assert (INR M - 1 = 2 * INR ((M - 1) / 2) + (if Nat.even M then 1 else 0)) as K.
  { destruct M as [|M]; [lia|]. rewrite S_INR. replace (S M - 1)%nat with M by lia.
    rewrite Nat.even_succ. pose proof (Nat.div2_odd M) as D. rewrite Nat.div2_div in D.
    rewrite D at 1. rewrite plus_INR, mult_INR. simpl (INR 2).
    destruct (Nat.odd M); simpl; ring. }
  rewrite K. destruct (Nat.even M); field.
Qed.

(** Blurring a point source with the stamp of an aperture model. *)
Lemma psf_point_source c th a0 m0 pr cube w0 p q f :
  setup_calcs c th = Ok a0 ->
  let g := s_grid (a_su a0) in
  m0_fit g = Fin m0 -> (2 <= nY g)%nat -> 0 < i_fwhm (c_ins c) ->
  (forall x y, i_prof (c_ins c) (Fin x) (Fin y) = Fin (pr x y) /\ 0 < pr x y) ->
  point cube w0 p q f -> 0 < f ->
  exists ker, a_stamp a0 = Stamp3 ker /\
    let My := dim1 ker in let Mx := dim2 ker in
    let sy := delt_y g * (1 - INR (o_nsub (c_opt c)) / (INR (nY g) - 1)) in
    Nat.even My = Nat.even (nY g) /\ Nat.even Mx = Nat.even (nX g) /\
    ((1 <= My)%nat -> (1 <= Mx)%nat ->
     exists out K, PSF_convolve cube (Fin (i_fwhm (c_ins c))) (a_stamp a0) = Ok (Some out) /\ 0 < K /\
      forall w i j, (w < dim0 cube)%nat -> (i < dim1 cube)%nat -> (j < dim2 cube)%nat ->
       let yoff := ((INR (g_rows (c_gal c)) - 1) / 2 - m0) * i_pix (c_ins c) in
       let X := (INR j - INR q - (if Nat.even (nX g) then 1/2 else 0)) * delt_x g - o_xc (c_opt c) in
       let Y := (INR i - INR p - (if Nat.even (nY g) then 1/2 else 0)) * sy + yoff in
       at3 out w i j =
         Fin (if Nat.eqb w w0 && (Nat.leb p (i + (My - 1) / 2) && Nat.ltb (i + (My - 1) / 2 - p) My)
                 && (Nat.leb q (j + (Mx - 1) / 2) && Nat.ltb (j + (Mx - 1) / 2 - q) Mx)
              then K * pr X Y else 0)).
Proof.
  intros Hs g Hm HN HF Hpr (Hw0 & Hp & Hq & Hc) Hf.
  unfold setup_calcs in Hs.
  destruct (setup_model_grid c th) as [[g' wv']|] eqn:Hg; [|discriminate]. cbn [bind] in Hs.
  injection Hs as Hs. assert (Eg : g = g') by (unfold g; rewrite <- Hs; reflexivity).
  assert (Est : a_stamp a0 = make_stamp (c_ins c) g') by (rewrite <- Hs; reflexivity).
  clear Hs. rewrite Eg in *. clear Eg. clearbody g. clear g. rename g' into g.
  destruct (setup_fields _ _ _ _ Hg) as (F1&F2&F3&F4&F5&F6&F7&F8&F9&F10&F11&F12&F13&_).
  destruct (x_grid_top _ _ _ _ Hg) as (Lx & Vx).
  destruct (y_grid_top _ _ _ _ _ Hg Hm HN) as (Ly & Vy & _).
  set (sy := delt_y g * (1 - INR (o_nsub (c_opt c)) / (INR (nY g) - 1))).
  set (yoff := ((INR (g_rows (c_gal c)) - 1) / 2 - m0) * i_pix (c_ins c)).
  assert (HnY : 2 <= INR (nY g)) by (apply (le_INR 2); lia).
  assert (Hns : 1 <= INR (o_nsub (c_opt c))) by (apply (le_INR 1); lia).
  assert (HnYe : INR (nY g) = INR (g_rows (c_gal c)) * INR (o_nsub (c_opt c)) + 2 * INR (padY g)).
  { rewrite F13, plus_INR, F4, !mult_INR. simpl (INR 2). ring. }
  assert (Hdy : delt_y g * INR (o_nsub (c_opt c)) = i_pix (c_ins c)) by (rewrite F7; field; lra).
  destruct (near_sym (y_arr g) (nY g) yoff sy (i_fwhm (c_ins c)) Ly ltac:(lia) ltac:(lra)) as (My & LMy & LeMy & Evy & VMy).
  { intros i Hi. rewrite Vy by assumption. f_equal. unfold yoff, sy, subpixel_y.
    rewrite <- Hdy. set (G := INR (g_rows (c_gal c))) in *. set (ns := INR (o_nsub (c_opt c))) in *.
    set (pd := INR (padY g)) in *. replace pd with ((INR (nY g) - G * ns) / 2) by lra. field. lra. }
  destruct (near_sym (x_arr g) (nX g) (- o_xc (c_opt c)) (delt_x g) (i_fwhm (c_ins c)) Lx ltac:(lia) ltac:(lra)) as (Mx & LMx & LeMx & Evx & VMx).
  { intros i Hi. rewrite Vx by assumption. f_equal. ring. }
  rewrite Est. unfold make_stamp. rewrite LMy, LMx.
  set (ker := mk3 1 My Mx _). exists ker. split; [reflexivity|].
  change (dim1 ker) with My. change (dim2 ker) with Mx. cbn zeta.
  split; [assumption|]. split; [assumption|].
  intros HMy HMx.
  assert (Vk : forall a b d, (b < My)%nat -> (d < Mx)%nat -> at3 ker a b d =
     Fin (pr (- o_xc (c_opt c) + (INR d - (INR Mx - 1) / 2) * delt_x g) (yoff + (INR b - (INR My - 1) / 2) * sy))).
  { intros a b d Hb Hd. unfold ker. cbn [at3]. rewrite VMy, VMx by assumption. apply Hpr. }
  assert (Fk : finite3 ker).
  { intros a b d _ Hb Hd. cbn [ker dim1 dim2] in Hb, Hd. rewrite Vk by assumption. reflexivity. }
  assert (Fc : finite3 cube) by (intros a b d _ _ _; rewrite Hc; reflexivity).
  (* value of the convolution *)
  assert (Vr : forall w i j, rconv3 cube ker w i j = f * ker3 ker w i j w0 p q).
  { intros w i j. unfold rconv3.
    rewrite (rsum3_ext _ _ _ _ (fun v b d => (if Nat.eqb v w0 && Nat.eqb b p && Nat.eqb d q then 1 else 0)
        * (f * ker3 ker w i j v b d))).
    - apply rsum3_single; assumption.
    - intros v b d _ _ _. unfold val3. rewrite Hc. cbn [val].
      destruct (Nat.eqb v w0 && Nat.eqb b p && Nat.eqb d q); ring. }
  assert (Kpos : forall w i j, 0 <= ker3 ker w i j w0 p q).
  { intros w i j. unfold ker3. destruct (same_idx (dim0 ker) w w0) eqn:A; [|lra].
    destruct (same_idx (dim1 ker) i p) eqn:B; [|lra]. destruct (same_idx (dim2 ker) j q) eqn:D; [|lra].
    apply same_idx_lt in B, D. cbn [ker dim1 dim2] in B, D. unfold val3. rewrite Vk by assumption.
    cbn [val]. apply Rlt_le, Hpr. }
  assert (Kdiag : 0 < ker3 ker w0 p q w0 p q).
  { unfold ker3. cbn [ker dim0 dim1 dim2]. rewrite !same_idx_diag by lia. unfold val3.
    rewrite Vk.
    - cbn [val]. apply Hpr.
    - assert ((My - 1) / 2 <= My - 1)%nat by (apply Nat.div_le_upper_bound; lia). lia.
    - assert ((Mx - 1) / 2 <= Mx - 1)%nat by (apply Nat.div_le_upper_bound; lia). lia. }
  assert (Tpos : 0 < total3 (conv3 cube ker)).
  { rewrite total3_conv by assumption. unfold rsum3. apply rsumn_pos.
    - intros a _. apply rsumn_nonneg. intros b _. apply rsumn_nonneg. intros d _. rewrite Vr.
      specialize (Kpos a b d). nra.
    - exists w0. split; [assumption|]. apply rsumn_pos.
      + intros b _. apply rsumn_nonneg. intros d _. rewrite Vr. specialize (Kpos w0 b d). nra.
      + exists p. split; [assumption|]. apply rsumn_pos.
        * intros d _. rewrite Vr. specialize (Kpos w0 p d). nra.
        * exists q. split; [assumption|]. rewrite Vr. nra. }
  assert (Tc : total3 cube = f).
  { unfold total3.
    rewrite (rsum3_ext _ _ _ _ (fun v b d => (if Nat.eqb v w0 && Nat.eqb b p && Nat.eqb d q then 1 else 0) * f)).
    - apply (rsum3_single _ _ _ _ _ _ (fun _ _ _ => f)); assumption.
    - intros v b d _ _ _. unfold val3. rewrite Hc. cbn [val].
      destruct (Nat.eqb v w0 && Nat.eqb b p && Nat.eqb d q); ring. }
  destruct (PSF_convolve_value cube ker (Fin (i_fwhm (c_ins c)))) as (out & Ho & _ & _ & _ & V); auto.
  { unfold fgtb, fltb. now apply Rltb_true. }
  { unfold size3. intros E. apply Nat.mul_eq_0 in E. destruct E as [E|E]; [apply Nat.mul_eq_0 in E|]; lia. }
  { unfold size3, ker. cbn [dim0 dim1 dim2]. intros E. apply Nat.mul_eq_0 in E. destruct E as [E|E]; [apply Nat.mul_eq_0 in E|]; lia. }
  { lra. }
  exists out, (f * (f / total3 (conv3 cube ker))). split; [exact Ho|]. split.
  { apply Rmult_lt_0_compat; [assumption|]. now apply Rdiv_lt_0_compat. }
  intros w i j Hw Hi Hj. fold sy. rewrite V. f_equal. rewrite Vr, Tc.
  unfold ker3. cbn [ker dim0 dim1 dim2].
  replace (same_idx 1 w w0) with (if Nat.eqb w w0 then Some 0%nat else None) by (symmetry; apply same_idx_one).
  destruct (Nat.eqb_spec w w0) as [->|Nw]; cbn [andb]; [|ring].
  destruct (same_idx My i p) as [kb|] eqn:Eb.
  - pose proof (half_idx _ _ _ _ Eb) as Hb. pose proof (same_idx_lt _ _ _ _ Eb) as Lb.
    unfold same_idx in Eb.
    destruct (Nat.leb p (i + (My - 1) / 2) && Nat.ltb (i + (My - 1) / 2 - p) My); [|discriminate]. cbn [andb].
    destruct (same_idx Mx j q) as [kd|] eqn:Ed.
    + pose proof (half_idx _ _ _ _ Ed) as Hd. pose proof (same_idx_lt _ _ _ _ Ed) as Ld.
      unfold same_idx in Ed.
      destruct (Nat.leb q (j + (Mx - 1) / 2) && Nat.ltb (j + (Mx - 1) / 2 - q) Mx); [|discriminate].
      unfold val3. rewrite Vk by assumption. cbn [val]. rewrite Hb, Hd, Evy, Evx.
      match goal with |- f * pr ?a ?b * _ = _ * pr ?a' ?b' =>
        replace a' with a by ring; replace b' with b by (fold yoff; ring) end. ring.
    + unfold same_idx in Ed.
      destruct (Nat.leb q (j + (Mx - 1) / 2) && Nat.ltb (j + (Mx - 1) / 2 - q) Mx); [discriminate|]. ring.
  - unfold same_idx in Eb.
    destruct (Nat.leb p (i + (My - 1) / 2) && Nat.ltb (i + (My - 1) / 2 - p) My); [discriminate|]. cbn [andb]. ring.
Qed.

(** Same row parity and object in the middle row, no slit-centre offset: the blurred source
    is the PSF profile around the source's own pixel. *)
Lemma psf_centred c th a0 pr cube w0 p q f ker :
  setup_calcs c th = Ok a0 ->
  let g := s_grid (a_su a0) in
  m0_fit g = Fin ((INR (g_rows (c_gal c)) - 1) / 2) -> o_xc (c_opt c) = 0 ->
  Nat.even (nY g) = false -> Nat.even (nX g) = false ->
  (2 <= nY g)%nat -> 0 < i_fwhm (c_ins c) ->
  (forall x y, i_prof (c_ins c) (Fin x) (Fin y) = Fin (pr x y) /\ 0 < pr x y) ->
  point cube w0 p q f -> 0 < f ->
  a_stamp a0 = Stamp3 ker -> (1 <= dim1 ker)%nat -> (1 <= dim2 ker)%nat ->
  exists out K, PSF_convolve cube (Fin (i_fwhm (c_ins c))) (a_stamp a0) = Ok (Some out) /\ 0 < K /\
    at3 out w0 p q = Fin (K * pr 0 0) /\
    forall i j, (i < dim1 cube)%nat -> (j < dim2 cube)%nat ->
      at3 out w0 i j = Fin 0 \/
      at3 out w0 i j = Fin (K * pr ((INR j - INR q) * delt_x g)
        ((INR i - INR p) * (delt_y g * (1 - INR (o_nsub (c_opt c)) / (INR (nY g) - 1))))).
Proof.
  intros Hs g Hm Hx Ey Ex HN HF Hpr Hpt Hf Hst H1 H2.
  destruct (psf_point_source _ _ _ _ _ _ _ _ _ _ Hs Hm HN HF Hpr Hpt Hf) as (ker' & Hst' & H).
  cbv zeta in H. rewrite Hst in Hst'. injection Hst' as <-.
  destruct H as (_ & _ & H). destruct (H H1 H2) as (out & K & Ho & HK & V).
  fold g in V. rewrite Ey, Ex, Hx in V.
  destruct Hpt as (Hw & Hp & Hq & _).
  exists out, K. split; [exact Ho|]. split; [exact HK|]. split.
  - rewrite V by assumption. rewrite Nat.eqb_refl. cbn [andb].
    assert (A : forall M a, (1 <= M)%nat -> (Nat.leb a (a + (M - 1) / 2) && Nat.ltb (a + (M - 1) / 2 - a) M) = true).
    { intros M a HM. assert ((M - 1) / 2 <= M - 1)%nat by (apply Nat.div_le_upper_bound; lia).
      apply andb_true_intro; split; [apply Nat.leb_le|apply Nat.ltb_lt]; lia. }
    rewrite !A by assumption. cbn [andb]. do 3 f_equal; ring.
  - intros i j Hi Hj. rewrite V by assumption. rewrite Nat.eqb_refl. cbn [andb].
    match goal with |- context [if ?b then _ else _] => destruct b end; [right|left; reflexivity].
    do 3 f_equal; ring.
Qed.

(** Object below the middle row by more than half a grid step: the blurred source is brighter
    in the previous grid row than at the source. *)
Lemma psf_displaced c th a0 m0 pr cube w0 p q f ker :
  setup_calcs c th = Ok a0 ->
  let g := s_grid (a_su a0) in
  let sy := delt_y g * (1 - INR (o_nsub (c_opt c)) / (INR (nY g) - 1)) in
  m0_fit g = Fin m0 -> 0 < sy ->
  sy < ((INR (g_rows (c_gal c)) - 1) / 2 - m0) * i_pix (c_ins c) ->
  (2 <= nY g)%nat -> 0 < i_fwhm (c_ins c) ->
  (forall x y, i_prof (c_ins c) (Fin x) (Fin y) = Fin (pr x y) /\ 0 < pr x y) ->
  (forall x y y', Rabs y < Rabs y' -> pr x y' < pr x y) ->
  point cube w0 p q f -> 0 < f -> (1 <= p)%nat ->
  a_stamp a0 = Stamp3 ker -> (3 <= dim1 ker)%nat -> (1 <= dim2 ker)%nat ->
  exists out a b, PSF_convolve cube (Fin (i_fwhm (c_ins c))) (a_stamp a0) = Ok (Some out) /\
    at3 out w0 p q = Fin a /\ at3 out w0 (p - 1) q = Fin b /\ a < b.
Proof.
  intros Hs g sy Hm Hsy Hoff HN HF Hpr Hdec Hpt Hf Hp1 Hst H1 H2.
  destruct (psf_point_source _ _ _ _ _ _ _ _ _ _ Hs Hm HN HF Hpr Hpt Hf) as (ker' & Hst' & H).
  cbv zeta in H. rewrite Hst in Hst'. injection Hst' as <-.
  destruct H as (_ & _ & H). destruct (H ltac:(lia) H2) as (out & K & Ho & HK & V).
  fold g in V. fold sy in V.
  destruct Hpt as (Hw & Hp & Hq & _).
  do 3 eexists. split; [exact Ho|]. rewrite !V by (assumption || lia). rewrite Nat.eqb_refl. cbn [andb].
  assert (A : forall M a, (1 <= M)%nat -> (Nat.leb a (a + (M - 1) / 2) && Nat.ltb (a + (M - 1) / 2 - a) M) = true).
  { intros M a HM. assert ((M - 1) / 2 <= M - 1)%nat by (apply Nat.div_le_upper_bound; lia).
    apply andb_true_intro; split; [apply Nat.leb_le|apply Nat.ltb_lt]; lia. }
  assert (B : (Nat.leb p (p - 1 + (dim1 ker - 1) / 2) && Nat.ltb (p - 1 + (dim1 ker - 1) / 2 - p) (dim1 ker)) = true).
  { assert ((dim1 ker - 1) / 2 <= dim1 ker - 1)%nat by (apply Nat.div_le_upper_bound; lia).
    assert (1 <= (dim1 ker - 1) / 2)%nat by (apply Nat.div_le_lower_bound; lia).
    apply andb_true_intro; split; [apply Nat.leb_le|apply Nat.ltb_lt]; lia. }
  rewrite !A by lia. rewrite B. cbn [andb].
  split; [reflexivity|]. split; [reflexivity|].
  apply Rmult_lt_compat_l; [exact HK|]. apply Hdec.
  rewrite minus_INR by lia. simpl (INR 1).
  set (off := ((INR (g_rows (c_gal c)) - 1) / 2 - m0) * i_pix (c_ins c)) in *.
  destruct (Nat.even (nY g)); rewrite (Rabs_right ((INR p - INR p - _) * sy + off)) by nra;
    apply Rabs_def1; nra.
Qed.

(** Even number of grid rows: even a centred object is displaced by half a grid step, so that
    the source's row and the next one come out equally bright. *)
Lemma psf_even_half c th a0 pr cube w0 p q f ker :
  setup_calcs c th = Ok a0 ->
  let g := s_grid (a_su a0) in
  m0_fit g = Fin ((INR (g_rows (c_gal c)) - 1) / 2) ->
  Nat.even (nY g) = true ->
  (2 <= nY g)%nat -> 0 < i_fwhm (c_ins c) ->
  (forall x y, i_prof (c_ins c) (Fin x) (Fin y) = Fin (pr x y) /\ 0 < pr x y) ->
  (forall x y, pr x (- y) = pr x y) ->
  point cube w0 p q f -> 0 < f -> (S p < dim1 cube)%nat ->
  a_stamp a0 = Stamp3 ker -> (2 <= dim1 ker)%nat -> (1 <= dim2 ker)%nat ->
  exists out a, PSF_convolve cube (Fin (i_fwhm (c_ins c))) (a_stamp a0) = Ok (Some out) /\
    0 < a /\ at3 out w0 p q = Fin a /\ at3 out w0 (S p) q = Fin a.
Proof.
  intros Hs g Hm Hev HN HF Hpr Hsym Hpt Hf Hp1 Hst H1 H2.
  destruct (psf_point_source _ _ _ _ _ _ _ _ _ _ Hs Hm HN HF Hpr Hpt Hf) as (ker' & Hst' & H).
  cbv zeta in H. rewrite Hst in Hst'. injection Hst' as <-.
  destruct H as (Evk & _ & H). destruct (H ltac:(lia) H2) as (out & K & Ho & HK & V).
  fold g in V, Evk. rewrite Hev in V, Evk.
  destruct Hpt as (Hw & Hp & Hq & _).
  do 2 eexists. split; [exact Ho|]. rewrite !V by (assumption || lia). rewrite Nat.eqb_refl. cbn [andb].
  assert (A : forall M a, (1 <= M)%nat -> (Nat.leb a (a + (M - 1) / 2) && Nat.ltb (a + (M - 1) / 2 - a) M) = true).
  { intros M a HM. assert ((M - 1) / 2 <= M - 1)%nat by (apply Nat.div_le_upper_bound; lia).
    apply andb_true_intro; split; [apply Nat.leb_le|apply Nat.ltb_lt]; lia. }
  assert (B : (Nat.leb p (S p + (dim1 ker - 1) / 2) && Nat.ltb (S p + (dim1 ker - 1) / 2 - p) (dim1 ker)) = true).
  { assert (S ((dim1 ker - 1) / 2) < dim1 ker)%nat.
    { apply Nat.even_spec in Evk. destruct Evk as [k Ek].
      replace (dim1 ker - 1)%nat with (1 + (k - 1) * 2)%nat by lia.
      rewrite Nat.div_add by lia. change (1 / 2)%nat with 0%nat. lia. }
    apply andb_true_intro; split; [apply Nat.leb_le|apply Nat.ltb_lt]; lia. }
  rewrite !A by lia. rewrite B. cbn [andb].
  split; [|split; [reflexivity|]].
  - apply Rmult_lt_0_compat; [exact HK|apply Hpr].
  - f_equal. f_equal. rewrite S_INR.
    set (sy := delt_y g * (1 - INR (o_nsub (c_opt c)) / (INR (nY g) - 1))).
    match goal with |- pr ?a ?b = pr ?a' ?b' => replace a' with a by ring; replace b' with (- b) by field end.
    symmetry; apply Hsym.
Qed.
