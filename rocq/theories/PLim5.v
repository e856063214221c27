From Coq Require Import Reals Lra List Bool Arith ZArith Lia.
From Verif Require MProf PProf.
From Verif Require Import PyFloat PyBase Arr PyNum MParams MKernels MAper2D MMock SParams SKernels SAper2D SAper1D SLine SLos SReach STruth SFinite SLim PParams PKernels PData PAper2D PAper2DHist PAper2DGrid PAper2DShape PAper2DTop PAper2DOk PLos PReach PReach2 PTruth PTruth2 PFinite PFinite2 PFinite3 PFinite4 PLim PLim2 PLim3 PLim4.
Import ListNotations.
Local Open Scope R_scope.

(* the image as a function *)
Definition img (c : cfg) (th : list fl) : arr2 fl :=
  match setup_calcs c th with Ok a0 => get2 (a_model (fst (do_model_calcs c a0))) | Err _ => get2 None end.
Lemma image_img c th m : image_is c th m -> m = img c th.
Proof. intros (a0 & b & E & D & M). unfold img. rewrite E, D. cbn [fst]. now rewrite M. Qed.

(* a family of discs in one regime *)
Lemma family c l thn th : discs_approach c l thn th -> continuous_dispersion c -> regular c l th ->
  exists N m, let fam := fun o => match o with Some n => thn (N + n)%nat | None => th end in
    (forall o, image_is c (fam o) (m o)) /\ cvg2 (img_rows c) (length l) m.
Proof.
  intros [D1 D2 D3 D4 D5 D6 D7] Hd (s & r0 & z & Es & Er & Ez & Hp & Ha).
  destruct D7 as (sn & s' & Esn & Es' & Cs). rewrite Es in Es'. injection Es' as <-.
  set (pix := pixel_velocity l (r0 * (1 + z)) / (235 / 100)) in *.
  assert (X : exists N, forall n, (N <= n)%nat -> (o_floor (c_opt c) = true \/ sn n <> 0) /\ (o_adapt (c_opt c) = true -> (Rabs (sn n) < pix <-> Rabs s < pix))).
  { assert (N1 : exists N, forall n, (N <= n)%nat -> o_floor (c_opt c) = true \/ sn n <> 0).
    { destruct (o_floor (c_opt c)); [exists 0%nat; now left|]. destruct Hp as [Q|Q]; [discriminate Q|]. destruct (Cs (Rabs s) (Rabs_pos_lt _ Q)) as (N & HN). exists N. intros n Hn. right. intros Z.
      specialize (HN n Hn). unfold R_dist in HN. rewrite Z in HN. revert HN. replace (0 - s) with (- s) by ring. rewrite Rabs_Ropp. lra. }
    assert (N2 : exists N, forall n, (N <= n)%nat -> o_adapt (c_opt c) = true -> (Rabs (sn n) < pix <-> Rabs s < pix)).
    { destruct (o_adapt (c_opt c)); [|exists 0%nat; intros n _ Q; discriminate Q]. specialize (Ha eq_refl).
      assert (0 < Rabs (Rabs s - pix)) as Q by (apply Rabs_pos_lt; lra). destruct (Cs _ Q) as (N & HN). exists N. intros n Hn _. specialize (HN n Hn). unfold R_dist in HN.
      pose proof (Rabs_triang_inv2 (sn n) s) as T. revert Q HN T. unfold Rabs at 2 3 4. intros Q HN T. split_Rabs; split; intros; lra. }
    destruct N1 as (N1 & H1), N2 as (N2 & H2). exists (N1 + N2)%nat. intros n Hn. split; [apply H1|apply H2]; lia. }
  destruct X as (N & HN).
  assert (Hw := sh_posed _ _ _ D2). pose proof Hw as (H1&H2&H3&H4&H5&H6&H7&H8&H9&H10&_).
  set (fam := fun o => match o with Some n => thn (N + n)%nat | None => th end).
  destruct (eval_cvg c l fam) with (s := fun o => match o with Some n => sn (N + n)%nat | None => s end) (r0 := r0) (z := z) as (m & Hm & Cm); auto.
  - intros [n|]; cbn [fam]; auto.
  - intros [n|]; cbn [fam]; [|split; reflexivity]. assert (L := D3 (N + n)%nat).
    assert (Lth : (2 <= length th)%nat) by lia.
    change (-1)%Z with (- Z.of_nat 1)%Z. change (-2)%Z with (- Z.of_nat 2)%Z. rewrite (getz_neg (thn (N + n)%nat) NaN 1), (getz_neg (thn (N + n)%nat) NaN 2), (getz_neg th NaN 1), (getz_neg th NaN 2) by lia. rewrite L, D4, D5. split; reflexivity.
  - intros r h. destruct (D6 r h) as (q & y & Q1 & Q2 & Q3). unfold cv. cbn [fam]. rewrite Q2. cbn [val]. apply (Un_cv_drop N) in Q3. intros eps He. destruct (Q3 eps He) as (M & HM). exists M. intros n Hn. rewrite Q1. cbn [val]. now apply HM.
  - intros [n|]; cbn [fam]; [apply Esn|exact Es].
  - unfold cv. now apply (Un_cv_drop N) in Cs.
  - destruct (o_floor (c_opt c)) eqn:F; [now left|right]. intros [n|]; [|destruct Hp as [Q|Q]; [discriminate Q|exact Q]]. destruct (HN (N + n)%nat) as (Q & _); [lia|]. destruct Q as [Q|Q]; [discriminate Q|exact Q].
  - intros Q. fold pix. destruct (Rlt_dec (Rabs s) pix) as [L|L]; [left|right]; intros [n|]; auto; destruct (HN (N + n)%nat) as (_ & W); try lia; rewrite (W Q); exact L.
  - exists N, m. split; assumption.
Qed.

Lemma limit_image c l thn th mn m : discs_approach c l thn th -> continuous_dispersion c -> regular c l th ->
  (forall n, image_is c (thn n) (mn n)) -> image_is c th m ->
  forall i j, (i < img_rows c)%nat -> (j < length l)%nat -> approach (fun n => at2 (mn n) i j) (at2 m i j).
Proof.
  intros D Hd R In Im i j Hi Hj. destruct (family _ _ _ _ D Hd R) as (N & M & HM & CM). cbv zeta in HM. destruct CM as (C1 & C2).
  assert (Q : M None = m) by (rewrite (image_img _ _ _ Im), (image_img _ _ _ (HM None)); reflexivity).
  assert (Qn : forall n, M (Some n) = mn (N + n)%nat) by (intros n; rewrite (image_img _ _ _ (In (N + n)%nat)), (image_img _ _ _ (HM (Some n))); reflexivity).
  exists (fun n => val2 (mn n) i j), (val2 m i j). split; [|split].
  - intros n. destruct (eval_lit _ _ _ (da_n _ _ _ _ D n)) as (m' & E' & R' & C' & N' & _). rewrite (image_img _ _ _ (In n)), <- (image_img _ _ _ E'). unfold val2. destruct (N' i j) as (x & -> & _); [lia|lia|reflexivity].
  - rewrite <- Q. destruct (C1 None) as (Ra & Ca & Pa). unfold val2. destruct (Pa i j) as (x & -> & _); [lia|lia|reflexivity].
  - apply (Un_cv_tail N). specialize (C2 i j Hi Hj). unfold cv in C2. rewrite Q in C2. intros eps He. destruct (C2 eps He) as (K & HK). exists K. intros n Hn. rewrite <- Qn. now apply HK.
Qed.

(* the likelihood of an image *)
Definition imllike (d : data2) (noscale : bool) (m : arr2 fl) : fl :=
  if noscale then model_llike d m else match scale_model d m with Ok m2 => model_llike d m2 | Err _ => NaN end.

Lemma llike_image c n p F S W ok cs l kf tf th k m : g_data (c_gal c) = findata n p F S W ok cs -> n = img_rows c -> p = length l ->
  cols_ok p cs -> (forall i j, (i < n)%nat -> (j < p)%nat -> S i j <> 0) ->
  offsets_fixed kf -> fresh kf -> length tf = nfree (k_vary kf) -> update_parameters (k_theta kf) (k_vary kf) tf = (th, Ok tt) -> shining c th l ->
  history c kf k -> image_is c th m -> snd (km_llike c k tf) = Ok (imllike (findata n p F S W ok cs) (k_noscale kf) m).
Proof.
  intros Hd Hn Hp Hc HS O Fr L U Sh H Im. destruct (eval_lit _ _ _ Sh) as (m' & E' & R & C & N & _). rewrite <- Hn in R. rewrite <- Hp in C.
  assert (m' = m) by (rewrite (image_img _ _ _ E'), (image_img _ _ _ Im); reflexivity). subst m'. destruct Im as (a0 & b & Es & Eb & Em).
  destruct (finite_scale n p F S W ok cs m Hc HS R C N) as (m2 & Sc & R2 & C2 & V2).
  assert (X : exists k2 m3, km_make c tf kf = (k2, Ok tt) /\ k_model k2 = Some m3 /\ imllike (findata n p F S W ok cs) (k_noscale kf) m = model_llike (findata n p F S W ok cs) m3).
  { unfold fresh in Fr. unfold km_make. rewrite n_free_param_nfree, L, Nat.eqb_refl. cbn [negb]. rewrite U. cbn [k_aper k_stamp]. rewrite Fr. unfold aper_new. rewrite Es, Eb. unfold store_model. rewrite Em. cbn [k_noscale]. unfold imllike.
    destruct (k_noscale kf).
    - eexists _, m. split; [reflexivity|]. split; reflexivity.
    - rewrite Hd, Sc. eexists _, m2. split; [reflexivity|]. split; reflexivity. }
  destruct X as (k2 & m3 & K2 & M3 & EL). rewrite (proj2 (llike_fresh c kf k tf O Fr H k2 (model_llike (findata n p F S W ok cs) m3))); [cbn [snd]; now rewrite EL|].
  exists m3. split; [exact K2|]. split; [exact M3|]. now rewrite Hd.
Qed.

Lemma llike_cv n p F S W ok cs ns m : cols_ok p cs -> (forall i j, (i < n)%nat -> (j < p)%nat -> S i j <> 0) -> cvg2 n p m ->
  exists L, (forall o, imllike (findata n p F S W ok cs) ns (m o) = Fin (L o)) /\ cv L.
Proof.
  intros Hc HS (C1 & C2).
  assert (K : forall M : option nat -> nat -> nat -> R, (forall i j, (i < n)%nat -> (j < p)%nat -> cv (fun o => M o i j)) -> cv (fun o => - (chi2 n p F (M o) S W ok + ll_const n p S ok) / 2)).
  { intros M CM. apply cv_div; [lra| |apply cv_const]. apply cv_opp, cv_plus; [|apply cv_const]. unfold chi2.
    apply (cv_rsum2 n p (fun o i j => if ok i j then W i j * ((F i j - M o i j) / S i j) ^ 2 else 0)). intros i j Hi Hj. destruct (ok i j); [|apply cv_const].
    apply cv_mult; [apply cv_const|]. apply cv_pow, cv_div; [now apply HS| |apply cv_const]. apply cv_minus; [apply cv_const|now apply CM]. }
  assert (Fv : forall o i j, (i < n)%nat -> (j < p)%nat -> at2 (m o) i j = Fin (val2 (m o) i j) /\ 0 < val2 (m o) i j).
  { intros o i j Hi Hj. destruct (C1 o) as (R & C & P). unfold val2. destruct (P i j) as (x & -> & Hx); [lia|lia|]. now split. }
  assert (LV : forall (m' : arr2 fl) M, rows m' = n -> cols m' = p -> (forall i j, (i < n)%nat -> (j < p)%nat -> at2 m' i j = Fin (M i j)) ->
     model_llike (findata n p F S W ok cs) m' = Fin (- (chi2 n p F M S W ok + ll_const n p S ok) / 2)).
  { intros m' M R C E. rewrite (proj1 (llike_ext (findata n p F S W ok cs) m' (fin2 n p M) R C ltac:(intros i j Hi Hj; cbn [fin2 at2]; apply E; lia))). now apply llike_value. }
  unfold imllike. destruct ns.
  - exists (fun o => - (chi2 n p F (val2 (m o)) S W ok + ll_const n p S ok) / 2). split; [|now apply K].
    intros o. destruct (C1 o) as (R & C & _). apply LV; auto. intros i j Hi Hj. now apply Fv.
  - set (br := fun o i => best_ratio (F i) (val2 (m o) i) (S i) cs).
    exists (fun o => - (chi2 n p F (fun i j => val2 (m o) i j * br o i) S W ok + ll_const n p S ok) / 2). split.
    + intros o. destruct (C1 o) as (R & C & _). unfold scale_model. cbn [wh_nosky findata flux ferr fin2 cols rows]. rewrite R, C, (forallb_ltb p cs Hc), !Nat.eqb_refl. cbn [negb andb].
      apply LV; [reflexivity|reflexivity|]. intros i j Hi Hj. cbn [at2].
      change (mkdata (fin2 n p F) (fin2 n p S) (fin2 n p (fun i j => if ok i j then 1 else 0)) (fin2 n p W) cs) with (findata n p F S W ok cs).
      rewrite (scale_ratio_val n p F S W ok cs (m o) (val2 (m o) i) i).
      * rewrite (proj1 (Fv o i j Hi Hj)). reflexivity.
      * intros a Hcc. apply HS; [exact Hi|now apply Hc].
      * intros a Hcc. apply Fv; [exact Hi|now apply Hc].
    + apply (K (fun o i j => val2 (m o) i j * br o i)). intros i j Hi Hj. apply cv_mult; [now apply C2|]. unfold br, best_ratio.
      assert (Si : forall a, In a cs -> S i a <> 0) by (intros a Ha; apply HS; [exact Hi|now apply Hc]).
      destruct cs as [|a0 cs'] eqn:Ecs; [cbn; apply (cv_ext (fun _ => 0)); [|apply cv_const]; intros o; unfold Dd; cbn [map rsum]; now rewrite Reqb_refl|]. rewrite <- Ecs in *.
      assert (I0 : In a0 cs) by (rewrite Ecs; now left).
      assert (Dp : forall o, Dd (val2 (m o) i) (S i) cs <> 0).
      { intros o Z. pose proof (Dd_zero _ _ _ Si Z a0 I0) as Q. destruct (Fv o i a0 Hi (Hc _ I0)) as (_ & P). lra. }
      apply (cv_ext (fun o => Nn (F i) (val2 (m o) i) (S i) cs / Dd (val2 (m o) i) (S i) cs)).
      { intros o. destruct (Reqb (Dd (val2 (m o) i) (S i) cs) 0) eqn:Z; [apply Reqb_true in Z; now apply Dp in Z|reflexivity]. }
      assert (SS : forall a, In a cs -> S i a * S i a <> 0) by (intros a Ha; specialize (Si a Ha); nra).
      apply cv_div; [apply Dp| |]; [unfold Nn; apply (cv_rsum_map cs (fun o a => F i a * val2 (m o) i a / (S i a * S i a)))|unfold Dd; apply (cv_rsum_map cs (fun o a => val2 (m o) i a * val2 (m o) i a / (S i a * S i a)))];
        intros a Ha; (apply cv_div; [now apply SS| |apply cv_const]); apply cv_mult; try apply cv_const; apply C2; auto.
Qed.

Lemma limit_fit c n p F S W ok cs l kf tfn tf thn th kn k :
  g_data (c_gal c) = findata n p F S W ok cs -> n = img_rows c -> p = length l -> cols_ok p cs -> (forall i j, (i < n)%nat -> (j < p)%nat -> S i j <> 0) ->
  offsets_fixed kf -> fresh kf -> (forall t, length (tfn t) = nfree (k_vary kf)) -> length tf = nfree (k_vary kf) ->
  (forall t, update_parameters (k_theta kf) (k_vary kf) (tfn t) = (thn t, Ok tt)) -> update_parameters (k_theta kf) (k_vary kf) tf = (th, Ok tt) ->
  discs_approach c l thn th -> continuous_dispersion c -> regular c l th ->
  (forall t, history c kf (kn t)) -> history c kf k ->
  exists Ln L, (forall t, snd (km_llike c (kn t) (tfn t)) = Ok (Fin (Ln t))) /\ snd (km_llike c k tf) = Ok (Fin L) /\ Un_cv Ln L.
Proof.
  intros Hd Hn Hp Hc HS O Fr Ln0 L0 Un U D Cd Rg Hk H.
  destruct (family _ _ _ _ D Cd Rg) as (N & m & HM & CM). cbv zeta in HM. rewrite <- Hn, <- Hp in CM.
  destruct (llike_cv n p F S W ok cs (k_noscale kf) m Hc HS CM) as (LL & EL & CL).
  assert (Q : forall t, exists x, snd (km_llike c (kn t) (tfn t)) = Ok (Fin x)).
  { intros t. destruct (finite_fit c n p F S W ok cs l kf (tfn t) (thn t) (kn t) Hd Hn Hp Hc HS O Fr (Ln0 t) (Un t) (da_n _ _ _ _ D t) (Hk t)) as (k2 & x & E). exists x. now rewrite E. }
  exists (fun t => match snd (km_llike c (kn t) (tfn t)) with Ok v => val v | Err _ => 0 end), (LL None). split; [|split].
  - intros t. destruct (Q t) as (x & ->). reflexivity.
  - rewrite (llike_image c n p F S W ok cs l kf tf th k (m None)); auto; [now rewrite EL|apply D|exact (HM None)].
  - apply (Un_cv_tail N). intros eps He. destruct (CL eps He) as (K & HK). exists K. intros t Ht.
    rewrite (llike_image c n p F S W ok cs l kf (tfn (N + t)%nat) (thn (N + t)%nat) (kn (N + t)%nat) (m (Some t))); auto; [rewrite EL; cbn [val]; now apply HK|apply D|exact (HM (Some t))].
Qed.
