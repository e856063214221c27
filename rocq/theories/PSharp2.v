(* Proofs: row scaling gives the likelihood its highest value over all row amplitudes; examples. *)
From Coq Require Import Reals Lra Lia List Bool Arith ZArith FunctionalExtensionality.
From Verif Require Import PyFloat PyBase Arr PyNum MParams MKernels MMask MAper2D MMock SParams SKernels SMask SAper2D SMirror SBright STruth SLos SReach SFinite SNoise PKernels PData PMask2 PAper2D PAper2DHist PAper2DTop PBright PBright3 PTruth PTruth2 PReach2 PFinite3 PFinite4 PNoise PNoise2 PSharp.
Import ListNotations.
Local Open Scope R_scope.

Lemma rsumn_zero n : rsumn n (fun _ => 0) = 0. Proof. induction n; cbn [rsumn]; [reflexivity|]. rewrite IHn. ring. Qed.
Lemma rsumn_one p c v : (c < p)%nat -> rsumn p (fun j => if Nat.eqb j c then v else 0) = v.
Proof.
  induction p; intros H; [lia|]. cbn [rsumn]. destruct (Nat.eqb_spec p c) as [->|N].
  - rewrite (rsumn_ext c _ (fun _ => 0)); [rewrite rsumn_zero; ring|]. intros i Hi. destruct (Nat.eqb_spec i c); [lia|reflexivity].
  - rewrite IHp by lia. ring.
Qed.
Lemma sum_columns p cs g (o : nat -> bool) : NoDup cs -> cols_ok p cs -> (forall j, (j < p)%nat -> o j = true <-> In j cs) ->
  rsumn p (fun j => if o j then g j else 0) = rsum (map g cs).
Proof.
  intros ND CO HO. rewrite (rsumn_ext p _ (fun j => if existsb (Nat.eqb j) cs then g j else 0)).
  2:{ intros j Hj. specialize (HO j Hj). destruct (existsb (Nat.eqb j) cs) eqn:E.
      - apply existsb_exists in E as (c & C1 & C2). apply Nat.eqb_eq in C2. subst c. now rewrite (proj2 HO C1).
      - destruct (o j); [|reflexivity]. exfalso. assert (existsb (Nat.eqb j) cs = true); [|congruence]. apply existsb_exists. exists j. split; [now apply HO|apply Nat.eqb_refl]. }
  clear HO o. induction cs as [|c cs IH]; [cbn; apply rsumn_zero|]. inversion ND as [|x l Nc ND']; subst. cbn [map]. rewrite rsum_cons, <- IH; [|exact ND'|intros x Hx; apply CO; now right].
  rewrite <- (rsumn_one p c (g c)) at 1 by (apply CO; now left). rewrite <- rsumn_plus. apply rsumn_ext. intros j Hj. cbn [existsb]. destruct (Nat.eqb_spec j c) as [->|N]; cbn [orb].
  - assert (existsb (Nat.eqb c) cs = false) as ->; [|ring]. destruct (existsb (Nat.eqb c) cs) eqn:E; [|reflexivity]. apply existsb_exists in E as (x & X1 & X2). apply Nat.eqb_eq in X2. subst. contradiction.
  - ring.
Qed.

Lemma rows_value n p A m M : image_of n p m M -> image_of n p (rows_times n p A m) (fun i j => A i * M i j).
Proof. intros (R & C & V). split; [reflexivity|]. split; [reflexivity|]. intros i j Hi Hj. cbn [rows_times at2]. now rewrite V. Qed.

Lemma scale_rows n p F (S : nat -> nat -> R) ok Wt cs m M : cols_ok p cs -> (forall i j, (i < n)%nat -> (j < p)%nat -> S i j <> 0) -> image_of n p m M ->
  exists out, scale_model (fitted n p F S ok Wt cs) m = Ok out /\ image_of n p out (fun i j => best_ratio (F i) (M i) (S i) cs * M i j).
Proof.
  intros CO HS (R & C & V). unfold scale_model. cbn [fitted flux ferr wh_nosky fin2 rows cols]. rewrite R, C, (forallb_ltb p cs CO), !Nat.eqb_refl. cbn [negb andb].
  eexists. split; [reflexivity|]. split; [reflexivity|]. split; [reflexivity|]. intros i j Hi Hj. cbn [at2].
  match goal with |- fmul _ ?x = _ => change x with (scale_ratio (findata n p F S (fun _ _ => 1) ok cs) m i) end.
  rewrite (scale_ratio_val n p F S (fun _ _ => 1) ok cs m (M i) i).
  - rewrite V by assumption. cbn. f_equal. ring.
  - intros c Hc. apply HS; [exact Hi|now apply CO].
  - intros c Hc. apply V; [exact Hi|now apply CO].
Qed.

Lemma row_best n p F (S : nat -> nat -> R) M ok w cs : NoDup cs -> cols_ok p cs -> (forall i j, (i < n)%nat -> (j < p)%nat -> S i j <> 0) -> (forall i, (i < n)%nat -> 0 <= w i) -> whole_rows n p ok w cs ->
  forall A, chi2 n p F (fun i j => best_ratio (F i) (M i) (S i) cs * M i j) S (fun i _ => w i) ok <= chi2 n p F (fun i j => A i * M i j) S (fun i _ => w i) ok.
Proof.
  intros ND CO HS HW WR A. unfold chi2, rsum2. apply rsumn_le. intros i Hi. destruct (WR i Hi) as [Z|[Z|Z]].
  - right. apply rsumn_ext. intros j Hj. now rewrite Z.
  - right. apply rsumn_ext. intros j Hj. rewrite Z. destruct (ok i j); ring.
  - assert (Q : forall r, rsumn p (fun j => if ok i j then w i * ((F i j - r * M i j) / S i j) ^ 2 else 0) = w i * row_chi2 (F i) (M i) (S i) cs r).
    { intros r. rewrite (sum_columns p cs (fun j => w i * ((F i j - r * M i j) / S i j) ^ 2) (ok i) ND CO Z). unfold row_chi2. clear. induction cs as [|c cs IH]; [cbn; ring|]. cbn [map]. rewrite !rsum_cons, IH. ring. }
    rewrite !Q. apply Rmult_le_compat_l; [now apply HW|]. apply best_ratio_optimal. intros c Hc. apply HS; [exact Hi|now apply CO].
Qed.

Lemma profile_image n p F (S : nat -> nat -> R) ok Wt w cs m M : NoDup cs -> cols_ok p cs -> (forall i j, (i < n)%nat -> (j < p)%nat -> S i j <> 0) ->
  weights_are n p Wt w -> (forall i, (i < n)%nat -> 0 <= w i) -> whole_rows n p ok w cs -> image_of n p m M ->
  let d := fitted n p F S ok Wt cs in
  exists out L, scale_model d m = Ok out /\ model_llike d out = Fin L /\ (exists A, model_llike d (rows_times n p A m) = Fin L) /\
    forall A, exists L', model_llike d (rows_times n p A m) = Fin L' /\ L' <= L.
Proof.
  intros ND CO HS HW HP WR I d. destruct (scale_rows n p F S ok Wt cs m M CO HS I) as (out & E & IO). exists out. eexists. split; [exact E|]. split; [exact (fitted_llike n p F S ok Wt w cs out _ HW IO HS)|]. split.
  - exists (fun i => best_ratio (F i) (M i) (S i) cs). exact (fitted_llike n p F S ok Wt w cs _ _ HW (rows_value n p _ m M I) HS).
  - intros A. eexists. split; [exact (fitted_llike n p F S ok Wt w cs _ _ HW (rows_value n p A m M I) HS)|]. pose proof (row_best n p F S M ok w cs ND CO HS HP WR A). lra.
Qed.

Lemma profile_fit c n p F (S : nat -> nat -> R) ok Wt w cs k0 k tf th st a m M :
  g_data (c_gal c) = fitted n p F S ok Wt cs ->
  NoDup cs -> cols_ok p cs -> (forall i j, (i < n)%nat -> (j < p)%nat -> S i j <> 0) ->
  weights_are n p Wt w -> (forall i, (i < n)%nat -> 0 <= w i) -> whole_rows n p ok w cs ->
  offsets_fixed k0 -> fresh k0 -> k_noscale k0 = false -> history c k0 k -> length tf = nfree (k_vary k0) ->
  update_parameters (k_theta k0) (k_vary k0) tf = (th, Ok tt) -> aper_new c th (k_stamp k0) = (st, Ok a) -> a_model a = Some m -> image_of n p m M ->
  let d := g_data (c_gal c) in
  exists k2 L, km_llike c k tf = (k2, Ok (Fin L)) /\ (exists A, model_llike d (rows_times n p A m) = Fin L) /\
    forall A, exists L', model_llike d (rows_times n p A m) = Fin L' /\ L' <= L.
Proof.
  intros D ND CO HS HW HP WR O Fr NS H LT U NW Em I d. destruct (profile_image n p F S ok Wt w cs m M ND CO HS HW HP WR I) as (out & L & E & EL & EA & B).
  rewrite <- D in E, EL, EA, B. destruct (make_intro c tf k0 th a m st out Fr NS LT U NW Em E) as (k2 & K2 & M2).
  exists k2, L. split; [|split; [exact EA|exact B]]. apply (llike_fresh c k0 k tf O Fr H). exists out. split; [exact K2|]. split; [exact M2|now symmetry].
Qed.

(* a masked pixel outside the sky columns spoils it *)
Lemma profile_refuted : exists n p F S ok Wt w cs m M out L A L', (forall i j, S i j <> 0) /\ NoDup cs /\ cols_ok p cs /\ weights_are n p Wt w /\ (forall i, 0 <= w i) /\ image_of n p m M /\
  let d := fitted n p F S ok Wt cs in
  scale_model d m = Ok out /\ model_llike d out = Fin L /\ model_llike d (rows_times n p A m) = Fin L' /\ L < L'.
Proof.
  pose (F := fun (_ j : nat) => if Nat.eqb j 0 then 1 else 3). pose (S := fun _ _ : nat => 1). pose (ok := fun (_ j : nat) => Nat.eqb j 0). pose (Wt := fin2 1 2 (fun _ _ => 1)). pose (M := fun _ _ : nat => 1).
  pose (cs := [0%nat; 1%nat]). pose (m := fin2 1 2 M).
  assert (CO : cols_ok 2 cs) by (intros x Hx; cbn in Hx; lia). assert (HS : forall i j : nat, (i < 1)%nat -> (j < 2)%nat -> S i j <> 0) by (intros; unfold S; lra).
  assert (HW : weights_are 1 2 Wt (fun _ => 1)) by (intros i j _ _; reflexivity). assert (I : image_of 1 2 m M) by (split; [reflexivity|]; split; [reflexivity|]; intros; reflexivity).
  destruct (scale_rows 1 2 F S ok Wt cs m M CO HS I) as (out & E & IO).
  assert (NC : NoDup cs) by (repeat constructor; cbn; intuition lia).
  exists 1%nat, 2%nat, F, S, ok, Wt, (fun _ => 1), cs, m, M, out. eexists. exists (fun _ => 1). eexists.
  split; [intros; unfold S; lra|]. split; [exact NC|]. split; [exact CO|]. split; [exact HW|]. split; [intros; lra|]. split; [exact I|]. split; [exact E|].
  split; [exact (fitted_llike 1 2 F S ok Wt _ cs out _ HW IO HS)|]. split; [exact (fitted_llike 1 2 F S ok Wt _ cs _ _ HW (rows_value 1 2 (fun _ => 1) m M I) HS)|].
  assert (BR : best_ratio (F 0%nat) (M 0%nat) (S 0%nat) cs = 2).
  { unfold best_ratio, Nn, Dd, cs, F, M, S, rsum. cbn [map fold_right Nat.eqb]. destruct (Reqb _ 0) eqn:Q; [apply Reqb_true in Q; lra|]. field. }
  unfold chi2, rsum2. cbn [rsumn]. rewrite BR. unfold ok, F, M, S. cbn [Nat.eqb]. lra.
Qed.

(* examples *)
Lemma x_weights : exists prof Wt, fit_weights NoWeighting (fin2 3 4 (fun _ _ => 1)) (fin2 3 4 (fun _ _ => 1)) (fin2 3 4 (fun _ _ => 1)) [] (NaN, NaN, NaN) = Ok (prof, Wt) /\ weights_are 3 4 Wt (fun _ => / 3).
Proof.
  destruct (weights_none (fin2 3 4 (fun _ _ => 1)) (fin2 3 4 (fun _ _ => 1)) (fin2 3 4 (fun _ _ => 1)) [] (NaN, NaN, NaN)) as (prof & Wt & E & _); [cbn; lia|]. exists prof, Wt. split; [exact E|].
  pose proof (fun H => none_weights _ _ _ _ _ _ _ H E) as W. specialize (W ltac:(cbn; lia)). cbn [fin2 rows cols] in W. intros i j Hi Hj. rewrite (W i j Hi Hj). do 2 f_equal. cbn. ring.
Qed.
Definition x_cfg (Wt : arr2 fl) : cfg := mock_cfg (x_mock 50) (x_mk 50) (fitted 3 4 (fun _ _ => 1) (fun _ _ => 1) (fun _ _ => true) Wt [0%nat; 1%nat; 2%nat; 3%nat]).
Lemma x_fit Wt : weights_are 3 4 Wt (fun _ => / 3) -> exists b m M, aper_new (x_cfg Wt) [Fin 200; Fin (1/2); Fin 50; Fin 0; Fin 1] NoStamp = (a_stamp b, Ok b) /\ a_model b = Some m /\ image_of 3 4 m M /\
  exists k x, history (x_cfg Wt) x_kf k /\ km_llike (x_cfg Wt) k [Fin 200; Fin (1/2); Fin 50] = (k, Ok (Fin x)).
Proof.
  intros HW. set (c := x_cfg Wt). set (d := g_data (c_gal c)).
  destruct (eval_lit _ _ _ (x_shining 50 d ltac:(lra))) as (m & (a0 & b & Es & Eb & Em) & R & C & N & _). change (mock_cfg (x_mock 50) (x_mk 50) d) with c in Es, Eb, R.
  assert (NW : aper_new c [Fin 200; Fin (1/2); Fin 50; Fin 0; Fin 1] NoStamp = (a_stamp b, Ok b)) by (unfold aper_new; now rewrite Es, Eb).
  exists b, m, (val2 m). split; [exact NW|]. split; [exact Em|].
  assert (I : image_of 3 4 m (val2 m)). { split; [exact R|]. split; [exact C|]. intros i j Hi Hj. destruct (N i j) as (x & E & _); [rewrite R; exact Hi|rewrite C; exact Hj|]. unfold val2. now rewrite E. }
  split; [exact I|].
  destruct (scale_rows 3 4 (fun _ _ => 1) (fun _ _ => 1) (fun _ _ => true) Wt [0%nat; 1%nat; 2%nat; 3%nat] m (val2 m)) as (m2 & Sc & I2); [intros x Hx; cbn in Hx; lia|intros; lra|exact I|].
  destruct (make_intro c [Fin 200; Fin (1/2); Fin 50] x_kf _ b m _ m2 eq_refl eq_refl eq_refl eq_refl NW Em Sc) as (k & E & M2).
  assert (H : history c x_kf k) by exact (h_start _ _ _ _ E). exists k. eexists. split; [exact H|]. apply (llike_fresh c x_kf k _ x_fixed eq_refl H). exists m2. split; [exact E|]. split; [exact M2|].
  symmetry. apply (fitted_llike 3 4 _ _ _ Wt _ _ m2 _ HW I2). intros; lra.
Qed.
Lemma x_rows : NoDup [0%nat; 1%nat; 2%nat; 3%nat] /\ cols_ok 4 [0%nat; 1%nat; 2%nat; 3%nat] /\ whole_rows 3 4 (fun _ _ => true) (fun _ => / 3) [0%nat; 1%nat; 2%nat; 3%nat].
Proof.
  split; [repeat constructor; cbn; intuition lia|]. split; [intros x Hx; cbn in Hx; lia|]. intros i _. right; right. intros j Hj. split; [|reflexivity]. intros _. cbn. lia.
Qed.
Lemma sharp_example : exists prof Wt k x, fit_weights NoWeighting (fin2 3 4 (fun _ _ => 1)) (fin2 3 4 (fun _ _ => 1)) (fin2 3 4 (fun _ _ => 1)) [] (NaN, NaN, NaN) = Ok (prof, Wt) /\
  3%nat = img_rows (x_cfg Wt) /\ 4%nat = length (g_wave (c_gal (x_cfg Wt))) /\ offsets_fixed x_kf /\ fresh x_kf /\
  history (x_cfg Wt) x_kf k /\ km_llike (x_cfg Wt) k [Fin 200; Fin (1/2); Fin 50] = (k, Ok (Fin x)).
Proof.
  destruct x_weights as (prof & Wt & E & HW). destruct (x_fit Wt HW) as (b & m & M & _ & _ & _ & k & x & H & L). exists prof, Wt, k, x.
  split; [exact E|]. split; [reflexivity|]. split; [reflexivity|]. split; [exact x_fixed|]. split; [reflexivity|]. split; [exact H|exact L].
Qed.
Lemma profile_example : exists Wt st a m M k, weights_are 3 4 Wt (fun _ => / 3) /\ whole_rows 3 4 (fun _ _ => true) (fun _ => / 3) [0%nat; 1%nat; 2%nat; 3%nat] /\
  aper_new (x_cfg Wt) [Fin 200; Fin (1/2); Fin 50; Fin 0; Fin 1] (k_stamp x_kf) = (st, Ok a) /\ a_model a = Some m /\ image_of 3 4 m M /\ history (x_cfg Wt) x_kf k /\
  offsets_fixed x_kf /\ fresh x_kf /\ k_noscale x_kf = false.
Proof.
  destruct x_weights as (prof & Wt & E & HW). destruct (x_fit Wt HW) as (b & m & M & NW & Em & I & k & x & H & L). exists Wt, (a_stamp b), b, m, M, k.
  split; [exact HW|]. split; [apply x_rows|]. split; [exact NW|]. split; [exact Em|]. split; [exact I|]. split; [exact H|]. split; [exact x_fixed|]. split; reflexivity.
Qed.
Lemma sharp_refuted : exists n p F S ok cs flux err ms low f3 prof Wt M1 M2 x1 x2, rows flux = n /\ cols flux = p /\ (forall i j, 0 < S i j) /\ fit_weights NoWeighting flux err ms low f3 = Ok (prof, Wt) /\
  let d := fitted n p F S ok Wt cs in
  model_llike d (fin2 n p M1) = Fin x1 /\ model_llike d (fin2 n p M2) = Fin x2 /\
  gauss_loglike n p F M2 S ok - gauss_loglike n p F M1 S ok = 6 /\ x2 - x1 = 2.
Proof.
  destruct x_weights as (prof & Wt & E & _). pose (F := fun _ _ : nat => 1). pose (S := fun _ _ : nat => 1). pose (ok := fun _ _ : nat => true).
  destruct (sharp_images 3 4 F S ok [0%nat; 1%nat; 2%nat; 3%nat] (fin2 3 4 (fun _ _ => 1)) (fin2 3 4 (fun _ _ => 1)) (fin2 3 4 (fun _ _ => 1)) [] (NaN, NaN, NaN) prof Wt (fin2 3 4 (fun _ _ => 0)) (fin2 3 4 F) (fun _ _ => 0) F ltac:(lia) eq_refl eq_refl ltac:(intros; unfold S; lra) E) as (x1 & x2 & A & B & G & _);
    [split; [reflexivity|]; split; reflexivity|split; [reflexivity|]; split; reflexivity|].
  assert (GD : gauss_loglike 3 4 F F S ok - gauss_loglike 3 4 F (fun _ _ => 0) S ok = 6).
  { rewrite !gauss_value by (intros; unfold S; lra). unfold chi2, rsum2. cbn [rsumn]. unfold ok, F, S. field. }
  exists 3%nat, 4%nat, F, S, ok, [0%nat; 1%nat; 2%nat; 3%nat]. exists (fin2 3 4 (fun _ _ => 1)), (fin2 3 4 (fun _ _ => 1)), (fin2 3 4 (fun _ _ => 1)), [], (NaN, NaN, NaN), prof, Wt, (fun _ _ => 0), F, x1, x2. split; [|split; [|split; [|split; [exact E|]]]]; [reflexivity|reflexivity|intros; unfold S; lra|].
  split; [exact A|]. split; [exact B|]. split; [exact GD|]. rewrite G, GD. cbn [INR]. lra.
Qed.
Lemma any_example : exists flux err ms cut f3 prof Wt, fltb (Fin 0) cut = true /\ fit_weights UpEdges flux err ms (low_snr_rows (row_snr flux err ms) cut) f3 = Ok (prof, Wt) /\
  weights_good (rows flux) (cols flux) (low_snr_rows (row_snr flux err ms) cut) prof Wt.
Proof.
  assert (Q : fltb (Fin 0) (Fin 1) = true) by (cbn; apply Rltb_true; lra).
  destruct (weights_up_edges (fin2 3 4 (fun _ _ => 1)) (fin2 3 4 (fun _ _ => 1)) (fin2 3 4 (fun _ _ => 1)) (Fin 1) (NaN, NaN, NaN) Q) as (prof & Wt & E & G & _).
  do 5 eexists. exists prof, Wt. split; [exact Q|]. split; [exact E|exact G].
Qed.
