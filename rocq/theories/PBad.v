(* Proofs: pixels whose error or flux is not a usable number. *)
From Coq Require Import Reals Lra Lia List Bool Arith.
From Verif Require Import PyFloat PyBase Arr PyNum MParams MKernels MAper2D MMock SParams SKernels SAper2D SMirror SBright STruth SFinite SNoise SBad PKernels PKernels2 PData PAper2D PAper2DHist PMirror PTruth PTruth2 PLim3 PNoise PFinite PFinite2 PFinite3 PFinite4.
Import ListNotations.
Local Open Scope R_scope.

Lemma fadd_fin a b v : fadd a b = Fin v -> (exists x, a = Fin x) /\ exists y, b = Fin y.
Proof. destruct a, b; cbn [fadd]; intros E; try discriminate E; split; eexists; reflexivity. Qed.
Lemma fsumn_bad n f i : (i < n)%nat -> isfinite (f i) = false -> isfinite (fsumn n f) = false.
Proof. intros Hi H. unfold fsumn. apply fsum_nonfin. exists (f i). split; [|exact H]. apply in_map_iff. exists i. split; [reflexivity|]. apply in_seq. lia. Qed.
Lemma sum2_bad a i j : (i < rows a)%nat -> (j < cols a)%nat -> isfinite (at2 a i j) = false -> isfinite (sum2 a) = false.
Proof. intros Hi Hj H. unfold sum2. apply (fsumn_bad _ _ i Hi). now apply (fsumn_bad _ _ j Hj). Qed.
Lemma isfin_half x : isfinite (fmul (Fin (-1/2)) x) = isfinite x.
Proof. destruct x; cbn [fmul isfinite]; unfold inf_scale; try reflexivity; (destruct (Reqb (-1/2) 0); [reflexivity|]; destruct (Bool.eqb _ _); reflexivity). Qed.
Lemma pi2 : 0 < 2 * PI. Proof. generalize PI_RGT_0; lra. Qed.

Lemma term_fin (f e k w y : fl) v :
  fmul k (fadd (fmul w (fsq (fdiv (fsub f y) e))) (flog10 (fmul (Fin (2 * PI)) (fsq e)))) = Fin v ->
  exists f' e' k' w' y', f = Fin f' /\ e = Fin e' /\ e' <> 0 /\ k = Fin k' /\ w = Fin w' /\ y = Fin y'.
Proof.
  intros E. apply fmul_fin in E as ((k' & ->) & (s & E)). apply fadd_fin in E as ((a & A) & (l & L)).
  apply fmul_fin in A as ((w' & ->) & (q & Q)). unfold fsq in Q. apply fmul_fin in Q as ((t & T) & _).
  assert (P := pi2).
  assert (He : exists e', e = Fin e' /\ e' <> 0).
  { destruct e as [e'| | |]; [exists e'; split; [reflexivity|]|exfalso..].
    - intros ->. unfold fsq in L. cbn [fmul] in L. replace (2 * PI * (0 * 0)) with 0 in L by ring. cbn [flog10] in L.
      rewrite (proj2 (Rltb_false 0 0)), (proj2 (Reqb_true 0 0)) in L by lra. discriminate L.
    - unfold fsq in L. cbn [fmul] in L. unfold inf_scale in L. rewrite (proj2 (Reqb_false (2 * PI) 0)), (proj2 (Rltb_true 0 (2 * PI))) in L by lra. discriminate L.
    - unfold fsq in L. cbn [fmul] in L. unfold inf_scale in L. rewrite (proj2 (Reqb_false (2 * PI) 0)), (proj2 (Rltb_true 0 (2 * PI))) in L by lra. discriminate L.
    - discriminate L. }
  destruct He as (e' & -> & Ne).
  assert (Hd : exists u, fsub f y = Fin u).
  { destruct (fsub f y) as [u| | |]; [now exists u|exfalso..]; cbn [fdiv] in T; try discriminate T; destruct (Rltb e' 0); discriminate T. }
  destruct Hd as (u & U). unfold fsub in U. apply fadd_fin in U as ((f' & ->) & (z & Z)).
  destruct y as [y'| | |]; cbn [fneg] in Z; try discriminate Z.
  exists f', e', k', w', y'. auto 8.
Qed.
Lemma term_fine f e k w y : e <> 0 ->
  isfinite (fmul (Fin k) (fadd (fmul (Fin w) (fsq (fdiv (fsub (Fin f) (Fin y)) (Fin e)))) (flog10 (fmul (Fin (2 * PI)) (fsq (Fin e)))))) = true.
Proof.
  intros He. assert (P := pi2). unfold fsq, fsub. cbn [fneg fadd]. rewrite fdiv_Fin by exact He. cbn [fmul]. rewrite log_pos; [reflexivity|].
  apply Rmult_lt_0_compat; [exact P|]. nra.
Qed.

Lemma finite_iff d m : isfinite (model_llike d m) = true <-> forall i j, (i < rows m)%nat -> (j < cols m)%nat -> pixel_is_fine d m i j.
Proof.
  unfold model_llike. rewrite isfin_half. split.
  - intros H i j Hi Hj. unfold pixel_is_fine.
    match type of H with isfinite (sum2 ?a) = true => destruct (at2 a i j) as [v| | |] eqn:E end.
    1: cbn [at2] in E; apply term_fin in E; exact E.
    all: exfalso; match type of H with isfinite (sum2 ?a) = true => rewrite (sum2_bad a i j Hi Hj) in H by (rewrite E; reflexivity) end; discriminate H.
  - intros H. rewrite sum2_total; [reflexivity|]. intros i j Hi Hj. cbn [rows cols at2] in *.
    destruct (H i j Hi Hj) as (f & e & k & w & y & -> & -> & Ne & -> & -> & ->). now apply term_fine.
Qed.

Lemma no_posterior c k0 k prior tf i j v : offsets_fixed k0 -> fresh k0 -> history c k0 k ->
  (i < img_rows c)%nat -> (j < length (g_wave (c_gal c)))%nat -> bad_pixel (g_data (c_gal c)) i j ->
  snd (lnprob prior (km_llike c) k tf) = Ok v -> v = NInf.
Proof.
  intros O F H Hi Hj B. unfold lnprob. destruct (prior tf) as [p|]; [|discriminate]. destruct (isfinite p) eqn:Ep; cbn [negb]; [|intros E; injection E as <-; reflexivity].
  destruct (km_llike c k tf) as [k2 [lv|e]] eqn:E; [|discriminate]. cbn [snd]. intros X. injection X as <-.
  destruct (llike_shape c k0 k tf k2 lv O F H E) as (m & M & R & C).
  apply (llike_fresh c k0 k tf O F H) in E as (m' & _ & M' & ->). rewrite M in M'. injection M' as <-.
  assert (NF : isfinite (model_llike (g_data (c_gal c)) m) = false).
  { destruct (isfinite (model_llike _ m)) eqn:Z; [exfalso|reflexivity]. rewrite <- R in Hi. rewrite <- C in Hj.
    destruct (proj1 (finite_iff _ m) Z i j Hi Hj) as (f & e & kk & w & y & E1 & E2 & Ne & E3 & E4 & _).
    destruct B as [B|[B|[B|B]]]; [now apply Ne, B|rewrite E1 in B|rewrite E3 in B|rewrite E4 in B]; discriminate B. }
  now rewrite (fadd_nonfin_r p _ NF).
Qed.

Lemma chisq_drops B d m : infinite_errors B d m -> model_chisq d m = model_chisq (masked_out B d) m.
Proof.
  intros H. unfold model_chisq, sum2. cbn [rows cols at2]. apply fsumn_ext. intros i Hi. apply fsumn_ext. intros j Hj.
  cbn [masked_out flux ferr smask fwt at2]. destruct (B i j) eqn:E; [|reflexivity].
  destruct (H i j Hi Hj E) as (I & f & k & w & y & -> & -> & -> & ->). unfold fsub. cbn [fneg fadd fmul].
  rewrite (fdiv_Fin _ 1) by lra. destruct I as [-> | ->]; cbn [fdiv]; unfold fsq; cbn [fmul]; f_equal; field.
Qed.

(* examples *)
Definition y_bad (masked : bool) : data2 :=
  mkdata (fin2 3 4 (fun _ _ => 1)) (mk2 3 4 (fun i j => if Nat.eqb i 0 && Nat.eqb j 0 then PInf else Fin 1))
    (mk2 3 4 (fun i j => if masked && (Nat.eqb i 0 && Nat.eqb j 0) then Fin 0 else Fin 1)) (fin2 3 4 (fun _ _ => 1)) [0%nat; 1%nat; 2%nat; 3%nat].
Lemma bad_example b : let c := mock_cfg (x_mock 50) (x_mk 50) (y_bad b) in
  offsets_fixed x_kf /\ fresh x_kf /\ (0 < img_rows c)%nat /\ (0 < length (g_wave (c_gal c)))%nat /\ bad_pixel (g_data (c_gal c)) 0 0 /\
  exists k, history c x_kf k /\ forall prior, prior [Fin 200; Fin (1/2); Fin 50] = Ok (Fin 0) -> snd (lnprob prior (km_llike c) k [Fin 200; Fin (1/2); Fin 50]) = Ok NInf.
Proof.
  intros c. split; [exact x_fixed|]. split; [reflexivity|]. 
  destruct (eval_lit _ _ _ (x_shining 50 (y_bad b) ltac:(lra))) as (m & (a0 & z & Es & Eb & Em) & R & C & N & _). fold c in Es, Eb, R.
  assert (Sc : exists m2, scale_model (g_data (c_gal c)) m = Ok m2).
  { change (g_data (c_gal c)) with (y_bad b). unfold scale_model. cbn [wh_nosky y_bad flux ferr fin2 cols rows]. rewrite R, C. cbn. eexists. reflexivity. }
  destruct Sc as (m2 & Sc).
  assert (NW : aper_new c [Fin 200; Fin (1/2); Fin 50; Fin 0; Fin 1] NoStamp = (a_stamp z, Ok z)) by (unfold aper_new; now rewrite Es, Eb).
  destruct (make_intro c [Fin 200; Fin (1/2); Fin 50] x_kf _ z m _ m2 eq_refl eq_refl eq_refl eq_refl NW Em Sc) as (k & E & M).
  assert (Hh : history c x_kf k) by exact (h_start _ _ _ _ E).
  assert (Hr : (0 < img_rows c)%nat) by (unfold c, img_rows; cbn; lia).
  assert (Hw : (0 < length (g_wave (c_gal c)))%nat) by (cbn; lia).
  assert (HB : bad_pixel (g_data (c_gal c)) 0 0) by (left; cbn; intros e X; discriminate X).
  split; [exact Hr|]. split; [exact Hw|]. split; [exact HB|]. exists k. split; [exact Hh|]. intros prior P.
  assert (Y : km_llike c k [Fin 200; Fin (1/2); Fin 50] = (k, Ok (model_llike (g_data (c_gal c)) m2))) by (apply (llike_fresh c x_kf k _ x_fixed eq_refl Hh); exists m2; auto).
  assert (Z : exists v, snd (lnprob prior (km_llike c) k [Fin 200; Fin (1/2); Fin 50]) = Ok v) by (unfold lnprob; rewrite P, Y; cbn [isfinite negb snd]; eexists; reflexivity).
  destruct Z as (v & Z). rewrite Z. f_equal. exact (no_posterior c x_kf k prior _ 0 0 v x_fixed eq_refl Hh Hr Hw HB Z).
Qed.
Lemma drops_example : infinite_errors (fun i j => Nat.eqb i 0 && Nat.eqb j 0) (y_bad false) (fin2 3 4 (fun _ _ => 0)) /\
  model_chisq (y_bad false) (fin2 3 4 (fun _ _ => 0)) = Fin 11 /\ isfinite (model_llike (y_bad true) (fin2 3 4 (fun _ _ => 0))) = false.
Proof.
  assert (H : infinite_errors (fun i j => Nat.eqb i 0 && Nat.eqb j 0) (y_bad false) (fin2 3 4 (fun _ _ => 0))).
  { intros i j Hi Hj B. cbn [y_bad ferr flux smask fwt at2 fin2]. rewrite B. split; [now left|]. exists 1, 1, 1, 0. auto. }
  split; [exact H|]. split.
  - rewrite (chisq_drops _ _ _ H). unfold model_chisq, sum2, fsumn. cbn [rows cols at2 masked_out y_bad flux ferr smask fwt fin2 seq map Nat.eqb andb fsub fneg fadd fmul].
    rewrite !fdiv_Fin by lra. unfold fsq. cbn [fsum fold_right fadd fmul]. f_equal. field.
  - destruct (isfinite _) eqn:E; [exfalso|reflexivity]. destruct (proj1 (finite_iff _ _) E 0%nat 0%nat) as (f & e & k & w & y & _ & X & _); [cbn; lia..|]. discriminate X.
Qed.
Lemma infinite_refuted : exists B d m, infinite_errors B d m /\ isfinite (model_chisq d m) = true /\ isfinite (model_llike (masked_out B d) m) = true /\
  isfinite (model_llike d m) = false /\ isfinite (model_llike (mkdata (flux d) (ferr d) (smask (masked_out B d)) (fwt d) (wh_nosky d)) m) = false.
Proof.
  destruct drops_example as (H & Q & _). exists (fun i j => Nat.eqb i 0 && Nat.eqb j 0), (y_bad false), (fin2 3 4 (fun _ _ => 0)).
  split; [exact H|]. split; [rewrite Q; reflexivity|]. split.
  - apply finite_iff. intros i j _ _. unfold pixel_is_fine. cbn [masked_out y_bad flux ferr smask fwt at2 fin2].
    exists 1, 1, (if Nat.eqb i 0 && Nat.eqb j 0 then 0 else 1), 1, 0. destruct (Nat.eqb i 0 && Nat.eqb j 0); cbn [andb]; repeat split; lra.
  - split; (match goal with |- ?x = false => destruct x eqn:E end; [exfalso|reflexivity]; destruct (proj1 (finite_iff _ _) E 0%nat 0%nat) as (f & e & k & w & y & _ & X & _); [cbn; lia..|]; discriminate X).
Qed.
