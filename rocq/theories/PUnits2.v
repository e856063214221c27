(* Proofs: preparation in two units of flux, up to the continuum. *)
From Coq Require Import Reals Lra Lia List Bool Arith ZArith.
From Verif Require Import PyFloat PyBase Arr PyNum PKernels PAper2D PBright MMask MTrim PTrim MPrep SPrep PPrep SUnits PUnits.
Import ListNotations.
Local Open Scope R_scope.

(** Two runs: the same exception, or values and final states related. *)
Lemma both_ok {S A} (V : A -> A -> S -> S -> Prop) a a' f f' : V a a' f f' -> both V (f, Ok a) (f', Ok a').
Proof. intros H. exact H. Qed.
Lemma both_bind {S A B} (V : A -> A -> S -> S -> Prop) (W : B -> B -> S -> S -> Prop) m m' k k' e e' :
  both V (m e) (m' e') -> (forall a a' f f', V a a' f f' -> both W (k a f) (k' a' f')) -> both W (bindS m k e) (bindS m' k' e').
Proof. unfold both, bindS. destruct (m e) as [f [a|x]], (m' e') as [f' [a'|x']]; cbn; intros H K; try contradiction; [now apply K|exact H]. Qed.
Lemma both_lift {S A B} (V : A -> A -> Prop) (W : B -> B -> S -> S -> Prop) r r' k k' e e' :
  rrel V r r' -> (forall a a', V a a' -> r = Ok a -> r' = Ok a' -> both W (k a e) (k' a' e')) -> both W (bindS (liftR r) k e) (bindS (liftR r') k' e').
Proof. unfold both, bindS, liftR. destruct r, r'; cbn; intros H K; try contradiction; [now apply K|exact H]. Qed.
Lemma both_same {S A B} (W : B -> B -> S -> S -> Prop) (r : res A) k k' e e' :
  (forall a, r = Ok a -> both W (k a e) (k' a e')) -> both W (bindS (liftR r) k e) (bindS (liftR r) k' e').
Proof. unfold both, bindS, liftR. destruct r; cbn; intros K; [now apply K|reflexivity]. Qed.
Lemma both_wf {B} (W : B -> B -> env -> env -> Prop) a a' K K' e e' :
  (forall k k', both W (K tt (mkEnv (set_q_flux (Some a) (e2 e)) (e1 e) (e_dpa e) (e_reg e) k)) (K' tt (mkEnv (set_q_flux (Some a') (e2 e')) (e1 e') (e_dpa e') (e_reg e') k'))) ->
  both W (bindS (write_flux a) K e) (bindS (write_flux a') K' e').
Proof. intros H. apply H. Qed.
Lemma both_we {B} (W : B -> B -> env -> env -> Prop) a a' K K' e e' :
  (forall k k', both W (K tt (mkEnv (set_q_err (Some a) (e2 e)) (e1 e) (e_dpa e) (e_reg e) k)) (K' tt (mkEnv (set_q_err (Some a') (e2 e')) (e1 e') (e_dpa e') (e_reg e') k'))) ->
  both W (bindS (write_err a) K e) (bindS (write_err a') K' e').
Proof. intros H. apply H. Qed.
Lemma both_wm {B} (W : B -> B -> env -> env -> Prop) a a' K K' e e' :
  (forall k k', both W (K tt (mkEnv (set_q_mask (Some a) (e2 e)) (e1 e) (e_dpa e) (e_reg e) k)) (K' tt (mkEnv (set_q_mask (Some a') (e2 e')) (e1 e') (e_dpa e') (e_reg e') k'))) ->
  both W (bindS (write_mask a) K e) (bindS (write_mask a') K' e').
Proof. intros H. apply H. Qed.
Lemma both_w1 {B} (W : B -> B -> env -> env -> Prop) a a' K K' e e' :
  (forall k k', both W (K tt (mkEnv (e2 e) (option_map (set_s_mask a) (e1 e)) (e_dpa e) (e_reg e) k)) (K' tt (mkEnv (e2 e') (option_map (set_s_mask a') (e1 e')) (e_dpa e') (e_reg e') k'))) ->
  both W (bindS (write_mask1 a) K e) (bindS (write_mask1 a') K' e').
Proof. intros H. apply H. Qed.

(* ---------------- the unit-free part of a spectrum ---------------- *)
Section Free.
Variables s s' : sp2.
Hypothesis H : unit_free s' = unit_free s.
Lemma fr_wave : q_wave s' = q_wave s. Proof. exact (f_equal q_wave H). Qed.
Lemma fr_obs : q_obs s' = q_obs s. Proof. exact (f_equal q_obs H). Qed.
Lemma fr_mask : q_mask s' = q_mask s. Proof. exact (f_equal q_mask H). Qed.
Lemma fr_weight : q_weight s' = q_weight s. Proof. exact (f_equal q_weight H). Qed.
Lemma fr_qual : q_qual s' = q_qual s. Proof. exact (f_equal q_qual H). Qed.
Lemma fr_sky : q_sky s' = q_sky s. Proof. exact (f_equal q_sky H). Qed.
Lemma fr_low : q_low s' = q_low s. Proof. exact (f_equal q_low H). Qed.
Lemma fr_nosky : q_wh_nosky s' = q_wh_nosky s. Proof. exact (f_equal q_wh_nosky H). Qed.
Lemma fr_low_inds : q_low_inds s' = q_low_inds s. Proof. exact (f_equal q_low_inds H). Qed.
Lemma fr_cutoff : q_cutoff s' = q_cutoff s. Proof. exact (f_equal q_cutoff H). Qed.
Lemma fr_rfull : q_rfull s' = q_rfull s. Proof. exact (f_equal q_rfull H). Qed.
Lemma fr_rline : q_rline s' = q_rline s. Proof. exact (f_equal q_rline H). Qed.
Lemma fr_rmline : q_rmline s' = q_rmline s. Proof. exact (f_equal q_rmline H). Qed.
Lemma fr_lam0 : q_lam0 s' = q_lam0 s. Proof. exact (f_equal q_lam0 H). Qed.
Lemma fr_ypos : q_ypos s' = q_ypos s. Proof. exact (f_equal q_ypos H). Qed.
Lemma fr_m0 : q_m0 s' = q_m0 s. Proof. exact (f_equal q_m0 H). Qed.
Lemma fr_m0_fit : q_m0_fit s' = q_m0_fit s. Proof. exact (f_equal q_m0_fit H). Qed.
Lemma fr_m0_snr : q_m0_snr s' = q_m0_snr s. Proof. exact (f_equal q_m0_snr H). Qed.
Lemma fr_mlims : q_mlims s' = q_mlims s. Proof. exact (f_equal q_mlims H). Qed.
Lemma fr_prepared : q_prepared s' = q_prepared s. Proof. exact (f_equal q_prepared H). Qed.
Lemma fu_flux v v' : unit_free (set_q_flux v' s') = unit_free (set_q_flux v s). Proof. exact H. Qed.
Lemma fu_err v v' : unit_free (set_q_err v' s') = unit_free (set_q_err v s). Proof. exact H. Qed.
Lemma fu_incl v v' : unit_free (set_q_incl v' s') = unit_free (set_q_incl v s). Proof. exact H. Qed.
Lemma fu_cont v v' : unit_free (set_q_cont v' s') = unit_free (set_q_cont v s). Proof. exact H. Qed.
Lemma fu_median v v' : unit_free (set_q_median v' s') = unit_free (set_q_median v s). Proof. exact H. Qed.
Lemma fu_wave v : unit_free (set_q_wave v s') = unit_free (set_q_wave v s). Proof. exact (f_equal (set_q_wave v) H). Qed.
Lemma fu_obs v : unit_free (set_q_obs v s') = unit_free (set_q_obs v s). Proof. exact (f_equal (set_q_obs v) H). Qed.
Lemma fu_rest v : unit_free (set_q_rest v s') = unit_free (set_q_rest v s). Proof. exact (f_equal (set_q_rest v) H). Qed.
Lemma fu_mask v : unit_free (set_q_mask v s') = unit_free (set_q_mask v s). Proof. exact (f_equal (set_q_mask v) H). Qed.
Lemma fu_weight v : unit_free (set_q_weight v s') = unit_free (set_q_weight v s). Proof. exact (f_equal (set_q_weight v) H). Qed.
Lemma fu_qual v : unit_free (set_q_qual v s') = unit_free (set_q_qual v s). Proof. exact (f_equal (set_q_qual v) H). Qed.
Lemma fu_sky v : unit_free (set_q_sky v s') = unit_free (set_q_sky v s). Proof. exact (f_equal (set_q_sky v) H). Qed.
Lemma fu_low v : unit_free (set_q_low v s') = unit_free (set_q_low v s). Proof. exact (f_equal (set_q_low v) H). Qed.
Lemma fu_wh_sky v : unit_free (set_q_wh_sky v s') = unit_free (set_q_wh_sky v s). Proof. exact (f_equal (set_q_wh_sky v) H). Qed.
Lemma fu_wh_nosky v : unit_free (set_q_wh_nosky v s') = unit_free (set_q_wh_nosky v s). Proof. exact (f_equal (set_q_wh_nosky v) H). Qed.
Lemma fu_low_inds v : unit_free (set_q_low_inds v s') = unit_free (set_q_low_inds v s). Proof. exact (f_equal (set_q_low_inds v) H). Qed.
Lemma fu_rfull v : unit_free (set_q_rfull v s') = unit_free (set_q_rfull v s). Proof. exact (f_equal (set_q_rfull v) H). Qed.
Lemma fu_rline v : unit_free (set_q_rline v s') = unit_free (set_q_rline v s). Proof. exact (f_equal (set_q_rline v) H). Qed.
Lemma fu_rmline v : unit_free (set_q_rmline v s') = unit_free (set_q_rmline v s). Proof. exact (f_equal (set_q_rmline v) H). Qed.
Lemma fu_trimo v : unit_free (set_q_trimo v s') = unit_free (set_q_trimo v s). Proof. exact (f_equal (set_q_trimo v) H). Qed.
Lemma fu_trimr v : unit_free (set_q_trimr v s') = unit_free (set_q_trimr v s). Proof. exact (f_equal (set_q_trimr v) H). Qed.
Lemma fu_lam0 v : unit_free (set_q_lam0 v s') = unit_free (set_q_lam0 v s). Proof. exact (f_equal (set_q_lam0 v) H). Qed.
Lemma fu_ypos v : unit_free (set_q_ypos v s') = unit_free (set_q_ypos v s). Proof. exact (f_equal (set_q_ypos v) H). Qed.
Lemma fu_m0 v : unit_free (set_q_m0 v s') = unit_free (set_q_m0 v s). Proof. exact (f_equal (set_q_m0 v) H). Qed.
Lemma fu_m0_fit v : unit_free (set_q_m0_fit v s') = unit_free (set_q_m0_fit v s). Proof. exact (f_equal (set_q_m0_fit v) H). Qed.
Lemma fu_m0_snr v : unit_free (set_q_m0_snr v s') = unit_free (set_q_m0_snr v s). Proof. exact (f_equal (set_q_m0_snr v) H). Qed.
Lemma fu_mlims v : unit_free (set_q_mlims v s') = unit_free (set_q_mlims v s). Proof. exact (f_equal (set_q_mlims v) H). Qed.
Lemma fu_full v : unit_free (set_q_full v s') = unit_free (set_q_full v s). Proof. exact (f_equal (set_q_full v) H). Qed.
Lemma fu_wprof v : unit_free (set_q_wprof v s') = unit_free (set_q_wprof v s). Proof. exact (f_equal (set_q_wprof v) H). Qed.
Lemma fu_wmat v : unit_free (set_q_wmat v s') = unit_free (set_q_wmat v s). Proof. exact (f_equal (set_q_wmat v) H). Qed.
Lemma fu_m0_shift v : unit_free (set_q_m0_shift v s') = unit_free (set_q_m0_shift v s). Proof. exact (f_equal (set_q_m0_shift v) H). Qed.
Lemma fu_prepared v : unit_free (set_q_prepared v s') = unit_free (set_q_prepared v s). Proof. exact (f_equal (set_q_prepared v) H). Qed.
End Free.
Ltac fu := repeat match goal with
  | |- unit_free (set_q_flux _ _) = unit_free (set_q_flux _ _) => apply fu_flux
  | |- unit_free (set_q_err _ _) = unit_free (set_q_err _ _) => apply fu_err
  | |- unit_free (set_q_incl _ _) = unit_free (set_q_incl _ _) => apply fu_incl
  | |- unit_free (set_q_cont _ _) = unit_free (set_q_cont _ _) => apply fu_cont
  | |- unit_free (set_q_median _ _) = unit_free (set_q_median _ _) => apply fu_median
  | |- unit_free (set_q_wave _ _) = unit_free (set_q_wave _ _) => apply fu_wave
  | |- unit_free (set_q_obs _ _) = unit_free (set_q_obs _ _) => apply fu_obs
  | |- unit_free (set_q_rest _ _) = unit_free (set_q_rest _ _) => apply fu_rest
  | |- unit_free (set_q_mask _ _) = unit_free (set_q_mask _ _) => apply fu_mask
  | |- unit_free (set_q_weight _ _) = unit_free (set_q_weight _ _) => apply fu_weight
  | |- unit_free (set_q_qual _ _) = unit_free (set_q_qual _ _) => apply fu_qual
  | |- unit_free (set_q_sky _ _) = unit_free (set_q_sky _ _) => apply fu_sky
  | |- unit_free (set_q_low _ _) = unit_free (set_q_low _ _) => apply fu_low
  | |- unit_free (set_q_wh_sky _ _) = unit_free (set_q_wh_sky _ _) => apply fu_wh_sky
  | |- unit_free (set_q_wh_nosky _ _) = unit_free (set_q_wh_nosky _ _) => apply fu_wh_nosky
  | |- unit_free (set_q_low_inds _ _) = unit_free (set_q_low_inds _ _) => apply fu_low_inds
  | |- unit_free (set_q_rfull _ _) = unit_free (set_q_rfull _ _) => apply fu_rfull
  | |- unit_free (set_q_rline _ _) = unit_free (set_q_rline _ _) => apply fu_rline
  | |- unit_free (set_q_rmline _ _) = unit_free (set_q_rmline _ _) => apply fu_rmline
  | |- unit_free (set_q_trimo _ _) = unit_free (set_q_trimo _ _) => apply fu_trimo
  | |- unit_free (set_q_trimr _ _) = unit_free (set_q_trimr _ _) => apply fu_trimr
  | |- unit_free (set_q_lam0 _ _) = unit_free (set_q_lam0 _ _) => apply fu_lam0
  | |- unit_free (set_q_ypos _ _) = unit_free (set_q_ypos _ _) => apply fu_ypos
  | |- unit_free (set_q_m0 _ _) = unit_free (set_q_m0 _ _) => apply fu_m0
  | |- unit_free (set_q_m0_fit _ _) = unit_free (set_q_m0_fit _ _) => apply fu_m0_fit
  | |- unit_free (set_q_m0_snr _ _) = unit_free (set_q_m0_snr _ _) => apply fu_m0_snr
  | |- unit_free (set_q_mlims _ _) = unit_free (set_q_mlims _ _) => apply fu_mlims
  | |- unit_free (set_q_full _ _) = unit_free (set_q_full _ _) => apply fu_full
  | |- unit_free (set_q_wprof _ _) = unit_free (set_q_wprof _ _) => apply fu_wprof
  | |- unit_free (set_q_wmat _ _) = unit_free (set_q_wmat _ _) => apply fu_wmat
  | |- unit_free (set_q_m0_shift _ _) = unit_free (set_q_m0_shift _ _) => apply fu_m0_shift
  | |- unit_free (set_q_prepared _ _) = unit_free (set_q_prepared _ _) => apply fu_prepared
  end.
Lemma free_in u s : unit_free (sp2_in u s) = unit_free s. Proof. reflexivity. Qed.

(* ---------------- before the continuum ---------------- *)
Section U.
Variable u : R.
Hypothesis Hu : 0 < u.
Variable c : cfg.
Hypothesis Hc : answers_in_unit u c.
Notation s_ := (fmul (Fin u)).

Definition blank (e : env) : Prop := q_qual (e2 e) = None /\ q_sky (e2 e) = None.
Definition R0 (_ _ : unit) (e e' : env) : Prop := handed_in u e e' /\ blank e.

Lemma need_in {A} (f : A -> A) x o : rrel (fun a a' => a' = f a) (need x o) (need x (option_map f o)).
Proof. destruct o; cbn; reflexivity. Qed.

Lemma skylevels_units e e' : R0 tt tt e e' -> both R0 (prep_skylevels c e) (prep_skylevels c e').
Proof.
  intros [(A & B & C & D) E]. unfold prep_skylevels. rewrite !bind_get. rewrite A. change (q_cutoff (sp2_in u (e2 e))) with (q_cutoff (e2 e)).
  destruct (q_cutoff (e2 e)); [split; [repeat split; assumption|exact E]|]. apply both_same. intros p _. rewrite !up2_eq. split; [|exact E].
  split; [cbn [e2]; now rewrite A|]. repeat split; assumption.
Qed.
Lemma derived_units e e' : R0 tt tt e e' -> both R0 (prep_derived c e) (prep_derived c e').
Proof.
  intros [(A & B & C & D) E]. unfold prep_derived. rewrite !bind_get. rewrite A. change (q_wave (sp2_in u (e2 e))) with (q_wave (e2 e)).
  apply both_same. intros w _. rewrite !bind_up2. change (q_lam0 (sp2_in u (e2 e))) with (q_lam0 (e2 e)).
  destruct (q_lam0 (e2 e)).
  - split; [|exact E]. split; [cbn [e2]; now rewrite A|]. repeat split; assumption.
  - rewrite !up2_eq. split; [|exact E]. split; [cbn [e2]; now rewrite A|]. repeat split; assumption.
Qed.
Lemma ensure_units e e' : R0 tt tt e e' -> both R0 (ensure_mask_weight e) (ensure_mask_weight e').
Proof.
  intros [(A & B & C & D) E]. unfold ensure_mask_weight. rewrite !bind_get. rewrite A. change (q_weight (sp2_in u (e2 e))) with (q_weight (e2 e)).
  change (q_mask (sp2_in u (e2 e))) with (q_mask (e2 e)). change (q_flux (sp2_in u (e2 e))) with (option_map (img_in u) (q_flux (e2 e))).
  apply both_bind with R0.
  - destruct (q_weight (e2 e)); [split; [repeat split; assumption|exact E]|]. eapply both_lift; [apply need_in|]. intros f f' -> _ _. rewrite !up2_eq. split; [|exact E].
    split; [cbn [e2 img_in rows cols]; now rewrite A|]. repeat split; assumption.
  - intros [] [] f f' [(A' & B' & C' & D') E']. destruct (q_mask (e2 e)); [split; [repeat split; assumption|exact E']|].
    eapply both_lift; [apply need_in|]. intros g g' -> _ _. rewrite !up2_eq. split; [|exact E'].
    split; [cbn [e2 img_in rows cols]; now rewrite A'|]. repeat split; assumption.
Qed.

(* ---------------- masks and filling ---------------- *)
(** The relation of two spectra after filling; [P] for the flux. *)
Definition like (P : Prop -> fl -> fl -> Prop) (s s' : sp2) : Prop :=
  let z := masked (q_mask s) (q_qual s) (q_sky s) in
  unit_free s' = unit_free s /\
  pixelwise_o (fun i j => P (z i j)) (q_flux s) (q_flux s') /\
  pixelwise_o (fun i j => converted_or_filled u (z i j)) (q_err s) (q_err s') /\
  pixelwise_o (fun i j => converted_or_filled u (z i j)) (q_incl s) (q_incl s') /\
  q_cont s' = option_map (img_in u) (q_cont s) /\ q_median s' = option_map s_ (q_median s).
Definition outer (e e' : env) : Prop := e1 e' = option_map (sp1_in u) (e1 e) /\ e_dpa e' = e_dpa e /\ e_reg e' = e_reg e.

Lemma mask1_in m t : option_map (set_s_mask m) (option_map (sp1_in u) t) = option_map (sp1_in u) (option_map (set_s_mask m) t).
Proof. destruct t; reflexivity. Qed.

Definition R1 (_ _ : unit) (e e' : env) : Prop := like (converted_or_filled u) (e2 e) (e2 e') /\ outer e e' /\ blank e.

Lemma masks_units e e' : R0 tt tt e e' -> both R1 (cont_masks c e) (cont_masks c e').
Proof.
  intros [(A & B & C & D) [E F]]. unfold cont_masks. rewrite !bind_get. rewrite A. change (q_weight (sp2_in u (e2 e))) with (q_weight (e2 e)).
  change (q_mask (sp2_in u (e2 e))) with (q_mask (e2 e)). change (q_flux (sp2_in u (e2 e))) with (option_map (img_in u) (q_flux (e2 e))).
  change (q_err (sp2_in u (e2 e))) with (option_map (img_in u) (q_err (e2 e))).
  eapply both_lift; [apply need_in|]. intros fx fx' -> _ _. eapply both_lift; [apply need_in|]. intros er er' -> _ _.
  rewrite (missing_units u Hu). apply both_same. intros m _. apply both_wm. intros k k'. rewrite A.
  apply both_bind with (fun a a' f f' => a' = a /\ handed_in u f f' /\ q_mask (e2 f) = Some a /\ blank f).
  - destruct (g_nocont c).
    + split; [reflexivity|]. split; [|split; [reflexivity|split; assumption]]. split; [reflexivity|]. repeat split; assumption.
    + rewrite !bind_get. cbn [e1]. rewrite B. eapply both_lift; [apply need_in|]. intros t t' -> _ _.
      change (s_flux (sp1_in u t)) with (option_map (list_in u) (s_flux t)). change (s_err (sp1_in u t)) with (option_map (list_in u) (s_err t)). change (s_mask (sp1_in u t)) with (s_mask t).
      eapply both_lift; [apply need_in|]. intros f1 f1' -> _ _. eapply both_lift; [apply need_in|]. intros r1 r1' -> _ _. rewrite (missing1_units u Hu). apply both_same. intros m1 _.
      replace (length (list_in u f1)) with (length f1) by (unfold list_in; now rewrite map_length).
      apply both_w1. intros k1 k1'. apply both_w1. intros k2 k2'. apply both_same. intros m2 _. apply both_wm. intros k3 k3'.
      split; [reflexivity|]. split; [|split; [reflexivity|split; assumption]]. split; [reflexivity|]. cbn [e1 e_dpa e_reg]. rewrite ?B, !mask1_in. repeat split; assumption.
  - intros m2 m2' f f' (-> & (A' & B' & C' & D') & M & [E' F']). apply both_wf. intros k1 k1'. apply both_we. intros k2 k2'.
    assert (P1 := fill_pixels u Hu fx m2 false). assert (P2 := fill_pixels u Hu er m2 true). set (fx2 := spec_nan_masking fx _ _ _ _) in *. set (fx2' := spec_nan_masking (img_in u fx) _ _ _ _) in *.
    set (er2 := spec_nan_masking er _ _ _ _) in *. set (er2' := spec_nan_masking (img_in u er) _ _ _ _) in *. clearbody fx2 fx2' er2 er2'. cbv zeta.
    rewrite (shape_units _ _ _ m2 P2). apply both_same. intros _ _. rewrite !up2_eq.
    assert (P2' : pixelwise (fun i j => under u (at2 m2 i j)) er2 er2') by (eapply pixel_weaken; [|exact P2]; intros i j x x'; apply filled_masked).
    assert (N : map (col_noise er2' m2) (seq 0 (cols er2')) = list_in u (map (col_noise er2 m2) (seq 0 (cols er2)))).
    { unfold list_in. rewrite map_map. rewrite (proj1 (proj2 P2)). apply map_ext. intros j. now apply noise_units. }
    rewrite N. destruct Hc as (Hm & _). rewrite Hm. cbn [e2 e1 e_dpa e_reg].
    set (md := g_median c _). clearbody md. rewrite A'.
    assert (Zm : forall i j, at2 m2 i j = Fin 0 -> masked (Some m2) None None i j).
    { intros i j Q. split; [|split; intros ? X; discriminate X]. intros ? X. injection X as <-. exact Q. }
    apply both_ok. split; [|split; [repeat split; assumption|split; assumption]]. cbn [e2].
    unfold like. cbv zeta. split; [fu; apply free_in|].
    match goal with |- context [masked ?a ?b ?d] => change (masked a b d) with (masked (q_mask (e2 f)) (q_qual (e2 f)) (q_sky (e2 f))) end. rewrite M, E', F'.
    split; [|split; [|split; [|split]]].
    + apply (pixel_weaken_o (fun i j => converted_or_filled u (at2 m2 i j = Fin 0)) _ (Some fx2) (Some fx2')); [|exact P1]. intros i j x x'. apply filled_weaken. apply Zm.
    + apply (pixel_weaken_o (fun i j => converted_or_filled u (at2 m2 i j = Fin 0)) _ (Some er2) (Some er2')); [|exact P2]. intros i j x x'. apply filled_weaken. apply Zm.
    + apply pixel_in_o. intros i j x. now left.
    + reflexivity.
    + reflexivity.
Qed.
End U.
