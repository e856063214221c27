(* Proofs about fit preparation: what holds after it succeeds. *)
From Coq Require Import Reals List Bool Arith ZArith Lra Lia Sorted.
From Verif Require Import PyFloat PyBase Arr PyNum PAper2D MMask SMask PMask PMask2 MTrim STrim PTrim PTrim2 MPrep SPrep.
Import ListNotations.
Local Open Scope R_scope.

(* ---------------- running the monad backwards ---------------- *)

Lemma up2_eq f e : up2 f e = (mkEnv (f (e2 e)) (e1 e) (e_dpa e) (e_reg e) (e_k e), Ok tt).
Proof. reflexivity. Qed.
Lemma bind_up2 f {B} (k : unit -> ST env B) e :
  bindS (up2 f) k e = k tt (mkEnv (f (e2 e)) (e1 e) (e_dpa e) (e_reg e) (e_k e)).
Proof. reflexivity. Qed.
Lemma bind_up1 f {B} (k : unit -> ST env B) e :
  bindS (up1 f) k e = k tt (mkEnv (e2 e) (option_map f (e1 e)) (e_dpa e) (e_reg e) (e_k e)).
Proof. reflexivity. Qed.
Lemma bind_upk f {B} (k : unit -> ST env B) e :
  bindS (upk f) k e = k tt (mkEnv (e2 e) (e1 e) (e_dpa e) (e_reg e) (f (e_k e))).
Proof. reflexivity. Qed.
Lemma need_inv {A} x (o : option A) a : need x o = Ok a -> o = Some a.
Proof. destruct o; cbn; congruence. Qed.

(** Take one step off a successful run [H]. *)
Ltac stepin H :=
  first [ rewrite bind_get in H | rewrite bind_ret in H | rewrite bind_up2 in H | rewrite bind_up1 in H
        | rewrite bind_upk in H | rewrite bind_mod in H ].
Ltac liftin H :=
  let s1 := fresh "s" in let a := fresh "a" in let E := fresh "E" in
  apply bind_inv in H; destruct H as (s1 & a & E & H); apply lift_inv in E; destruct E as [-> E].

(** Everything of the 2-D spectrum except flux, error, mask, continuum images and median. *)
Definition rest_same (s s' : sp2) : Prop :=
  q_wave s' = q_wave s /\ q_obs s' = q_obs s /\ q_weight s' = q_weight s /\ q_qual s' = q_qual s /\
  q_ypos s' = q_ypos s /\ q_rfull s' = q_rfull s /\ q_rline s' = q_rline s /\ q_rmline s' = q_rmline s /\
  q_cutoff s' = q_cutoff s /\ q_lam0 s' = q_lam0 s /\ q_prepared s' = q_prepared s.
Lemma rest_same_refl s : rest_same s s. Proof. repeat split. Qed.

(* ---------------- before the continuum ---------------- *)

Definition the_mask (o : option (arr2 fl)) (fx : arr2 fl) : arr2 fl :=
  match o with Some m => m | None => mk2 (rows fx) (cols fx) (fun _ _ => Fin 1) end.

Lemma ensure_run e fx : q_flux (e2 e) = Some fx ->
  ensure_mask_weight e =
  (mkEnv (set_q_mask (Some (the_mask (q_mask (e2 e)) fx)) (set_q_weight (Some (the_mask (q_weight (e2 e)) fx)) (e2 e))) (e1 e) (e_dpa e) (e_reg e) (e_k e), Ok tt).
Proof.
  intros F. unfold ensure_mask_weight. rewrite bind_get.
  destruct (q_weight (e2 e)) as [w|] eqn:W; destruct (q_mask (e2 e)) as [m|] eqn:M; cbn [the_mask].
  - rewrite bind_ret. unfold ret. destruct e as [s t d r k]. destruct s. cbn in *. subst. reflexivity.
  - rewrite bind_ret. rewrite (bind_lift _ fx) by (now rewrite F). rewrite up2_eq. destruct e as [s t d r k]. destruct s. cbn in *. subst. reflexivity.
  - erewrite bind_ok; [|rewrite (bind_lift _ fx) by (now rewrite F); apply up2_eq]. unfold ret. destruct e as [s t d r k]. destruct s. cbn in *. subst. reflexivity.
  - erewrite bind_ok; [|rewrite (bind_lift _ fx) by (now rewrite F); apply up2_eq].
    rewrite (bind_lift _ fx) by (now rewrite F). reflexivity.
Qed.

Lemma the_mask_shape o fx n p : shape fx n p -> (forall m, o = Some m -> shape m n p) -> shape (the_mask o fx) n p.
Proof. intros [H1 H2] H. destruct o as [m|]; cbn; [now apply H|split; auto]. Qed.

(** The steps before continuum subtraction. *)
Definition prep_start (c : cfg) : ST env unit :=
  sdo _ <- liftR (g_lines c); sdo _ <- prep_skylevels c; sdo _ <- prep_derived c; ensure_mask_weight.

Lemma start_inv c e e' wave fx er n : raw (e2 e) wave fx er n -> prep_start c e = (e', Ok tt) ->
  exists m w, arrays2 (e2 e') wave fx er m w /\ rows fx = n /\
    m = the_mask (q_mask (e2 e)) fx /\ w = the_mask (q_weight (e2 e)) fx /\
    q_qual (e2 e') = None /\ q_ypos (e2 e') = q_ypos (e2 e) /\ q_lam0 (e2 e') <> None /\ q_prepared (e2 e') = false /\
    e1 e' = e1 e /\ e_k e' = e_k e /\
    q_rfull (e2 e') = q_rfull (e2 e) /\ q_rline (e2 e') = q_rline (e2 e) /\ q_rmline (e2 e') = q_rmline (e2 e) /\
    e_dpa e' = e_dpa e /\ (exists p, q_cutoff (e2 e') = Some p /\ match q_cutoff (e2 e) with Some p' => p = p' | None => g_sky c = Ok p end).
Proof.
  intros (W & O & F & E & Sf & Se & Sm & Sw & Q & P) H. unfold prep_start in H. liftin H.
  apply bind_inv in H. destruct H as (ea & u1 & H1 & H). apply bind_inv in H. destruct H as (eb & u2 & H2 & H).
  assert (A1 : (exists p, ea = mkEnv (set_q_cutoff (Some p) (e2 e)) (e1 e) (e_dpa e) (e_reg e) (e_k e) /\
             match q_cutoff (e2 e) with Some p' => p = p' | None => g_sky c = Ok p end)).
  { unfold prep_skylevels in H1. rewrite bind_get in H1. destruct (q_cutoff (e2 e)) as [p|] eqn:Ec.
    - exists p. split; [|reflexivity]. injection H1 as <- _. destruct e as [s t d r k]. destruct s. cbn in *. now subst.
    - liftin H1. rewrite up2_eq in H1. injection H1 as <- _. exists a0. auto. }
  destruct A1 as (pc & -> & Hpc). clear H1.
  unfold prep_derived in H2. rewrite bind_get in H2. cbn [e2] in H2.
  change (q_wave (set_q_cutoff (Some pc) (e2 e))) with (q_wave (e2 e)) in H2. rewrite W in H2.
  rewrite (bind_lift _ wave) in H2 by reflexivity. rewrite bind_up2 in H2. cbn [e2] in H2.
  assert (A2 : exists s, eb = mkEnv s (e1 e) (e_dpa e) (e_reg e) (e_k e) /\ rest_same (set_q_lam0 (q_lam0 s) (set_q_cutoff (Some pc) (e2 e))) s /\
     q_lam0 s <> None /\ q_flux s = q_flux (e2 e) /\ q_err s = q_err (e2 e) /\ q_mask s = q_mask (e2 e)).
  { change (q_lam0 (set_q_cutoff (Some pc) (e2 e))) with (q_lam0 (e2 e)) in H2. destruct (q_lam0 (e2 e)) as [l|] eqn:El.
    - injection H2 as <- _. eexists. split; [reflexivity|]. split; [repeat split; try reflexivity|]. split; [|repeat split; reflexivity].
      change (q_lam0 (e2 e) <> None). congruence.
    - rewrite up2_eq in H2. injection H2 as <- _. eexists. split; [reflexivity|]. split; [repeat split; reflexivity|]. split; [discriminate|repeat split; reflexivity]. }
  destruct A2 as (s & -> & RS & L0 & Fs & Es & Ms). clear H2.
  rewrite (ensure_run _ fx) in H by (cbn [e2]; congruence). injection H as <-. cbn [e2 e1 e_k e_dpa].
  destruct RS as (R1 & R2 & R3 & R4 & R5 & R6 & R7 & R8 & R9 & R10 & R11).
  assert (Ws : q_weight s = q_weight (e2 e)) by exact R3.
  exists (the_mask (q_mask s) fx), (the_mask (q_weight s) fx).
  split.
  { assert (S1 := the_mask_shape (q_mask s) fx n (length wave) Sf). assert (S2 := the_mask_shape (q_weight s) fx n (length wave) Sf).
    rewrite Ms, Ws in *. specialize (S1 Sm). specialize (S2 Sw). destruct Sf as [Sf1 Sf2].
    split; [exact (eq_trans R1 W)|]. split; [exact (eq_trans R2 O)|]. split; [exact (eq_trans Fs F)|]. split; [exact (eq_trans Es E)|].
    split; [reflexivity|]. split; [reflexivity|]. rewrite Sf1. split; [now split|]. split; [exact Se|]. split; assumption. }
  split; [apply Sf|]. split; [now rewrite Ms|]. split; [now rewrite Ws|].
  split; [exact (eq_trans R4 Q)|]. split; [exact R5|]. split; [exact L0|]. split; [exact (eq_trans R11 P)|].
  split; [reflexivity|]. split; [reflexivity|]. split; [exact R6|]. split; [exact R7|]. split; [exact R8|].
  split; [reflexivity|]. exists pc. split; [exact R9|exact Hpc].
Qed.

(* ---------------- masks and filling ---------------- *)

Lemma nan_mask_shape a m f z n p : shape a n p -> shape (spec_nan_masking a m f z false) n p.
Proof. intros [H1 H2]. unfold spec_nan_masking. destruct z; split; assumption. Qed.

(** Filling with a non-zero number. *)
Lemma nan_mask_flux a m f i j : (isfinite (at2 a i j) = false -> at2 m i j = Fin 0) ->
  isfinite (at2 (spec_nan_masking a m (Fin f) false false) i j) = true.
Proof.
  intros H. unfold spec_nan_masking. cbn [at2 orb]. destruct (isfinite (at2 a i j)) eqn:E; cbn [negb andb]; [exact E|].
  rewrite (H eq_refl). cbn [feqb]. rewrite Reqb_refl. reflexivity.
Qed.
Lemma nan_mask_keep a m f i j : isfinite (at2 a i j) = true -> at2 (spec_nan_masking a m f false false) i j = at2 a i j.
Proof. intros H. unfold spec_nan_masking. cbn [at2 orb]. now rewrite H. Qed.
Lemma nan_mask_err a m f i j : (isfinite (at2 a i j) = false -> at2 m i j = Fin 0) -> f <> 0 ->
  isfinite (at2 (spec_nan_masking a m (Fin f) true false) i j) = true /\
  (at2 m i j = Fin 0 -> at2 (spec_nan_masking a m (Fin f) true false) i j <> Fin 0) /\
  (at2 (spec_nan_masking a m (Fin f) true false) i j = Fin 0 -> at2 a i j = Fin 0) /\
  (at2 m i j <> Fin 0 -> at2 (spec_nan_masking a m (Fin f) true false) i j = at2 a i j).
Proof.
  intros H Hf. unfold spec_nan_masking. cbn [at2 orb].
  destruct (feqb (at2 m i j) (Fin 0)) eqn:Em.
  - assert (M0 : at2 m i j = Fin 0) by now apply feqb0.
    destruct (isfinite (at2 a i j)) eqn:E; cbn [negb andb].
    + destruct (feqb (at2 a i j) (Fin 0)) eqn:Ea; cbn [andb].
      * split; [reflexivity|]. split; [intros _ X; injection X; auto|]. split; [|now intros []]. intros X. injection X. intros; contradiction.
      * split; [exact E|]. split; [|split; [auto|now intros []]]. intros _ X. apply feqb0 in X. congruence.
    + cbn [feqb]. destruct (Reqb f 0) eqn:R; [apply Reqb_true in R; contradiction|]. cbn [andb].
      split; [reflexivity|]. split; [intros _ X; injection X; auto|]. split; [|now intros []]. intros X; injection X; intros; contradiction.
  - rewrite !andb_false_r. destruct (isfinite (at2 a i j)) eqn:E.
    + split; [reflexivity|]. split; [|auto]. intros X. apply feqb0 in X. congruence.
    + specialize (H eq_refl). apply feqb0 in H. congruence.
Qed.

(** The new mask is the old one or zero. *)
Definition below (m' m : arr2 fl) (n p : nat) : Prop :=
  shape m' n p /\ forall i j, (i < n)%nat -> (j < p)%nat -> at2 m' i j = Fin 0 \/ at2 m' i j = at2 m i j.

Lemma missing_2D_below fx er w m n p m' : (1 <= n)%nat -> (1 <= p)%nat -> shape fx n p -> shape er n p -> shape m n p -> shape w n p ->
  spec_mask_missing_2D fx er (Some w) (Some m) true = Ok m' ->
  below m' m n p /\ forall i j, (i < n)%nat -> (j < p)%nat ->
    (isfinite (at2 fx i j) = false -> at2 m' i j = Fin 0) /\ (isfinite (at2 er i j) = false -> at2 m' i j = Fin 0) /\
    (at2 w i j = Fin 0 -> at2 m' i j = Fin 0) /\
    (isfinite (at2 fx i j) = true -> isfinite (at2 er i j) = true -> at2 w i j <> Fin 0 -> at2 m' i j = at2 m i j).
Proof.
  intros Hn Hp [F1 F2] [E1 E2] [M1 M2] [W1 W2] H.
  destruct (missing_2D fx er (Some w) m) as (out & Ho & R & C & V); try lia.
  { apply shape_eqb_true; lia. } { intros w' X. injection X as <-. apply shape_eqb_true; lia. } { apply shape_eqb_true; lia. }
  rewrite Ho in H. injection H as <-. rewrite F1, F2 in *. split; [split; [split; auto|]|].
  - intros i j Hi Hj. destruct (V i j Hi Hj) as [V1 V2].
    destruct (isfinite (at2 fx i j)) eqn:Ef; [|left; apply V1; auto].
    destruct (isfinite (at2 er i j)) eqn:Ee; [|left; apply V1; auto].
    destruct (feqb (at2 w i j) (Fin 0)) eqn:Ew; [left; apply V1; right; right; exists w; split; auto; now apply feqb0|].
    right. apply V2; auto. intros w' X. injection X as <-. intros X. apply feqb0 in X. congruence.
  - intros i j Hi Hj. destruct (V i j Hi Hj) as [V1 V2].
    split; [intros; apply V1; auto|]. split; [intros; apply V1; auto|]. split; [intros; apply V1; right; right; eauto|].
    intros X1 X2 X3. apply V2; auto. intros w' X. now injection X as <-.
Qed.

Lemma missing_2D_nonempty fx er w m m' : spec_mask_missing_2D fx er w (Some m) true = Ok m' -> shape er (rows fx) (cols fx) ->
  (1 <= rows fx)%nat /\ (1 <= cols fx)%nat.
Proof.
  unfold spec_mask_missing_2D. intros H [S1 S2].
  destruct (entries er) as [|x l] eqn:E; [discriminate|].
  assert (I : In x (entries er)) by (rewrite E; now left).
  apply in_entries in I. destruct I as (i & j & Hi & Hj & _). lia.
Qed.

Lemma from1D_below m m1 m' n p : shape m n p -> mask_spec2D_from_1D m m1 = Ok m' -> below m' m n p.
Proof.
  intros [S1 S2]. unfold mask_spec2D_from_1D. destruct (forallb _ _); [|discriminate]. intros H. injection H as <-.
  split; [now split|]. intros i j _ _. cbn [at2]. destruct (memb _ _); auto.
Qed.

Lemma below_trans a b d n p : below a b n p -> below b d n p -> below a d n p.
Proof.
  intros [S1 H1] [S2 H2]. split; [exact S1|]. intros i j Hi Hj. destruct (H1 i j Hi Hj) as [H|H]; auto. rewrite H. auto.
Qed.

(** What the masking step does to flux, error and mask. *)
Definition filled (n p : nat) (fx er m w fx' er' m' : arr2 fl) : Prop :=
  shape fx' n p /\ shape er' n p /\ below m' m n p /\
  forall i j, (i < n)%nat -> (j < p)%nat ->
    isfinite (at2 fx' i j) = true /\ isfinite (at2 er' i j) = true /\
    (isfinite (at2 fx i j) = true -> at2 fx' i j = at2 fx i j) /\
    (isfinite (at2 fx i j) = false -> at2 m' i j = Fin 0) /\ (isfinite (at2 er i j) = false -> at2 m' i j = Fin 0) /\
    (at2 w i j = Fin 0 -> at2 m' i j = Fin 0) /\
    (at2 m' i j = Fin 0 -> at2 er' i j <> Fin 0) /\ (at2 er' i j = Fin 0 -> at2 er i j = Fin 0) /\
    (at2 m' i j <> Fin 0 -> at2 er' i j = at2 er i j).

Lemma filled_masks n p fx er m w ma m' : shape fx n p -> shape er n p -> below ma m n p -> below m' ma n p ->
  (forall i j, (i < n)%nat -> (j < p)%nat ->
    (isfinite (at2 fx i j) = false -> at2 ma i j = Fin 0) /\ (isfinite (at2 er i j) = false -> at2 ma i j = Fin 0) /\
    (at2 w i j = Fin 0 -> at2 ma i j = Fin 0)) ->
  filled n p fx er m w (spec_nan_masking fx m' (Fin (-99)) false false) (spec_nan_masking er m' (Fin (-99)) true false) m'.
Proof.
  intros S1 S2 B1 B2 H. split; [now apply nan_mask_shape|]. split; [now apply nan_mask_shape|]. split; [now apply below_trans with ma|].
  intros i j Hi Hj. destruct (H i j Hi Hj) as (Ha & Hb & Hc).
  assert (Z : forall P : Prop, (P -> at2 ma i j = Fin 0) -> P -> at2 m' i j = Fin 0).
  { intros P HP X. destruct B2 as [_ B2]. destruct (B2 i j Hi Hj) as [Y|Y]; auto. rewrite Y. auto. }
  destruct (nan_mask_err er m' (-99) i j (Z _ Hb)) as (K1 & K2 & K3 & K4); [lra|].
  split; [apply nan_mask_flux; exact (Z _ Ha)|]. split; [exact K1|]. split; [apply nan_mask_keep|].
  split; [exact (Z _ Ha)|]. split; [exact (Z _ Hb)|]. split; [exact (Z _ Hc)|]. auto.
Qed.

Lemma bind_write_flux a {B} (k : unit -> ST env B) e : bindS (write_flux a) k e =
  k tt (mkEnv (set_q_flux (Some a) (e2 e)) (e1 e) (e_dpa e) (e_reg e)
    (mkCaller (if k_a2 (e_k e) then a else k_flux (e_k e)) (k_err (e_k e)) (k_mask (e_k e)) (k_mask1 (e_k e)) (k_a2 (e_k e)) (k_am (e_k e)) (k_a1 (e_k e)))).
Proof. reflexivity. Qed.
Lemma bind_write_err a {B} (k : unit -> ST env B) e : bindS (write_err a) k e =
  k tt (mkEnv (set_q_err (Some a) (e2 e)) (e1 e) (e_dpa e) (e_reg e)
    (mkCaller (k_flux (e_k e)) (if k_a2 (e_k e) then a else k_err (e_k e)) (k_mask (e_k e)) (k_mask1 (e_k e)) (k_a2 (e_k e)) (k_am (e_k e)) (k_a1 (e_k e)))).
Proof. reflexivity. Qed.
Lemma bind_write_mask a {B} (k : unit -> ST env B) e : bindS (write_mask a) k e =
  k tt (mkEnv (set_q_mask (Some a) (e2 e)) (e1 e) (e_dpa e) (e_reg e)
    (mkCaller (k_flux (e_k e)) (k_err (e_k e)) (if k_am (e_k e) then a else k_mask (e_k e)) (k_mask1 (e_k e)) (k_a2 (e_k e)) (k_am (e_k e)) (k_a1 (e_k e)))).
Proof. reflexivity. Qed.
Lemma bind_write_mask1 a {B} (k : unit -> ST env B) e : bindS (write_mask1 a) k e =
  k tt (mkEnv (e2 e) (option_map (set_s_mask a) (e1 e)) (e_dpa e) (e_reg e)
    (mkCaller (k_flux (e_k e)) (k_err (e_k e)) (k_mask (e_k e)) (if k_a1 (e_k e) then a else k_mask1 (e_k e)) (k_a2 (e_k e)) (k_am (e_k e)) (k_a1 (e_k e)))).
Proof. reflexivity. Qed.
Ltac step2 H := first [ stepin H | rewrite bind_write_flux in H | rewrite bind_write_err in H | rewrite bind_write_mask in H | rewrite bind_write_mask1 in H ].

(** The 1-D half of the masking step. *)
Definition masks_1D (c : cfg) (m : arr2 fl) : ST env (arr2 fl) :=
  if g_nocont c then ret m else
    sdo e <- getS;
    sdo t <- liftR (need AttributeError (e1 e));
    sdo f1 <- liftR (need TypeError (s_flux t));
    sdo r1 <- liftR (need TypeError (s_err t));
    sdo m1 <- liftR (spec_mask_missing_1D f1 r1 None (s_mask t) false);
    sdo _ <- write_mask1 m1;
    let m1e := mask_edges_1D (length f1) m1 10 in
    sdo _ <- write_mask1 m1e;
    sdo m2 <- liftR (mask_spec2D_from_1D m m1e);
    sdo _ <- write_mask m2;
    ret m2.

Lemma masks_1D_inv c m e e' m2 n p : shape m n p -> q_mask (e2 e) = Some m -> masks_1D c m e = (e', Ok m2) ->
  below m2 m n p /\ q_mask (e2 e') = Some m2 /\ rest_same (e2 e) (e2 e') /\ q_flux (e2 e') = q_flux (e2 e) /\ q_err (e2 e') = q_err (e2 e) /\
  e_dpa e' = e_dpa e /\ k_flux (e_k e') = k_flux (e_k e) /\ k_err (e_k e') = k_err (e_k e) /\ k_a2 (e_k e') = k_a2 (e_k e) /\
  (g_nocont c = true -> e' = e /\ m2 = m).
Proof.
  intros S M H. unfold masks_1D in H. destruct (g_nocont c).
  - injection H as <- <-. split; [split; [exact S|auto]|]. split; [exact M|]. split; [apply rest_same_refl|]. repeat split; reflexivity.
  - rewrite bind_get in H. liftin H. liftin H. liftin H. liftin H. step2 H. cbv beta in H. step2 H. cbv beta in H. liftin H. step2 H. cbv beta in H.
    injection H as <- <-. split; [exact (from1D_below _ _ _ n p S E3)|]. split; [reflexivity|]. repeat split; try reflexivity; discriminate.
Qed.

Lemma masks_inv c e e' wave fx er m w n : arrays2 (e2 e) wave fx er m w -> rows fx = n -> cont_masks c e = (e', Ok tt) ->
  exists fx' er' m', arrays2 (e2 e') wave fx' er' m' w /\ filled n (length wave) fx er m w fx' er' m' /\ (1 <= n)%nat /\ (1 <= length wave)%nat /\
    rest_same (e2 e) (e2 e') /\ q_median (e2 e') <> None /\ e_dpa e' = e_dpa e /\
    k_a2 (e_k e') = k_a2 (e_k e) /\ (k_a2 (e_k e) = true -> k_flux (e_k e') = fx' /\ k_err (e_k e') = er') /\
    (g_nocont c = true -> e1 e' = e1 e).
Proof.
  intros (W & O & F & E & M & G & S1 & S2 & S3 & S4) Rn H. rewrite Rn in *.
  unfold cont_masks in H. rewrite bind_get in H. rewrite F, E, M, G in H.
  rewrite (bind_lift _ fx) in H by reflexivity. rewrite (bind_lift _ er) in H by reflexivity. liftin H. rename a into ma, E0 into Hma.
  rewrite bind_write_mask in H. cbv beta in H. fold (masks_1D c ma) in H.
  apply bind_inv in H. destruct H as (eb & m2 & H1 & H).
  assert (NE := missing_2D_nonempty _ _ _ _ _ Hma). rewrite Rn, (proj2 S1) in NE. specialize (NE S2). destruct NE as [NE1 NE2].
  destruct (missing_2D_below fx er w m n (length wave) ma NE1 NE2 S1 S2 S3 S4 Hma) as [B1 V1].
  apply masks_1D_inv with (n := n) (p := length wave) in H1; [|apply B1|reflexivity].
  destruct H1 as (B2 & M2 & RS & F2 & E2 & D2 & K1 & K2 & K3 & K4).
  step2 H. cbv beta zeta in H. step2 H. cbv beta zeta in H. liftin H. rewrite up2_eq in H. injection H as <-.
  exists (spec_nan_masking fx m2 (Fin (-99)) false false), (spec_nan_masking er m2 (Fin (-99)) true false), m2.
  destruct RS as (R1 & R2 & R3 & R4 & R5 & R6 & R7 & R8 & R9 & R10 & R11).
  split; [|split; [apply filled_masks with ma; auto; intros i j Hi Hj; destruct (V1 i j Hi Hj) as (X1 & X2 & X3 & _); auto|split; [exact NE1|split; [exact NE2|split; [|split; [discriminate|split; [exact D2|split; [exact K3|split]]]]]]]].
  - assert (Sf := nan_mask_shape fx m2 (Fin (-99)) false n (length wave) S1). assert (Sr := nan_mask_shape er m2 (Fin (-99)) true n (length wave) S2).
    split; [exact (eq_trans R1 W)|]. split; [exact (eq_trans R2 O)|]. split; [reflexivity|]. split; [reflexivity|]. split; [exact M2|]. split; [exact (eq_trans R3 G)|].
    rewrite (proj1 Sf). split; [exact Sf|]. split; [exact Sr|]. split; [apply B2|exact S4].
  - repeat split; assumption.
  - intros Ka. cbn [e_k k_a2 k_flux k_err] in *. rewrite K3, Ka. repeat split; reflexivity.
  - intros X. destruct (K4 X) as [-> _]. reflexivity.
Qed.
