(* The continuum does not depend on the light of the line. *)
From Coq Require Import Reals List Bool Arith ZArith Lra Lia FunctionalExtensionality.
From Verif Require Import PyFloat PyBase Arr PyNum PKernels PMask MMask SMask MTrim STrim PTrim MPrep SPrep SCont PPrep PPrep2 PPrep3 PPrep4 PTrim2.
Import ListNotations.
Local Open Scope R_scope.

Lemma fadd_zero x : fadd x (Fin 0) = x.
Proof. destruct x; cbn [fadd]; try reflexivity. f_equal. ring. Qed.
Lemma fadd_isfinite x r : isfinite (fadd x (Fin r)) = isfinite x.
Proof. destruct x; reflexivity. Qed.
Lemma fsub_fadd x c h : fsub (fadd x (Fin h)) c = fadd (fsub x c) (Fin h).
Proof. unfold fsub. destruct x, c; cbn [fneg fadd]; try reflexivity. f_equal. ring. Qed.

Definition relh (h : nat -> nat -> R) (a a' : arr2 fl) : Prop :=
  rows a' = rows a /\ cols a' = cols a /\ forall i j, at2 a' i j = fadd (at2 a i j) (Fin (h i j)).
Definition rell (h : nat -> R) (l l' : list fl) : Prop :=
  length l' = length l /\ forall j x, nth_error l j = Some x -> nth_error l' j = Some (fadd x (Fin (h j))).
Definition litq (fo io : option (arr2 fl)) (s : sp2) : sp2 := set_q_incl io (set_q_flux fo s).
Definition sim1 (h : nat -> R) (o o' : option sp1) : Prop :=
  match o, o' with
  | None, None => True
  | Some t, Some t' => exists f f', s_flux t = Some f /\ rell h f f' /\
      t' = mkSp1 (s_wave t) (s_obs t) (s_rest t) (Some f') (s_err t) (s_mask t) (s_profile t) (s_trimo t) (s_trimr t)
  | _, _ => False
  end.
Definition setkf (kf : arr2 fl) (k : caller) : caller := mkCaller kf (k_err k) (k_mask k) (k_mask1 k) (k_a2 k) (k_am k) (k_a1 k).
Definition sim (h : nat -> nat -> R) (h1 : nat -> R) (e e' : env) : Prop := exists fx fx' ic ic' t' kf,
  q_flux (e2 e) = Some fx /\ q_incl (e2 e) = Some ic /\ relh h fx fx' /\ relh h ic ic' /\ sim1 h1 (e1 e) t' /\
  e' = mkEnv (litq (Some fx') (Some ic') (e2 e)) t' (e_dpa e) (e_reg e) (setkf kf (e_k e)).

(* ---- columns away from the line ---- *)
Lemma row_at_lit h a a' i wh : relh h a a' -> (forall k i, In k wh -> h i k = 0) -> row_at a' i wh = row_at a i wh.
Proof.
  intros (_ & C & H) Z. unfold row_at. rewrite C. destruct (forallb _ wh); [|reflexivity]. f_equal. apply map_ext_in. intros k Hk. rewrite H, Z by exact Hk. apply fadd_zero.
Qed.
Lemma rell_nth h l l' k : rell h l l' -> h k = 0 -> nth_error l' k = nth_error l k.
Proof.
  intros [L H] Z. destruct (nth_error l k) as [x|] eqn:E; [rewrite (H _ _ E), Z; now rewrite fadd_zero|]. apply nth_error_None. apply nth_error_None in E. lia.
Qed.
Lemma take_lit h l l' wh : rell h l l' -> (forall k, In k wh -> h k = 0) -> take l' wh = take l wh.
Proof.
  intros R Z. induction wh as [|k wh IH]; [reflexivity|]. cbn [take]. unfold getn. rewrite (rell_nth _ _ _ _ R) by (apply Z; now left). rewrite IH by (intros; apply Z; now right). reflexivity.
Qed.
Lemma take_rell h l l' wh r : rell h l l' -> take l wh = Ok r -> exists r', take l' wh = Ok r' /\ rell (fun j => h (nth j wh 0%nat)) r r'.
Proof.
  intros [L H]. revert r. induction wh as [|k wh IH]; intros r E; cbn [take] in E |- *; [inversion E; subst; exists []; split; [reflexivity|]; split; [reflexivity|]; intros [|j] x X; discriminate|].
  unfold getn in E |- *. destruct (nth_error l k) as [x|] eqn:Ek; [|discriminate]. cbn [bind] in E. rewrite (H _ _ Ek). cbn [bind].
  destruct (take l wh) as [q|]; [|discriminate]. cbn [bind] in E. inversion E; subst r. destruct (IH q eq_refl) as (q' & -> & Lq & Hq). cbn [bind].
  eexists. split; [reflexivity|]. split; [cbn; now rewrite Lq|]. intros [|j] y Y; cbn [nth_error nth] in *; [inversion Y; subst; reflexivity|now apply Hq].
Qed.

Lemma nth_map_seq {A} (f : nat -> A) d n j : (j < n)%nat -> nth j (map f (seq 0 n)) d = f j.
Proof. intros L. rewrite nth_indep with (d' := f 0%nat) by now rewrite map_length, seq_length. rewrite map_nth, seq_nth by exact L. reflexivity. Qed.

(* ---- one row ---- *)
Lemma row_sim c h h1 slope b1 xs wl wr i e e' r : sim h h1 e e' -> (forall k i, In k (wl ++ wr) -> h i k = 0) ->
  cont_row c slope b1 xs wl wr i e = (r, Ok tt) -> exists r', cont_row c slope b1 xs wl wr i e' = (r', Ok tt) /\ sim h h1 r r'.
Proof.
  intros (fx & fx' & ic & ic' & t' & kf & F & I & Rf & Ri & S1 & ->) Z H.
  assert (Zl : forall k i, In k wl -> h i k = 0) by (intros; apply Z, in_or_app; now left). assert (Zr : forall k i, In k wr -> h i k = 0) by (intros; apply Z, in_or_app; now right).
  unfold cont_row in H |- *. rewrite bind_get in H |- *. cbv zeta in H |- *. cbn [e2].
  change (q_incl (litq (Some fx') (Some ic') (e2 e))) with (Some ic'). change (q_flux (litq (Some fx') (Some ic') (e2 e))) with (Some fx').
  change (q_err (litq (Some fx') (Some ic') (e2 e))) with (q_err (e2 e)). change (q_mask (litq (Some fx') (Some ic') (e2 e))) with (q_mask (e2 e)).
  change (q_cont (litq (Some fx') (Some ic') (e2 e))) with (q_cont (e2 e)). change (q_wave (litq (Some fx') (Some ic') (e2 e))) with (q_wave (e2 e)).
  rewrite I, F in H. cbn [need] in H |- *. rewrite (bind_lift _ ic) in H by reflexivity. rewrite (bind_lift _ ic') by reflexivity.
  liftin H. rewrite (bind_lift _ _ _ _ E). liftin H. rewrite (bind_lift _ _ _ _ E0). liftin H. rewrite (bind_lift _ _ _ _ E1).
  rewrite (bind_lift _ fx) in H by reflexivity. rewrite (bind_lift _ fx') by reflexivity.
  rewrite (row_at_lit h ic ic' i wl Ri Zl), (row_at_lit h ic ic' i wr Ri Zr).
  repeat (let E := fresh "G" in apply bind_inv in H; destruct H as (? & ? & E & H); apply lift_inv in E; destruct E as [-> E]; rewrite (bind_lift _ _ _ _ E)).
  destruct Rf as (Rf1 & Rf2 & Rf3), Ri as (Ri1 & Ri2 & Ri3). rewrite bind_up2 in H. rewrite bu2. cbv beta in H |- *. rewrite Ri2, Rf2.
  liftin H. rewrite (bind_lift _ _ _ _ E2). liftin H. rewrite (bind_lift _ _ _ _ E3). liftin H. rewrite (bind_lift _ _ _ _ E4). liftin H. rewrite (bind_lift _ _ _ _ E5).
  inversion H; subst r. eexists. split; [reflexivity|].
  do 6 eexists. split; [reflexivity|]. split; [exact I|]. split; [|split; [split; [exact Ri1|split; [exact Ri2|exact Ri3]]|split; [exact S1|reflexivity]]].
  split; [exact Rf1|]. split; [exact Rf2|]. intros i0 j. unfold set_row. cbn [at2]. destruct (Nat.eqb_spec i0 i) as [->|]; [|apply Rf3].
  unfold lnth at 1 3. destruct (Nat.lt_ge_cases j (cols ic)) as [L|L].
  - rewrite !nth_map_seq by exact L. rewrite Ri3. apply fsub_fadd.
  - rewrite !nth_overflow by (rewrite map_length, seq_length; exact L). reflexivity.
Qed.
Lemma rows_sim c h h1 slope b1 xs wl wr is : (forall k i, In k (wl ++ wr) -> h i k = 0) -> forall e e' r, sim h h1 e e' ->
  cont_rows c slope b1 xs wl wr is e = (r, Ok tt) -> exists r', cont_rows c slope b1 xs wl wr is e' = (r', Ok tt) /\ sim h h1 r r'.
Proof.
  intros Z. induction is as [|i is IH]; intros e e' r S H; cbn [cont_rows] in H |- *; [inversion H; subst r; exists e'; split; [reflexivity|exact S]|].
  apply bind_inv in H. destruct H as (e0 & [] & H0 & H). destruct (row_sim _ _ _ _ _ _ _ _ _ _ _ _ S Z H0) as (e0' & H0' & S0). rewrite (bind_ok _ _ _ _ _ H0'). eapply IH; eauto.
Qed.

(* ---- the fit of the 1-D spectrum ---- *)
Lemma fit1_sim c h h1 wl wr e e' r x : sim h h1 e e' -> (forall k, In k (wl ++ wr) -> h1 k = 0) ->
  cont_fit1 c wl wr e = (r, Ok x) -> exists r', cont_fit1 c wl wr e' = (r', Ok x) /\ sim h h1 r r'.
Proof.
  intros (fx & fx' & ic & ic' & t' & kf & F & I & Rf & Ri & S1 & ->) Z H.
  assert (Zl : forall k, In k wl -> h1 k = 0) by (intros; apply Z, in_or_app; now left). assert (Zr : forall k, In k wr -> h1 k = 0) by (intros; apply Z, in_or_app; now right).
  unfold cont_fit1 in H |- *. rewrite bind_get in H |- *. cbv zeta in H |- *. cbn [e2 e1].
  change (q_obs (litq (Some fx') (Some ic') (e2 e))) with (q_obs (e2 e)). change (q_cutoff (litq (Some fx') (Some ic') (e2 e))) with (q_cutoff (e2 e)).
  change (q_median (litq (Some fx') (Some ic') (e2 e))) with (q_median (e2 e)).
  liftin H. rewrite (bind_lift _ _ _ _ E). liftin H. rewrite (bind_lift _ _ _ _ E0). liftin H. rewrite (bind_lift _ _ _ _ E1). liftin H. apply need_inv in E2.
  unfold sim1 in S1. rewrite E2 in S1. destruct t' as [t'|]; [|contradiction]. destruct S1 as (f & f' & Sf & Rl & ->). cbn [need]. rewrite (bind_lift _ _ _ _ eq_refl). cbn [s_err s_mask s_flux].
  liftin H. rewrite (bind_lift _ _ _ _ E3). liftin H. rewrite (bind_lift _ _ _ _ E4). liftin H. rewrite (bind_lift _ _ _ _ E5). liftin H. rewrite (bind_lift _ _ _ _ E6).
  liftin H. rewrite (bind_lift _ _ _ _ E7). rewrite bind_write_mask1 in H |- *. cbv beta in H |- *. liftin H. rewrite (bind_lift _ _ _ _ E8).
  rewrite Sf in H. rewrite (bind_lift _ f) in H by reflexivity. rewrite (bind_lift _ f') by reflexivity. rewrite (take_lit _ _ _ _ Rl Zl), (take_lit _ _ _ _ Rl Zr).
  repeat (let E := fresh "G" in apply bind_inv in H; destruct H as (? & ? & E & H); apply lift_inv in E; destruct E as [-> E]; rewrite (bind_lift _ _ _ _ E)).
  inversion H; subst r x. eexists. split; [reflexivity|].
  do 6 eexists. split; [exact F|]. split; [exact I|]. split; [exact Rf|]. split; [exact Ri|]. cbn [e1 e2 e_dpa e_reg e_k]. split; [|reflexivity].
  rewrite E2. cbn [option_map sim1]. exists f, f'. split; [exact Sf|]. split; [exact Rl|reflexivity].
Qed.

(* ---- the trim ---- *)
Lemma cols_lit h a a' wf b : relh h a a' -> take_cols_o (Some a) wf = Ok b -> exists b', take_cols_o (Some a') wf = Ok b' /\ relh (fun i j => h i (nth j wf 0%nat)) b b'.
Proof.
  intros (R & C & H) E. unfold take_cols_o in *. cbn [need bind] in *. unfold take_cols in *. rewrite C. destruct (forallb _ wf); [|discriminate]. inversion E; subst b.
  eexists. split; [reflexivity|]. split; [exact R|]. split; [reflexivity|]. intros i j. cbn [at2]. apply H.
Qed.
Lemma litq_wave v fo io s : set_q_wave v (litq fo io s) = litq fo io (set_q_wave v s). Proof. reflexivity. Qed.
Lemma litq_cont v fo io s : set_q_cont v (litq fo io s) = litq fo io (set_q_cont v s). Proof. reflexivity. Qed.
Lemma litq_err v fo io s : set_q_err v (litq fo io s) = litq fo io (set_q_err v s). Proof. reflexivity. Qed.
Lemma litq_mask v fo io s : set_q_mask v (litq fo io s) = litq fo io (set_q_mask v s). Proof. reflexivity. Qed.
Lemma litq_weight v fo io s : set_q_weight v (litq fo io s) = litq fo io (set_q_weight v s). Proof. reflexivity. Qed.
Lemma litq_obs v fo io s : set_q_obs v (litq fo io s) = litq fo io (set_q_obs v s). Proof. reflexivity. Qed.
Lemma litq_rest v fo io s : set_q_rest v (litq fo io s) = litq fo io (set_q_rest v s). Proof. reflexivity. Qed.
Lemma litq_incl v v' fo io s : set_q_incl v (litq fo io s) = litq fo v (set_q_incl v' s). Proof. reflexivity. Qed.
Lemma litq_flux v v' fo io s : set_q_flux v (litq fo io s) = litq v io (set_q_flux v' s). Proof. reflexivity. Qed.
Lemma trim_sim c h h1 wf e e' r : sim h h1 e e' -> (g_nocont c = true \/ e1 e <> None) ->
  cont_trim c wf e = (r, Ok tt) -> exists r' g1, cont_trim c wf e' = (r', Ok tt) /\ sim (fun i j => h i (nth j wf 0%nat)) g1 r r'.
Proof.
  intros (fx & fx' & ic & ic' & t' & kf & F & I & Rf & Ri & S1 & ->) N H. destruct e as [s0 t0 d0 r0 k0]. cbn [e2 e1 e_dpa e_reg e_k] in *.
  unfold cont_trim in H |- *. rewrite bind_get in H |- *. cbv zeta in H |- *. cbn [e2 e1] in H |- *.
  change (q_incl (litq (Some fx') (Some ic') s0)) with (Some ic'). change (q_flux (litq (Some fx') (Some ic') s0)) with (Some fx').
  change (q_err (litq (Some fx') (Some ic') s0)) with (q_err s0). change (q_mask (litq (Some fx') (Some ic') s0)) with (q_mask s0).
  change (q_cont (litq (Some fx') (Some ic') s0)) with (q_cont s0). change (q_wave (litq (Some fx') (Some ic') s0)) with (q_wave s0).
  change (q_weight (litq (Some fx') (Some ic') s0)) with (q_weight s0). rewrite I, F in H.
  liftin H. rewrite (bind_lift _ _ _ _ E). rewrite bu2 in H. rewrite bu2, litq_wave.
  liftin H. destruct (cols_lit _ _ _ _ _ Ri E0) as (ic2 & E0' & Ri2). rewrite (bind_lift _ _ _ _ E0'). rewrite bu2 in H. rewrite bu2, (litq_incl _ (Some a0)).
  liftin H. rewrite (bind_lift _ _ _ _ E1). rewrite bu2 in H. rewrite bu2, litq_cont.
  liftin H. destruct (cols_lit _ _ _ _ _ Rf E2) as (fx2 & E2' & Rf2). rewrite (bind_lift _ _ _ _ E2'). rewrite bu2 in H. rewrite bu2, (litq_flux _ (Some a2)).
  liftin H. rewrite (bind_lift _ _ _ _ E3). rewrite bu2 in H. rewrite bu2, litq_err.
  liftin H. rewrite (bind_lift _ _ _ _ E4). rewrite bu2 in H. rewrite bu2, litq_mask.
  liftin H. rewrite (bind_lift _ _ _ _ E5). rewrite bu2 in H. rewrite bu2, litq_weight.
  rewrite buk in H. rewrite buk. set (s := set_q_weight _ _) in *.
  assert (Fs : q_flux s = Some a2) by reflexivity. assert (Is : q_incl s = Some a0) by reflexivity. clearbody s.
  destruct (g_nocont c) eqn:Nc.
  - rewrite bind_ret, !bu2 in H. rewrite bind_ret, !bu2, litq_obs, litq_rest. unfold ret in H |- *. injection H as <-. do 2 eexists. split; [reflexivity|].
    exists a2, fx2, a0, ic2, t', kf. split; [exact Fs|]. split; [exact Is|]. split; [exact Rf2|]. split; [exact Ri2|]. split; [exact S1|reflexivity].
  - destruct N as [|N]; [discriminate|]. apply bind_inv in H. destruct H as (e0 & [] & H0 & H).
    apply bind_inv in H0. destruct H0 as (ea & t & Et & H0). apply lift_inv in Et. destruct Et as [-> Et]. apply need_inv in Et. subst t0.
    unfold sim1 in S1. destruct t' as [t'|]; [|contradiction]. destruct S1 as (f & f' & Sf & Rl & ->).
    rewrite Sf in H0. liftin H0. liftin H0. liftin H0. liftin H0. unfold take_o in E7. cbn [need bind] in E7. destruct (take_rell _ _ _ _ _ Rl E7) as (f2 & E7' & Rl2).
    rewrite bu1 in H0. unfold upk, modS in H0. cbn [e2 e1 e_dpa e_reg e_k] in H0. injection H0 as <-.
    rewrite !bu2 in H. unfold up1, modS in H. cbn [e2 e1 e_dpa e_reg e_k] in H. injection H as <-.
    erewrite bind_ok.
    2:{ cbn [need]. rewrite (bind_lift _ _ _ _ eq_refl). cbn [s_wave s_flux s_err s_mask]. rewrite (bind_lift _ _ _ _ E6). rewrite (bind_lift _ f2) by exact E7'.
        rewrite (bind_lift _ _ _ _ E8), (bind_lift _ _ _ _ E9). rewrite bu1. unfold upk, modS. cbn [e2 e1 e_dpa e_reg e_k]. reflexivity. }
    rewrite !bu2, litq_obs, litq_rest. unfold up1, modS. cbn [e2 e1 e_dpa e_reg e_k option_map]. do 2 eexists. split; [reflexivity|].
    exists a2, fx2, a0, ic2. do 2 eexists. split; [exact Fs|]. split; [exact Is|]. split; [exact Rf2|]. split; [exact Ri2|]. cbn [e1 e2 e_dpa e_reg e_k]. split; [|reflexivity].
    cbn [option_map sim1]. do 2 eexists. split; [reflexivity|]. split; [exact Rl2|reflexivity].
Qed.

(* ---- masks ---- *)
Lemma where2_lit h a a' m : relh h a a' -> mask_where2 (fun x => negb (isfinite x)) a' m = mask_where2 (fun x => negb (isfinite x)) a m.
Proof.
  intros (R & C & H). unfold mask_where2, shape_eqb. rewrite R, C. destruct (_ && _); [|reflexivity]. do 2 f_equal. extensionality i. extensionality j. rewrite H, fadd_isfinite. reflexivity.
Qed.
Lemma missing2_lit h a a' er w m : relh h a a' -> spec_mask_missing_2D a' er w m true = spec_mask_missing_2D a er w m true.
Proof.
  intros R. unfold spec_mask_missing_2D. cbn [negb andb]. destruct (np_max _); [|reflexivity]. cbn [bind]. rewrite (where2_lit _ _ _ _ R).
  destruct R as (-> & -> & _). reflexivity.
Qed.
Lemma map_const_len {A B} (b : B) (l l' : list A) : length l' = length l -> map (fun _ => b) l' = map (fun _ => b) l.
Proof. revert l'. induction l as [|x l IH]; intros [|y l'] E; try discriminate; [reflexivity|]. cbn. f_equal. apply IH. now injection E. Qed.
Lemma where_from_ext (p : fl -> bool) l : forall l' k, length l' = length l -> (forall j x, nth_error l j = Some x -> exists y, nth_error l' j = Some y /\ p y = p x) -> where_from k p l' = where_from k p l.
Proof.
  induction l as [|x l IH]; intros [|y l'] k E H; try discriminate; [reflexivity|]. cbn [where_from]. destruct (H 0%nat x eq_refl) as (y0 & Y & Py). injection Y as <-. rewrite Py. f_equal.
  apply IH; [now injection E|]. intros j z Hz. exact (H (S j) z Hz).
Qed.
Lemma missing1_lit h l l' er m : rell h l l' -> spec_mask_missing_1D l' er None m false = spec_mask_missing_1D l er None m false.
Proof.
  intros [L H]. unfold spec_mask_missing_1D. assert (W : where_ (fun x => negb (isfinite x)) l' = where_ (fun x => negb (isfinite x)) l).
  { apply where_from_ext; [exact L|]. intros j x E. exists (fadd x (Fin (h j))). split; [now apply H|]. now rewrite fadd_isfinite. }
  rewrite (map_const_len (Fin 1) l l' L). destruct (np_max _); [|reflexivity]. cbn [bind]. unfold mask_where. rewrite W, L. reflexivity.
Qed.
Lemma fill_lit h fx fx' m fill : relh h fx fx' ->
  relh (fun i j => if isfinite (at2 fx i j) then h i j else 0) (spec_nan_masking fx m fill false false) (spec_nan_masking fx' m fill false false).
Proof.
  intros (R & C & H). split; [exact R|]. split; [exact C|]. intros i j. unfold spec_nan_masking. cbn [at2 orb]. rewrite H, fadd_isfinite.
  destruct (at2 fx i j) as [x| | |]; cbn [isfinite negb andb]; [reflexivity| | |]; destruct (feqb (at2 m i j) (Fin 0)); rewrite fadd_zero; reflexivity.
Qed.

Definition sim0 (h : nat -> nat -> R) (h1 : nat -> R) (e e' : env) : Prop := exists fx fx' t' kf,
  q_flux (e2 e) = Some fx /\ relh h fx fx' /\ sim1 h1 (e1 e) t' /\
  e' = mkEnv (set_q_flux (Some fx') (e2 e)) t' (e_dpa e) (e_reg e) (setkf kf (e_k e)).

Lemma masks1_sim c m h h1 e e' r m2 : sim0 h h1 e e' -> masks_1D c m e = (r, Ok m2) -> exists r', masks_1D c m e' = (r', Ok m2) /\ sim0 h h1 r r' /\ q_flux (e2 r) = q_flux (e2 e).
Proof.
  intros (fx & fx' & t' & kf & F & Rf & S1 & ->) H. unfold masks_1D in *. destruct (g_nocont c).
  - unfold ret in *. inversion H; subst r m2. eexists. split; [reflexivity|]. split; [|reflexivity]. exists fx, fx', t', kf. auto.
  - rewrite bind_get in H |- *. cbn [e1]. liftin H. apply need_inv in E. unfold sim1 in S1. rewrite E in S1. destruct t' as [t'|]; [|contradiction]. destruct S1 as (f & f' & Sf & Rl & ->).
    cbn [need]. rewrite (bind_lift _ _ _ _ eq_refl). cbn [s_flux s_err s_mask]. rewrite Sf in H. rewrite (bind_lift _ f) in H by reflexivity. rewrite (bind_lift _ f') by reflexivity.
    liftin H. rewrite (bind_lift _ _ _ _ E0). liftin H. rewrite (missing1_lit _ _ _ _ _ Rl). rewrite (bind_lift _ _ _ _ E1). destruct Rl as [L Rl]. rewrite L.
    rewrite bind_write_mask1 in H |- *. cbv beta zeta in H |- *. rewrite bind_write_mask1 in H |- *. cbv beta zeta in H |- *.
    liftin H. rewrite (bind_lift _ _ _ _ E2). rewrite bind_write_mask in H |- *. cbv beta in H |- *. unfold ret in *. inversion H; subst r m2. eexists. split; [reflexivity|]. split; [|reflexivity].
    exists fx, fx'. do 2 eexists. split; [exact F|]. split; [exact Rf|]. cbn [e1 e2 e_dpa e_reg e_k]. split; [|reflexivity].
    rewrite E. cbn [option_map sim1]. exists f, f'. split; [exact Sf|]. split; [split; assumption|reflexivity].
Qed.
Lemma masks_sim c h h1 e e' r fx : sim0 h h1 e e' -> q_flux (e2 e) = Some fx -> cont_masks c e = (r, Ok tt) ->
  exists r', cont_masks c e' = (r', Ok tt) /\ sim0 (fun i j => if isfinite (at2 fx i j) then h i j else 0) h1 r r' /\ (g_nocont c = true \/ e1 r <> None).
Proof.
  intros (fx0 & fx' & t' & kf & F & Rf & S1 & ->) F0 H. rewrite F0 in F. injection F as <-. unfold cont_masks in *. rewrite bind_get in H |- *. cbv zeta in H |- *. cbn [e2].
  change (q_flux (set_q_flux (Some fx') (e2 e))) with (Some fx'). change (q_err (set_q_flux (Some fx') (e2 e))) with (q_err (e2 e)).
  change (q_mask (set_q_flux (Some fx') (e2 e))) with (q_mask (e2 e)). change (q_weight (set_q_flux (Some fx') (e2 e))) with (q_weight (e2 e)).
  rewrite F0 in H. cbn [need] in H |- *. rewrite (bind_lift _ fx) in H by reflexivity. rewrite (bind_lift _ fx') by reflexivity.
  liftin H. rewrite (bind_lift _ _ _ _ E). liftin H. rewrite (missing2_lit _ _ _ _ _ _ Rf). rewrite (bind_lift _ _ _ _ E0).
  rewrite bind_write_mask in H |- *. cbv beta in H |- *. fold (masks_1D c a0) in H |- *.
  apply bind_inv in H. destruct H as (eb & m2 & H1 & H).
  assert (N : g_nocont c = true \/ e1 eb <> None).
  { unfold masks_1D in H1. destruct (g_nocont c); [now left|]. right. rewrite bind_get in H1. do 4 liftin H1. rewrite !bind_write_mask1 in H1. cbv beta zeta in H1.
    liftin H1. rewrite bind_write_mask in H1. cbv beta in H1. inversion H1; subst eb. apply need_inv in E1. cbn [e1] in E1 |- *. rewrite E1. discriminate. }
  match type of H1 with masks_1D c a0 ?E1 = _ => match goal with |- context [bindS (masks_1D c a0) _ ?E2] => assert (S0 : sim0 h h1 E1 E2) end end.
  { exists fx, fx'. do 2 eexists. split; [exact F0|]. split; [exact Rf|]. cbn [e1 e2 e_dpa e_reg e_k]. split; [exact S1|reflexivity]. }
  destruct (masks1_sim _ _ _ _ _ _ _ _ S0 H1) as (eb' & H1' & Sb & Fb). rewrite (bind_ok _ _ _ _ _ H1'). destruct Sb as (fxb & fxb' & tb & kb & Fb' & Rb & Sb1 & ->).
  rewrite bind_write_flux in H |- *. cbv beta zeta in H |- *. rewrite bind_write_err in H |- *. cbv beta zeta in H |- *.
  liftin H. rewrite (bind_lift _ _ _ _ E1). rewrite up2_eq in H |- *. inversion H; subst r. eexists. split; [reflexivity|]. split; [|exact N].
  do 4 eexists. split; [reflexivity|]. split; [apply fill_lit; exact Rf|]. cbn [e1 e2 e_dpa e_reg e_k]. split; [exact Sb1|reflexivity].
Qed.

Lemma masks_kept c e r : cont_masks c e = (r, Ok tt) -> q_rfull (e2 r) = q_rfull (e2 e) /\ q_rmline (e2 r) = q_rmline (e2 e) /\ q_obs (e2 r) = q_obs (e2 e).
Proof.
  intros H. unfold cont_masks in H. rewrite bind_get in H. cbv zeta in H. do 3 liftin H. rewrite bind_write_mask in H. cbv beta in H. fold (masks_1D c a1) in H.
  apply bind_inv in H. destruct H as (eb & m2 & H1 & H).
  assert (K : q_rfull (e2 eb) = q_rfull (e2 e) /\ q_rmline (e2 eb) = q_rmline (e2 e) /\ q_obs (e2 eb) = q_obs (e2 e)).
  { unfold masks_1D in H1. destruct (g_nocont c); [unfold ret in H1; inversion H1; subst; repeat split; reflexivity|].
    rewrite bind_get in H1. do 4 liftin H1. rewrite !bind_write_mask1 in H1. cbv beta zeta in H1. liftin H1. rewrite bind_write_mask in H1. cbv beta in H1. inversion H1; subst eb. repeat split; reflexivity. }
  rewrite bind_write_flux in H. cbv beta zeta in H. rewrite bind_write_err in H. cbv beta zeta in H. liftin H. rewrite up2_eq in H. inversion H; subst r. exact K.
Qed.

Definition inb (r : fl * fl) (w : fl) : bool := fleb (fst r) w && fleb w (snd r).
Lemma inb_spec r w : inb r w = true <-> inside r w.
Proof. unfold inb, inside. rewrite andb_true_iff. reflexivity. Qed.
Definition onb (lo fo : fl * fl) (wave : list fl) (j : nat) : bool :=
  match nth_error wave j with Some w => inb lo w || negb (inb fo w) | None => false end.
Lemma onb_spec lo fo wave j : onb lo fo wave j = true <-> off_windows lo fo wave j.
Proof.
  unfold onb, off_windows. destruct (nth_error wave j) as [w|]; split; intros H.
  - apply orb_prop in H. exists w. split; [reflexivity|]. destruct H as [H|H]; [left; now apply inb_spec|right]. rewrite <- inb_spec. intros X. rewrite X in H. discriminate.
  - destruct H as (w' & E & H). injection E as <-. apply orb_true_iff. destruct H as [H|H]; [left; now apply inb_spec|right]. rewrite <- inb_spec in H. destruct (inb fo w); [now elim H|reflexivity].
  - discriminate.
  - destruct H as (w & E & _). discriminate.
Qed.
Lemma lit_sim lo fo wave g g1 e e' : lit_env (off_windows lo fo wave) g g1 e e' ->
  sim0 (fun i j => if onb lo fo wave j then g i j else 0) (fun j => if onb lo fo wave j then g1 j else 0) e e'.
Proof.
  intros ((fx & fx' & F & F' & R & C & V) & T & D & Rg & K1 & K2 & K3 & K4 & K5 & K6).
  exists fx, fx', (e1 e'), (k_flux (e_k e')). split; [exact F|]. split; [|split].
  - split; [exact R|]. split; [exact C|]. intros i j. destruct (V i j) as [A B]. destruct (onb lo fo wave j) eqn:E; [apply A, onb_spec, E|].
    rewrite fadd_zero. apply B. intros X. apply onb_spec in X. congruence.
  - unfold sim1. destruct (e1 e) as [t|], (e1 e') as [t'|]; try contradiction; [|exact I].
    destruct T as (T1 & T2 & T3 & T4 & T5 & T6 & T7 & T8 & f & f' & Sf & Sf' & L & X). exists f, f'. split; [exact Sf|]. split.
    + split; [exact L|]. intros j x E. destruct (X j x E) as [A B]. destruct (onb lo fo wave j) eqn:O; [apply A, onb_spec, O|]. rewrite fadd_zero. apply B. intros Y. apply onb_spec in Y. congruence.
    + destruct t'. cbn in *. congruence.
  - destruct e' as [s' t' d' r' k']. cbn in *. subst. destruct k'. unfold setkf. cbn in *. subst. reflexivity.
Qed.

Lemma fltb_not x y : fltb x y = true -> fleb y x = false.
Proof. destruct x as [x| | |], y as [y| | |]; cbn; try discriminate; try reflexivity. intros H. apply Rltb_true in H. apply Rleb_false. exact H. Qed.
Lemma fltb_le x y : fltb x y = true -> fleb x y = true.
Proof. destruct x as [x| | |], y as [y| | |]; cbn; try discriminate; try reflexivity. intros H. apply Rltb_true in H. apply Rleb_true. lra. Qed.
Lemma fleb_trans x y z : fleb x y = true -> fleb y z = true -> fleb x z = true.
Proof. destruct x as [x| | |], y as [y| | |], z as [z| | |]; cbn; try discriminate; try reflexivity. intros H1 H2. apply Rleb_true in H1, H2. apply Rleb_true. lra. Qed.
Lemma flux_rfull v fo s : set_q_rfull v (set_q_flux fo s) = set_q_flux fo (set_q_rfull v s). Proof. reflexivity. Qed.
Lemma flux_rline v fo s : set_q_rline v (set_q_flux fo s) = set_q_flux fo (set_q_rline v s). Proof. reflexivity. Qed.
Lemma flux_rmline v fo s : set_q_rmline v (set_q_flux fo s) = set_q_flux fo (set_q_rmline v s). Proof. reflexivity. Qed.
Lemma flux_incl v v' fo s : set_q_incl v (set_q_flux fo s) = litq fo v (set_q_incl v' s). Proof. reflexivity. Qed.
Lemma fit1_e1 c wl wr e r p : cont_fit1 c wl wr e = (r, Ok p) -> e1 r <> None.
Proof.
  unfold cont_fit1. intros H. rewrite bind_get in H. cbv zeta in H. do 4 liftin H. apply need_inv in E2. do 5 liftin H. rewrite bind_write_mask1 in H. cbv beta in H. 
  repeat (let E := fresh "G" in apply bind_inv in H; destruct H as (? & ? & E & H); apply lift_inv in E; destruct E as [-> E]).
  inversion H; subst r. cbn [e1]. rewrite E2. discriminate.
Qed.
Lemma row_e1 c slope b1 xs wl wr i e r : cont_row c slope b1 xs wl wr i e = (r, Ok tt) -> e1 r = e1 e.
Proof.
  unfold cont_row. intros H. rewrite bind_get in H. cbv zeta in H. do 5 liftin H.
  repeat (let E := fresh "G" in apply bind_inv in H; destruct H as (? & ? & E & H); apply lift_inv in E; destruct E as [-> E]).
  inversion H; subst r. reflexivity.
Qed.
Lemma rows_e1 c slope b1 xs wl wr is e r : cont_rows c slope b1 xs wl wr is e = (r, Ok tt) -> e1 r = e1 e.
Proof.
  revert e. induction is as [|i is IH]; intros e H; cbn [cont_rows] in H; [inversion H; reflexivity|]. apply bind_inv in H. destruct H as (e0 & [] & H0 & H).
  rewrite (IH _ H). eapply row_e1; eauto.
Qed.
Lemma trim_flux c wf e r : cont_trim c wf e = (r, Ok tt) -> exists fx, q_flux (e2 r) = Some fx /\ cols fx = length wf.
Proof.
  intros H. destruct e as [s0 t0 d0 r0 k0]. unfold cont_trim in H. rewrite bind_get in H. cbv zeta in H. cbn [e2 e1] in H.
  do 3 (liftin H; rewrite bu2 in H). liftin H. unfold take_cols_o in E2. destruct (q_flux s0) as [fx|]; [|discriminate]. cbn [need bind] in E2. unfold take_cols in E2.
  destruct (forallb _ wf); [|discriminate]. assert (L : cols a2 = length wf) by (inversion E2; reflexivity). rewrite bu2 in H.
  do 3 (liftin H; rewrite bu2 in H). rewrite buk in H. set (s := set_q_weight _ _) in *. assert (Fs : q_flux s = Some a2) by reflexivity. clearbody s. exists a2. split; [|exact L].
  apply bind_inv in H. destruct H as (eb & [] & H0 & H). assert (X : q_flux (e2 eb) = Some a2).
  { destruct (g_nocont c); [inversion H0; subst; exact Fs|]. do 5 liftin H0. rewrite bu1 in H0. inversion H0; subst eb. exact Fs. }
  destruct eb as [sb tb db rb kb]. cbn [e2] in X. rewrite !bu2 in H. destruct (g_nocont c); [inversion H; subst r; exact X|]. unfold up1, modS in H. inversion H; subst r. exact X.
Qed.

Lemma continuum_blind c e e' r wave g g1 rm rf lo fo : q_obs (e2 e) = Some wave ->
  setting (q_rmline (e2 e)) (g_fmline c) rm -> asked (g_z c) (Some rm) None lo ->
  setting (q_rfull (e2 e)) (g_ffull c) rf -> asked (g_z c) (Some rf) None fo ->
  fleb (fst lo) (snd fo) = true -> fleb (fst fo) (snd lo) = true ->
  lit_env (off_windows lo fo wave) g g1 e e' -> subtract_continuum c e = (r, Ok tt) ->
  exists r' fx fr fr' ks, subtract_continuum c e' = (r', Ok tt) /\
    q_cont (e2 r') = q_cont (e2 r) /\ q_err (e2 r') = q_err (e2 r) /\ q_mask (e2 r') = q_mask (e2 r) /\ q_wave (e2 r') = q_wave (e2 r) /\
    q_flux (e2 e) = Some fx /\ q_flux (e2 r) = Some fr /\ q_flux (e2 r') = Some fr' /\ rows fr' = rows fr /\ cols fr' = cols fr /\ kept fo wave ks /\ cols fr = length ks /\
    forall i j k, nth_error ks j = Some k ->
      (on_line lo wave k -> isfinite (at2 fx i k) = true -> at2 fr' i j = fadd (at2 fr i j) (Fin (g i k))) /\
      (~ on_line lo wave k \/ isfinite (at2 fx i k) = false -> at2 fr' i j = at2 fr i j).
Proof.
  intros O Sm Am Sf Af V1 V2 L H. pose proof (lit_sim _ _ _ _ _ _ _ L) as S. destruct L as ((fx & fx' & F & _) & _).
  unfold subtract_continuum in H |- *. apply bind_inv in H. destruct H as (e0 & [] & H0 & H).
  destruct (masks_sim _ _ _ _ _ _ _ S F H0) as (e0' & H0' & S0 & N). rewrite (bind_ok _ _ _ _ _ H0'). destruct (masks_kept _ _ _ H0) as (K1 & K2 & K3). clear S H0 H0'.
  set (h0 := fun i j : nat => if isfinite (at2 fx i j) then if onb lo fo wave j then g i j else 0 else 0) in *. set (h1 := fun j : nat => if onb lo fo wave j then g1 j else 0) in *.
  destruct S0 as (fa & fa' & t' & kf & Fa & Ra & S1 & ->). destruct e0 as [s t d rg k]. cbn [e1 e2 e_dpa e_reg e_k] in *.
  rewrite bind_get in H |- *. cbv zeta in H |- *. cbn [e2] in H |- *.
  change (q_rfull (set_q_flux (Some fa') s)) with (q_rfull s). change (q_rline (set_q_flux (Some fa') s)) with (q_rline s). change (q_rmline (set_q_flux (Some fa') s)) with (q_rmline s).
  change (q_wave (set_q_flux (Some fa') s)) with (q_wave s). change (q_flux (set_q_flux (Some fa') s)) with (Some fa'). change (q_obs (set_q_flux (Some fa') s)) with (q_obs s).
  assert (G : forall cur file v, setting cur file v -> get_range cur file = Ok v) by (intros cur file v [->|[-> E]]; cbn; auto).
  rewrite K1, K2, K3, Fa in *. rewrite O in *. rewrite (G _ _ _ Sf), (G _ _ _ Sm) in *.
  rewrite (bind_lift _ rf) in H |- * by reflexivity. rewrite bu2 in H |- *. liftin H. rewrite (bind_lift _ _ _ _ E). rewrite bu2 in H |- *.
  rewrite (bind_lift _ rm) in H |- * by reflexivity. rewrite bu2 in H |- *. liftin H. rewrite (bind_lift _ _ _ _ E0).
  cbn [need] in H |- *. rewrite (bind_lift _ fa) in H by reflexivity. rewrite (bind_lift _ fa') by reflexivity. rewrite bu2 in H |- *. rewrite bu2 in H |- *.
  rewrite (bind_lift _ wave) in H |- * by reflexivity.
  assert (El : to_obs (g_z c) rm = lo) by (inversion Am; reflexivity). assert (Ef : to_obs (g_z c) rf = fo) by (inversion Af; reflexivity). rewrite El, Ef in H |- *.
  set (wl := where_ (fun x => fgeb x (fst fo) && fltb x (fst lo)) wave) in *. set (wr := where_ (fun x => fleb x (snd fo) && fgtb x (snd lo)) wave) in *. set (wf := where_ (within fo) wave) in *.
  assert (Off : forall k, In k (wl ++ wr) -> onb lo fo wave k = false).
  { intros k0 Hk. unfold onb. apply in_app_or in Hk. destruct Hk as [Hk|Hk]; apply where_In in Hk; destruct Hk as (x & Ex & Px); rewrite Ex; apply andb_prop in Px; destruct Px as [Py Px]; unfold inb.
    - rewrite (fltb_not x (fst lo) Px). unfold fgeb in Py. rewrite Py. cbn [andb orb]. rewrite (fleb_trans x (fst lo) (snd fo)); [reflexivity|now apply fltb_le|exact V1].
    - unfold fgtb in Px. rewrite (fltb_not (snd lo) x Px). rewrite Py. rewrite (fleb_trans (fst fo) (snd lo) x); [now rewrite andb_false_r|exact V2|now apply fltb_le]. }
  rewrite flux_rfull, flux_rline, flux_rmline, (flux_incl _ (Some fa)), litq_cont.
  destruct Ra as (Ra1 & Ra2 & Ra3). rewrite Ra1, Ra2 in *.
  set (s1 := set_q_cont _ _) in *. assert (F1 : q_flux s1 = Some fa) by exact Fa. assert (I1 : q_incl s1 = Some fa) by reflexivity. clearbody s1.
  assert (Hs : sim h0 h1 (mkEnv s1 t d rg k) (mkEnv (litq (Some fa') (Some fa') s1) t' d rg (setkf kf k))).
  { exists fa, fa', fa, fa', t', kf. split; [exact F1|]. split; [exact I1|]. split; [split; [exact Ra1|split; [exact Ra2|exact Ra3]]|]. split; [split; [exact Ra1|split; [exact Ra2|exact Ra3]]|]. split; [exact S1|reflexivity]. }
  assert (Z0 : forall k i, In k (wl ++ wr) -> h0 i k = 0) by (intros k0 i0 Hk; unfold h0; rewrite (Off _ Hk); destruct (isfinite _); reflexivity).
  assert (Z1 : forall k, In k (wl ++ wr) -> h1 k = 0) by (intros k0 Hk; unfold h1; rewrite (Off _ Hk); reflexivity).
  apply bind_inv in H. destruct H as (eb & [] & Hb & H).
  assert (Sb : exists eb', (if g_nocont c then ret tt else bindS (cont_fit1 c wl wr) (fun p => cont_rows c (fst (fst p)) (snd (fst p)) (snd p) wl wr (seq 0 (rows fa)))) (mkEnv (litq (Some fa') (Some fa') s1) t' d rg (setkf kf k)) = (eb', Ok tt) /\ sim h0 h1 eb eb' /\ (g_nocont c = true \/ e1 eb <> None)).
  { destruct (g_nocont c) eqn:Nc; [unfold ret in Hb |- *; inversion Hb; subst eb; eexists; split; [reflexivity|]; split; [exact Hs|now left]|].
    apply bind_inv in Hb. destruct Hb as (ea & p & Ha & Hb). destruct (fit1_sim _ _ _ _ _ _ _ _ _ Hs Z1 Ha) as (ea' & Ha' & Sa). rewrite (bind_ok _ _ _ _ _ Ha').
    destruct (rows_sim _ _ _ _ _ _ _ _ _ Z0 _ _ _ Sa Hb) as (eb' & Hb' & Sb). exists eb'. split; [exact Hb'|]. split; [exact Sb|]. right.
    pose proof (fit1_e1 _ _ _ _ _ _ Ha) as X. rewrite (rows_e1 _ _ _ _ _ _ _ _ _ Hb). exact X. }
  destruct Sb as (eb' & Hb' & Sb & N'). rewrite (bind_ok _ _ _ _ _ Hb'). destruct (trim_sim _ _ _ _ _ _ _ Sb N' H) as (r' & g1' & H' & (gx & gx' & ic & ic' & tt' & kf' & G1 & _ & (Q1 & Q2 & Q3) & _ & _ & ->)).
  destruct (trim_flux _ _ _ _ H) as (gy & Gy & Lg). rewrite G1 in Gy. injection Gy as <-.
  exists (mkEnv (litq (Some gx') (Some ic') (e2 r)) tt' (e_dpa r) (e_reg r) (setkf kf' (e_k r))), fx, gx, gx', wf. split; [exact H'|].
  do 4 (split; [reflexivity|]). split; [exact F|]. split; [exact G1|]. split; [reflexivity|]. split; [exact Q1|]. split; [exact Q2|].
  assert (Kw : kept fo wave wf) by apply kept_where. split; [exact Kw|]. split; [exact Lg|]. intros i j k0 Hk. rewrite Q3. assert (Ej : nth j wf 0%nat = k0) by (apply nth_error_nth; exact Hk). rewrite Ej. unfold h0.
  assert (On : onb lo fo wave k0 = true <-> on_line lo wave k0).
  { assert (Ik : In k0 wf) by (eapply nth_error_In; exact Hk). apply where_In in Ik. destruct Ik as (w & Ew & Pw). apply within_inside in Pw. rewrite onb_spec. split; intros (w' & E' & X); rewrite Ew in E'; injection E' as <-.
    - exists w. split; [exact Ew|]. destruct X as [X|X]; [exact X|contradiction].
    - exists w. split; [exact Ew|]. now left. }
  split.
  - intros Ho Hf. apply On in Ho. rewrite Ho, Hf. reflexivity.
  - intros [Ho|Hf]; [|rewrite Hf; apply fadd_zero]. destruct (onb lo fo wave k0) eqn:Eo; [elim (Ho (proj1 On eq_refl))|]. destruct (isfinite _); apply fadd_zero.
Qed.

(** Two images of 4 rows; the second has the line, and garbage outside the kept range. *)
Definition blind_sp (fx : arr2 fl) : sp2 := mkSp2 (Some [Fin 3; Fin 6; Fin 10; Fin 14]) (Some [Fin 3; Fin 6; Fin 10; Fin 14]) None (Some fx) (Some (ones 4 4)) (Some (ones 4 4)) (Some (ones 4 4)) None None None None None
  [] [] [] None (Some (Fin 2, true)) None None None None None None None (Some (Fin 2)) None NaN NaN None None None None None false.
Definition blind_cfg : cfg := mkCfg (Fin 0) false (Fin 2) UpEdges false (Ok tt) (Fin 10) (Err ValueError)
  (Ok (Fin 5, Fin 15)) (Ok (Fin 8, Fin 12)) (Ok (Fin 9, Fin 11)) (fun _ => Fin 1) (fun _ _ y _ _ => Ok (Fin 0, Fin (val (nth 0 y NaN)))) (fun _ _ _ _ y _ _ => Ok (Fin (val (nth 0 y NaN))))
  (fun _ _ _ _ => Ok (mkVpos 2 (Fin 0) (Fin 5) 1 3)) (fun _ _ _ => (Fin 1, Fin 1, Fin 1)) None None (Ok (Fin 0)).
Definition blind_env (fx : arr2 fl) (f1 : list fl) : env := mkEnv (blind_sp fx)
  (Some (mkSp1 (Some [Fin 3; Fin 6; Fin 10; Fin 14]) (Some [Fin 3; Fin 6; Fin 10; Fin 14]) None (Some f1) (Some [Fin 1; Fin 1; Fin 1; Fin 1]) None None None None)) None false
  (mkCaller fx (ones 4 4) (ones 4 4) [] true false false).
Definition blind_light (i j : nat) : R := match j with 2%nat => INR i | 0%nat => 50 | _ => 0 end.
Lemma inside_fin a b x : a <= x <= b -> inside (Fin a, Fin b) (Fin x).
Proof. intros [A B]. split; cbn; apply Rleb_true; assumption. Qed.
Lemma not_inside_fin a b x : x < a \/ b < x -> ~ inside (Fin a, Fin b) (Fin x).
Proof. intros H [A B]. cbn in A, B. apply Rleb_true in A, B. lra. Qed.
Lemma blind_off j : off_windows (Fin 9, Fin 11) (Fin 5, Fin 15) [Fin 3; Fin 6; Fin 10; Fin 14] j <-> j = 0%nat \/ j = 2%nat.
Proof.
  split.
  - intros (w & E & H). destruct j as [|[|[|[|j]]]]; cbn in E; try (injection E as <-); auto; try (destruct j; discriminate).
    all: exfalso; destruct H as [[A B]|H]; [cbn in A, B; apply Rleb_true in A, B; lra|]; apply H, inside_fin; lra.
  - intros [-> | ->]; eexists; (split; [reflexivity|]); [right; apply not_inside_fin; lra|left; apply inside_fin; lra].
Qed.
Lemma blind_example :
  let e := blind_env (ones 4 4) [Fin 1; Fin 1; Fin 1; Fin 1] in
  let e' := blind_env (mk2 4 4 (fun i j => Fin (1 + blind_light i j))) [Fin 51; Fin 1; Fin 9; Fin 1] in
  lit_env (off_windows (Fin 9, Fin 11) (Fin 5, Fin 15) [Fin 3; Fin 6; Fin 10; Fin 14]) blind_light (fun j => match j with 2%nat => 8 | _ => 50 end) e e' /\
  asked (g_z blind_cfg) (Some (Fin 9, Fin 11)) None (Fin 9, Fin 11) /\
  exists r, subtract_continuum blind_cfg e = (r, Ok tt).
Proof.
  cbv zeta. split; [|split; [replace (Fin 9, Fin 11) with (fmul (Fin 9) (fadd (Fin 1) (Fin 0)), fmul (Fin 11) (fadd (Fin 1) (Fin 0))) at 2 by (cbn; f_equal; f_equal; lra); constructor|]].
  - split; [|split].
    + exists (ones 4 4), (mk2 4 4 (fun i j => Fin (1 + blind_light i j))). split; [reflexivity|]. split; [reflexivity|]. split; [reflexivity|]. split; [reflexivity|].
      intros i j. rewrite blind_off. change (at2 (ones 4 4) i j) with (Fin 1). cbn [at2 fadd]. split; [reflexivity|]. intros N. f_equal. destruct j as [|[|[|j]]]; cbn [blind_light]; first [elim N; tauto|lra].
    + cbn [blind_env e1]. repeat (split; [reflexivity|]). do 2 eexists. split; [reflexivity|]. split; [reflexivity|]. split; [reflexivity|].
      intros j x E. rewrite blind_off. destruct j as [|[|[|[|j]]]]; cbn [nth_error] in E |- *; try (injection E as <-); cbn [fadd]; (split; intros H; [first [f_equal; f_equal; lra|exfalso; lia|destruct j; discriminate]|first [reflexivity|elim H; auto; fail|destruct j; discriminate]]).
    + repeat split.
  - eapply (subtract_done blind_cfg (blind_env (ones 4 4) [Fin 1; Fin 1; Fin 1; Fin 1]) [Fin 3; Fin 6; Fin 10; Fin 14] (ones 4 4) (ones 4 4) (ones 4 4) (ones 4 4) 4); try reflexivity; try (cbn; lia).
    + repeat split.
    + intros x [<-|[<-|[<-|[<-|[]]]]]; eexists; (split; [reflexivity|lra]).
    + right. do 4 eexists. repeat (split; [reflexivity|]). split; [discriminate|]. split; intros; [do 2 eexists; reflexivity|eexists; reflexivity].
    + intros _. split; reflexivity.
Qed.
