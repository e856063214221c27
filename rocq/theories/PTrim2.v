(* Proofs about spatial trimming, and examples. *)
From Coq Require Import Reals List Bool Arith ZArith Lra Lia Sorted.
From Verif Require Import PyFloat PyBase Arr PyNum PAper2D MMask SMask PMask PMask2 MTrim STrim PTrim.
Import ListNotations.
Local Open Scope R_scope.

Lemma up_step (f : sp2 -> sp2) {B} (k : unit -> ST (sp2 * option sp1) B) s t :
  bindS (modS (fun st : sp2 * option sp1 => (f (fst st), snd st))) k (s, t) = k tt (f s, t).
Proof. reflexivity. Qed.

Lemma times2_ok a b n p : shape a n p -> shape b n p ->
  times2 a b = Ok (mk2 n p (fun i j => fmul (at2 a i j) (at2 b i j))).
Proof.
  intros [A1 A2] [B1 B2]. unfold times2, shape_eqb. rewrite A1, A2, B1, B2, !Nat.eqb_refl. reflexivity.
Qed.

Lemma slice_rows_cols a l r : cols (slice_rows a l r) = cols a. Proof. reflexivity. Qed.
Lemma slice_rows_rows a b l r : rows a = rows b -> rows (slice_rows a l r) = rows (slice_rows b l r).
Proof. intros H. unfold slice_rows. cbn [rows]. now rewrite H. Qed.

(** The profile of the 1-D spectrum is cut alike. *)
Definition cut1 (l r : Z) (t : option sp1) : option sp1 :=
  match t with
  | Some t => Some (match s_profile t with
                    | Some pr => mkSp1 (s_wave t) (s_obs t) (s_rest t) (s_flux t) (s_err t) (s_mask t)
                                   (Some (slice pr l r)) (s_trimo t) (s_trimr t)
                    | None => t end)
  | None => None
  end.

Definition low_ind (dither : bool) (v : vpos) : Z := if dither then Z.max 0 (v_min v) else 0%Z.
Definition high_ind (dither : bool) (n : nat) (v : vpos) : Z :=
  if dither then Z.min (Z.of_nat n - 1) (v_max v) else (Z.of_nat n - 1)%Z.

Lemma spatial_run_gen dither cut vert s t n p fx er ic ct wt mk ql sk lw ow v :
  ready s n p [fx; er; ic; ct; wt; mk; ql; sk; lw] -> q_obs s = Some ow ->
  vert (mk2 n p (fun i j => fmul (at2 fx i j) (at2 sk i j))) (mk2 n p (fun i j => fmul (at2 er i j) (at2 sk i j))) ow (q_ypos s) = Ok v ->
  let l := low_ind dither v in let r := high_ind dither n v in
  let g a := Some (slice_rows a l r) in
  exists low, low = low_snr_rows (row_snr (slice_rows fx l r) (slice_rows er l r) (slice_rows sk l r)) cut /\
  trim_2D_spatial dither cut vert (s, t) =
  bindS (liftR (need TypeError (q_ypos s))) (fun y => modS (fun st : sp2 * option sp1 => (set_q_ypos (Some (fsub y (Fin (IZR l)))) (fst st), snd st)))
  (set_q_mlims (Some (rows (slice_rows fx l r)))
    (set_q_m0_snr (v_snr v) (set_q_m0_fit (v_shift v) (set_q_m0 (Some (v_m0 v - l)%Z) (set_q_full (Some (v_m0 v, l, r))
    (set_q_low_inds low (set_q_low (g lw) (set_q_sky (g sk) (set_q_qual (g ql) (set_q_mask (g mk) (set_q_weight (g wt)
    (set_q_cont (g ct) (set_q_incl (g ic) (set_q_err (g er) (set_q_flux (g fx) s)))))))))))))),
   cut1 l r t).
Proof.
  intros [R Sh] O V l r g. cbn [map] in R. injection R as F E I C W M Q K L.
  assert (H : forall a, In a [fx; er; ic; ct; wt; mk; ql; sk; lw] -> rows a = n /\ cols a = p) by exact Sh.
  assert (Hf : shape fx n p) by (apply Sh; simpl; tauto). assert (He : shape er n p) by (apply Sh; simpl; tauto).
  assert (Hk : shape sk n p) by (apply Sh; simpl; tauto). assert (Hq : shape ql n p) by (apply Sh; simpl; tauto).
  clear Sh H.
  destruct (mask_rows_ok (slice_rows fx l r) (slice_rows er l r) (slice_rows ql l r) (slice_rows sk l r) cut) as (m & low & MR).
  { apply shape_eqb_true. rewrite !slice_rows_cols. destruct Hf, Hk. split; [apply slice_rows_rows|]; congruence. }
  { apply shape_eqb_true. rewrite !slice_rows_cols. destruct He, Hk. split; [apply slice_rows_rows|]; congruence. }
  { destruct Hf, Hq. apply slice_rows_rows; congruence. }
  exists low. split; [now apply mask_rows_spec in MR|].
  unfold trim_2D_spatial. rewrite bind_get. cbn [fst snd]. rewrite <- F, <- K, <- E, <- I, <- C, <- W, <- M, <- Q, <- L, O.
  rewrite (bind_lift _ fx) by reflexivity. cbv beta. rewrite (bind_lift _ sk) by reflexivity. cbv beta.
  rewrite (bind_lift _ _ _ _ (times2_ok fx sk n p Hf Hk)). cbv beta. rewrite (bind_lift _ er) by reflexivity. cbv beta.
  rewrite (bind_lift _ _ _ _ (times2_ok er sk n p He Hk)). cbv beta. rewrite (bind_lift _ ow) by reflexivity. cbv beta.
  rewrite (bind_lift _ _ _ _ V). cbv beta zeta. rewrite (proj1 Hf).
  fold (low_ind dither v). fold (high_ind dither n v). fold l. fold r.
  rewrite !up_step. cbv beta.
  rewrite (bind_lift _ (slice_rows ic l r)) by reflexivity. cbv beta. rewrite up_step. cbv beta.
  rewrite (bind_lift _ (slice_rows ct l r)) by reflexivity. cbv beta. rewrite up_step. cbv beta.
  rewrite (bind_lift _ (slice_rows wt l r)) by reflexivity. cbv beta. rewrite up_step. cbv beta.
  rewrite (bind_lift _ (slice_rows mk l r)) by reflexivity. cbv beta. rewrite up_step. cbv beta.
  rewrite (bind_lift _ (slice_rows ql l r)) by reflexivity. cbv beta. rewrite up_step. cbv beta.
  rewrite (bind_lift _ (slice_rows sk l r)) by reflexivity. cbv beta. rewrite up_step. cbv beta.
  rewrite (bind_lift _ (slice_rows lw l r)) by reflexivity. cbv beta. rewrite up_step. cbv beta.
  rewrite (bind_lift _ _ _ _ MR). cbv beta. rewrite up_step. cbv beta. cbn [snd].
  set (st := set_q_low_inds low _).
  assert (X : forall B (k : unit -> ST (sp2 * option sp1) B),
    bindS match t with
          | Some t => match s_profile t with
                      | Some pr => modS (fun st : sp2 * option sp1 => (fst st, Some
                           (mkSp1 (s_wave t) (s_obs t) (s_rest t) (s_flux t) (s_err t) (s_mask t)
                                  (Some (slice pr l r)) (s_trimo t) (s_trimr t))))
                      | None => ret tt end
          | None => ret tt end k (st, t) = k tt (st, cut1 l r t)).
  { intros B k. destruct t as [t|]; [|reflexivity]. unfold cut1. destruct (s_profile t); reflexivity. }
  rewrite X. cbv beta. rewrite !up_step. reflexivity.
Qed.

Lemma spatial_run dither cut vert s t n p fx er ic ct wt mk ql sk lw ow y v :
  ready s n p [fx; er; ic; ct; wt; mk; ql; sk; lw] -> q_obs s = Some ow -> q_ypos s = Some y ->
  vert (mk2 n p (fun i j => fmul (at2 fx i j) (at2 sk i j))) (mk2 n p (fun i j => fmul (at2 er i j) (at2 sk i j))) ow (Some y) = Ok v ->
  let l := low_ind dither v in let r := high_ind dither n v in
  let g a := Some (slice_rows a l r) in
  exists low, low = low_snr_rows (row_snr (slice_rows fx l r) (slice_rows er l r) (slice_rows sk l r)) cut /\
  trim_2D_spatial dither cut vert (s, t) =
  ((set_q_ypos (Some (fsub y (Fin (IZR l)))) (set_q_mlims (Some (rows (slice_rows fx l r)))
    (set_q_m0_snr (v_snr v) (set_q_m0_fit (v_shift v) (set_q_m0 (Some (v_m0 v - l)%Z) (set_q_full (Some (v_m0 v, l, r))
    (set_q_low_inds low (set_q_low (g lw) (set_q_sky (g sk) (set_q_qual (g ql) (set_q_mask (g mk) (set_q_weight (g wt)
    (set_q_cont (g ct) (set_q_incl (g ic) (set_q_err (g er) (set_q_flux (g fx) s))))))))))))))),
   cut1 l r t), Ok tt).
Proof.
  intros R O Y V l r g. rewrite <- Y in V.
  destruct (spatial_run_gen dither cut vert s t n p fx er ic ct wt mk ql sk lw ow v R O V) as (low & L & Run).
  exists low. split; [exact L|]. rewrite Run, Y. rewrite (bind_lift _ y) by reflexivity. reflexivity.
Qed.

Lemma slice_bound_nonneg n l : (0 <= l)%Z -> slice_bound n l = Nat.min (Z.to_nat l) n.
Proof. intros H. unfold slice_bound. destruct (Z.ltb_spec l 0); lia. Qed.

(** Rows of a slice with non-negative bounds. *)
Lemma slice_rows_from a l r : (0 <= l)%Z -> (0 <= r)%Z -> (r <= Z.of_nat (rows a))%Z -> (l <= Z.of_nat (rows a))%Z ->
  rows_from (Z.to_nat l) (Z.to_nat r - Z.to_nat l) a (slice_rows a l r).
Proof.
  intros H1 H2 H3 H4. unfold rows_from, slice_rows. cbn [rows cols at2]. rewrite !slice_bound_nonneg by auto.
  replace (Nat.min (Z.to_nat l) (rows a)) with (Z.to_nat l) by lia.
  replace (Nat.min (Z.to_nat r) (rows a)) with (Z.to_nat r) by lia. auto.
Qed.

(** C42: everything moves together. *)
Lemma spatial_moves dither cut vert s t n p imgs ow y v :
  ready s n p imgs -> q_obs s = Some ow -> q_ypos s = Some y ->
  (forall a b, vert a b ow (Some y) = Ok v) -> (1 <= n)%nat ->
  (dither = true -> (0 <= v_max v)%Z /\ (v_min v <= Z.of_nat n)%Z) ->
  exists s' t' imgs' (lo hi : nat), trim_2D_spatial dither cut vert (s, t) = ((s', t'), Ok tt) /\
    ready s' (hi - lo) p imgs' /\ Forall2 (rows_from lo (hi - lo)) imgs imgs' /\
    (if dither then Z.of_nat lo = Z.max 0 (v_min v) /\ Z.of_nat hi = Z.min (Z.of_nat n - 1) (v_max v)
     else lo = 0%nat /\ hi = (n - 1)%nat) /\
    q_m0 s' = Some (v_m0 v - Z.of_nat lo)%Z /\ q_ypos s' = Some (fsub y (Fin (INR lo))) /\
    q_mlims s' = Some (hi - lo)%nat /\ q_obs s' = Some ow /\ q_wave s' = q_wave s.
Proof.
  intros [R Sh] O Y V N D.
  destruct imgs as [|fx [|er [|ic [|ct [|wt [|mk [|ql [|sk [|lw [|]]]]]]]]]]; try discriminate.
  destruct (spatial_run dither cut vert s t n p fx er ic ct wt mk ql sk lw ow y v (conj R Sh) O Y (V _ _)) as (low & _ & Run).
  set (l := low_ind dither v) in *. set (r := high_ind dither n v) in *.
  assert (B : (0 <= l)%Z /\ (0 <= r)%Z /\ (r <= Z.of_nat n)%Z /\ (l <= Z.of_nat n)%Z).
  { unfold l, r, low_ind, high_ind. destruct dither; [specialize (D eq_refl)|]; lia. }
  destruct B as (B1 & B2 & B3 & B4).
  set (lo := Z.to_nat l). set (hi := Z.to_nat r).
  assert (SR : forall a, In a [fx; er; ic; ct; wt; mk; ql; sk; lw] -> rows_from lo (hi - lo) a (slice_rows a l r)).
  { intros a Ha. apply Sh in Ha. destruct Ha as [Ha _]. apply slice_rows_from; rewrite ?Ha; auto. }
  eexists. exists (cut1 l r t), (map (fun a => slice_rows a l r) [fx; er; ic; ct; wt; mk; ql; sk; lw]), lo, hi.
  split; [exact Run|]. split; [split; [reflexivity|]|].
  - intros a Ha. apply in_map_iff in Ha. destruct Ha as (b & <- & Hb). split.
    + now apply SR.
    + rewrite slice_rows_cols. now apply Sh.
  - split.
    { clear - SR. cbn [map]. repeat constructor; apply SR; simpl; tauto. }
    split.
    { unfold lo, hi, l, r, low_ind, high_ind. destruct dither; [specialize (D eq_refl)|]; lia. }
    split; [cbn; f_equal; unfold lo; lia|].
    split. { change (Some (fsub y (Fin (IZR l))) = Some (fsub y (Fin (INR lo)))). f_equal. f_equal. f_equal. unfold lo. rewrite INR_IZR_INZ. f_equal. lia. }
    split; [|split; [exact O|reflexivity]].
    change (Some (rows (slice_rows fx l r)) = Some (hi - lo)%nat). f_equal. apply SR. simpl; tauto.
Qed.

(* ---------------- examples ---------------- *)

Definition ones (n p : nat) : arr2 fl := fin2 n p (fun _ _ => 1).
(** A 2-D spectrum with every image equal to [a]. *)
Definition sp2_of (wave : list fl) (a : arr2 fl) (y : fl) : sp2 :=
  mkSp2 (Some wave) (Some wave) None (Some a) (Some a) (Some a) (Some a) (Some a) (Some a) (Some a) (Some a) (Some a)
    [] [] [] None None None None None None None None None (Some y) None NaN NaN None None None None None false.

Lemma sp2_of_ready wave a y : ready (sp2_of wave a y) (rows a) (cols a) [a; a; a; a; a; a; a; a; a].
Proof. split; [reflexivity|]. intros b Hb. cbn in Hb. repeat (destruct Hb as [<-|Hb]; [split; reflexivity|]). destruct Hb. Qed.

Lemma no_dither_drops : exists s s' t', ready s 4 3 (repeat (ones 4 3) 9) /\
  trim_2D_spatial false (Fin 2) (fun _ _ _ _ => Ok (mkVpos 2 (Fin 0) (Fin 5) 0 4)) (s, None) = ((s', t'), Ok tt) /\
  exists a, q_flux s' = Some a /\ rows a = 3%nat.
Proof.
  exists (sp2_of [Fin 1; Fin 2; Fin 3] (ones 4 3) (Fin 2)).
  pose proof (sp2_of_ready [Fin 1; Fin 2; Fin 3] (ones 4 3) (Fin 2)) as Hr.
  destruct (spatial_moves false (Fin 2) (fun _ _ _ _ => Ok (mkVpos 2 (Fin 0) (Fin 5) 0 4)) (sp2_of [Fin 1; Fin 2; Fin 3] (ones 4 3) (Fin 2)) None 4 3
    (repeat (ones 4 3) 9) [Fin 1; Fin 2; Fin 3] (Fin 2) (mkVpos 2 (Fin 0) (Fin 5) 0 4)) as (s' & t' & im & lo & hi & H1 & [H2 H2'] & H3 & H4 & _).
  - exact Hr.
  - reflexivity.
  - reflexivity.
  - reflexivity.
  - lia.
  - discriminate.
  - exists s', t'. split; [exact Hr|]. split; [exact H1|].
    inversion H3 as [|a0 a1 l0 l1 F1 F2 E1 E2]. subst im. cbn [map] in H2. injection H2 as E _.
    exists a1. split; [now symmetry|]. destruct F1 as [F1 _]. destruct H4 as [-> ->]. exact F1.
Qed.

(** A window that lies entirely below the image: the upper bound is negative, Python counts it
    from the end, and rows without the object are kept. *)
Lemma window_below_wraps : exists s s' t', ready s 10 3 (repeat (ones 10 3) 9) /\
  trim_2D_spatial true (Fin 2) (fun _ _ _ _ => Ok (mkVpos (-6) (Fin 0) (Fin 5) (-9) (-3))) (s, None) = ((s', t'), Ok tt) /\
  exists a, q_flux s' = Some a /\ rows a = 7%nat.
Proof.
  set (v := mkVpos (-6) (Fin 0) (Fin 5) (-9) (-3)).
  exists (sp2_of [Fin 1; Fin 2; Fin 3] (ones 10 3) (Fin 2)).
  pose proof (sp2_of_ready [Fin 1; Fin 2; Fin 3] (ones 10 3) (Fin 2)) as Hr.
  set (a := ones 10 3) in *.
  destruct (spatial_run true (Fin 2) (fun _ _ _ _ => Ok v) (sp2_of [Fin 1; Fin 2; Fin 3] a (Fin 2)) None 10 3 a a a a a a a a a
     [Fin 1; Fin 2; Fin 3] (Fin 2) v Hr eq_refl eq_refl eq_refl) as (low & _ & Run).
  do 2 eexists. split; [exact Hr|]. split; [exact Run|]. eexists. split; [reflexivity|]. reflexivity.
Qed.

(** Non-inplace wavelength trimming leaves flux_incl_cont as wide as before. *)
Lemma copy_cont_refuted : exists s s' a b, trim_2D_copy (Fin 0) None (Some (Fin 2, Fin 3)) false (Err ValueError) s = Ok s' /\
  q_flux s' = Some a /\ q_incl s' = Some b /\ cols a = 2%nat /\ cols b = 3%nat /\ arrays2 s [Fin 1; Fin 2; Fin 3] (ones 4 3) (ones 4 3) (ones 4 3) (ones 4 3).
Proof.
  exists (sp2_of [Fin 1; Fin 2; Fin 3] (ones 4 3) (Fin 2)).
  assert (A : arrays2 (sp2_of [Fin 1; Fin 2; Fin 3] (ones 4 3) (Fin 2)) [Fin 1; Fin 2; Fin 3] (ones 4 3) (ones 4 3) (ones 4 3) (ones 4 3)) by (repeat split).
  assert (K : kept (Fin 2, Fin 3) [Fin 1; Fin 2; Fin 3] [1; 2]%nat).
  { replace [1;2]%nat with (where_ (within (Fin 2, Fin 3)) [Fin 1; Fin 2; Fin 3]); [apply kept_where|].
    unfold where_, within, fgeb. cbn [where_from fst snd fleb]. rdec. }
  destruct (trim_2D_copy_ok (Fin 0) None (Some (Fin 2, Fin 3)) (Fin 2, Fin 3) false (Err ValueError) _ _ _ _ _ _ _ A (asked_obs _ _) K) as (s' & s2 & H1 & H2 & _ & _ & _ & H3 & _ & _ & _ & H4 & _); [discriminate|].
  destruct (trim_2D_ok (Fin 0) None (Some (Fin 2, Fin 3)) (Fin 2, Fin 3) false (Err ValueError) _ _ _ _ _ _ _ A (asked_obs _ _) K) as (s3 & w & f & e & m & g & T & A3 & _ & P & _); [discriminate|].
  rewrite H2 in T. injection T as ->. destruct A3 as (_ & _ & F & _). rewrite F in H3.
  exists s', f, (ones 4 3). split; [exact H1|]. split; [exact H3|]. split; [exact H4|]. split; [apply P|]. split; [reflexivity|exact A].
Qed.
(** An empty selection leaves the observed wavelengths of the old spectrum in place. *)
Lemma empty_stale_refuted : exists s s', arrays1 s [Fin 1] [Fin 1] [Fin 1] [Fin 1] /\
  trim_1D (Some s) (ZNp (Fin 0)) None (Some (Fin 2, Fin 3)) (Err ValueError) = Ok (Some s') /\ s_wave s' = None /\ s_obs s' = Some [Fin 1].
Proof.
  exists (mkSp1 (Some [Fin 1]) (Some [Fin 1]) None (Some [Fin 1]) (Some [Fin 1]) (Some [Fin 1]) None None None).
  exists (mkSp1 None (Some [Fin 1]) None None None None None (Some (Fin 2, Fin 3)) None).
  split; [repeat split|]. split; [|split; reflexivity].
  unfold trim_1D, where_, within, fgeb. cbn [bind need s_obs where_from fst snd fleb]. rdec.
Qed.
Lemma kept_example : kept (Fin 2, Fin 3) [Fin 1; Fin 2; NaN; Fin 3; Fin 4] [1; 3]%nat.
Proof.
  replace [1;3]%nat with (where_ (within (Fin 2, Fin 3)) [Fin 1; Fin 2; NaN; Fin 3; Fin 4]); [apply kept_where|].
  unfold where_, within, fgeb. cbn [where_from fst snd fleb]. rdec.
Qed.
Lemma py_float_refuted : exists s, arrays1 s [Fin 1] [Fin 1] [Fin 1] [Fin 1] /\
  trim_1D (Some s) (ZPy (Fin 0)) (Some (Fin 1, Fin 2)) None (Err ValueError) = Err AttributeError /\
  exists s', trim_1D (Some s) (ZNp (Fin 0)) (Some (Fin 1, Fin 2)) None (Err ValueError) = Ok (Some s').
Proof.
  exists (mkSp1 (Some [Fin 1]) (Some [Fin 1]) None (Some [Fin 1]) (Some [Fin 1]) (Some [Fin 1]) None None None).
  assert (A : arrays1 (mkSp1 (Some [Fin 1]) (Some [Fin 1]) None (Some [Fin 1]) (Some [Fin 1]) (Some [Fin 1]) None None None) [Fin 1] [Fin 1] [Fin 1] [Fin 1]) by (repeat split).
  split; [exact A|]. split; [apply trim_1D_py; left; discriminate|].
  destruct (kept_where (fmul (Fin 1) (fadd (Fin 1) (Fin 0)), fmul (Fin 2) (fadd (Fin 1) (Fin 0))) [Fin 1]) as [K1 K2].
  destruct (where_ (within (fmul (Fin 1) (fadd (Fin 1) (Fin 0)), fmul (Fin 2) (fadd (Fin 1) (Fin 0)))) [Fin 1]) as [|k ks] eqn:E.
  - destruct (trim_1D_empty _ _ _ _ _ (ZNp (Fin 0)) (Fin 0) (Some (Fin 1, Fin 2)) None _ (Err ValueError) A (or_introl eq_refl) (asked_rest _ _ _)) as (s' & H & _); [now split|eauto].
  - destruct (trim_1D_ok _ _ _ _ _ (ZNp (Fin 0)) (Fin 0) (Some (Fin 1, Fin 2)) None _ (Err ValueError) (k :: ks) A (or_introl eq_refl) (asked_rest _ _ _)) as (s' & w & f & e & m & H & _); [now split|discriminate|eauto].
Qed.
Lemma trim_1D_none s o rest file : trim_1D s ZNone rest None file = Ok None /\
  (forall sp wave flux err mask ks, s = Some sp -> arrays1 sp wave flux err mask -> kept o wave ks -> ks <> [] ->
     trim_1D s ZNone rest (Some o) file = Err TypeError).
Proof.
  split; [reflexivity|]. intros sp wave flux err mask ks -> (W & O & F & E & M & L1 & L2 & L3) K N.
  assert (B := fun k => kept_bound _ _ _ k K).
  unfold trim_1D. destruct rest; cbn [bind]; rewrite O; cbn [need bind]; rewrite (kept_unique _ _ _ K); cbv zeta;
  (destruct ks as [|k0 kt] eqn:Ek; [congruence|]); rewrite <- Ek in *; clear Ek;
  rewrite W, F, E, M, !take_o_ok by (intros k Hk; apply B in Hk; lia); reflexivity.
Qed.
