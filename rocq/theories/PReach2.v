(* Proofs: reach of the light of a rotating disc, theorem level. *)
From Coq Require Import Reals Lra List Bool Arith ZArith Lia.
From Verif Require MProf PProf.
From Verif Require Import PyFloat PyBase Arr PyNum MParams MKernels MAper2D SKernels SAper2D SAper1D SLine SLos SReach PLos PReach.
Import ListNotations.
Local Open Scope R_scope.

Lemma tot_ext n f g : (forall i, f i = g i) -> tot n f = tot n g.
Proof. intros H. induction n; cbn; [reflexivity|]. now rewrite IHn, H. Qed.
Lemma tot_le n f g : (forall i, f i <= g i) -> tot n f <= tot n g.
Proof. intros H. induction n; cbn; [lra|]. specialize (H n). lra. Qed.
Lemma tot_scal n k f : tot n (fun i => k * f i) = k * tot n f.
Proof. induction n; cbn; [ring|]. rewrite IHn. ring. Qed.
Lemma tot_zero n : tot n (fun _ => 0) = 0.
Proof. induction n; cbn; [reflexivity|]. lra. Qed.
Lemma row_ext c nx dx m0 i f g : (forall p, f p = g p) -> row_sum c nx dx m0 i f = row_sum c nx dx m0 i g.
Proof. intros H. unfold row_sum, over_row. f_equal. apply tot_ext. intros s. apply tot_ext. intros k. apply tot_ext. intros o. apply H. Qed.
Lemma row_scal c nx dx m0 i k f : row_sum c nx dx m0 i (fun p => k * f p) = k * row_sum c nx dx m0 i f.
Proof.
  unfold row_sum, over_row. replace (k * _) with (dx * (i_pix (c_ins c) / INR (o_nsub (c_opt c))) * (k * tot (o_nsub (c_opt c)) (fun s => tot nx (fun k0 => tot (g_rows (c_gal c) * o_nsub (c_opt c))
    (fun o => f (image_cell (g_rows (c_gal c)) (o_nsub (c_opt c)) nx dx (i_pix (c_ins c) / INR (o_nsub (c_opt c))) (o_xc (c_opt c)) m0 i s k0 o)))))) by ring.
  f_equal. rewrite <- tot_scal. apply tot_ext. intros s. rewrite <- tot_scal. apply tot_ext. intros j. now rewrite <- tot_scal.
Qed.
Lemma row_le c nx dx m0 i f g : fills_slit c nx dx -> (forall p, f p <= g p) -> row_sum c nx dx m0 i f <= row_sum c nx dx m0 i g.
Proof.
  intros (_ & D & _) H. unfold row_sum, over_row. apply Rmult_le_compat_l; [apply Rmult_le_pos; lra|].
  apply tot_le. intros s. apply tot_le. intros k. apply tot_le. intros o. apply H.
Qed.
Lemma sin_inc q q0 inc : inclined q q0 inc -> 0 <= sin inc.
Proof. intros (H & _). apply sin_ge_0; pose proof PI_RGT_0; lra. Qed.

Lemma disc_image c th l d q q0 m0 z rest ratio vr hr sr :
  plain_disc c th l d q q0 m0 z rest ratio vr hr -> dispersion_is c th sr ->
  exists m inc n nx dx, image_is c th m /\ rows m = g_rows (c_gal c) /\ cols m = length l /\ inclined q q0 inc /\ turning_axis d inc n /\ fills_slit c nx dx /\
    forall i t, (i < g_rows (c_gal c))%nat -> (t < length l)%nat ->
      at2 m i t = Fin (row_sum c nx dx m0 i (fun p => hr (from_axis n p) (height n p) *
        spectrum rest ratio z (along_sight n (vr (from_axis n p) (height n p)) p) (sr (from_axis n p) (height n p)) (nth t l 0))).
Proof.
  intros (H1&H2&H3&H4&H5&H6&H7&H8&H9&H10&H11&H12&H13&H14&H15) HS.
  destruct (plain_emission c th l d q q0 m0 z rest ratio vr hr sr H1 H2 H3 H4 H5 H6 H7 H8 H9 H10 H11 H12 H13 H14 H15 HS) as (a0&b&m&inc&n&nx&dx&E1&E2&E3&E4&E5&E6&E7&E8&E9&E10&E).
  exists m, inc, n, nx, dx. split; [now exists a0, b|]. repeat (split; [assumption|]). split; [repeat split; try apply E9; assumption|].
  intros i t Hi Ht. rewrite (E i t Hi Ht). reflexivity.
Qed.

Lemma reach_bounds c th l d q q0 m0 z rest ratio vr hr sr vmax :
  plain_disc c th l d q q0 m0 z rest ratio vr hr -> dispersion_is c th sr ->
  (forall r h, Rabs (vr r h) <= vmax) -> (forall r h, 0 <= hr r h) ->
  exists m inc n nx dx, image_is c th m /\ inclined q q0 inc /\ turning_axis d inc n /\ fills_slit c nx dx /\
    forall i t lo hi, (i < g_rows (c_gal c))%nat -> (t < length l)%nat ->
      (forall u s, Rabs u <= vmax * sin inc -> (exists r h, s = sr r h) -> lo <= spectrum rest ratio z u s (nth t l 0) <= hi) ->
      let L := row_sum c nx dx m0 i (fun p => hr (from_axis n p) (height n p)) in
      exists x, at2 m i t = Fin x /\ lo * L <= x <= hi * L.
Proof.
  intros HD HS HV HH. destruct (disc_image _ _ _ _ _ _ _ _ _ _ _ _ _ HD HS) as (m&inc&n&nx&dx&E1&_&_&E2&E3&E4&E).
  exists m, inc, n, nx, dx. repeat (split; [assumption|]). intros i t lo hi Hi Ht B L. eexists. split; [now apply E|]. unfold L.
  assert (G : forall p, lo <= spectrum rest ratio z (along_sight n (vr (from_axis n p) (height n p)) p) (sr (from_axis n p) (height n p)) (nth t l 0) <= hi).
  { intros p. apply B; [|now exists (from_axis n p), (height n p)]. pose proof (sin_inc _ _ _ E2) as S.
    eapply Rle_trans; [apply (sight_bound d inc); assumption|]. apply Rmult_le_compat_r; [exact S|apply HV]. }
  rewrite <- !row_scal. split; apply row_le; try assumption; intros p; specialize (G p); specialize (HH (from_axis n p) (height n p)); nra.
Qed.

Lemma sight_zero d inc n v p : turning_axis d inc n -> 0 <= sin inc -> v = 0 \/ sin inc = 0 -> along_sight n v p = 0.
Proof.
  intros T S Z. pose proof (sight_bound d inc n v p T S) as B. assert (Rabs v * sin inc = 0) by (destruct Z as [-> | ->]; rewrite ?Rabs_R0; ring).
  pose proof (Rabs_pos (along_sight n v p)). destruct (Req_dec (along_sight n v p) 0) as [E|E]; [exact E|]. apply Rabs_pos_lt in E. lra.
Qed.
Lemma face_on q q0 inc : inclined q q0 inc -> 0 <= q0 < 1 -> q = 1 -> sin inc = 0.
Proof. intros (_ & _ & H) B ->. specialize (H ltac:(lra)). assert (0 < 1 - q0 ^ 2) by nra. assert ((sin inc) ^ 2 = 0) by nra. nra. Qed.

Lemma no_rotation c th l d q q0 m0 z rest ratio vr hr sg :
  plain_disc c th l d q q0 m0 z rest ratio vr hr -> dispersion_is c th (fun _ _ => sg) -> q = 1 \/ (forall r h, vr r h = 0) ->
  exists m inc n nx dx, image_is c th m /\ inclined q q0 inc /\ turning_axis d inc n /\ fills_slit c nx dx /\
    forall i t, (i < g_rows (c_gal c))%nat -> (t < length l)%nat ->
      at2 m i t = Fin (spectrum rest ratio z 0 sg (nth t l 0) * row_sum c nx dx m0 i (fun p => hr (from_axis n p) (height n p))).
Proof.
  intros HD HS HZ. destruct (disc_image _ _ _ _ _ _ _ _ _ _ _ _ _ HD HS) as (m&inc&n&nx&dx&E1&_&_&E2&E3&E4&E).
  exists m, inc, n, nx, dx. repeat (split; [assumption|]). intros i t Hi Ht. rewrite (E i t Hi Ht), <- row_scal. f_equal. apply row_ext. intros p.
  rewrite (sight_zero d inc n _ p E3 (sin_inc _ _ _ E2)); [ring|]. destruct HZ as [Q|V]; [right|left; apply V].
  apply (face_on q q0); [exact E2| |exact Q]. apply HD.
Qed.

Lemma narrow_image c th l d q q0 m0 z rest ratio vr hr :
  plain_disc c th l d q q0 m0 z rest ratio vr hr -> no_dispersion c th ->
  exists m inc n nx dx best, image_is c th m /\ rows m = g_rows (c_gal c) /\ cols m = length l /\ inclined q q0 inc /\ turning_axis d inc n /\ fills_slit c nx dx /\
    (forall x, first_nearest l x (best x)) /\
    forall i t, (i < g_rows (c_gal c))%nat -> (t < length l)%nat ->
      at2 m i t = Fin (row_sum c nx dx m0 i (fun p => hr (from_axis n p) (height n p) *
        narrow best rest ratio z (along_sight n (vr (from_axis n p) (height n p)) p) t)).
Proof.
  intros (H1&H2&H3&H4&H5&H6&H7&H8&H9&H10&H11&H12&H13&H14&H15) HS.
  destruct (narrow_emission c th l d q q0 m0 z rest ratio vr hr H1 H2 H3 H4 H5 H6 H7 H8 H9 H11 H12 H14 H15 HS) as (a0&b&m&inc&n&nx&dx&best&E1&E2&E3&E4&E5&E6&E7&E8&E9&E10&E11&E).
  exists m, inc, n, nx, dx, best. split; [now exists a0, b|]. repeat (split; [assumption|]). split; [repeat split; try apply E9; assumption|]. split; [exact E11|].
  intros i t Hi Ht. rewrite (E i t Hi Ht). reflexivity.
Qed.

Lemma narrow_none best rest ratio z v t : (forall lam, In lam rest -> best (lam * (1 + z) * (1 + v / light_speed)) <> t) -> narrow best rest ratio z v t = 0.
Proof.
  unfold narrow. revert ratio. induction rest as [|lam rest IH]; intros ratio H; [reflexivity|]. destruct ratio as [|r ratio]; [reflexivity|].
  cbn [combine map fold_right fst snd]. rewrite IH by (intros; apply H; now right). destruct (Nat.eqb_spec (best (lam * (1 + z) * (1 + v / light_speed))) t) as [E|E]; [|lra].
  exfalso. apply (H lam); [now left|exact E].
Qed.
Lemma narrow_reach c th l d q q0 m0 z rest ratio vr hr vmax :
  plain_disc c th l d q q0 m0 z rest ratio vr hr -> no_dispersion c th -> (forall r h, Rabs (vr r h) <= vmax) ->
  exists m inc, image_is c th m /\ inclined q q0 inc /\
    forall i t, (i < g_rows (c_gal c))%nat -> (t < length l)%nat ->
      (forall lam u, In lam rest -> Rabs u <= vmax * sin inc -> ~ first_nearest l (lam * (1 + z) * (1 + u / light_speed)) t) ->
      at2 m i t = Fin 0.
Proof.
  intros HD HS HV. destruct (narrow_image _ _ _ _ _ _ _ _ _ _ _ _ HD HS) as (m&inc&n&nx&dx&best&E1&_&_&E2&E3&E4&E5&E).
  exists m, inc. repeat (split; [assumption|]). intros i t Hi Ht N. rewrite (E i t Hi Ht).
  rewrite (row_ext _ _ _ _ _ _ (fun p => 0 * 0)); [rewrite (row_scal _ _ _ _ _ 0 (fun _ => 0)); f_equal; ring|]. intros p. rewrite narrow_none; [ring|]. intros lam IL Q.
  apply (N lam (along_sight n (vr (from_axis n p) (height n p)) p) IL); [|rewrite <- Q; apply E5].
  pose proof (sin_inc _ _ _ E2) as S. eapply Rle_trans; [apply (sight_bound d inc); assumption|]. apply Rmult_le_compat_r; [exact S|apply HV].
Qed.
Lemma narrow_no_rotation c th l d q q0 m0 z rest ratio vr hr :
  plain_disc c th l d q q0 m0 z rest ratio vr hr -> no_dispersion c th -> q = 1 \/ (forall r h, vr r h = 0) ->
  exists m inc n nx dx best, image_is c th m /\ inclined q q0 inc /\ turning_axis d inc n /\ fills_slit c nx dx /\ (forall x, first_nearest l x (best x)) /\
    forall i t, (i < g_rows (c_gal c))%nat -> (t < length l)%nat ->
      at2 m i t = Fin (narrow best rest ratio z 0 t * row_sum c nx dx m0 i (fun p => hr (from_axis n p) (height n p))).
Proof.
  intros HD HS HZ. destruct (narrow_image _ _ _ _ _ _ _ _ _ _ _ _ HD HS) as (m&inc&n&nx&dx&best&E1&_&_&E2&E3&E4&E5&E).
  exists m, inc, n, nx, dx, best. repeat (split; [assumption|]). intros i t Hi Ht. rewrite (E i t Hi Ht), <- row_scal. f_equal. apply row_ext. intros p.
  rewrite (sight_zero d inc n _ p E3 (sin_inc _ _ _ E2)); [ring|]. destruct HZ as [Q|V]; [right|left; apply V].
  apply (face_on q q0); [exact E2| |exact Q]. apply HD.
Qed.

(** The arctangent curve never exceeds its asymptote. *)
Lemma arctan_max va rt r : Rabs (2 / PI * va * atan (r / rt)) <= Rabs va.
Proof.
  pose proof PI_RGT_0 as P. pose proof (atan_bound (r / rt)) as B.
  assert (A : Rabs (2 / PI * atan (r / rt)) <= 1).
  { assert (E : 2 / PI * atan (r / rt) = atan (r / rt) / (PI / 2)) by (field; lra). rewrite E. apply Rabs_le. split.
    - apply Rmult_le_reg_r with (PI / 2); [lra|]. unfold Rdiv at 2. rewrite Rmult_assoc, Rinv_l by lra. lra.
    - apply Rmult_le_reg_r with (PI / 2); [lra|]. unfold Rdiv at 1. rewrite Rmult_assoc, Rinv_l by lra. lra. }
  replace (2 / PI * va * atan (r / rt)) with (va * (2 / PI * atan (r / rt))) by ring. rewrite Rabs_mult. pose proof (Rabs_pos va). nra.
Qed.
Lemma arctan_profile va rt r h l : rt <> 0 ->
  exists v, MProf.vel_arctan (Fin va :: Fin rt :: l) (Fin r) h = Fin v /\ Rabs v <= Rabs va.
Proof. intros H. eexists. split; [now apply PProf.vel_Fin|apply arctan_max]. Qed.

(** Examples. *)
Definition y_flat (s : R) : list fl := [Fin 200; Fin (1/2); Fin s; Fin 0; Fin 1].
Definition y_wide : list R := [13126; 13134; 13142; 13200].
Definition y_wide_cfg (q : R) : cfg :=
  mkcfg (mkgal (Fin q) (Fin 0) (Fin 30) 3 (map Fin y_wide) (Fin 1) [Fin 6565] [Fin 1]
    (mkdata (fin2 3 4 (fun _ _ => 1)) (fin2 3 4 (fun _ _ => 1)) (fin2 3 4 (fun _ _ => 1)) (fin2 3 4 (fun _ _ => 1)) [0%nat; 1%nat; 2%nat; 3%nat])) y_ins y_opt y_prof.
Lemma y_wide_disc q s : 0 <= q <= 1 -> plain_disc (y_wide_cfg q) (y_flat s) y_wide 30 q 0 1 1 [6565] [1] (fun r _ => 2 / PI * 200 * atan (r / (1/2))) (fun r _ => exp (- r)).
Proof.
  intros Q. unfold plain_disc. split.
  { unfold well_posed. cbn. repeat split; try lia; try lra; try discriminate; auto.
    intros i j H. destruct i as [|[|[|[|i]]]], j as [|[|[|[|j]]]]; cbn in *; try lia; lra. }
  split; [repeat split|]. repeat (split; [reflexivity|]). split; [lra|]. split; [exact Q|].
  split; [cbn; f_equal; lra|]. split; [reflexivity|]. split; [lra|]. split; [reflexivity|]. split; [reflexivity|].
  split; [intros x [<-|[]]; lra|]. split; [|reflexivity]. intros r h. cbn [y_wide_cfg c_prof y_prof p_nvel p_vel y_flat firstn]. apply PProf.vel_Fin. lra.
Qed.
Lemma reach_example : exists m, image_is (y_wide_cfg (3/5)) (y_flat 0) m /\ at2 m 0 3 = Fin 0 /\ at2 m 2 3 = Fin 0.
Proof.
  assert (Z : no_dispersion (y_wide_cfg (3/5)) (y_flat 0)) by (intros r h; cbn; f_equal; lra).
  destruct (narrow_reach _ _ _ _ _ _ _ _ _ _ _ _ 200 (y_wide_disc (3/5) 0 ltac:(lra)) Z) as (m & inc & E1 & E2 & E).
  { intros r h. eapply Rle_trans; [apply arctan_max|]. rewrite Rabs_pos_eq; lra. }
  assert (F : forall lam u, In lam [6565] -> Rabs u <= 200 * sin inc -> ~ first_nearest y_wide (lam * (1 + 1) * (1 + u / light_speed)) 3).
  { intros lam u [<-|[]] U (_ & N & _). specialize (N 2%nat ltac:(cbn; lia)). cbn [y_wide nth] in N. pose proof (SIN_bound inc) as SB.
    assert (B : -200 <= u <= 200) by (revert U; unfold Rabs; destruct (Rcase_abs u); lra). unfold light_speed in N.
    assert (X : 13100 <= 6565 * (1 + 1) * (1 + u / (299792458 / 1000)) <= 13142).
    { assert (EU : u / (299792458 / 1000) = u * (1000 / 299792458)) by (field). rewrite EU. split; lra. }
    rewrite !Rabs_left1 in N by lra. lra. }
  exists m. split; [exact E1|]. split; apply E; try (cbn; lia); exact F.
Qed.
Lemma face_on_example : exists m A B f, image_is (y_wide_cfg 1) (y_flat 50) m /\ forall t, (t < 4)%nat -> at2 m 0 t = Fin (f t * A) /\ at2 m 2 t = Fin (f t * B).
Proof.
  assert (Z : dispersion_is (y_wide_cfg 1) (y_flat 50) (fun _ _ => 50)) by (intros r h; cbn; split; [f_equal; lra|lra]).
  destruct (no_rotation _ _ _ _ _ _ _ _ _ _ _ _ _ (y_wide_disc 1 50 ltac:(lra)) Z (or_introl eq_refl)) as (m & inc & n & nx & dx & E1 & E2 & E3 & E4 & E).
  exists m. eexists _, _, (fun t => spectrum [6565] [1] 1 0 50 (nth t y_wide 0)). split; [exact E1|]. intros t Ht. split; apply E; cbn; lia.
Qed.
Lemma bounds_example : plain_disc (y_wide_cfg (3/5)) (y_flat 50) y_wide 30 (3/5) 0 1 1 [6565] [1] (fun r _ => 2 / PI * 200 * atan (r / (1/2))) (fun r _ => exp (- r)) /\
  dispersion_is (y_wide_cfg (3/5)) (y_flat 50) (fun _ _ => 50) /\ (forall r h : R, Rabs (2 / PI * 200 * atan (r / (1/2))) <= 200) /\ (forall r h : R, 0 <= exp (- r)).
Proof.
  split; [apply y_wide_disc; lra|]. split; [intros r h; cbn; split; [f_equal; lra|lra]|]. split; [|intros; left; apply exp_pos].
  intros r h. eapply Rle_trans; [apply arctan_max|]. rewrite Rabs_pos_eq; lra.
Qed.
