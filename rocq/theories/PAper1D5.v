(* Proofs about the 1-D rotation model. *)
From Coq Require Import Reals List Bool Arith ZArith Lia Lra Psatz.
From Verif Require Import PyFloat PyBase Arr PyNum MKernels MAper2D MProf MAper1D SKernels SAper1D SProf
  PKernels PKernels2 PProf PProf2 PAper1D PAper1D2 PAper1D3 PAper1D4.
From Verif Require PLine.
Import ListNotations.
Local Open Scope R_scope.

(** A symmetric axis of [n] samples of step [d], shifted by [c]. *)
Definition sx (n : nat) (d c : R) (i : nat) : R := (INR i - (INR n - 1) / 2) * d - c.

Lemma sym_axis n d c i : (i < n)%nat ->
  lnth (map (fun x => fsub x (Fin c)) (linspace (fneg (fmul (Fin (INR n / 2 - 1/2)) (Fin d)))
         (fmul (Fin (INR n / 2 - 1/2)) (Fin d)) n)) i = Fin (sx n d c i).
Proof.
  intros Hi. rewrite lnth_map by (now rewrite linspace_length).
  rewrite linspace_nth by auto. cbn [fmul fneg].
  destruct (Nat.eq_dec n 1) as [->|].
  - assert (i = 0%nat) by lia. subst i. unfold linspace_at. cbn [Nat.leb]. unfold fsub. cbn [fadd fneg].
    f_equal. unfold sx. change (INR 0) with 0. change (INR 1) with 1. field.
  - rewrite linspace_at_Fin by lia. unfold fsub. cbn [fadd fneg]. f_equal. unfold sx.
    rewrite minus_INR by lia. change (INR 1) with 1.
    assert (INR n - 1 <> 0). { assert (2 <= INR n) by (change 2 with (INR 2); apply le_INR; lia). lra. }
    field. auto.
Qed.

Lemma sym_axis0 n d i : (i < n)%nat ->
  lnth (linspace (fneg (fmul (Fin (INR n / 2 - 1/2)) (Fin d))) (fmul (Fin (INR n / 2 - 1/2)) (Fin d)) n) i
  = Fin (sx n d 0 i).
Proof.
  intros Hi. pose proof (sym_axis n d 0 i Hi) as E. rewrite lnth_map in E by (now rewrite linspace_length).
  destruct (lnth _ i) as [v| | |]; unfold fsub in E; cbn [fadd fneg] in E; try discriminate.
  injection E as <-. f_equal. ring.
Qed.

Lemma sx_bound n d c i : 0 <= d -> (i < n)%nat -> Rabs (sx n d c i + c) <= (INR n - 1) / 2 * d.
Proof.
  intros Hd Hi. unfold sx. replace ((INR i - (INR n - 1) / 2) * d - c + c) with ((INR i - (INR n - 1) / 2) * d) by ring.
  rewrite Rabs_mult, (Rabs_right d) by lra. apply Rmult_le_compat_r; auto. apply Rabs_le.
  pose proof (pos_INR i). assert (INR i <= INR n - 1).
  { replace (INR n - 1) with (INR (n - 1)) by (rewrite minus_INR by lia; reflexivity). apply le_INR. lia. }
  lra.
Qed.

Lemma rsumn_INR n : rsumn n INR = INR n * (INR n - 1) / 2.
Proof. induction n as [|n IH]; [simpl; lra|]. cbn [rsumn]. rewrite IH, S_INR. field. Qed.

Lemma sx_mean n d c : (0 < n)%nat -> rsum (map (sx n d c) (seq 0 n)) / INR (length (map (sx n d c) (seq 0 n))) = - c.
Proof.
  intros H. rewrite map_length, seq_length, rsum_seq.
  assert (INR n <> 0) by (apply not_0_INR; lia).
  assert (E : forall m, rsumn m (sx n d c) = rsumn m INR * d - INR m * ((INR n - 1) / 2 * d + c)).
  { intros m. induction m as [|m IH]; [simpl; lra|]. cbn [rsumn]. rewrite IH, S_INR. unfold sx. field. }
  rewrite E, rsumn_INR. field. auto.
Qed.

Lemma filter_Fin (f : fl -> bool) l : filter f (map Fin l) = map Fin (filter (fun x => f (Fin x)) l).
Proof. induction l as [|x l IH]; [reflexivity|]. simpl. destruct (f (Fin x)); simpl; now rewrite IH. Qed.

Lemma trim_axis n d c F : (0 < n)%nat -> 0 <= d -> d <= 2 * F ->
  exists l, l <> [] /\
    filter (fun x => fleb (fabs (fsub x (average (map Fin (map (sx n d c) (seq 0 n)))))) (Fin F))
      (map Fin (map (sx n d c) (seq 0 n))) = map Fin l.
Proof.
  intros Hn Hd HF. rewrite average_Fin.
  2:{ intros E. apply (f_equal (@length R)) in E. rewrite map_length, seq_length in E. simpl in E. lia. }
  rewrite sx_mean by auto. rewrite filter_Fin. eexists. split; [|reflexivity].
  assert (I : In (sx n d c ((n - 1) / 2)) (filter (fun x => fleb (fabs (fsub (Fin x) (Fin (- c)))) (Fin F)) (map (sx n d c) (seq 0 n)))).
  { apply filter_In. split.
    - apply in_map, in_seq. pose proof (Nat.div_le_upper_bound (n - 1) 2 (n - 1) ltac:(lia) ltac:(lia)). lia.
    - unfold fsub. cbn [fneg fadd fabs fleb]. apply Rleb_true. unfold sx.
      replace ((INR ((n - 1) / 2) - (INR n - 1) / 2) * d - c + - - c) with ((INR ((n - 1) / 2) - (INR n - 1) / 2) * d) by ring.
      rewrite Rabs_mult, (Rabs_right d) by lra.
      assert (K : Rabs (INR ((n - 1) / 2) - (INR n - 1) / 2) <= 1/2).
      { pose proof (Nat.div_mod (n - 1) 2 ltac:(lia)) as E. pose proof (Nat.mod_upper_bound (n - 1) 2 ltac:(lia)) as M.
        assert (E' : INR (n - 1) = 2 * INR ((n - 1) / 2) + INR ((n - 1) mod 2)).
        { rewrite E at 1. rewrite plus_INR, mult_INR. change (INR 2) with (1 + 1). ring. }
        rewrite minus_INR in E' by lia. change (INR 1) with 1 in E'.
        assert (INR ((n - 1) mod 2) <= 1) by (change 1 with (INR 1); apply le_INR; lia).
        pose proof (pos_INR ((n - 1) mod 2)). apply Rabs_le. lra. }
      nra. }
  intros E. rewrite E in I. destruct I.
Qed.

Lemma sq_root lo hi s : 0 <= lo -> 0 <= s -> lo * lo <= s * s <= hi * hi -> 0 <= hi -> lo <= s <= hi.
Proof. intros. split; apply Rsqr_incr_0_var; unfold Rsqr; lra. Qed.

(** The local samples. *)
Lemma local_speed va rt a i x y z : rt <> 0 ->
  let p := transform_int_3d (Fin x) (Fin y) (Fin z) (Fin a) (Fin i) in
  let r := fsqrt (fadd (fsq (fst (fst p))) (fsq (snd (fst p)))) in
  (exists rr, r = Fin rr) /\ (exists zz, snd p = Fin zz) /\
  let c := if feqb r (Fin 0) then Fin 0 else fdiv (snd (fst p)) r in
  fmul (fmul (vel_arctan [Fin va; Fin rt] r (snd p)) c) (Fin (sin i)) = Fin (speed va rt a i x y z).
Proof.
  intros Hrt. rewrite tr_Fin. cbn [fst snd]. unfold fsq. cbn [fmul fadd].
  set (X := cos i * (x * cos (a * (PI / 180)) + y * sin (a * (PI / 180))) + sin i * z).
  set (Y := - x * sin (a * (PI / 180)) + y * cos (a * (PI / 180))).
  assert (HP : 0 <= X * X + Y * Y) by (pose proof (Rle_0_sqr X); pose proof (Rle_0_sqr Y); unfold Rsqr in *; lra).
  cbn [fsqrt]. rewrite (proj2 (Rltb_false _ _)) by lra.
  split; [eauto|]. split; [eauto|]. cbv zeta. rewrite vel_Fin by auto.
  unfold speed, rotation.
  replace (a * PI / 180) with (a * (PI / 180)) by field.
  replace (y * cos (a * (PI / 180)) - x * sin (a * (PI / 180))) with Y by (unfold Y; ring).
  fold X. replace (X ^ 2 + Y ^ 2) with (X * X + Y * Y) by ring.
  unfold feqb. cbn [feqb]. destruct (Reqb (sqrt (X * X + Y * Y)) 0) eqn:E.
  - apply Reqb_true in E. cbn [fmul]. f_equal. rewrite E. unfold Rdiv at 4.
    assert (Y = 0). { apply sqrt_eq_0 in E; auto. pose proof (Rle_0_sqr X). pose proof (Rle_0_sqr Y). unfold Rsqr in *. nra. }
    rewrite H. unfold Rdiv. ring.
  - assert (sqrt (X * X + Y * Y) <> 0) by (intros Z; apply Reqb_true in Z; congruence).
    rewrite fdiv_Fin by auto. cbn [fmul]. reflexivity.
Qed.

(** The two collapsed images. *)
Lemma fsumn_pos n (f : nat -> fl) (g : nat -> R) : (forall k, (k < n)%nat -> f k = Fin (g k)) -> fsumn n f = Fin (rsumn n g).
Proof. apply fsumn_Fin. Qed.

Lemma dom_weaken lo hi lo' hi' A B : lo' <= lo -> hi <= hi' -> dom lo hi A B -> dom lo' hi' A B.
Proof.
  intros H1 H2 (E0 & E1 & H). split; auto. split; auto. intros j i Hj Hi.
  destruct (H j i Hj Hi) as (x & y & Ex & Ey & P & B1 & B2). exists x, y. repeat split; auto; nra.
Qed.

Lemma sub_dims (A : arr2 fl) p n p' n' : rows A = (n + 2 * p)%nat -> cols A = (n' + 2 * p')%nat ->
  let S := sub2z A (Z.of_nat p) (Z.of_nat (n + p)) (Z.of_nat p') (Z.of_nat (n' + p')) in
  rows S = n /\ cols S = n'.
Proof.
  intros R0 C0. unfold sub2z. cbn [rows cols]. rewrite R0, C0. rewrite !slice_bound_nat by lia. lia.
Qed.

Lemma nat_of_Z z : (0 <= z)%Z -> INR (Z.to_nat z) = IZR z.
Proof. intros H. rewrite INR_IZR_INZ, Z2Nat.id; auto. Qed.

Lemma inclined_ok q q0 s : 0 <= s <= 1 -> (q <= q0 -> s = 1) -> (q0 <= q -> s * s * (1 - q0 * q0) = 1 - q * q) ->
  inclined q q0 (asin s) /\ fasin (Fin s) = Fin (asin s) /\ sin (asin s) = s.
Proof.
  intros Hs H1 H2. assert (SS : sin (asin s) = s) by (apply sin_asin; lra).
  split; [|split; auto].
  - unfold inclined. rewrite SS. split; [|split; auto].
    + split; [|apply asin_bound]. destruct (Rle_lt_dec 0 (asin s)); auto.
      pose proof (asin_bound s). assert (sin (asin s) < 0) by (apply sin_lt_0_var; [pose proof PI_RGT_0|]; lra). lra.
    + intros H. specialize (H2 H). replace (q ^ 2) with (q * q) by ring. rewrite <- H2. ring.
  - cbn [fasin]. rewrite (proj2 (Rleb_true _ _)) by lra. rewrite (proj2 (Rleb_true _ _)) by lra. reflexivity.
Qed.

Lemma pydiv_Fin a b : b <> 0 -> py_div (Fin a) (Fin b) = Ok (Fin (a / b)).
Proof.
  intros H. unfold py_div. cbn [feqb]. rewrite (proj2 (Reqb_false _ _)) by auto. now rewrite fdiv_Fin.
Qed.

Lemma round_nonneg x : 0 <= x -> (0 <= Rround x)%Z /\ IZR (Rround x) <= x + 1/2.
Proof.
  intros H. pose proof (Rround_near x) as K. assert (K' : - (1/2) <= x - IZR (Rround x) <= 1/2) by (revert K; unfold Rabs; destruct (Rcase_abs _); lra). split; [|lra].
  apply Z.le_ngt. intros L. apply IZR_lt in L. assert (Rround x <= -1)%Z by (apply lt_IZR in L; lia).
  apply IZR_le in H0. lra.
Qed.

(** Sample positions of the grid: [x], [y], [z] of the sample k, j, i. *)
Record grid_of (o : ropt) (ins : ins1) (q q0 a W xc yc pad F H : R) (g : grid1r) (i : R) (dx dy : R) : Prop := mk_grid_of
  { go_incl : inclined q q0 i; go_sini : e_sini g = Fin (sin i); go_ew : e_ew g = Fin H;
    go_dx : e_dx g = Fin dx; go_dy : e_dy g = Fin dy; go_px : 0 < dx; go_py : 0 < dy; go_le : dx <= dy;
    go_dyv : dy = H / INR (t_npix o);
    go_ny : e_ny g = t_npix o; go_nx : (0 < e_nx g)%nat;
    go_wx : INR (e_nx g) * dx = W;
    go_bx : (INR (e_nx g + 2 * e_padX g) - 1) / 2 * dx <= W / 2 + pad * F;
    go_by : (INR (t_npix o + 2 * e_padY g) - 1) / 2 * dy <= H / 2 + pad * F;
    go_lx : e_x g = map Fin (map (sx (e_nx g + 2 * e_padX g) dx xc) (seq 0 (e_nx g + 2 * e_padX g)));
    go_ly : e_y g = map Fin (map (sx (t_npix o + 2 * e_padY g) dy yc) (seq 0 (t_npix o + 2 * e_padY g)));
    go_d0 : dim0 (e_I g) = t_npix o; go_d1 : dim1 (e_I g) = (t_npix o + 2 * e_padY g)%nat;
    go_d2 : dim2 (e_I g) = (e_nx g + 2 * e_padX g)%nat;
    go_pt : forall kk jj ii, (kk < t_npix o)%nat -> (jj < t_npix o + 2 * e_padY g)%nat -> (ii < e_nx g + 2 * e_padX g)%nat ->
      let x := sx (e_nx g + 2 * e_padX g) dx xc ii in
      let y := sx (t_npix o + 2 * e_padY g) dy yc jj in
      let z := sx (t_npix o) dy 0 kk in
      let p := transform_int_3d (Fin x) (Fin y) (Fin z) (Fin a) (Fin i) in
      at3 (e_r g) kk jj ii = fsqrt (fadd (fsq (fst (fst p))) (fsq (snd (fst p)))) /\
      at3 (e_yint g) kk jj ii = snd (fst p) /\ at3 (e_zint g) kk jj ii = snd p /\
      at3 (e_I g) kk jj ii = t_int o (at3 (e_r g) kk jj ii) (at3 (e_zint g) kk jj ii) }.

Lemma axis_list n d c : map (fun x => fsub x (Fin c)) (linspace (fneg (fmul (Fin (INR n / 2 - 1/2)) (Fin d)))
         (fmul (Fin (INR n / 2 - 1/2)) (Fin d)) n) = map Fin (map (sx n d c) (seq 0 n)).
Proof.
  apply list_of_lnth; [now rewrite map_length, linspace_length|]. intros k Hk. now apply sym_axis.
Qed.
Lemma axis_list0 n d : linspace (fneg (fmul (Fin (INR n / 2 - 1/2)) (Fin d)))
         (fmul (Fin (INR n / 2 - 1/2)) (Fin d)) n = map Fin (map (sx n d 0) (seq 0 n)).
Proof.
  apply list_of_lnth; [now rewrite linspace_length|]. intros k Hk. now apply sym_axis0.
Qed.
Lemma lnth_sx n d c i : (i < n)%nat -> lnth (map Fin (map (sx n d c) (seq 0 n))) i = Fin (sx n d c i).
Proof.
  intros H. rewrite map_map. now apply (lnth_map_seq (fun x => Fin (sx n d c x))).
Qed.

Lemma half_pad n p : Fin (INR n / 2 + INR p - 1/2) = Fin (INR (n + 2 * p) / 2 - 1/2).
Proof. f_equal. rewrite plus_INR, mult_INR. change (INR 2) with (1 + 1). field. Qed.

Lemma grid_1R_ok o ins gal re q q0 a W xc yc pad F H va rt :
  physical_rot o ins gal re q q0 a W xc yc pad F H va rt ->
  exists g i dx dy, grid_1R o ins gal = Ok g /\ grid_of o ins q q0 a W xc yc pad F H g i dx dy.
Proof.
  intros ((Er & Eq & Eq0 & Ea) & (EW & Ex & Ey & Ep & Ev & Et) & (Pre & Pq & Pq0 & PW & Pp & Pt) & PP & HF & Mm & S1 & S2 & HE & Nn & HH & HI).
  pose proof PP as (EF & _).
  assert (PH : 0 < H /\ (match t_ew o with Some w => w | None => default_width (l_re gal) (l_q gal) (l_dPA gal) (Fin F) end) = Fin H).
  { destruct HE as [[-> ->]|[-> P]]; [|auto]. rewrite Er, Eq, Ea. destruct (width_value re q a F Pre ltac:(lra)). auto. }
  destruct PH as [PH EH].
  unfold grid_1R. rewrite EF. cbn [need bind]. rewrite EH, Eq, Eq0, Ea, EW, Ep, Ex, Ey.
  assert (PN : 0 < INR (t_npix o)) by (apply lt_0_INR; lia).
  rewrite pydiv_Fin by lra. cbn [bind].
  set (dy := H / INR (t_npix o)). assert (Pdy : 0 < dy) by (apply Rdiv_lt_0_compat; auto).
  rewrite pydiv_Fin by lra. cbn [bind int_ceil].
  set (nz := Rceil (W / dy)). pose proof (Rceil_spec (W / dy)) as CS. fold nz in CS.
  assert (Q0 : 0 < W / dy) by (apply Rdiv_lt_0_compat; auto).
  assert (Pz : 0 < IZR nz) by lra. assert (Pz' : (0 < nz)%Z) by (apply lt_IZR; auto).
  rewrite pydiv_Fin by lra. cbn [bind].
  set (dx := W / IZR nz). assert (Pdx : 0 < dx) by (apply Rdiv_lt_0_compat; auto).
  change (fmul (Fin F) (Fin pad)) with (Fin (F * pad)). rewrite pydiv_Fin by lra. cbn [bind]. rewrite pydiv_Fin by lra. cbn [bind int_round].
  assert (FP : 0 <= F * pad) by nra.
  assert (A1 : 0 <= F * pad / dy) by (apply Rmult_le_pos; [lra|left; apply Rinv_0_lt_compat; lra]).
  assert (A2 : 0 <= F * pad / dx) by (apply Rmult_le_pos; [lra|left; apply Rinv_0_lt_compat; lra]).
  destruct (round_nonneg _ A1) as [B1 B1']. destruct (round_nonneg _ A2) as [B2 B2'].
  rewrite (proj2 (Z.ltb_ge nz 0)) by lia. rewrite (proj2 (Z.ltb_ge _ _) B2), (proj2 (Z.ltb_ge _ _) B1). cbn [orb].
  set (zX := Rround (F * pad / dx)) in *. set (zY := Rround (F * pad / dy)) in *.
  destruct (sin_i_range q q0) as (s & Es & Hs & Hs1 & _ & Hs2); try lra.
  rewrite Es. destruct (inclined_ok q q0 s Hs Hs1 Hs2) as (INC & EAs & SS). rewrite EAs.
  set (nx := Z.to_nat nz). set (pX := Z.to_nat zX). set (pY := Z.to_nat zY). set (ny := t_npix o).
  assert (Nx : INR nx = IZR nz) by (apply nat_of_Z; lia).
  assert (NpX : INR pX = IZR zX) by (apply nat_of_Z; lia).
  assert (NpY : INR pY = IZR zY) by (apply nat_of_Z; lia).
  cbv zeta. rewrite !half_pad.
  set (NX := (nx + 2 * pX)%nat). set (NY := (ny + 2 * pY)%nat).
  eexists. exists (asin s), dx, dy. split; [reflexivity|].
  assert (WX : INR nx * dx = W) by (rewrite Nx; unfold dx; field; lra).
  assert (WY : INR ny * dy = H) by (unfold dy, ny; field; lra).
  constructor; cbn [e_sini e_ew e_ny e_nx e_padX e_padY e_dx e_dy e_x e_y e_r e_yint e_zint e_I].
  - exact INC.
  - now rewrite SS.
  - reflexivity.
  - reflexivity.
  - reflexivity.
  - exact Pdx.
  - exact Pdy.
  - unfold dx. apply Rmult_le_reg_r with (IZR nz); auto. unfold Rdiv. rewrite Rmult_assoc, Rinv_l by lra.
    assert (W = W / dy * dy) by (field; lra). nra.
  - reflexivity.
  - reflexivity.
  - unfold nx. lia.
  - exact WX.
  - rewrite plus_INR, mult_INR. change (INR 2) with (1 + 1). rewrite NpX.
    assert (F * pad = F * pad / dx * dx) by (field; lra). nra.
  - rewrite plus_INR, mult_INR. change (INR 2) with (1 + 1). rewrite NpY. fold ny.
    assert (F * pad = F * pad / dy * dy) by (field; lra). nra.
  - rewrite axis_list. reflexivity.
  - rewrite axis_list. reflexivity.
  - reflexivity.
  - reflexivity.
  - reflexivity.
  - intros kk jj ii Hk Hj Hi. cbv zeta. rewrite !PLine.at3_mk.
    fold NX NY. fold NX in Hi. fold NY in Hj. rewrite !axis_list, axis_list0.
    rewrite !lnth_sx by auto. auto.
Qed.
