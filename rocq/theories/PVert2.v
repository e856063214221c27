(* When the object row cannot be found, the S/N reported for it, and the trimmed image around it. *)
From Coq Require Import Reals List Bool Arith ZArith Lra Lia.
From Verif Require Import PyFloat PyBase Arr PyNum MAper2D MMask MTrim STrim PTrim PTrim2 PAper2DOk MVert SVert PVert.
Import ListNotations.
Local Open Scope R_scope.

Lemma fmin1_finite l : forall a, isfinite a = true -> (forall x, In x l -> isfinite x = true) ->
  In (fmin1 a l) (a :: l) /\ isfinite (fmin1 a l) = true.
Proof.
  induction l as [|b l IH]; intros a A L; cbn [fmin1]; [split; [left; reflexivity|exact A]|].
  assert (B : isfinite b = true) by (apply L; now left).
  destruct a; try discriminate. destruct b; try discriminate. cbn [isnan fltb]. 
  destruct (Rltb r0 r).
  - destruct (IH (Fin r0) eq_refl) as [I1 I2]; [intros; apply L; now right|]. split; [right; exact I1|exact I2].
  - destruct (IH (Fin r) eq_refl) as [I1 I2]; [intros; apply L; now right|]. split; [|exact I2].
    destruct I1 as [I1|I1]; [left; exact I1|right; right; exact I1].
Qed.

Lemma where_from_some {A} (p : A -> bool) l : forall k, (exists x, In x l /\ p x = true) -> where_from k p l <> [].
Proof.
  induction l as [|a l IH]; intros k (x & I & P); [destruct I|]. cbn [where_from]. destruct I as [->|I].
  - rewrite P. discriminate.
  - intros H. apply app_eq_nil in H. destruct H as [_ H]. revert H. apply IH. eauto.
Qed.

Lemma line_column_ok wave w : wavelengths wave -> isfinite w = true -> exists c, line_column wave w = Ok c.
Proof.
  intros [N F] W. unfold line_column. destruct wave as [|x wave]; [congruence|].
  destruct w as [w| | |]; try discriminate.
  assert (D : forall z, In z (map (fun x => fabs (fsub x (Fin w))) (x :: wave)) -> isfinite z = true).
  { intros z Hz. apply in_map_iff in Hz. destruct Hz as (y & <- & Hy). apply F in Hy. now destruct y. }
  cbn [map] in *. destruct (fmin1_finite (map (fun x => fabs (fsub x (Fin w))) wave) (fabs (fsub x (Fin w)))) as [I1 I2].
  { apply D. now left. } { intros. apply D. now right. }
  cbn [np_min bind]. set (m := fmin1 _ _) in *. 
  destruct (where_ (fun x => feqb x m) (fabs (fsub x (Fin w)) :: map (fun x => fabs (fsub x (Fin w))) wave)) as [|c t] eqn:E.
  - exfalso. revert E. apply where_from_some. exists m. split; [exact I1|]. destruct m; try discriminate. cbn [feqb]. apply Reqb_true. reflexivity.
  - exists c. reflexivity.
Qed.

Lemma row_err_length a : length (row_err a) = rows a.
Proof. unfold row_err. now rewrite map_length, seq_length. Qed.
Lemma row_sn_length fx er : length (row_sn fx er) = Nat.min (length fx) (length er).
Proof. unfold row_sn. now rewrite map_length, combine_length. Qed.

Lemma drop_edge_ok sp sn : sn <> [] -> exists sp', drop_edge sp sn = Ok sp'.
Proof. unfold drop_edge. destruct sn; [congruence|]. intros _. eexists. reflexivity. Qed.

Lemma getz_closest {A} (l : list A) k : l <> [] -> exists x, getz l (closest k (length l) - 0) = Ok x /\
  nth_error l (Z.to_nat (Z.max 0 (Z.min (Z.of_nat (length l) - 1) k))) = Some x.
Proof.
  intros N. assert (L : (0 < length l)%nat) by (destruct l; [congruence|cbn; lia]).
  assert (C : (closest k (length l) - 0 = Z.max 0 (Z.min (Z.of_nat (length l) - 1) k))%Z).
  { unfold closest. rewrite Z.gtb_ltb. destruct (Z.ltb_spec (Z.of_nat (length l) - 1) k); [lia|]. destruct (Z.ltb_spec k 0); lia. }
  rewrite C. set (c := Z.max 0 _). assert (B : (0 <= c < Z.of_nat (length l))%Z) by lia. clearbody c.
  unfold getz. destruct (Z.ltb_spec c 0); [lia|]. destruct (Z.leb_spec 0 c); [|lia].
  destruct (nth_error l (Z.to_nat c)) as [x|] eqn:E; [|apply nth_error_None in E; lia].
  exists x. split; [now apply getn_ok|reflexivity].
Qed.

Lemma half_height_ok lm dither pix off m0 q a m : respects lm -> (dither = false -> 0 < pix) -> vq_three q = dither -> lm q = Ok a ->
  va_mu a = Fin m -> exists h, half_height dither pix off m0 a = Ok h.
Proof.
  intros Rs P T L M. unfold half_height. destruct dither.
  - destruct (Rs q a L) as (_ & _ & D). destruct (D T) as (d & x & D1 & _). rewrite M, D1. cbn [fsub fadd fneg int_round bind int_ceil]. eauto.
  - destruct (Reqb pix 0) eqn:E; [apply Reqb_true in E; specialize (P eq_refl); lra|]. cbn [int_ceil]. eauto.
Qed.

(** Reading an answer in untrimmed coordinates never fails. *)
Lemma read_fit_ok lm dither pix sn q a m : respects lm -> (dither = false -> 0 < pix) -> vq_three q = dither -> lm q = Ok a ->
  va_mu a = Fin m -> sn <> [] -> exists v, read_fit dither pix 0 sn a = Ok v.
Proof.
  intros Rs P T L M N. unfold read_fit. rewrite M. cbn [int_round bind]. cbv zeta.
  destruct (getz_closest sn (Rround m + 0) N) as (x & G & _). rewrite G. cbn [bind].
  destruct (half_height_ok lm dither pix 0 (Rround m + 0) q a m Rs P T L M) as (h & H). rewrite H. cbn [bind]. eauto.
Qed.

Lemma first_answerable dither mu vary n z sp er : enough dither n ->
  answerable (mkVreq dither mu vary (Z.of_nat n - 1) (Fin (IZR (Z.of_nat n - 1))) None z sp er).
Proof.
  intros [E1 E2]. split; cbn [vq_vary vq_mumax vq_three vq_dmax]; intros H; [lia|]. specialize (E2 H). eexists. split; [reflexivity|].
  apply IZR_lt. lia.
Qed.

Section Run.
Variables (median : list fl -> fl) (lm : vreq -> res vans) (dither skip : bool) (pix : R) (line : fl) (flux err : arr2 fl) (wave : list fl).
Hypothesis Rs : respects lm.
Hypothesis Al : always lm.
Hypothesis P : dither = false -> 0 < pix.
Hypothesis W : wavelengths wave.
Hypothesis Wl : isfinite line = true.
Hypothesis Sh : rows err = rows flux.
Hypothesis En : enough dither (rows flux).

Lemma blind_run : exists v0, vert_position median lm dither skip pix line flux err wave None =
    (if poor_blind (rows flux) v0 then Err TypeError else Ok v0) /\ (exists h, symmetric v0 h /\ good_half lm dither pix h) /\
    exists q a, vq_three q = dither /\ vq_dmax q = Fin (IZR (Z.of_nat (rows flux) - 1)) /\ lm q = Ok a /\
      read_fit dither pix 0 (row_sn (row_flux flux) (row_err (fill_err median err))) a = Ok v0.
Proof.
  destruct (line_column_ok wave line W Wl) as (c & C). unfold vert_position. rewrite C. cbn [bind]. cbv zeta.
  set (sn := row_sn (row_flux flux) _).
  assert (N : sn <> []).
  { unfold sn. intros E. apply (f_equal (@length fl)) in E. rewrite row_sn_length, row_flux_length, row_err_length in E. cbn in E. destruct En. lia. }
  destruct (drop_edge_ok (row_flux flux) sn N) as (sp & D). rewrite D. cbn [bind]. pose proof (drop_edge_length _ _ _ D) as L. rewrite row_flux_length in L.
  rewrite L. match goal with |- context [lm ?q] => destruct (Al q (first_answerable _ _ _ _ _ _ _ En)) as (a & La); set (q0 := q) in *; assert (T : vq_three q0 = dither) by reflexivity;
    assert (V : vq_vary q0 = true) by reflexivity end.
  rewrite La. cbn [bind]. destruct (Rs q0 a La) as (V1 & _ & _). destruct (V1 V) as (m & M & _).
  destruct (read_fit_ok lm dither pix sn q0 a m Rs P T La M N) as (v0 & R0). rewrite R0. cbn [bind]. exists v0. split; [reflexivity|]. split.
  - eapply (read_half lm dither pix 0%Z); [exact Rs|exact P|exact T|exact La|exact R0].
  - exists q0, a. split; [exact T|]. split; [reflexivity|]. split; [exact La|exact R0].
Qed.


Lemma given_run y : exists sp v1, length sp = rows flux /\
  vert_position median lm dither skip pix line flux err wave (Some (Fin y)) =
    (if poor_given pix v1 then
       do mx <- np_max (slice sp 5 (-5));
       do a <- lm (mkVreq dither (fsub (Fin y) (Fin 5)) false (Z.of_nat (length (slice sp 5 (-5))) - 1) (Fin ((INR (length (slice sp 5 (-5))) - 1) / 2))
                      (Some (fmul (Fin 10) mx)) (Fin 5) (slice sp 5 (-5)) (slice (row_err (fill_err median err)) 5 (-5)));
       read_fit dither pix 5 (slice (row_sn (row_flux flux) (row_err (fill_err median err))) 5 (-5)) a
     else Ok v1) /\ exists h, symmetric v1 h /\ good_half lm dither pix h.
Proof.
  destruct (line_column_ok wave line W Wl) as (c & C). unfold vert_position. rewrite C. cbn [bind]. cbv zeta.
  set (er := row_err _). set (sn := row_sn (row_flux flux) er).
  assert (N : sn <> []).
  { unfold sn, er. intros E. apply (f_equal (@length fl)) in E. rewrite row_sn_length, row_flux_length, row_err_length in E. cbn in E. destruct En. lia. }
  destruct (drop_edge_ok (row_flux flux) sn N) as (sp & D). rewrite D. cbn [bind]. pose proof (drop_edge_length _ _ _ D) as L. rewrite row_flux_length in L.
  rewrite L. exists sp. match goal with |- context [lm (mkVreq dither (Fin y) true ?m ?d ?x ?z ?f ?e)] => set (q0 := mkVreq dither (Fin y) true m d x z f e) in *; 
    set (q1 := mkVreq dither (Fin y) false m d x z f e) in * end.
  destruct (Al q0 (first_answerable _ _ _ _ _ _ _ En)) as (a & La). destruct (Al q1 (first_answerable _ _ _ _ _ _ _ En)) as (a1 & L1). rewrite La. cbn [bind].
  destruct (Rs q0 a La) as (V1 & _ & _). destruct (V1 eq_refl) as (m & M & _).
  destruct (read_fit_ok lm dither pix sn q0 a m Rs P eq_refl La M N) as (v0 & R0). rewrite R0. cbn [bind].
  destruct (fgtb _ _ && negb skip).
  - cbn [int_round bind]. rewrite L1. cbn [bind]. destruct (Rs q1 a1 L1) as (_ & V2 & _). specialize (V2 eq_refl).
    destruct (read_fit_ok lm dither pix sn q1 a1 y Rs P eq_refl L1 V2 N) as (v1 & R1). rewrite R1. cbn [bind]. exists v1.
    split; [exact L|]. split; [reflexivity|]. exact (read_half lm dither pix 0%Z sn q1 a1 v1 Rs P eq_refl L1 R1).
  - cbn [bind]. exists v0. split; [exact L|]. split; [reflexivity|]. exact (read_half lm dither pix 0%Z sn q0 a v0 Rs P eq_refl La R0).
Qed.
End Run.

(** Which windows are poor without dithering depends on the pixel scale alone. *)
Lemma coarse_poor pix v h : 3/8 <= pix -> symmetric v h -> IZR h - 1 < 3 / 4 / pix <= IZR h -> (v_max v - v_min v < 5)%Z.
Proof.
  intros Hp [S1 S2] G. assert (3 / 4 / pix <= 2). { apply Rmult_le_reg_r with pix; [lra|]. unfold Rdiv. rewrite Rmult_assoc, Rinv_l by lra. lra. }
  assert (h < 3)%Z by (apply lt_IZR; lra). lia.
Qed.
Lemma fine_good pix v h : 0 < pix < 3/8 -> symmetric v h -> IZR h - 1 < 3 / 4 / pix <= IZR h -> poor_given pix v = false.
Proof.
  intros Hp [S1 S2] G. assert (2 < 3 / 4 / pix). { apply Rmult_lt_reg_r with pix; [lra|]. unfold Rdiv. rewrite Rmult_assoc, Rinv_l by lra. lra. }
  assert (2 < h)%Z by (apply lt_IZR; lra). unfold poor_given. apply orb_false_iff. split; [|apply Z.ltb_ge; lia].
  apply Rltb_false. replace (v_max v - v_min v)%Z with (2 * h)%Z by lia. rewrite mult_IZR.
  assert (IZR h * pix < 3/4 + pix). { replace (3/4 + pix) with ((3 / 4 / pix + 1) * pix) by (field; lra). apply Rmult_lt_compat_r; lra. }
  lra.
Qed.

(** C64: nothing else can happen without a position. *)
Lemma blind_outcome median lm dither skip pix line flux err wave :
  respects lm -> always lm -> (dither = false -> 0 < pix) -> wavelengths wave -> isfinite line = true ->
  rows err = rows flux -> enough dither (rows flux) ->
  let out := vert_position median lm dither skip pix line flux err wave None in
  (out = Err TypeError \/ exists v, out = Ok v) /\
  ((rows flux < 10)%nat -> out = Err TypeError) /\
  (dither = false -> forall h, IZR h - 1 < 3 / 4 / pix <= IZR h ->
     if ((5 <=? 2 * h) && (2 * h <=? Z.of_nat (rows flux) - 5))%Z then exists v, out = Ok v else out = Err TypeError).
Proof.
  intros Rs Al P W Wl Sh N out.
  destruct (blind_run median lm dither skip pix line flux err wave Rs Al P W Wl Sh N) as (v0 & E & (h & S & G) & _). fold out in E.
  split; [|split].
  - destruct (poor_blind (rows flux) v0); [left; exact E|right; eauto].
  - intros H. destruct (poor_blind (rows flux) v0) eqn:B; [exact E|]. pose proof (blind_window median lm dither skip pix line flux err wave v0 E). lia.
  - intros Di h' G'. subst dither. cbn [good_half] in G.
    assert (h' = h). { assert (h' < h + 1)%Z by (apply lt_IZR; rewrite plus_IZR; lra). assert (h < h' + 1)%Z by (apply lt_IZR; rewrite plus_IZR; lra). lia. }
    subst h'. destruct S as [S1 S2]. unfold poor_blind in E. rewrite Z.gtb_ltb in E. replace (v_max v0 - v_min v0)%Z with (2 * h)%Z in E by lia.
    destruct (Z.leb_spec 5 (2 * h)); destruct (Z.leb_spec (2 * h) (Z.of_nat (rows flux) - 5)); cbn [andb];
    destruct (Z.ltb_spec (Z.of_nat (rows flux) - 5) (2 * h)); destruct (Z.ltb_spec (2 * h) 5); try lia; cbn [orb] in E; eauto.
Qed.

Lemma slice5_length {A} (l : list A) : length (slice l 5 (-5)) = (length l - 10)%nat.
Proof.
  unfold slice. rewrite firstn_length, skipn_length. unfold slice_bound.
  destruct (Z.ltb_spec 5 0); [lia|]. destruct (Z.ltb_spec (-5) 0); lia.
Qed.
Lemma nth_error_firstn_ {A} (l : list A) : forall n k, (k < n)%nat -> nth_error (firstn n l) k = nth_error l k.
Proof. induction l as [|a l IH]; intros [|n] [|k] H; cbn; try lia; auto. apply IH. lia. Qed.
Lemma nth_error_skipn_ {A} (l : list A) : forall n k, nth_error (skipn n l) k = nth_error l (n + k).
Proof. induction l as [|a l IH]; intros [|n] k; cbn; auto. now destruct k. Qed.
Lemma slice5_nth {A} (l : list A) k : (k < length l - 10)%nat -> nth_error (slice l 5 (-5)) k = nth_error l (5 + k).
Proof.
  intros H. unfold slice. 
  replace (slice_bound (length l) 5) with 5%nat by (unfold slice_bound; cbn [Z.ltb Z.compare]; lia).
  replace (slice_bound (length l) (-5)) with (length l - 5)%nat by (unfold slice_bound; cbn [Z.ltb Z.compare]; lia).
  rewrite nth_error_firstn_ by lia. apply nth_error_skipn_.
Qed.

(** C64: with a position, a coarse pixel scale and few rows nothing is found. *)
Lemma given_short median lm skip pix line flux err wave y :
  respects lm -> always lm -> 3/8 <= pix -> wavelengths wave -> isfinite line = true ->
  rows err = rows flux -> (2 <= rows flux <= 10)%nat ->
  vert_position median lm false skip pix line flux err wave (Some (Fin y)) = Err ValueError.
Proof.
  intros Rs Al Hp W Wl Sh N.
  destruct (given_run median lm false skip pix line flux err wave Rs Al ltac:(intros; lra) W Wl Sh ltac:(split; [lia|discriminate]) y) as (sp & v1 & L & E & h & S & G).
  rewrite E. cbn [good_half] in G. pose proof (coarse_poor pix v1 h Hp S G) as B.
  replace (poor_given pix v1) with true by (unfold poor_given; symmetry; apply orb_true_iff; right; now apply Z.ltb_lt).
  assert (Z : slice sp 5 (-5) = []). { apply length_zero_iff_nil. rewrite slice5_length. lia. }
  rewrite Z. reflexivity.
Qed.

(** C64: with a position and a fine pixel scale a window is always found. *)
Lemma given_fine median lm skip pix line flux err wave y :
  respects lm -> always lm -> 0 < pix < 3/8 -> wavelengths wave -> isfinite line = true ->
  rows err = rows flux -> (2 <= rows flux)%nat ->
  exists v, vert_position median lm false skip pix line flux err wave (Some (Fin y)) = Ok v.
Proof.
  intros Rs Al Hp W Wl Sh N.
  destruct (given_run median lm false skip pix line flux err wave Rs Al ltac:(intros; lra) W Wl Sh ltac:(split; [lia|discriminate]) y) as (sp & v1 & L & E & h & S & G).
  cbn [good_half] in G. rewrite (fine_good pix v1 h Hp S G) in E. eauto.
Qed.

(** C64, C103: with a coarse pixel scale the edges are cut; 15 rows are enough, 11 or 12 are not. *)
Lemma given_coarse median lm skip pix line flux err wave y :
  respects lm -> always lm -> 3/8 <= pix -> wavelengths wave -> isfinite line = true -> rows err = rows flux ->
  let out := vert_position median lm false skip pix line flux err wave (Some (Fin y)) in
  ((15 <= rows flux)%nat -> exists v, out = Ok v) /\ (rows flux = 11%nat \/ rows flux = 12%nat -> out = Err IndexError).
Proof.
  intros Rs Al Hp W Wl Sh out. enough (K : (11 <= rows flux)%nat -> ((15 <= rows flux)%nat -> exists v, out = Ok v) /\ ((rows flux < 13)%nat -> out = Err IndexError)).
  { split; intros H; apply K; lia. }
  intros N. unfold out. clear out.
  destruct (given_run median lm false skip pix line flux err wave Rs Al ltac:(intros; lra) W Wl Sh ltac:(split; [lia|discriminate]) y) as (sp & v1 & L & E & h & S & G).
  rewrite E. clear E. cbn [good_half] in G. pose proof (coarse_poor pix v1 h Hp S G) as B.
  replace (poor_given pix v1) with true by (unfold poor_given; symmetry; apply orb_true_iff; right; now apply Z.ltb_lt).
  destruct (np_max_ok (slice sp 5 (-5))) as (mx & M). { intros Z. apply (f_equal (@length fl)) in Z. rewrite slice5_length in Z. cbn in Z. lia. }
  rewrite M. cbn [bind]. match goal with |- context [lm ?q] => set (q2 := q); assert (Q : answerable q2) by (split; discriminate) end.
  destruct (Al q2 Q) as (a & La). rewrite La. cbn [bind]. destruct (Rs q2 a La) as (_ & V & _). specialize (V eq_refl). cbn in V.
  set (sn := slice (row_sn _ _) 5 (-5)).
  assert (Ln : length sn = (rows flux - 10)%nat).
  { unfold sn. rewrite slice5_length, row_sn_length, row_flux_length, row_err_length. cbn [fill_err rows]. lia. }
  clearbody sn. unfold read_fit. rewrite V. cbn [int_round bind]. cbv zeta. set (m0 := (Rround _ + 5)%Z). clearbody m0. rewrite Ln.
  assert (C : (0 <= closest m0 (rows flux - 10) <= Z.of_nat (rows flux) - 11)%Z).
  { unfold closest. rewrite Z.gtb_ltb. destruct (Z.ltb_spec (Z.of_nat (rows flux - 10) - 1) m0); [lia|]. destruct (Z.ltb_spec m0 0); lia. }
  set (c := closest m0 (rows flux - 10)) in *. clearbody c. split; intros Hn.
  - unfold getz. rewrite Ln. match goal with |- context [(0 <=? ?z)%Z] => assert (J : (0 <= z < Z.of_nat (rows flux - 10))%Z) by (destruct (Z.ltb_spec (c - 5) 0); lia);
      set (j := z) in * end. clearbody j.
    destruct (Z.leb_spec 0 j); [|lia]. unfold getn. destruct (nth_error sn (Z.to_nat j)) as [x|] eqn:X; [|apply nth_error_None in X; lia].
    cbn [bind]. destruct (half_height_ok lm false pix 5 m0 q2 a _ Rs ltac:(intros; lra) eq_refl La V) as (h' & H'). rewrite H'. cbn [bind]. eauto.
  - unfold getz. rewrite Ln. destruct (Z.ltb_spec (c - 5) 0); [|lia]. destruct (Z.leb_spec 0 (c - 5 + Z.of_nat (rows flux - 10))); [lia|]. reflexivity.
Qed.

(* ---------------- the S/N of the adopted row ---------------- *)

Lemma combine_map {A B C} (f : A -> B) (g : A -> C) l : combine (map f l) (map g l) = map (fun i => (f i, g i)) l.
Proof. induction l as [|x l IH]; cbn [map combine]; [reflexivity|]. now rewrite IH. Qed.

Lemma row_sn_images median flux err n p F E0 : image flux n p F -> image err n p E0 -> no_missing n p E0 ->
  row_sn (row_flux flux) (row_err (fill_err median err)) = map (fun i => Fin (sn_row p F E0 i)) (seq 0 n).
Proof.
  intros (F1 & F2 & F3) (E1 & E2 & E3) M. unfold row_sn, row_flux, row_err. cbn [fill_err rows cols]. rewrite F1, F2, E1, E2.
  rewrite combine_map, map_map. apply map_ext_in. intros i Hi. apply in_seq in Hi. cbn [fst snd].
  change (fsum (map (fun j => at2 flux i j) (seq 0 p))) with (fsumn p (fun j => at2 flux i j)).
  rewrite (fsumn_Fin p _ (F i)) by (intros; apply F3; lia).
  match goal with |- context [fsum (map ?f (seq 0 p))] => change (fsum (map f (seq 0 p))) with (fsumn p f) end.
  rewrite (fsumn_Fin p _ (fun j => E0 i j * E0 i j)).
  2:{ intros j Hj. unfold fill_err. cbv zeta. cbn [at2]. rewrite E3 by lia. cbn [feqb]. destruct (Reqb (E0 i j) (-99)) eqn:Q.
      - apply Reqb_true in Q. exfalso. revert Q. apply M; lia.
      - reflexivity. }
  unfold sn_row. cbv zeta. set (v := rsumn p (fun j => E0 i j * E0 i j)).
  assert (V : 0 <= v).
  { unfold v. clear. induction p as [|k IH]; cbn [rsumn]; [lra|]. pose proof (Rle_0_sqr (E0 i k)). unfold Rsqr in *. lra. }
  cbn [fsqrt]. rewrite (proj2 (Rltb_false _ _)) by lra. cbn [fdiv].
  destruct (Req_EM_T v 0) as [Z|Z].
  - rewrite Z, sqrt_0. rewrite (proj2 (Reqb_true _ _) eq_refl). destruct (Reqb (rsumn p (F i)) 0); [reflexivity|]. destruct (Rltb 0 _); reflexivity.
  - assert (0 < sqrt v) by (apply sqrt_lt_R0; lra). rewrite (proj2 (Reqb_false _ _)) by lra. cbn [fabs isfinite].
    f_equal. unfold Rdiv. rewrite Rabs_mult, (Rabs_pos_eq (/ sqrt v)); [reflexivity|]. left. now apply Rinv_0_lt_compat.
Qed.

Lemma nth_sn p F E0 n k x : nth_error (map (fun i => Fin (sn_row p F E0 i)) (seq 0 n)) k = Some x -> (k < n)%nat /\ x = Fin (sn_row p F E0 k).
Proof.
  intros H. assert (K : (k < n)%nat). { assert (nth_error (map (fun i => Fin (sn_row p F E0 i)) (seq 0 n)) k <> None) as Q by congruence. apply nth_error_Some in Q. rewrite map_length, seq_length in Q. exact Q. }
  split; [exact K|]. rewrite nth_error_map, (nth_error_nth' _ 0%nat) in H by (rewrite seq_length; exact K). rewrite seq_nth in H by exact K. cbn in H. congruence.
Qed.

(** Reading in untrimmed coordinates gives the S/N of the nearest row of the image. *)
Lemma read_snr dither pix p F E0 n a v : (1 <= n)%nat -> read_fit dither pix 0 (map (fun i => Fin (sn_row p F E0 i)) (seq 0 n)) a = Ok v ->
  v_snr v = Fin (sn_row p F E0 (Z.to_nat (Z.max 0 (Z.min (Z.of_nat n - 1) (v_m0 v))))).
Proof.
  intros N H. destruct (read_fit_spec _ _ _ _ _ _ H) as (m & h & _ & _ & _ & G & _).
  destruct (getz_closest (map (fun i => Fin (sn_row p F E0 i)) (seq 0 n)) (v_m0 v)) as (x & G' & X).
  { destruct n; [lia|discriminate]. }
  rewrite G in G'. inversion G'; subst x. rewrite map_length, seq_length in X. apply nth_sn in X. exact (proj2 X).
Qed.

(** Reading after the edges are cut: the row looked up is limited to the cut profile before the shift is undone. *)
Lemma read_snr_cut dither pix p F E0 n a v : (11 <= n)%nat ->
  read_fit dither pix 5 (slice (map (fun i => Fin (sn_row p F E0 i)) (seq 0 n)) 5 (-5)) a = Ok v ->
  let c := Z.max 0 (Z.min (Z.of_nat n - 11) (v_m0 v)) in
  v_snr v = Fin (sn_row p F E0 (Z.to_nat (if c <? 5 then c + Z.of_nat n - 10 else c)%Z)).
Proof.
  intros N H c. destruct (read_fit_spec _ _ _ _ _ _ H) as (m & h & _ & _ & _ & G & _).
  set (l := map _ (seq 0 n)) in *. assert (L : length l = n) by (unfold l; now rewrite map_length, seq_length).
  rewrite slice5_length, L in G.
  assert (C : closest (v_m0 v) (n - 10) = c).
  { unfold closest, c. rewrite Z.gtb_ltb. destruct (Z.ltb_spec (Z.of_nat (n - 10) - 1) (v_m0 v)); [lia|]. destruct (Z.ltb_spec (v_m0 v) 0); lia. }
  rewrite C in G. assert (B : (0 <= c <= Z.of_nat n - 11)%Z) by (unfold c; lia). clearbody c. clear C.
  unfold getz in G. rewrite slice5_length, L in G.
  destruct (Z.ltb_spec (c - 5) 0); destruct (Z.ltb_spec c 5); try lia.
  - destruct (Z.leb_spec 0 (c - 5 + Z.of_nat (n - 10))); [|discriminate]. apply getn_ok in G.
    rewrite slice5_nth in G by (rewrite L; lia). apply nth_sn in G. destruct G as [_ G]. rewrite G. do 2 f_equal. lia.
  - destruct (Z.leb_spec 0 (c - 5)); [|lia]. apply getn_ok in G. rewrite slice5_nth in G by (rewrite L; lia).
    apply nth_sn in G. destruct G as [_ G]. rewrite G. do 2 f_equal. lia.
Qed.

(** C103: when the reported S/N is the one of the adopted row. *)
Lemma snr_right median lm dither skip pix line flux err wave ypos v n p F E0 :
  respects lm -> (1 <= n)%nat -> image flux n p F -> image err n p E0 -> no_missing n p E0 ->
  vert_position median lm dither skip pix line flux err wave ypos = Ok v ->
  ypos = None \/ (dither = false /\ 0 < pix < 3/8) \/ (5 <= v_m0 v <= Z.of_nat n - 11)%Z ->
  v_snr v = Fin (sn_row p F E0 (Z.to_nat (Z.max 0 (Z.min (Z.of_nat n - 1) (v_m0 v))))).
Proof.
  intros Rs N IF IE NM H Cs. apply vert_cases in H. cbv zeta in H. rewrite (row_sn_images median flux err n p F E0 IF IE NM) in H.
  destruct H as (sp & a & v0 & Ls & _ & La & R0 & H). rewrite (proj1 IF) in Ls.
  destruct ypos as [y|].
  - destruct H as (v1 & H1 & H2). destruct H2 as [[_ ->]|(Po & Sl & q & a2 & T & V & Q & L2 & R2)].
    + destruct H1 as [[-> _]|(a1 & L1 & R1)]; [exact (read_snr _ _ _ _ _ _ _ _ N R0)|exact (read_snr _ _ _ _ _ _ _ _ N R1)].
    + destruct Cs as [Cs|[[Di Hp]|B]]; [discriminate| |].
      * exfalso. clear T R2. subst dither.
        assert (K : exists h, symmetric v1 h /\ good_half lm false pix h).
        { destruct H1 as [[-> _]|(a1 & L1 & R1)].
          - eapply (read_half lm false pix 0%Z); [exact Rs|intros _; lra| |exact La|exact R0]; reflexivity.
          - eapply (read_half lm false pix 0%Z); [exact Rs|intros _; lra| |exact L1|exact R1]; reflexivity. }
        destruct K as (h & S & G). rewrite (fine_good pix v1 h Hp S G) in Po. discriminate.
      * assert (N11 : (11 <= n)%nat) by lia. rewrite (read_snr_cut _ _ _ _ _ _ _ _ N11 R2). do 2 f_equal.
        destruct (Z.ltb_spec (Z.max 0 (Z.min (Z.of_nat n - 11) (v_m0 v))) 5); lia.
  - destruct H as [_ ->]. exact (read_snr _ _ _ _ _ _ _ _ N R0).
Qed.

(** C103: with a coarse scale it is another row's. *)
Lemma snr_coarse median lm skip pix line flux err wave y v n p F E0 :
  respects lm -> 3/8 <= pix -> (1 <= n)%nat -> image flux n p F -> image err n p E0 -> no_missing n p E0 ->
  vert_position median lm false skip pix line flux err wave (Some (Fin y)) = Ok v ->
  let c := Z.max 0 (Z.min (Z.of_nat n - 11) (v_m0 v)) in
  stands_for v y /\ v_snr v = Fin (sn_row p F E0 (Z.to_nat (if c <? 5 then c + Z.of_nat n - 10 else c)%Z)).
Proof.
  intros Rs Hp N IF IE NM H c. apply vert_cases in H. cbv zeta in H. rewrite (row_sn_images median flux err n p F E0 IF IE NM) in H.
  destruct H as (sp & a & v0 & Ls & _ & La & R0 & v1 & H1 & H2). rewrite (proj1 IF) in Ls.
  destruct H2 as [[Po _]|(Po & Sl & q & a2 & T & V & Q & L2 & R2)].
  - exfalso. assert (K : exists h, symmetric v1 h /\ good_half lm false pix h).
    { destruct H1 as [[-> _]|(a1 & L1 & R1)].
          - eapply (read_half lm false pix 0%Z); [exact Rs|intros _; lra| |exact La|exact R0]; reflexivity.
          - eapply (read_half lm false pix 0%Z); [exact Rs|intros _; lra| |exact L1|exact R1]; reflexivity. }
    destruct K as (h & S & G). cbn [good_half] in G. pose proof (coarse_poor pix v1 h Hp S G). unfold poor_given in Po. apply orb_false_iff in Po.
    destruct Po as [_ Po]. apply Z.ltb_ge in Po. lia.
  - assert (N11 : (11 <= n)%nat).
    { destruct (le_lt_dec 11 n); [assumption|]. exfalso. apply Sl. apply length_zero_iff_nil. rewrite slice5_length. lia. }
    split; [|exact (read_snr_cut _ _ _ _ _ _ _ _ N11 R2)].
    destruct (read_fit_spec _ _ _ _ _ _ R2) as (m & h & M & _ & S & _). destruct (Rs _ _ L2) as (_ & V2 & _).
    specialize (V2 V). rewrite Q, M in V2. cbn [fsub fadd fneg] in V2. inversion V2. replace y with (m + 5) by lra. exact S.
Qed.

(* ---------------- the trimmed image ---------------- *)

(** The position found is the one recorded. *)
Lemma spatial_vert dither cut vert s t n p fx er ic ct wt mk ql sk lw ow st' :
  ready s n p [fx; er; ic; ct; wt; mk; ql; sk; lw] -> q_obs s = Some ow ->
  trim_2D_spatial dither cut vert (s, t) = (st', Ok tt) -> exists v,
  vert (mk2 n p (fun i j => fmul (at2 fx i j) (at2 sk i j))) (mk2 n p (fun i j => fmul (at2 er i j) (at2 sk i j))) ow (q_ypos s) = Ok v.
Proof.
  intros [R Sh] O H. cbn [map] in R. injection R as F E I C W M Q K L.
  assert (Hf : shape fx n p) by (apply Sh; simpl; tauto). assert (He : shape er n p) by (apply Sh; simpl; tauto).
  assert (Hk : shape sk n p) by (apply Sh; simpl; tauto).
  destruct (vert _ _ ow (q_ypos s)) as [v|e] eqn:V; [eauto|]. exfalso. revert H.
  unfold trim_2D_spatial. rewrite bind_get. cbn [fst snd]. rewrite <- F, <- K, <- E, O.
  rewrite (bind_lift _ fx) by reflexivity. cbv beta. rewrite (bind_lift _ sk) by reflexivity. cbv beta.
  rewrite (bind_lift _ _ _ _ (times2_ok fx sk n p Hf Hk)). cbv beta. rewrite (bind_lift _ er) by reflexivity. cbv beta.
  rewrite (bind_lift _ _ _ _ (times2_ok er sk n p He Hk)). cbv beta. rewrite (bind_lift _ ow) by reflexivity. cbv beta.
  rewrite V. cbn [liftR]. unfold bindS, liftR. discriminate.
Qed.

(** C104: the adopted centre and the trimmed image. *)
Lemma trimmed_centre median lm dither skip cut pix line s t n p imgs ow y s' t' :
  respects lm -> (dither = false -> 0 < pix) -> ready s n p imgs -> q_obs s = Some ow -> q_ypos s = Some (Fin y) ->
  0 <= y <= INR n - 1 ->
  trim_2D_spatial dither cut (vert_position median lm dither skip pix line) (s, t) = ((s', t'), Ok tt) ->
  exists c l r a, q_full s' = Some (c, l, r) /\ q_m0 s' = Some (c - l)%Z /\ q_flux s' = Some a /\ q_mlims s' = Some (rows a) /\
    (0 <= l)%Z /\ Z.of_nat (rows a) = Z.max 0 (r - l) /\ (0 <= c < Z.of_nat n)%Z /\
    ((c < Z.of_nat n - 1)%Z -> (0 <= c - l < Z.of_nat (rows a))%Z) /\
    (c = (Z.of_nat n - 1)%Z -> (Z.of_nat (rows a) <= c - l)%Z).
Proof.
  intros Rs P [R Sh] O Y B H.
  destruct imgs as [|fx [|er [|ic [|ct [|wt [|mk [|ql [|sk [|lw [|]]]]]]]]]]; try discriminate.
  destruct (spatial_vert dither cut _ s t n p fx er ic ct wt mk ql sk lw ow (s', t') (conj R Sh) O H) as (v & V).
  rewrite Y in V.
  destruct (spatial_run dither cut _ s t n p fx er ic ct wt mk ql sk lw ow (Fin y) v (conj R Sh) O Y V) as (low & _ & Run).
  rewrite H in Run. assert (N : rows fx = n) by (apply (Sh fx); simpl; tauto).
  destruct (window_symmetric median lm dither skip pix line _ _ ow _ v Rs P V) as (h & [S1 S2] & Hh & _).
  assert (I : (0 <= v_m0 v < Z.of_nat n)%Z).
  { apply (centre_inside median lm dither skip pix line _ _ ow _ v Rs) in V; [exact V|].
    intros z Hz. inversion Hz. exists y. split; [reflexivity|exact B]. }
  set (l := low_ind dither v) in *. set (r := high_ind dither n v) in *.
  assert (Bl : (0 <= l <= v_m0 v)%Z) by (unfold l, low_ind; destruct dither; lia).
  assert (Br : (0 <= r <= Z.of_nat n - 1)%Z) by (unfold r, high_ind; destruct dither; lia).
  assert (Bc : (v_m0 v < Z.of_nat n - 1 -> v_m0 v < r)%Z) by (unfold r, high_ind; destruct dither; lia).
  pose proof (slice_rows_from fx l r) as SR. rewrite N in SR. destruct SR as [SR _]; try lia.
  inversion Run as [[E1 E2]]. exists (v_m0 v), l, r, (slice_rows fx l r).
  split; [reflexivity|]. split; [reflexivity|]. split; [reflexivity|]. split; [reflexivity|].
  split; [lia|]. split; [lia|]. split; [exact I|]. split; intros; lia.
Qed.

(** C104: an expected position well inside the image. *)
Lemma trimmed_keeps median lm dither cut pix line s t n p imgs ow y s' t' :
  respects lm -> (dither = false -> 0 < pix) -> ready s n p imgs -> q_obs s = Some ow -> q_ypos s = Some (Fin y) ->
  0 <= y < INR n - 3 ->
  trim_2D_spatial dither cut (vert_position median lm dither false pix line) (s, t) = ((s', t'), Ok tt) ->
  exists c a, q_m0 s' = Some c /\ q_flux s' = Some a /\ (0 <= c < Z.of_nat (rows a))%Z.
Proof.
  intros Rs P Rd O Y B H.
  destruct (trimmed_centre median lm dither false cut pix line s t n p imgs ow y s' t' Rs P Rd O Y ltac:(lra) H)
    as (c & l & r & a & Fu & M0 & Fl & _ & _ & _ & I & In1 & _).
  exists (c - l)%Z, a. split; [exact M0|]. split; [exact Fl|]. apply In1.
  destruct Rd as [R Sh]. destruct imgs as [|fx [|er [|ic [|ct [|wt [|mk [|ql [|sk [|lw [|]]]]]]]]]]; try discriminate.
  destruct (spatial_vert dither cut _ s t n p fx er ic ct wt mk ql sk lw ow (s', t') (conj R Sh) O H) as (v & V). rewrite Y in V.
  destruct (spatial_run dither cut _ s t n p fx er ic ct wt mk ql sk lw ow (Fin y) v (conj R Sh) O Y V) as (low & _ & Run).
  rewrite H in Run. inversion Run as [[E1 E2]]. rewrite E1 in Fu. cbn in Fu. inversion Fu; subst c.
  pose proof (centre_near median lm dither pix line _ _ ow y v Rs V) as Nr. apply Rabs_both in Nr. rewrite INR_IZR_INZ in B.
  apply lt_IZR. rewrite minus_IZR. lra.
Qed.
