(* Proofs about the object row and its window. *)
From Coq Require Import Reals List Bool Arith ZArith Lra Lia.
From Verif Require Import PyFloat PyBase Arr PyNum MAper2D MTrim STrim PTrim PTrim2 MVert SVert.
Import ListNotations.
Local Open Scope R_scope.

Lemma bind_Ok {A B} (x : res A) (f : A -> res B) b : bind x f = Ok b -> exists a, x = Ok a /\ f a = Ok b.
Proof. destruct x; cbn [bind]; [eauto|discriminate]. Qed.

Lemma row_flux_length a : length (row_flux a) = rows a.
Proof. unfold row_flux. now rewrite map_length, seq_length. Qed.

Lemma drop_edge_length sp sn sp' : drop_edge sp sn = Ok sp' -> length sp' = length sp.
Proof.
  unfold drop_edge. destruct sn; [discriminate|]. cbv zeta. intros H. inversion H; subst.
  destruct (Nat.eqb _ 0); [apply mapi_length|]. destruct (Nat.eqb _ _); [apply mapi_length|reflexivity].
Qed.

Lemma Rabs_both a b : Rabs a <= b -> - b <= a <= b.
Proof. unfold Rabs. destruct (Rcase_abs a); lra. Qed.

(** The possible courses of a successful call. *)
Lemma vert_cases median lm dither skip pix line flux err wave ypos v :
  vert_position median lm dither skip pix line flux err wave ypos = Ok v ->
  let er := row_err (fill_err median err) in let sn := row_sn (row_flux flux) er in
  let n := rows flux in let top := (Z.of_nat n - 1)%Z in
  exists sp a v0, length sp = n /\ drop_edge (row_flux flux) sn = Ok sp /\
    lm (mkVreq dither match ypos with Some y => y | None => Fin (1/2 * (INR n - 1)) end true top (Fin (IZR top)) None (Fin 10) sp er) = Ok a /\
    read_fit dither pix 0 sn a = Ok v0 /\
    match ypos with
    | None => poor_blind n v0 = false /\ v = v0
    | Some y => exists v1,
        ((v1 = v0 /\ fgtb (fabs (fsub y (Fin (IZR (v_m0 v0))))) (Fin 2) && negb skip = false) \/
         (exists a1, lm (mkVreq dither y false top (Fin (IZR top)) None (Fin 10) sp er) = Ok a1 /\ read_fit dither pix 0 sn a1 = Ok v1)) /\
        ((poor_given pix v1 = false /\ v = v1) \/
         (poor_given pix v1 = true /\ slice sp 5 (-5) <> [] /\
          exists q a2, vq_three q = dither /\ vq_vary q = false /\ vq_mu q = fsub y (Fin 5) /\
            lm q = Ok a2 /\ read_fit dither pix 5 (slice sn 5 (-5)) a2 = Ok v))
    end.
Proof.
  intros H. cbv zeta. unfold vert_position in H.
  apply bind_Ok in H. destruct H as (c & _ & H). cbv zeta in H.
  set (sn := row_sn (row_flux flux) _) in *.
  apply bind_Ok in H. destruct H as (sp & D & H). pose proof (drop_edge_length _ _ _ D) as L. rewrite row_flux_length in L.
  rewrite L in H.
  apply bind_Ok in H. destruct H as (a & La & H). apply bind_Ok in H. destruct H as (v0 & R0 & H).
  exists sp, a, v0. split; [exact L|]. split; [exact D|]. split; [exact La|]. split; [exact R0|].
  destruct ypos as [y|].
  - apply bind_Ok in H. destruct H as (v1 & H1 & H). exists v1. split.
    + destruct (fgtb _ _ && negb skip); [right|left].
      * apply bind_Ok in H1. destruct H1 as (? & _ & H1). apply bind_Ok in H1. destruct H1 as (a1 & L1 & H1). eauto.
      * inversion H1; auto.
    + destruct (poor_given pix v1); [right|left; inversion H; auto]. split; [reflexivity|].
      apply bind_Ok in H. destruct H as (mx & M & H). apply bind_Ok in H. destruct H as (a2 & L2 & H).
      split; [intros E; rewrite E in M; discriminate|].
      do 2 eexists. split; [|split; [|split; [|split; [exact L2|exact H]]]]; reflexivity.
  - destruct (poor_blind (rows flux) v0); [discriminate|]. inversion H; auto.
Qed.

(** Reading a fit. *)
Lemma read_fit_spec dither pix off sn a v : read_fit dither pix off sn a = Ok v ->
  exists m h, va_mu a = Fin m /\ v_m0 v = (Rround m + off)%Z /\ stands_for v (m + IZR off) /\
    getz sn (closest (v_m0 v) (length sn) - off) = Ok (v_snr v) /\
    half_height dither pix off (v_m0 v) a = Ok h /\ symmetric v h.
Proof.
  unfold read_fit. intros H. apply bind_Ok in H. destruct H as (m & M & H). cbv zeta in H.
  apply bind_Ok in H. destruct H as (s & G & H). apply bind_Ok in H. destruct H as (h & C & H).
  destruct (va_mu a) as [r| | |] eqn:E; try discriminate. cbn [int_round] in M. inversion M; subst m. clear M.
  inversion H; subst v. cbn [v_m0 v_snr v_shift v_min v_max]. exists r, h.
  split; [reflexivity|]. split; [reflexivity|]. split.
  - unfold stands_for. cbn [v_m0 v_shift]. split.
    + destruct (Z.eqb_spec off 0) as [->|]; cbn [fsub fadd fneg]; f_equal; rewrite ?plus_IZR; lra.
    + rewrite plus_IZR. replace (r + IZR off - (IZR (Rround r) + IZR off)) with (r - IZR (Rround r)) by lra. apply Rround_near.
  - split; [exact G|]. split; [exact C|]. unfold symmetric. cbn [v_m0 v_min v_max]. lia.
Qed.

(** The half height with dithering is half the separation of the images. *)
Lemma half_height_dither pix off m d a h : va_mu a = Fin m -> va_delt a = Fin d -> 1 <= d ->
  half_height true pix off (Rround m + off) a = Ok h -> d / 2 - 1/4 <= IZR h < d / 2 + 5/4.
Proof.
  intros M D Hd H. unfold half_height in H. rewrite M, D in H. cbn [fsub fadd fneg int_round bind int_ceil] in H.
  inversion H; subst h. clear H.
  match goal with |- _ <= IZR (Rceil ?x) < _ => pose proof (Rceil_spec x) as C; set (z := x) in * end.
  pose proof (Rround_near m) as N0. pose proof (Rround_near (m + - d)) as N1. pose proof (Rround_near (m + d)) as N2.
  apply Rabs_both in N0. apply Rabs_both in N1. apply Rabs_both in N2.
  set (k0 := Rround m) in *. set (k1 := Rround (m + - d)) in *. set (k2 := Rround (m + d)) in *.
  assert (K1 : (k1 <= k0)%Z). { apply le_IZR. lra. } assert (K2 : (k0 <= k2)%Z). { apply le_IZR. lra. }
  assert (Z : z = (IZR k2 - IZR k1) / 2 / 2).
  { unfold z. f_equal. f_equal. rewrite <- minus_IZR. f_equal. lia. }
  lra.
Qed.

Lemma half_height_plain pix off m0 a h : 0 < pix -> half_height false pix off m0 a = Ok h -> IZR h - 1 < 3 / 4 / pix <= IZR h.
Proof.
  intros P H. unfold half_height in H. destruct (Reqb pix 0) eqn:E; [apply Reqb_true in E; lra|].
  cbn [int_ceil] in H. inversion H; subst h. replace (3 / 4 / pix) with (3 / 2 / pix / 2) by (field; lra). apply Rceil_spec.
Qed.

(** What is claimed of the half height [h] given a position-and-separation answer. *)
Definition good_half (lm : vreq -> res vans) (dither : bool) (pix : R) (h : Z) : Prop :=
  if dither then exists q a d, lm q = Ok a /\ va_delt a = Fin d /\ 1 <= d /\ d / 2 - 1/4 <= IZR h < d / 2 + 5/4
  else IZR h - 1 < 3 / 4 / pix <= IZR h.

Lemma good_half_pos lm dither pix h : (dither = false -> 0 < pix) -> good_half lm dither pix h -> (1 <= h)%Z.
Proof.
  intros P G. enough (0 < h)%Z by lia. apply lt_IZR. destruct dither; cbn in G.
  - destruct G as (q & a & d & _ & _ & D & G). lra.
  - specialize (P eq_refl). assert (0 < 3 / 4 / pix). { apply Rdiv_lt_0_compat; lra. } lra.
Qed.

Lemma read_half lm dither pix off sn q a v : respects lm -> (dither = false -> 0 < pix) -> vq_three q = dither -> lm q = Ok a ->
  read_fit dither pix off sn a = Ok v -> exists h, symmetric v h /\ good_half lm dither pix h.
Proof.
  intros Rs P T L R. destruct (read_fit_spec _ _ _ _ _ _ R) as (m & h & M & M0 & _ & _ & H & S). exists h. split; [exact S|].
  destruct dither; cbn [good_half].
  - destruct (Rs q a L) as (_ & _ & D). destruct (D T) as (d & x & D1 & _ & D2). exists q, a, d.
    split; [exact L|]. split; [exact D1|]. split; [lra|]. rewrite M0 in H. apply (half_height_dither pix off m d a h); auto; lra.
  - apply (half_height_plain pix off (v_m0 v) a); auto.
Qed.

(** C64: the window. *)
Lemma window_symmetric median lm dither skip pix line flux err wave ypos v :
  respects lm -> (dither = false -> 0 < pix) ->
  vert_position median lm dither skip pix line flux err wave ypos = Ok v ->
  exists h, symmetric v h /\ (1 <= h)%Z /\
    if dither then exists q a d, lm q = Ok a /\ va_delt a = Fin d /\ 1 <= d /\ d / 2 - 1/4 <= IZR h < d / 2 + 5/4
    else IZR h - 1 < 3 / 4 / pix <= IZR h.
Proof.
  intros Rs P H. apply vert_cases in H. cbv zeta in H. destruct H as (sp & a & v0 & _ & _ & La & R0 & H).
  assert (E : exists h, symmetric v h /\ good_half lm dither pix h).
  { destruct ypos as [y|].
    - destruct H as (v1 & H1 & H2). destruct H2 as [[_ ->]|(_ & _ & q & a2 & T & _ & _ & L2 & R2)].
      + destruct H1 as [[-> _]|(a1 & L1 & R1)]; [eapply (read_half lm dither pix 0%Z); [exact Rs|exact P| |exact La|exact R0]; reflexivity|
          eapply (read_half lm dither pix 0%Z); [exact Rs|exact P| |exact L1|exact R1]; reflexivity].
      + eapply (read_half lm dither pix 5%Z); [exact Rs|exact P| |exact L2|exact R2]; exact T.
    - destruct H as [_ ->]. eapply (read_half lm dither pix 0%Z); [exact Rs|exact P| |exact La|exact R0]; reflexivity. }
  destruct E as (h & S & G). exists h. split; [exact S|]. split; [exact (good_half_pos lm dither pix h P G)|exact G].
Qed.

Lemma stands_in v r (n : nat) : stands_for v r -> 0 <= r <= IZR (Z.of_nat n - 1) -> (0 <= v_m0 v <= Z.of_nat n - 1)%Z.
Proof.
  intros [_ B] [H1 H2]. apply Rabs_both in B.
  assert (-1 < v_m0 v)%Z by (apply lt_IZR; lra).
  assert (v_m0 v < Z.of_nat n - 1 + 1)%Z by (apply lt_IZR; rewrite plus_IZR; lra). lia.
Qed.

(** C64: the centre. *)
Lemma centre_position median lm dither skip pix line flux err wave ypos v : respects lm ->
  vert_position median lm dither skip pix line flux err wave ypos = Ok v ->
  exists r, stands_for v r /\ (ypos = Some (Fin r) \/ (0 <= r <= IZR (Z.of_nat (rows flux) - 1) /\ (0 <= v_m0 v <= Z.of_nat (rows flux) - 1)%Z)).
Proof.
  intros Rs H. apply vert_cases in H. cbv zeta in H. destruct H as (sp & a & v0 & _ & _ & La & R0 & H).
  assert (F : exists r, stands_for v0 r /\ 0 <= r <= IZR (Z.of_nat (rows flux) - 1)).
  { destruct (read_fit_spec _ _ _ _ _ _ R0) as (m & h & M & _ & S & _). destruct (Rs _ _ La) as (V & _ & _).
    destruct (V eq_refl) as (m' & M' & B). cbn [vq_mumax] in B. rewrite M in M'. inversion M'; subst m'.
    exists m. rewrite Rplus_0_r in S. auto. }
  destruct ypos as [y|].
  - destruct H as (v1 & H1 & H2). destruct H2 as [[_ ->]|(_ & _ & q & a2 & _ & V & Q & L2 & R2)].
    + destruct H1 as [[-> _]|(a1 & L1 & R1)].
      * destruct F as (r & S & B). exists r. split; [exact S|]. right. split; [exact B|]. exact (stands_in _ _ _ S B).
      * destruct (read_fit_spec _ _ _ _ _ _ R1) as (m & h & M & _ & S & _). destruct (Rs _ _ L1) as (_ & V & _).
        specialize (V eq_refl). cbn [vq_mu] in V. exists m. rewrite Rplus_0_r in S. split; [exact S|]. left. congruence.
    + destruct (read_fit_spec _ _ _ _ _ _ R2) as (m & h & M & _ & S & _). destruct (Rs _ _ L2) as (_ & V2 & _).
      specialize (V2 V). rewrite Q, M in V2. exists (m + 5). split; [exact S|]. left.
      destruct y; try discriminate. cbn [fsub fadd fneg] in V2. inversion V2. do 2 f_equal. lra.
  - destruct H as [_ ->]. destruct F as (r & S & B). exists r. split; [exact S|]. right. split; [exact B|]. exact (stands_in _ _ _ S B).
Qed.

(** C64: a given position is never left by more than two rows. *)
Lemma centre_near median lm dither pix line flux err wave y v : respects lm ->
  vert_position median lm dither false pix line flux err wave (Some (Fin y)) = Ok v -> Rabs (IZR (v_m0 v) - y) <= 2.
Proof.
  intros Rs H. apply vert_cases in H. cbv zeta in H. destruct H as (sp & a & v0 & _ & _ & La & R0 & v1 & H1 & H2).
  assert (G : forall r, stands_for v r -> r = y -> Rabs (IZR (v_m0 v) - y) <= 2).
  { intros r [_ B] ->. rewrite Rabs_minus_sym. lra. }
  destruct H2 as [[_ ->]|(_ & _ & q & a2 & _ & V & Q & L2 & R2)].
  - destruct H1 as [[-> N]|(a1 & L1 & R1)].
    + cbn [negb] in N. rewrite andb_true_r in N. cbn [fsub fadd fneg fabs fgtb fltb] in N. unfold fgtb, fltb in N. apply Rltb_false in N.
      rewrite Rabs_minus_sym. exact N.
    + destruct (read_fit_spec _ _ _ _ _ _ R1) as (m & h & M & _ & S & _). destruct (Rs _ _ L1) as (_ & V & _).
      specialize (V eq_refl). cbn [vq_mu] in V. rewrite Rplus_0_r in S. apply (G m S). congruence.
  - destruct (read_fit_spec _ _ _ _ _ _ R2) as (m & h & M & _ & S & _). destruct (Rs _ _ L2) as (_ & V2 & _).
    specialize (V2 V). rewrite Q, M in V2. cbn [fsub fadd fneg] in V2. inversion V2. apply (G _ S). lra.
Qed.

(** C64: an expected position in the image gives a centre in the image. *)
Lemma centre_inside median lm dither skip pix line flux err wave ypos v : respects lm ->
  (forall y, ypos = Some y -> exists r, y = Fin r /\ 0 <= r <= INR (rows flux) - 1) ->
  vert_position median lm dither skip pix line flux err wave ypos = Ok v -> (0 <= v_m0 v < Z.of_nat (rows flux))%Z.
Proof.
  intros Rs Y H. destruct (centre_position _ _ _ _ _ _ _ _ _ _ _ Rs H) as (r & S & [E|[_ B]]); [|lia].
  destruct (Y _ E) as (r' & E' & B). inversion E'; subst r'. rewrite INR_IZR_INZ in B.
  pose proof (stands_in v r (rows flux) S) as K. rewrite minus_IZR in K. specialize (K B). lia.
Qed.

(** C64: without a position only windows of 5 to n-5 rows are returned. *)
Lemma blind_window median lm dither skip pix line flux err wave v :
  vert_position median lm dither skip pix line flux err wave None = Ok v ->
  (5 <= v_max v - v_min v <= Z.of_nat (rows flux) - 5)%Z.
Proof.
  intros H. apply vert_cases in H. cbv zeta in H. destruct H as (sp & a & v0 & _ & _ & _ & _ & P & ->).
  unfold poor_blind in P. apply orb_false_iff in P. destruct P as [P1 P2]. rewrite Z.gtb_ltb in P1. apply Z.ltb_ge in P1. apply Z.ltb_ge in P2. lia.
Qed.
