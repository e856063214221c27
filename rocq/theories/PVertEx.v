(* Concrete cases for the object row. *)
From Coq Require Import Reals List Bool Arith ZArith Lra Lia.
From Verif Require Import PyFloat PyBase Arr PyNum MAper2D MMask MTrim STrim PTrim PTrim2 MVert SVert PVert PVert2.
Import ListNotations.
Local Open Scope R_scope.

(** An optimiser that stays at the starting values as far as the limits allow. *)
Definition stay (q : vreq) : res vans :=
  let mu := if vq_vary q then match vq_mu q with Fin m => Fin (Rmax 0 (Rmin (IZR (vq_mumax q)) m)) | _ => Fin 0 end else vq_mu q in
  if vq_vary q && (vq_mumax q <=? 0)%Z then Err ValueError
  else if vq_three q then
    match vq_dmax q with
    | Fin x => if Rltb 1 x then Ok (mkVans mu (Fin (Rmin x 16))) else Err ValueError
    | _ => Err ValueError
    end
  else Ok (mkVans mu (Fin 0)).

Lemma stay_respects : respects stay.
Proof.
  intros q a H. unfold stay in H. cbv zeta in H. destruct (vq_vary q) eqn:V; cbn [andb] in H.
  - destruct (Z.leb_spec (vq_mumax q) 0) as [Z|Z]; [discriminate|]. apply IZR_lt in Z.
    assert (K : exists m, va_mu a = Fin m /\ 0 <= m <= IZR (vq_mumax q)).
    { assert (E : va_mu a = match vq_mu q with Fin m => Fin (Rmax 0 (Rmin (IZR (vq_mumax q)) m)) | _ => Fin 0 end).
      { destruct (vq_three q); [|inversion H; reflexivity]. destruct (vq_dmax q); try discriminate. destruct (Rltb 1 r); [|discriminate]. inversion H; reflexivity. }
      rewrite E. destruct (vq_mu q) as [m| | |]; [|exists 0; split; [reflexivity|lra]..]. eexists. split; [reflexivity|].
      split; [apply Rmax_l|]. apply Rmax_lub; [lra|apply Rmin_l]. }
    split; [intros _; exact K|]. split; [discriminate|]. intros T. rewrite T in H. destruct (vq_dmax q) as [x| | |]; try discriminate.
    destruct (Rltb 1 x) eqn:X; [|discriminate]. apply Rltb_true in X. inversion H. cbn [va_delt]. exists (Rmin x 16), x.
    split; [reflexivity|]. split; [reflexivity|]. split; [apply Rmin_glb; lra|apply Rmin_l].
  - split; [discriminate|]. split.
    + intros _. destruct (vq_three q); [|inversion H; reflexivity]. destruct (vq_dmax q); try discriminate. destruct (Rltb 1 r); [|discriminate]. inversion H; reflexivity.
    + intros T. rewrite T in H. destruct (vq_dmax q) as [x| | |]; try discriminate.
      destruct (Rltb 1 x) eqn:X; [|discriminate]. apply Rltb_true in X. inversion H. cbn [va_delt]. exists (Rmin x 16), x.
      split; [reflexivity|]. split; [reflexivity|]. split; [apply Rmin_glb; lra|apply Rmin_l].
Qed.

Lemma stay_always : always stay.
Proof.
  intros q [A1 A2]. unfold stay. cbv zeta. destruct (vq_vary q && (vq_mumax q <=? 0)%Z) eqn:E.
  - apply andb_true_iff in E. destruct E as [E1 E2]. specialize (A1 E1). apply Z.leb_le in E2. lia.
  - destruct (vq_three q); [|eauto]. destruct (A2 eq_refl) as (x & -> & X). rewrite (proj2 (Rltb_true _ _) X). eauto.
Qed.

Definition ex_wave : list fl := [Fin 6560; Fin 6563; Fin 6566].
Lemma ex_wave_ok : wavelengths ex_wave.
Proof. split; [discriminate|]. intros x H. cbn in H. repeat (destruct H as [<-|H]; [reflexivity|]). destruct H. Qed.

(** [n] rows of errors 1 with flux only in row [k]. *)
Definition ex_flux (n k : nat) : arr2 fl := fin2 n 3 (fun i _ => if Nat.eqb i k then 1 else 0).

Lemma stay_hypotheses : respects stay /\ always stay /\ wavelengths ex_wave /\
  image (ex_flux 20 12) 20 3 (fun i _ => if Nat.eqb i 12 then 1 else 0) /\ image (ones 20 3) 20 3 (fun _ _ => 1) /\ no_missing 20 3 (fun _ _ => 1) /\
  enough true (rows (ex_flux 20 12)).
Proof.
  split; [exact stay_respects|]. split; [exact stay_always|]. split; [exact ex_wave_ok|].
  split; [split; [reflexivity|split; [reflexivity|reflexivity]]|]. split; [split; [reflexivity|split; [reflexivity|reflexivity]]|].
  split; [intros i j _ _; lra|]. cbn [ex_flux fin2 rows]. split; [lia|intros _; lia].
Qed.

(** A dithered object, no expected position: a window. *)
Lemma dithered_window : exists v, vert_position (fun _ => Fin 1) stay true false (1/5) (Fin 6563) (ex_flux 40 20) (ones 40 3) ex_wave None = Ok v /\
  (16 <= v_max v - v_min v <= 18)%Z.
Proof.
  destruct (blind_run (fun _ => Fin 1) stay true false (1/5) (Fin 6563) (ex_flux 40 20) (ones 40 3) ex_wave stay_respects stay_always
    ltac:(intros; lra) ex_wave_ok eq_refl eq_refl) as (v & E & (h & [S1 S2] & _) & q & a & T & D & L & R).
  { cbn [ex_flux fin2 rows]. split; [lia|intros _; lia]. }
  cbn [ex_flux fin2 rows] in D. change (Z.of_nat 40 - 1)%Z with 39%Z in D.
  assert (A : va_delt a = Fin 16).
  { unfold stay in L. cbv zeta in L. rewrite T, D in L. destruct (_ && _); [discriminate|]. destruct (Rltb 1 39); [|discriminate]. inversion L. cbn [va_delt]. f_equal.
    apply Rmin_right. lra. }
  destruct (read_fit_spec _ _ _ _ _ _ R) as (m & h' & M & M0 & _ & _ & H & [S3 S4]). rewrite M0 in H.
  apply (half_height_dither (1/5) 0 m 16 a h' M A) in H; [|lra]. assert (7 < h')%Z by (apply lt_IZR; lra). assert (h' < 10)%Z by (apply lt_IZR; lra).
  exists v. split; [|lia]. rewrite E. unfold poor_blind. cbn [ex_flux fin2 rows]. rewrite Z.gtb_ltb.
  destruct (Z.ltb_spec (Z.of_nat 40 - 5) (v_max v - v_min v)); [lia|]. destruct (Z.ltb_spec (v_max v - v_min v) 5); [lia|]. reflexivity.
Qed.

(** No expected position and 20 rows: found with 0.25 arcsec pixels, TypeError with 0.5 arcsec pixels. *)
Lemma blind_examples :
  (exists v, vert_position (fun _ => Fin 1) stay false false (1/4) (Fin 6563) (ex_flux 20 12) (ones 20 3) ex_wave None = Ok v) /\
  vert_position (fun _ => Fin 1) stay false false (1/2) (Fin 6563) (ex_flux 20 12) (ones 20 3) ex_wave None = Err TypeError.
Proof.
  assert (En : enough false (rows (ex_flux 20 12))) by (cbn [ex_flux fin2 rows]; split; [lia|discriminate]). split.
  - destruct (blind_outcome (fun _ => Fin 1) stay false false (1/4) (Fin 6563) (ex_flux 20 12) (ones 20 3) ex_wave stay_respects stay_always
      ltac:(intros; lra) ex_wave_ok eq_refl eq_refl En) as (_ & _ & H). exact (H eq_refl 3%Z ltac:(lra)).
  - destruct (blind_outcome (fun _ => Fin 1) stay false false (1/2) (Fin 6563) (ex_flux 20 12) (ones 20 3) ex_wave stay_respects stay_always
      ltac:(intros; lra) ex_wave_ok eq_refl eq_refl En) as (_ & _ & H). exact (H eq_refl 2%Z ltac:(lra)).
Qed.

(** C103: the peak S/N of a bright row 12 is reported as 0. *)
Lemma snr_wrong : exists v, vert_position (fun _ => Fin 1) stay false false (1/2) (Fin 6563) (ex_flux 20 12) (ones 20 3) ex_wave (Some (Fin 12)) = Ok v /\
  v_m0 v = 12%Z /\ v_snr v = Fin 0 /\ 0 < sn_row 3 (fun i _ => if Nat.eqb i 12 then 1 else 0) (fun _ _ => 1) 12.
Proof.
  destruct stay_hypotheses as (Rs & Al & W & IF & IE & NM & _).
  destruct (given_coarse (fun _ => Fin 1) stay false (1/2) (Fin 6563) (ex_flux 20 12) (ones 20 3) ex_wave 12 Rs Al ltac:(lra) W eq_refl eq_refl) as (H & _).
  destruct H as (v & V). { cbn [ex_flux fin2 rows]. lia. }
  destruct (snr_coarse (fun _ => Fin 1) stay false (1/2) (Fin 6563) _ _ _ 12 v 20 3 _ _ Rs ltac:(lra) ltac:(lia) IF IE NM V) as ([_ B] & S).
  assert (M : v_m0 v = 12%Z).
  { apply Rabs_both in B. assert (11 < v_m0 v)%Z by (apply lt_IZR; lra). assert (v_m0 v < 13)%Z by (apply lt_IZR; lra). lia. }
  exists v. split; [exact V|]. split; [exact M|]. rewrite M in S. split.
  - rewrite S. f_equal. change (Z.to_nat _) with 9%nat. unfold sn_row. cbv zeta. cbn [Nat.eqb rsumn].
    destruct (Req_EM_T _ 0); [reflexivity|]. replace (0 + 0 + 0 + 0) with 0 by lra. rewrite Rabs_R0. unfold Rdiv. lra.
  - unfold sn_row. cbv zeta. cbn [Nat.eqb rsumn]. destruct (Req_EM_T _ 0); [lra|]. apply Rdiv_lt_0_compat.
    + rewrite Rabs_pos_eq; lra.
    + apply sqrt_lt_R0. lra.
Qed.

(** C104: an object in the last row is outside the trimmed image. *)
Lemma last_row_lost : exists s s' t', ready s 20 3 (repeat (ones 20 3) 9) /\ q_ypos s = Some (Fin 19) /\
  trim_2D_spatial false (Fin 2) (vert_position (fun _ => Fin 1) stay false false (1/4) (Fin 6563)) (s, None) = ((s', t'), Ok tt) /\
  exists a, q_flux s' = Some a /\ rows a = 19%nat /\ q_m0 s' = Some 19%Z.
Proof.
  set (s := sp2_of ex_wave (ones 20 3) (Fin 19)).
  pose proof (sp2_of_ready ex_wave (ones 20 3) (Fin 19)) as Hr. fold s in Hr. change (rows (ones 20 3)) with 20%nat in Hr. change (cols (ones 20 3)) with 3%nat in Hr.
  set (o := ones 20 3) in *.
  set (f := mk2 20 3 (fun i j => fmul (at2 o i j) (at2 o i j))).
  destruct (given_fine (fun _ => Fin 1) stay false (1/4) (Fin 6563) f f ex_wave 19 stay_respects stay_always ltac:(lra) ex_wave_ok eq_refl eq_refl) as (v & V).
  { cbn [f rows]. lia. }
  assert (M : v_m0 v = 19%Z).
  { pose proof V as V'. apply vert_cases in V'. cbv zeta in V'. destruct V' as (sp & a & v0 & _ & _ & La & R0 & v1 & H1 & H2).
    assert (A0 : va_mu a = Fin 19).
    { unfold stay in La. cbv zeta in La. cbn [vq_vary vq_mu vq_mumax vq_three f rows andb] in La. change (Z.of_nat 20 - 1)%Z with 19%Z in La.
      cbn [Z.leb Z.compare] in La. inversion La. cbn [va_mu]. f_equal. rewrite Rmin_left by lra. apply Rmax_right. lra. }
    assert (G : forall off sn a v, read_fit false (1/4) off sn a = Ok v -> va_mu a = Fin (19 - IZR off) -> v_m0 v = 19%Z).
    { intros off sn b w Hw Hb. destruct (read_fit_spec _ _ _ _ _ _ Hw) as (m & h & Mm & M0 & _). rewrite Hb in Mm. inversion Mm. subst m.
      rewrite <- minus_IZR, Rround_IZR in M0. lia. }
    destruct H2 as [[_ ->]|(_ & _ & q & a2 & T & Vy & Q & L2 & R2)].
    - destruct H1 as [[-> _]|(a1 & L1 & R1)].
      + apply (G _ _ _ _ R0). rewrite A0. f_equal. lra.
      + apply (G _ _ _ _ R1). destruct (stay_respects _ _ L1) as (_ & K & _). rewrite (K eq_refl). cbn [vq_mu]. f_equal. lra.
    - apply (G _ _ _ _ R2). destruct (stay_respects _ _ L2) as (_ & K & _). rewrite (K Vy), Q. cbn [fsub fadd fneg]. f_equal. }
  destruct (spatial_run false (Fin 2) (vert_position (fun _ => Fin 1) stay false false (1/4) (Fin 6563)) s None 20 3 o o o o o o o o o ex_wave (Fin 19) v Hr eq_refl eq_refl V)
    as (low & _ & Run).
  do 3 eexists. split; [exact Hr|]. split; [reflexivity|]. split; [exact Run|]. eexists. split; [reflexivity|]. split; [reflexivity|].
  change (Some (v_m0 v - 0)%Z = Some 19%Z). rewrite M. reflexivity.
Qed.

(** An object in the middle stays in the trimmed image. *)
Lemma middle_kept : exists s s' t', q_ypos s = Some (Fin 9) /\ 
  trim_2D_spatial false (Fin 2) (vert_position (fun _ => Fin 1) stay false false (1/4) (Fin 6563)) (s, None) = ((s', t'), Ok tt) /\
  exists c a, q_m0 s' = Some c /\ q_flux s' = Some a /\ (0 <= c < Z.of_nat (rows a))%Z.
Proof.
  set (s := sp2_of ex_wave (ones 20 3) (Fin 9)).
  pose proof (sp2_of_ready ex_wave (ones 20 3) (Fin 9)) as Hr. fold s in Hr. change (rows (ones 20 3)) with 20%nat in Hr. change (cols (ones 20 3)) with 3%nat in Hr.
  set (o := ones 20 3) in *.
  set (f := mk2 20 3 (fun i j => fmul (at2 o i j) (at2 o i j))).
  destruct (given_fine (fun _ => Fin 1) stay false (1/4) (Fin 6563) f f ex_wave 9 stay_respects stay_always ltac:(lra) ex_wave_ok eq_refl eq_refl) as (v & V).
  { cbn [f rows]. lia. }
  destruct (spatial_run false (Fin 2) (vert_position (fun _ => Fin 1) stay false false (1/4) (Fin 6563)) s None 20 3 o o o o o o o o o ex_wave (Fin 9) v Hr eq_refl eq_refl V)
    as (low & _ & Run).
  exists s. do 2 eexists. split; [reflexivity|]. split; [exact Run|].
  refine (trimmed_keeps (fun _ => Fin 1) stay false (Fin 2) (1/4) (Fin 6563) s None 20 3 _ ex_wave 9 _ _ stay_respects _ Hr eq_refl eq_refl _ Run).
  - intros; lra.
  - rewrite INR_IZR_INZ. change (Z.of_nat 20) with 20%Z. lra.
Qed.
