(* Proofs about the 1-D line fits: line templates. *)
From Coq Require Import String Reals List Bool Arith ZArith Lia Lra Psatz.
From Verif Require Import PyFloat PyBase Arr PyNum MKernels MIo MTrim MAper1D MFit1D SKernels SMask STrim SFit1D
  PKernels PKernels2 PMask PTrim PAper1D.
Import ListNotations.
Local Open Scope R_scope.

Lemma gap2_spec xs mu : xs <> [] ->
  (exists x, In x xs /\ gap2 xs mu = (x - mu) ^ 2) /\ forall x, In x xs -> gap2 xs mu <= (x - mu) ^ 2.
Proof.
  destruct xs as [|a xs]; [congruence|]. intros _. unfold gap2. induction xs as [|b xs IH].
  - cbn. split; [exists a; auto|]. intros x [<-|[]]. lra.
  - cbn [fold_right]. destruct IH as [(x & I & E) L]. split.
    + unfold Rmin. destruct (Rle_dec ((b - mu) ^ 2) _).
      * exists b. split; [right; left; reflexivity|reflexivity].
      * exists x. split; [destruct I; [left|right; right]; assumption|exact E].
    + intros y [<-|[<-|I2]].
      * eapply Rle_trans; [apply Rmin_r|]. apply L. left. reflexivity.
      * apply Rmin_l.
      * eapply Rle_trans; [apply Rmin_r|]. apply L. right. assumption.
Qed.

Lemma gap2_unique xs mu g : xs <> [] -> (exists x, In x xs /\ g = (x - mu) ^ 2) ->
  (forall x, In x xs -> g <= (x - mu) ^ 2) -> gap2 xs mu = g.
Proof.
  intros N (x & I & ->) L. destruct (gap2_spec xs mu N) as [(y & J & E) L2].
  apply Rle_antisym; [apply L2, I|]. rewrite E. apply L, J.
Qed.

Lemma fmax1_Fin f xs : forall a, exists m, fmax1 (Fin (f a)) (map (fun x => Fin (f x)) xs) = Fin m /\
  (exists x : R, In x (a :: xs) /\ m = f x) /\ forall x, In x (a :: xs) -> f x <= m.
Proof.
  induction xs as [|b xs IH]; intros a; cbn [map fmax1].
  - exists (f a). split; [reflexivity|]. split; [exists a; split; [left|]; reflexivity|]. intros x [<-|[]]. lra.
  - cbn [isnan fltb]. destruct (Rltb (f a) (f b)) eqn:L.
    + apply Rltb_true in L. destruct (IH b) as (m & E & (x & I & M) & U). exists m. split; [exact E|].
      split; [exists x; split; [right; exact I|exact M]|].
      intros y [<-|I2]; [|apply U, I2]. specialize (U b (or_introl eq_refl)). lra.
    + apply Rltb_false in L. destruct (IH a) as (m & E & (x & I & M) & U). exists m. split; [exact E|].
      split; [exists x; split; [destruct I; [left|right; right]; assumption|exact M]|].
      intros y [<-|[<-|I2]]; [apply U; left; reflexivity| |apply U; right; exact I2].
      specialize (U a (or_introl eq_refl)). lra.
Qed.

Lemma sqrt_2PI_pos : 0 < sqrt (2 * PI).
Proof. apply sqrt_lt_R0. pose proof PI_RGT_0. lra. Qed.

Lemma c_kms_pos : 0 < c_kms.
Proof. unfold c_kms. lra. Qed.

Lemma width_pos vd mu : 0 < vd -> 0 < mu -> 0 < width vd mu.
Proof.
  intros. unfold width. pose proof c_kms_pos. apply Rmult_lt_0_compat; [|assumption].
  unfold Rdiv. apply Rmult_lt_0_compat; [assumption|]. apply Rinv_0_lt_compat. assumption.
Qed.

Lemma gaussian_line_Fin xs mu vd flux : xs <> [] -> 0 < mu -> 0 < vd ->
  gaussian_line (map Fin xs) (Fin mu) (Fin vd) (Fin flux) =
  Ok (map (fun x => Fin (line_value xs mu (width vd mu) flux x)) xs).
Proof.
  intros N Hm Hv. unfold gaussian_line. pose proof c_kms_pos as Hc. pose proof sqrt_2PI_pos as Hs.
  rewrite fdiv_Fin by lra. cbn [fmul]. fold (width vd mu). set (sg := width vd mu).
  assert (Hsg : 0 < sg) by (apply width_pos; assumption).
  rewrite map_map.
  set (f := fun x => exp (- ((x - mu) / sg * ((x - mu) / sg)) / 2) / sqrt (2 * PI) / sg).
  rewrite (map_ext _ (fun x => Fin (f x))).
  2:{ intros x. unfold fsub. cbn [fneg fadd]. rewrite norm_pdf_Fin by assumption. reflexivity. }
  rewrite fdiv_Fin by nra.
  assert (MX : exists m, np_max (map (fun x => Fin (f x)) xs) = Ok (Fin m) /\
    (exists x : R, In x xs /\ m = f x) /\ forall x, In x xs -> f x <= m).
  { destruct xs as [|a xs]; [congruence|]. destruct (fmax1_Fin f xs a) as (m & E & R). exists m.
    split; [|exact R]. cbn [map np_max]. rewrite E. reflexivity. }
  destruct MX as (m & E & (x0 & I0 & M) & U). rewrite E. cbn [bind].
  rewrite map_map. apply (f_equal (@Ok (list fl))). apply map_ext_in. intros x Ix.
  assert (Hf : forall y, 0 < f y).
  { intros y. unfold f, Rdiv. apply Rmult_lt_0_compat; [apply Rmult_lt_0_compat|]; [apply exp_pos| |];
      apply Rinv_0_lt_compat; assumption. }
  assert (Hm0 : 0 < m) by (rewrite M; apply Hf).
  rewrite fdiv_Fin by lra. cbn [fmul]. f_equal. unfold line_value.
  rewrite (Rmult_comm (flux / _)). f_equal.
  assert (G : gap2 xs mu = (x0 - mu) ^ 2).
  { apply gap2_unique; [assumption|exists x0; auto|]. intros y Iy.
    specialize (U y Iy). rewrite M in U. unfold f in U.
    assert (K : exp (- ((y - mu) / sg * ((y - mu) / sg)) / 2) <= exp (- ((x0 - mu) / sg * ((x0 - mu) / sg)) / 2)).
    { apply Rmult_le_reg_r with (/ sqrt (2 * PI) * / sg).
      - apply Rmult_lt_0_compat; apply Rinv_0_lt_compat; assumption.
      - unfold Rdiv in *. lra. }
    destruct (Rle_lt_dec ((x0 - mu) ^ 2) ((y - mu) ^ 2)) as [|B]; [assumption|exfalso].
    apply Rlt_not_le with (2 := K). apply exp_increasing.
    replace (- ((x0 - mu) / sg * ((x0 - mu) / sg)) / 2) with (- (x0 - mu) ^ 2 * (/ sg * / sg * / 2)) by (field; lra).
    replace (- ((y - mu) / sg * ((y - mu) / sg)) / 2) with (- (y - mu) ^ 2 * (/ sg * / sg * / 2)) by (field; lra).
    apply Rmult_lt_compat_r; [|lra].
    pose proof (Rinv_0_lt_compat sg Hsg). nra. }
  rewrite G, M. unfold f.
  replace (exp (- ((x - mu) / sg * ((x - mu) / sg)) / 2) / sqrt (2 * PI) / sg /
           (exp (- ((x0 - mu) / sg * ((x0 - mu) / sg)) / 2) / sqrt (2 * PI) / sg))
    with (exp (- ((x - mu) / sg * ((x - mu) / sg)) / 2) * / exp (- ((x0 - mu) / sg * ((x0 - mu) / sg)) / 2)).
  2:{ field. repeat split; try lra. apply Rgt_not_eq, exp_pos. }
  rewrite <- exp_Ropp, <- exp_plus. f_equal. field. lra.
Qed.

Lemma line_value_linear xs mu sig a f x : line_value xs mu sig (a * f) x = a * line_value xs mu sig f x.
Proof. unfold line_value, Rdiv. ring. Qed.

Lemma line_value_le xs mu sig f x : 0 < sig -> In x xs -> 0 <= f ->
  0 <= line_value xs mu sig f x <= f / (sig * sqrt (2 * PI)).
Proof.
  intros Hs I Hf. unfold line_value. pose proof sqrt_2PI_pos.
  assert (P : 0 <= f / (sig * sqrt (2 * PI))).
  { unfold Rdiv. apply Rmult_le_pos; [assumption|]. left. apply Rinv_0_lt_compat, Rmult_lt_0_compat; assumption. }
  assert (E : 0 < exp ((gap2 xs mu - (x - mu) ^ 2) / (2 * sig ^ 2)) <= 1).
  { split; [apply exp_pos|]. rewrite <- exp_0.
    assert (N : xs <> []) by (intros ->; destruct I).
    destruct (gap2_spec xs mu N) as [_ L]. specialize (L x I).
    assert (Q : (gap2 xs mu - (x - mu) ^ 2) / (2 * sig ^ 2) <= 0).
    { unfold Rdiv. assert (0 < / (2 * sig ^ 2)) by (apply Rinv_0_lt_compat; nra). nra. }
    destruct Q as [Q|Q]; [left; apply exp_increasing, Q|right; rewrite Q; reflexivity]. }
  nra.
Qed.

Lemma line_value_peak xs mu sig f : xs <> [] -> exists x, In x xs /\ line_value xs mu sig f x = f / (sig * sqrt (2 * PI)).
Proof.
  intros N. destruct (gap2_spec xs mu N) as [(x & I & E) _]. exists x. split; [exact I|].
  unfold line_value. rewrite E. replace ((x - mu) ^ 2 - (x - mu) ^ 2) with 0 by ring.
  replace (0 / (2 * sig ^ 2)) with 0 by (unfold Rdiv; ring). rewrite exp_0. ring.
Qed.

Lemma line_value_exact xs mu sig f x : In mu xs -> line_value xs mu sig f x = true_gaussian mu sig f x.
Proof.
  intros I. unfold line_value, true_gaussian.
  rewrite (gap2_unique xs mu 0).
  - do 3 f_equal. ring.
  - intros ->. destruct I.
  - exists mu. split; [exact I|ring].
  - intros y _. apply pow2_ge_0.
Qed.

(** Negative or zero dispersion: nothing but nan. *)
Lemma gaussian_line_bad x mu vd flux g : (match mu with Fin m => 0 < m | _ => False end) ->
  (match vd with Fin v => v <= 0 | _ => False end) ->
  gaussian_line x mu vd flux = Ok g -> length g = length x /\ forall v, In v g -> v = NaN.
Proof.
  destruct mu as [mu| | |]; try contradiction. destruct vd as [vd| | |]; try contradiction.
  intros Hm Hv. unfold gaussian_line. pose proof c_kms_pos as Hc. rewrite fdiv_Fin by lra. cbn [fmul].
  assert (S : vd / c_kms * mu <= 0).
  { assert (0 < / c_kms) by (apply Rinv_0_lt_compat; lra). assert (vd / c_kms <= 0) by (unfold Rdiv; nra). nra. }
  set (sg := vd / c_kms * mu) in *.
  rewrite (map_ext _ (fun _ => NaN)).
  2:{ intros v. unfold norm_pdf. cbn [fltb]. rewrite (proj2 (Rltb_false 0 sg)) by lra. reflexivity. }
  destruct x as [|a x]; [discriminate|]. cbn [map np_max bind]. intros E.
  assert (G : g = map (fun _ => NaN) (a :: x)).
  { inversion E. cbn [map]. f_equal. rewrite map_map. reflexivity. }
  subst g. split; [apply map_length|]. intros v I. apply in_map_iff in I. destruct I as (? & <- & _). reflexivity.
Qed.
