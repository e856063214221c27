(* Proofs about fit preparation: continuum subtraction and everything after it. *)
From Coq Require Import Reals List Bool Arith ZArith Lra Lia Sorted.
From Verif Require Import PyFloat PyBase Arr PyNum PAper2D MMask SMask PMask PMask2 MTrim STrim PTrim PTrim2 MPrep SPrep PPrep.
Import ListNotations.
Local Open Scope R_scope.

(** What holds from the start of continuum subtraction on. *)
Definition inv (Z : Prop) (s : sp2) (wave : list fl) (fx er m w ic ct : arr2 fl) (n : nat) : Prop :=
  arrays2 s wave fx er m w /\ rows fx = n /\ q_incl s = Some ic /\ q_cont s = Some ct /\
  shape ic n (length wave) /\ shape ct n (length wave) /\
  forall i j, (i < n)%nat -> (j < length wave)%nat ->
    at2 fx i j = fsub (at2 ic i j) (at2 ct i j) /\ isfinite (at2 fx i j) = true /\ isfinite (at2 er i j) = true /\
    isfinite (at2 ic i j) = true /\ (Z -> at2 er i j <> Fin 0).
(** While the attributes are the caller's arrays, those hold the same numbers. *)
Definition alias (e : env) (fx er : arr2 fl) : Prop := k_a2 (e_k e) = true -> k_flux (e_k e) = fx /\ k_err (e_k e) = er.
(** Row [i] is a straight line of slope [a]. *)
Definition line_row (a : R) (wave : list fl) (ct : arr2 fl) (i : nat) : Prop :=
  exists b, forall j, (j < length wave)%nat -> exists x, nth_error wave j = Some (Fin x) /\ at2 ct i j = Fin (a * x + b).

Lemma isfinite_Fin x : isfinite x = true -> exists r, x = Fin r.
Proof. destruct x; cbn; try discriminate. eauto. Qed.

Lemma nan_dec l : {In NaN l} + {~ In NaN l}.
Proof.
  induction l as [|x l [IH|IH]]; [now right|left; now right|]. destruct x; [| | |left; now left]; right; intros [X|X]; auto; discriminate.
Qed.

Lemma line_finite slope b wave mx : physical wave -> np_max (line_at slope b wave) = Ok mx -> isfinite mx = true ->
  exists a b', slope = Fin a /\ b = Fin b'.
Proof.
  intros Ph. unfold line_at. destruct wave as [|x0 wave]; [discriminate|]. intros E F.
  set (f := fun x => fadd (fmul slope x) b) in *. assert (E' : Ok (fmax1 (f x0) (map f wave)) = Ok mx) by exact E. injection E' as <-. clear E.
  destruct (fmax1_spec (f x0) (map f wave)) as [P Q].
  destruct (nan_dec (f x0 :: map f wave)) as [I|I].
  - rewrite (P I) in F. discriminate.
  - destruct (Q I) as (_ & J & _). change (f x0 :: map f wave) with (map f (x0 :: wave)) in J.
    apply in_map_iff in J. destruct J as (x & Hx & Ix). rewrite <- Hx in F. unfold f in F.
    destruct (Ph x Ix) as (r & -> & Hr). destruct slope as [a| | |], b as [b'| | |]; cbn [fmul] in F; try (cbn in F; discriminate); eauto;
      exfalso; unfold inf_scale in F; destruct (Reqb r 0), (Rltb 0 r); cbn in F; discriminate.
Qed.

Lemma set_row_same a i l j : at2 (set_row a i l) i j = lnth l j.
Proof. cbn. now rewrite Nat.eqb_refl. Qed.
Lemma set_row_other a i l i' j : i' <> i -> at2 (set_row a i l) i' j = at2 a i' j.
Proof. intros H. cbn. now rewrite (proj2 (Nat.eqb_neq i' i)). Qed.
Lemma line_at_nth a b wave j x : nth_error wave j = Some (Fin x) -> lnth (line_at (Fin a) (Fin b) wave) j = Fin (a * x + b).
Proof. intros H. unfold lnth, line_at. apply nth_error_nth. rewrite nth_error_map, H. reflexivity. Qed.
Lemma physical_nth wave j : physical wave -> (j < length wave)%nat -> exists x, nth_error wave j = Some (Fin x) /\ 0 < x.
Proof.
  intros Ph Hj. destruct (nth_error wave j) as [y|] eqn:E; [|apply nth_error_None in E; lia].
  destruct (Ph y (nth_error_In _ _ E)) as (x & -> & Hx). eauto.
Qed.

Lemma row_inv Z c slope b1 xs wl wr i e e' wave fx er m w ic ct n :
  inv Z (e2 e) wave fx er m w ic ct n -> physical wave -> alias e fx er -> cont_row c slope b1 xs wl wr i e = (e', Ok tt) ->
  exists fx' ct' a, inv Z (e2 e') wave fx' er m w ic ct' n /\ rest_same (e2 e) (e2 e') /\ alias e' fx' er /\
    q_median (e2 e') = q_median (e2 e) /\ e_dpa e' = e_dpa e /\ e1 e' = e1 e /\ k_a2 (e_k e') = k_a2 (e_k e) /\
    slope = Fin a /\ line_row a wave ct' i /\ forall i' j, i' <> i -> at2 ct' i' j = at2 ct i' j.
Proof.
  intros ((W & O & F & E & M & G & S1 & S2 & S3 & S4) & Rn & I & C & S5 & S6 & P) Ph Al H.
  unfold cont_row in H. rewrite bind_get in H. cbv zeta in H. rewrite I, E, M, C, F in H.
  rewrite (bind_lift _ ic) in H by reflexivity. rewrite (bind_lift _ er) in H by reflexivity. rewrite (bind_lift _ m) in H by reflexivity.
  rewrite (bind_lift _ ct) in H by reflexivity. rewrite (bind_lift _ fx) in H by reflexivity.
  do 6 liftin H. liftin H. rename a5 into b. rewrite W in H. rewrite (bind_lift _ wave) in H by reflexivity.
  liftin H. rewrite bind_up2 in H. cbv beta in H. liftin H. rename a6 into mx. liftin H. liftin H. liftin H.
  unfold write_flux in H. rewrite bind_upk in H. rewrite up2_eq in H. cbn [e2 e1 e_dpa e_reg e_k] in H. injection H as <-.
  destruct (isfinite mx) eqn:Fm; [|discriminate].
  destruct (line_finite _ _ _ _ Ph E8 Fm) as (a' & b' & -> & ->).
  set (cf := line_at (Fin a') (Fin b') wave) in *.
  set (nr := map (fun j => fsub (at2 ic i j) (lnth cf j)) (seq 0 (cols ic))) in *.
  exists (set_row fx i nr), (set_row ct i cf), a'.
  split.
  - split; [|split; [exact Rn|split; [exact I|split; [reflexivity|split; [exact S5|split; [exact S6|]]]]]].
    { split; [exact W|]. split; [exact O|]. split; [reflexivity|]. split; [exact E|]. split; [exact M|]. split; [exact G|].
      split; [exact S1|]. split; [exact S2|]. split; [exact S3|]. exact S4. }
    intros i' j Hi Hj. destruct (P i' j Hi Hj) as (P1 & P2 & P3 & P4 & P5).
    destruct (Nat.eq_dec i' i) as [->|Ne].
    + assert (Nj : lnth nr j = fsub (at2 ic i j) (lnth cf j)).
      { unfold nr. rewrite (proj2 S5). exact (nth_map_seq (fun j => fsub (at2 ic i j) (lnth cf j)) _ _ _ Hj). }
      rewrite !set_row_same, Nj.
      split; [reflexivity|]. split; [|auto]. destruct (physical_nth wave j Ph Hj) as (x & Ex & _). unfold cf. rewrite (line_at_nth _ _ _ _ _ Ex).
      apply isfinite_Fin in P4. destruct P4 as (y & ->). reflexivity.
    + rewrite !set_row_other by exact Ne. auto.
  - split; [repeat split; reflexivity|]. split.
    { intros K. cbn [e_k k_a2 k_flux k_err] in *. destruct (Al K) as [_ A2]. now rewrite K. }
    split; [reflexivity|]. split; [reflexivity|]. split; [reflexivity|]. split; [reflexivity|]. split; [reflexivity|]. split.
    { exists b'. intros j Hj. destruct (physical_nth wave j Ph Hj) as (x & Ex & _). exists x. split; [exact Ex|].
      rewrite set_row_same. unfold cf. now apply line_at_nth. }
    intros. now apply set_row_other.
Qed.

Lemma rest_same_trans a b c : rest_same a b -> rest_same b c -> rest_same a c.
Proof. unfold rest_same. intros H1 H2. decompose [and] H1. decompose [and] H2. repeat split; congruence. Qed.

Lemma rows_inv Z c slope b1 xs wl wr is : forall e e' wave fx er m w ic ct n,
  inv Z (e2 e) wave fx er m w ic ct n -> physical wave -> alias e fx er -> cont_rows c slope b1 xs wl wr is e = (e', Ok tt) ->
  exists fx' ct', inv Z (e2 e') wave fx' er m w ic ct' n /\ rest_same (e2 e) (e2 e') /\ alias e' fx' er /\
    q_median (e2 e') = q_median (e2 e) /\ e_dpa e' = e_dpa e /\ e1 e' = e1 e /\ k_a2 (e_k e') = k_a2 (e_k e) /\
    (is <> [] -> exists a, slope = Fin a /\ forall i, In i is -> line_row a wave ct' i) /\
    forall i' j, ~ In i' is -> at2 ct' i' j = at2 ct i' j.
Proof.
  induction is as [|i is IH]; intros e e' wave fx er m w ic ct n I Ph Al H.
  - injection H as <-. exists fx, ct. split; [exact I|]. split; [apply rest_same_refl|]. split; [exact Al|].
    split; [reflexivity|]. split; [reflexivity|]. split; [reflexivity|]. split; [reflexivity|]. split; [now intros []|reflexivity].
  - cbn [cont_rows] in H. apply bind_inv in H. destruct H as (ea & [] & H1 & H2).
    destruct (row_inv _ _ _ _ _ _ _ _ _ _ _ _ _ _ _ _ _ _ I Ph Al H1) as (fa & ca & a & Ia & Ra & Aa & Ma & Da & Oa & Ka & -> & La & Ca).
    destruct (IH _ _ _ _ _ _ _ _ _ _ Ia Ph Aa H2) as (fb & cb & Ib & Rb & Ab & Mb & Db & Ob & Kb & Lb & Cb).
    exists fb, cb. split; [exact Ib|]. split; [eapply rest_same_trans; eassumption|]. split; [exact Ab|].
    split; [congruence|]. split; [congruence|]. split; [congruence|]. split; [congruence|]. split.
    + intros _. exists a. split; [reflexivity|]. intros i' Hi. destruct (in_dec Nat.eq_dec i' is) as [J|J].
      * destruct Lb as (a'' & Ea & Lb); [now intros ->|]. injection Ea as <-. now apply Lb.
      * destruct Hi as [<-|Hi]; [|contradiction]. destruct La as (b & La). exists b. intros j Hj.
        destruct (La j Hj) as (x & Ex & V). exists x. split; [exact Ex|]. rewrite Cb; auto.
    + intros i' j Hi. rewrite Cb by (intros X; apply Hi; now right). apply Ca. intros ->. apply Hi. now left.
Qed.

(** Picking columns keeps the pixel facts. *)
Definition pix (Z : Prop) (fx er ic ct : arr2 fl) (n p : nat) : Prop :=
  forall i j, (i < n)%nat -> (j < p)%nat ->
    at2 fx i j = fsub (at2 ic i j) (at2 ct i j) /\ isfinite (at2 fx i j) = true /\ isfinite (at2 er i j) = true /\
    isfinite (at2 ic i j) = true /\ (Z -> at2 er i j <> Fin 0).
Lemma pix_cols Z fx er ic ct n p ks : pix Z fx er ic ct n p -> (forall k, In k ks -> (k < p)%nat) ->
  pix Z (trim_cols ks fx) (trim_cols ks er) (trim_cols ks ic) (trim_cols ks ct) n (length ks).
Proof.
  intros P B i j Hi Hj. unfold trim_cols. cbn [at2]. apply P; [exact Hi|]. apply B, nth_In, Hj.
Qed.
Lemma line_cols a wave ct i ks : line_row a wave ct i -> (forall k, In k ks -> (k < length wave)%nat) ->
  line_row a (map (fun k => nth k wave NaN) ks) (trim_cols ks ct) i.
Proof.
  intros (b & H) B. exists b. rewrite map_length. intros j Hj. unfold trim_cols. cbn [at2].
  destruct (H (nth j ks 0%nat)) as (x & Ex & V); [apply B, nth_In, Hj|]. exists x. split; [|exact V].
  rewrite nth_error_map, (nth_error_nth' ks 0%nat Hj). cbn [option_map]. f_equal. now apply nth_error_nth.
Qed.
Lemma shape_cols ks a n p : shape a n p -> shape (trim_cols ks a) n (length ks).
Proof. intros [H _]. split; [exact H|reflexivity]. Qed.
Lemma physical_cols wave ks : physical wave -> (forall k, In k ks -> (k < length wave)%nat) -> physical (map (fun k => nth k wave NaN) ks).
Proof. intros P B x Hx. apply in_map_iff in Hx. destruct Hx as (k & <- & Hk). apply P, nth_In, B, Hk. Qed.

Lemma bu2 f {B} (k : unit -> ST env B) s t d r kk : bindS (up2 f) k (mkEnv s t d r kk) = k tt (mkEnv (f s) t d r kk).
Proof. reflexivity. Qed.
Lemma buk f {B} (k : unit -> ST env B) s t d r kk : bindS (upk f) k (mkEnv s t d r kk) = k tt (mkEnv s t d r (f kk)).
Proof. reflexivity. Qed.
Lemma bu1 f {B} (k : unit -> ST env B) s t d r kk : bindS (up1 f) k (mkEnv s t d r kk) = k tt (mkEnv s (option_map f t) d r kk).
Proof. reflexivity. Qed.
Ltac prj H := cbn [e2 e1 e_dpa e_reg e_k] in H.

Lemma conttrim_inv Z c e e' wf wave fx er m w ic ct n :
  inv Z (e2 e) wave fx er m w ic ct n -> (forall k, In k wf -> (k < length wave)%nat) -> cont_trim c wf e = (e', Ok tt) ->
  inv Z (e2 e') (map (fun k => nth k wave NaN) wf) (trim_cols wf fx) (trim_cols wf er) (trim_cols wf m) (trim_cols wf w) (trim_cols wf ic) (trim_cols wf ct) n /\
  q_qual (e2 e') = q_qual (e2 e) /\ q_ypos (e2 e') = q_ypos (e2 e) /\ q_rline (e2 e') = q_rline (e2 e) /\ q_cutoff (e2 e') = q_cutoff (e2 e) /\
  q_lam0 (e2 e') = q_lam0 (e2 e) /\ q_prepared (e2 e') = q_prepared (e2 e) /\
  q_median (e2 e') = q_median (e2 e) /\ e_dpa e' = e_dpa e /\ k_flux (e_k e') = k_flux (e_k e) /\ k_err (e_k e') = k_err (e_k e) /\ k_a2 (e_k e') = false.
Proof.
  intros ((W & O & F & E & M & G & S1 & S2 & S3 & S4) & Rn & I & C & S5 & S6 & P) B H.
  destruct e as [s0 t0 d0 r0 k0]. cbn [e2 e1 e_dpa e_reg e_k] in *.
  unfold cont_trim in H. rewrite bind_get in H. prj H. cbv zeta in H. rewrite I, E, M, C, F, W, G in H.
  rewrite (bind_lift _ (map (fun k => nth k wave NaN) wf)) in H by (now apply take_o_ok). rewrite bu2 in H.
  rewrite (bind_lift _ (trim_cols wf ic)) in H by (eapply take_cols_o_ok; [apply S5|exact B]). rewrite bu2 in H.
  rewrite (bind_lift _ (trim_cols wf ct)) in H by (eapply take_cols_o_ok; [apply S6|exact B]). rewrite bu2 in H.
  rewrite (bind_lift _ (trim_cols wf fx)) in H by (eapply take_cols_o_ok; [apply S1|exact B]). rewrite bu2 in H.
  rewrite (bind_lift _ (trim_cols wf er)) in H by (eapply take_cols_o_ok; [apply S2|exact B]). rewrite bu2 in H.
  rewrite (bind_lift _ (trim_cols wf m)) in H by (eapply take_cols_o_ok; [apply S3|exact B]). rewrite bu2 in H.
  rewrite (bind_lift _ (trim_cols wf w)) in H by (eapply take_cols_o_ok; [apply S4|exact B]). rewrite bu2 in H.
  rewrite buk in H.
  set (s := set_q_weight _ _) in H.
  assert (Is : forall o, inv Z (set_q_rest o (set_q_obs (Some (map (fun k => nth k wave NaN) wf)) s)) (map (fun k => nth k wave NaN) wf) (trim_cols wf fx) (trim_cols wf er) (trim_cols wf m) (trim_cols wf w) (trim_cols wf ic) (trim_cols wf ct) n).
  { intros o. unfold inv, arrays2. change (rows (trim_cols wf fx)) with (rows fx). rewrite Rn in *. rewrite map_length.
    split; [|split; [reflexivity|split; [reflexivity|split; [reflexivity|split; [now apply shape_cols with (length wave)|split; [now apply shape_cols with (length wave)|now apply pix_cols with (length wave)]]]]]].
    do 6 (split; [reflexivity|]). split; [now apply shape_cols with (length wave)|]. split; [now apply shape_cols with (length wave)|].
    split; now apply shape_cols with (length wave). }
  destruct (g_nocont c) eqn:Nc.
  - rewrite bind_ret, !bu2 in H. unfold ret in H. injection H as <-. cbn [e2 e_dpa e_k].
    split; [apply Is|]. repeat split; reflexivity.
  - apply bind_inv in H. destruct H as (ea & [] & H1 & H).
    assert (X : e2 ea = s /\ e_dpa ea = d0 /\ k_flux (e_k ea) = k_flux k0 /\ k_err (e_k ea) = k_err k0 /\ k_a2 (e_k ea) = false).
    { do 5 liftin H1. rewrite bu1 in H1. unfold upk, modS in H1. injection H1 as <-. repeat split; reflexivity. }
    destruct X as (X1 & X2 & X3 & X4 & X5). clear H1. destruct ea as [s1 t1 d1 r1 k1]. cbn [e2 e1 e_dpa e_reg e_k] in X1, X2, X3, X4, X5.
    rewrite !bu2 in H. unfold up1, modS in H. injection H as <-. cbn [e2 e_dpa e_k]. rewrite X1.
    split; [apply Is|]. repeat split; assumption || reflexivity.
Qed.

Definition zeros (n p : nat) : arr2 fl := mk2 n p (fun _ _ => Fin 0).
(** The condition under which no stored error is zero. *)
Definition noz (fx er m w : arr2 fl) (n p : nat) : Prop :=
  forall i j, (i < n)%nat -> (j < p)%nat -> at2 er i j = Fin 0 -> at2 m i j = Fin 0 \/ isfinite (at2 fx i j) = false \/ at2 w i j = Fin 0.

Lemma filled_nonzero fx er m w fx' er' m' n p : filled n p fx er m w fx' er' m' ->
  forall i j, (i < n)%nat -> (j < p)%nat -> noz fx er m w n p -> at2 er' i j <> Fin 0.
Proof.
  intros (_ & _ & [_ B] & H) i j Hi Hj N X. destruct (H i j Hi Hj) as (_ & _ & _ & F1 & F2 & F3 & F4 & F5 & _).
  destruct (N i j Hi Hj (F5 X)) as [Y|[Y|Y]]; [|now apply F4; auto|now apply F4; auto].
  apply F4; auto. destruct (B i j Hi Hj) as [K|K]; congruence.
Qed.

(** The 1-D fit leaves the 2-D spectrum alone. *)
Lemma fit1_inv c wl wr e e' x : cont_fit1 c wl wr e = (e', Ok x) ->
  e2 e' = e2 e /\ e_dpa e' = e_dpa e /\ k_flux (e_k e') = k_flux (e_k e) /\ k_err (e_k e') = k_err (e_k e) /\ k_a2 (e_k e') = k_a2 (e_k e).
Proof.
  intros H. unfold cont_fit1 in H. rewrite bind_get in H. cbv zeta in H. do 9 liftin H. rewrite bind_write_mask1 in H. do 9 liftin H.
  unfold ret in H. injection H as <- _. repeat split; reflexivity.
Qed.

Lemma subtract_inv c e e' wave fx er m w n : arrays2 (e2 e) wave fx er m w -> rows fx = n -> physical wave ->
  (k_a2 (e_k e) = true -> k_flux (e_k e) = fx /\ k_err (e_k e) = er) ->
  subtract_continuum c e = (e', Ok tt) ->
  exists wave' fx' er' m' w' ic ct a ks rf rl, inv (noz fx er m w n (length wave)) (e2 e') wave' fx' er' m' w' ic ct n /\
    (1 <= n)%nat /\ physical wave' /\ wave' = map (fun k => nth k wave NaN) ks /\ get_range (q_rfull (e2 e)) (g_ffull c) = Ok rf /\ kept (to_obs (g_z c) rf) wave ks /\ get_range (q_rline (e2 e)) (g_fline c) = Ok rl /\ (forall i, (i < n)%nat -> line_row a wave' ct i) /\
    q_qual (e2 e') = q_qual (e2 e) /\ q_ypos (e2 e') = q_ypos (e2 e) /\ q_rline (e2 e') = Some rl /\ q_cutoff (e2 e') = q_cutoff (e2 e) /\
    q_lam0 (e2 e') = q_lam0 (e2 e) /\ q_prepared (e2 e') = q_prepared (e2 e) /\ q_median (e2 e') <> None /\ e_dpa e' = e_dpa e /\
    k_a2 (e_k e') = false /\
    (k_a2 (e_k e) = true -> shape (k_flux (e_k e')) n (length wave) /\ shape (k_err (e_k e')) n (length wave) /\
      forall i j, (i < n)%nat -> (j < length wave)%nat -> isfinite (at2 (k_flux (e_k e')) i j) = true /\ isfinite (at2 (k_err (e_k e')) i j) = true /\
        (g_nocont c = true -> isfinite (at2 fx i j) = true -> at2 (k_flux (e_k e')) i j = at2 fx i j)).
Proof.
  intros A Rn Ph Al H. unfold subtract_continuum in H. apply bind_inv in H. destruct H as (ea & [] & H1 & H).
  destruct (masks_inv _ _ _ _ _ _ _ _ _ A Rn H1) as (fa & ra & ma & Aa & Fl & N1 & N2 & Ra & Md & Da & Kk & Ka & _). clear H1.
  rewrite bind_get in H. cbv zeta in H. destruct Aa as (W & O & F & E & M & G & S1 & S2 & S3 & S4).
  assert (Rfa : rows fa = n) by apply Fl. rewrite Rfa in *.
  liftin H. rename a into rf. rewrite bind_up2 in H. liftin H. rename a into rl. rewrite bind_up2 in H. liftin H. rename a into rm. rewrite bind_up2 in H.
  rewrite W, F in H. rewrite (bind_lift _ wave) in H by reflexivity. rewrite (bind_lift _ fa) in H by reflexivity. rewrite !bind_up2 in H.
  rewrite O in H. rewrite (bind_lift _ wave) in H by reflexivity. cbv beta in H. cbn [e2 e1 e_dpa e_reg e_k] in H.
  set (wf := where_ (within (to_obs (g_z c) rf)) wave) in H. rewrite Rfa, (proj2 S1) in H. fold (zeros n (length wave)) in H.
  assert (Bf : forall k, In k wf -> (k < length wave)%nat) by (intros k; apply where_lt).
  set (sb := set_q_cont _ _) in H. set (eb := mkEnv sb _ _ _ _) in H.
  set (Z := noz fx er m w n (length wave)) in *.
  assert (Ib : inv Z (e2 eb) wave fa ra ma w fa (zeros n (length wave)) n).
  { split; [|split; [exact Rfa|split; [reflexivity|split; [reflexivity|split; [exact S1|split; [split; reflexivity|]]]]]].
    - split; [exact W|]. split; [exact O|]. split; [exact F|]. split; [exact E|]. split; [exact M|]. split; [exact G|].
      rewrite Rfa. split; [exact S1|]. split; [exact S2|]. split; [exact S3|]. exact S4.
    - intros i j Hi Hj. assert (Fz := filled_nonzero _ _ _ _ _ _ _ _ _ Fl i j Hi Hj). destruct Fl as (Fl1 & Fl2 & Fl3 & Fl4). destruct (Fl4 i j Hi Hj) as (X1 & X2 & _).
      split; [|split; [exact X1|split; [exact X2|split; [exact X1|exact Fz]]]].
      apply isfinite_Fin in X1. destruct X1 as (y & ->). cbn. f_equal. lra. }
  assert (Alb : alias eb fa ra).
  { intros K. apply Ka. unfold eb in K. cbn [e_k] in K. congruence. }
  assert (X : exists ed fd cd a, inv Z (e2 ed) wave fd ra ma w fa cd n /\ rest_same (e2 eb) (e2 ed) /\ alias ed fd ra /\
     q_median (e2 ed) = q_median (e2 eb) /\ e_dpa ed = e_dpa eb /\ (forall i, (i < n)%nat -> line_row a wave cd i) /\
     k_a2 (e_k ed) = k_a2 (e_k eb) /\ (g_nocont c = true -> fd = fa) /\ cont_trim c wf ed = (e', Ok tt)).
  { destruct (g_nocont c) eqn:Nc.
    - rewrite bind_ret in H. exists eb, fa, (zeros n (length wave)), 0. split; [exact Ib|]. split; [apply rest_same_refl|]. split; [exact Alb|].
      split; [reflexivity|]. split; [reflexivity|]. split; [|split; [reflexivity|split; [reflexivity|exact H]]].
      intros i _. exists 0. intros j Hj. destruct (physical_nth wave j Ph Hj) as (x & Ex & _). exists x. split; [exact Ex|]. cbn. f_equal. lra.
    - apply bind_inv in H. destruct H as (ed & [] & H1 & H). apply bind_inv in H1. destruct H1 as (ec & pr & H0 & H1).
      apply fit1_inv in H0. destruct H0 as (Y1 & Y2 & Y3 & Y4 & Y5).
      assert (Ic : inv Z (e2 ec) wave fa ra ma w fa (zeros n (length wave)) n) by now rewrite Y1.
      assert (Alc : alias ec fa ra) by (intros K; rewrite Y3, Y4; apply Alb; congruence).
      destruct (rows_inv _ _ _ _ _ _ _ _ _ _ _ _ _ _ _ _ _ _ Ic Ph Alc H1) as (fd & cd & Id & Rd & Ad & Md' & Dd & _ & Kd & Ld & _).
      destruct Ld as (a & _ & Ld); [destruct n; [lia|discriminate]|].
      exists ed, fd, cd, a. split; [exact Id|]. split; [now rewrite <- Y1|]. split; [exact Ad|]. split; [congruence|]. split; [congruence|].
      split; [intros i Hi; apply Ld, in_seq; lia|]. split; [congruence|split; [discriminate|exact H]]. }
  clear H. destruct X as (ed & fd & cd & a & Id & Rd & Ad & Mdd & Dd & Ld & Kd & Nd & H).
  destruct (conttrim_inv _ _ _ _ _ _ _ _ _ _ _ _ _ Id Bf H) as (Ie & T1 & T2 & T3 & T4 & T5 & T6 & T7 & T8 & T9 & T10 & T11).
  destruct Ra as (Ra1 & Ra2 & Ra3 & Ra4 & Ra5 & Ra6 & Ra7 & Ra8 & Ra9 & Ra10 & Ra11).
  destruct Rd as (Rd1 & Rd2 & Rd3 & Rd4 & Rd5 & Rd6 & Rd7 & Rd8 & Rd9 & Rd10 & Rd11).
  exists (map (fun k => nth k wave NaN) wf), (trim_cols wf fd), (trim_cols wf ra), (trim_cols wf ma), (trim_cols wf w), (trim_cols wf fa), (trim_cols wf cd), a, wf, rf, rl.
  split; [exact Ie|]. split; [exact N1|]. split; [now apply physical_cols|]. split; [reflexivity|]. split; [now rewrite <- Ra6|]. split; [apply kept_where|]. split; [now rewrite <- Ra7|]. split; [intros i Hi; apply line_cols; auto|].
  split; [exact (eq_trans T1 (eq_trans Rd4 Ra4))|]. split; [exact (eq_trans T2 (eq_trans Rd5 Ra5))|].
  split; [rewrite T3, Rd7; reflexivity|]. split; [exact (eq_trans T4 (eq_trans Rd9 Ra9))|]. split; [exact (eq_trans T5 (eq_trans Rd10 Ra10))|].
  split; [exact (eq_trans T6 (eq_trans Rd11 Ra11))|]. split; [rewrite T7, Mdd; exact Md|]. split; [exact (eq_trans T8 (eq_trans Dd Da))|]. split; [exact T11|].
  intros Ke. assert (Kd' : k_a2 (e_k ed) = true) by (rewrite Kd; unfold eb; cbn [e_k]; congruence).
  destruct (Ad Kd') as [A1 A2]. rewrite T9, T10, A1, A2. destruct Id as ((_ & _ & _ & _ & _ & _ & I1 & I2 & _) & I3 & _ & _ & _ & _ & I4).
  rewrite I3 in I1, I2. split; [exact I1|]. split; [exact I2|]. intros i j Hi Hj. destruct (I4 i j Hi Hj) as (_ & J2 & J3 & _). split; [exact J2|]. split; [exact J3|].
  intros Nc X. rewrite (Nd Nc). destruct Fl as (_ & _ & _ & Fl). now apply (Fl i j Hi Hj).
Qed.
