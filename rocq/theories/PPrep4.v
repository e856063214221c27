(* Proofs about fit preparation: well-formed inputs can be prepared. *)
From Coq Require Import Reals List Bool Arith ZArith Lra Lia Psatz Sorted.
From Verif Require Import PyFloat PyBase Arr PyNum PKernels PAper2D MMask SMask PMask PMask2 MTrim STrim PTrim PTrim2 MPrep SPrep PPrep PPrep2 PPrep3.
Import ListNotations.
Local Open Scope R_scope.

Definition done {A} (r : env * res A) : Prop := exists e' a, r = (e', Ok a).
Lemma done_bind {A B} (m : ST env A) (k : A -> ST env B) e : done (m e) -> (forall e' a, m e = (e', Ok a) -> done (k a e')) -> done (bindS m k e).
Proof. intros (e' & a & H) K. rewrite (bind_ok _ _ _ _ _ H). now apply K. Qed.
Lemma done_lift {A B} (r : res A) (a : A) (k : A -> ST env B) e : r = Ok a -> done (k a e) -> done (bindS (liftR r) k e).
Proof. intros H K. now rewrite (bind_lift _ _ _ _ H). Qed.
Lemma done_up2 f e : done (up2 f e). Proof. unfold done. eexists. exists tt. reflexivity. Qed.
Lemma done_unit r : done r -> exists e', r = (e', Ok tt).
Proof. intros (e' & [] & H). eauto. Qed.

Lemma setting_range cur file r : setting cur file r -> get_range cur file = Ok r.
Proof. intros [->|[-> H]]; [reflexivity|exact H]. Qed.
Lemma range_setting cur file r : get_range cur file = Ok r -> setting cur file r.
Proof. destruct cur; cbn; intros H; [left; congruence|right; auto]. Qed.
Lemma asked_to_obs z r o : asked z (Some r) None o -> o = to_obs z r.
Proof. intros H. inversion H; subst. reflexivity. Qed.

Lemma start_done c e wave fx er n cut : raw (e2 e) wave fx er n -> g_lines c = Ok tt -> setting (q_cutoff (e2 e)) (g_sky c) cut -> done (prep_start c e).
Proof.
  intros (W & O & F & E & Sf & Se & Sm & Sw & Q & P) G S. unfold prep_start. apply (done_lift _ tt); [exact G|].
  apply done_bind.
  { unfold prep_skylevels. rewrite bind_get. destruct S as [->|[-> S]]; [eexists; exists tt; reflexivity|]. apply (done_lift _ cut); [exact S|apply done_up2]. }
  intros ea [] Ha. assert (A : exists x, ea = mkEnv (set_q_cutoff (Some x) (e2 e)) (e1 e) (e_dpa e) (e_reg e) (e_k e)).
  { unfold prep_skylevels in Ha. rewrite bind_get in Ha. destruct S as [Sc|[Sc S]]; rewrite Sc in Ha.
    - injection Ha as <-. exists cut. destruct e as [s t d r k]. destruct s. cbn in *. now subst.
    - rewrite S in Ha. rewrite (bind_lift _ cut) in Ha by reflexivity. rewrite up2_eq in Ha. injection Ha as <-. eauto. }
  destruct A as (x & ->). clear Ha. apply done_bind.
  { unfold prep_derived. rewrite bind_get. apply (done_lift _ wave); [cbn [e2]; change (q_wave (set_q_cutoff (Some x) (e2 e))) with (q_wave (e2 e)); now rewrite W|].
    rewrite bind_up2. cbn [e2]. destruct (q_lam0 _); [eexists; exists tt; reflexivity|apply done_up2]. }
  intros eb [] Hb. assert (Fb : q_flux (e2 eb) = Some fx).
  { unfold prep_derived in Hb. rewrite bind_get in Hb. liftin Hb. rewrite bind_up2 in Hb. cbn [e2] in Hb. destruct (q_lam0 _) in Hb.
    - injection Hb as <-. exact F.
    - rewrite up2_eq in Hb. injection Hb as <-. exact F. }
  rewrite (ensure_run _ fx Fb). eexists. exists tt. reflexivity.
Qed.

Lemma set_slice_length {A} (l : list A) a b v : length (set_slice l a b v) = length l.
Proof.
  unfold set_slice, mapi. generalize 0%nat. generalize (slice_bound (length l) a), (slice_bound (length l) b). intros x y k. revert k.
  induction l as [|z l IH]; intros k; [reflexivity|]. cbn. now rewrite IH.
Qed.
Lemma mask_edges_length n m k : length (mask_edges_1D n m k) = length m.
Proof.
  unfold mask_edges_1D. destruct (where_ _ m); [reflexivity|]. cbv zeta.
  destruct (_ <? _)%Z; destruct (_ <? _)%Z; rewrite ?set_slice_length; reflexivity.
Qed.

(** What the 1-D spectrum looks like after the masks. *)
Definition has_1D (c : cfg) (t : option sp1) (p : nat) : Prop := good_1D c t p /\ exists sp, t = Some sp /\ s_mask sp <> None.

Lemma masks_done c e wave fx er m w n : arrays2 (e2 e) wave fx er m w -> rows fx = n -> (1 <= n)%nat -> (1 <= length wave)%nat ->
  (g_nocont c = true \/ good_1D c (e1 e) (length wave)) ->
  exists e', cont_masks c e = (e', Ok tt) /\ (g_nocont c = true \/ has_1D c (e1 e') (length wave)).
Proof.
  intros (W & O & F & E & M & G & S1 & S2 & S3 & S4) Rn N1 N2 T. rewrite Rn in *.
  unfold cont_masks. rewrite bind_get. cbv zeta. rewrite F, E, M, G.
  rewrite (bind_lift _ fx) by reflexivity. rewrite (bind_lift _ er) by reflexivity.
  destruct (missing_2D fx er (Some w) m) as (ma & Hma & Ra & Ca & _).
  { lia. } { rewrite (proj2 S1). exact N2. } { apply shape_eqb_true. destruct S1, S2. split; congruence. }
  { intros w' X. injection X as <-. apply shape_eqb_true. destruct S1, S4. split; congruence. }
  { apply shape_eqb_true. destruct S1, S3. split; congruence. }
  rewrite (bind_lift _ _ _ _ Hma). rewrite bind_write_mask. cbv beta. fold (masks_1D c ma).
  assert (Sa : shape ma n (length wave)) by (destruct S1; split; congruence).
  destruct e as [s t d r k]. cbn [e2 e1 e_dpa e_reg e_k] in *.
  set (ea := mkEnv (set_q_mask (Some ma) s) t d r _).
  assert (X : exists eb m2, masks_1D c ma ea = (eb, Ok m2) /\ shape m2 n (length wave) /\ (g_nocont c = true \/ has_1D c (e1 eb) (length wave))).
  { unfold masks_1D. destruct (g_nocont c) eqn:Nc; [exists ea, ma; split; [reflexivity|auto]|].
    destruct T as [T|(sp & w1 & f1 & r1 & -> & T1 & T2 & T3 & T4 & T5 & T6 & T7 & T8 & T9)]; [discriminate|].
    rewrite bind_get. change (e1 ea) with (Some sp). rewrite (bind_lift _ sp) by reflexivity. rewrite T2, T3.
    rewrite (bind_lift _ f1) by reflexivity. rewrite (bind_lift _ r1) by reflexivity.
    destruct (missing_1D f1 r1 None (s_mask sp) false) as (m1 & Hm1 & L1 & _); [lia|lia|discriminate|intros mm Hmm; rewrite T5; now apply T7|].
    rewrite (bind_lift _ _ _ _ Hm1). rewrite bind_write_mask1. cbv beta zeta. rewrite bind_write_mask1. cbv beta.
    set (m1e := mask_edges_1D (length f1) m1 10).
    assert (L2 : length m1e = length wave) by (unfold m1e; rewrite mask_edges_length; lia).
    assert (H2 : exists m2, mask_spec2D_from_1D ma m1e = Ok m2).
    { unfold mask_spec2D_from_1D. replace (forallb _ _) with true; [eauto|]. symmetry. apply forallb_forall. intros x Hx. apply where_lt in Hx. apply Nat.ltb_lt. rewrite (proj2 Sa). lia. }
    destruct H2 as (m2 & Hm2). rewrite (bind_lift _ _ _ _ Hm2). rewrite bind_write_mask. cbv beta.
    eexists. exists m2. split; [reflexivity|]. split; [destruct (from1D_below _ _ _ _ _ Sa Hm2) as [Sb _]; exact Sb|]. right. cbn [e1 option_map ea].
    split.
    - exists (set_s_mask m1e (set_s_mask m1 sp)), w1, f1, r1. split; [reflexivity|]. do 3 (split; [assumption|]). do 3 (split; [assumption|]).
      split; [|split; assumption]. cbn. intros mm Hmm. injection Hmm as <-. exact L2.
    - eexists. split; [reflexivity|]. discriminate. }
  destruct X as (eb & m2 & Hb & Sb & Tb). rewrite (bind_ok _ _ _ _ _ Hb). rewrite bind_write_flux. cbv beta zeta. rewrite bind_write_err. cbv beta.
  rewrite (bind_lift _ tt).
  2:{ replace (shape_eqb _ _) with true; [reflexivity|]. symmetry. apply shape_eqb_true. destruct (nan_mask_shape er m2 (Fin (-99)) true n (length wave) S2), Sb. split; congruence. }
  rewrite up2_eq. cbn [e1]. eexists. split; [reflexivity|]. exact Tb.
Qed.

Lemma some_unmasked_ok m wh : (forall k, In k wh -> (k < length m)%nat) -> wh <> [] -> exists b, some_unmasked m wh = Ok b.
Proof.
  intros B N. unfold some_unmasked. rewrite (take_map NaN) by exact B. cbn [bind]. destruct wh as [|k wh]; [congruence|]. cbn [map np_max bind]. eauto.
Qed.

Lemma fit1_done c wl wr e wave cut md : q_obs (e2 e) = Some wave -> has_1D c (e1 e) (length wave) -> q_cutoff (e2 e) = Some cut -> q_median (e2 e) = Some md ->
  (forall k, In k wl -> (k < length wave)%nat) -> (forall k, In k wr -> (k < length wave)%nat) ->
  exists e' a b xs, cont_fit1 c wl wr e = (e', Ok (Fin a, Fin b, xs)) /\ has_1D c (e1 e') (length wave).
Proof.
  intros O [(sp & w1 & f1 & r1 & E1 & T1 & T2 & T3 & T4 & T5 & T6 & T7 & T8 & T9) (sp' & E1' & Tm)] Cu Md Bl Br.
  assert (sp' = sp) by congruence. subst sp'. destruct (s_mask sp) as [m1|] eqn:Em; [|congruence]. assert (Lm : length m1 = length wave) by now apply T7.
  destruct e as [s t d r k]. cbn [e2 e1 e_dpa e_reg e_k] in *. subst t.
  unfold cont_fit1. rewrite bind_get. cbv zeta. cbn [e2 e1]. rewrite O, Cu, Md. rewrite (bind_lift _ wave) by reflexivity.
  rewrite (bind_lift _ _ _ _ (take_map NaN wave wl Bl)). rewrite (bind_lift _ _ _ _ (take_map NaN wave wr Br)).
  rewrite (bind_lift _ sp) by reflexivity. rewrite T3, Em, T2. rewrite (bind_lift _ r1) by reflexivity. rewrite (bind_lift _ m1) by reflexivity.
  rewrite (bind_lift _ tt) by (rewrite (proj2 (Nat.eqb_eq (length r1) (length m1))) by lia; reflexivity).
  rewrite (bind_lift _ cut) by reflexivity. cbn [wh_skylines_1D]. set (ns := (_, _)). rewrite (bind_lift _ ns) by reflexivity.
  set (mt := set_inds m1 (snd ns) (Fin 0)). assert (Lt : length mt = length wave) by (unfold mt; now rewrite set_inds_length).
  rewrite bind_write_mask1. cbv beta.
  assert (V : exists v, match wl, wr with _ :: _, _ :: _ => do a <- some_unmasked mt wl; do b <- some_unmasked mt wr; Ok (a && b) | _, _ => Ok false end = Ok v).
  { destruct wl as [|x wl]; [eauto|]. destruct wr as [|y wr]; [eauto|].
    destruct (some_unmasked_ok mt (x :: wl)) as (b1 & ->); [intros k0 Hk; rewrite Lt; now apply Bl|discriminate|]. cbn [bind].
    destruct (some_unmasked_ok mt (y :: wr)) as (b2 & ->); [intros k0 Hk; rewrite Lt; now apply Br|discriminate|]. cbn [bind]. eauto. }
  destruct V as (v & V). rewrite (bind_lift _ _ _ _ V). rewrite (bind_lift _ f1) by reflexivity.
  assert (Bt : forall l : list fl, length l = length wave -> forall wh, (forall k, In k wh -> (k < length wave)%nat) -> take l wh = Ok (map (fun k => nth k l NaN) wh)).
  { intros l Ll wh Bw. apply take_map. rewrite Ll. exact Bw. }
  rewrite (bind_lift _ _ _ _ (Bt f1 T5 wl Bl)), (bind_lift _ _ _ _ (Bt f1 T5 wr Br)), (bind_lift _ _ _ _ (Bt r1 T6 wl Bl)), (bind_lift _ _ _ _ (Bt r1 T6 wr Br)), (bind_lift _ _ _ _ (Bt mt Lt wl Bl)), (bind_lift _ _ _ _ (Bt mt Lt wr Br)).
  destruct (T8 v (map (fun k => nth k wave NaN) wl ++ map (fun k => nth k wave NaN) wr) (map (fun k => nth k f1 NaN) wl ++ map (fun k => nth k f1 NaN) wr)
     (map (fun k => nth k r1 NaN) wl ++ map (fun k => nth k r1 NaN) wr) (map (fun k => nth k mt NaN) wl ++ map (fun k => nth k mt NaN) wr)) as (a & b & Hab).
  rewrite (bind_lift _ _ _ _ Hab). eexists. exists a, b. eexists. split; [reflexivity|]. cbn [e1 option_map]. split.
  - exists (set_s_mask mt sp), w1, f1, r1. split; [reflexivity|]. do 6 (split; [assumption|]). split; [|split; assumption]. cbn. intros mm Hmm. injection Hmm as <-. exact Lt.
  - eexists. split; [reflexivity|]. discriminate.
Qed.

Lemma row_at_ok a i wh p : cols a = p -> (forall k, In k wh -> (k < p)%nat) -> row_at a i wh = Ok (map (at2 a i) wh).
Proof. intros Hc B. unfold row_at. replace (forallb _ _) with true; [reflexivity|]. symmetry. apply forallb_forall. intros k Hk. apply Nat.ltb_lt. rewrite Hc. auto. Qed.

Lemma line_max a b wave : physical wave -> wave <> [] -> exists mx, np_max (line_at (Fin a) (Fin b) wave) = Ok mx /\ isfinite mx = true.
Proof.
  intros Ph N. unfold line_at. destruct wave as [|x0 wave]; [congruence|].
  set (f := fun x => fadd (fmul (Fin a) x) (Fin b)). exists (fmax1 (f x0) (map f wave)). split; [reflexivity|].
  assert (Fi : forall y, In y (f x0 :: map f wave) -> isfinite y = true).
  { change (f x0 :: map f wave) with (map f (x0 :: wave)). intros y Hy. apply in_map_iff in Hy. destruct Hy as (x & <- & Hx). destruct (Ph x Hx) as (r & -> & _). reflexivity. }
  destruct (fmax1_spec (f x0) (map f wave)) as [_ Q]. destruct Q as (_ & I & _).
  - intros I. apply Fi in I. discriminate.
  - now apply Fi.
Qed.

Lemma row_done Z c a b1 xs wl wr i e wave fx er m w ic ct n : inv Z (e2 e) wave fx er m w ic ct n -> physical wave -> wave <> [] ->
  (forall i a b x y e m, exists b', g_fitrow c i a b x y e m = Ok (Fin b')) ->
  (forall k, In k wl -> (k < length wave)%nat) -> (forall k, In k wr -> (k < length wave)%nat) ->
  exists e', cont_row c (Fin a) b1 xs wl wr i e = (e', Ok tt).
Proof.
  intros ((W & O & F & E & M & G & S1 & S2 & S3 & S4) & Rn & I & C & S5 & S6 & P) Ph Ne Fit Bl Br. rewrite Rn in *.
  unfold cont_row. rewrite bind_get. cbv zeta. rewrite I, E, M, C, F.
  rewrite (bind_lift _ ic) by reflexivity. rewrite (bind_lift _ er) by reflexivity. rewrite (bind_lift _ m) by reflexivity.
  rewrite (bind_lift _ ct) by reflexivity. rewrite (bind_lift _ fx) by reflexivity.
  rewrite (bind_lift _ _ _ _ (row_at_ok ic i wl _ (proj2 S5) Bl)), (bind_lift _ _ _ _ (row_at_ok ic i wr _ (proj2 S5) Br)),
    (bind_lift _ _ _ _ (row_at_ok er i wl _ (proj2 S2) Bl)), (bind_lift _ _ _ _ (row_at_ok er i wr _ (proj2 S2) Br)),
    (bind_lift _ _ _ _ (row_at_ok m i wl _ (proj2 S3) Bl)), (bind_lift _ _ _ _ (row_at_ok m i wr _ (proj2 S3) Br)).
  destruct (Fit i (Fin a) b1 xs (map (at2 ic i) wl ++ map (at2 ic i) wr) (map (at2 er i) wl ++ map (at2 er i) wr) (map (at2 m i) wl ++ map (at2 m i) wr)) as (b' & Hb).
  rewrite (bind_lift _ _ _ _ Hb). rewrite W. rewrite (bind_lift _ wave) by reflexivity.
  assert (Ll : length (line_at (Fin a) (Fin b') wave) = length wave) by (unfold line_at; apply map_length).
  rewrite (bind_lift _ tt) by (rewrite Ll, (proj2 S6), Nat.eqb_refl; reflexivity). rewrite bind_up2. cbv beta.
  destruct (line_max a b' wave Ph Ne) as (mx & Hm & Fm). rewrite (bind_lift _ _ _ _ Hm). rewrite (bind_lift _ tt) by (now rewrite Fm).
  rewrite (bind_lift _ tt) by (rewrite Ll, (proj2 S5), Nat.eqb_refl; reflexivity). rewrite (bind_lift _ tt) by (rewrite (proj2 S5), (proj2 S1), Nat.eqb_refl; reflexivity).
  unfold write_flux. rewrite bind_upk, up2_eq. eauto.
Qed.

Lemma rows_done Z c a b1 xs wl wr is : forall e wave fx er m w ic ct n, inv Z (e2 e) wave fx er m w ic ct n -> physical wave -> wave <> [] -> alias e fx er ->
  (forall i a b x y e m, exists b', g_fitrow c i a b x y e m = Ok (Fin b')) ->
  (forall k, In k wl -> (k < length wave)%nat) -> (forall k, In k wr -> (k < length wave)%nat) ->
  exists e', cont_rows c (Fin a) b1 xs wl wr is e = (e', Ok tt).
Proof.
  induction is as [|i is IH]; intros e wave fx er m w ic ct n I Ph Ne Al Fit Bl Br; [eexists; reflexivity|].
  cbn [cont_rows]. destruct (row_done Z c a b1 xs wl wr i e wave fx er m w ic ct n I Ph Ne Fit Bl Br) as (ea & Ha).
  rewrite (bind_ok _ _ _ _ _ Ha).
  destruct (row_inv _ _ _ _ _ _ _ _ _ _ _ _ _ _ _ _ _ _ I Ph Al Ha) as (fa & ca & a' & Ia & _ & Aa & _). eapply IH; eassumption.
Qed.

Lemma conttrim_done Z c e wf wave fx er m w ic ct n : inv Z (e2 e) wave fx er m w ic ct n -> (forall k, In k wf -> (k < length wave)%nat) ->
  (g_nocont c = true \/ has_1D c (e1 e) (length wave)) -> exists e', cont_trim c wf e = (e', Ok tt).
Proof.
  intros ((W & O & F & E & M & G & S1 & S2 & S3 & S4) & Rn & I & C & S5 & S6 & P) B T.
  destruct e as [s0 t0 d0 r0 k0]. cbn [e2 e1 e_dpa e_reg e_k] in *.
  unfold cont_trim. rewrite bind_get. cbn [e2 e1 e_dpa e_reg e_k]. cbv zeta. rewrite I, E, M, C, F, W, G.
  rewrite (bind_lift _ (map (fun k => nth k wave NaN) wf)) by (now apply take_o_ok). rewrite bu2.
  rewrite (bind_lift _ (trim_cols wf ic)) by (eapply take_cols_o_ok; [apply S5|exact B]). rewrite bu2.
  rewrite (bind_lift _ (trim_cols wf ct)) by (eapply take_cols_o_ok; [apply S6|exact B]). rewrite bu2.
  rewrite (bind_lift _ (trim_cols wf fx)) by (eapply take_cols_o_ok; [apply S1|exact B]). rewrite bu2.
  rewrite (bind_lift _ (trim_cols wf er)) by (eapply take_cols_o_ok; [apply S2|exact B]). rewrite bu2.
  rewrite (bind_lift _ (trim_cols wf m)) by (eapply take_cols_o_ok; [apply S3|exact B]). rewrite bu2.
  rewrite (bind_lift _ (trim_cols wf w)) by (eapply take_cols_o_ok; [apply S4|exact B]). rewrite bu2. rewrite buk.
  generalize (set_q_weight (Some (trim_cols wf w)) (set_q_mask (Some (trim_cols wf m)) (set_q_err (Some (trim_cols wf er)) (set_q_flux (Some (trim_cols wf fx)) (set_q_cont (Some (trim_cols wf ct)) (set_q_incl (Some (trim_cols wf ic)) (set_q_wave (Some (map (fun k : nat => nth k wave NaN) wf)) s0))))))). intros s1.
  destruct (g_nocont c) eqn:Nc.
  - rewrite bind_ret, !bu2. eexists. reflexivity.
  - destruct T as [T|[(sp & w1 & f1 & r1 & -> & T1 & T2 & T3 & T4 & T5 & T6 & T7 & _) (sp' & E1' & Tm)]]; [discriminate|]. assert (sp' = sp) by congruence. subst sp'.
    destruct (s_mask sp) as [m1|] eqn:Em; [|congruence]. assert (Lm := T7 m1 eq_refl).
    erewrite bind_ok.
    2:{ rewrite (bind_lift _ sp) by reflexivity. rewrite T1, T2, T3, Em.
        rewrite (bind_lift _ _ _ _ (take_o_ok w1 wf ltac:(rewrite T4; exact B))), (bind_lift _ _ _ _ (take_o_ok f1 wf ltac:(rewrite T5; exact B))),
          (bind_lift _ _ _ _ (take_o_ok r1 wf ltac:(rewrite T6; exact B))), (bind_lift _ _ _ _ (take_o_ok m1 wf ltac:(rewrite Lm; exact B))).
        rewrite bu1. reflexivity. }
    rewrite !bu2. eexists. reflexivity.
Qed.

Lemma subtract_done c e wave fx er m w n rf rl rm cut : arrays2 (e2 e) wave fx er m w -> rows fx = n -> physical wave -> (1 <= n)%nat -> (1 <= length wave)%nat ->
  (g_nocont c = true \/ good_1D c (e1 e) (length wave)) -> q_cutoff (e2 e) = Some cut ->
  (k_a2 (e_k e) = true -> k_flux (e_k e) = fx /\ k_err (e_k e) = er) ->
  get_range (q_rfull (e2 e)) (g_ffull c) = Ok rf -> get_range (q_rline (e2 e)) (g_fline c) = Ok rl -> get_range (q_rmline (e2 e)) (g_fmline c) = Ok rm ->
  exists e', subtract_continuum c e = (e', Ok tt).
Proof.
  intros A Rn Ph N1 N2 T Cu Al Hrf Hrl Hrm. unfold subtract_continuum.
  destruct (masks_done c e wave fx er m w n A Rn N1 N2 T) as (ea & Ha & Ta). rewrite (bind_ok _ _ _ _ _ Ha).
  destruct (masks_inv _ _ _ _ _ _ _ _ _ A Rn Ha) as (fa & ra & ma & Aa & Fl & _ & _ & Ra & Md & Da & Kk & Ka & _).
  destruct Aa as (W & O & F & E & M & G & S1 & S2 & S3 & S4). assert (Rfa : rows fa = n) by apply Fl. rewrite Rfa in *.
  destruct Ra as (Ra1 & Ra2 & Ra3 & Ra4 & Ra5 & Ra6 & Ra7 & Ra8 & Ra9 & Ra10 & Ra11).
  rewrite bind_get. cbv zeta. rewrite Ra6, Ra7, Ra8, W, F, O.
  rewrite (bind_lift _ _ _ _ Hrf). rewrite bind_up2. rewrite (bind_lift _ _ _ _ Hrl). rewrite bind_up2. rewrite (bind_lift _ _ _ _ Hrm). rewrite bind_up2.
  rewrite (bind_lift _ wave) by reflexivity. rewrite (bind_lift _ fa) by reflexivity. rewrite !bind_up2. rewrite (bind_lift _ wave) by reflexivity. cbv beta.
  cbn [e2 e1 e_dpa e_reg e_k]. rewrite Rfa, (proj2 S1). fold (zeros n (length wave)).
  set (wf := where_ (within (to_obs (g_z c) rf)) wave). assert (Bf : forall k, In k wf -> (k < length wave)%nat) by (intros k; apply where_lt).
  set (wl := where_ _ wave). assert (Bl : forall k, In k wl -> (k < length wave)%nat) by (intros k; apply where_lt).
  set (wr := where_ (fun x => fleb x _ && _) wave). assert (Br : forall k, In k wr -> (k < length wave)%nat) by (intros k; apply where_lt).
  clearbody wf wl wr.
  set (sb := set_q_cont _ _). set (eb := mkEnv sb _ _ _ _).
  assert (Ib : inv False (e2 eb) wave fa ra ma w fa (zeros n (length wave)) n).
  { split; [|split; [exact Rfa|split; [reflexivity|split; [reflexivity|split; [exact S1|split; [split; reflexivity|]]]]]].
    - split; [exact W|]. split; [exact O|]. split; [exact F|]. split; [exact E|]. split; [exact M|]. split; [exact G|].
      rewrite Rfa. split; [exact S1|]. split; [exact S2|]. split; [exact S3|]. exact S4.
    - intros i j Hi Hj. destruct Fl as (Fl1 & Fl2 & Fl3 & Fl4). destruct (Fl4 i j Hi Hj) as (X1 & X2 & _).
      split; [|split; [exact X1|split; [exact X2|split; [exact X1|tauto]]]].
      apply isfinite_Fin in X1. destruct X1 as (y & ->). cbn. f_equal. lra. }
  assert (Alb : alias eb fa ra) by (intros K; apply Ka; unfold eb in K; cbn [e_k] in K; congruence).
  assert (Tb : g_nocont c = true \/ has_1D c (e1 eb) (length wave)) by exact Ta.
  assert (Cb : q_cutoff (e2 eb) = Some cut) by exact (eq_trans Ra9 Cu).
  assert (Ob : q_obs (e2 eb) = Some wave) by exact O.
  destruct (q_median (e2 ea)) as [md|] eqn:Em; [|congruence]. assert (Mb : q_median (e2 eb) = Some md) by exact Em.
  clearbody eb. clear sb. clear - Ib Alb Tb Cb Ob Mb Ph N1 N2 Bf Bl Br.
  assert (Ne : wave <> []) by (destruct wave; [cbn in N2; lia|discriminate]).
  destruct (g_nocont c) eqn:Nc.
  - rewrite bind_ret. apply (conttrim_done False c eb wf wave fa ra ma w fa (zeros n (length wave)) n Ib Bf). now left.
  - destruct Tb as [Tb|Tb]; [discriminate|].
    destruct (fit1_done c wl wr eb wave cut md Ob Tb Cb Mb Bl Br) as (ec & a & b & xs & Hc & Tc).
    destruct (fit1_inv _ _ _ _ _ _ Hc) as (Y1 & Y2 & Y3 & Y4 & Y5).
    assert (Ic : inv False (e2 ec) wave fa ra ma w fa (zeros n (length wave)) n) by now rewrite Y1.
    assert (Alc : alias ec fa ra) by (intros K; rewrite Y3, Y4; apply Alb; congruence).
    assert (Fit : forall i a b x y e m, exists b', g_fitrow c i a b x y e m = Ok (Fin b')) by (destruct Tb as [(sp & w1 & f1 & r1 & _ & _ & _ & _ & _ & _ & _ & _ & _ & T9) _]; exact T9).
    destruct (rows_done False c a (Fin b) xs wl wr (seq 0 n) ec wave fa ra ma w fa (zeros n (length wave)) n Ic Ph Ne Alc Fit Bl Br) as (ed & Hd).
    erewrite bind_ok; [|rewrite (bind_ok _ _ _ _ _ Hc); cbn [fst snd]; exact Hd].
    destruct (rows_inv _ _ _ _ _ _ _ _ _ _ _ _ _ _ _ _ _ _ Ic Ph Alc Hd) as (fd & cd & Id & Rd & Ad & Md' & Dd & Od & _).
    eapply conttrim_done; [exact Id|exact Bf|]. right. rewrite Od. exact Tc.
Qed.

Lemma sky_done Z c e wave fx er m w ic ct n cut md : inv Z (e2 e) wave fx er m w ic ct n -> q_qual (e2 e) = None ->
  q_cutoff (e2 e) = Some (cut, true) -> q_median (e2 e) = Some md -> exists e', prep_sky c e = (e', Ok tt).
Proof.
  intros ((W & O & F & E & M & G & S1 & S2 & S3 & S4) & Rn & Hi & Hc & S5 & S6 & P) Q Cu Md.
  destruct e as [s t d r k]. cbn [e2 e1 e_dpa e_reg e_k] in *.
  unfold prep_sky. rewrite bind_get. cbn [e2]. rewrite Q, M.
  erewrite bind_ok; [|rewrite (bind_lift _ m) by reflexivity; apply up2_eq]. rewrite bind_get. cbn [e2 e1 e_dpa e_reg e_k]. cbv zeta.
  change (q_qual (set_q_qual (Some m) s)) with (Some m). rewrite (bind_lift _ m) by reflexivity.
  change (q_flux (set_q_qual (Some m) s)) with (q_flux s). change (q_err (set_q_qual (Some m) s)) with (q_err s).
  change (q_cutoff (set_q_qual (Some m) s)) with (q_cutoff s). change (q_median (set_q_qual (Some m) s)) with (q_median s).
  rewrite F, E, Cu, Md. rewrite (bind_lift _ fx) by reflexivity. rewrite (bind_lift _ er) by reflexivity. rewrite (bind_lift _ (cut, true)) by reflexivity.
  unfold mask_skylines_2D. cbn [fst snd negb]. replace (shape_eqb er m) with true by (symmetry; apply shape_eqb_true; destruct S2, S3; split; congruence).
  cbn [negb wh_skylines_1D bind]. set (x := (_, _, _)). rewrite (bind_lift _ x) by reflexivity. rewrite !bu2, up2_eq. eauto.
Qed.

Lemma low_done Z c e wave fx er m w ic ct n ql sk : inv Z (e2 e) wave fx er m w ic ct n ->
  q_qual (e2 e) = Some ql -> shape ql n (length wave) -> q_sky (e2 e) = Some sk -> shape sk n (length wave) -> exists e', prep_low c e = (e', Ok tt).
Proof.
  intros ((W & O & F & E & M & G & S1 & S2 & S3 & S4) & Rn & Hi & Hc & S5 & S6 & P) Q Sq K Sk. rewrite Rn in *.
  destruct e as [s t d r k]. cbn [e2 e1 e_dpa e_reg e_k] in *.
  unfold prep_low. rewrite bind_get. cbn [e2 e1 e_dpa e_reg e_k]. cbv zeta. rewrite Q, F, E, K, M.
  rewrite (bind_lift _ ql) by reflexivity. rewrite (bind_lift _ fx) by reflexivity. rewrite (bind_lift _ er) by reflexivity. rewrite (bind_lift _ sk) by reflexivity.
  destruct (mask_rows_ok fx er ql sk (g_cut c)) as (lw & low & H).
  { apply shape_eqb_true. destruct S1, Sk. split; congruence. } { apply shape_eqb_true. destruct S2, Sk. split; congruence. } { destruct Sq. congruence. }
  rewrite (bind_lift _ _ _ _ H). cbn [fst snd]. rewrite !bu2. rewrite (bind_lift _ m) by reflexivity.
  apply mask_rows_spec in H. destruct H as (_ & Rl & Cl & _). assert (Sl : shape lw n (length wave)) by (destruct Sq; split; congruence).
  rewrite (bind_lift _ _ _ _ (times2_ok m lw n (length wave) S3 Sl)). rewrite up2_eq. eauto.
Qed.

Lemma spatial_done Z c e wave fx er m w ic ct n ql sk lw y : inv Z (e2 e) wave fx er m w ic ct n ->
  ready (e2 e) n (length wave) [fx; er; ic; ct; w; m; ql; sk; lw] -> q_ypos (e2 e) = Some y -> (forall a b w y, exists v, g_vert c a b w y = Ok v) ->
  exists e', prep_spatial c e = (e', Ok tt).
Proof.
  intros I R Y V. destruct e as [s t d r k]. cbn [e2] in *. destruct I as ((W & O & _) & _).
  destruct (V (mk2 n (length wave) (fun i j => fmul (at2 fx i j) (at2 sk i j))) (mk2 n (length wave) (fun i j => fmul (at2 er i j) (at2 sk i j))) wave (Some y)) as (v & Hv).
  destruct (spatial_run (g_dither c) (g_cut c) (g_vert c) s t n (length wave) fx er ic ct w m ql sk lw wave y v R O Y Hv) as (low & _ & Run).
  unfold prep_spatial. cbn [e2 e1 e_dpa e_reg e_k]. rewrite Run. eauto.
Qed.

(** Limits that differ are accepted. *)
Lemma bounds_ok a b : / 10 ^ 13 * (1 + Rabs b) < Rabs (a - b) -> lm_bounds (Fin a) (Fin b) = Ok tt.
Proof. intros H. unfold lm_bounds, lm_close. rewrite (proj2 (Rleb_false _ _)) by lra. reflexivity. Qed.
Lemma row_bounds_ok n : (2 <= n)%nat -> lm_bounds (Fin 0) (Fin (INR (n - 1))) = Ok tt.
Proof.
  intros H. apply bounds_ok. assert (1 <= INR (n - 1)) by (apply (le_INR 1); lia).
  rewrite Rminus_0_l, Rabs_Ropp, (Rabs_right (INR (n - 1))) by lra. assert (/ 10 ^ 13 <= 1 / 4) by lra. nra.
Qed.
Lemma fmin1_low l : forall a, (forall x, In x (a :: l) -> exists r, x = Fin r) ->
  exists m, fmin1 a l = Fin m /\ In (Fin m) (a :: l) /\ forall r, In (Fin r) (a :: l) -> m <= r.
Proof.
  induction l as [|b l IH]; intros a H; cbn [fmin1].
  - destruct (H a) as [r ->]; [now left|]. exists r. split; [reflexivity|]. split; [now left|]. intros r' [E|[]]. inversion E. lra.
  - destruct (H a) as [ra ->]; [now left|]. destruct (H b) as [rb ->]; [right; now left|]. cbn [isnan fltb].
    destruct (Rltb rb ra) eqn:E.
    + apply Rltb_true in E. destruct (IH (Fin rb)) as (m & F & I & L); [intros x Hx; apply H; now right|].
      exists m. split; [exact F|]. split; [now right|]. intros r [Er|Er]; [inversion Er; subst; specialize (L rb (or_introl eq_refl)); lra|auto].
    + apply Rltb_false in E. destruct (IH (Fin ra)) as (m & F & I & L).
      { intros x [<-|Hx]; [eauto|]. apply H. right. now right. }
      exists m. split; [exact F|]. split; [destruct I as [I|I]; [now left|right; now right]|].
      intros r [Er|[Er|Er]]; [apply L; now left| |apply L; now right].
      inversion Er; subst. specialize (L ra (or_introl eq_refl)). lra.
Qed.
Lemma fmax1_high l : forall a, (forall x, In x (a :: l) -> exists r, x = Fin r) ->
  exists m, fmax1 a l = Fin m /\ In (Fin m) (a :: l) /\ forall r, In (Fin r) (a :: l) -> r <= m.
Proof.
  intros a H. destruct (fmax1_spec a l) as [_ S]. destruct S as (N & I & L).
  { intros X. destruct (H _ X) as [? ?]. discriminate. }
  destruct (H _ I) as [m E]. exists m. split; [exact E|]. rewrite E in *. split; [exact I|].
  intros r Hr. specialize (L _ Hr). cbn [fleb] in L. now apply Rleb_true in L.
Qed.
Lemma wave_bounds_ok wave x y mn mx : physical wave -> In (Fin x) wave -> In (Fin y) wave -> x + 4 / 10 ^ 13 * (1 + y) < y ->
  np_min wave = Ok mn -> np_max wave = Ok mx ->
  let q := fdiv (fsub mx mn) (Fin 4) in lm_bounds (fadd mn q) (fsub mx q) = Ok tt.
Proof.
  intros P Hx Hy Lt Mn Mx. destruct wave as [|a l]; [destruct Hx|]. cbn [np_min np_max] in Mn, Mx.
  assert (Pf : forall z, In z (a :: l) -> exists r, z = Fin r) by (intros z Hz; destruct (P z Hz) as (r & E & _); eauto).
  destruct (fmin1_low l a Pf) as (m & E1 & I1 & L1). destruct (fmax1_high l a Pf) as (M & E2 & I2 & L2).
  assert (mn = Fin m) by congruence. assert (mx = Fin M) by congruence. subst mn mx.
  specialize (L1 x Hx). specialize (L2 y Hy). destruct (P _ I1) as (m' & Em & Pm). inversion Em; subst m'. clear Em.
  cbv zeta. unfold fsub. cbn [fneg fadd]. rewrite PKernels.fdiv_Fin by lra. cbn [fneg fadd]. apply bounds_ok.
  rewrite (Rabs_right (M + - ((M + - m) / 4))) by lra. rewrite Rabs_left1 by lra.
  set (t := / 10 ^ 13) in *. assert (Et : 4 / 10 ^ 13 = 4 * t) by (unfold t; lra). assert (Pt : 0 < t < 1 / 10) by (unfold t; lra). clearbody t.
  rewrite Et in Lt. nra.
Qed.

Lemma end_done Z c e wave fx er m w ic ct n ql sk lw d : inv Z (e2 e) wave fx er m w ic ct n -> ready (e2 e) n (length wave) [fx; er; ic; ct; w; m; ql; sk; lw] ->
  wave <> [] -> q_m0 (e2 e) <> None -> q_ypos (e2 e) <> None -> q_mlims (e2 e) = Some n -> q_lam0 (e2 e) <> None ->
  (forall i, In i (q_low_inds (e2 e)) -> (i < n)%nat) -> g_wt c <> OtherWeighting -> g_dpa c = Ok d ->
  lm_bounds (Fin 0) (Fin (INR (n - 1))) = Ok tt ->
  (forall mn mx, np_min wave = Ok mn -> np_max wave = Ok mx -> lm_bounds (fadd mn (fdiv (fsub mx mn) (Fin 4))) (fsub mx (fdiv (fsub mx mn) (Fin 4))) = Ok tt) ->
  exists e', prep_end c e = (e', Ok tt).
Proof.
  intros ((W & O & F & E & M & G & S1 & S2 & S3 & S4) & Rn & Hi & Hc & S5 & S6 & P) R Ne N1 N2 N3 N4 Lo Wt Dp LB WB.
  assert (K : q_sky (e2 e) = Some sk). { destruct R as [R _]. cbn [map] in R. congruence. }
  unfold prep_end.
  assert (X : exists ea, prep_weights c e = (ea, Ok tt)).
  { unfold prep_weights. rewrite bind_get. cbv zeta. rewrite F, E, K, Hi. rewrite (bind_lift _ fx) by reflexivity. rewrite (bind_lift _ er) by reflexivity.
    rewrite (bind_lift _ sk) by reflexivity. rewrite (bind_lift _ ic) by reflexivity.
    assert (Y : exists p, fit_weights (g_wt c) fx er sk (q_low_inds (e2 e)) (g_fit3 c ic er sk) = Ok p).
    { unfold fit_weights. replace (forallb _ _) with true by (symmetry; apply forallb_forall; intros i Hl; apply Nat.ltb_lt; rewrite Rn; auto).
      destruct (g_wt c); cbn [negb bind]; eauto; [|congruence]. destruct (g_fit3 c ic er sk) as [[? ?] ?]. cbn [bind]. eauto. }
    destruct Y as (p & Hp). rewrite (bind_lift _ _ _ _ Hp). rewrite bind_up2, up2_eq. eauto. }
  destruct X as (ea & Ha). rewrite (bind_ok _ _ _ _ _ Ha). destruct (weights_inv _ _ _ _ F Ha) as (p & Mt & -> & _ & _). clear Ha.
  assert (X : exists eb, prep_dpa c (mkEnv (set_q_wmat (Some Mt) (set_q_wprof (Some p) (e2 e))) (e1 e) (e_dpa e) (e_reg e) (e_k e)) = (eb, Ok tt)).
  { unfold prep_dpa. rewrite bind_get. cbn [e_dpa]. destruct (e_dpa e); [eexists; reflexivity|]. rewrite (bind_lift _ _ _ _ Dp). eexists. reflexivity. }
  destruct X as (eb & Hb). rewrite (bind_ok _ _ _ _ _ Hb). destruct (dpa_inv _ _ _ Hb) as (d' & -> & _). clear Hb. cbn [e2 e1 e_reg e_k].
  apply done_unit. apply done_bind; [|intros; apply done_up2].
  unfold prep_m0_lam0. rewrite bind_get. cbn [e2]. cbv zeta.
  apply (done_lift _ n); [exact (f_equal (need TypeError) N3)|]. apply (done_lift _ fx); [exact (f_equal (need TypeError) F)|].
  apply (done_lift _ wave); [exact (f_equal (need AttributeError) W)|].
  destruct (q_m0 (e2 e)) as [m0|] eqn:E1; [|congruence]. apply (done_lift _ m0); [exact (f_equal (need TypeError) E1)|].
  destruct (q_ypos (e2 e)) as [y|] eqn:E2; [|congruence]. apply (done_lift _ y); [exact (f_equal (need TypeError) E2)|].
  destruct (q_lam0 (e2 e)) as [l0|] eqn:E3; [|congruence]. apply (done_lift _ l0); [exact (f_equal (need TypeError) E3)|].
  destruct (setdiff_range _ _); [unfold done; eexists; exists tt; reflexivity|]. destruct (q_wh_nosky _); [unfold done; eexists; exists tt; reflexivity|].
  apply (done_lift _ tt); [exact LB|]. destruct wave as [|x0 wv]; [congruence|]. cbn [np_min np_max]. apply (done_lift _ (fmin1 x0 wv)); [reflexivity|]. apply (done_lift _ (fmax1 x0 wv)); [reflexivity|].
  apply (done_lift _ tt); [apply (WB _ _ eq_refl eq_refl)|].
  unfold done; eexists; exists tt; reflexivity.
Qed.

Lemma inv_weaken Z s wave fx er m w ic ct n : inv Z s wave fx er m w ic ct n -> inv False s wave fx er m w ic ct n.
Proof. intros (A & Rn & Hi & Hc & S5 & S6 & P). do 6 (split; [assumption|]). intros i j Hi' Hj. destruct (P i j Hi' Hj) as (? & ? & ? & ? & ?). tauto. Qed.

(** Everything before the spatial trim. *)
Lemma prep_prefix c e wave fx er n fr lr : set_up c e wave fx er n fr lr -> shared e fx er ->
  exists e4 wc f4 r4 m4 w4 i4 c4 ql sk lw a, prep_body c e = bindS (prep_spatial c) (fun _ => prep_end c) e4 /\
    inv False (e2 e4) wc f4 r4 m4 w4 i4 c4 n /\ ready (e2 e4) n (length wc) [f4; r4; i4; c4; w4; m4; ql; sk; lw] /\
    (forall i, (i < n)%nat -> line_row a wc c4 i) /\ wc <> [] /\ q_lam0 (e2 e4) <> None /\ q_ypos (e2 e4) = q_ypos (e2 e) /\ q_prepared (e2 e4) = false /\
    (forall x, In x wc <-> In x wave /\ inside (to_obs (g_z c) fr) x /\ inside (to_obs (g_z c) lr) x).
Proof.
  intros (R & Ph & N1 & Gl & (cut & Cu) & Fr & Lr & (mr & Mr) & (x & fo & lo & Ix & Af & Alo & If & Il) & T & V & Wt & (d & Dp)) Al.
  apply asked_to_obs in Af, Alo. subst fo lo. unfold shared in Al.
  assert (N2 : (1 <= length wave)%nat) by (destruct wave; [destruct Ix|cbn; lia]).
  rewrite body_parts.
  destruct (start_done _ _ _ _ _ _ _ R Gl Cu) as (e1' & [] & H1). rewrite (bind_ok _ _ _ _ _ H1).
  destruct (start_inv _ _ _ _ _ _ _ R H1) as (m & w & A & Rn & Em & Ew & Q & Yp & L0 & Pr & One & Kk & Rfl & Rli & Rml & Dpa & (cu & Cu1 & Cu2)). clear H1.
  assert (Cu' : cu = (cut, true)) by (destruct Cu as [Cu|[Cu Cs]]; rewrite Cu in Cu2; congruence). subst cu. clear Cu2.
  rewrite <- Kk in Al. rewrite <- One in T.
  assert (Grf : get_range (q_rfull (e2 e1')) (g_ffull c) = Ok fr) by (rewrite Rfl; now apply setting_range).
  assert (Grl : get_range (q_rline (e2 e1')) (g_fline c) = Ok lr) by (rewrite Rli; now apply setting_range).
  assert (Grm : get_range (q_rmline (e2 e1')) (g_fmline c) = Ok mr) by (rewrite Rml; now apply setting_range).
  destruct (subtract_done c e1' wave fx er m w n fr lr mr _ A Rn Ph N1 N2 T Cu1 Al Grf Grl Grm) as (e2' & H1). rewrite (bind_ok _ _ _ _ _ H1).
  destruct (subtract_inv _ _ _ _ _ _ _ _ _ A Rn Ph Al H1) as (wb & fb & rb & mb & wtb & ic & ct & a & ks & rf & rl & I0 & _ & Phb & Ewb & Grf' & Kf & Grl' & Lb & Qb & Yb & Rb & Cb & L0b & Prb & Mb & Db & Ka & _). clear H1.
  assert (I := inv_weaken _ _ _ _ _ _ _ _ _ _ I0). clear I0.
  assert (rf = fr) by congruence. assert (rl = lr) by congruence. subst rf rl.
  assert (Kl := kept_where (to_obs (g_z c) lr) wb). set (ks2 := where_ _ wb) in Kl.
  assert (Nk : ks2 <> []).
  { intros Ek. assert (X : In x (map (fun k => nth k wb NaN) ks2)); [|rewrite Ek in X; exact X]. apply (picked_In _ _ _ Kl). split; [|exact Il].
    rewrite Ewb. apply (picked_In _ _ _ Kf). auto. }
  assert (S3 : exists e3', bindS (prep_trim c) (fun _ => prep_sky c) e2' = (e3', Ok tt)).
  { destruct e2' as [s t dd r k]. cbn [e2 e1 e_dpa e_reg e_k] in *. rewrite (bind_ok _ _ _ _ _ (prep_trim_run c lr s t dd r k wb fb rb mb wtb ic ct n ks2 _ I Rb Kl Nk)).
    assert (I2 := trimmed_inv _ (g_z c) lr (to_obs (g_z c) lr) wb ks2 fb rb mb wtb ic ct n s I (fun k => kept_bound _ _ _ k Kl)).
    destruct (trimmed_kept (g_z c) lr (to_obs (g_z c) lr) (map (fun k => nth k wb NaN) ks2) ks2 fb rb mb wtb ic ct s) as [(K1 & K2 & K3 & K4 & K5) Q2].
    destruct (q_median s) as [md|] eqn:Emd; [|congruence].
    eapply sky_done; cbn [e2]; [exact I2|exact (eq_trans Q2 (eq_trans Qb Q))|rewrite K2, Cb; exact Cu1|exact K4]. }
  destruct S3 as (e3' & H1). rewrite (bind_ok _ _ _ _ _ H1).
  destruct (trim_sky_inv _ _ _ _ _ _ _ _ _ _ _ _ _ I Rb (eq_trans Qb Q) H1) as (ks3 & sk & Nk3 & Kl3 & Bk & I3 & Q3 & Sk & Ss & (KF1 & KF2 & KF3 & KF4 & KF5) & O3 & D3 & K3). clear H1.
  set (wc := map (fun k => nth k wb NaN) ks3) in *.
  assert (S3q : shape (trim_cols ks3 mb) n (length wc)). { destruct I3 as ((_ & _ & _ & _ & _ & _ & _ & _ & X & _) & Rx & _). rewrite Rx in X. exact X. }
  destruct (low_done _ c _ _ _ _ _ _ _ _ _ _ _ I3 Q3 S3q Sk Ss) as (e4' & H1). rewrite (bind_ok _ _ _ _ _ H1).
  destruct (low_inv _ _ _ _ _ _ _ _ _ _ _ _ _ _ I3 Q3 S3q Sk Ss H1) as (m4 & lw & I4 & R4 & (KG1 & KG2 & KG3 & KG4 & KG5) & O4 & D4 & K4 & _). clear H1.
  assert (L4 : forall i, (i < n)%nat -> line_row a wc (trim_cols ks3 ct) i) by (intros i Hi; apply line_cols; auto).
  exists e4', wc, (trim_cols ks3 fb), (trim_cols ks3 rb), m4, (trim_cols ks3 wtb), (trim_cols ks3 ic), (trim_cols ks3 ct), (trim_cols ks3 mb), sk, lw, a.
  split; [reflexivity|]. split; [exact I4|]. split; [exact R4|]. split; [exact L4|].
  split; [unfold wc; destruct ks3; [congruence|discriminate]|]. split; [rewrite KG3, KF3, L0b; exact L0|]. split; [congruence|]. split; [congruence|].
  intros z. unfold wc. rewrite (picked_In _ _ _ Kl3). rewrite Ewb, (picked_In _ _ _ Kf). tauto.
Qed.

Lemma prep_succeeds c e wave fx er n fr lr : preparable c e wave fx er n fr lr -> shared e fx er -> exists e', fit_prep c e = (e', Ok tt).
Proof.
  intros (S & Y & TR & TW) Al. destruct (prep_prefix _ _ _ _ _ _ _ _ S Al) as (e4 & wc & f4 & r4 & m4 & w4 & i4 & c4 & ql & sk & lw & a & B & I4 & R4 & L4 & Ne & L0 & Y4 & Pr & Wc).
  destruct S as (R & Ph & _ & _ & _ & _ & _ & _ & _ & _ & V & Wt & (d & Dp)).
  assert (Np : q_prepared (e2 e) = false) by apply R.
  unfold fit_prep. rewrite bind_get, Np. apply done_unit. apply done_bind; [|intros e' [] _; unfold done; eexists; exists tt; reflexivity].
  unfold done. rewrite B. destruct (q_ypos (e2 e)) as [y|] eqn:Ey; [|congruence].
  destruct (spatial_done _ c _ _ _ _ _ _ _ _ _ _ _ _ _ I4 R4 Y4 V) as (e5' & H1). rewrite (bind_ok _ _ _ _ _ H1).
  destruct (spatial_inv _ _ _ _ _ _ _ _ _ _ _ _ a _ _ _ I4 R4 L4 H1) as (n' & f5 & r5 & m5 & w5 & i5 & c5 & q5 & s5 & l5 & y5 & v & I5 & R5 & L5 & _ & Y5 & M5 & N5 & L05 & Lo5 & _ & _ & _ & En & Ev). clear H1.
  destruct (end_done _ c e5' _ _ _ _ _ _ _ _ _ _ _ d I5 R5) as (e6' & H1); auto.
  { rewrite L05. exact L0. }
  { apply row_bounds_ok. rewrite En. unfold slice_rows. cbn [rows].
    assert (Rf : rows f4 = n) by (destruct I4 as (_ & Rn & _); exact Rn). rewrite Rf.
    unfold two_rows in TR. unfold low_ind, high_ind. destruct (g_dither c).
    - specialize (TR _ _ _ _ _ Ev). rewrite !slice_bound_nonneg by lia. lia.
    - rewrite !slice_bound_nonneg by lia. lia. }
  { destruct TW as (x & z & fo & lo & Ix & Iz & Af & Alo & A1 & A2 & A3 & A4 & Lt). apply asked_to_obs in Af, Alo. subst fo lo.
    intros mn mx Mn Mx. apply (wave_bounds_ok wc x z); auto.
    - intros u Hu. apply Wc in Hu. destruct R as (_ & _). apply Ph, Hu.
    - apply Wc. auto.
    - apply Wc. auto. }
  rewrite H1. exists e6', tt. reflexivity.
Qed.

(** Without a position the last step of the spatial trim fails, after the images have been cut. *)
Lemma prep_fails c e wave fx er n fr lr : set_up c e wave fx er n fr lr -> shared e fx er -> q_ypos (e2 e) = None -> g_dither c = false ->
  exists e' fx', fit_prep c e = (e', Err TypeError) /\ q_prepared (e2 e') = false /\ q_flux (e2 e') = Some fx' /\ rows fx' = (n - 1)%nat.
Proof.
  intros S Al Y D. destruct (prep_prefix _ _ _ _ _ _ _ _ S Al) as (e4 & wc & f4 & r4 & m4 & w4 & i4 & c4 & ql & sk & lw & a & B & I4 & R4 & L4 & Ne & L0 & Y4 & Pr & Wc).
  destruct S as (R & _ & N1 & _ & _ & _ & _ & _ & _ & _ & V & _).
  assert (Np : q_prepared (e2 e) = false) by apply R. rewrite Y in Y4.
  destruct I4 as ((W & O & _) & Rn & _).
  destruct e4 as [s t d r k]. cbn [e2] in *.
  destruct (V (mk2 n (length wc) (fun i j => fmul (at2 f4 i j) (at2 sk i j))) (mk2 n (length wc) (fun i j => fmul (at2 r4 i j) (at2 sk i j))) wc None) as (v & Hv).
  rewrite <- Y4 in Hv.
  destruct (spatial_run_gen (g_dither c) (g_cut c) (g_vert c) s t n (length wc) f4 r4 i4 c4 w4 m4 ql sk lw wc v R4 O Hv) as (low & _ & Run).
  rewrite Y4 in Run. unfold fit_prep. rewrite bind_get, Np.
  rewrite bind_err with (e := TypeError) (s' := mkEnv (fst (fst (trim_2D_spatial (g_dither c) (g_cut c) (g_vert c) (s, t)))) (snd (fst (trim_2D_spatial (g_dither c) (g_cut c) (g_vert c) (s, t)))) d r k).
  2:{ rewrite B. apply bind_err. unfold prep_spatial. cbn [e2 e1 e_dpa e_reg e_k]. rewrite Run. reflexivity. }
  rewrite Run. do 2 eexists. split; [reflexivity|]. split; [exact Pr|]. split; [reflexivity|].
  rewrite D. unfold low_ind, high_ind, slice_rows. cbn [rows]. rewrite !slice_bound_nonneg by lia. rewrite Rn. lia.
Qed.
