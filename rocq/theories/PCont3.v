(* What the continuum fits are given, and what is done with their answers. *)
From Coq Require Import Reals List Bool Arith ZArith Lra Lia.
From Verif Require Import PyFloat PyBase Arr PyNum PKernels PMask MMask SMask MTrim STrim PTrim MPrep SPrep SCont PPrep PPrep2 PCont PCont2.
Import ListNotations.
Local Open Scope R_scope.

Lemma fmax1_pos l : forall a, isnan a = false -> (forall x, In x l -> isnan x = false) ->
  (fltb (Fin 0) (fmax1 a l) = true <-> fltb (Fin 0) a = true \/ exists x, In x l /\ fltb (Fin 0) x = true).
Proof.
  induction l as [|b l IH]; intros a Ha Hl; cbn [fmax1].
  - split; [now left|]. intros [H|(x & [] & _)]. exact H.
  - rewrite Ha, (Hl b (or_introl eq_refl)). destruct (fltb a b) eqn:E.
    + rewrite IH; [|apply Hl; now left|intros x Hx; apply Hl; now right]. split.
      * intros [H|(x & Hx & H)]; right; [exists b; split; [now left|exact H]|exists x; split; [now right|exact H]].
      * intros [H|(x & [<-|Hx] & H)]; [|now left|right; eauto]. left. destruct a as [a| | |], b as [b| | |]; cbn in *; try discriminate; try reflexivity.
        apply Rltb_true in E, H. apply Rltb_true. lra.
    + rewrite IH; [|exact Ha|intros x Hx; apply Hl; now right]. split.
      * intros [H|(x & Hx & H)]; [now left|right; exists x; split; [now right|exact H]].
      * intros [H|(x & [<-|Hx] & H)]; [now left| |right; eauto]. left. destruct a as [a| | |], b as [b| | |]; cbn in *; try discriminate; try reflexivity.
        apply Rltb_false in E. apply Rltb_true in H. apply Rltb_true. lra.
Qed.
Lemma take_columns l ks : forall out, take l ks = Ok out -> columns_of l ks out.
Proof.
  induction ks as [|k ks IH]; intros out H; cbn [take] in H; [inversion H; reflexivity|].
  destruct (getn l k) as [a|] eqn:Ea; [|discriminate]. cbn [bind] in H. destruct (take l ks) as [r'|] eqn:Er; [|discriminate]. inversion H; subst out.
  unfold columns_of in *. cbn [map]. rewrite (IH _ eq_refl). f_equal. unfold getn in Ea. destruct (nth_error l k); [congruence|discriminate].
Qed.
Lemma columns_app l a b x y : columns_of l a x -> columns_of l b y -> columns_of l (a ++ b) (x ++ y).
Proof. unfold columns_of. intros H H'. now rewrite !map_app, H, H'. Qed.
Lemma columns_in l ks out x : columns_of l ks out -> In x out <-> exists k, In k ks /\ nth_error l k = Some x.
Proof.
  intros H. split.
  - intros I. apply (in_map Some) in I. rewrite <- H in I. apply in_map_iff in I. destruct I as (k & E & I). eauto.
  - intros (k & I & E). apply (in_map (nth_error l)) in I. rewrite H, E in I. apply in_map_iff in I. destruct I as (y & Ey & I). now injection Ey as <-.
Qed.
Lemma some_unmasked_spec m ks b : (forall x, In x m -> isnan x = false) -> some_unmasked m ks = Ok b -> (b = true <-> usable_in m ks).
Proof.
  intros N H. unfold some_unmasked in H. destruct (take m ks) as [l|] eqn:T; [|discriminate]. apply take_columns in T. cbn [bind] in H.
  assert (Nl : forall x, In x l -> isnan x = false). { intros x I. apply (columns_in _ _ _ _ T) in I. destruct I as (k & _ & E). apply N. now apply nth_error_In in E. }
  destruct l as [|a l]; [discriminate|]. cbn [np_max bind] in H. assert (B : fltb (Fin 0) (fmax1 a l) = b) by (inversion H; reflexivity). clear H.
  rewrite <- B, fmax1_pos; [|apply Nl; now left|intros x I; apply Nl; now right]. split.
  - intros [H|(x & I & H)].
    + destruct (proj1 (columns_in _ _ _ a T) (or_introl eq_refl)) as (k & Ik & E). exists k, a. auto.
    + destruct (proj1 (columns_in _ _ _ x T) (or_intror I)) as (k & Ik & E). exists k, x. auto.
  - intros (k & x & Ik & E & H). destruct (proj2 (columns_in _ _ _ x T) (ex_intro _ k (conj Ik E))) as [<-|I]; [now left|right; eauto].
Qed.

Lemma fit1_given c wl wr e r p : cont_fit1 c wl wr e = (r, Ok p) ->
  exists ow t f1 r1 m' vary ys es ms, q_obs (e2 e) = Some ow /\ e1 e = Some t /\ s_flux t = Some f1 /\ s_err t = Some r1 /\ e1 r = Some (set_s_mask m' t) /\
    columns_of ow (wl ++ wr) (snd p) /\ columns_of f1 (wl ++ wr) ys /\ columns_of r1 (wl ++ wr) es /\ columns_of m' (wl ++ wr) ms /\
    g_fit1 c vary (snd p) ys es ms = Ok (fst p) /\
    ((forall x, In x m' -> isnan x = false) -> (vary = true <-> usable_in m' wl /\ usable_in m' wr)).
Proof.
  intros H. unfold cont_fit1 in H. rewrite bind_get in H. cbv zeta in H.
  apply bind_inv in H. destruct H as (? & ow & G1 & H). apply lift_inv in G1. destruct G1 as [-> G1]. apply need_inv in G1.
  apply bind_inv in H. destruct H as (? & xl & G2 & H). apply lift_inv in G2. destruct G2 as [-> G2].
  apply bind_inv in H. destruct H as (? & xr & G3 & H). apply lift_inv in G3. destruct G3 as [-> G3].
  apply bind_inv in H. destruct H as (? & t & G4 & H). apply lift_inv in G4. destruct G4 as [-> G4]. apply need_inv in G4.
  apply bind_inv in H. destruct H as (? & r1 & G5 & H). apply lift_inv in G5. destruct G5 as [-> G5]. apply need_inv in G5.
  do 4 liftin H. rewrite bind_write_mask1 in H. cbv beta in H. cbn [e1 e2] in H. remember (set_inds a (snd a2) (Fin 0)) as m' eqn:Em. clear Em.
  apply bind_inv in H. destruct H as (? & vary & G6 & H). apply lift_inv in G6. destruct G6 as [-> G6].
  apply bind_inv in H. destruct H as (? & f1 & G7 & H). apply lift_inv in G7. destruct G7 as [-> G7]. apply need_inv in G7.
  apply bind_inv in H. destruct H as (? & yl & G8 & H). apply lift_inv in G8. destruct G8 as [-> G8].
  apply bind_inv in H. destruct H as (? & yr & G9 & H). apply lift_inv in G9. destruct G9 as [-> G9].
  apply bind_inv in H. destruct H as (? & el & G10 & H). apply lift_inv in G10. destruct G10 as [-> G10].
  apply bind_inv in H. destruct H as (? & er & G11 & H). apply lift_inv in G11. destruct G11 as [-> G11].
  apply bind_inv in H. destruct H as (? & ml & G12 & H). apply lift_inv in G12. destruct G12 as [-> G12].
  apply bind_inv in H. destruct H as (? & mr & G13 & H). apply lift_inv in G13. destruct G13 as [-> G13].
  apply bind_inv in H. destruct H as (? & ab & G14 & H). apply lift_inv in G14. destruct G14 as [-> G14].
  unfold ret in H. apply pair_equal_spec in H. destruct H as [<- H]. assert (X : (ab, xl ++ xr) = p) by congruence. subst p. cbn [fst snd e1].
  exists ow, t, f1, r1, m', vary, (yl ++ yr), (el ++ er), (ml ++ mr). do 4 (split; [assumption|]). split; [now rewrite G4|].
  do 4 (split; [apply columns_app; now apply take_columns|]). split; [exact G14|]. intros N.
  assert (Em : forall ks, usable_in m' ks -> ks <> []) by (intros ks (k & x & I & _) ->; destruct I).
  destruct wl as [|kl wl]; [inversion G6; subst vary; split; [discriminate|intros [U _]; now destruct (Em _ U)]|].
  destruct wr as [|kr wr]; [inversion G6; subst vary; split; [discriminate|intros [_ U]; now destruct (Em _ U)]|].
  destruct (some_unmasked m' (kl :: wl)) as [b|] eqn:Bl; [|discriminate]. cbn [bind] in G6. destruct (some_unmasked m' (kr :: wr)) as [b'|] eqn:Br; [|discriminate]. cbn [bind] in G6.
  assert (V : b && b' = vary) by congruence. rewrite <- V, andb_true_iff, (some_unmasked_spec _ _ _ N Bl), (some_unmasked_spec _ _ _ N Br). reflexivity.
Qed.

Lemma row_at_map a i ks l : row_at a i ks = Ok l -> l = map (at2 a i) ks.
Proof. unfold row_at. destruct (forallb _ _); [|discriminate]. intros E. now inversion E. Qed.
Lemma row_given c slope b1 xs wl wr i e r : cont_row c slope b1 xs wl wr i e = (r, Ok tt) ->
  exists ic er mk ct fx w b, q_incl (e2 e) = Some ic /\ q_err (e2 e) = Some er /\ q_mask (e2 e) = Some mk /\ q_cont (e2 e) = Some ct /\ q_flux (e2 e) = Some fx /\ q_wave (e2 e) = Some w /\
    g_fitrow c i slope b1 xs (map (at2 ic i) (wl ++ wr)) (map (at2 er i) (wl ++ wr)) (map (at2 mk i) (wl ++ wr)) = Ok b /\
    cols ic = length w /\ q_cont (e2 r) = Some (set_row ct i (line_at slope b w)) /\
    q_flux (e2 r) = Some (set_row fx i (map (fun j => fsub (at2 ic i j) (lnth (line_at slope b w) j)) (seq 0 (cols ic)))) /\
    q_incl (e2 r) = Some ic /\ q_err (e2 r) = Some er /\ q_mask (e2 r) = Some mk /\ q_wave (e2 r) = Some w.
Proof.
  intros H. unfold cont_row in H. rewrite bind_get in H. cbv zeta in H.
  apply bind_inv in H. destruct H as (? & ic & G1 & H). apply lift_inv in G1. destruct G1 as [-> G1]. apply need_inv in G1.
  apply bind_inv in H. destruct H as (? & er & G2 & H). apply lift_inv in G2. destruct G2 as [-> G2]. apply need_inv in G2.
  apply bind_inv in H. destruct H as (? & mk & G3 & H). apply lift_inv in G3. destruct G3 as [-> G3]. apply need_inv in G3.
  apply bind_inv in H. destruct H as (? & ct & G4 & H). apply lift_inv in G4. destruct G4 as [-> G4]. apply need_inv in G4.
  apply bind_inv in H. destruct H as (? & fx & G5 & H). apply lift_inv in G5. destruct G5 as [-> G5]. apply need_inv in G5.
  apply bind_inv in H. destruct H as (? & yl & G6 & H). apply lift_inv in G6. destruct G6 as [-> G6]. apply row_at_map in G6. subst yl.
  apply bind_inv in H. destruct H as (? & yr & G6 & H). apply lift_inv in G6. destruct G6 as [-> G6]. apply row_at_map in G6. subst yr.
  apply bind_inv in H. destruct H as (? & el & G6 & H). apply lift_inv in G6. destruct G6 as [-> G6]. apply row_at_map in G6. subst el.
  apply bind_inv in H. destruct H as (? & er' & G6 & H). apply lift_inv in G6. destruct G6 as [-> G6]. apply row_at_map in G6. subst er'.
  apply bind_inv in H. destruct H as (? & ml & G6 & H). apply lift_inv in G6. destruct G6 as [-> G6]. apply row_at_map in G6. subst ml.
  apply bind_inv in H. destruct H as (? & mr & G6 & H). apply lift_inv in G6. destruct G6 as [-> G6]. apply row_at_map in G6. subst mr. rewrite <- !map_app in H.
  apply bind_inv in H. destruct H as (? & b & G6 & H). apply lift_inv in G6. destruct G6 as [-> G6].
  apply bind_inv in H. destruct H as (? & w & G7 & H). apply lift_inv in G7. destruct G7 as [-> G7]. apply need_inv in G7.
  liftin H. rewrite bind_up2 in H. cbv beta in H. cbn [e2 e1 e_dpa e_reg e_k] in H. do 2 liftin H.
  apply bind_inv in H. destruct H as (? & u & G8 & H). apply lift_inv in G8. destruct G8 as [-> G8]. liftin H.
  unfold write_flux, modS in H. apply pair_equal_spec in H. destruct H as [<- _].
  exists ic, er, mk, ct, fx, w, b. do 7 (split; [assumption|]). split.
  { destruct (Nat.eqb_spec (cols ic) (length (line_at slope b w))) as [X|]; [|discriminate]. rewrite X. unfold line_at. now rewrite map_length. }
  split; [reflexivity|]. split; [reflexivity|]. repeat split; assumption.
Qed.
Lemma rows_given c slope b1 xs wl wr is : NoDup is -> forall e r ic er mk ct fx w, cont_rows c slope b1 xs wl wr is e = (r, Ok tt) ->
  q_incl (e2 e) = Some ic -> q_err (e2 e) = Some er -> q_mask (e2 e) = Some mk -> q_cont (e2 e) = Some ct -> q_flux (e2 e) = Some fx -> q_wave (e2 e) = Some w ->
  exists ct' fx', q_cont (e2 r) = Some ct' /\ q_flux (e2 r) = Some fx' /\
    (forall i, In i is -> exists b, g_fitrow c i slope b1 xs (map (at2 ic i) (wl ++ wr)) (map (at2 er i) (wl ++ wr)) (map (at2 mk i) (wl ++ wr)) = Ok b /\
       forall j x, nth_error w j = Some x -> at2 ct' i j = fadd (fmul slope x) b /\ at2 fx' i j = fsub (at2 ic i j) (at2 ct' i j)) /\
    (forall i j, ~ In i is -> at2 ct' i j = at2 ct i j /\ at2 fx' i j = at2 fx i j).
Proof.
  induction is as [|i is IH]; intros Nd e r ic er mk ct fx w H I1 I2 I3 I4 I5 I6; cbn [cont_rows] in H.
  - unfold ret in H. apply pair_equal_spec in H. destruct H as [<- _]. exists ct, fx. split; [exact I4|]. split; [exact I5|]. split; [intros i []|]. auto.
  - apply bind_inv in H. destruct H as (e0 & [] & H0 & H). inversion Nd as [|? ? Ni Nd']; subst.
    destruct (row_given _ _ _ _ _ _ _ _ _ H0) as (ic0 & er0 & mk0 & ct0 & fx0 & w0 & b & J1 & J2 & J3 & J4 & J5 & J6 & F & L & K4 & K5 & K1 & K2 & K3 & K6).
    rewrite I1 in J1. rewrite I2 in J2. rewrite I3 in J3. rewrite I4 in J4. rewrite I5 in J5. rewrite I6 in J6.
    injection J1 as <-. injection J2 as <-. injection J3 as <-. injection J4 as <-. injection J5 as <-. injection J6 as <-.
    destruct (IH Nd' e0 r _ _ _ _ _ _ H K1 K2 K3 K4 K5 K6) as (ct' & fx' & C & D & P & Q). exists ct', fx'. split; [exact C|]. split; [exact D|]. split.
    + intros k [<-|Ik]; [|now apply P]. exists b. split; [exact F|]. intros j x Ex. destruct (Q i j Ni) as [-> ->]. unfold set_row. cbn [at2]. rewrite Nat.eqb_refl.
      assert (Lj : (j < length w)%nat) by (apply nth_error_Some; congruence).
      assert (V : lnth (line_at slope b w) j = fadd (fmul slope x) b). { unfold lnth, line_at. erewrite nth_error_nth; [reflexivity|]. now rewrite nth_error_map, Ex. }
      split; [exact V|]. unfold lnth at 1. rewrite nth_map_seq by (rewrite L; exact Lj). reflexivity.
    + intros k j Nk. destruct (Q k j) as [-> ->]; [intros X; apply Nk; now right|]. unfold set_row. cbn [at2]. destruct (Nat.eqb_spec k i) as [->|]; [exfalso; apply Nk; now left|auto].
Qed.

(** Four columns, the third with a noisy pixel: both windows stay usable, and the slope is fitted. *)
Definition slope_env : env := mkEnv (set_q_median (Some (Fin 1)) (blind_sp (PTrim2.ones 4 4)))
  (Some (mkSp1 (Some [Fin 3; Fin 6; Fin 10; Fin 14]) (Some [Fin 3; Fin 6; Fin 10; Fin 14]) None (Some [Fin 1; Fin 1; Fin 1; Fin 1]) (Some [Fin 1; Fin 1; Fin 9; Fin 1]) (Some [Fin 1; Fin 1; Fin 1; Fin 1]) None None None))
  None false (mkCaller (PTrim2.ones 4 4) (PTrim2.ones 4 4) (PTrim2.ones 4 4) [Fin 1; Fin 1; Fin 1; Fin 1] true false true).
Lemma slope_runs : exists r p m', cont_fit1 blind_cfg [1%nat] [3%nat] slope_env = (r, Ok p) /\ option_map s_mask (e1 r) = Some (Some m') /\ (forall x, In x m' -> isnan x = false) /\ usable_in m' [1%nat] /\ usable_in m' [3%nat].
Proof.
  assert (X : exists r p, cont_fit1 blind_cfg [1%nat] [3%nat] slope_env = (r, Ok p)).
  { unfold cont_fit1. rewrite bind_get. cbv zeta. cbn [slope_env e2 e1 s_err s_mask s_flux need]. change (q_obs (set_q_median (Some (Fin 1)) (blind_sp (PTrim2.ones 4 4)))) with (Some [Fin 3; Fin 6; Fin 10; Fin 14]).
    change (q_cutoff (set_q_median (Some (Fin 1)) (blind_sp (PTrim2.ones 4 4)))) with (Some (Fin 2, true)). change (q_median (set_q_median (Some (Fin 1)) (blind_sp (PTrim2.ones 4 4)))) with (Some (Fin 1)).
    cbn [need]. do 4 (erewrite bind_lift by reflexivity). do 3 (erewrite bind_lift by reflexivity). erewrite bind_lift by reflexivity. cbn [wh_skylines_1D]. set (ns := (where_ _ _, where_ _ _)). rewrite (bind_lift _ ns) by reflexivity.
    rewrite bind_write_mask1. cbv beta. set (mt := set_inds _ _ _). assert (L : length mt = 4%nat) by apply set_inds_length. clearbody mt. destruct mt as [|a [|b [|d [|f [|]]]]]; try discriminate.
    cbn [some_unmasked take getn nth_error bind]. unfold some_unmasked. cbn [take getn nth_error bind]. repeat (erewrite bind_lift by reflexivity). do 2 eexists. reflexivity. }
  destruct X as (r & p & H). destruct (fit1_masks _ _ _ slope_env _ _ _ [Fin 1; Fin 1; Fin 9; Fin 1] [Fin 1; Fin 1; Fin 1; Fin 1] (Fin 2, true) (Fin 1) eq_refl eq_refl eq_refl eq_refl eq_refl H) as (m' & T & _ & _ & L & V).
  exists r, p, m'. split; [exact H|]. split; [rewrite T; reflexivity|].
  assert (Q : fgeb (fsqrt (fsq (fmul (Fin 1) (Fin 1)))) (fmul (fst (Fin 2, true)) (Fin 1)) = false).
  { cbn [fmul fsq fst]. replace (1 * 1) with 1 by ring. unfold fsqrt. replace (1 * 1) with 1 by ring. rewrite (proj2 (Rltb_false _ _)) by lra. rewrite sqrt_1. unfold fgeb. cbn [fleb]. apply Rleb_false. lra. }
  assert (V1 := V 1%nat _ _ eq_refl eq_refl). assert (V3 := V 3%nat _ _ eq_refl eq_refl). rewrite Q in V1, V3.
  assert (P : fltb (Fin 0) (Fin 1) = true) by (cbn; apply Rltb_true; lra).
  split; [|split; [exists 1%nat|exists 3%nat]; exists (Fin 1); repeat split; auto; now left].
  intros x I. apply In_nth_error in I. destruct I as (j & E). assert (Lj : (j < 4)%nat). { change 4%nat with (length [Fin 1; Fin 1; Fin 1; Fin 1]). rewrite <- L. apply nth_error_Some. congruence. }
  destruct j as [|[|[|[|j]]]]; [rewrite (V 0%nat _ _ eq_refl eq_refl) in E|rewrite (V 1%nat _ _ eq_refl eq_refl) in E|rewrite (V 2%nat _ _ eq_refl eq_refl) in E|rewrite (V 3%nat _ _ eq_refl eq_refl) in E|lia]; match type of E with context [if ?b then _ else _] => destruct b end; injection E as <-; reflexivity.
Qed.
(** One pixel: the row's continuum is the line of the common slope through the fitted intercept. *)
Definition px (x : fl) : option (arr2 fl) := Some (mk2 1 1 (fun _ _ => x)).
Definition px_env : env := mkEnv (mkSp2 (Some [Fin 10]) (Some [Fin 10]) None (px (Fin 5)) (px (Fin 1)) (px (Fin 1)) None (px (Fin 5)) (px (Fin 0)) None None None
  [] [] [] None None None None None None None None None None None NaN NaN None None None None None false) None None false (mkCaller (PTrim2.ones 1 1) (PTrim2.ones 1 1) (PTrim2.ones 1 1) [] false false false).
Lemma px_rows : NoDup [0%nat] /\ exists r ct fx, cont_rows blind_cfg (Fin 2) (Fin 0) [Fin 10] [0%nat] [] [0%nat] px_env = (r, Ok tt) /\
  q_cont (e2 r) = Some ct /\ q_flux (e2 r) = Some fx /\ at2 ct 0 0 = Fin 25 /\ at2 fx 0 0 = Fin (-20).
Proof.
  split; [constructor; [intros []|constructor]|]. do 3 eexists. split; [reflexivity|]. split; [reflexivity|]. split; [reflexivity|]. split; cbn; f_equal; lra.
Qed.
