(* Proofs about programs with several models. *)
From Coq Require Import Reals Lra List Bool Arith Lia.
From Verif Require Import PyFloat PyBase Arr PyNum MParams MKernels MAper2D MPost MShare SParams SShare PParams PAper2DHist PShareSt.
Import ListNotations.
Local Open Scope nat_scope.

Lemma upd_same {A} (f : nat -> A) n v : upd f n v n = v. Proof. unfold upd. now rewrite Nat.eqb_refl. Qed.
Lemma upd_other {A} (f : nat -> A) n v m : m <> n -> upd f n v m = f m.
Proof. intros H. unfold upd. destruct (Nat.eqb_spec m n); [contradiction|reflexivity]. Qed.

(** update_parameters only touches free entries, whatever happens. *)
Lemma update_loop_frame is : forall j vary tf th,
  length (fst (update_loop is j vary tf th)) = length th /\
  forall m, ~ free vary m -> nth_error (fst (update_loop is j vary tf th)) m = nth_error th m.
Proof.
  induction is as [|i is IH]; intros j vary tf th; cbn [update_loop]; [auto|].
  destruct (getn vary i) as [[|]|] eqn:E; cbn [fst]; auto.
  destruct (getn tf j) as [x|]; cbn [fst]; auto.
  assert (E' : free vary i) by (unfold getn in E; unfold free; destruct (nth_error vary i); congruence).
  destruct (IH (S j) vary tf (mapi (fun k y => if k =? i then x else y) th)) as [L N].
  split; [rewrite L; apply mapi_length|]. intros m F. rewrite N by exact F. rewrite mapi_nth.
  destruct (nth_error th m); [cbn [option_map]|reflexivity]. destruct (Nat.eqb_spec m i) as [->|]; [contradiction|reflexivity].
Qed.
Lemma update_frame vary tf th : length (fst (update_parameters th vary tf)) = length th /\
  forall m, ~ free vary m -> nth_error (fst (update_parameters th vary tf)) m = nth_error th m.
Proof. apply update_loop_frame. Qed.

Lemma store_model_frame c k a : k_vary (fst (store_model c k a)) = k_vary k /\ k_noscale (fst (store_model c k a)) = k_noscale k /\
  k_theta (fst (store_model c k a)) = k_theta k /\ k_aper (fst (store_model c k a)) = k_aper k.
Proof. destruct (store_model c k a) as [k' r] eqn:E. apply store_fields in E. tauto. Qed.

Lemma update_aper_frame c k : k_vary (fst (km_update_aper c k)) = k_vary k /\ k_noscale (fst (km_update_aper c k)) = k_noscale k /\
  k_theta (fst (km_update_aper c k)) = k_theta k /\ (k_aper k <> None -> k_aper (fst (km_update_aper c k)) <> None).
Proof.
  unfold km_update_aper. destruct (k_aper k) as [a|] eqn:E; [|cbn [fst]; rewrite E; auto].
  destruct (aper_update c (k_theta k) a) as [a' r]. destruct r; cbn [fst].
  - match goal with |- context [store_model c ?kk a'] => destruct (store_model_frame c kk a') as (A & B & C & G) end.
    rewrite A, B, C, G. cbn. repeat split; congruence.
  - cbn. repeat split; congruence.
Qed.

Lemma make_frame c tf k k' r : km_make c tf k = (k', r) ->
  k_vary k' = k_vary k /\ k_noscale k' = k_noscale k /\ length (k_theta k') = length (k_theta k) /\
  (forall m, ~ free (k_vary k) m -> nth_error (k_theta k') m = nth_error (k_theta k) m) /\
  (r = Ok tt -> k_aper k' <> None) /\ (k_aper k <> None -> k_aper k' <> None).
Proof.
  unfold km_make. destruct (negb _); [intros E; inversion E; subst; repeat split; auto; discriminate|].
  destruct (update_frame (k_vary k) tf (k_theta k)) as [L N].
  destruct (update_parameters (k_theta k) (k_vary k) tf) as [th [u|e]]; cbn [fst] in *;
    [|intros E; inversion E; subst; cbn; repeat split; auto; discriminate].
  destruct (k_aper k) as [a|] eqn:EA; cbn [k_aper k_stamp].
  - intros E. match type of E with km_update_aper c ?kk = _ => destruct (update_aper_frame c kk) as (A & B & C & G) end.
    rewrite E in *. cbn [fst k_vary k_noscale k_theta k_aper] in *. rewrite A, B, C.
    assert (k_aper k' <> None) by (apply G; discriminate). repeat split; auto.
  - destruct (aper_new c th (k_stamp k)) as [st [a|e]]; intros E.
    + match type of E with store_model c ?kk a = _ => destruct (store_model_frame c kk a) as (A & B & C & G) end.
      rewrite E in *. cbn [fst k_vary k_noscale k_theta k_aper] in *. rewrite A, B, C, G. repeat split; auto; discriminate.
    + inversion E; subst. cbn. repeat split; auto; try discriminate.
Qed.

Lemma update_model_frame c tf k k' r : km_update c tf k = (k', r) ->
  k_vary k' = k_vary k /\ k_noscale k' = k_noscale k /\ length (k_theta k') = length (k_theta k) /\
  (forall m, ~ free (k_vary k) m -> nth_error (k_theta k') m = nth_error (k_theta k) m) /\ (k_aper k <> None -> k_aper k' <> None).
Proof.
  unfold km_update. destruct (negb _); [intros E; inversion E; subst; repeat split; auto|].
  destruct (update_frame (k_vary k) tf (k_theta k)) as [L N].
  destruct (update_parameters (k_theta k) (k_vary k) tf) as [th [u|e]]; cbn [fst] in *;
    [|intros E; inversion E; subst; cbn; repeat split; auto].
  intros E. match type of E with km_update_aper c ?kk = _ => destruct (update_aper_frame c kk) as (A & B & C & G) end.
  rewrite E in *. cbn [fst k_vary k_noscale k_theta k_aper] in *. rewrite A, B, C. repeat split; auto.
Qed.

(** What evaluation reads. *)
Definition clean (a : aper) : aper := set_theta [] (set_prof [] [] (set_stamp NoStamp a)).

Lemma aper_update_reads c th a v d st : aper_update c th (set_stamp st (set_prof v d a)) = aper_update c th (set_stamp st (clean a)).
Proof. reflexivity. Qed.

Lemma aper_update_int c f th : aper_update (with_int c f) th = aper_update c th.
Proof. reflexivity. Qed.

Definition th_rel (vary : list bool) (t1 t2 : list fl) : Prop :=
  t1 = t2 \/ (length vary = length t1 /\ length t2 = length t1 /\ forall m, ~ free vary m -> nth_error t1 m = nth_error t2 m).

Definition ap_rel (o1 o2 : option aper) : Prop := option_map clean o1 = option_map clean o2.

Lemma update_th_rel vary t1 t2 tf : th_rel vary t1 t2 -> length tf = nfree vary ->
  update_parameters t1 vary tf = update_parameters t2 vary tf.
Proof. intros [->|(L1 & L2 & N)] T; [reflexivity|]. apply update_agree; auto. lia. Qed.


(** Two copies of an object that behave alike. *)
Definition krel (c : cfg) (k1 k2 : kinmodel) : Prop :=
  k_vary k1 = k_vary k2 /\ k_noscale k1 = k_noscale k2 /\ k_model k1 = k_model k2 /\ (k_stamp k1 = k_stamp k2 \/ (i_fwhm (c_ins c) <= 0)%R) /\
  ap_rel (k_aper k1) (k_aper k2) /\ th_rel (k_vary k1) (k_theta k1) (k_theta k2).

Lemma krel_refl c k : krel c k k.
Proof. unfold krel, ap_rel, th_rel. repeat split; auto. Qed.

Definition loaded (st : stamp) (t : list fl) (pv : list fl * list fl) (k : kinmodel) : kinmodel :=
  mkkm t (k_vary k) (k_noscale k) (option_map (fun a => set_stamp st (set_prof (fst pv) (snd pv) a)) (k_aper k)) (k_model k) st.

Lemma load_loaded d w k : load d w k = loaded (w_stamp w (d_ins d)) (w_theta w (d_theta d)) (w_kin w (d_kin d)) k.
Proof. reflexivity. Qed.

Definition same_stamp (c : cfg) (st1 st2 : stamp) : Prop := st1 = st2 \/ (i_fwhm (c_ins c) <= 0)%R.

Lemma store_rel c t vr ns m st1 st2 b : (i_fwhm (c_ins c) <= 0)%R ->
  let x := store_model c (mkkm t vr ns (Some (set_stamp st1 b)) m (a_stamp (set_stamp st1 b))) (set_stamp st1 b) in
  let y := store_model c (mkkm t vr ns (Some (set_stamp st2 b)) m (a_stamp (set_stamp st2 b))) (set_stamp st2 b) in
  snd x = snd y /\ krel c (fst x) (fst y).
Proof.
  intros H. unfold store_model. change (a_model (set_stamp st1 b)) with (a_model b). change (a_model (set_stamp st2 b)) with (a_model b).
  cbn [k_noscale k_theta k_vary k_aper k_stamp k_model].
  assert (Z : forall mm, krel c (mkkm t vr ns (Some (set_stamp st1 b)) mm (a_stamp (set_stamp st1 b))) (mkkm t vr ns (Some (set_stamp st2 b)) mm (a_stamp (set_stamp st2 b)))).
  { intros mm. unfold krel. cbn [k_noscale k_theta k_vary k_aper k_stamp k_model]. repeat (split; [reflexivity|]).
    split; [now right|]. split; [reflexivity|now left]. }
  destruct (a_model b); [|split; [reflexivity|apply Z]]. destruct ns; [split; [reflexivity|apply Z]|].
  destruct (scale_model _ _); split; try reflexivity; apply Z.
Qed.

Lemma update_aper_rel c t vr ns a1 a2 m st1 st2 v1 v2 : clean a1 = clean a2 -> same_stamp c st1 st2 ->
  let x := km_update_aper c (mkkm t vr ns (Some (set_stamp st1 (set_prof (fst v1) (snd v1) a1))) m st1) in
  let y := km_update_aper c (mkkm t vr ns (Some (set_stamp st2 (set_prof (fst v2) (snd v2) a2))) m st2) in
  snd x = snd y /\ krel c (fst x) (fst y).
Proof.
  intros E S. unfold km_update_aper. cbn [k_aper k_theta k_vary k_noscale k_model]. rewrite !aper_update_reads, E.
  destruct S as [->|S]; [split; [reflexivity|apply krel_refl]|].
  rewrite !(blind_aper_update c t S). destruct (aper_update c t (clean a2)) as [b [u|e]]; cbn [fst snd].
  - apply (store_rel c t vr ns m st1 st2 b S).
  - split; [reflexivity|]. unfold krel. cbn [k_noscale k_theta k_vary k_aper k_stamp k_model]. repeat (split; [reflexivity|]).
    split; [now right|]. split; [reflexivity|now left].
Qed.

Lemma clean_loaded st v d a : clean (set_stamp st (set_prof v d a)) = clean a.
Proof. reflexivity. Qed.

Lemma loaded_krel c st1 st2 t1 t2 v1 v2 k1 k2 : k_vary k1 = k_vary k2 -> k_noscale k1 = k_noscale k2 -> k_model k1 = k_model k2 ->
  ap_rel (k_aper k1) (k_aper k2) -> th_rel (k_vary k1) t1 t2 -> same_stamp c st1 st2 -> krel c (loaded st1 t1 v1 k1) (loaded st2 t2 v2 k2).
Proof.
  intros V N M A T S. unfold krel, loaded. cbn [k_vary k_theta k_aper k_noscale k_model k_stamp]. repeat (split; [assumption || reflexivity|]).
  split; [|assumption]. unfold ap_rel in *. destruct (k_aper k1), (k_aper k2); cbn [option_map] in *; try discriminate; auto.
Qed.

Lemma new_rel c t vr ns m st1 st2 : same_stamp c st1 st2 ->
  let f st := let (st', ra) := aper_new c t st in
              match ra with Err e => (mkkm t vr ns None m st', Err e) | Ok a => store_model c (mkkm t vr ns (Some a) m st') a end in
  snd (f st1) = snd (f st2) /\ krel c (fst (f st1)) (fst (f st2)).
Proof.
  intros S. cbv zeta. destruct S as [->|S]; [split; [reflexivity|apply krel_refl]|]. unfold aper_new.
  destruct (setup_calcs c t); [destruct (do_model_calcs c a) as [b [u|e]]; split; try reflexivity; apply krel_refl|].
  split; [reflexivity|]. unfold krel. cbn [fst k_noscale k_theta k_vary k_aper k_stamp k_model]. repeat (split; [reflexivity|]).
  split; [now right|]. split; [reflexivity|now left].
Qed.

Lemma guard_make c tf k : length tf <> nfree (k_vary k) -> km_make c tf k = (k, Err ValueError).
Proof. intros H. unfold km_make. rewrite n_free_param_nfree. destruct (Nat.eqb_spec (length tf) (nfree (k_vary k))); [contradiction|reflexivity]. Qed.

Lemma guard_update c tf k : length tf <> nfree (k_vary k) -> km_update c tf k = (k, Err ValueError).
Proof. intros H. unfold km_update. rewrite n_free_param_nfree. destruct (Nat.eqb_spec (length tf) (nfree (k_vary k))); [contradiction|reflexivity]. Qed.

Lemma call_rel c st1 st2 t1 t2 v1 v2 k1 k2 tf : k_vary k1 = k_vary k2 -> k_noscale k1 = k_noscale k2 -> k_model k1 = k_model k2 ->
  ap_rel (k_aper k1) (k_aper k2) -> th_rel (k_vary k1) t1 t2 -> same_stamp c st1 st2 ->
  (let x := km_make c tf (loaded st1 t1 v1 k1) in let y := km_make c tf (loaded st2 t2 v2 k2) in snd x = snd y /\ krel c (fst x) (fst y)) /\
  (let x := km_update c tf (loaded st1 t1 v1 k1) in let y := km_update c tf (loaded st2 t2 v2 k2) in snd x = snd y /\ krel c (fst x) (fst y)).
Proof.
  intros V N M A T S. pose proof (loaded_krel c st1 st2 t1 t2 v1 v2 k1 k2 V N M A T S) as R.
  destruct (Nat.eq_dec (length tf) (nfree (k_vary k2))) as [L|L].
  2: { rewrite (guard_make c tf (loaded st1 t1 v1 k1)), (guard_make c tf (loaded st2 t2 v2 k2)), (guard_update c tf (loaded st1 t1 v1 k1)),
         (guard_update c tf (loaded st2 t2 v2 k2)) by (cbn [loaded k_vary]; congruence). cbn [fst snd]. auto. }
  unfold km_make, km_update, loaded. cbn [k_vary k_theta k_aper k_noscale k_model k_stamp]. rewrite V, N, M in *.
  rewrite !n_free_param_nfree, L, !Nat.eqb_refl. cbn [negb].
  rewrite (update_th_rel _ _ _ tf T L). destruct (update_parameters t2 (k_vary k2) tf) as [th [u|e]].
  - unfold ap_rel in A. destruct (k_aper k1) as [a1|], (k_aper k2) as [a2|]; cbn [option_map] in *; try discriminate.
    + assert (C : clean a1 = clean a2) by congruence.
      pose proof (update_aper_rel c th (k_vary k2) (k_noscale k2) a1 a2 (k_model k2) st1 st2 v1 v2 C S) as G. auto.
    + pose proof (new_rel c th (k_vary k2) (k_noscale k2) (k_model k2) st1 st2 S) as G. cbv zeta in G |- *. split; [exact G|].
      unfold km_update_aper. cbn [k_aper fst snd]. split; [reflexivity|]. unfold krel. cbn [k_noscale k_theta k_vary k_aper k_stamp k_model].
      repeat (split; [reflexivity|]). split; [exact S|]. split; [reflexivity|now left].
  - cbn [fst snd]. pose proof (loaded_krel c st1 st2 th th v1 v2 k1 k2 V N M A (or_introl eq_refl) S) as R'.
    unfold loaded in R'. rewrite V, N, M in R'. auto.
Qed.

(** Several objects. *)
Definition orel (d : decl) (o1 o2 : option kinmodel) : Prop :=
  match o1, o2 with
  | None, None => True
  | Some k1, Some k2 => k_vary k1 = d_vary d /\ k_vary k2 = d_vary d /\ k_noscale k1 = k_noscale k2 /\ k_model k1 = k_model k2 /\ ap_rel (k_aper k1) (k_aper k2)
  | _, _ => False
  end.

Definition wrel (d : decl) (i n : nat) (w1 w2 : world) : Prop :=
  same_stamp (d_cfg d) (w_stamp w1 (d_ins d)) (w_stamp w2 (d_ins d)) /\ orel d (w_km w1 i) (w_km w2 i) /\
  (w_km w1 i <> None -> w_int w1 (d_int d) = p_int (c_prof (d_cfg d)) /\ w_int w2 (d_int d) = p_int (c_prof (d_cfg d))) /\
  length (w_theta w1 (d_theta d)) = n /\ th_rel (d_vary d) (w_theta w1 (d_theta d)) (w_theta w2 (d_theta d)).

Definition varies (D : nat -> decl) (w : world) : Prop := forall j k, w_km w j = Some k -> k_vary k = d_vary (D j).

Lemma upd_at {A} (f : nat -> A) n v m : upd f n v m = v \/ (m <> n /\ upd f n v m = f m).
Proof. destruct (Nat.eq_dec m n) as [->|N]; [left; apply upd_same|right; split; [exact N|apply upd_other; exact N]]. Qed.

Lemma step_varies D w o : varies D w -> varies D (fst (step D w o)).
Proof.
  intros H j k. destruct o as [i|i tf|i tf]; cbn [step].
  - cbn [fst w_km]. destruct (upd_at (w_km w) i (Some (mkkm (w_theta w (d_theta (D i))) (d_vary (D i)) (d_noscale (D i)) None None (w_stamp w (d_ins (D i))))) j) as [E|[_ E]];
      [|rewrite E; apply H].
    destruct (Nat.eq_dec j i) as [->|N]; [rewrite E; intros X; inversion X; reflexivity|rewrite upd_other by exact N; apply H].
  - destruct (w_km w i) as [k0|] eqn:E0; [|apply H].
    destruct (km_make _ tf _) as [k' r] eqn:E. apply make_frame in E. destruct E as (V & _). cbn [fst store w_km].
    destruct (Nat.eq_dec j i) as [->|N]; [rewrite upd_same; intros X; inversion X; subst; rewrite V; apply (H _ _ E0)|rewrite upd_other by exact N; apply H].
  - destruct (w_km w i) as [k0|] eqn:E0; [|apply H].
    destruct (km_update _ tf _) as [k' r] eqn:E. apply update_model_frame in E. destruct E as (V & _). cbn [fst store w_km].
    destruct (Nat.eq_dec j i) as [->|N]; [rewrite upd_same; intros X; inversion X; subst; rewrite V; apply (H _ _ E0)|rewrite upd_other by exact N; apply H].
Qed.

(** Theta arrays keep their length, and only entries free in the object used change. *)
Lemma step_theta D w o t : varies D w ->
  length (w_theta (fst (step D w o)) t) = length (w_theta w t) /\
  (t <> d_theta (D (target o)) -> w_theta (fst (step D w o)) t = w_theta w t) /\
  forall m, ~ free (d_vary (D (target o))) m -> nth_error (w_theta (fst (step D w o)) t) m = nth_error (w_theta w t) m.
Proof.
  intros H. destruct o as [i|i tf|i tf]; cbn [step target].
  - cbn [fst w_theta]. auto.
  - destruct (w_km w i) as [k0|] eqn:E0; [|cbn [fst]; auto].
    destruct (km_make _ tf _) as [k' r] eqn:E. apply make_frame in E. destruct E as (V & _ & L & N & _). cbn [fst store w_theta].
    cbn [load k_vary k_theta] in *. rewrite (H _ _ E0) in *.
    destruct (Nat.eq_dec t (d_theta (D i))) as [->|X]; [rewrite upd_same|rewrite upd_other by exact X]; auto.
    split; [exact L|]. split; [congruence|exact N].
  - destruct (w_km w i) as [k0|] eqn:E0; [|cbn [fst]; auto].
    destruct (km_update _ tf _) as [k' r] eqn:E. apply update_model_frame in E. destruct E as (V & _ & L & N & _). cbn [fst store w_theta].
    cbn [load k_vary k_theta] in *. rewrite (H _ _ E0) in *.
    destruct (Nat.eq_dec t (d_theta (D i))) as [->|X]; [rewrite upd_same|rewrite upd_other by exact X]; auto.
    split; [exact L|]. split; [congruence|exact N].
Qed.

Lemma step_elsewhere D w o : (forall j, j <> target o -> w_km (fst (step D w o)) j = w_km w j) /\
  (forall s, s <> d_ins (D (target o)) -> w_stamp (fst (step D w o)) s = w_stamp w s) /\
  (forall s, w_int (fst (step D w o)) s = w_int w s \/ (s = d_int (D (target o)) /\ w_int (fst (step D w o)) s = p_int (c_prof (d_cfg (D (target o)))))).
Proof.
  destruct o as [i|i tf|i tf]; cbn [step target].
  - cbn [fst w_km w_stamp w_int]. split; [intros j N; apply upd_other; exact N|]. split; [auto|]. intros s.
    destruct (Nat.eq_dec s (d_int (D i))) as [->|X]; [rewrite upd_same|rewrite upd_other by exact X]; auto.
  - destruct (w_km w i) as [k0|]; [|cbn [fst]; auto].
    destruct (km_make _ tf _) as [k' r]. cbn [fst store w_km w_stamp w_int]. repeat split; auto; intros; apply upd_other; assumption.
  - destruct (w_km w i) as [k0|]; [|cbn [fst]; auto].
    destruct (km_update _ tf _) as [k' r]. cbn [fst store w_km w_stamp w_int]. repeat split; auto; intros; apply upd_other; assumption.
Qed.

Lemma step_other D i n w1 w2 o : varies D w1 -> wrel (D i) i n w1 w2 -> target o <> i ->
  (d_ins (D (target o)) <> d_ins (D i) \/ (i_fwhm (c_ins (d_cfg (D i))) <= 0)%R) ->
  (d_int (D (target o)) <> d_int (D i) \/ p_int (c_prof (d_cfg (D (target o)))) = p_int (c_prof (d_cfg (D i)))) ->
  (d_theta (D (target o)) <> d_theta (D i) \/ (length (d_vary (D i)) = n /\ forall m, free (d_vary (D (target o))) m -> free (d_vary (D i)) m)) ->
  wrel (D i) i n (fst (step D w1 o)) w2.
Proof.
  intros V (S & K & I & L & T) Ht Hs Hi Hth. destruct (step_elsewhere D w1 o) as (EK & ES & EI).
  destruct (step_theta D w1 o (d_theta (D i)) V) as (TL & TS & TN). unfold wrel. rewrite EK by congruence.
  split; [destruct Hs as [Hs|Hs]; [rewrite ES by congruence; exact S|now right]|]. split; [exact K|]. split.
  - intros X. specialize (I X). destruct I as [I1 I2]. split; [|exact I2].
    destruct (EI (d_int (D i))) as [E|[E1 E2]]; [congruence|]. destruct Hi as [Hi|Hi]; congruence.
  - split; [congruence|]. destruct Hth as [X|[X1 X2]]; [rewrite TS by congruence; exact T|].
    right. rewrite TL. split; [congruence|]. destruct T as [T|(T1 & T2 & T3)]; [rewrite <- T|].
    + split; [reflexivity|]. intros m F. apply TN. intros F'. apply F, X2, F'.
    + split; [exact T2|]. intros m F. rewrite TN; [apply T3; exact F|]. intros F'. apply F, X2, F'.
Qed.

Lemma step_own D i n w1 w2 o : varies D w1 -> varies D w2 -> wrel (D i) i n w1 w2 -> target o = i ->
  snd (step D w1 o) = snd (step D w2 o) /\ image (fst (step D w1 o)) i = image (fst (step D w2 o)) i /\
  wrel (D i) i n (fst (step D w1 o)) (fst (step D w2 o)).
Proof.
  intros V1 V2 (S & K & I & L & T) Ht. pose proof (step_theta D w1 o (d_theta (D i)) V1) as (TL & _).
  assert (G : forall k1 k2 : kinmodel, k_vary k1 = d_vary (D i) -> krel (d_cfg (D i)) k1 k2 -> w_km w1 i <> None ->
     length (k_theta k1) = n ->
     image (store (D i) i w1 k1) i = image (store (D i) i w2 k2) i /\ wrel (D i) i n (store (D i) i w1 k1) (store (D i) i w2 k2)).
  { intros k1 k2 Vk (R1 & R2 & R3 & R4 & R5 & R6) Hn Hl. unfold image, wrel. cbn [store w_km w_stamp w_int w_theta]. rewrite !upd_same.
    split; [exact R3|]. split; [exact R4|]. split; [cbn [orel]; repeat split; congruence|].
    split; [intros _; apply I; exact Hn|]. split; [exact Hl|]. rewrite <- Vk. exact R6. }
  destruct o as [j|j tf|j tf]; cbn [target] in Ht; subst j; cbn [step] in *.
  - unfold image, wrel. cbn [fst snd w_km w_stamp w_int w_theta k_model] in *. rewrite !upd_same. cbn [k_model].
    split; [reflexivity|]. split; [reflexivity|]. split; [exact S|]. split; [cbn; repeat split|].
    split; [intros _; split; reflexivity|]. split; [exact L|exact T].
  - destruct (w_km w1 i) as [k1|] eqn:E1, (w_km w2 i) as [k2|] eqn:E2; cbn [orel] in K; try contradiction.
    2: { cbn [fst snd]. unfold image, wrel. rewrite E1, E2. repeat split; auto; cbn; auto; congruence. }
    destruct K as (K1 & K2 & K3 & K4 & K5). destruct (I ltac:(discriminate)) as [I1 I2].
    unfold cfg_of in *. rewrite I1, I2 in *. rewrite !load_loaded in *.
    destruct (call_rel (with_int (d_cfg (D i)) (p_int (c_prof (d_cfg (D i))))) (w_stamp w1 (d_ins (D i))) (w_stamp w2 (d_ins (D i)))
                (w_theta w1 (d_theta (D i))) (w_theta w2 (d_theta (D i))) (w_kin w1 (d_kin (D i))) (w_kin w2 (d_kin (D i))) k1 k2 tf) as [C _];
      [congruence|exact K3|exact K4|exact K5|rewrite K1; exact T|exact S|]. cbv zeta in C.
    destruct (km_make _ tf (loaded _ (w_theta w1 _) _ k1)) as [k1' r1] eqn:M1.
    destruct (km_make _ tf (loaded _ (w_theta w2 _) _ k2)) as [k2' r2] eqn:M2. cbn [fst snd] in *. destruct C as [C1 C2].
    split; [exact C1|]. apply G; auto; try discriminate.
    + apply make_frame in M1. destruct M1 as (A & _). rewrite A. exact K1.
    + apply make_frame in M1. destruct M1 as (_ & _ & A & _). rewrite A. cbn [loaded k_theta]. exact L.
  - destruct (w_km w1 i) as [k1|] eqn:E1, (w_km w2 i) as [k2|] eqn:E2; cbn [orel] in K; try contradiction.
    2: { cbn [fst snd]. unfold image, wrel. rewrite E1, E2. repeat split; auto; cbn; auto; congruence. }
    destruct K as (K1 & K2 & K3 & K4 & K5). destruct (I ltac:(discriminate)) as [I1 I2].
    unfold cfg_of in *. rewrite I1, I2 in *. rewrite !load_loaded in *.
    destruct (call_rel (with_int (d_cfg (D i)) (p_int (c_prof (d_cfg (D i))))) (w_stamp w1 (d_ins (D i))) (w_stamp w2 (d_ins (D i)))
                (w_theta w1 (d_theta (D i))) (w_theta w2 (d_theta (D i))) (w_kin w1 (d_kin (D i))) (w_kin w2 (d_kin (D i))) k1 k2 tf) as [_ C];
      [congruence|exact K3|exact K4|exact K5|rewrite K1; exact T|exact S|]. cbv zeta in C.
    destruct (km_update _ tf (loaded _ (w_theta w1 _) _ k1)) as [k1' r1] eqn:M1.
    destruct (km_update _ tf (loaded _ (w_theta w2 _) _ k2)) as [k2' r2] eqn:M2. cbn [fst snd] in *. destruct C as [C1 C2].
    split; [exact C1|]. apply G; auto; try discriminate.
    + apply update_model_frame in M1. destruct M1 as (A & _). rewrite A. exact K1.
    + apply update_model_frame in M1. destruct M1 as (_ & _ & A & _). rewrite A. cbn [loaded k_theta]. exact L.
Qed.

Lemma observed_rel D i n : forall ops w1 w2, varies D w1 -> varies D w2 -> wrel (D i) i n w1 w2 ->
  (forall o, In o ops -> target o <> i -> (d_ins (D (target o)) <> d_ins (D i) \/ (i_fwhm (c_ins (d_cfg (D i))) <= 0)%R) /\
     (d_int (D (target o)) <> d_int (D i) \/ p_int (c_prof (d_cfg (D (target o)))) = p_int (c_prof (d_cfg (D i)))) /\
     (d_theta (D (target o)) <> d_theta (D i) \/ (length (d_vary (D i)) = n /\ forall m, free (d_vary (D (target o))) m -> free (d_vary (D i)) m))) ->
  observed D i ops w1 = observed D i (filter (about i) ops) w2.
Proof.
  induction ops as [|o ops IH]; intros w1 w2 V1 V2 R A; [reflexivity|].
  cbn [observed filter]. unfold about at 1. destruct (Nat.eqb_spec (target o) i) as [E|E].
  - cbn [observed]. destruct (step_own D i n w1 w2 o V1 V2 R E) as (S1 & S2 & S3).
    pose proof (step_varies D w1 o V1) as V1'. pose proof (step_varies D w2 o V2) as V2'.
    destruct (step D w1 o) as [w1' r1], (step D w2 o) as [w2' r2]. cbn [fst snd] in *.
    rewrite E, Nat.eqb_refl. rewrite S1, S2. f_equal. apply IH; auto. intros o' Ho. apply A. now right.
  - destruct (A o (or_introl eq_refl) E) as (A1 & A2 & A3).
    pose proof (step_other D i n w1 w2 o V1 R E A1 A2 A3) as S. pose proof (step_varies D w1 o V1) as V1'.
    destruct (step D w1 o) as [w1' r1]. cbn [fst snd] in *.
    apply IH; auto. intros o' Ho. apply A. now right.
Qed.

Lemma models_independent D i ops w : no_models w -> apart D i ops w -> observed D i ops w = observed D i (filter (about i) ops) w.
Proof.
  intros N A. assert (V : varies D w) by (intros j k E; rewrite N in E; discriminate).
  apply (observed_rel D i (length (w_theta w (d_theta (D i))))); auto.
  unfold wrel. rewrite N. cbn. repeat split; auto; try congruence; now left.
Qed.
