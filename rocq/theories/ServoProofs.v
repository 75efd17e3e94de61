(** * ServoProofs: lemmas about the servo model in exact arithmetic. *)
From Verif Require Import Base Arith ServoModel ServoSpec.
From Coq Require Import Reals Lra.
Open Scope Z_scope.

Lemma delta_RA (s : servo RA) :
  servo_delta RA s = (s_vel s * IZR (s_elapsed s) / 1000)%R.
Proof. unfold servo_delta; cbn. rewrite rdec_int. reflexivity. Qed.

Lemma total_app l m : total (l ++ m) = (total l + total m)%Z.
Proof. unfold total. induction l; cbn; lia. Qed.
Lemma total_nonneg l : Forall (fun d => 0 <= d) l -> 0 <= total l.
Proof. unfold total. induction 1; cbn; lia. Qed.

(** the static configuration never changes *)
Definition same_config (s s' : servo RA) : Prop :=
  s_min s' = s_min s /\ s_max s' = s_max s /\ s_minF s' = s_minF s /\ s_maxF s' = s_maxF s /\
  s_maxvel s' = s_maxvel s.

(** state [T] ms after setTargetRadAngle(t), leaving [a] at speed [v] *)
Definition MInv (a t v : R) (T : Z) (s : servo RA) : Prop :=
  s_vel s = v /\ s_target s = t /\ s_elapsed s = T /\
  ((s_start s = a /\ s_cur s = ideal a t v (IZR T) /\ (v * IZR T / 1000 <= Rabs (t - a))%R)
   \/ (s_start s = t /\ s_cur s = t /\ (Rabs (t - a) < v * IZR T / 1000)%R)).

Ltac mcases :=
  repeat match goal with
  | H : context [Rle_dec ?a ?b] |- _ => destruct (Rle_dec a b)
  | |- context [Rle_dec ?a ?b] => destruct (Rle_dec a b)
  | H : context [Rlt_dec ?a ?b] |- _ => destruct (Rlt_dec a b)
  | |- context [Rlt_dec ?a ?b] => destruct (Rlt_dec a b)
  end.
Ltac rabs := unfold Rabs in *; repeat match goal with
  | H : context [Rcase_abs ?a] |- _ => destruct (Rcase_abs a)
  | |- context [Rcase_abs ?a] => destruct (Rcase_abs a)
  end.

Lemma minv_cur a t v T s : MInv a t v T s -> s_cur s = ideal a t v (IZR T).
Proof.
  intros (_ & _ & _ & [(_ & H & _) | (_ & H & L)]); auto.
  rewrite H. unfold ideal. destruct Rle_dec; [reflexivity|lra].
Qed.

Lemma ideal_0 a t v : ideal a t v 0 = a.
Proof. unfold ideal. mcases; rabs; lra. Qed.

Lemma minv_start (s : servo RA) (t : R) : (0 < s_vel s)%R -> MInv (s_cur s) t (s_vel s) 0 (servo_set_target RA s t).
Proof.
  intros H. unfold MInv; cbn. splits; auto. left. splits; auto.
  - now rewrite ideal_0.
  - pose proof (Rabs_pos (t - s_cur s)). lra.
Qed.

Lemma advance_eq (s : servo RA) d :
  servo_advance RA s d =
  let T := u32 (s_elapsed s + d) in
  let delta := (s_vel s * IZR T / 1000)%R in
  if Rlt_dec (Rabs (s_target s - s_start s)) (Rabs delta)
  then with_start RA (with_cur RA (with_elapsed RA s T) (s_target s)) (s_target s)
  else if Rlt_dec (s_start s) (s_target s)
       then with_cur RA (with_elapsed RA s T) (s_start s + delta)%R
       else with_cur RA (with_elapsed RA s T) (s_start s - delta)%R.
Proof.
  unfold servo_advance. rewrite delta_RA. cbn. unfold rltb.
  destruct (Rlt_dec (Rabs (s_target s - s_start s)) _); [reflexivity|].
  destruct (Rlt_dec (s_start s) (s_target s)); reflexivity.
Qed.

Lemma minv_tick a t v T s d :
  (0 < v)%R -> 0 <= T -> 0 <= d -> T + d < 4294967296 ->
  MInv a t v T s -> MInv a t v (T + d) (servo_advance RA s d).
Proof.
  intros Hv HT Hd Hs (V & G & E & C). rewrite advance_eq, V, G, E. cbv zeta.
  rewrite u32_small by lia.
  assert (0 <= IZR T)%R by (apply IZR_le; lia).
  assert (0 <= IZR d)%R by (apply IZR_le; lia).
  assert (P : (0 <= v * IZR (T + d) / 1000)%R) by (rewrite plus_IZR; nra).
  rewrite (Rabs_pos_eq _ P).
  assert (M : (v * IZR T / 1000 <= v * IZR (T + d) / 1000)%R) by (rewrite plus_IZR; nra).
  destruct C as [(S & C & L) | (S & C & L)]; rewrite S.
  - destruct (Rlt_dec (Rabs (t - a)) (v * IZR (T + d) / 1000)) as [Q|Q].
    + unfold MInv; cbn; splits; auto.
    + unfold MInv; destruct (Rlt_dec a t) as [W|W]; cbn; splits; auto; left; splits; auto; try lra;
        unfold ideal; mcases; rabs; lra.
  - replace (t - t)%R with 0%R by ring. rewrite Rabs_R0.
    destruct (Rlt_dec 0 (v * IZR (T + d) / 1000)) as [Q|Q].
    + unfold MInv; cbn; splits; auto. right; splits; auto; lra.
    + exfalso. pose proof (Rabs_pos (t - a)). lra.
Qed.

Lemma process_inv s d s' p :
  servo_process RA s d = Ok (s', p) -> s' = servo_advance RA s d /\ servo_move RA s' = Ok p.
Proof.
  unfold servo_process. destruct (servo_move RA (servo_advance RA s d)) eqn:E; cbn; intros H; [|discriminate].
  inversion H; subst. auto.
Qed.

Lemma tick_inv s d s' : sop_step RA s (STick d) = Ok s' -> s' = servo_advance RA s d.
Proof.
  cbn. destruct (servo_process RA s d) as [[x p]|] eqn:E; cbn; intros H; [|discriminate].
  inversion H; subst. now apply process_inv in E.
Qed.

Lemma minv_ticks a t v dts : forall T s s',
  (0 < v)%R -> 0 <= T -> Forall (fun d => 0 <= d) dts -> T + total dts < 4294967296 ->
  MInv a t v T s -> sop_run RA s (ticks RA dts) = Ok s' -> MInv a t v (T + total dts) s'.
Proof.
  induction dts as [|d l IH]; intros T s s' Hv HT Hn Hs I R.
  - cbn in *. inversion R; subst. now rewrite Z.add_0_r.
  - inversion Hn as [|? ? Hd Hl]; subst. cbn [ticks map sop_run] in R.
    destruct (sop_step RA s (STick d)) as [s1|] eqn:E; [|discriminate]. cbn [bind] in R.
    apply tick_inv in E. subst s1.
    change (total (d :: l)) with (d + total l) in *.
    pose proof (total_nonneg l Hl).
    rewrite Z.add_assoc. eapply IH; eauto; try lia.
    apply minv_tick; auto; lia.
Qed.

(** once it has arrived, every further tick leaves it there, elapsed time wrapping or not *)
Lemma arrived_stays (t : R) dts : forall (s s' : servo RA),
  (0 < s_vel s)%R -> s_target s = t -> s_start s = t -> s_cur s = t ->
  sop_run RA s (ticks RA dts) = Ok s' -> s_cur s' = t.
Proof.
  induction dts as [|d l IH]; intros s s' Hv Ht Hs Hc R.
  - cbn in R. inversion R; subst; auto.
  - cbn [ticks map sop_run] in R.
    destruct (sop_step RA s (STick d)) as [s1|] eqn:E; [|discriminate]. cbn [bind] in R.
    apply tick_inv in E. subst s1. revert R. rewrite advance_eq. cbv zeta. rewrite Ht, Hs.
    replace (t - t)%R with 0%R by ring. rewrite Rabs_R0.
    set (D := (s_vel s * _ / 1000)%R).
    destruct (Rlt_dec 0 (Rabs D)) as [Q|Q]; intros R.
    + eapply IH in R; eauto; cbn; auto.
    + assert (D = 0%R) as ZD.
      { pose proof (Rabs_pos D). destruct (Req_dec D 0); auto.
        apply Rabs_pos_lt in H0. lra. }
      rewrite ZD in R. destruct (Rlt_dec t t) as [X|X]; [lra|].
      eapply IH in R; eauto; cbn; auto. ring.
Qed.

(** ** pulse width *)
Definition sane (s : servo RA) : Prop :=
  (s_min s < s_max s)%R /\ 0 <= s_minF s <= 2147483647 /\ 0 <= s_maxF s <= 2147483647.
Definition in_range (s : servo RA) (x : R) : Prop := (s_min s <= x <= s_max s)%R.

Lemma map_float_RA x a b c d :
  (a < b)%R -> map_float RA x a b c d = calibrated a b c d x.
Proof. intros H. unfold map_float, calibrated; cbn. field. lra. Qed.

Lemma to_int_RA x : -2147483648 <= rtrunc x <= 2147483647 -> to_int RA x = Ok (rtrunc x).
Proof.
  intros H. unfold to_int; cbn.
  replace ((-2147483648 <=? rtrunc x) && (rtrunc x <=? 2147483647)) with true; auto.
  symmetry. apply andb_true_iff; split; apply Z.leb_le; lia.
Qed.

Lemma calibrated_range a b p q x :
  (a < b)%R -> (a <= x <= b)%R ->
  (Rmin p q <= calibrated a b p q x <= Rmax p q)%R.
Proof.
  intros H Hx. unfold calibrated.
  assert (0 <= (x - a) / (b - a) <= 1)%R as K.
  { split; [apply Rmult_le_pos; [lra | left; apply Rinv_0_lt_compat; lra] | apply Rmult_le_reg_r with (b - a)%R; [lra|]].
    unfold Rdiv. rewrite Rmult_assoc, Rinv_l by lra. lra. }
  unfold Rmin, Rmax. destruct (Rle_dec p q); nra.
Qed.

Lemma move_in_range (s : servo RA) :
  sane s -> in_range s (s_cur s) ->
  exists p, servo_move RA s = Ok p /\
    p = rtrunc (calibrated (s_min s) (s_max s) (IZR (s_minF s)) (IZR (s_maxF s)) (s_cur s)) /\
    Z.min (s_minF s) (s_maxF s) <= p <= Z.max (s_minF s) (s_maxF s).
Proof.
  intros (Hl & Ha & Hb) Hr. unfold servo_move. cbn [fofz RA].
  rewrite map_float_RA by auto.
  pose proof (calibrated_range (s_min s) (s_max s) (IZR (s_minF s)) (IZR (s_maxF s)) (s_cur s) Hl Hr) as [L U].
  set (x := calibrated _ _ _ _ _) in *.
  assert (Z.min (s_minF s) (s_maxF s) <= rtrunc x <= Z.max (s_minF s) (s_maxF s)) as B.
  { split.
    - rewrite <- (rtrunc_IZR (Z.min _ _)). apply rtrunc_mono.
      eapply Rle_trans; [|exact L]. unfold Rmin; destruct Rle_dec as [X|X]; apply IZR_le; lia.
    - rewrite <- (rtrunc_IZR (Z.max _ _)). apply rtrunc_mono.
      eapply Rle_trans; [exact U|]. unfold Rmax; destruct Rle_dec as [X|X]; apply IZR_le; lia. }
  exists (rtrunc x). rewrite to_int_RA by lia. cbn.
  rewrite u32_small by lia. auto.
Qed.

Lemma advance_config s d : same_config s (servo_advance RA s d).
Proof.
  unfold same_config. rewrite advance_eq. cbv zeta.
  destruct Rlt_dec; [cbn; auto|]. destruct Rlt_dec; cbn; auto.
Qed.

Lemma on_way_range a x b lo hi : on_way a x b -> (lo <= a <= hi)%R -> (lo <= b <= hi)%R -> (lo <= x <= hi)%R.
Proof. unfold on_way; intros; lra. Qed.

Lemma ideal_between a t v T : (0 <= v * T / 1000)%R -> on_way a (ideal a t v T) t.
Proof. intros H. unfold ideal, on_way. mcases; rabs; lra. Qed.

(** in range, the ticks are never undefined *)
Lemma ticks_defined a t v dts : forall T s,
  (0 < v)%R -> 0 <= T -> Forall (fun d => 0 <= d) dts -> T + total dts < 4294967296 ->
  MInv a t v T s -> sane s -> in_range s a -> in_range s t ->
  exists s', sop_run RA s (ticks RA dts) = Ok s'.
Proof.
  induction dts as [|d l IH]; intros T s Hv HT Hn Hs I Hsane Ha Ht.
  - exists s; reflexivity.
  - inversion Hn as [|? ? Hd Hl]; subst.
    change (total (d :: l)) with (d + total l) in *.
    pose proof (total_nonneg l Hl).
    pose proof (advance_config s d) as (C1 & C2 & C3 & C4 & C5).
    assert (I' : MInv a t v (T + d) (servo_advance RA s d)) by (apply minv_tick; auto; lia).
    assert (sane (servo_advance RA s d)) as S' by (unfold sane in *; rewrite C1, C2, C3, C4; auto).
    assert (forall x, in_range s x -> in_range (servo_advance RA s d) x) as R'
      by (intros x; unfold in_range; rewrite C1, C2; auto).
    assert (0 <= IZR (T + d))%R by (apply IZR_le; lia).
    destruct (move_in_range (servo_advance RA s d)) as (p & Ep & _); auto.
    { rewrite (minv_cur _ _ _ _ _ I').
      eapply on_way_range; [apply ideal_between| apply R' in Ha; exact Ha | apply R' in Ht; exact Ht].
      nra. }
    cbn [ticks map sop_run sop_step]. unfold servo_process. rewrite Ep. cbn [bind].
    apply (IH (T + d)); auto; lia.
Qed.

(** ** speed requests *)
Lemma set_vel_RA (s : servo RA) (v : R) :
  servo_set_vel RA s v =
  with_vel RA s (if Rlt_dec (s_maxvel s) v then s_maxvel s
                 else if Rle_dec v 0 then (1 / 10)%R else v).
Proof.
  unfold servo_set_vel. cbn [flt fle fofz d2f ddec RA]. unfold rltb, rleb.
  destruct (Rlt_dec (s_maxvel s) v); [reflexivity|].
  change (IZR 0) with 0%R. destruct (Rle_dec v 0); [|reflexivity].
  rewrite rdec_1. reflexivity.
Qed.

Lemma set_vel_range (s : servo RA) (v : R) :
  (1 / 10 <= s_maxvel s)%R ->
  (0 < s_vel (servo_set_vel RA s v) <= s_maxvel s)%R /\
  s_maxvel (servo_set_vel RA s v) = s_maxvel s.
Proof.
  intros H. rewrite set_vel_RA. cbn.
  destruct (Rlt_dec (s_maxvel s) v); [split; [lra|auto]|].
  destruct (Rle_dec v 0); split; auto; lra.
Qed.

(** ** speed limit between ticks *)
Lemma ideal_lipschitz a t v T d :
  (0 <= v)%R -> (0 <= T)%R -> (0 <= d)%R ->
  (Rabs (ideal a t v (T + d) - ideal a t v T) <= v * d / 1000)%R.
Proof.
  intros Hv HT Hd. unfold ideal.
  assert (0 <= v * d / 1000)%R by nra.
  assert (0 <= v * T / 1000)%R by nra.
  replace (v * (T + d) / 1000)%R with (v * T / 1000 + v * d / 1000)%R by (unfold Rdiv; ring).
  mcases; rabs; lra.
Qed.

(** ticks, and uninterrupted (setCurrentAngleVelocity; setTargetRadAngle) pairs *)
Inductive sev := ETick (d : Z) | EMove (v t : R) | ETarget (t : R).
Definition sev_ops (e : sev) : list (sop RA) :=
  match e with
  | ETick d => [STick d]
  | EMove v t => SVel (v : F RA) :: STarget RA t
  | ETarget t => STarget RA t
  end.
Definition sev_time (e : sev) : Z := match e with ETick d => d | _ => 0 end.
Definition sev_ok (e : sev) : Prop := match e with ETick d => 0 <= d | _ => True end.

Definition SInv (m : R) (T : Z) (s : servo RA) : Prop :=
  s_maxvel s = m /\ (0 < s_vel s <= m)%R /\
  exists a t U, 0 <= U <= T /\ MInv a t (s_vel s) U s.

Lemma with_vel_config s v : s_maxvel (with_vel RA s v) = s_maxvel s.
Proof. reflexivity. Qed.

Lemma advance_vel s d : s_vel (servo_advance RA s d) = s_vel s.
Proof. rewrite advance_eq. cbv zeta. destruct Rlt_dec; [reflexivity|]. destruct Rlt_dec; reflexivity. Qed.

Lemma sinv_target m T (s : servo RA) (t : R) :
  0 <= T -> s_maxvel s = m -> (0 < s_vel s <= m)%R -> SInv m T (servo_set_target RA s t).
Proof.
  intros HT Hm Hv. unfold SInv. split; [exact Hm|]. split; [exact Hv|].
  exists (s_cur s), t, 0. split; [lia|]. exact (minv_start s t (proj1 Hv)).
Qed.

Lemma sinv_event m T s e s' :
  (1 / 10 <= m)%R -> 0 <= T -> sev_ok e -> T + sev_time e < 4294967296 ->
  SInv m T s -> sop_run RA s (sev_ops e) = Ok s' -> SInv m (T + sev_time e) s'.
Proof.
  intros Hm HT Ho Ht I R. destruct e as [d|v t|t]; cbn [sev_ops sev_time sev_ok] in *.
  - destruct I as (M & V & a & t & U & HU & I).
    cbn [sop_run] in R. destruct (sop_step RA s (STick d)) as [s1|] eqn:E; [|discriminate].
    cbn [bind] in R. inversion R; subst s1. apply tick_inv in E. subst s'.
    destruct (advance_config s d) as (_ & _ & _ & _ & C).
    split; [now rewrite C|]. rewrite advance_vel. split; [exact V|].
    exists a, t, (U + d). split; [lia|]. apply minv_tick; auto; try lia; lra.
  - destruct I as (M & V & _). rewrite Z.add_0_r.
    assert (s' = servo_set_target RA (servo_set_vel RA s v) t) as ->
      by (cbn in R; inversion R; reflexivity).
    destruct (set_vel_range s v) as [A B]; [now rewrite M|].
    apply sinv_target; auto; [now rewrite B | now rewrite <- M].
  - destruct I as (M & V & _). rewrite Z.add_0_r.
    assert (s' = servo_set_target RA s t) as -> by (cbn in R; inversion R; reflexivity).
    apply sinv_target; auto.
Qed.

Lemma sinv_events m evs : forall T s s',
  (1 / 10 <= m)%R -> 0 <= T -> Forall sev_ok evs -> T + total (map sev_time evs) < 4294967296 ->
  SInv m T s -> sop_run RA s (flat_map sev_ops evs) = Ok s' -> SInv m (T + total (map sev_time evs)) s'.
Proof.
  induction evs as [|e l IH]; intros T s s' Hm HT Ho Ht I R.
  - cbn in R. inversion R; subst. cbn. now rewrite Z.add_0_r.
  - inversion Ho as [|? ? He Hl]; subst. cbn [flat_map] in R.
    rewrite sop_run_app in R.
    destruct (sop_run RA s (sev_ops e)) as [s1|] eqn:E; [|discriminate]. cbn [bind] in R.
    change (total (map sev_time (e :: l))) with (sev_time e + total (map sev_time l)) in *.
    assert (0 <= total (map sev_time l)).
    { apply total_nonneg. clear - Hl. induction Hl as [|x l Hx]; constructor; auto.
      destruct x; cbn in *; lia. }
    assert (0 <= sev_time e) by (destruct e; cbn in *; lia).
    rewrite Z.add_assoc. eapply IH; eauto; try lia.
    eapply sinv_event; eauto; lia.
Qed.

Lemma sinv_new pin (m : R) minF maxF (mn mx home : R) s p :
  (1 / 10 <= m)%R -> servo_new RA pin (m : F RA) minF maxF mn mx home = Ok (s, p) -> SInv m 0 s.
Proof.
  intros Hm H. unfold servo_new in H.
  destruct (servo_move RA _) in H; cbn [bind] in H; [|discriminate]. inversion H; subst.
  unfold SInv; cbn [s_maxvel s_vel]. split; [reflexivity|]. split; [lra|].
  exists home, home, 0. split; [lia|]. unfold MInv; cbn. splits; auto. left. splits; auto.
  - now rewrite ideal_0.
  - replace (home - home)%R with 0%R by ring. rewrite Rabs_R0. lra.
Qed.

Lemma sinv_step m T s d s' :
  0 <= T -> 0 <= d -> T + d < 4294967296 -> SInv m T s -> sop_step RA s (STick d) = Ok s' ->
  (Rabs (s_cur s' - s_cur s) <= m * IZR d / 1000)%R.
Proof.
  intros HT Hd Hs (M & V & a & t & U & HU & I) R. apply tick_inv in R. subst s'.
  assert (I' : MInv a t (s_vel s) (U + d) (servo_advance RA s d)) by (apply minv_tick; auto; try lia; lra).
  rewrite (minv_cur _ _ _ _ _ I), (minv_cur _ _ _ _ _ I'). rewrite plus_IZR.
  assert (0 <= IZR U)%R by (apply IZR_le; lia). assert (0 <= IZR d)%R by (apply IZR_le; lia).
  eapply Rle_trans; [apply ideal_lipschitz; lra|].
  apply Rmult_le_compat_r; [lra|]. nra.
Qed.

(** ** comparisons of IEEE numbers *)
From Coq Require Import Floats.SpecFloat.
Definition sf_notnan (x : spec_float) : Prop := x <> S754_nan.

Lemma SFcompare_some x y : sf_notnan x -> sf_notnan y -> exists c, SFcompare x y = Some c.
Proof.
  unfold sf_notnan. intros Hx Hy.
  destruct x as [?|[]| |[]], y as [?|[]| |[]]; try congruence; cbn; eauto;
    destruct (e ?= e0)%Z; eauto.
Qed.
Lemma SFcompare_sym x y c : SFcompare x y = Some c -> SFcompare y x = Some (CompOpp c).
Proof.
  destruct x as [?|[]| |[] m e], y as [?|[]| |[] m' e']; cbn; intros H; try congruence;
    try (inversion H; subst; reflexivity);
    rewrite (Z.compare_antisym e e'); destruct (e ?= e')%Z; cbn; inversion H; subst; cbn; auto;
    change (Pos.compare_cont Eq m' m) with (Pos.compare m' m);
    change (Pos.compare_cont Eq m m') with (Pos.compare m m');
    rewrite (Pos.compare_antisym m m'); destruct (Pos.compare m m'); auto.
Qed.
Lemma SFltb_false x y : sf_notnan x -> sf_notnan y -> SFltb x y = false -> SFleb y x = true.
Proof.
  intros Hx Hy. destruct (SFcompare_some x y Hx Hy) as [c E].
  unfold SFltb, SFleb. rewrite (SFcompare_sym _ _ _ E), E. destruct c; cbn; auto; discriminate.
Qed.
Lemma SFleb_false x y : sf_notnan x -> sf_notnan y -> SFleb x y = false -> SFltb y x = true.
Proof.
  intros Hx Hy. destruct (SFcompare_some x y Hx Hy) as [c E].
  unfold SFltb, SFleb. rewrite (SFcompare_sym _ _ _ E), E. destruct c; cbn; auto; discriminate.
Qed.
Lemma SFleb_refl x : sf_notnan x -> SFleb x x = true.
Proof.
  intros Hx. destruct (SFcompare_some x x Hx Hx) as [c E].
  pose proof (SFcompare_sym _ _ _ E) as E'. rewrite E in E'. inversion E'.
  unfold SFleb. rewrite E. destruct c; auto; discriminate.
Qed.
