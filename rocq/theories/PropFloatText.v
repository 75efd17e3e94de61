(** * The numbers of an instruction in the arithmetic of the device: how close they are to what is written *)
From Coq Require Import Reals Lra ZArith Lia Floats.SpecFloat.
From Flocq Require Import Core BinarySingleNaN.
From Verif Require Import Base Arith FloatBridge ServoModel ServoFloat DecFloat RobotModel MrilModel MrilSpec MrilProofs DeviceModel PropRobot PropSettings.
Open Scope Z_scope.

(** the decimal number written: sign, digits, digits after the point *)
Definition decimal (n : numeral) : R :=
  let f := match nfrac n with None => [] | Some f => f end in
  ((if nneg n then -1 else 1) * (IZR (val10 (nint n ++ f)) / 10 ^ length f))%R.

Lemma val10_pos ds : Forall digit_ok ds -> 0 <= val10 ds.
Proof.
  induction 1 as [|d r D F IH]; cbn [val10]; [lia|]. unfold digit_ok in D. pose proof (Z.pow_nonneg 10 (zlen r) ltac:(lia)). nia.
Qed.
Lemma zlen_length {T} (l : list T) : zlen l = Z.of_nat (length l).
Proof. reflexivity. Qed.

Section Text.
Context (L : libm).
Notation A := (IEEE L).

Lemma decimal_rdec n : decimal n = match num_val n with NDec s m e => rdec s m e | _ => 0%R end.
Proof.
  unfold decimal, num_val, rdec. destruct (nfrac n) as [f|].
  - rewrite zlen_length, powerRZ_neg', <- pow_powerRZ. unfold Rdiv. ring.
  - rewrite app_nil_r. cbn [length pow powerRZ]. field.
Qed.
(** the double, and the float, read *)
Lemma num_v n : numeral_ok n -> (Rabs (decimal n) <= 1000000000000)%R ->
  v64 (num_double A (num_val n)) (r64 (decimal n)) /\ v32 (d2f A (num_double A (num_val n))) (r32 (r64 (decimal n))).
Proof.
  intros (D1 & D2) B. rewrite decimal_rdec in *.
  assert (M : exists s m e, num_val n = NDec s m e /\ 0 <= m).
  { unfold num_val. destruct (nfrac n) as [f|]; do 3 eexists; (split; [reflexivity|]); apply val10_pos; auto. apply Forall_app. tauto. }
  destruct M as (s & m & e & E & M). rewrite E in *. cbn [num_double ddec d2f IEEE].
  assert (V : v64 (sf_dec 53 1024 s m e) (r64 (rdec s m e))) by (apply (fv_dec 53 1024); [exact M|apply r64_bound; lra]).
  split; [exact V|]. apply (fv_conv 53 1024 24 128); [exact V|]. apply r32_bound. pose proof (r64_error (rdec s m e)) as R6.
  pose proof tiny_small. set (y := r64 (rdec s m e)) in *. apply Rabs_bounds in R6. apply Rabs_bounds in B. pose proof (Rabs_le_of _ _ B). apply Rabs_le. lra.
Qed.
Lemma written_eq n : written A n = d2f A (num_double A (num_val n)).
Proof. unfold written, num_val. destruct (nfrac n); reflexivity. Qed.

(** a better bound for doubles *)
Lemma r64_close x : (Rabs (r64 x - x) <= Rabs x / 9007199254740992 + tiny)%R.
Proof.
  pose proof (rnd_error 53 1024 x) as E. fold (r64 x) in E. unfold half_ulp_rel, eta in E.
  pose proof (bpow_tiny 1074 ltac:(lia)) as T. replace (3 - 1024 - 53) with (- (1074)) in E by lia.
  replace (bpow radix2 (- (53) + 1)) with (/ 4503599627370496)%R in E; [lra|].
  change (- (53) + 1) with (- (52)). rewrite bpow_opp. rewrite <- IZR_Zpower by lia. reflexivity.
Qed.
Lemma tri3 a b c x y z : (Rabs (a - b) <= x -> Rabs (b - c) <= y -> x + y <= z -> Rabs (a - c) <= z)%R.
Proof. intros H1 H2 H3. replace (a - c)%R with ((a - b) + (b - c))%R by ring. eapply Rle_trans; [apply Rabs_triang|]. lra. Qed.
Lemma abs_of a b x : (Rabs (a - b) <= x -> Rabs a <= Rabs b + x)%R.
Proof. intros H. replace a with ((a - b) + b)%R by ring. eapply Rle_trans; [apply Rabs_triang|]. lra. Qed.

Lemma two_rounds x : (Rabs (r32 (r64 x) - x) <= Rabs x * (6 / 100000000) + 3 * tiny)%R.
Proof.
  pose proof (r64_close x) as E1. pose proof (r32_error (r64 x)) as E2. pose proof (abs_of _ _ _ E1) as B. pose proof tiny_pos. pose proof (Rabs_pos x).
  eapply tri3; [exact E2|exact E1|]. lra.
Qed.

Lemma tiny_30 : (100 * tiny <= 1 / 10 ^ 30)%R.
Proof.
  assert (TT : (tiny <= / (100 * 10 ^ 30))%R).
  { unfold tiny. apply Rinv_le_contravar; [lra|]. replace (100 * 10 ^ 30)%R with (IZR (100 * 10 ^ 30)) by (rewrite mult_IZR, (pow_IZR 10 30); reflexivity).
    apply IZR_le. vm_compute. discriminate. }
  assert (P : (0 < / 10 ^ 30)%R) by (apply Rinv_0_lt_compat, pow_lt; lra).
  rewrite Rinv_mult in TT. lra.
Qed.

(** The value stored is the number written to within 6 units in the 8th digit; integers up to 2^24 are stored exactly. *)
Theorem C63_written_ieee (n : numeral) : numeral_ok n -> (Rabs (decimal n) <= 1000000000000)%R ->
  exists w, v32 (written A n) w /\ (Rabs (w - decimal n) <= Rabs (decimal n) * (6 / 100000000) + 1 / 10 ^ 30)%R /\
    forall z, Z.abs z <= 16777216 -> decimal n = IZR z -> w = IZR z.
Proof.
  intros OK B. destruct (num_v n OK B) as [_ V]. rewrite written_eq. exists (r32 (r64 (decimal n))). split; [exact V|]. split.
  - eapply Rle_trans; [apply two_rounds|]. pose proof tiny_30. pose proof tiny_pos. lra.
  - intros z Z ->. replace (r64 (IZR z)) with (IZR z); [now apply r32_IZR|]. symmetry. apply (rnd_IZR 53 1024); [|lia].
    apply Z.le_trans with (1 := Z). vm_compute. discriminate.
Qed.

(** a float times a double constant close to k, in double and rounded to float *)
Lemma scaled x a c k K : v32 x a -> (Rabs a <= 100000000000000)%R -> v64 c K -> (0 < k <= 1)%R -> (Rabs (K - k) <= k / 10000000000)%R ->
  exists w, v32 (sf_conv 24 128 (SFmul 53 1024 (sf_conv 53 1024 x) c)) w /\ (Rabs (w - a * k) <= Rabs (a * k) * (61 / 1000000000) + 6 * tiny)%R.
Proof.
  intros V B VK [k0 k1] EK. pose proof tiny_pos as T0. pose proof tiny_small as T1.
  assert (V2 : v64 (sf_conv 53 1024 x) (r64 a)) by (apply (fv_conv 24 128 53 1024); [exact V|apply r64_bound; lra]).
  pose proof (r64_close a) as E1. set (b := r64 a) in *. clearbody b.
  apply Rabs_bounds in EK.
  assert (P1 : (Rabs (b * K - a * k) <= Rabs (a * k) * (2 / 10000000000) + 2 * tiny)%R).
  { replace (b * K - a * k)%R with ((b - a) * K + a * (K - k))%R by ring. eapply Rle_trans; [apply Rabs_triang|]. rewrite !Rabs_mult, (Rabs_pos_eq k) by lra.
    rewrite (Rabs_pos_eq K) by lra. assert (Q1 : (Rabs (b - a) * K <= (Rabs a / 9007199254740992 + tiny) * (k * (1 + 1 / 10000000000)))%R).
    { apply Rmult_le_compat; [apply Rabs_pos|lra|exact E1|lra]. }
    assert (Q2 : (Rabs a * Rabs (K - k) <= Rabs a * (k / 10000000000))%R) by (apply Rmult_le_compat_l; [apply Rabs_pos|apply Rabs_le; lra]).
    pose proof (Rabs_pos a). assert (0 <= Rabs a * k)%R by (apply Rmult_le_pos; lra). assert (tiny * k <= tiny)%R by (rewrite <- (Rmult_1_r tiny) at 2; apply Rmult_le_compat_l; lra). lra. }
  assert (AK : (Rabs (a * k) <= 100000000000000)%R).
  { rewrite Rabs_mult, (Rabs_pos_eq k) by lra. rewrite <- (Rmult_1_r 100000000000000). apply Rmult_le_compat; [apply Rabs_pos|lra|exact B|lra]. }
  pose proof (abs_of _ _ _ P1) as B1.
  assert (V3 : v64 (SFmul 53 1024 (sf_conv 53 1024 x) c) (r64 (b * K))) by (apply (fv_mul 53 1024); [exact V2|exact VK|apply r64_bound; lra]).
  pose proof (r64_close (b * K)) as E2. pose proof (abs_of _ _ _ E2) as B2. set (y := r64 (b * K)) in *. clearbody y.
  assert (V4 : v32 (sf_conv 24 128 (SFmul 53 1024 (sf_conv 53 1024 x) c)) (r32 y)) by (apply (fv_conv 53 1024 24 128); [exact V3|apply r32_bound; lra]).
  exists (r32 y). split; [exact V4|]. pose proof (r32_error y) as E3. pose proof (Rabs_pos (a * k)).
  assert (P2 : (Rabs (y - a * k) <= Rabs (a * k) * (2001 / 10000000000000) + 4 * tiny)%R) by (eapply tri3; [exact E2|exact P1|]; lra).
  eapply tri3; [exact E3|exact P2|]. pose proof (abs_of _ _ _ P2). lra.
Qed.

Lemma deg_to_rad64 : v64 (DEG_TO_RAD A) (SF2R radix2 (DEG_TO_RAD A)) /\ (Rabs (SF2R radix2 (DEG_TO_RAD A) - PI / 180) <= PI / 180 / 10000000000)%R.
Proof.
  split; [let y := eval vm_compute in (DEG_TO_RAD A) in change (DEG_TO_RAD A) with y; apply fv_valid; reflexivity|].
  pose proof PI_digits. apply Rabs_le_of. lits. lra.
Qed.
Lemma rad_bound d : (Rabs d <= 1000000000000 -> Rabs (d * (PI / 180)) <= Rabs d)%R.
Proof. intros _. pose proof PI_digits. rewrite Rabs_mult, (Rabs_pos_eq (PI / 180)) by lra. rewrite <- (Rmult_1_r (Rabs d)) at 2. apply Rmult_le_compat_l; [apply Rabs_pos|lra]. Qed.

(** Joint and orientation angles, written in degrees, are stored in radians to within 13 units in the 8th digit *)
Theorem C63_radians_ieee (n : numeral) : numeral_ok n -> (Rabs (decimal n) <= 1000000000000)%R ->
  exists w, v32 (in_radians A (written A n)) w /\
    (Rabs (w - decimal n * PI / 180) <= Rabs (decimal n * PI / 180) * (13 / 100000000) + 1 / 10 ^ 30)%R.
Proof.
  intros OK B. destruct (num_v n OK B) as [_ V]. rewrite written_eq. pose proof (two_rounds (decimal n)) as E0.
  set (a := r32 (r64 (decimal n))) in *. clearbody a. pose proof tiny_pos as T0. pose proof tiny_small as T1. pose proof tiny_30 as T3. pose proof PI_digits as PD.
  pose proof (abs_of _ _ _ E0) as BA. destruct deg_to_rad64 as [VK EK].
  assert (K1 : (0 < PI / 180 <= 1)%R) by lra.
  destruct (scaled _ _ _ (PI / 180) _ V ltac:(lra) VK K1 EK) as (w & Vw & Ew).
  exists w. split; [exact Vw|]. unfold Rdiv in *. rewrite Rmult_assoc.
  set (k := (PI * / 180)%R) in *. set (d := decimal n) in *.
  assert (Q : (Rabs (a * k - d * k) <= Rabs (d * k) * (6 * / 100000000) + 3 * tiny)%R).
  { replace (a * k - d * k)%R with ((a - d) * k)%R by ring. rewrite !Rabs_mult, (Rabs_pos_eq k) by lra.
    assert (Rabs (a - d) * k <= (Rabs d * (6 * / 100000000) + 3 * tiny) * k)%R by (apply Rmult_le_compat_r; lra).
    assert (tiny * k <= tiny * 1)%R by (apply Rmult_le_compat_l; lra). lra. }
  pose proof (abs_of _ _ _ Q). pose proof (Rabs_pos (d * k)). eapply tri3; [exact Ew|exact Q|]. lra.
Qed.

(** the targets of the additional axes (computed as value / 180.0 * PI) likewise *)
Theorem C63_axis_radians_ieee (n : numeral) : numeral_ok n -> (Rabs (decimal n) <= 1000000000000)%R ->
  exists w, v32 (axis_radians A (written A n)) w /\
    (Rabs (w - decimal n * PI / 180) <= Rabs (decimal n * PI / 180) * (13 / 100000000) + 1 / 10 ^ 30)%R.
Proof.
  intros OK B. destruct (num_v n OK B) as [_ V]. rewrite written_eq. pose proof (two_rounds (decimal n)) as E0.
  set (a := r32 (r64 (decimal n))) in *. clearbody a. pose proof tiny_pos as T0. pose proof tiny_small as T1. pose proof tiny_30 as T3. pose proof PI_digits as PD.
  pose proof (abs_of _ _ _ E0) as BA. unfold axis_radians. cbn [d2f dmul ddiv f2d ddec dpi IEEE].
  set (x := sf_conv 24 128 (num_double A (num_val n))) in *.
  assert (V2 : v64 (sf_conv 53 1024 x) (r64 a)) by (apply (fv_conv 24 128 53 1024); [exact V|apply r64_bound; lra]).
  pose proof (r64_close a) as E1. pose proof (abs_of _ _ _ E1) as B1. set (b := r64 a) in *. clearbody b.
  assert (V180 : v64 (sf_dec 53 1024 false 180 0) 180).
  { replace 180%R with (SF2R radix2 (sf_dec 53 1024 false 180 0)); [|lits; lra]. let y := eval vm_compute in (sf_dec 53 1024 false 180 0) in change (sf_dec 53 1024 false 180 0) with y. apply fv_valid; reflexivity. }
  assert (VP : v64 sf_pi (SF2R radix2 sf_pi) /\ (Rabs (SF2R radix2 sf_pi - PI) <= PI / 10000000000)%R).
  { split; [let y := eval vm_compute in sf_pi in change sf_pi with y; apply fv_valid; reflexivity|]. apply Rabs_le_of. lits. lra. }
  destruct VP as [VP EP]. set (p := SF2R radix2 sf_pi) in *. clearbody p. apply Rabs_bounds in EP.
  assert (BB : (Rabs (b / 180) <= Rabs b)%R).
  { unfold Rdiv. rewrite Rabs_mult, (Rabs_pos_eq (/ 180)) by lra. rewrite <- (Rmult_1_r (Rabs b)) at 2. apply Rmult_le_compat_l; [apply Rabs_pos|lra]. }
  assert (V3 : v64 (SFdiv 53 1024 (sf_conv 53 1024 x) (sf_dec 53 1024 false 180 0)) (r64 (b / 180))) by (apply (fv_div 53 1024); [exact V2|exact V180|lra|apply r64_bound; lra]).
  pose proof (r64_close (b / 180)) as E2. pose proof (abs_of _ _ _ E2) as B2. set (c := r64 (b / 180)) in *. clearbody c.
  set (d := decimal n) in *. set (t := (d * PI / 180)%R).
  assert (EB : (Rabs (b - d) <= Rabs d * (60001 / 1000000000000) + 5 * tiny)%R) by (pose proof (Rabs_pos d); eapply tri3; [exact E1|exact E0|]; lra).
  assert (EC : (Rabs (c - d / 180) <= Rabs d / 180 * (60002 / 1000000000000) + 7 * tiny)%R).
  { assert (H : (Rabs (b / 180 - d / 180) <= Rabs d / 180 * (60001 / 1000000000000) + 5 * tiny)%R).
    { replace (b / 180 - d / 180)%R with ((b - d) / 180)%R by field. unfold Rdiv at 1. rewrite Rabs_mult, (Rabs_pos_eq (/ 180)) by lra. lra. }
    eapply tri3; [exact E2|exact H|]. pose proof (abs_of _ _ _ H) as H1. unfold Rdiv in H1 at 2. rewrite Rabs_mult, (Rabs_pos_eq (/ 180)) in H1 by lra. pose proof (Rabs_pos d). lra. }
  assert (TA : (Rabs t = Rabs d * PI / 180)%R).
  { unfold t, Rdiv. rewrite !Rabs_mult, (Rabs_pos_eq PI), (Rabs_pos_eq (/ 180)) by lra. reflexivity. }
  assert (BC : (Rabs c <= Rabs d / 180 * (1 + 60002 / 1000000000000) + 7 * tiny)%R).
  { pose proof (abs_of _ _ _ EC) as H. unfold Rdiv in H at 1. rewrite Rabs_mult, (Rabs_pos_eq (/ 180)) in H by lra. lra. }
  assert (EM : (Rabs (c * p - t) <= Rabs t * (602 / 10000000000) + 28 * tiny)%R).
  { replace (c * p - t)%R with ((c - d / 180) * PI + c * (p - PI))%R by (unfold t; field). eapply Rle_trans; [apply Rabs_triang|]. rewrite !Rabs_mult, (Rabs_pos_eq PI) by lra.
    assert (Q1 : (Rabs (c - d / 180) * PI <= (Rabs d / 180 * (60002 / 1000000000000) + 7 * tiny) * PI)%R) by (apply Rmult_le_compat_r; lra).
    assert (Q2 : (Rabs c * Rabs (p - PI) <= (Rabs d / 180 * (1 + 60002 / 1000000000000) + 7 * tiny) * (PI / 10000000000))%R).
    { apply Rmult_le_compat; [apply Rabs_pos|apply Rabs_pos|exact BC|apply Rabs_le_of; lra]. }
    assert (tiny * PI <= tiny * (315 / 100))%R by (apply Rmult_le_compat_l; lra). rewrite TA.
    assert (0 <= Rabs d * PI)%R by (apply Rmult_le_pos; [apply Rabs_pos|lra]). lra. }
  assert (BT : (Rabs t <= Rabs d)%R).
  { rewrite TA. replace (Rabs d * PI / 180)%R with (Rabs d * (PI / 180))%R by field. rewrite <- (Rmult_1_r (Rabs d)) at 2. apply Rmult_le_compat_l; [apply Rabs_pos|lra]. }
  pose proof (abs_of _ _ _ EM) as B3. pose proof (Rabs_pos t).
  assert (V4 : v64 (SFmul 53 1024 (SFdiv 53 1024 (sf_conv 53 1024 x) (sf_dec 53 1024 false 180 0)) sf_pi) (r64 (c * p))) by (apply (fv_mul 53 1024); [exact V3|exact VP|apply r64_bound; lra]).
  pose proof (r64_close (c * p)) as E4. set (y := r64 (c * p)) in *. clearbody y.
  assert (E5 : (Rabs (y - t) <= Rabs t * (603 / 10000000000) + 30 * tiny)%R) by (eapply tri3; [exact E4|exact EM|]; lra).
  pose proof (abs_of _ _ _ E5) as B5. exists (r32 y). split; [apply (fv_conv 53 1024 24 128); [exact V4|apply r32_bound; lra]|].
  eapply tri3; [exact (r32_error y)|exact E5|]. lra.
Qed.
End Text.
Print Assumptions C63_written_ieee.
Print Assumptions C63_radians_ieee.
Print Assumptions C63_axis_radians_ieee.

(** "R1-12.5": the numeral -12.5 *)
Example C63_text_reachable : let n := mkNum true [1; 2] (Some [5]) in numeral_ok n /\ decimal n = (-25 / 2)%R /\
  exists w, v32 (in_radians IF (written IF n)) w /\ (Rabs (w + 25 / 2 * PI / 180) <= 1 / 10000000)%R.
Proof.
  cbv zeta. assert (OK : numeral_ok (mkNum true [1; 2] (Some [5]))).
  { split; cbn; [repeat (apply Forall_cons; [unfold digit_ok; lia|]); apply Forall_nil|]. split; [repeat (apply Forall_cons; [unfold digit_ok; lia|]); apply Forall_nil|left; discriminate]. }
  assert (D : decimal (mkNum true [1; 2] (Some [5])) = (-25 / 2)%R).
  { unfold decimal. cbn [nneg nint nfrac]. change (val10 ([1; 2] ++ [5])) with 125. cbn [length pow]. field. }
  split; [exact OK|]. split; [exact D|].
  destruct (C63_radians_ieee flat_libm _ OK) as (w & V & E); [rewrite D; apply Rabs_le_of; lra|]. exists w. split; [exact V|].
  rewrite D in E. pose proof PI_digits. replace (-25 / 2 * PI / 180)%R with (- (25 / 2 * PI / 180))%R in E by field. rewrite Rabs_Ropp, (Rabs_pos_eq (25 / 2 * PI / 180)) in E by lra.
  replace (w - - (25 / 2 * PI / 180))%R with (w + 25 / 2 * PI / 180)%R in E by ring.
  pose proof (tiny_30). assert (1 / 10 ^ 30 <= 1 / 10 ^ 9)%R. { unfold Rdiv. rewrite !Rmult_1_l. apply Rinv_le_contravar; [apply pow_lt; lra|apply Rle_pow; [lra|lia]]. }
  cbn [pow] in H1. lra.
Qed.
