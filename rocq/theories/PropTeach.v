(** * Teach-in: the answer to a read is itself an instruction, and sending it back restores what was read *)
From Coq Require Import Reals Lra ZArith Lia Floats.SpecFloat.
From Flocq Require Import Core BinarySingleNaN.
From Verif Require Import Base Arith FloatBridge ServoModel ServoFloat DecFloat RobotModel RobotSpec IoModel MrilModel MrilSpec MrilProofs.
From Verif Require Import DeviceModel DeviceSpec DeviceProofs SystemModel SystemSpec ConfigModel PropRobot PropFloat PropFloatMoves PropFloatSync PropSettings PropFloatText PropDevice PropProgress.
Open Scope Z_scope.

(** ** Specification *)
(** String(double) and Serial.print(double): a decimal number of at most twelve characters, off by at most [eps] *)
Definition prints_within (print : spec_float -> list Z) (eps : R) : Prop :=
  forall x r, v64 x r -> (Rabs r <= 100000)%R ->
  exists n, numeral_ok n /\ zlen (show_num n) <= 12 /\ print x = show_num n /\ (Rabs (decimal n - r) <= eps)%R.

Section Spec.
Context (L : libm).
Notation A := (IEEE L).
Context (fwd p2l : V6 spec_float -> V6 spec_float).
(** the quantity a read asks for, as stored (radians, millimetres, the unit of V) *)
Definition reading (d : device A) (q : command) : spec_float :=
  match q with
  | GetVelocity => r_maxvel (d_robot d)
  | GetPose a => pose_part A (current_pose A fwd p2l (d_robot d)) a
  | GetJoint j => if j <? 6 then at6 (current_logical A p2l (d_robot d)) j
                  else s_cur (nth (Z.to_nat (j - 6)) (d_axes d) (v0 (r_servos (d_robot d))))
  | _ => S754_zero false
  end.
Definition angular (q : command) : bool := match q with GetPose a => is_angle a | GetJoint _ => true | _ => false end.
(** it is a number of ordinary size: angles up to 100 rad, the rest up to 99999 *)
Definition ordinary (d : device A) (q : command) : Prop := fin (if angular q then 100 else 99999)%R (reading d q).
(** the number a user is shown for it *)
Definition in_user_units (q : command) (x : R) : R := if angular q then (x * 180 / PI)%R else x.
Definition near (eps : R) (q : command) (x : R) (n : numeral) : Prop :=
  numeral_ok n /\ (Rabs (decimal n - in_user_units q x) <= eps + Rabs (in_user_units q x) / 10000000 + / 10 ^ 30)%R.
(** the command that writes what the read [q] shows *)
Definition writes_back (eps : R) (d : device A) (q c : command) : Prop :=
  match q, c with
  | GetMethod, SetMethod false [m] => match r_method (d_robot d) with P2P => m = 0 | LINEAR => m = 1 | CIRCULAR => False end
  | GetVelocity, SetVelocity n => near eps q (val (reading d q)) n
  | GetPose a, SetPose b n => a = b /\ near eps q (val (reading d q)) n
  | GetJoint i, SetJoint j n => i = j /\ near eps q (val (reading d q)) n
  | _, _ => False
  end.
(** how far a restored value may be off *)
Definition restored (eps : R) (ang : bool) (x y : spec_float) : Prop :=
  exists v, v32 y v /\ (Rabs (v - val x) <= (if ang then eps / 57 else eps) + (1 + eps + Rabs (val x)) * (3 / 10000000))%R.
End Spec.

(** ** Proofs *)
Lemma latest_pick {C X} (f : C -> option X) cs : forall old,
  (latest f cs old = old /\ Forall (fun c => f c = None) cs) \/ exists c, In c cs /\ f c = Some (latest f cs old).
Proof.
  induction cs as [|c cs IH]; intros old; [left; split; [reflexivity|constructor]|].
  change (latest f (c :: cs) old) with (latest f cs (match f c with Some y => y | None => old end)).
  destruct (IH (match f c with Some y => y | None => old end)) as [[E H]|(c' & I & E)].
  - destruct (f c) as [y|] eqn:Ec.
    + right. exists c. split; [now left|]. now rewrite E.
    + left. split; [exact E|]. now constructor.
  - right. exists c'. split; [now right|exact E].
Qed.

Lemma Forall2_in_l {X Y} (P : X -> Y -> Prop) l m x : Forall2 P l m -> In x l -> exists y, In y m /\ P x y.
Proof. induction 1 as [|a b l m H F IH]; [contradiction|]. intros [->|I]; [exists b; split; [now left|exact H]|]. destruct (IH I) as (y & Iy & Py). exists y. split; [now right|exact Py]. Qed.
Lemma Forall2_in_r {X Y} (P : X -> Y -> Prop) l m y : Forall2 P l m -> In y m -> exists x, In x l /\ P x y.
Proof. induction 1 as [|a b l m H F IH]; [contradiction|]. intros [->|I]; [exists a; split; [now left|exact H]|]. destruct (IH I) as (x & Ix & Px). exists x. split; [now right|exact Px]. Qed.

Lemma some_inj {X} (a b : X) : Some a = Some b -> a = b.
Proof. congruence. Qed.

Section Teach.
Context (L : libm).
Notation A := (IEEE L).
Context (fwd p2l : V6 spec_float -> V6 spec_float) (pinMap : list Z) (print : spec_float -> list Z) (eps : R).
Hypothesis (EP : (0 <= eps <= 1)%R) (PR : prints_within print eps).
Notation reading := (reading L fwd p2l).
Notation answer := (answer A fwd p2l print).

Lemma conv64 x r : v32 x r -> (Rabs r <= 100000)%R -> v64 (f2d A x) (r64 r).
Proof. intros V B. apply (fv_conv 24 128 53 1024); [exact V|]. apply r64_bound. lra. Qed.

Lemma shown_plain x : fin 99999 x -> exists n, numeral_ok n /\ zlen (show_num n) <= 12 /\ print (f2d A x) = show_num n /\
  (Rabs (decimal n - val x) <= eps + Rabs (val x) / 10000000 + / 10 ^ 30)%R.
Proof.
  intros (r & V & B). rewrite (val_v _ _ V). pose proof (r64_close r) as C. pose proof tiny_30 as T. pose proof tiny_pos as T0. pose proof (Rabs_pos r) as P.
  pose proof tiny_small as T1. destruct (PR _ _ (conv64 x r V ltac:(lra))) as (n & N & Z & E & D). { pose proof (abs_of _ _ _ C). lra. }
  exists n. split; [exact N|]. split; [exact Z|]. split; [exact E|]. eapply tri3; [exact D|exact C|]. unfold Rdiv in *. rewrite ?Rmult_1_l in *. lra.
Qed.

Lemma rad_to_deg64 : v64 (RAD_TO_DEG A) (SF2R radix2 (RAD_TO_DEG A)) /\ (Rabs (SF2R radix2 (RAD_TO_DEG A) - 180 / PI) <= 180 / PI / 10000000000 * 2)%R.
Proof.
  split; [let y := eval vm_compute in (RAD_TO_DEG A) in change (RAD_TO_DEG A) with y; apply fv_valid; reflexivity|].
  pose proof PI_digits as PD. set (k := SF2R radix2 (RAD_TO_DEG A)).
  assert (K : (k = SF2R radix2 (RAD_TO_DEG A))%R) by reflexivity. clearbody k. revert K. lits. intros K.
  assert (I : (/ PI * PI = 1)%R) by (field; lra). assert (I0 : (0 < / PI)%R) by (apply Rinv_0_lt_compat; lra).
  unfold Rdiv. set (q := (/ PI)%R) in *. apply Rabs_le_of.
  assert (Q1 : (31830988618 / 100000000000 <= q)%R) by (apply Rmult_le_reg_r with PI; [lra|]; rewrite I; lra).
  assert (Q2 : (q <= 31830988620 / 100000000000)%R) by (apply Rmult_le_reg_r with PI; [lra|]; rewrite I; lra).
  lra.
Qed.

Lemma shown_degrees x : fin 100 x -> exists n, numeral_ok n /\ zlen (show_num n) <= 12 /\ print (in_degrees A x) = show_num n /\
  (Rabs (decimal n - val x * 180 / PI) <= eps + Rabs (val x * 180 / PI) / 10000000 + / 10 ^ 30)%R.
Proof.
  intros (r & V & B). rewrite (val_v _ _ V). pose proof (r64_close r) as C. pose proof tiny_30 as T. pose proof tiny_pos as T0. pose proof (Rabs_pos r) as P.
  pose proof tiny_small as T1. pose proof (conv64 x r V ltac:(lra)) as V2. destruct rad_to_deg64 as [VK EK]. pose proof PI_digits as PD.
  set (K := SF2R radix2 (RAD_TO_DEG A)) in *. clearbody K. set (b := r64 r) in *. clearbody b.
  assert (I0 : (57 < 180 / PI < 58)%R).
  { split; apply Rmult_lt_reg_r with PI; try lra; unfold Rdiv; rewrite Rmult_assoc, Rinv_l; lra. }
  replace (r * 180 / PI)%R with (r * (180 / PI))%R by (unfold Rdiv; ring). set (k := (180 / PI)%R) in *. clearbody k. apply Rabs_bounds in EK.
  set (u := (r * k)%R). assert (AU : (Rabs u = Rabs r * k)%R) by (unfold u; rewrite Rabs_mult, (Rabs_pos_eq k); lra).
  assert (E1 : (Rabs (b * K - u) <= Rabs u * (4 / 10000000000) + 60 * tiny)%R).
  { replace (b * K - u)%R with ((b - r) * K + r * (K - k))%R by (unfold u; ring). eapply Rle_trans; [apply Rabs_triang|].
    rewrite (Rabs_mult (b - r)), (Rabs_mult r (K - k)), (Rabs_pos_eq K) by lra.
    assert (Q1 : (Rabs (b - r) * K <= (Rabs r / 9007199254740992 + tiny) * (k * 2))%R) by (apply Rmult_le_compat; [apply Rabs_pos|lra|exact C|lra]).
    assert (Q1' : (Rabs (b - r) * K <= Rabs r / 9007199254740992 * (k * 2) + tiny * 59)%R).
    { assert (Rabs (b - r) * K <= (Rabs r / 9007199254740992 + tiny) * (k * (1 + 1/100)))%R by (apply Rmult_le_compat; [apply Rabs_pos|lra|exact C|lra]).
      assert (0 <= Rabs r * k)%R by (apply Rmult_le_pos; lra). assert (tiny * (k * (1 + 1 / 100)) <= tiny * 59)%R by (apply Rmult_le_compat_l; lra). lra. }
    assert (Q2 : (Rabs r * Rabs (K - k) <= Rabs r * (k / 10000000000 * 2))%R) by (apply Rmult_le_compat_l; [apply Rabs_pos|apply Rabs_le; lra]).
    assert (0 <= Rabs r * k)%R by (apply Rmult_le_pos; lra). lra. }
  assert (BU : (Rabs u <= 5800)%R) by (rewrite AU; replace 5800%R with (100 * 58)%R by ring; apply Rmult_le_compat; lra).
  pose proof (abs_of _ _ _ E1) as B1.
  assert (V3 : v64 (in_degrees A x) (r64 (b * K))) by (apply (fv_mul 53 1024); [exact V2|exact VK|apply r64_bound; lra]).
  pose proof (r64_close (b * K)) as E2. pose proof (abs_of _ _ _ E2) as B2. set (y := r64 (b * K)) in *. clearbody y.
  assert (E3 : (Rabs (y - u) <= Rabs u * (5 / 10000000000) + 62 * tiny)%R) by (pose proof (Rabs_pos u); eapply tri3; [exact E2|exact E1|]; lra).
  destruct (PR _ _ V3 ltac:(lra)) as (n & N & Z & E & D).
  exists n. split; [exact N|]. split; [exact Z|]. split; [exact E|]. eapply tri3; [exact D|exact E3|]. pose proof (Rabs_pos u). unfold Rdiv in *. rewrite ?Rmult_1_l in *. lra.
Qed.

(** the answer to one read is the text of one write *)
Lemma one_answer (d : device A) q : read_ok q -> r_method (d_robot d) <> CIRCULAR -> ordinary L fwd p2l d q ->
  exists c, writes_back L fwd p2l eps d q c /\ command_ok c /\ answer d q = show c.
Proof.
  intros OK M F. destruct q as [| |a|j| | | | | | | | |]; cbn [read_ok] in OK; try contradiction; unfold ordinary in F; cbn [angular] in F.
  - cbn [DeviceSpec.answer]. destruct (r_method (d_robot d)) eqn:E; [exists (SetMethod false [0])|exists (SetMethod false [1])|congruence];
      (split; [cbn [writes_back]; now rewrite E|]; split; [|reflexivity]; split; [vm_compute; discriminate|]; split; [discriminate|]; split; [repeat constructor; lia|vm_compute; discriminate]).
  - destruct (shown_plain _ F) as (n & N & Z & E & D). exists (SetVelocity n). cbn [writes_back DeviceSpec.answer show]. split; [split; [exact N|exact D]|]. split; [|now rewrite <- E].
    split; [|exact N]. cbn [show]. rewrite zlen_cons. lia.
  - destruct (is_angle a) eqn:AN.
    + destruct (shown_degrees _ F) as (n & N & Z & E & D). exists (SetPose a n). cbn [writes_back DeviceSpec.answer show]. unfold near, in_user_units. cbn [angular]. rewrite AN. split; [split; [reflexivity|split; [exact N|exact D]]|]. split; [split; [|exact N]|].
      * cbn [show]. rewrite zlen_cons. lia.
      * cbv zeta. now rewrite <- E.
    + destruct (shown_plain _ F) as (n & N & Z & E & D). exists (SetPose a n). cbn [writes_back DeviceSpec.answer show]. unfold near, in_user_units. cbn [angular]. rewrite AN. split; [split; [reflexivity|split; [exact N|exact D]]|]. split; [split; [|exact N]|].
      * cbn [show]. rewrite zlen_cons. lia.
      * cbv zeta. now rewrite <- E.
  - destruct (shown_degrees _ F) as (n & N & Z & E & D). exists (SetJoint j n). cbn [writes_back DeviceSpec.answer show].
    assert (IC : int_chars j = [48 + j]) by (assert (J : j = 0 \/ j = 1 \/ j = 2 \/ j = 3 \/ j = 4 \/ j = 5 \/ j = 6 \/ j = 7) by lia; repeat destruct J as [->|J]; try reflexivity; subst; reflexivity).
    rewrite IC. split; [split; [reflexivity|split; [exact N|exact D]]|]. split.
    + split; [cbn [show]; rewrite !zlen_cons; lia|]. split; [unfold digit_ok; lia|exact N].
    + cbn [app]. do 2 f_equal. rewrite <- E. f_equal. f_equal. cbn [PropTeach.reading]. destruct (j <? 6) eqn:J; [|reflexivity].
      assert (J' : j = 0 \/ j = 1 \/ j = 2 \/ j = 3 \/ j = 4 \/ j = 5) by lia. destruct (current_logical A p2l (d_robot d)). repeat destruct J' as [->|J']; try reflexivity; subst; reflexivity.
Qed.

(** a number written, read back *)
Lemma restore_plain x n : fin 99999 x -> numeral_ok n -> (Rabs (decimal n - val x) <= eps + Rabs (val x) / 10000000 + / 10 ^ 30)%R ->
  restored eps false x (written A n).
Proof.
  intros F N D. destruct (fin_v _ _ F) as [_ B]. pose proof (Rabs_le_of _ _ B) as BA. pose proof (abs_of _ _ _ D) as BD.
  assert (T : (/ 10 ^ 30 <= 1 / 10000000000)%R). { pose proof tiny_30. assert (10000000000 <= 10 ^ 30)%R by (rewrite pow_IZR; apply IZR_le; vm_compute; discriminate). unfold Rdiv. rewrite Rmult_1_l. apply Rinv_le_contravar; lra. }
  assert (T0 : (0 < / 10 ^ 30)%R) by (apply Rinv_0_lt_compat, pow_lt; lra).
  destruct (C63_written_ieee L n N ltac:(lra)) as (w & V & E & _). exists w. split; [exact V|]. replace (1 / 10 ^ 30)%R with (/ 10 ^ 30)%R in E by (unfold Rdiv; ring).
  set (t := (/ 10 ^ 30)%R) in *. clearbody t. pose proof (Rabs_pos (val x)). eapply tri3; [exact E|exact D|]. lra.
Qed.
Lemma restore_angle x n w : fin 100 x -> (Rabs (decimal n - val x * 180 / PI) <= eps + Rabs (val x * 180 / PI) / 10000000 + / 10 ^ 30)%R ->
  (Rabs (w - decimal n * PI / 180) <= Rabs (decimal n * PI / 180) * (13 / 100000000) + 1 / 10 ^ 30)%R ->
  (Rabs (w - val x) <= eps / 57 + (1 + eps + Rabs (val x)) * (3 / 10000000))%R.
Proof.
  intros F D E. destruct (fin_v _ _ F) as [_ B]. pose proof (Rabs_le_of _ _ B) as BA. pose proof PI_digits as PD.
  assert (T : (/ 10 ^ 30 <= 1 / 10000000000)%R). { assert (10000000000 <= 10 ^ 30)%R by (rewrite pow_IZR; apply IZR_le; vm_compute; discriminate). unfold Rdiv. rewrite Rmult_1_l. apply Rinv_le_contravar; lra. }
  assert (T0 : (0 < / 10 ^ 30)%R) by (apply Rinv_0_lt_compat, pow_lt; lra).
  replace (1 / 10 ^ 30)%R with (/ 10 ^ 30)%R in E by (unfold Rdiv; ring). set (t := (/ 10 ^ 30)%R) in *. clearbody t.
  assert (K : (0 < PI / 180 <= 1 / 57)%R) by lra.
  assert (X : (Rabs (decimal n * PI / 180 - val x) <= eps / 57 + Rabs (val x) / 10000000 + t)%R).
  { replace (decimal n * PI / 180 - val x)%R with ((decimal n - val x * 180 / PI) * (PI / 180))%R by (field; lra).
    rewrite Rabs_mult, (Rabs_pos_eq (PI / 180)) by lra.
    assert (Q : (Rabs (val x * 180 / PI) * (PI / 180) = Rabs (val x))%R).
    { rewrite <- (Rabs_pos_eq (PI / 180)) at 1 by lra. rewrite <- Rabs_mult. f_equal. field. lra. }
    assert (Rabs (decimal n - val x * 180 / PI) * (PI / 180) <= (eps + Rabs (val x * 180 / PI) / 10000000 + t) * (PI / 180))%R by (apply Rmult_le_compat_r; lra).
    assert (eps * (PI / 180) <= eps * (1 / 57))%R by (apply Rmult_le_compat_l; lra). assert (t * (PI / 180) <= t * 1)%R by (apply Rmult_le_compat_l; lra). lra. }
  pose proof (abs_of _ _ _ X). pose proof (Rabs_pos (val x)). eapply tri3; [exact E|exact X|]. lra.
Qed.
Lemma small_number x n : fin 100 x -> (Rabs (decimal n - val x * 180 / PI) <= eps + Rabs (val x * 180 / PI) / 10000000 + / 10 ^ 30)%R -> (Rabs (decimal n) <= 1000000000000)%R.
Proof.
  intros F D. destruct (fin_v _ _ F) as [_ B]. pose proof (Rabs_le_of _ _ B) as BA. pose proof PI_digits as PD. pose proof (abs_of _ _ _ D) as BD.
  assert (T : (/ 10 ^ 30 <= 1)%R). { assert (1 <= 10 ^ 30)%R by (rewrite pow_IZR; apply IZR_le; vm_compute; discriminate). rewrite <- Rinv_1. apply Rinv_le_contravar; lra. }
  assert (Q : (Rabs (val x * 180 / PI) <= 100 * 58)%R).
  { replace (val x * 180 / PI)%R with (val x * (180 / PI))%R by (unfold Rdiv; ring). assert (0 < 180 / PI <= 58)%R.
    { split; [apply Rdiv_lt_0_compat; lra|]. apply Rmult_le_reg_r with PI; [lra|]. unfold Rdiv. rewrite Rmult_assoc, Rinv_l; lra. }
    rewrite Rabs_mult, (Rabs_pos_eq (180 / PI)) by lra. apply Rmult_le_compat; try lra. apply Rabs_pos. }
  lra.
Qed.

Notation parse := (dev_parse A fwd p2l pinMap print).

(** ** C69 *)
(** Every read, in any combination and order: the answer is the text of an instruction that consists of one
    well-formed write for each read, for the same quantity, with the value read to within the printing error. *)
Theorem C69_answer_is_an_instruction now (d : device A) qs :
  zlen (d_axes d) = 2 -> r_trans (d_robot d) = false -> r_method (d_robot d) <> CIRCULAR -> qs <> [] -> Forall read_ok qs -> Forall (ordinary L fwd p2l d) qs ->
  exists cs, parse now d (text_of qs) = Ok (d, [DSend (text_of cs)]) /\ Forall command_ok cs /\ Forall2 (writes_back L fwd p2l eps d) qs cs.
Proof.
  intros W T M NE OK OR. rewrite C24_reads_change_nothing by auto.
  assert (K : exists cs, flat_map (answer d) qs = text_of cs /\ Forall command_ok cs /\ Forall2 (writes_back L fwd p2l eps d) qs cs).
  { clear NE. induction qs as [|q qs IH]; [exists []; splits; constructor|].
    inversion OK as [|? ? O1 O2]; subst. inversion OR as [|? ? R1 R2]; subst. destruct (IH O2 R2) as (cs & E & C & F). destruct (one_answer d q O1 M R1) as (c & Wc & Cc & Ec).
    exists (c :: cs). split; [cbn [flat_map text_of]; unfold text_of in *; cbn [flat_map]; now rewrite E, Ec|]. split; now constructor. }
  destruct K as (cs & E & C & F). exists cs. rewrite E. auto.
Qed.

(** what was read of [d] is set in [d'], the rest is as it was in [d2] *)
Definition restores (d d2 d' : device A) (qs : list command) : Prop :=
  (In GetMethod qs -> r_method (d_robot d') = r_method (d_robot d)) /\
  (In GetVelocity qs -> restored eps false (r_maxvel (d_robot d)) (r_maxvel (d_robot d'))) /\
  (forall a, In (GetPose a) qs -> restored eps (is_angle a) (reading d (GetPose a)) (pose_part A (r_targetP (d_robot d')) a)) /\
  (forall j, 0 <= j < 6 -> In (GetJoint j) qs -> restored eps true (reading d (GetJoint j)) (at6 (r_targetA (d_robot d')) j)) /\
  (forall k s, 0 <= k < 2 -> In (GetJoint (6 + k)) qs -> restored eps true (reading d (GetJoint (6 + k))) (s_target (nth (Z.to_nat k) (d_axes d') s))).
Definition keeps (d2 d' : device A) (qs : list command) : Prop :=
  (~ In GetMethod qs -> r_method (d_robot d') = r_method (d_robot d2)) /\
  (~ In GetVelocity qs -> r_maxvel (d_robot d') = r_maxvel (d_robot d2)) /\
  (forall a, ~ In (GetPose a) qs -> pose_part A (r_targetP (d_robot d')) a = pose_part A (r_targetP (d_robot d2)) a) /\
  (forall j, 0 <= j < 6 -> ~ In (GetJoint j) qs -> at6 (r_targetA (d_robot d')) j = at6 (r_targetA (d_robot d2)) j) /\
  (forall k s, 0 <= k < 2 -> ~ In (GetJoint (6 + k)) qs -> s_target (nth (Z.to_nat k) (d_axes d') s) = s_target (nth (Z.to_nat k) (d_axes d2) s)) /\
  d_wait d' = d_wait d2 /\ d_io d' = d_io d2.

(** the last value given comes from a read of that quantity *)
Lemma pick {X} (f : command -> option X) (d : device A) q qs cs old : Forall2 (writes_back L fwd p2l eps d) qs cs ->
  (forall c, writes_back L fwd p2l eps d q c -> f c <> None) -> (forall q' c, writes_back L fwd p2l eps d q' c -> f c <> None -> q' = q) ->
  (In q qs -> exists c, writes_back L fwd p2l eps d q c /\ f c = Some (latest f cs old)) /\ (~ In q qs -> latest f cs old = old).
Proof.
  intros F H1 H2. destruct (latest_pick f cs old) as [[E N]|(c & I & E)].
  - split; [|auto]. intros IQ. exfalso. destruct (Forall2_in_l _ _ _ _ F IQ) as (c & Ic & Wc). rewrite Forall_forall in N. exact (H1 c Wc (N c Ic)).
  - destruct (Forall2_in_r _ _ _ _ F I) as (q' & Iq & Wq). assert (q' = q) by (apply (H2 q' c Wq); congruence). subst q'. split; [eauto|contradiction].
Qed.

Lemma axis_eq_iff a b : axis_eq a b = true <-> a = b.
Proof. destruct a, b; cbn; split; congruence. Qed.

Lemma show_num_chars n : numeral_ok n -> Forall (fun x => 48 <= x <= 57 \/ x = 46 \/ x = 45) (show_num n).
Proof.
  assert (D : forall ds, Forall digit_ok ds -> Forall (fun x => 48 <= x <= 57 \/ x = 46 \/ x = 45) (show_digits ds)).
  { intros ds. unfold show_digits. induction 1 as [|x ds Dx F IH]; cbn [map]; constructor; auto. unfold digit_ok in Dx. lia. }
  intros [I Fr]. unfold show_num. apply Forall_app. split; [destruct (nneg n); repeat constructor; lia|]. apply Forall_app. split; [auto|].
  destruct (nfrac n); [|constructor]. constructor; [lia|]. apply D. tauto.
Qed.

(** the text of the answer is an instruction every machine accepts *)
Lemma answer_accepted (d : device A) qs cs : Forall read_ok qs -> Forall command_ok cs -> Forall2 (writes_back L fwd p2l eps d) qs cs ->
  Forall command_text (map show cs) /\ Forall safe_command (map show cs) /\ inputs (map show cs) = 0.
Proof.
  intros OK C F. induction F as [|q c qs cs Wq F IH]; [splits; constructor|]. inversion OK as [|? ? O1 O2]; subst. inversion C as [|? ? C1 C2]; subst.
  destruct (IH O2 C2) as (I1 & I2 & I3). cbn [map inputs]. rewrite I3.
  assert (K : command_text (show c) /\ safe_command (show c) /\ is_input (show c) = 0).
  { destruct q as [| |a|j| | | | | | | | |]; cbn [read_ok] in O1; try contradiction; destruct c as [| | | |s ds|n|b n|i n| | | | |]; try contradiction; cbn [writes_back] in Wq.
    - destruct s; [contradiction|]. destruct ds as [|m [|? ?]]; try contradiction.
      assert (m = 0 \/ m = 1) as [-> | ->] by (destruct (r_method (d_robot d)); try contradiction; auto);
        (split; [split; [lia|repeat constructor; lia]|]; split; [|reflexivity]; split; [vm_compute; discriminate|]; split; [intros X; discriminate X|]; split; [intros [X|X]; discriminate X|]; intros _; eexists; reflexivity).
    - destruct Wq as [N _]. destruct C1 as [Z _]. cbn [show] in *. split; [split; [lia|now apply show_num_chars]|]. split; [|reflexivity]. split; [exact Z|].
      split; [intros X; discriminate X|]. split; [intros [X|X]; discriminate X|]. intros [X|[X|X]]; discriminate X.
    - destruct Wq as (-> & N & _). destruct C1 as [Z _]. cbn [show] in *. split; [split; [destruct b; cbn; lia|now apply show_num_chars]|]. split; [|destruct b; reflexivity]. split; [exact Z|].
      split; [intros X; destruct b; discriminate X|]. split; [intros [X|X]; destruct b; discriminate X|]. intros [X|[X|X]]; destruct b; discriminate X.
    - destruct Wq as (-> & N & _). destruct C1 as [Z _]. cbn [show] in *. split; [split; [lia|constructor; [lia|now apply show_num_chars]]|]. split; [|reflexivity]. split; [exact Z|].
      split; [intros _; do 2 eexists; split; [reflexivity|lia]|]. split; [intros [X|X]; discriminate X|]. intros [X|[X|X]]; discriminate X. }
  destruct K as (K1 & K2 & K3). rewrite K3. splits; auto; now constructor.
Qed.

(** Teach-in.  What a machine [d] answers to reads, sent to any machine [d2] (the same one later, or another of the same kind)
    at any time, is carried out and sets what was read: method, speed, targets of pose, joints and additional axes;
    everything not read stays as it was. *)
Theorem C69_answer_restores now now2 (d d2 : device A) qs :
  zlen pinMap = 10 -> zlen (d_axes d2) = 2 -> zlen (d_io d2) <= 10 ->
  zlen (d_axes d) = 2 -> r_trans (d_robot d) = false -> r_method (d_robot d) <> CIRCULAR -> qs <> [] -> Forall read_ok qs -> Forall (ordinary L fwd p2l d) qs ->
  exists text d' evs, parse now d (text_of qs) = Ok (d, [DSend text]) /\ parse now2 d2 text = Ok (d', evs) /\ pins_of evs = [] /\
    restores d d2 d' qs /\ keeps d2 d' qs.
Proof.
  intros PM W2 IO2 W T M NE OK OR. destruct (C69_answer_is_an_instruction now d qs W T M NE OK OR) as (cs & E & C & F).
  exists (text_of cs). destruct (answer_accepted d qs cs OK C F) as (K1 & K2 & K3).
  assert (TX : text_of cs = concat (map show cs)) by (unfold text_of; apply flat_map_concat_map).
  destruct (proj2 (C22_commands_safe_iff_partial A fwd p2l pinMap print now2 d2 (map show cs) PM W2 IO2 K1)) as (d' & evs & P); [split; [exact K2|lia]|].
  rewrite <- TX in P. exists d', evs. split; [exact E|]. split; [exact P|].
  assert (NC : cs <> []) by (intros ->; inversion F; subst; congruence).
  destruct (C63_instruction A fwd p2l pinMap print now2 d2 d' cs evs NC C P) as ((EM & EV & EPo & EJ & (EL & EX) & EW & EI & _ & _ & _ & _ & EPi) & _).
  rewrite Forall_forall in OR.
  (* nothing but the five kinds of writes *)
  assert (NW : Forall (fun c => wait_given now2 c = None /\ condition_given pinMap c = [] /\ pin_effect pinMap c = []) cs).
  { rewrite Forall_forall. intros c I. destruct (Forall2_in_r _ _ _ _ F I) as (q & _ & Wq). destruct q; cbn [writes_back] in Wq; try contradiction; destruct c; try contradiction; auto. }
  assert (NW1 : flat_map (condition_given pinMap) cs = [] /\ flat_map (pin_effect pinMap) cs = []).
  { clear - NW. induction NW as [|c cs (_ & B1 & B2) F IH]; [auto|]. cbn [flat_map]. destruct IH as [-> ->]. now rewrite B1, B2. }
  destruct NW1 as [N1 N2]. split; [congruence|].
  assert (PKM := pick method_given d GetMethod qs cs (r_method (d_robot d2)) F). destruct PKM as [PM1 PM2].
  { intros c Wc. destruct c; try contradiction. cbn [writes_back] in Wc. destruct neg; [contradiction|]. destruct ds as [|m [|? ?]]; try contradiction.
    destruct (r_method (d_robot d)); try contradiction; subst; discriminate. }
  { intros q' c Wc N. destruct c; cbn [method_given] in N; try congruence. destruct q'; try contradiction. reflexivity. }
  assert (PKV := pick (speed_given A) d GetVelocity qs cs (r_maxvel (d_robot d2)) F). destruct PKV as [PV1 PV2].
  { intros c Wc. destruct c; try contradiction. discriminate. }
  { intros q' c Wc N. destruct c; cbn [speed_given] in N; try congruence. destruct q'; try contradiction. reflexivity. }
  assert (PKP : forall a, (In (GetPose a) qs -> exists c, writes_back L fwd p2l eps d (GetPose a) c /\ pose_given A a c = Some (latest (pose_given A a) cs (pose_part A (r_targetP (d_robot d2)) a))) /\
    (~ In (GetPose a) qs -> latest (pose_given A a) cs (pose_part A (r_targetP (d_robot d2)) a) = pose_part A (r_targetP (d_robot d2)) a)).
  { intros a. apply pick; auto.
    - intros c Wc. destruct c; try contradiction. destruct Wc as [<- _]. cbn [pose_given]. destruct a; discriminate.
    - intros q' c Wc N. destruct c; cbn [pose_given] in N; try congruence. destruct q'; try contradiction. destruct Wc as [<- _].
      destruct (axis_eq a a1) eqn:AE; [|congruence]. apply axis_eq_iff in AE. congruence. }
  assert (PKJ : forall j old, (In (GetJoint j) qs -> exists c, writes_back L fwd p2l eps d (GetJoint j) c /\ joint_given A j c = Some (latest (joint_given A j) cs old)) /\
    (~ In (GetJoint j) qs -> latest (joint_given A j) cs old = old)).
  { intros j old. apply pick; auto.
    - intros c Wc. destruct c; try contradiction. destruct Wc as [<- _]. cbn [joint_given]. rewrite Z.eqb_refl. discriminate.
    - intros q' c Wc N. destruct c; cbn [joint_given] in N; try congruence. destruct q'; try contradiction. destruct Wc as [<- _].
      destruct (j1 =? j) eqn:AE; [|congruence]. apply Z.eqb_eq in AE. congruence. }
  assert (PKX : forall j old, (In (GetJoint j) qs -> exists c, writes_back L fwd p2l eps d (GetJoint j) c /\ axis_given A j c = Some (latest (axis_given A j) cs old)) /\
    (~ In (GetJoint j) qs -> latest (axis_given A j) cs old = old)).
  { intros j old. apply pick; auto.
    - intros c Wc. destruct c; try contradiction. destruct Wc as [<- _]. cbn [axis_given]. rewrite Z.eqb_refl. discriminate.
    - intros q' c Wc N. destruct c; cbn [axis_given] in N; try congruence. destruct q'; try contradiction. destruct Wc as [<- _].
      destruct (j1 =? j) eqn:AE; [|congruence]. apply Z.eqb_eq in AE. congruence. }
  split; [split; [|split; [|split; [|split]]]|].
  - intros I. rewrite EM. destruct (PM1 I) as (c & Wc & G). destruct c; try contradiction. cbn [writes_back] in Wc. destruct neg; [contradiction|]. destruct ds as [|m [|? ?]]; try contradiction.
    destruct (r_method (d_robot d)); try contradiction; subst m; injection G as G; exact (eq_sym G).
  - intros I. rewrite EV. destruct (PV1 I) as (c & Wc & G). destruct c; try contradiction. destruct Wc as [N D]. cbn [speed_given] in G. injection G as G. match goal with |- restored _ _ _ ?y => replace y with (written A n) by exact G end. exact (restore_plain _ _ (OR _ I) N D).
  - intros a I. rewrite EPo. destruct (proj1 (PKP a) I) as (c & Wc & G). destruct c; try contradiction. destruct Wc as (<- & N & D). cbn [pose_given] in G. rewrite (proj2 (axis_eq_iff a a) eq_refl) in G. apply some_inj in G. match type of G with ?l = _ => match goal with |- restored _ _ _ ?y => replace y with l by exact G end end.
    pose proof (OR _ I) as O. unfold ordinary in O. unfold in_user_units in D. cbn [angular] in O, D. destruct (is_angle a).
    + destruct (C63_radians_ieee L n N (small_number _ _ O D)) as (w & V & Ew). exists w. split; [exact V|]. exact (restore_angle _ _ _ O D Ew).
    + exact (restore_plain _ _ O N D).
  - intros j J I. rewrite EJ by exact J. destruct (proj1 (PKJ j (at6 (r_targetA (d_robot d2)) j)) I) as (c & Wc & G). destruct c; try contradiction. destruct Wc as (<- & N & D). cbn [joint_given] in G. rewrite Z.eqb_refl in G. apply some_inj in G. match type of G with ?l = _ => match goal with |- restored _ _ _ ?y => replace y with l by exact G end end.
    pose proof (OR _ I) as O. destruct (C63_radians_ieee L n N (small_number _ _ O D)) as (w & V & Ew). exists w. split; [exact V|]. exact (restore_angle _ _ _ O D Ew).
  - intros k s J I. rewrite (proj1 (EX k s ltac:(lia))). destruct (proj1 (PKX (6 + k) (s_target (nth (Z.to_nat k) (d_axes d2) s))) I) as (c & Wc & G). destruct c; try contradiction. destruct Wc as (<- & N & D). cbn [axis_given] in G. rewrite Z.eqb_refl in G. apply some_inj in G. match type of G with ?l = _ => match goal with |- restored _ _ _ ?y => replace y with l by exact G end end.
    pose proof (OR _ I) as O. destruct (C63_axis_radians_ieee L n N (small_number _ _ O D)) as (w & V & Ew). exists w. split; [exact V|]. exact (restore_angle _ _ _ O D Ew).
  - split; [intros I; rewrite EM; auto|]. split; [intros I; rewrite EV; auto|]. split; [intros a I; rewrite EPo; now apply PKP|].
    split; [intros j J I; rewrite EJ by exact J; now apply PKJ|]. split; [intros k s J I; rewrite (proj1 (EX k s ltac:(lia))); now apply PKX|].
    split.
    + rewrite EW. destruct (latest_pick (wait_given now2) cs (d_wait d2)) as [[X _]|(c & I & X)]; [exact X|]. rewrite Forall_forall in NW. destruct (NW c I) as [Y _]. congruence.
    + now rewrite EI, N1, app_nil_r.
Qed.
End Teach.
Print Assumptions C69_answer_is_an_instruction.
Print Assumptions C69_answer_restores.

(** ** printing with two decimals, rounded to nearest: such a String(double) exists *)
Fixpoint dig (k : nat) (n : Z) : list Z :=
  match k with O => [] | S k => if n <? 10 then [n] else dig k (n / 10) ++ [n mod 10] end.
(** the number times 100, rounded *)
Definition hundredths (m e : Z) : Z := if 0 <=? e then 100 * m * 2 ^ e else (200 * m + 2 ^ (- e)) / (2 * 2 ^ (- e)).
Definition two_places (x : spec_float) : list Z :=
  match x with
  | S754_zero s => show_num (mkNum s [0] (Some [0; 0]))
  | S754_infinity s => (if s then [45] else []) ++ [105; 110; 102]
  | S754_nan => [110; 97; 110]
  | S754_finite s m e => let n := hundredths (Z.pos m) e in show_num (mkNum s (dig 400 (n / 100)) (Some [n / 10 mod 10; n mod 10]))
  end.

Lemma val10_app a d : val10 (a ++ [d]) = val10 a * 10 + d.
Proof.
  induction a as [|x a IH]; cbn [app val10]; [change (zlen (@nil Z)) with 0; lia|]. rewrite IH. rewrite zlen_app. change (zlen [d]) with 1. rewrite Z.pow_add_r by (unfold zlen; lia). lia.
Qed.
Lemma dig_ok k : forall n, 0 <= n < 10 ^ Z.of_nat k -> val10 (dig k n) = n /\ Forall digit_ok (dig k n).
Proof.
  induction k as [|k IH]; intros n B; [change (10 ^ Z.of_nat 0) with 1 in B; cbn [dig val10]; split; [lia|constructor]|].
  cbn [dig]. destruct (n <? 10) eqn:E.
  - cbn [val10]. change (zlen (@nil Z)) with 0. split; [lia|]. constructor; [unfold digit_ok; lia|constructor].
  - rewrite val10_app. destruct (IH (n / 10)) as [V D].
    { split; [apply Z.div_pos; lia|]. apply Z.div_lt_upper_bound; [lia|]. replace (10 * 10 ^ Z.of_nat k) with (10 ^ Z.of_nat (S k)); [lia|]. rewrite Nat2Z.inj_succ, Z.pow_succ_r; lia. }
    rewrite V. pose proof (Z.div_mod n 10 ltac:(lia)). pose proof (Z.mod_pos_bound n 10 ltac:(lia)). split; [lia|]. apply Forall_app. split; [exact D|]. constructor; [unfold digit_ok; lia|constructor].
Qed.
Lemma dig_len k : forall n j, 0 <= n < 10 ^ j -> 1 <= j -> zlen (dig k n) <= j.
Proof.
  induction k as [|k IH]; intros n j B J; [change (zlen (dig 0 n)) with 0; lia|]. cbn [dig]. destruct (n <? 10) eqn:E; [change (zlen [n]) with 1; lia|].
  rewrite zlen_app. change (zlen [n mod 10]) with 1. assert (J2 : 1 <= j - 1). { assert (j <> 1) by (intros ->; lia). lia. }
  assert (zlen (dig k (n / 10)) <= j - 1); [|lia]. apply IH; [|exact J2]. split; [apply Z.div_pos; lia|]. apply Z.div_lt_upper_bound; [lia|].
  replace (10 * 10 ^ (j - 1)) with (10 ^ j); [lia|]. rewrite <- Z.pow_succ_r by lia. f_equal. lia.
Qed.
Lemma dig_nonempty k n : dig (S k) n <> [].
Proof. cbn [dig]. destruct (n <? 10); [discriminate|]. destruct (dig k (n / 10)); discriminate. Qed.

Lemma hundredths_near m e : 0 <= m -> (Rabs (IZR (hundredths m e) - 100 * (IZR m * bpow radix2 e)) <= 1 / 2)%R /\ 0 <= hundredths m e.
Proof.
  intros M. unfold hundredths. destruct (0 <=? e) eqn:E.
  - rewrite <- IZR_Zpower by lia. rewrite !mult_IZR. change (Zpower radix2 e) with (2 ^ e). split; [|pose proof (Z.pow_nonneg 2 e ltac:(lia)); nia].
    replace (100 * IZR m * IZR (2 ^ e) - 100 * (IZR m * IZR (2 ^ e)))%R with 0%R by ring. rewrite Rabs_R0. lra.
  - assert (P : 0 < 2 ^ (- e)) by (apply Z.pow_pos_nonneg; lia). set (p := 2 ^ (- e)) in *.
    assert (BP : (bpow radix2 e = / IZR p)%R). { replace e with (- (- e)) at 1 by lia. rewrite bpow_opp. rewrite <- IZR_Zpower by lia. reflexivity. }
    rewrite BP. set (q := (200 * m + p) / (2 * p)). pose proof (Z.div_mod (200 * m + p) (2 * p) ltac:(lia)) as DM. pose proof (Z.mod_pos_bound (200 * m + p) (2 * p) ltac:(lia)) as MB. fold q in DM.
    set (r := (200 * m + p) mod (2 * p)) in *. split; [|apply Z.div_pos; lia].
    assert (P' : (0 < IZR p)%R) by (apply (IZR_lt 0); exact P).
    assert (EQ : (IZR q * (2 * IZR p) = 200 * IZR m + IZR p - IZR r)%R).
    { assert (X : q * (2 * p) = 200 * m + p - r) by lia. apply (f_equal IZR) in X. rewrite minus_IZR, plus_IZR, !mult_IZR in X. exact X. }
    assert (R1 : (0 <= IZR r <= 2 * IZR p)%R). { split; [apply (IZR_le 0); lia|]. rewrite <- (mult_IZR 2 p). apply IZR_le. lia. }
    replace (IZR q - 100 * (IZR m * / IZR p))%R with ((IZR p - IZR r) / (2 * IZR p))%R.
    + apply Rabs_le_of. unfold Rdiv. split.
      * apply Rmult_le_reg_r with (2 * IZR p)%R; [lra|]. rewrite Rmult_assoc, Rinv_l by lra. lra.
      * apply Rmult_le_reg_r with (2 * IZR p)%R; [lra|]. rewrite Rmult_assoc, Rinv_l by lra. lra.
    + apply Rmult_eq_reg_r with (2 * IZR p)%R; [|lra]. unfold Rdiv. rewrite Rmult_assoc, Rinv_l by lra. replace ((IZR q - 100 * (IZR m * / IZR p)) * (2 * IZR p))%R with (IZR q * (2 * IZR p) - 200 * IZR m * (/ IZR p * IZR p))%R by ring. rewrite Rinv_l by lra. rewrite EQ. lra.
Qed.

Theorem C69_two_places : prints_within two_places (1 / 200).
Proof.
  intros x r (b & <- & F & <-) B. destruct b as [s|s| |s m e V]; try discriminate; cbn [B2SF two_places B2R] in *.
  - exists (mkNum s [0] (Some [0; 0])). split; [split; [repeat constructor; lia|split; [repeat constructor; lia|left; discriminate]]|]. split; [destruct s; vm_compute; discriminate|]. split; [reflexivity|].
    unfold decimal. cbn [nfrac nneg nint app val10 length]. destruct s; cbn; apply Rabs_le_of; lra.
  - set (n := hundredths (Z.pos m) e). destruct (hundredths_near (Z.pos m) e ltac:(lia)) as [N1 N0]. fold n in N1, N0.
    assert (AB : (Rabs (F2R (Float radix2 (cond_Zopp s (Z.pos m)) e)) = IZR (Z.pos m) * bpow radix2 e)%R).
    { unfold F2R. cbn [Fnum Fexp]. rewrite Rabs_mult, (Rabs_pos_eq (bpow radix2 e)) by apply bpow_ge_0. f_equal. rewrite <- abs_IZR. destruct s; reflexivity. }
    cbn [Fnum Fexp] in *. rewrite AB in B. apply Rabs_bounds in N1.
    assert (NB : n <= 10000000). { apply le_IZR. assert (H : (IZR n <= 100 * 100000 + 1 / 2)%R) by lra. assert (IZR n < IZR 10000001)%R by lra. apply lt_IZR in H0. apply IZR_le. lia. }
    assert (Q : 0 <= n / 100 < 10 ^ 6). { split; [apply Z.div_pos; lia|]. apply Z.div_lt_upper_bound; lia. }
    destruct (dig_ok 400 (n / 100)) as [DV DD]. { split; [apply Q|]. apply Z.lt_trans with (10 ^ 6); [apply Q|]. reflexivity. }
    pose proof (dig_len 400 (n / 100) 6 Q ltac:(lia)) as DL. pose proof (dig_nonempty 399 (n / 100)) as DN.
    set (l := dig 400 (n / 100)) in *. change (dig (S 399) (n / 100)) with l in DN. clearbody l.
    pose proof (Z.mod_pos_bound (n / 10) 10 ltac:(lia)) as M1. pose proof (Z.mod_pos_bound n 10 ltac:(lia)) as M2.
    exists (mkNum s l (Some [n / 10 mod 10; n mod 10])). split; [split; [exact DD|split; [repeat (constructor; [unfold digit_ok; lia|]); constructor|left; exact DN]]|].
    split; [|split; [reflexivity|]].
    + unfold show_num. cbn [nneg nint nfrac]. unfold show_digits. rewrite !zlen_app. rewrite PropSettings.zlen_map. cbn [map]. rewrite !zlen_cons. change (zlen (@nil Z)) with 0. destruct s; [change (zlen [45]) with 1|change (zlen (@nil Z)) with 0]; lia.
    + unfold decimal. cbn [nfrac nneg nint length].
      assert (VN : val10 (l ++ [n / 10 mod 10; n mod 10]) = n).
      { change [n / 10 mod 10; n mod 10] with ([n / 10 mod 10] ++ [n mod 10]). rewrite app_assoc, !val10_app, DV.
        pose proof (Z.div_mod n 10 ltac:(lia)). pose proof (Z.div_mod (n / 10) 10 ltac:(lia)) as D2. rewrite Z.div_div in D2 by lia. change (10 * 10) with 100 in D2. lia. }
      rewrite VN. assert (FR : (F2R (Float radix2 (cond_Zopp s (Z.pos m)) e) = (if s then -1 else 1) * (IZR (Z.pos m) * bpow radix2 e))%R).
      { unfold F2R. cbn [Fnum Fexp]. destruct s; cbn [cond_Zopp]; [rewrite opp_IZR|]; ring. }
      rewrite FR. replace (10 ^ 2)%R with 100%R by (cbn; ring). set (v := (IZR (Z.pos m) * bpow radix2 e)%R) in *. apply Rabs_le_of. destruct s; lra.
Qed.
Print Assumptions C69_two_places.
(** 12.345, -0.004 and 1000 *)
Example C69_prints : two_places (sf_dec 53 1024 false 12345 (-3)) = [49; 50; 46; 51; 53] /\ two_places (sf_dec 53 1024 true 4 (-3)) = [45; 48; 46; 48; 48] /\ two_places (sf_dec 53 1024 false 1000 0) = [49; 48; 48; 48; 46; 48; 48].
Proof. repeat split; vm_compute; reflexivity. Qed.

(** ** the kit *)
(** Whatever is sent to the kit's controller, whenever: unless a NaN was commanded, all six joints can be taught. *)
Theorem C69_kit_joints (L : libm) fwd inv l2p limits pinMap print sgn axs junk mem s0 stims s tr :
  let A := IEEE L in
  sys_boot A fwd (kit_p2l A) (kit_servos A) axs junk mem = Ok s0 ->
  sys_run A fwd inv l2p (kit_p2l A) limits pinMap print sgn s0 stims = Ok (s, tr) ->
  Forall (fun '(i, v, a) => number v /\ number a) (commanded tr) ->
  forall j, 0 <= j < 6 -> ordinary L fwd (kit_p2l A) (y_dev s) (GetJoint j).
Proof.
  intros A B R N j J. destruct (C32_kit_ieee L fwd inv l2p (kit_p2l A) limits pinMap print sgn axs junk mem s0 stims s tr B R N) as [(H0 & H1 & H2 & H3 & H4 & H5) _].
  assert (KL : axes (fun i => (-4 <= kit_mn L i /\ kit_mx L i <= 4)%R)).
  { unfold axes, kit_mn, kit_mx. cbn [at6 kit_servos v0 v1 v2 v3 v4 v5]. split; [|split; [|split; [|split; [|split]]]]; split; lits; lra. }
  destruct KL as (K0 & K1 & K2 & K3 & K4 & K5). cbn [at6] in *.
  set (sv := r_servos (d_robot (y_dev s))) in *.
  assert (F : forall mn mx x, (-4 <= mn /\ mx <= 4)%R -> (exists c, v32 x c /\ (mn - 1 / 1000000 <= c <= mx + 1 / 1000000)%R) -> fin 5 x).
  { intros mn mx x [X Y] (c & V & Bc). exists c. split; [exact V|]. apply Rabs_le. lra. }
  unfold ordinary. cbn [angular reading]. destruct (j <? 6) eqn:E; [|lia].
  unfold current_logical, servo_angles, kit_p2l. cbn [v0 v1 v2 v3 v4 v5]. fold sv. pose proof tiny_small.
  assert (J' : j = 0 \/ j = 1 \/ j = 2 \/ j = 3 \/ j = 4 \/ j = 5) by lia. destruct J' as [-> | [-> | [-> | [-> | [-> | ->]]]]]; cbn [at6].
  - apply (fin_le 5); [lra|exact (F _ _ _ K0 H0)].
  - apply (fin_le 5); [lra|exact (F _ _ _ K1 H1)].
  - apply (fin_sub 5 5); [exact (F _ _ _ K2 H2)|exact (F _ _ _ K1 H1)|lra..].
  - apply (fin_le 5); [lra|exact (F _ _ _ K3 H3)].
  - apply (fin_le 5); [lra|exact (F _ _ _ K4 H4)].
  - apply (fin_le 5); [lra|exact (F _ _ _ K5 H5)].
Qed.
Print Assumptions C69_kit_joints.

(** the kit after the move of PropProgress (joint 1 to 15 degrees), asked "MVR0R1R6": answers M0V10.00R00.00R115.00R60.00;
    this text, sent to the kit just switched on, sets joint 1's target to 15 degrees *)
Example C69_reachable :
  match kit_system demo_moving with
  | Ok (s, _) =>
      let ask := text_of [GetMethod; GetVelocity; GetJoint 0; GetJoint 1; GetJoint 6] in
      match dev_parse IF (fun a => a) (kit_p2l IF) kit_pinMap two_places 0 (y_dev s) ask with
      | Ok (_, [DSend say]) =>
          say = [77; 48; 86; 49; 48; 46; 48; 48; 82; 48; 48; 46; 48; 48; 82; 49; 49; 53; 46; 48; 48; 82; 54; 48; 46; 48; 48] /\
          match dev_parse IF (fun a => a) (kit_p2l IF) kit_pinMap two_places 0 (dev_boot IF (fun a => a) (kit_p2l IF) (kit_servos IF) (kit_axis_servos IF)) say with
          | Ok (d', _) => v1 (r_targetA (d_robot d')) = deg IF 15 /\ r_method (d_robot d') = P2P /\ r_state (d_robot d') = PREPARE_MOVE
          | Ub _ => False
          end
      | _ => False
      end
  | Ub _ => False
  end.
Proof. vm_compute. repeat split. Qed.
