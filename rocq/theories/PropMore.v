(** * Further parts of C06, C23, C30 and C35, found by seeding bugs into definitions no theorem looked at *)
From Verif Require Import Base Arith EepromModel EepromSpec EepromProofs MrilModel MrilSpec MrilProofs PropMril ServoModel RobotModel RobotSpec RobotProofs.
Open Scope Z_scope.

(** ** C23: hexadecimal numbers *)
(** the positional value of hexadecimal digits, and the characters they are written with *)
Definition val16 (hs : list Z) : Z := fold_left (fun v h => v * 16 + h) hs 0.
Definition hex_letter (h : Z) : Z := if h <? 10 then h + 48 else h + 55.
Definition hex_ok (h : Z) : Prop := 0 <= h <= 15.

Lemma hex_char h : hex_ok h -> ishex (hex_letter h) = true /\ hexval (hex_letter h) = h /\ mril_accepts (hex_letter h) = true /\ hex_letter h <> 35 /\ hex_letter h <> 40.
Proof.
  intros H. assert (C : In h [0; 1; 2; 3; 4; 5; 6; 7; 8; 9; 10; 11; 12; 13; 14; 15]) by (unfold hex_ok in H; cbn [In]; lia). clear H. cbn [In] in C.
  repeat (destruct C as [<-|C]; [splits; (reflexivity || discriminate)|]). contradiction.
Qed.
Lemma span_letters hs : Forall hex_ok hs -> span_hex (map hex_letter hs) = (map hex_letter hs, []).
Proof.
  induction 1 as [|h hs H _ IH]; [reflexivity|]. cbn [map span_hex]. destruct (hex_char h H) as (-> & _). now rewrite IH.
Qed.
Lemma hex_val_letters hs : Forall hex_ok hs -> hex_val (map hex_letter hs) = val16 hs.
Proof.
  unfold hex_val, val16. generalize 0. induction hs as [|h hs IH]; intros v H; [reflexivity|]. inversion H as [|? ? H1 H2]; subst.
  cbn [map fold_left]. destruct (hex_char h H1) as (_ & -> & _). now apply IH.
Qed.
Lemma scan_glued u hs : unknown u -> Forall hex_ok hs -> hs <> [] -> forall cmd ty num, zlen cmd + zlen hs <= 20 ->
  mril_scan cmd ty num (flat_map (fun h => [u; hex_letter h]) hs) =
  do (acts, ty1, num1) <- mril_command (cmd ++ map hex_letter hs) num; Ok (acts, ty1, num1).
Proof.
  intros U. induction hs as [|h hs IH]; intros OK NE cmd ty num LE; [congruence|]. inversion OK as [|? ? H1 H2]; subst.
  destruct (hex_char h H1) as (_ & _ & HA & H35 & H40). cbn [flat_map app]. rewrite (scan_unknown u U).
  pose proof (zlen_nonneg hs). rewrite zlen_cons in LE.
  assert (F : cmd_finished (flat_map (fun h => [u; hex_letter h]) hs) = match hs with [] => true | _ => false end).
  { destruct hs as [|h2 hs2]; [reflexivity|]. cbn [flat_map app cmd_finished]. rewrite (unknown_not_upper u U). destruct U as (_ & U1 & U2).
    apply Z.eqb_neq in U1, U2. now rewrite U1, U2. }
  cbn [mril_scan]. rewrite F. apply Z.eqb_neq in H35, H40. rewrite H35, H40, HA. cbn [orb]. unfold MRIL_COMMAND_SIZE.
  destruct (Z.ltb_spec (zlen cmd) 20); [|lia]. destruct hs as [|h2 hs2].
  - cbn [flat_map map mril_scan]. destruct (mril_command (cmd ++ [hex_letter h]) num) as [[[a t] n]|]; cbn [bind]; [|reflexivity]. now rewrite app_nil_r.
  - rewrite IH; auto; [|discriminate|rewrite zlen_app; change (zlen [hex_letter h]) with 1; lia].
    rewrite <- app_assoc. reflexivity.
Qed.
(** A character MRIL does not know can even turn a zero and an X into the prefix of a hexadecimal number: "A0,X10" (turn to 0,
    move X to 10) turns to 16 degrees and leaves X alone; so does every hexadecimal numeral. *)
Theorem C23_hexadecimal_refuted : forall a u hs, unknown u -> Forall hex_ok hs -> hs <> [] -> zlen hs <= 16 ->
  mril_parse (axis_letter a :: 48 :: u :: 88 :: flat_map (fun h => [u; hex_letter h]) hs) =
    Ok ([AStart; APose (axis_index a) ((if is_angle a then DegToRad else Plain) (NHex false (val16 hs) 0)); AEnd], Some (-1)).
Proof.
  intros a u hs U OK NE LE. pose proof (unknown_not_upper u U) as UU. pose proof U as (_ & U1 & U2). apply Z.eqb_neq in U1, U2.
  assert (FU : forall r, cmd_finished (u :: r) = false) by (intros r; cbn; now rewrite UU, U1, U2).
  assert (G : mril_scan [] NONE (-1) (axis_letter a :: 48 :: u :: 88 :: flat_map (fun h => [u; hex_letter h]) hs) =
    mril_scan [axis_letter a; 48; 88] NONE (-1) (flat_map (fun h => [u; hex_letter h]) hs)).
  { destruct hs as [|h hs]; [congruence|]. cbn [flat_map app].
    set (r := u :: hex_letter h :: flat_map (fun h => [u; hex_letter h]) hs).
    assert (S1 : mril_scan [] NONE (-1) (axis_letter a :: 48 :: u :: 88 :: r) = mril_scan [axis_letter a] NONE (-1) (48 :: u :: 88 :: r)) by (destruct a; reflexivity).
    rewrite S1. cbn [mril_scan]. rewrite FU. change (48 =? 35) with false. change (48 =? 40) with false. change (mril_accepts 48) with true. cbn [orb].
    change (zlen [axis_letter a] <? MRIL_COMMAND_SIZE) with true. cbv iota. cbn [app].
    change (mril_scan [axis_letter a; 48] NONE (-1) (u :: 88 :: r) = mril_scan [axis_letter a; 48; 88] NONE (-1) r).
    rewrite (scan_unknown u U). cbn [mril_scan]. unfold r at 1. rewrite FU. reflexivity. }
  unfold mril_parse. rewrite G, (scan_glued u hs U OK NE) by (change (zlen [axis_letter a; 48; 88]) with 3; lia). clear G. cbn [app].
  assert (ATOF : c_atof (48 :: 88 :: map hex_letter hs) = NHex false (val16 hs) 0).
  { unfold c_atof, read_unsigned. change (prefix [73; 78; 70] (48 :: 88 :: map hex_letter hs)) with false. change (prefix [78; 65; 78] (48 :: 88 :: map hex_letter hs)) with false.
    change (prefix [48; 88] (48 :: 88 :: map hex_letter hs)) with true. cbv iota. cbn [skipn]. rewrite span_letters by exact OK.
    destruct hs as [|h hs]; [congruence|]. cbn [map]. change (hex_letter h :: map hex_letter hs) with (map hex_letter (h :: hs)). now rewrite hex_val_letters. }
  unfold mril_command.
  replace (MRIL_COMMAND_SIZE <=? zlen (axis_letter a :: 48 :: 88 :: map hex_letter hs)) with false.
  2:{ symmetry. apply Z.leb_gt. rewrite !zlen_cons. unfold zlen in *. rewrite map_length. unfold MRIL_COMMAND_SIZE. lia. }
  rewrite ATOF. destruct a; reflexivity.
Qed.
Print Assumptions C23_hexadecimal_refuted.
(** "A0,X10" and "A0,X,1,F" *)
Example C23_hexadecimal_demo :
  unknown 44 /\ mril_parse [65; 48; 44; 88; 44; 49; 44; 70] = Ok ([AStart; APose 3 (DegToRad (NHex false 31 0)); AEnd], Some (-1)) /\
  mril_parse [65; 48; 44; 88; 49; 48] = Ok ([AStart; APose 3 (DegToRad (NHex false 16 0)); AEnd], Some (-1)).
Proof. split; [repeat split; discriminate|]. split; reflexivity. Qed.

(** ** C06: getByte reads back what was appended *)
Fixpoint start_of (l : log) : Z := match l with [] => 0 | m :: l' => 1 + zlen m + start_of l' end.
Theorem C06_bytes_read_back : forall sgn mem l1 m l2 k c, holds sgn mem (l1 ++ m :: l2) ->
  nth_error m k = Some c -> ee_getByte mem (start_of l1 + 1 + Z.of_nat k) = Ok c /\ ee_getByte mem (start_of l1) = Ok (zlen m).
Proof.
  intros sgn mem l1 m l2 k c (_ & _ & rest & ->) N.
  assert (I : forall l1, exists pre, image (l1 ++ m :: l2) = pre ++ zlen m :: m ++ image l2 /\ zlen pre = start_of l1).
  { clear. induction l1 as [|x l1 (pre & E & Z0)]; cbn [app image start_of].
    - exists []. split; reflexivity.
    - exists (zlen x :: x ++ pre). rewrite E. split; [now rewrite <- app_comm_cons, <- app_assoc|]. rewrite zlen_cons, zlen_app, Z0. lia. }
  assert (G : forall (l : list Z) n c, nth_error l n = Some c -> zget l (Z.of_nat n) = Ok c).
  { clear. intros l n c H. unfold zget, zlen. assert (n < length l)%nat by (apply nth_error_Some; congruence).
    destruct (Z.leb_spec 0 (Z.of_nat n)); [|lia]. destruct (Z.ltb_spec (Z.of_nat n) (Z.of_nat (length l))); [|lia]. cbn [andb]. now rewrite Nat2Z.id, H. }
  assert (KM : (k < length m)%nat) by (apply nth_error_Some; congruence).
  destruct (I l1) as (pre & E & Z0). rewrite E, <- Z0, <- !app_assoc. cbn [app]. unfold ee_getByte, ee_read. assert (ZP : zlen pre = Z.of_nat (length pre)) by reflexivity. rewrite ZP. split.
  - replace (Z.of_nat (length pre) + 1 + Z.of_nat k) with (Z.of_nat (length pre + S k)) by lia. apply G.
    rewrite nth_error_app2 by lia. replace (length pre + S k - length pre)%nat with (S k) by lia. cbn [nth_error].
    rewrite <- app_assoc, (nth_error_app1 m _ KM). exact N.
  - apply G. rewrite nth_error_app2, Nat.sub_diag by lia. reflexivity.
Qed.
Print Assumptions C06_bytes_read_back.

(** ** C30: the pulse reaches the pin, unless the servo has none *)
Theorem C30_pin : forall (A : arith) pin (m : F A) minF maxF (mn mx home : F A) s0 p0 ops s p,
  servo_new A pin m minF maxF mn mx home = Ok (s0, p0) -> sop_run A s0 ops = Ok s ->
  s_pin s = pin /\ (pin < 0 -> servo_written A s p = None) /\ (0 <= pin -> servo_written A s p = Some p).
Proof.
  intros A pin m minF maxF mn mx home s0 p0 ops s p N R.
  assert (B : s_pin s0 = pin /\ s_virtual s0 = (pin <? 0)).
  { unfold servo_new in N. destruct (servo_move A _); cbn [bind] in N; [|discriminate]. injection N as <- _. split; reflexivity. }
  assert (K : forall ops x y, sop_run A x ops = Ok y -> s_pin y = s_pin x /\ s_virtual y = s_virtual x).
  { clear. induction ops as [|o ops IH]; intros x y R; cbn [sop_run] in R; [injection R as <-; split; reflexivity|].
    destruct (sop_step A x o) as [z|] eqn:E; cbn [bind] in R; [|discriminate]. destruct (IH _ _ R) as [-> ->]. clear IH R.
    destruct o as [dt|v| | |a]; cbn [sop_step] in E.
    - destruct (servo_process A x dt) as [[z' q]|] eqn:P; cbn [bind] in E; [|discriminate]. injection E as <-.
      unfold servo_process in P. destruct (servo_move A (servo_advance A x dt)); cbn [bind] in P; [|discriminate]. injection P as <- _.
      unfold servo_advance. destruct (flt A _ _); [|destruct (flt A _ _)]; split; reflexivity.
    - injection E as <-. unfold servo_set_vel. destruct (flt A _ _); [|destruct (fle A _ _)]; split; reflexivity.
    - injection E as <-. split; reflexivity.
    - injection E as <-. split; reflexivity.
    - injection E as <-. split; reflexivity. }
  destruct (K _ _ _ R) as [K1 K2]. destruct B as [B1 B2]. split; [congruence|]. unfold servo_written. rewrite K2, B2.
  split; intros H; destruct (Z.ltb_spec pin 0); try reflexivity; lia.
Qed.
Print Assumptions C30_pin.

(** ** C35: getTargetPhysicalAngles reports where the servos have been sent *)
Theorem C35_target_physical : forall (A : arith) fwd inv l2p p2l limits (r r' : robot A) e,
  r_method r = P2P -> r_process A fwd inv l2p p2l limits r = Ok (r', e) ->
  servo_cmds e = [] \/ exists vels, servo_cmds e = all_six vels (target_physical A l2p r').
Proof.
  intros A fwd inv l2p p2l limits r r' e M E. apply process_cases in E as [[-> _]|(rs & E & _ & MM)]; [left; reflexivity|]. rewrite M in MM.
  pose proof E as E0. apply start_move_frame in E0 as (_ & _ & _ & _ & _ & _ & _ & _ & _ & ST). unfold target_physical.
  apply start_move_cases in E as (p & es & P & [[-> ->] | (tl & time & -> & O1 & O2 & [(Q & -> & ->) | (Q & -> & ->)])]).
  - left. apply plan_events in P as [P1 P2]. auto.
  - left. apply plan_events in P as [P1 P2]. auto.
  - right. unfold r_plan in P. cbn [r_method with_steps] in P. rewrite MM in P. injection P as <- _ <-. destruct ST as [(_ & ET & _)|(X & _)]; [|discriminate X].
    rewrite ET. eexists. reflexivity.
Qed.
Print Assumptions C35_target_physical.
