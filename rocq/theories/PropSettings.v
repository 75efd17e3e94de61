(** * What an instruction sets: the last value given wins, everything else stays *)
From Verif Require Import Base Arith RobotModel RobotSpec RobotProofs ServoModel IoModel IoSpec WaitModel MrilModel MrilSpec MrilProofs McpModel DeviceModel DeviceSpec DeviceProofs SystemModel SystemSpec ConfigModel PropRobot PropProgress.
Open Scope Z_scope.

(** ** Specification *)
(** the last value that [f] finds among the commands, [old] if there is none *)
Definition latest {C X} (f : C -> option X) (cs : list C) (old : X) : X :=
  fold_left (fun x c => match f c with Some y => y | None => x end) cs old.

(** M0 joint moves, M1 straight moves; other numbers set nothing *)
Definition method_given (c : command) : option rmethod :=
  match c with
  | SetMethod s d => if int_val s d =? 0 then Some P2P else if int_val s d =? 1 then Some LINEAR else None
  | _ => None
  end.
Section Given.
Context (A : arith).
(** the number written, as a float: the digits without the point, times a power of ten *)
Definition written (n : numeral) : F A :=
  match nfrac n with
  | None => d2f A (ddec A (nneg n) (val10 (nint n)) 0)
  | Some f => d2f A (ddec A (nneg n) (val10 (nint n ++ f)) (- zlen f))
  end.
(** degrees to radians *)
Definition in_radians (x : F A) : F A := d2f A (dmul A (f2d A x) (DEG_TO_RAD A)).
Definition axis_radians (x : F A) : F A := d2f A (dmul A (ddiv A (f2d A x) (ddec A false 180 0)) (dpi A)).
Definition axis_eq (a b : axis) : bool :=
  match a, b with AxX, AxX | AxY, AxY | AxZ, AxZ | AxA, AxA | AxB, AxB | AxC, AxC => true | _, _ => false end.
Definition speed_given (c : command) : option (F A) := match c with SetVelocity n => Some (written n) | _ => None end.
Definition pose_given (a : axis) (c : command) : option (F A) :=
  match c with SetPose b n => if axis_eq a b then Some (if is_angle a then in_radians (written n) else written n) else None | _ => None end.
Definition joint_given (j : Z) (c : command) : option (F A) :=
  match c with SetJoint i n => if i =? j then Some (in_radians (written n)) else None | _ => None end.
Definition axis_given (j : Z) (c : command) : option (F A) :=
  match c with SetJoint i n => if i =? j then Some (axis_radians (written n)) else None | _ => None end.
(** D<ms> at time [now] *)
Definition wait_given (now : Z) (c : command) : option Z :=
  match c with Delay s d => Some ((now + int_val s d) mod 4294967296) | _ => None end.
(** input conditions (physical pin, level) *)
Definition condition_given (pinMap : list Z) (c : command) : list (Z * Z) :=
  match c with WaitInput p l => [(nth (Z.to_nat p) pinMap 0, l)] | _ => [] end.
(** what happens at the pins: O<pin>1 drives the pin high, O<pin>0 low, I prepares it as an input *)
Definition pin_effect (pinMap : list Z) (c : command) : list pinact :=
  match c with
  | SetOut p l => let q := nth (Z.to_nat p) pinMap 0 in POutput q :: (if l =? 1 then [PHigh q] else if l =? 0 then [PLow q] else [])
  | WaitInput p l => let q := nth (Z.to_nat p) pinMap 0 in [if l =? 1 then PPulldown q else PPullup q]
  | _ => []
  end.
Definition sets_pose (c : command) : bool := match c with SetPose _ _ => true | _ => false end.
Definition sets_joint (c : command) : bool := match c with SetJoint j _ => j <? 6 | _ => false end.
End Given.
Definition pins_of {A} (l : list (dev_ev A)) : list pinact := flat_map (fun e => match e with DPin p => [p] | _ => [] end) l.

(** ** Proofs *)
Section Settings.
Context (A : arith) (fwd : V6 (F A) -> V6 (F A)) (inv : V6 (F A) -> option (V6 (F A))) (l2p p2l : V6 (F A) -> V6 (F A)) (limits : V6 (F A * F A)) (pinMap : list Z) (print : D A -> list Z).
Notation exec_acts := (exec_acts A fwd p2l pinMap print).

(** the settings after the commands [cs], from those before *)
Definition effect (now : Z) (d d' : device A) (cs : list command) (pins : list pinact) : Prop :=
  r_method (d_robot d') = latest method_given cs (r_method (d_robot d)) /\
  r_maxvel (d_robot d') = latest (speed_given A) cs (r_maxvel (d_robot d)) /\
  (forall a, pose_part A (r_targetP (d_robot d')) a = latest (pose_given A a) cs (pose_part A (r_targetP (d_robot d)) a)) /\
  (forall j, 0 <= j < 6 -> at6 (r_targetA (d_robot d')) j = latest (joint_given A j) cs (at6 (r_targetA (d_robot d)) j)) /\
  (zlen (d_axes d') = zlen (d_axes d) /\ forall k s, 0 <= k < zlen (d_axes d) ->
     s_target (nth (Z.to_nat k) (d_axes d') s) = latest (axis_given A (6 + k)) cs (s_target (nth (Z.to_nat k) (d_axes d) s)) /\
     s_cur (nth (Z.to_nat k) (d_axes d') s) = s_cur (nth (Z.to_nat k) (d_axes d) s)) /\
  d_wait d' = latest (wait_given now) cs (d_wait d) /\
  d_io d' = d_io d ++ flat_map (condition_given pinMap) cs /\
  r_servos (d_robot d') = r_servos (d_robot d) /\
  r_pchg (d_robot d') = r_pchg (d_robot d) || existsb sets_pose cs /\
  r_achg (d_robot d') = r_achg (d_robot d) || existsb sets_joint cs /\
  r_state (d_robot d') = (if existsb sets_pose cs || existsb sets_joint cs then PREPARE_MOVE else r_state (d_robot d)) /\
  pins = flat_map (pin_effect pinMap) cs.

Lemma latest_app {C X} (f : C -> option X) a b old : latest f (a ++ b) old = latest f b (latest f a old).
Proof. unfold latest. apply fold_left_app. Qed.

Lemma effect_app now d d1 d2 a b p q : effect now d d1 a p -> effect now d1 d2 b q -> effect now d d2 (a ++ b) (p ++ q).
Proof.
  intros (M1 & V1 & P1 & J1 & (L1 & X1) & W1 & I1 & S1 & C1 & D1 & T1 & Q1) (M2 & V2 & P2 & J2 & (L2 & X2) & W2 & I2 & S2 & C2 & D2 & T2 & Q2).
  unfold effect. split; [rewrite latest_app, <- M1; exact M2|]. split; [rewrite latest_app, <- V1; exact V2|].
  split; [intros x; rewrite latest_app, <- P1; apply P2|]. split; [intros j Hj; rewrite latest_app, <- J1 by lia; apply J2; lia|].
  split; [split; [lia|]; intros k s Hk; destruct (X1 k s Hk) as [Y1 Z1]; destruct (X2 k s ltac:(lia)) as [Y2 Z2]; rewrite latest_app; split; congruence|].
  split; [rewrite latest_app, <- W1; exact W2|]. split; [rewrite flat_map_app, app_assoc, <- I1; exact I2|].
  split; [congruence|]. rewrite !existsb_app.
  split; [rewrite C2, C1; now rewrite orb_assoc|]. split; [rewrite D2, D1; now rewrite orb_assoc|].
  split; [|rewrite flat_map_app; congruence]. rewrite T2, T1.
  destruct (existsb sets_pose a), (existsb sets_joint a), (existsb sets_pose b), (existsb sets_joint b); reflexivity.
Qed.

Lemma written_eq n : d2f A (num_double A (num_val n)) = written A n.
Proof. unfold num_val, written. destruct (nfrac n); reflexivity. Qed.

Lemma pins_app (a b : list (dev_ev A)) : pins_of (a ++ b) = pins_of a ++ pins_of b.
Proof. apply flat_map_app. Qed.
Lemma pins_map l : pins_of (map (@DPin A) l) = l.
Proof. induction l as [|x l IH]; [reflexivity|]. unfold pins_of in *. cbn [map flat_map app]. now rewrite IH. Qed.

Lemma effect_same now d d' (r r' : robot A) c : d_robot d = r -> d_robot d' = r' ->
  r_method r' = r_method r -> r_maxvel r' = r_maxvel r -> r_targetP r' = r_targetP r -> r_targetA r' = r_targetA r -> d_axes d' = d_axes d -> d_wait d' = d_wait d -> d_io d' = d_io d ->
  r_servos r' = r_servos r -> r_pchg r' = r_pchg r -> r_achg r' = r_achg r -> r_state r' = r_state r ->
  method_given c = None -> speed_given A c = None -> (forall a, pose_given A a c = None) -> (forall j, joint_given A j c = None) -> (forall j, axis_given A j c = None) -> wait_given now c = None ->
  condition_given pinMap c = [] -> sets_pose c = false -> sets_joint c = false -> pin_effect pinMap c = [] -> effect now d d' [c] [].
Proof.
  intros <- <- H1 H2 H3 H4 H5 H6 H7 H8 H9 H10 H11 G1 G2 G3 G4 G5 G6 G7 G8 G9 G10. unfold effect, latest. cbn [fold_left flat_map existsb].
  rewrite H1, H2, H3, H4, H5, H6, H7, H8, H9, H10, H11, G1, G2, G6, G7, G8, G9, G10. cbn [app orb]. rewrite app_nil_r.
  split; [reflexivity|]. split; [reflexivity|]. split; [intros a; now rewrite G3|]. split; [intros j _; now rewrite G4|].
  split; [split; [reflexivity|]; intros k s _; rewrite G5; auto|]. rewrite !orb_false_r. auto 10.
Qed.

Ltac fin0 := split; [reflexivity|]; split; [reflexivity|]; split; [reflexivity|]; split; [reflexivity|];
  cut (forall P Q : Prop, P -> Q -> P /\ Q); [intros KK; apply KK; [|split; [reflexivity|]; split; [symmetry; apply app_nil_r|]; split; [reflexivity|];
    split; [symmetry; apply orb_false_r|]; split; [symmetry; apply orb_false_r|]; split; reflexivity]|tauto].
Ltac fin := fin0; auto.
Lemma zlen_map {X Y} (f : X -> Y) l : zlen (map f l) = zlen l.
Proof. unfold zlen. now rewrite map_length. Qed.
Lemma at6_set6 {T} (a : V6 T) j x i : 0 <= i < 6 -> 0 <= j < 6 -> at6 (set6 a j x) i = if j =? i then x else at6 a i.
Proof.
  intros Hi Hj. assert (I : i = 0 \/ i = 1 \/ i = 2 \/ i = 3 \/ i = 4 \/ i = 5) by lia.
  destruct I as [->|[->|[->|[->|[->| ->]]]]]; reflexivity.
Qed.
Lemma command_effect now (d d' : device A) buf buf' c e : command_ok c -> exec_acts now d buf (meaning c) = Ok (d', buf', e) -> effect now d d' [c] (pins_of e).
Proof.
  intros OK E. destruct c as [| |a|j|s ds|n|a n|j n|p l|p l|s ds|s ds|l n]; cbn [meaning DeviceModel.exec_acts] in E.
  - cbn in E. injection E as <- <- <-. eapply effect_same; reflexivity.
  - cbn in E. injection E as <- <- <-. eapply effect_same; reflexivity.
  - cbn in E. injection E as <- <- <-. eapply effect_same; reflexivity.
  - cbn [DeviceModel.exec_act] in E. destruct (read_item A fwd p2l print d (if j <? 6 then RAngle j else RAxis j (j - 6))); [|discriminate]. cbn in E. injection E as <- <- <-. eapply effect_same; reflexivity.
  - unfold effect, latest. cbn [fold_left flat_map existsb method_given speed_given pose_given joint_given axis_given wait_given condition_given pin_effect sets_pose sets_joint].
    destruct (int_val s ds =? 0); [|destruct (int_val s ds =? 1)]; cbn [DeviceModel.exec_acts DeviceModel.exec_act bind Z.eqb] in E; injection E as <- <- <-; fin.
  - cbn [DeviceModel.exec_act bind DeviceModel.exec_acts] in E. injection E as <- <- <-. rewrite written_eq.
    unfold effect, latest. cbn [fold_left flat_map existsb method_given speed_given pose_given joint_given axis_given wait_given condition_given pin_effect sets_pose sets_joint].
    fin0. split; [apply zlen_map|]. intros k s Hk.
    cbn [d_axes with_axes with_robot] in *.
    assert (X : forall l : list (servo A), (Z.to_nat k < length l)%nat -> nth (Z.to_nat k) (map (fun x => servo_set_vel A x (written A n)) l) s = servo_set_vel A (nth (Z.to_nat k) l s) (written A n)).
    { intros l Hl. rewrite (nth_indep _ s (servo_set_vel A s (written A n))) by (rewrite map_length; exact Hl). exact (map_nth (fun x => servo_set_vel A x (written A n)) l s (Z.to_nat k)). }
    rewrite X by (unfold zlen in Hk; lia).
    unfold servo_set_vel. destruct (flt A _ _); [|destruct (fle A _ _)]; split; reflexivity.
  - cbn [DeviceModel.exec_act bind DeviceModel.exec_acts] in E. injection E as <- <- <-.
    unfold effect, latest. cbn [fold_left flat_map existsb method_given speed_given pose_given joint_given axis_given wait_given condition_given pin_effect sets_pose sets_joint].
    split; [reflexivity|]. split; [reflexivity|].
    split; [intros b; destruct b, a; cbn [axis_eq is_angle axis_index arg_float]; rewrite ?written_eq; reflexivity|].
    split; [reflexivity|]. split; [auto|]. split; [reflexivity|]. split; [symmetry; apply app_nil_r|]. split; [reflexivity|].
    split; [symmetry; apply orb_true_r|]. split; [symmetry; apply orb_false_r|]. split; reflexivity.
  - destruct OK as [_ [J _]]. unfold digit_ok in J.
    unfold effect, latest. cbn [fold_left flat_map existsb method_given speed_given pose_given joint_given axis_given wait_given condition_given pin_effect sets_pose sets_joint].
    destruct (Z.ltb_spec j 6).
    + cbn [DeviceModel.exec_act bind DeviceModel.exec_acts] in E. unfold set_angle in E.
      replace ((0 <=? j) && (j <? 6)) with true in E by (symmetry; apply andb_true_iff; split; [apply Z.leb_le|apply Z.ltb_lt]; lia).
      cbn [bind arg_float] in E. rewrite written_eq in E. injection E as <- <- <-.
      split; [reflexivity|]. split; [reflexivity|]. split; [reflexivity|].
      split; [intros i Hi; cbn [d_robot with_robot r_targetA with_state with_flags with_targets]; rewrite at6_set6 by lia; destruct (j =? i); reflexivity|].
      split; [split; [reflexivity|]; intros k s Hk; split; [|reflexivity]; destruct (Z.eqb_spec j (6 + k)); [lia|reflexivity]|].
      split; [reflexivity|]. split; [symmetry; apply app_nil_r|]. split; [reflexivity|]. split; [symmetry; apply orb_false_r|]. split; [symmetry; apply orb_true_r|]. split; reflexivity.
    + cbn [DeviceModel.exec_act bind DeviceModel.exec_acts arg_float] in E. rewrite written_eq in E.
      destruct (Z_lt_ge_dec (j - 6) (zlen (d_axes d))) as [IN|OUT]; [|rewrite zget_oob in E by lia; discriminate].
      rewrite (zget_ok _ _ (v0 (r_servos (d_robot d)))) in E by lia. cbn [bind] in E. rewrite zset_ok in E by lia. cbn [bind app] in E. injection E as <- <- <-.
      split; [reflexivity|]. split; [reflexivity|]. split; [reflexivity|].
      split; [intros i Hi; destruct (Z.eqb_spec j i); [lia|reflexivity]|].
      split.
      { cbn [d_axes with_axes]. split; [apply zlen_upd|]. intros k s Hk. destruct (Z.eqb_spec j (6 + k)) as [->|NE].
        - replace (6 + k - 6) with k by lia. rewrite !nth_upd_same by (unfold zlen in Hk; lia).
          split; [reflexivity|]. rewrite (nth_indep (d_axes d) (v0 (r_servos (d_robot d))) s) by (unfold zlen in Hk; lia). reflexivity.
        - rewrite !nth_upd_other by lia. auto. }
      split; [reflexivity|]. split; [symmetry; apply app_nil_r|]. split; [reflexivity|]. split; [symmetry; apply orb_false_r|]. split; [symmetry; apply orb_false_r|]. split; reflexivity.
  - destruct OK as [_ [P _]]. unfold digit_ok in P. cbn [DeviceModel.exec_act] in E. unfold io_addCondition in E.
    destruct (Z_lt_ge_dec p (zlen pinMap)) as [IN|OUT]; [|rewrite zget_oob in E by lia; discriminate].
    rewrite (zget_ok _ _ 0) in E by lia. cbn [bind] in E. destruct (zlen (d_io d) <? MAX_CONDITIONS); [|discriminate].
    cbn [bind] in E. injection E as <- <- <-.
    rewrite app_nil_r, pins_map.
    unfold effect, latest. cbn [fold_left flat_map existsb method_given speed_given pose_given joint_given axis_given wait_given condition_given pin_effect sets_pose sets_joint].
    split; [reflexivity|]. split; [reflexivity|]. split; [reflexivity|]. split; [reflexivity|]. split; [auto|]. split; [reflexivity|]. split; [reflexivity|]. split; [reflexivity|].
    split; [symmetry; apply orb_false_r|]. split; [symmetry; apply orb_false_r|]. split; [reflexivity|]. destruct (l =? 1); reflexivity.
  - destruct OK as [_ [P _]]. unfold digit_ok in P. cbn [DeviceModel.exec_act] in E. unfold io_setOutput in E.
    destruct (Z_lt_ge_dec p (zlen pinMap)) as [IN|OUT]; [|rewrite zget_oob in E by lia; discriminate].
    rewrite (zget_ok _ _ 0) in E by lia. cbn [bind] in E. injection E as <- <- <-.
    rewrite app_nil_r. change (DPin (POutput (nth (Z.to_nat p) pinMap 0)) :: map DPin ?x) with (map (@DPin A) (POutput (nth (Z.to_nat p) pinMap 0) :: x)). rewrite pins_map.
    unfold effect, latest. cbn [fold_left flat_map existsb method_given speed_given pose_given joint_given axis_given wait_given condition_given pin_effect sets_pose sets_joint].
    split; [reflexivity|]. split; [reflexivity|]. split; [reflexivity|]. split; [reflexivity|]. split; [auto|]. split; [reflexivity|]. split; [symmetry; apply app_nil_r|]. split; [reflexivity|].
    split; [symmetry; apply orb_false_r|]. split; [symmetry; apply orb_false_r|]. split; [reflexivity|]. now rewrite app_nil_r.
  - cbn [DeviceModel.exec_act bind DeviceModel.exec_acts] in E. injection E as <- <- <-.
    unfold effect, latest. cbn [fold_left flat_map existsb method_given speed_given pose_given joint_given axis_given wait_given condition_given pin_effect sets_pose sets_joint].
    split; [reflexivity|]. split; [reflexivity|]. split; [reflexivity|]. split; [reflexivity|]. split; [auto|].
    split; [cbn [d_wait with_wait]; unfold wait_waitMs, u32; apply Zplus_mod_idemp_r|]. split; [symmetry; apply app_nil_r|]. split; [reflexivity|].
    split; [symmetry; apply orb_false_r|]. split; [symmetry; apply orb_false_r|]. split; reflexivity.
  - cbn in E. injection E as <- <- <-. eapply effect_same; reflexivity.
  - cbn in E. injection E as <- <- <-. eapply effect_same; reflexivity.
Qed.

Lemma effect_nil now d : effect now d d [] [].
Proof.
  unfold effect, latest. cbn [fold_left flat_map existsb orb]. rewrite app_nil_r, !orb_false_r. splits; auto.
Qed.
Lemma commands_effect now cs : Forall command_ok cs -> forall (d d' : device A) buf buf' e,
  exec_acts now d buf (flat_map meaning cs) = Ok (d', buf', e) -> effect now d d' cs (pins_of e).
Proof.
  induction 1 as [|c cs OK H IH]; intros d d' buf buf' e E; cbn [flat_map DeviceModel.exec_acts] in E.
  - injection E as <- <- <-. apply effect_nil.
  - rewrite exec_acts_app in E. destruct (exec_acts now d buf (meaning c)) as [[[d1 b1] e1]|] eqn:E1; cbn [bind] in E; [|discriminate].
    destruct (exec_acts now d1 b1 (flat_map meaning cs)) as [[[d2 b2] e2]|] eqn:E2; cbn [bind] in E; [|discriminate]. injection E as <- <- <-.
    rewrite pins_app. change (c :: cs) with ([c] ++ cs). apply (effect_app now d d1 d2); [exact (command_effect _ _ _ _ _ _ _ OK E1)|exact (IH _ _ _ _ _ E2)].
Qed.

(** ** C63 *)
Theorem C63_instruction now (d d' : device A) cs evs : cs <> [] -> Forall command_ok cs ->
  dev_parse A fwd p2l pinMap print now d (text_of cs) = Ok (d', evs) ->
  effect now d d' cs (pins_of evs) /\ r_trans (d_robot d') = false.
Proof.
  intros NE OK. unfold dev_parse. rewrite parse_commands by auto. cbn [bind]. unfold instruction_acts.
  cbn [DeviceModel.exec_acts DeviceModel.exec_act bind]. rewrite exec_acts_app.
  set (d0 := with_robot A d (with_trans A (d_robot d) true)).
  destruct (exec_acts now d0 [] (flat_map meaning cs)) as [[[d2 b2] e2]|] eqn:E; cbn [bind]; [|discriminate].
  pose proof (commands_effect now cs OK _ _ _ _ _ E) as (M1 & V1 & P1 & J1 & X1 & W1 & I1 & S1 & C1 & D1 & T1 & Q1).
  cbn [app DeviceModel.exec_acts DeviceModel.exec_act bind].
  assert (K : forall d3 evs3, (d3 = with_robot A d2 (with_trans A (d_robot d2) false) /\ exists m e3, d' = with_mril A d3 m /\ evs = e2 ++ e3 /\ pins_of e3 = [] /\ evs3 = e3) -> effect now d d' cs (pins_of evs) /\ r_trans (d_robot d') = false).
  { intros d3 evs3 (-> & m & e3 & -> & -> & K4 & _). split; [|reflexivity]. rewrite pins_app, K4, app_nil_r.
    unfold effect. exact (conj M1 (conj V1 (conj P1 (conj J1 (conj X1 (conj W1 (conj I1 (conj S1 (conj C1 (conj D1 (conj T1 Q1))))))))))). }
  destruct (last_kind cs); [destruct (0 <? number_of cs)|..]; cbn [app DeviceModel.exec_acts DeviceModel.exec_act bind]; intros X; injection X as <- <-;
    (eapply K; split; [reflexivity|]; do 2 eexists; split; [reflexivity|]; split; [reflexivity|]; split; reflexivity).
Qed.

(** ** the whole controller *)
(** what lasts: method, speed, targets of the additional axes; and all pin operations *)
Definition lasting (d d' : device A) (cs : list command) (pins : list pinact) : Prop :=
  r_method (d_robot d') = latest method_given cs (r_method (d_robot d)) /\
  r_maxvel (d_robot d') = latest (speed_given A) cs (r_maxvel (d_robot d)) /\
  (zlen (d_axes d') = zlen (d_axes d) /\ forall k s, 0 <= k < zlen (d_axes d) ->
     s_target (nth (Z.to_nat k) (d_axes d') s) = latest (axis_given A (6 + k)) cs (s_target (nth (Z.to_nat k) (d_axes d) s))) /\
  pins = flat_map (pin_effect pinMap) cs.
Definition pins_seen (tr : list (sys_ev A)) : list pinact := flat_map (fun x => match x with YDev e => pins_of [e] | _ => [] end) tr.

Lemma lasting_app d d1 d2 a b p q : lasting d d1 a p -> lasting d1 d2 b q -> lasting d d2 (a ++ b) (p ++ q).
Proof.
  intros (M1 & V1 & (L1 & X1) & Q1) (M2 & V2 & (L2 & X2) & Q2).
  unfold lasting. split; [rewrite latest_app, <- M1; exact M2|]. split; [rewrite latest_app, <- V1; exact V2|].
  split; [split; [lia|]; intros k s Hk; pose proof (X1 k s Hk) as Y1; pose proof (X2 k s ltac:(lia)) as Y2; rewrite latest_app; congruence|].
  rewrite flat_map_app. congruence.
Qed.
Lemma lasting_same d d' : r_method (d_robot d') = r_method (d_robot d) -> r_maxvel (d_robot d') = r_maxvel (d_robot d) -> map s_target (d_axes d') = map s_target (d_axes d) -> lasting d d' [] [].
Proof.
  intros M V X. unfold lasting, latest. cbn [fold_left flat_map]. split; [exact M|]. split; [exact V|].
  assert (LL : length (d_axes d') = length (d_axes d)) by (rewrite <- (map_length s_target), X; apply map_length).
  split; [split; [unfold zlen; lia|]|reflexivity]. intros k s _. rewrite <- !(map_nth s_target). now rewrite X.
Qed.
Lemma pins_seen_app a b : pins_seen (a ++ b) = pins_seen a ++ pins_seen b.
Proof. apply flat_map_app. Qed.
Lemma pins_seen_dev e : pins_seen (map YDev e) = pins_of e.
Proof. induction e as [|x e IH]; [reflexivity|]. change (pins_of [x] ++ pins_seen (map YDev e) = pins_of ([x] ++ e)). now rewrite IH, pins_app. Qed.

Lemma parse_lasting now (d d' : device A) cs evs : Forall command_ok cs -> dev_parse A fwd p2l pinMap print now d (text_of cs) = Ok (d', evs) -> lasting d d' cs (pins_of evs).
Proof.
  intros OK E. destruct cs as [|c cs].
  - cbn in E. injection E as <- <-. apply lasting_same; reflexivity.
  - destruct (C63_instruction now d d' (c :: cs) evs ltac:(discriminate) OK E) as [(M1 & V1 & _ & _ & (L1 & X1) & _ & _ & _ & _ & _ & _ & Q1) _].
    unfold lasting. split; [exact M1|]. split; [exact V1|]. split; [split; [exact L1|]; intros k s Hk; apply (X1 k s Hk)|exact Q1].
Qed.
Lemma start_kept (r r' : robot A) evs : r_start_move A fwd inv l2p p2l limits r = Ok (r', evs) -> r_method r' = r_method r /\ r_maxvel r' = r_maxvel r.
Proof. intros E. apply start_move_frame in E as (M & _ & _ & _ & _ & _ & _ & _ & V & _). auto. Qed.
Lemma process_kept (r r' : robot A) evs : r_process A fwd inv l2p p2l limits r = Ok (r', evs) -> r_method r' = r_method r /\ r_maxvel r' = r_maxvel r.
Proof.
  unfold r_process. destruct (r_state r).
  - intros E. injection E as <- <-. auto.
  - destruct (all_at_target A r); [|intros E; injection E as <- <-; auto].
    destruct (r_cur r =? r_total r); [intros E; injection E as <- <-; auto|]. intros E. now apply start_kept in E.
  - apply start_kept.
  - unfold r_prepare. destruct (r_trans r); [intros E; injection E as <- <-; auto|].
    set (r1 := if r_achg r then _ else _).
    assert (N1 : r_method r1 = r_method r /\ r_maxvel r1 = r_maxvel r) by (unfold r1; destruct (r_achg r); [auto|]; destruct (r_pchg r); auto).
    clearbody r1. destruct (r_pchg r && r_achg r); [intros E; injection E as <- <-; exact N1|].
    set (r3 := with_starts A _ _ _). assert (N3 : r_method r3 = r_method r /\ r_maxvel r3 = r_maxvel r) by exact N1. clearbody r3. cbv zeta.
    destruct (angles_equal A (r_startA r3) (r_targetA r3)); [intros E; injection E as <- <-; exact N3|].
    match goal with |- context [bind ?x _] => destruct x as [n|]; cbn [bind]; [|discriminate] end.
    intros E. apply start_kept in E as [E1 E2]. rewrite E1, E2. exact N3.
Qed.
Lemma robot_lasting (d d' : device A) e : dev_robot A fwd inv l2p p2l limits print d = Ok (d', e) -> lasting d d' [] (pins_of e).
Proof.
  unfold dev_robot. destruct (r_process A fwd inv l2p p2l limits (d_robot d)) as [[r evs]|] eqn:P; cbn [bind]; [|discriminate].
  intros E. injection E as <- <-. destruct (process_kept _ _ _ P) as [P1 P2].
  replace (pins_of (flat_map (robot_ev A print) evs)) with (@nil pinact); [apply lasting_same; auto|].
  clear. induction evs as [|x l IH]; [reflexivity|]. cbn [flat_map]. rewrite pins_app, <- IH. destruct x; reflexivity.
Qed.
Lemma tick_lasting (d d' : device A) : dev_tick A d = Ok d' -> lasting d d' [] [].
Proof.
  unfold dev_tick. destruct (r_tick A (d_robot d) 20) as [r|] eqn:RT; cbn [bind]; [|discriminate].
  destruct (tick_axes A (d_axes d) 20) as [l|] eqn:TA; cbn [bind]; [|discriminate]. intros E. injection E as <-.
  apply tick_frame in RT as [sv ->]. apply lasting_same; [reflexivity..|]. cbn [d_axes with_axes with_robot].
  revert l TA. induction (d_axes d) as [|s ss IH]; intros l TA; cbn [tick_axes] in TA; [injection TA as <-; reflexivity|].
  destruct (servo_process A s 20) as [[s1 p]|] eqn:SP; cbn [bind] in TA; [|discriminate].
  destruct (tick_axes A ss 20) as [l1|] eqn:T1; cbn [bind] in TA; [|discriminate]. injection TA as <-. cbn [map]. rewrite (IH _ eq_refl). f_equal.
  unfold servo_process in SP. destruct (servo_move A (servo_advance A s 20)); cbn [bind] in SP; [|discriminate]. injection SP as <- _.
  unfold servo_advance. destruct (flt A _ _); [|destruct (flt A _ _)]; reflexivity.
Qed.

Notation run := (sys_run A fwd inv l2p p2l limits pinMap print).
Lemma acts_lasting now l : forall (d d' : device A) e prog, sys_acts A fwd p2l pinMap print now d l = Ok (d', e) -> executed e = map text_of prog -> Forall (Forall command_ok) prog ->
  lasting d d' (concat prog) (pins_seen e).
Proof.
  induction l as [|a l IH]; intros d d' e prog E X OK; cbn [sys_acts] in E.
  - injection E as <- <-. destruct prog; [|discriminate]. apply lasting_same; reflexivity.
  - destruct (sys_act A fwd p2l pinMap print now d a) as [[d1 e1]|] eqn:S; cbn [bind] in E; [|discriminate].
    destruct (sys_acts A fwd p2l pinMap print now d1 l) as [[d2 e2]|] eqn:R; cbn [bind] in E; [|discriminate]. injection E as <- <-.
    unfold executed in X. rewrite flat_map_app in X. rewrite pins_seen_app.
    destruct a as [n|t]; cbn [sys_act] in S.
    + injection S as <- <-. exact (IH _ _ _ prog R X OK).
    + destruct (dev_parse A fwd p2l pinMap print now d t) as [[d3 e3]|] eqn:P; cbn [bind] in S; [|discriminate]. injection S as <- <-.
      cbn [flat_map app] in X. replace (flat_map (fun x : sys_ev A => match x with YExec t0 => [t0] | _ => [] end) (map YDev e3)) with (@nil (list Z)) in X by (clear; induction e3; auto).
      destruct prog as [|cs prog]; [discriminate|]. cbn [map app] in X. injection X as -> X. apply Forall_cons_iff in OK as [OK1 OK2]. cbn [concat].
      apply (lasting_app d d3 d2); [|exact (IH _ _ _ prog R X OK2)].
      change (pins_seen (YExec (text_of cs) :: map YDev e3)) with (pins_seen (map YDev e3)). rewrite pins_seen_dev. exact (parse_lasting _ _ _ _ _ OK1 P).
Qed.
Lemma no_exec_dev e : executed (map (@YDev A) e) = [].
Proof. induction e; auto. Qed.
Lemma step_lasting sgn (s s' : sys A) x e prog : sys_step A fwd inv l2p p2l limits pinMap print sgn s x = Ok (s', e) -> executed e = map text_of prog -> Forall (Forall command_ok) prog ->
  lasting (y_dev s) (y_dev s') (concat prog) (pins_seen e).
Proof.
  intros S X OK.
  assert (Z0 : executed e = [] -> lasting (y_dev s) (y_dev s') [] (pins_seen e) -> lasting (y_dev s) (y_dev s') (concat prog) (pins_seen e)).
  { intros E0 H. rewrite E0 in X. destruct prog; [exact H|discriminate]. }
  destruct x as [c| |now lv]; cbn [sys_step] in S.
  - injection S as <- <-. apply Z0; [reflexivity|]. apply lasting_same; reflexivity.
  - destruct (dev_tick A (y_dev s)) as [d|] eqn:T; cbn [bind] in S; [|discriminate]. injection S as <- <-. apply Z0; [reflexivity|]. exact (tick_lasting _ _ T).
  - unfold sys_main in S. destruct (y_phase s) as [| |k| |].
    + destruct (dev_robot A fwd inv l2p p2l limits print (y_dev s)) as [[d e1]|] eqn:R; cbn [bind] in S; [|discriminate].
      injection S as <- <-. apply Z0; [exact (no_exec_dev e1)|]. change (pins_seen (YLoop :: map YDev e1)) with (pins_seen (map YDev e1)). rewrite pins_seen_dev. exact (robot_lasting _ _ _ R).
    + destruct (dev_robot A fwd inv l2p p2l limits print (y_dev s)) as [[d e1]|] eqn:R; cbn [bind] in S; [|discriminate].
      injection S as <- <-. apply Z0; [exact (no_exec_dev e1)|]. rewrite pins_seen_dev. exact (robot_lasting _ _ _ R).
    + destruct (y_rx s) as [|c rx]; [injection S as <- <-; apply Z0; [reflexivity|]; apply lasting_same; reflexivity|].
      destruct (k <? READ_BYTES); [|injection S as <- <-; apply Z0; [reflexivity|]; apply lasting_same; reflexivity].
      unfold sys_mcp in S. destruct (c_step sgn (y_mcp s) (CChar c)) as [[m acts]|]; cbn [bind] in S; [|discriminate].
      destruct (sys_acts A fwd p2l pinMap print now (y_dev s) acts) as [[d evs]|] eqn:AR; cbn [bind] in S; [|discriminate]. injection S as <- <-.
      exact (acts_lasting _ _ _ _ _ prog AR X OK).
    + destruct (dev_poll_cases A (y_dev s) now lv) as [[_ E]|[_ (io & _ & E)]]; rewrite E in S; injection S as <- <-; apply Z0.
      * destruct (0 <? pending (d_mril (y_dev s))); reflexivity.
      * destruct (0 <? pending (d_mril (y_dev s))); apply lasting_same; reflexivity.
      * reflexivity.
      * apply lasting_same; reflexivity.
    + unfold sys_mcp in S. destruct (c_step sgn (y_mcp s) (CPoll (mdone (d_mril (y_dev s))))) as [[m acts]|]; cbn [bind] in S; [|discriminate].
      destruct (sys_acts A fwd p2l pinMap print now (y_dev s) acts) as [[d evs]|] eqn:AR; cbn [bind] in S; [|discriminate]. injection S as <- <-.
      exact (acts_lasting _ _ _ _ _ prog AR X OK).
Qed.
Lemma split_map {X Y} (f : X -> Y) l : forall a b, a ++ b = map f l -> exists l1 l2, l = l1 ++ l2 /\ a = map f l1 /\ b = map f l2.
Proof.
  induction l as [|x l IH]; intros a b E; cbn [map] in E.
  - apply app_eq_nil in E as [-> ->]. exists [], []. auto.
  - destruct a as [|y a]; [cbn in E; subst b; exists [], (x :: l); auto|]. cbn in E. injection E as -> E.
    destruct (IH _ _ E) as (l1 & l2 & -> & -> & ->). exists (x :: l1), l2. auto.
Qed.
Theorem C63_controller sgn l : forall (s s' : sys A) tr prog, run sgn s l = Ok (s', tr) -> executed tr = map text_of prog -> Forall (Forall command_ok) prog ->
  lasting (y_dev s) (y_dev s') (concat prog) (pins_seen tr).
Proof.
  induction l as [|x l IH]; intros s s' tr prog E X OK; cbn [sys_run] in E.
  - injection E as <- <-. destruct prog; [|discriminate]. apply lasting_same; reflexivity.
  - destruct (sys_step A fwd inv l2p p2l limits pinMap print sgn s x) as [[s1 e1]|] eqn:S; cbn [bind] in E; [|discriminate].
    destruct (run sgn s1 l) as [[s2 e2]|] eqn:R; cbn [bind] in E; [|discriminate]. injection E as <- <-.
    unfold executed in X. rewrite flat_map_app in X. apply split_map in X as (p1 & p2 & -> & X1 & X2). apply Forall_app in OK as [OK1 OK2].
    rewrite concat_app, pins_seen_app. apply (lasting_app _ (y_dev s1)); [exact (step_lasting _ _ _ _ _ _ S X1 OK1)|exact (IH _ _ _ _ R X2 OK2)].
Qed.
End Settings.

(** "N7M0V30X120.5A90R6-15V35I31O20D500M2" on the machine just started: joint moves at 35 degrees per second, x and a set, additional axis 6
    at -15 degrees, input 3 awaited, output 2 low; M2 sets nothing *)
Definition num (neg : bool) (i : list Z) : numeral := mkNum neg i None.
Definition demo_settings : list command :=
  [Number false [7]; SetMethod false [0]; SetVelocity (num false [3; 0]); SetPose AxX (mkNum false [1; 2; 0] (Some [5])); SetPose AxA (num false [9; 0]);
   SetJoint 6 (num true [1; 5]); SetVelocity (num false [3; 5]); WaitInput 3 1; SetOut 2 0; Delay false [5; 0; 0]; SetMethod false [2]].
Example C63_demo_ok : demo_settings <> [] /\ Forall command_ok demo_settings.
Proof.
  split; [discriminate|]. unfold demo_settings, num.
  assert (DO : forall d, (0 <=? d) && (d <=? 9) = true -> digit_ok d) by (intros d E; apply andb_true_iff in E as [E1 E2]; apply Z.leb_le in E1, E2; split; assumption).
  repeat (apply Forall_cons; [split; [vm_compute; discriminate|]; cbn; unfold int_ok, numeral_ok; cbn; splits; try discriminate; try (left; discriminate); repeat (apply Forall_cons; [apply DO; reflexivity|]); try apply Forall_nil; try (apply DO; reflexivity)|]).
  apply Forall_nil.
Qed.
Example C63_demo_runs :
  match dev_parse IF (fun a => a) (fun a => a) [20; 21; 22; 23; 24; 25; 26; 27; 28; 29] (fun _ => [48]) 1000 (dev_boot IF (fun a => a) (fun a => a) demo_servos [demo_s; demo_s]) (text_of demo_settings) with
  | Ok (d, e) => r_method (d_robot d) = P2P /\ r_maxvel (d_robot d) = fi 35 /\ v0 (r_targetP (d_robot d)) = d2f IF (ddec IF false 1205 (-1)) /\ v3 (r_targetP (d_robot d)) = deg IF 90 /\
      map s_target (d_axes d) = [deg IF (-15); s_target demo_s] /\ d_wait d = 1500 /\ d_io d = [(23, 1)] /\ pins_of e = [PPulldown 23; POutput 22; PLow 22]
  | Ub _ => False
  end.
Proof. vm_compute. splits; reflexivity. Qed.
(** ":N5M0R115" on the running controller *)
Example C63_controller_reachable :
  match demo_system demo_moving with
  | Ok (s, tr) => executed tr = map text_of [[Number false [5]; SetMethod false [0]; SetJoint 1 (num false [1; 5])]] /\ r_method (d_robot (y_dev s)) = P2P
  | Ub _ => False
  end.
Proof. vm_compute. splits; reflexivity. Qed.
Print Assumptions C63_instruction.
Print Assumptions C63_controller.
