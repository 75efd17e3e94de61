(** * ConfigModel: config/mp-robot-kit.h and config/mp-robot-d.h, generic in the arithmetic. *)
From Verif Require Import Base Arith ServoModel RobotModel KinModel.

Section Config.
Context (A : arith).
Notation float := (F A).
Notation fd n e := (d2f A (ddec A false n e)) (only parsing).   (* a positive decimal literal stored in a float *)

(** n * DEG_TO_RAD stored in a float *)
Definition deg (n : Z) : float :=
  d2f A (dmul A (if n <? 0 then dopp A (dnum A (- n)) else dnum A n) (DEG_TO_RAD A)).

(** ** mp-robot-kit.h *)
(** lines 25-31 *)
Definition kit_geom : geom float :=
  mkGeom (mk3 (fd 46 (-1)) (fofz A 0) (fd 79 (-1)))
         (mk3 (fofz A 0) (fofz A 0) (fd 117 (-1)))
         (mk3 (fofz A 1) (fofz A 0) (fd 15 (-1)))
         (mk3 (fd 1215 (-2)) (fofz A 0) (fofz A 0))
         (mk3 (fofz A 0) (fofz A 0) (fofz A (-3))).
(** columns 4 and 5 of servoConfig, lines 15-22; logicAngleLimits, lines 34-47, are the same *)
Definition kit_limits : V6 (float * float) :=
  mk6 (deg (-90), deg 90) (deg (-45), deg 90) (deg (-45), deg 135)
      (deg (-90), deg 85) (deg (-140), deg 15) (deg (-90), deg 60).
(** the servos made by setup() (main.cpp:86-97) from servoConfig, lines 15-22; the home
    position is 0.  The constructor's pulse output is in ServoModel. *)
Definition kit_servo (pin minF maxF mn mx : Z) : servo A :=
  let z := fofz A 0 in
  mkServo A pin (pin <? 0) z minF maxF 0 z z z (deg mn) (deg mx) (deg 300) (deg 300).
Definition kit_servos : V6 (servo A) :=
  mk6 (kit_servo 3 700 2380 (-90) 90) (kit_servo 4 710 1909 (-45) 90) (kit_servo 5 2290 650 (-45) 135)
      (kit_servo 6 740 2260 (-90) 85) (kit_servo 9 730 2340 (-140) 15) (kit_servo 10 740 2200 (-90) 60).
(** additionalAxisServoConfig, lines 76-80; made by setup(), main.cpp:100-108 (home 0) *)
Definition kit_axis_servos : list (servo A) :=
  let z := fofz A 0 in
  [ mkServo A 20 false z 1888 1122 0 z z z (deg 0) (deg 1) (deg 160) (deg 160);
    mkServo A (-1) true z 1000 2000 0 z z z (deg (-90)) (deg 90) (deg 160) (deg 160) ].
(** lines 50-52 *)
Definition kit_l2p (a : V6 float) : V6 float :=
  mk6 (v0 a) (v1 a) (fadd A (v2 a) (v1 a)) (v3 a) (v4 a) (v5 a).
(** lines 54-56 *)
Definition kit_p2l (a : V6 float) : V6 float :=
  mk6 (v0 a) (v1 a) (fsub A (v2 a) (v1 a)) (v3 a) (v4 a) (v5 a).
(** line 82; the same in mp-robot-d.h is not needed *)
Definition kit_pinMap : list Z := [8; 11; 12; 7; 0; 1; 0; 0; 0; 0].

(** ** mp-robot-d.h *)
(** lines 4-10 *)
Definition d_geom : geom float :=
  mkGeom (mk3 (fd 42 (-1)) (fofz A 0) (fd 85 (-1)))
         (mk3 (fofz A 0) (fofz A 0) (fd 95 (-1)))
         (mk3 (fofz A 1) (fofz A 0) (fd 185 (-2)))
         (mk3 (fd 148 (-1)) (fofz A 0) (fofz A 0))
         (mk3 (fofz A 0) (fofz A 0) (d2f A (ddec A true 22 (-1)))).
(** limits of joint 2, lines 18-19 *)
Definition d_limit2 : float * float := (deg (-25), deg 48).
(** lines 28-31 *)
Definition d_v1 : float := fd 95 (-1).
Definition d_h1 : float := fd 2619 (-3).
Definition d_h2 : float := fd 1029 (-2).
Definition d_h3 : float := fd 33 (-1).

(** logicalToPhysicalAngles, lines 34-45 *)
Definition d_l2p (an : V6 float) : V6 float :=
  let alpha := v2 an in
  let alpha_ := d2f A (dadd A (f2d A alpha) (half_pi A)) in
  let diag_2 := fsqrt A (fadd A (fsub A (fmul A d_v1 d_v1)
                   (fmul A (fmul A (fmul A (fofz A 2) d_v1) d_h3) (fcos A alpha_))) (fmul A d_h3 d_h3)) in
  let beta_1 := facos A (fdiv A
     (fadd A (fadd A (fmul A (fopp A d_h2) d_h2) (fmul A d_h1 d_h1)) (fmul A diag_2 diag_2))
     (fmul A (fmul A (fofz A 2) d_h1) diag_2)) in
  let beta_2 := facos A (fdiv A
     (fadd A (fadd A (fmul A (fopp A d_h3) d_h3) (fmul A d_v1 d_v1)) (fmul A diag_2 diag_2))
     (fmul A (fmul A (fofz A 2) d_v1) diag_2)) in
  let a2 := d2f A (dsub A (half_pi A) (f2d A (fadd A beta_1 beta_2))) in
  mk6 (v0 an) (v1 an) (fadd A a2 (v1 an)) (v3 an) (v4 an) (v5 an).

(** physicalToLogicalAngles, lines 47-56 *)
Definition d_p2l (an : V6 float) : V6 float :=
  let beta := fsub A (v2 an) (v1 an) in
  let beta_ := d2f A (dsub A (half_pi A) (f2d A beta)) in
  let diag_1 := fsqrt A (fadd A (fsub A (fmul A d_v1 d_v1)
                   (fmul A (fmul A (fmul A (fofz A 2) d_v1) d_h1) (fcos A beta_))) (fmul A d_h1 d_h1)) in
  let alpha_1 := facos A (fdiv A
     (fadd A (fadd A (fmul A (fopp A d_h2) d_h2) (fmul A d_h3 d_h3)) (fmul A diag_1 diag_1))
     (fmul A (fmul A (fofz A 2) d_h3) diag_1)) in
  let alpha_2 := facos A (fdiv A
     (fadd A (fadd A (fmul A (fopp A d_h1) d_h1) (fmul A d_v1 d_v1)) (fmul A diag_1 diag_1))
     (fmul A (fmul A (fofz A 2) d_v1) diag_1)) in
  let a2 := d2f A (dsub A (f2d A (fadd A alpha_1 alpha_2)) (half_pi A)) in
  mk6 (v0 an) (v1 an) a2 (v3 an) (v4 an) (v5 an).
End Config.
