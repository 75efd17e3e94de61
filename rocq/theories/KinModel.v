(** * KinModel: src/Kinematic.cpp, generic in the arithmetic.

    Every float/double conversion of the C++ code is written out: [float] operations are
    the [f...] fields of the arithmetic, [double] operations the [d...] fields.  pow(x, 2)
    is modelled as the double product x*x.  The log() calls and setDebug are not modelled
    (text output only), nor are the values nothing depends on: J[1] (lines 137-139), J4_x_z[1]
    (line 148) and the "out of reach" message (lines 127-129). *)
From Verif Require Import Base Arith RobotModel.

(** float[3] arrays *)
Record V3 (T : Type) := mk3 { vx : T; vy : T; vz : T }.
Arguments mk3 {T}. Arguments vx {T}. Arguments vy {T}. Arguments vz {T}.

(** float geometry[5][3] *)
Record geom (T : Type) := mkGeom { g0 : V3 T; g1 : V3 T; g2 : V3 T; g3 : V3 T; g4 : V3 T }.
Arguments mkGeom {T}. Arguments g0 {T}. Arguments g1 {T}. Arguments g2 {T}. Arguments g3 {T}. Arguments g4 {T}.

Declare Scope fl_scope.
Delimit Scope fl_scope with fl.

Section Kin.
Context (Ar : arith).
Notation float := (F Ar).
Notation vec := (V3 float).
Notation "x + y" := (fadd Ar x y) : fl_scope.
Notation "x - y" := (fsub Ar x y) : fl_scope.
Notation "x * y" := (fmul Ar x y) : fl_scope.
Notation "x / y" := (fdiv Ar x y) : fl_scope.
Notation "- x" := (fopp Ar x) : fl_scope.

Definition dnum (n : Z) : D Ar := ddec Ar false n 0.
Definition fnum (n : Z) : float := fofz Ar n.
(** PI / 2.0 *)
Definition half_pi : D Ar := ddiv Ar (dpi Ar) (dnum 2).
(** pow(x, 2) *)
Definition sq (x : float) : D Ar := dmul Ar (f2d Ar x) (f2d Ar x).
(** x += d and x -= d, a double added to a float *)
Definition addd (x : float) (d : D Ar) : float := d2f Ar (dadd Ar (f2d Ar x) d).
Definition subd (x : float) (d : D Ar) : float := d2f Ar (dsub Ar (f2d Ar x) d).

(** cross, Kinematic.cpp:472-476 *)
Definition cross (u v : vec) : vec :=
  mk3 (vy u * vz v - vz u * vy v)%fl (vz u * vx v - vx u * vz v)%fl (vx u * vy v - vy u * vx v)%fl.
(** length3, Kinematic.cpp:498-500 *)
Definition length3 (v : vec) : float :=
  d2f Ar (dsqrt Ar (dadd Ar (dadd Ar (sq (vx v)) (sq (vy v))) (sq (vz v)))).
(** length2, Kinematic.cpp:502-504 *)
Definition length2 (a b : float) : float := d2f Ar (dsqrt Ar (dadd Ar (sq a) (sq b))).
(** angleBetween, Kinematic.cpp:482-496 *)
Definition angle_between (u v ref : vec) : float :=
  let norm := length3 (cross u v) in
  let angle := fatan2 Ar norm (vx v * vx u + vy v * vy u + vz v * vz u)%fl in
  let tmp := (vx ref * vx u + vy ref * vy u + vz ref * vz u)%fl in
  let sign := if flt Ar (fnum 0) tmp then fnum 1 else fnum (-1) in
  (angle * sign)%fl.

(** members set by the constructor, Kinematic.cpp:17-52 (J_initial_absolute[4] and [1] are
    the only ones used later) *)
Record kin := mkKin {
  k_g : geom float;
  k_v1 : float;            (* V1_length_x_z *)
  k_v4 : float;            (* V4_length_x_y_z *)
  k_j1 : vec;              (* J_initial_absolute[1] *)
  k_j4y : float;           (* J_initial_absolute[4][1] *)
  k_a1 : float; k_a2 : float; k_a4 : float }.   (* A_corrected; entries 0, 3, 5 are 0 *)

Definition kin_new (g : geom float) : kin :=
  let z := fnum 0 in
  let at_ := fatan2 Ar (vx (g1 g)) (vz (g1 g)) in
  let b := fatan2 Ar (vz (g2 g) + vz (g3 g))%fl (vx (g2 g) + vx (g3 g))%fl in
  mkKin g
    (d2f Ar (dsqrt Ar (dadd Ar (sq (vx (g1 g))) (sq (vz (g1 g))))))
    (d2f Ar (dsqrt Ar (dadd Ar (dadd Ar (sq (vx (g4 g))) (sq (vz (g4 g)))) (sq (vy (g4 g))))))
    (mk3 (z + vx (g0 g))%fl (z + vy (g0 g))%fl (z + vz (g0 g))%fl)
    (z + vy (g0 g) + vy (g1 g) + vy (g2 g) + vy (g3 g))%fl
    (addd z half_pi - at_)%fl
    (addd z half_pi + b + at_)%fl
    (addd z half_pi).

(** result of calculateCoordinates: joint positions 1..5 (joint 0 is the origin), the
    rotation matrix and the three reported angles *)
Record coords := mkCoords {
  c_j0 : vec; c_j1 : vec; c_j2 : vec; c_j3 : vec; c_j4 : vec; c_j5 : vec;
  c_m0 : vec; c_m1 : vec; c_m2 : vec;            (* rows of M *)
  c_ang : vec }.

(** thetaX, thetaY, thetaZ from the matrix, Kinematic.cpp:430-450 *)
Definition euler_angles (m0 m1 m2 : vec) : vec :=
  if flt Ar (vz m0) (fnum 1) then
    if flt Ar (fnum (-1)) (vz m0) then
      mk3 (fatan2 Ar (- vz m1)%fl (vz m2)) (fasin Ar (vz m0)) (fatan2 Ar (- vy m0)%fl (vx m0))
    else
      mk3 (- fatan2 Ar (vx m1) (vy m1))%fl (d2f Ar (ddiv Ar (dopp Ar (dpi Ar)) (dnum 2))) (fnum 0)
  else mk3 (fatan2 Ar (vx m1) (vy m1)) (d2f Ar half_pi) (fnum 0).

(** calculateCoordinates, Kinematic.cpp:354-455 *)
Definition calculate_coordinates (K : kin) (an : V6 float) : coords :=
  let G := k_g K in
  let a := fcos Ar (v0 an) in let b := fsin Ar (v0 an) in
  let c := vx (g0 G) in let d := vy (g0 G) in let e := vz (g0 G) in
  let f := fcos Ar (v1 an) in let g := fsin Ar (v1 an) in
  let h := vx (g1 G) in let i := vy (g1 G) in let j := vz (g1 G) in
  let k := fcos Ar (v2 an) in let l := fsin Ar (v2 an) in
  let m := vx (g2 G) in let n := vy (g2 G) in let o := vz (g2 G) in
  let p := fcos Ar (v3 an) in let q := fsin Ar (v3 an) in
  let r := vx (g3 G) in let s := vy (g3 G) in let t := vz (g3 G) in
  let u := fcos Ar (v4 an) in let v := fsin Ar (v4 an) in
  let w := vx (g4 G) in let x := vy (g4 G) in let y := vz (g4 G) in
  let A := fcos Ar (v5 an) in let B := fsin Ar (v5 an) in
  let J0x := fnum 0 in let J0y := fnum 0 in let J0z := fnum 0 in
  let J1x := (J0x + a * c - b * d)%fl in
  let J1y := (J0y + b * c + a * d)%fl in
  let J1z := (J0z + e)%fl in
  let J2x := (J1x + a * f * h - b * i + a * g * j)%fl in
  let J2y := (J1y + b * f * h + a * i + b * g * j)%fl in
  let J2z := (J1z + - g * h + f * j)%fl in
  let J3x := (J2x + a * f * k * m - a * g * l * m - b * n + a * g * k * o + a * f * l * o)%fl in
  let J3y := (J2y + b * f * k * m - b * g * l * m + a * n + b * g * k * o + b * f * l * o)%fl in
  let J3z := (J2z - g * k * m - f * l * m + f * k * o - g * l * o)%fl in
  let J4x := (J3x + a * f * k * r - a * g * l * r - b * p * s + a * g * k * q * s + a * f * l * q * s + a * g * k * p * t + a * f * l * p * t + b * q * t)%fl in
  let J4y := (J3y + b * f * k * r - b * g * l * r + a * p * s + b * g * k * q * s + b * f * l * q * s + b * g * k * p * t + b * f * l * p * t - a * q * t)%fl in
  let J4z := (J3z - g * k * r - f * l * r + f * k * q * s - g * l * q * s + f * k * p * t - g * l * p * t)%fl in
  let J5x := (J4x + a * f * k * u * w - a * g * l * u * w - a * g * k * p * v * w - a * f * l * p * v * w - b * q * v * w - b * p * x + a * g * k * q * x + a * f * l * q * x + a * g * k * p * u * y + a * f * l * p * u * y + b * q * u * y + a * f * k * v * y - a * g * l * v * y)%fl in
  let J5y := (J4y + b * f * k * u * w - b * g * l * u * w - b * g * k * p * v * w - b * f * l * p * v * w + a * q * v * w + a * p * x + b * g * k * q * x + b * f * l * q * x + b * g * k * p * u * y + b * f * l * p * u * y - a * q * u * y + b * f * k * v * y - b * g * l * v * y)%fl in
  let J5z := (J4z - g * k * u * w - f * l * u * w - f * k * p * v * w + g * l * p * v * w + f * k * q * x - g * l * q * x + f * k * p * u * y - g * l * p * u * y - g * k * v * y - f * l * v * y)%fl in
  let M00 := (- B * b * p - - B * a * g * k * q - - B * a * f * l * q - A * a * f * k * u + A * a * g * l * u + A * a * g * k * p * v + A * a * f * l * p * v + A * b * q * v)%fl in
  let M01 := (- A * b * p + A * a * g * k * q + A * a * f * l * q - - B * a * f * k * u + - B * a * g * l * u + - B * a * g * k * p * v + - B * a * f * l * p * v + - B * b * q * v)%fl in
  let M02 := (- a * g * k * p * u - a * f * l * p * u - b * q * u - a * f * k * v + a * g * l * v)%fl in
  let M10 := (B * a * p - - B * b * g * k * q - - B * b * f * l * q - A * b * f * k * u + A * b * g * l * u + A * b * g * k * p * v + A * b * f * l * p * v - A * a * q * v)%fl in
  let M11 := (A * a * p + A * b * g * k * q + A * b * f * l * q - - B * b * f * k * u + - B * b * g * l * u + - B * b * g * k * p * v + - B * b * f * l * p * v - - B * a * q * v)%fl in
  let M12 := (- b * g * k * p * u - b * f * l * p * u + a * q * u - b * f * k * v + b * g * l * v)%fl in
  let M20 := (B * f * k * q + - B * g * l * q + A * g * k * u + A * f * l * u + A * f * k * p * v - A * g * l * p * v)%fl in
  let M21 := (A * f * k * q - A * g * l * q + - B * g * k * u + - B * f * l * u + - B * f * k * p * v - - B * g * l * p * v)%fl in
  let M22 := (- f * k * p * u + g * l * p * u + g * k * v + f * l * v)%fl in
  mkCoords (mk3 J0x J0y J0z) (mk3 J1x J1y J1z) (mk3 J2x J2y J2z) (mk3 J3x J3y J3z)
           (mk3 J4x J4y J4z) (mk3 J5x J5y J5z)
           (mk3 M00 M01 M02) (mk3 M10 M11 M12) (mk3 M20 M21 M22)
           (euler_angles (mk3 M00 M01 M02) (mk3 M10 M11 M12) (mk3 M20 M21 M22)).

(** forward, Kinematic.cpp:325-352 *)
Definition kin_forward (K : kin) (an : V6 float) : V6 float :=
  let C := calculate_coordinates K an in
  mk6 (vx (c_j5 C)) (vy (c_j5 C)) (vz (c_j5 C)) (vx (c_ang C)) (vy (c_ang C)) (vz (c_ang C)).

(** ** inverse, Kinematic.cpp:55-323, in the order of the code *)

(** targetVectorZ and targetVectorY, lines 59-73 and 270-274 *)
Definition target_z (po : V6 float) : vec :=
  let cb := fcos Ar (v4 po) in let sb := fsin Ar (v4 po) in
  let ca := fcos Ar (v3 po) in let sa := fsin Ar (v3 po) in
  mk3 sb (- sa * cb)%fl (ca * cb)%fl.
Definition target_y (po : V6 float) : vec :=
  let cc := fcos Ar (v5 po) in let sc := fsin Ar (v5 po) in
  let cb := fcos Ar (v4 po) in let sb := fsin Ar (v4 po) in
  let ca := fcos Ar (v3 po) in let sa := fsin Ar (v3 po) in
  mk3 (- cb * sc)%fl (ca * cc - sa * sb * sc)%fl (sa * cc + ca * sb * sc)%fl.

(** J[4], lines 112-114 *)
Definition wrist_centre (K : kin) (po : V6 float) : vec :=
  let tz := target_z po in
  mk3 (v0 po - k_v4 K * vx tz)%fl (v1 po - k_v4 K * vy tz)%fl (v2 po - k_v4 K * vz tz)%fl.

(** R[0], lines 124-125; A_corrected[0] = 0 *)
Definition solve_r0 (K : kin) (J4 : vec) : float :=
  let r := addd (fnum 0) (dsub Ar half_pi
             (f2d Ar (facos Ar (- k_j4y K / length2 (- vy J4) (vx J4))%fl))) in
  (r + fatan2 Ar (vy J4) (vx J4))%fl.

(** J4_x_z[0], [2], lines 147-149 *)
Definition plane_x (R0 : float) (J4 : vec) : float := (fcos Ar R0 * vx J4 + fsin Ar R0 * vy J4)%fl.

(** R[1] and R[2], lines 155-184 *)
Definition proj_sq (K : kin) (px pz : float) : float :=
  d2f Ar (dadd Ar (sq (px - vx (k_j1 K))%fl) (sq (pz - vz (k_j1 K))%fl)).
Definition forearm_len (K : kin) : float :=
  length2 (vx (g2 (k_g K)) + vx (g3 (k_g K)))%fl (vz (g2 (k_g K)) + vz (g3 (k_g K)))%fl.
Definition solve_r2 (K : kin) (px pz : float) : float :=
  let L2 := forearm_len K in
  let P := proj_sq K px pz in
  subd (k_a2 K)
    (dacos Ar (ddiv Ar
       (dadd Ar (dadd Ar (f2d Ar (- P)%fl) (sq L2)) (sq (k_v1 K)))
       (dmul Ar (dmul Ar (dnum 2) (f2d Ar L2)) (f2d Ar (k_v1 K))))).
Definition solve_r1 (K : kin) (px pz : float) : float :=
  let L2 := forearm_len K in
  let P := proj_sq K px pz in
  let L := fsqrt Ar P in
  subd (k_a1 K - fatan2 Ar (pz - vz (k_j1 K)) (px - vx (k_j1 K)))%fl
    (dacos Ar (ddiv Ar
       (dadd Ar (dsub Ar (f2d Ar P) (sq L2)) (sq (k_v1 K)))
       (dmul Ar (dmul Ar (dnum 2) (f2d Ar L)) (f2d Ar (k_v1 K))))).

(** J[2], J[3], lines 190-221 *)
Definition elbow_j3 (K : kin) (R0 R1 R2 : float) : vec :=
  let G := k_g K in
  let ta := fcos Ar R0 in let tb := fsin Ar R0 in
  let tc := vx (g0 G) in let e := (- vy (g0 G))%fl in let d := vz (g0 G) in
  let f := fcos Ar R1 in let g := fsin Ar R1 in
  let h := vx (g1 G) in let j := (- vy (g1 G))%fl in let i := vz (g1 G) in
  let k := fcos Ar R2 in let l := fsin Ar R2 in
  let m := vx (g2 G) in let o := (- vy (g2 G))%fl in let n := vz (g2 G) in
  let J2x := (ta * tc + tb * e + ta * f * h - ta * - g * i + tb * j)%fl in
  let J2y := (- (- tb * tc + ta * e - tb * f * h + tb * - g * i + ta * j))%fl in
  let J2z := (d + - g * h + f * i)%fl in
  mk3 (J2x + ta * f * k * m - ta * - g * - l * m - ta * - g * k * n - ta * f * - l * n + tb * o)%fl
      (J2y - (- tb * f * k * m + tb * - g * - l * m + tb * - g * k * n + tb * f * - l * n + ta * o))%fl
      (J2z + - g * k * m + f * - l * m + f * k * n + g * - l * n)%fl.

Definition vsub (u v : vec) : vec := mk3 (vx u - vx v)%fl (vy u - vy v)%fl (vz u - vz v)%fl.
(** v[i] *= -1.0 *)
Definition vneg (u : vec) : vec :=
  let n x := d2f Ar (dmul Ar (f2d Ar x) (dopp Ar (dnum 1))) in mk3 (n (vx u)) (n (vy u)) (n (vz u)).

(** XY_parallel_aligned_vector, lines 237-239 *)
Definition xy_vector (R0 : float) : vec :=
  let an := dadd Ar (f2d Ar R0) half_pi in
  mk3 (d2f Ar (dmul Ar (dnum 10) (dcos Ar an))) (d2f Ar (dmul Ar (dnum 10) (dsin Ar an))) (fnum 0).

(** J4J5_J4J3_normal_vector after the static configuration step, lines 231-250 *)
Definition wrist_normal (R0 : float) (j45 j43 : vec) : vec :=
  let n := cross j45 j43 in
  let xy := xy_vector R0 in
  let ref := cross xy (mk3 (fnum 0) (fnum 0) (fnum 1)) in
  if dle Ar (ddec Ar false 1 (-4))
         (dsub Ar (f2d Ar (fabsf Ar (angle_between n xy ref))) half_pi)
  then vneg n else n.

(** R[3], lines 252-256 *)
Definition solve_r3 (R0 : float) (n j43 : vec) : float :=
  let xy := xy_vector R0 in angle_between n xy (cross xy j43).
(** R[4], lines 262-266; the C constant 3 / 2 is the integer 1 *)
Definition solve_r4 (K : kin) (n j45 j43 : vec) : float :=
  let r := (k_a4 K - angle_between j45 j43 (cross j43 n))%fl in
  let pi1 := dmul Ar (dnum (3 / 2)) (dpi Ar) in
  d2f Ar (dsub Ar (dfmod Ar (dadd Ar pi1 (f2d Ar r)) (dmul Ar (dnum 2) (dpi Ar))) pi1).
(** R[5], lines 270-283; A_corrected[5] = 0 *)
Definition solve_r5 (n tz ty : vec) : float :=
  let r := (fnum 0 - angle_between n ty (cross tz ty))%fl in
  if dlt Ar (dpi Ar) (f2d Ar r)
  then d2f Ar (dadd Ar (dopp Ar (dpi Ar)) (dfmod Ar (f2d Ar r) (dpi Ar)))
  else r.

(** the six computed values R[0..5], NaN or not *)
Definition kin_solve (K : kin) (po : V6 float) : V6 float :=
  let J4 := wrist_centre K po in
  let R0 := solve_r0 K J4 in
  let px := plane_x R0 J4 in
  let R2 := solve_r2 K px (vz J4) in
  let R1 := solve_r1 K px (vz J4) in
  let J3 := elbow_j3 K R0 R1 R2 in
  let j45 := vsub (mk3 (v0 po) (v1 po) (v2 po)) J4 in
  let j43 := vsub J3 J4 in
  let n := wrist_normal R0 j45 j43 in
  mk6 R0 R1 R2 (solve_r3 R0 n j43) (solve_r4 K n j45 j43) (solve_r5 n (target_z po) (target_y po)).

(** return value (0 = OK, 1 = OUT_OF_RANGE) and the caller's array afterwards, lines 285-322 *)
Definition kin_inverse (K : kin) (po : V6 float) (out : V6 float) : Z * V6 float :=
  let r := kin_solve K po in
  if existsb (fisnan Ar) (list6 r) then (1, out) else (0, r).

(** the shape used by the robot controller's model: None = OUT_OF_RANGE, array untouched *)
Definition kin_inv (K : kin) (po : V6 float) : option (V6 float) :=
  match kin_inverse K po po with (0, r) => Some r | _ => None end.

End Kin.
