(** * KinSpec: exact geometry of a six-axis arm, independent of src/Kinematic.cpp. *)
From Verif Require Import Base Arith RobotModel KinModel.
From Coq Require Import Reals.
Open Scope R_scope.

Notation vecR := (V3 R).

(** rotations about the coordinate axes *)
Definition rotx (t : R) (v : vecR) : vecR :=
  mk3 (vx v) (cos t * vy v - sin t * vz v) (sin t * vy v + cos t * vz v).
Definition roty (t : R) (v : vecR) : vecR :=
  mk3 (cos t * vx v + sin t * vz v) (vy v) (- sin t * vx v + cos t * vz v).
Definition rotz (t : R) (v : vecR) : vecR :=
  mk3 (cos t * vx v - sin t * vy v) (sin t * vx v + cos t * vy v) (vz v).

Definition add3 (u v : vecR) : vecR := mk3 (vx u + vx v) (vy u + vy v) (vz u + vz v).
Definition sub3 (u v : vecR) : vecR := mk3 (vx u - vx v) (vy u - vy v) (vz u - vz v).
Definition scale3 (k : R) (v : vecR) : vecR := mk3 (k * vx v) (k * vy v) (k * vz v).
Definition dot3 (u v : vecR) : R := vx u * vx v + vy u * vy v + vz u * vz v.
Definition norm3R (v : vecR) : R := sqrt (dot3 v v).
Definition zero3 : vecR := mk3 0 0 0.
Definition ex : vecR := mk3 1 0 0.
Definition ey : vecR := mk3 0 1 0.
Definition ez : vecR := mk3 0 0 1.

(** orientation of the tool frame given by the pose angles a, b, c: X-Y-Z convention *)
Definition orientation (a b c : R) (v : vecR) : vecR := rotx a (roty b (rotz c v)).

(** the chain: joint 0 turns about z, joints 1 and 2 about y, joint 3 about the forearm (x),
    joint 4 about y; at the end the flange looks down and joint 5 turns about its axis *)
Definition link0 (j : V6 R) (v : vecR) : vecR := rotz (v0 j) v.
Definition link1 (j : V6 R) (v : vecR) : vecR := link0 j (roty (v1 j) v).
Definition link2 (j : V6 R) (v : vecR) : vecR := link1 j (roty (v2 j) v).
Definition link3 (j : V6 R) (v : vecR) : vecR := link2 j (rotx (v3 j) v).
Definition link4 (j : V6 R) (v : vecR) : vecR := link3 j (roty (v4 j) v).
Definition flange (j : V6 R) (v : vecR) : vecR := link4 j (roty PI (rotz (v5 j) v)).

(** positions of the joints *)
Definition joint1 (g : geom R) (j : V6 R) : vecR := link0 j (g0 g).
Definition joint2 (g : geom R) (j : V6 R) : vecR := add3 (joint1 g j) (link1 j (g1 g)).
Definition joint3 (g : geom R) (j : V6 R) : vecR := add3 (joint2 g j) (link2 j (g2 g)).
Definition joint4 (g : geom R) (j : V6 R) : vecR := add3 (joint3 g j) (link3 j (g3 g)).
Definition tip (g : geom R) (j : V6 R) : vecR := add3 (joint4 g j) (link4 j (g4 g)).

(** the parts of a pose x, y, z, a, b, c *)
Definition position (p : V6 R) : vecR := mk3 (v0 p) (v1 p) (v2 p).
Definition tool (p : V6 R) (v : vecR) : vecR := orientation (v3 p) (v4 p) (v5 p) v.

(** README.md:80: "V3 must have no offset in Y, Z. V4 must have no offset in X, Y." *)
Definition documented (g : geom R) : Prop :=
  vy (g3 g) = 0 /\ vz (g3 g) = 0 /\ vx (g4 g) = 0 /\ vy (g4 g) = 0.
(** the forearm has a length and the tool points down at zero angles, as in both shipped
    configurations; needed but not documented *)
Definition as_shipped (g : geom R) : Prop := 0 < vx (g3 g) /\ vz (g4 g) < 0.

(** ** Reachability *)
(** where the wrist has to be *)
Definition wrist (g : geom R) (p : V6 R) : vecR := add3 (position p) (scale3 (vz (g4 g)) (tool p ez)).
(** horizontal distance from the vertical axis, and sideways offset of the arm *)
Definition horizontal (v : vecR) : R := sqrt (vx v * vx v + vy v * vy v).
Definition offset (g : geom R) : R := vy (g0 g) + vy (g1 g) + vy (g2 g) + vy (g3 g).
(** distance shoulder-wrist inside the arm's plane *)
Definition reach (g : geom R) (w : vecR) : R :=
  let x := sqrt (horizontal w * horizontal w - offset g * offset g) in
  sqrt ((x - vx (g0 g)) * (x - vx (g0 g)) + (vz w - vz (g0 g)) * (vz w - vz (g0 g))).
Definition upper_arm (g : geom R) : R := sqrt (vx (g1 g) * vx (g1 g) + vz (g1 g) * vz (g1 g)).
Definition fore_arm (g : geom R) : R :=
  let m := vx (g2 g) + vx (g3 g) in let n := vz (g2 g) + vz (g3 g) in sqrt (m * m + n * n).
(** the wrist can be reached: it is not on the vertical axis, not closer to it than the
    sideways offset, and the arm's triangle closes *)
Definition reachable (g : geom R) (p : V6 R) : Prop :=
  let w := wrist g p in
  0 < horizontal w /\ Rabs (offset g) <= horizontal w /\
  0 < upper_arm g /\ 0 < fore_arm g /\ 0 < reach g w /\
  Rabs (upper_arm g - fore_arm g) <= reach g w <= upper_arm g + fore_arm g.

(** inputs and outputs of the model in arithmetic with NaN *)
Definition some6 (a : V6 R) : V6 (option R) := map6 Some a.
Definition some3 (v : vecR) : V3 (option R) := mk3 (Some (vx v)) (Some (vy v)) (Some (vz v)).
Definition someG (g : geom R) : geom (option R) :=
  mkGeom (some3 (g0 g)) (some3 (g1 g)) (some3 (g2 g)) (some3 (g3 g)) (some3 (g4 g)).
