(** * RobotSpec: vocabulary for the robot controller's properties. *)
From Verif Require Import Base Arith ServoModel RobotModel.
From Coq Require Import Reals.

(** a property of all six axes *)
Definition axes (P : Z -> Prop) : Prop := P 0 /\ P 1 /\ P 2 /\ P 3 /\ P 4 /\ P 5.

(** component number i of a six-vector *)
Definition at6 {T} (a : V6 T) (i : Z) : T :=
  match i with 0 => v0 a | 1 => v1 a | 2 => v2 a | 3 => v3 a | 4 => v4 a | _ => v5 a end.

(** [x] is neither below [lo] nor above [hi], as the C comparisons see it *)
Definition not_outside (A : arith) (x lo hi : F A) : Prop :=
  flt A x lo = false /\ flt A hi x = false.

(** the calls that set a target, and those that change nothing but time *)
Definition is_pose_set {A} (o : rop A) : Prop :=
  match o with OSetPose _ _ | OSetPose6 _ => True | _ => False end.
Definition is_angle_set {A} (o : rop A) : Prop :=
  match o with OSetAngle _ _ | OSetAngles _ => True | _ => False end.
Definition is_set {A} (o : rop A) : Prop := is_pose_set o \/ is_angle_set o.
Definition is_poll {A} (o : rop A) : Prop :=
  match o with OProcess | OTick _ => True | _ => False end.
Definition is_tick {A} (o : rop A) : Prop := match o with OTick _ => True | _ => False end.
Definition is_stop {A} (o : rop A) : Prop := match o with OStop => True | _ => False end.
Definition is_end {A} (o : rop A) : Prop := match o with OEnd => True | _ => False end.
Definition not_stop {A} (o : rop A) : Prop := ~ is_stop o /\ ~ is_end o.

(** [os] calls process() only inside transactions and never stop(); [b]: a transaction is open *)
Fixpoint undisturbed {A} (b : bool) (os : list (rop A)) : Prop :=
  match os with
  | [] => True
  | OStart :: r => undisturbed true r
  | OEnd :: r => undisturbed false r
  | OStop :: _ => False
  | OProcess :: r => b = true /\ undisturbed b r
  | _ :: r => undisturbed b r
  end.
(** is a transaction open at the end? *)
Fixpoint open_after {A} (b : bool) (os : list (rop A)) : bool :=
  match os with
  | [] => b
  | OStart :: r => open_after true r
  | OEnd :: r => open_after false r
  | _ :: r => open_after b r
  end.

(** pose obtained from [p] by applying the pose settings of a history, last one wins *)
Fixpoint last_pose {A} (p : V6 (F A)) (os : list (rop A)) : V6 (F A) :=
  match os with
  | [] => p
  | OSetPose i x :: r => last_pose (set6 p i x) r
  | OSetPose6 q :: r => last_pose q r
  | _ :: r => last_pose p r
  end.
Fixpoint last_angles {A} (a : V6 (F A)) (os : list (rop A)) : V6 (F A) :=
  match os with
  | [] => a
  | OSetAngle i x :: r => last_angles (set6 a i x) r
  | OSetAngles b :: r => last_angles b r
  | _ :: r => last_angles a r
  end.

(** the joint angles [tl] violate a logical limit, or a limit of a servo *)
Definition within {A} (l2p : V6 (F A) -> V6 (F A)) (limits : V6 (F A * F A)) (servos : V6 (servo A))
                  (tl : V6 (F A)) : Prop :=
  axes (fun i => not_outside A (at6 tl i) (fst (at6 limits i)) (snd (at6 limits i))) /\
  axes (fun i => not_outside A (at6 (l2p tl) i) (s_min (at6 servos i)) (s_max (at6 servos i))).

(** joint 4 within 0.05 rad of pi/2: the wrist singularity *)
Definition at_singularity {A} (a : V6 (F A)) : bool :=
  dlt A (dabs A (dsub A (f2d A (at6 a 4)) (ddiv A (dpi A) (ddec A false 2 0)))) (ddec A false 5 (-2)).

(** a pose the robot cannot take: the kinematics has no solution, or the solution violates a
    limit (at the wrist singularity, with joints 3 and 5 left at some angles s3, s5) *)
Definition impossible {A} (inv : V6 (F A) -> option (V6 (F A))) l2p limits servos (pose : V6 (F A)) : Prop :=
  inv pose = None \/
  exists a s3 s5, inv pose = Some a /\
    ~ within l2p limits servos (if at_singularity a then mk6 (v0 a) (v1 a) (v2 a) s3 (v4 a) s5 else a).

(** one command (axis, speed, angle) for each of the six servos *)
Definition all_six {A} (vels a : V6 (F A)) : list (Z * F A * F A) :=
  [(0, v0 vels, v0 a); (1, v1 vels, v1 a); (2, v2 vels, v2 a);
   (3, v3 vels, v3 a); (4, v4 vels, v4 a); (5, v5 vels, v5 a)].

(** 1, 2, ..., m *)
Definition upto (m : nat) : list Z := map Z.of_nat (seq 1 m).

(** equal joint angles, to 0.0001 rad *)
Definition close (a b : V6 R) : Prop := axes (fun i => Rabs (at6 a i - at6 b i) < 1 / 10000)%R.

(** fraction of a move of [T] seconds done after [t] milliseconds *)
Definition progress (T t : R) : R := Rmin 1 (t / (1000 * T)).

(** exact geometry of a straight move *)
Definition distance (s t : V6 R) : R :=
  sqrt ((v0 t - v0 s) * (v0 t - v0 s) + (v1 t - v1 s) * (v1 t - v1 s) + (v2 t - v2 s) * (v2 t - v2 s))%R.
(** the point at fraction f of the segment, with the target's orientation *)
Definition on_segment (s t : V6 R) (f : R) : V6 R :=
  mk6 (v0 s + (v0 t - v0 s) * f)%R (v1 s + (v1 t - v1 s) * f)%R (v2 s + (v2 t - v2 s) * f)%R
      (v3 t) (v4 t) (v5 t).
(** number of segments of at most 0.5 units *)
Definition segments (s t : V6 R) : Z := Int_part (2 * distance s t) + 1.
