(** * ServoSpec: what a speed-limited servo is supposed to do (no model here). *)
From Coq Require Import Reals List ZArith.
Import ListNotations.
Open Scope R_scope.

(** [x] lies on the way from [a] to [b] *)
Definition on_way (a x b : R) : Prop := a <= x <= b \/ b <= x <= a.

(** total time of a list of tick lengths (milliseconds) *)
Definition total (dts : list Z) : Z := fold_right Z.add 0%Z dts.

(** position [T] milliseconds after leaving [a] for [t] at constant speed [v]
    (radians per second), stopping at [t] *)
Definition ideal (a t v T : R) : R :=
  if Rle_dec (Rabs (t - a)) (v * T / 1000) then t
  else if Rlt_dec a t then a + v * T / 1000 else a - v * T / 1000.

(** the linear calibration map: angle range [mn,mx] to pulse range [pmin,pmax] *)
Definition calibrated (mn mx pmin pmax x : R) : R :=
  pmin + (x - mn) / (mx - mn) * (pmax - pmin).
