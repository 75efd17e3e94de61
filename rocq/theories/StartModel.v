(** * StartModel: the start screen, setup() (src/main.cpp:72-82) and Display::displayRobotGeometry (src/Display.h:120-172) *)
From Verif Require Import Base Arith ServoModel KinModel DisplayModel.

Section Start.
Context (A : arith).

(** a float converted to unsigned int (32 bits): undefined unless the truncated value fits *)
Definition to_unsigned (x : F A) : res Z :=
  match ftoz A x with
  | Some n => if (0 <=? n) && (n <=? 4294967295) then Ok n else Ub BadConv
  | None => Ub BadConv
  end.

(** Display.h:133-149: the running sum and the extremes of one coordinate over the first four vectors.
    [e] = (sum, max, min) *)
Definition extent_step (e : F A * F A * F A) (g : F A) : F A * F A * F A :=
  let '(t, mx, mn) := e in
  let t := fadd A t g in
  if flt A mx t then (t, t, mn) else if flt A t mn then (t, mx, t) else (t, mx, mn).
Definition extent (g0 g1 g2 g3 : F A) : F A :=
  let '(_, mx, mn) := fold_left extent_step [g0; g1; g2; g3] (fofz A 0, fofz A 0, fofz A 0) in fsub A mx mn.

(** Display.h:151-161: width and height are truncated to int *)
Definition start_scale (width height : Z) : F A :=
  if flt A (fdiv A (fofz A 64) (fofz A 20)) (fdiv A (fofz A width) (fofz A height))
  then fdiv A (fofz A 64) (fofz A width) else fdiv A (fofz A 20) (fofz A height).

(** Display.h:163-171: one line for each of the five vectors; the position is kept in unsigned ints *)
Definition start_line (scale : F A) (x y : Z) (g : V3 (F A)) : res (draw * Z * Z) :=
  let nx := fadd A (fofz A x) (fmul A (vx g) scale) in
  let ny := fsub A (fofz A y) (fmul A (vy g) scale) in
  do c <- to_i16 A (fmul A nx (fofz A 2)); do d <- to_i16 A ny;
  do x' <- to_unsigned nx; do y' <- to_unsigned ny;
  Ok (DrawLine (i16 (u32 (x * 2))) (i16 y) c d, x', y').
Fixpoint start_lines (scale : F A) (x y : Z) (l : list (V3 (F A))) : res (list draw) :=
  match l with
  | [] => Ok []
  | g :: r => do (ln, x', y') <- start_line scale x y g; do ds <- start_lines scale x' y' r; Ok (ln :: ds)
  end.
(** displayRobotGeometry(geometry): xPos 30, yPos 32, maxWidth 64, maxHeight 20 *)
Definition display_geometry (g : geom (F A)) : res (list draw) :=
  do width <- to_int A (extent (vx (g0 g)) (vx (g1 g)) (vx (g2 g)) (vx (g3 g)));
  do height <- to_int A (extent (vy (g0 g)) (vy (g1 g)) (vy (g2 g)) (vy (g3 g)));
  start_lines (start_scale width height) 30 32 [g0 g; g1 g; g2 g; g3 g; g4 g].

(** setup(), main.cpp:77-81: "STARTING" and the arm *)
Definition start_screen (g : geom (F A)) : res (list draw) :=
  do arm <- display_geometry g;
  Ok (DrawText 0 0 [83; 84; 65; 82; 84; 73; 78; 71] :: arm).
End Start.
