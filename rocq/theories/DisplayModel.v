(** * DisplayModel: src/Display.h and renderDisplay (src/main.cpp:228-294).

    A rendering is the list of drawing operations handed to the display library
    (Adafruit_GFX), which clips at the border of the 128 x 32 screen.  It takes about 50 ms and
    the timer interrupt goes on during it, so every read of the controller's state has its own
    [view]: the state of the system at the moment of that read. *)
From Verif Require Import Base Arith RingModel EepromModel ServoModel RobotModel KinModel IoModel MrilModel McpModel
  DeviceModel SystemModel.

Inductive draw :=
| DrawText (x y : Z) (t : list Z)       (* Display::displayText, Display.h:47-52 *)
| DrawLine (x0 y0 x1 y1 : Z)            (* display.drawLine *)
| FillRect (x y w h : Z)                (* display.fillRect *)
| DrawRect (x y w h : Z).               (* display.drawRect *)

(** conversion of an integer to the int16_t parameters of the library *)
Definition i16 (z : Z) : Z := (z + 32768) mod 65536 - 32768.
(** int subtraction *)
Definition int_sub (a b : Z) : res Z :=
  let d := a - b in if (-2147483648 <=? d) && (d <=? 2147483647) then Ok d else Ub SignedOverflow.

Section Display.
Context (A : arith).
Context (p2l : V6 (F A) -> V6 (F A)) (K : kin A) (pinMap : list Z) (print1 : F A -> list Z).
(* [print1]: String(float, 1), one decimal *)

(** a float passed for an int16_t parameter: undefined outside its range *)
Definition to_i16 (x : F A) : res Z :=
  match ftoz A x with
  | Some n => if (-32768 <=? n) && (n <=? 32767) then Ok n else Ub BadConv
  | None => Ub BadConv
  end.

(** Display.h:87-91 and 96-100: one line between two joints; [u], [v] pick the coordinate to the
    right and the one upwards *)
Definition joint_line (u v : V3 (F A) -> F A) (x y : Z) (scale : F A) (p q : V3 (F A)) : res draw :=
  let px j := to_i16 (fadd A (fofz A x) (fmul A (fmul A (u j) scale) (fofz A 2))) in
  let py j := to_i16 (fadd A (fofz A y) (fmul A (fopp A (v j)) scale)) in
  do a <- px p; do b <- py p; do c <- px q; do d <- py q; Ok (DrawLine a b c d).
(** displayRobot, Display.h:71-119, position 0 (front: x and z) and 1 (top: x and y); position 2
    is not used *)
Definition display_robot (r : robot A) (x y : Z) (scale : F A) (top : bool) : res (list draw) :=
  let C := calculate_coordinates A K (current_logical A p2l r) in
  let line := joint_line (vx (T := F A)) (if top then vy (T := F A) else vz (T := F A)) x y scale in
  do l0 <- line (c_j0 _ C) (c_j1 _ C); do l1 <- line (c_j1 _ C) (c_j2 _ C); do l2 <- line (c_j2 _ C) (c_j3 _ C);
  do l3 <- line (c_j3 _ C) (c_j4 _ C); do l4 <- line (c_j4 _ C) (c_j5 _ C);
  Ok [l0; l1; l2; l3; l4].

(** displayBars, Display.h:174-230, for one servo: the target angle is read in [st], the current
    angle in [sc]; [row] = y + i * heightPerBar.  Only height 18 (three pixels per bar) is used. *)
Definition bar_pixel (s : servo A) (a : F A) (width : Z) : res Z :=
  to_int A (map_float A a (s_min s) (s_max s) (fofz A 0) (fofz A width)).
Definition bar_line (x row width neutral mapped : Z) : res draw :=
  do d <- int_sub neutral mapped;
  if 0 <? d then
    Ok (FillRect (i16 (x + mapped)) (i16 row) (i16 (- mapped + neutral)) 1)
  else do w <- int_sub mapped neutral; Ok (FillRect (i16 (x + neutral)) (i16 row) (i16 w) 1).
Definition display_bar (x row width : Z) (st sc : servo A) : res (list draw) :=
  do n <- bar_pixel st (s_home st) width;
  do t <- bar_pixel st (s_target st) width;
  do c <- bar_pixel sc (s_cur sc) width;
  do lt <- bar_line x (row + 1) width n t;
  do lc <- bar_line x (row + 2) width n c;
  Ok [FillRect (i16 (x + n)) (i16 row) 1 3; lt; lc].

Notation view := (nat -> sys A).
Definition view_servo (w : view) (k : nat) (v : V6 (servo A) -> servo A) : servo A := v (r_servos (d_robot (y_dev (w k)))).

(** displayBars(64, 8, 64, 18, servos), main.cpp:263 *)
Definition display_bars (w : view) : res (list draw) :=
  let bar i v k := display_bar 64 (8 + i * 3) 64 (view_servo w k v) (view_servo w (S k) v) in
  do b0 <- bar 0 v0 4%nat; do b1 <- bar 1 v1 6%nat; do b2 <- bar 2 v2 8%nat;
  do b3 <- bar 3 v3 10%nat; do b4 <- bar 4 v4 12%nat; do b5 <- bar 5 v5 14%nat;
  Ok (b0 ++ b1 ++ b2 ++ b3 ++ b4 ++ b5).

(** main.cpp:237-250: the first line, "M01 V 10.0" *)
Definition method_text (m : rmethod) : list Z :=
  match m with P2P => [77; 48; 48] | LINEAR => [77; 48; 49] | CIRCULAR => [77; 48; 50] end.
Definition first_line (r1 : robot A) : list Z :=
  method_text (r_method r1) ++ [32; 86; 32] ++ print1 (r_maxvel r1).
(** main.cpp:252-261: "W 2/5" in EEPROM mode, "B 120/300" in queue mode *)
Definition mode_text (m : mstate) : res (list draw) :=
  match mmode m with
  | EEPROM => do n <- ee_getNumberOfMessages (emem (mstore m));
              Ok [DrawText 72 0 (87 :: 32 :: int_chars (eptr (mstore m)) ++ 47 :: int_chars n)]
  | QUEUE => Ok [DrawText 72 0 (66 :: 32 :: int_chars (ring_getSize (mring m)) ++ 47 :: int_chars (rcap (mring m)))]
  | _ => Ok []
  end.

(** main.cpp:277-291: the state awaited on logical pin i *)
Definition io_box (io : iost) (i : Z) : res (list draw) :=
  do st <- io_getTargetState pinMap io i;
  Ok (if st =? 0 then [DrawRect (70 + 6 * i) 28 4 3]
      else if st =? 1 then [FillRect (70 + 6 * i) 28 4 3]
      else if st =? 2 then [DrawRect (70 + 6 * i) 28 4 1] else []).
Fixpoint io_boxes (w : view) (n : nat) (i : Z) : res (list draw) :=
  match n with
  | O => Ok []
  | S k => do b <- io_box (d_io (y_dev (w (16 + Z.to_nat i)%nat))) i; do r <- io_boxes w k (i + 1); Ok (b ++ r)
  end.

(** renderDisplay, main.cpp:228-294 *)
Definition half : F A := d2f A (ddec A false 5 (-1)).
Definition render (w : view) : res (list draw) :=
  do top <- display_robot (d_robot (y_dev (w 0%nat))) 10 20 half true;
  do front <- display_robot (d_robot (y_dev (w 1%nat))) 35 28 half false;
  do mode <- mode_text (cm (y_mcp (w 3%nat)));
  do bars <- display_bars w;
  do boxes <- io_boxes w 10 0;
  Ok (top ++ front ++ mode ++ [DrawText 0 0 (first_line (d_robot (y_dev (w 2%nat))))] ++ bars ++ boxes).
End Display.
