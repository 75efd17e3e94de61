(** * GfxModel: the display library in lib/ as mrc uses it: Adafruit_GFX and Adafruit_SSD1306 (128 x 32, SSD1306.h:74, 90-91).

    mrc never calls setRotation, setTextWrap, setFont or cp437 and draws everything in WHITE with text size 1, so rotation 0, wrapping
    on, the classic font, and colour WHITE (pixels are only switched on) are fixed here.  [int] is 32 bits, the parameters are int16_t. *)
From Verif Require Import Base DisplayModel GfxFont.

(** the static array buffer[], SSD1306.cpp:40: four pages of eight rows, one byte for each column *)
Definition frame := list Z.
(** clearDisplay, SSD1306.cpp:488-490 *)
Definition blank : frame := repeat 0 512.

(** buffer[k] |= mask *)
Definition or_at (b : frame) (k mask : Z) : res frame := do v <- zget b k; zset b k (Z.lor v mask).

(** drawPixel, SSD1306.cpp:114-142 *)
Definition draw_pixel (b : frame) (x y : Z) : res frame :=
  if (x <? 0) || (128 <=? x) || (y <? 0) || (32 <=? y) then Ok b
  else or_at b (x + y / 8 * 128) (Z.shiftl 1 (Z.land y 7)).

(** drawFastHLineInternal, SSD1306.cpp:548-581 (drawFastHLine with rotation 0 is the same, 514-546) *)
Fixpoint hloop (n : nat) (b : frame) (k mask : Z) : res frame :=
  match n with O => Ok b | S m => do b <- or_at b k mask; hloop m b (k + 1) mask end.
Definition draw_hline (b : frame) (x y w : Z) : res frame :=
  if (y <? 0) || (32 <=? y) then Ok b else
  let '(x, w) := if x <? 0 then (0, i16 (w + x)) else (x, w) in
  let w := if 128 <? x + w then i16 (128 - x) else w in
  if w <=? 0 then Ok b else hloop (Z.to_nat w) b (y / 8 * 128 + x) (Z.shiftl 1 (Z.land y 7)).

(** the tables of drawFastVLineInternal, SSD1306.cpp:660 and 720 *)
Definition premask : list Z := [0; 128; 192; 224; 240; 248; 252; 254].
Definition postmask : list Z := [0; 1; 3; 7; 15; 31; 63; 127].
(** SSD1306.cpp:684-711: whole bytes, for WHITE; [n] bounds the iterations (h is a uint8_t, so 32 are enough) *)
Fixpoint vsolid (n : nat) (b : frame) (h k : Z) : res (frame * Z * Z) :=
  if 8 <=? h then
    match n with O => Ub Diverge | S m => do b <- zset b k 255; vsolid m b (h - 8) (k + 128) end
  else Ok (b, h, k).
(** drawFastVLineInternal, SSD1306.cpp:617-729 (drawFastVLine with rotation 0 is the same, 583-614) *)
Definition draw_vline (b : frame) (x y h : Z) : res frame :=
  if (x <? 0) || (128 <=? x) then Ok b else
  let '(y, h) := if y <? 0 then (0, i16 (h + y)) else (y, h) in
  let h := if 32 <? y + h then i16 (32 - y) else h in
  if h <=? 0 then Ok b else
  let y := y mod 256 in let h := h mod 256 in
  let k := y / 8 * 128 + x in
  let md := Z.land y 7 in
  do (b, h, k, fin) <-
    (if md =? 0 then Ok (b, h, k, false) else
     let md := 8 - md in
     do mask <- zget premask md;
     do b <- or_at b k (if h <? md then Z.land mask (Z.shiftr 255 (md - h)) else mask);
     Ok (if h <? md then (b, h, k, true) else (b, h - md, k + 128, false)));
  if fin then Ok b else
  do (b, h, k) <- vsolid 32 b h k;
  if h =? 0 then Ok b else do mask <- zget postmask (Z.land h 7); or_at b k mask.

(** fillRect, GFX.cpp:257-263: for (int16_t i = x; i < x + w; i++).  [fuel] bounds the iterations *)
Fixpoint fill_loop (fuel : nat) (b : frame) (i e y h : Z) : res frame :=
  if i <? e then
    match fuel with O => Ub Diverge | S n => do b <- draw_vline b i y h; fill_loop n b (i16 (i + 1)) e y h end
  else Ok b.
Definition fill_rect (fuel : nat) (b : frame) (x y w h : Z) : res frame := fill_loop fuel b x (x + w) y h.
(** drawRect, GFX.cpp:237-243 *)
Definition draw_rect (b : frame) (x y w h : Z) : res frame :=
  do b <- draw_hline b x y w; do b <- draw_hline b x (i16 (y + h - 1)) w;
  do b <- draw_vline b x y h; draw_vline b (i16 (x + w - 1)) y h.

(** drawLine, GFX.cpp:195-234 *)
Fixpoint line_loop (fuel : nat) (b : frame) (steep : bool) (x0 y0 x1 err dx dy ystep : Z) : res frame :=
  if x0 <=? x1 then
    match fuel with
    | O => Ub Diverge
    | S n =>
      do b <- (if steep then draw_pixel b y0 x0 else draw_pixel b x0 y0);
      let err := i16 (err - dy) in
      let '(y0, err) := if err <? 0 then (i16 (y0 + ystep), i16 (err + dx)) else (y0, err) in
      line_loop n b steep (i16 (x0 + 1)) y0 x1 err dx dy ystep
    end
  else Ok b.
Definition draw_line (fuel : nat) (b : frame) (x0 y0 x1 y1 : Z) : res frame :=
  let steep := Z.abs (x1 - x0) <? Z.abs (y1 - y0) in
  let '(x0, y0, x1, y1) := if steep then (y0, x0, y1, x1) else (x0, y0, x1, y1) in
  let '(x0, y0, x1, y1) := if x1 <? x0 then (x1, y1, x0, y0) else (x0, y0, x1, y1) in
  let dx := i16 (x1 - x0) in let dy := i16 (Z.abs (y1 - y0)) in
  line_loop fuel b steep x0 y0 x1 (Z.quot dx 2) dx dy (if y0 <? y1 then 1 else -1).

(** drawChar, GFX.cpp:525-551, size 1, background = colour *)
Fixpoint char_bits (n : nat) (b : frame) (x y line : Z) : res frame :=
  match n with
  | O => Ok b
  | S m => do b <- (if Z.odd line then draw_pixel b x y else Ok b); char_bits m b x (i16 (y + 1)) (Z.shiftr line 1)
  end.
Fixpoint char_cols (n : nat) (b : frame) (x y c i : Z) : res frame :=
  match n with
  | O => Ok b
  | S m => do line <- (if i <? 5 then zget font (c * 5 + i) else Ok 0);
           do b <- char_bits 8 b (i16 (x + i)) y line; char_cols m b x y c (i + 1)
  end.
Definition draw_char (b : frame) (x y c : Z) : res frame :=
  if (128 <=? x) || (32 <=? y) || (x + 6 * 1 - 1 <? 0) || (y + 8 * 1 - 1 <? 0) then Ok b
  else let c := if 176 <=? c then (c + 1) mod 256 else c in char_cols 6 b x y c 0.

(** write, GFX.cpp:470-490; the cursor *)
Definition gfx_write (s : frame * Z * Z) (c : Z) : res (frame * Z * Z) :=
  let '(b, cx, cy) := s in
  if c =? 10 then Ok (b, 0, i16 (cy + 8))
  else if c =? 13 then Ok (b, cx, cy)
  else
    let '(cx, cy) := if 128 <=? cx + 6 then (0, i16 (cy + 8)) else (cx, cy) in
    do b <- draw_char b cx cy c; Ok (b, i16 (cx + 6), cy).
Fixpoint gfx_print (s : frame * Z * Z) (t : list Z) : res (frame * Z * Z) :=
  match t with [] => Ok s | c :: r => do s <- gfx_write s c; gfx_print s r end.
(** Display::displayText, src/Display.h:47-52: println sends the text, then "\r\n" (Arduino core, Print.cpp) *)
Definition draw_text (b : frame) (x y : Z) (t : list Z) : res frame :=
  do (b, _, _) <- gfx_print (b, i16 x, i16 y) (t ++ [13; 10]); Ok b.

(** one drawing operation, all of them *)
Definition paint_op (fuel : nat) (b : frame) (d : draw) : res frame :=
  match d with
  | DrawText x y t => draw_text b x y t
  | DrawLine x0 y0 x1 y1 => draw_line fuel b x0 y0 x1 y1
  | FillRect x y w h => fill_rect fuel b x y w h
  | DrawRect x y w h => draw_rect b x y w h
  end.
Fixpoint paint (fuel : nat) (b : frame) (ds : list draw) : res frame :=
  match ds with [] => Ok b | d :: r => do b <- paint_op fuel b d; paint fuel b r end.

(** display(), SSD1306.cpp:469-480: the transmissions of the frame over I2C (after the address commands, 420-434).
    [i] is a uint16_t; each transmission is the byte 0x40 and sixteen of the buffer *)
Fixpoint send_bytes (n : nat) (b : frame) (i : Z) : res (list Z) :=
  match n with O => Ok [] | S m => do v <- zget b i; do r <- send_bytes m b (i + 1); Ok (v :: r) end.
Fixpoint send_frame (fuel : nat) (b : frame) (i : Z) : res (list (list Z)) :=
  if i <? 512 then
    match fuel with O => Ub Diverge | S n => do t <- send_bytes 16 b i; do r <- send_frame n b (i + 16); Ok ((64 :: t) :: r) end
  else Ok [].
