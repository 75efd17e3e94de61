
Where a theorem speaks of `RA` its claim is about exact real arithmetic: rounding of
float/double is not in it.  Theorems generic in the arithmetic (`forall A : arith`) cover
IEEE floats with NaN and infinities as well.  In `RA` x/0 has a (meaningless) value; the
places where the code divides are: pulse mapping (angle range, positive by hypothesis),
number of steps (>= 1), speed (positive by hypothesis, C61 otherwise), planned time (tested
for 0 by the code), vector lengths (1, or `NRA`, where x/0 is NaN).

## Trusted base

* Coq 8.16.1 kernel (`coqc`, including its `vm_compute` conversion for the examples and some
  concrete evaluations).  No axioms of our own, no `Admitted`, no kernel check switched off, no
  functors or module types.
* What `Print Assumptions` lists for each theorem of `MANIFEST.json` (generated by
  `tools/axioms.py`):

@@AXIOMS@@

* The reading of the C++ source: every model definition cites its source lines and says
  where it simplifies.  The compiler, the hardware and the Arduino core are trusted to do
  what the source says (`int`/`unsigned long` 32 bits as on the Teensy target, `float` binary32,
  `double` binary64).

## Not modelled

* Where the firmware calls the logger and with which texts: C46 covers the log as arbitrary lines in the output.  `Logger.cpp/h` itself is `LoggerModel` (C83-C85), without the UNIT_TEST branch; the delays it adds are not connected to the schedule, which is arbitrary.
* Of the display library (vendored in lib/: Adafruit GFX, SSD1306) the parts mrc does not use: rotation other than 0, other colours than WHITE, other text sizes and fonts, circles, bitmaps, scrolling; `begin` and the addressing commands of `display`; the I2C bus.  `GfxModel` models the rest at 128x32 pixels, the library's default.  A pointer computed past the end of the frame buffer but not used (drawFastVLineInternal) is not counted as a fault.  The formatting of the speed on the display is a parameter.
* `handleSerialCommand.h` (legacy, not included by any compiled file), `examples/` other than `CalibrateServos.h` (Servos.h, RobotController.h, serial.cpp), `main_test.cpp`.
* In `CalibrateServos.h`: the text of the help, the formatting of the printed numbers, delays, the timing of `loop`.
* malloc failure; the EEPROM library itself (reads outside the 2048 bytes are `Ub`).
* The accuracy of libm (sin, cos, acos, atan2 are exact in `RA`, arbitrary in `IEEE L`; C41, C43 and C62 state
  the accuracy they need); the formatting of floats in replies (`print`, arbitrary).
* atoi overflow is `Ub` (undefined by the C standard; newlib wraps).
* The UART's receive buffer is an unbounded queue in `SystemModel`; `UartModel` (C82) bounds it.  Its transmit buffer and the time a transmission takes are not modelled.
* Interrupts inside component calls, except RobotController::process (`FineModel`, C66, C67: an
  interrupt between any two accesses to the servos) and the servo's own calls (C31, C32 for one servo);
  elsewhere a timer tick falls between two steps of the main loop.
* Wall-clock timing: the schedule of ticks and main-loop steps is arbitrary.
