(** * LoggerModel: src/Logger.cpp and src/Logger.h, the branch without UNIT_TEST (Logger.cpp:7-173) *)
From Verif Require Import Base DeviceModel.
Open Scope Z_scope.

(** the enumeration LOGLEVEL, Logger.h:12 *)
Inductive lvl := LError | LWarning | LInfo.

(** what the preprocessor decides: LOG_LEVEL, DEBUG, DEBUG_NAMESPACE (Logger.cpp:4-14) *)
Record logcfg := mkLog { log_level : Z; log_debug : bool; log_only : option (list Z) }.
(** as shipped, Logger.cpp:4-5; all definitions of DEBUG_NAMESPACE are commented out *)
Definition shipped_log : logcfg := mkLog 1 true None.

(** Serial.println("") : carriage return, line feed (Arduino core) *)
Definition crlf : list Z := [13; 10].
(** " ERROR: ", " WARING: " (sic), " INFO: ", Logger.cpp:87, 95, 103 *)
Definition tag (l : lvl) : list Z :=
  match l with
  | LError => [32; 69; 82; 82; 79; 82; 58; 32]
  | LWarning => [32; 87; 65; 82; 73; 78; 71; 58; 32]
  | LInfo => [32; 73; 78; 70; 79; 58; 32]
  end.
(** the number LOG_LEVEL is compared with in the switch, Logger.cpp:86, 94, 102 *)
Definition rank (l : lvl) : Z := match l with LError => 0 | LWarning => 1 | LInfo => 2 end.

Definition same_text (a b : list Z) : bool := if list_eq_dec Z.eq_dec a b then true else false.

(** Logger::log(LOGLEVEL, String, bool), Logger.cpp:73-112: the bytes written, the milliseconds spent in
    delay().  String::equals compares all characters. *)
Definition log_string (c : logcfg) (dom : list Z) (l : lvl) (text : list Z) (test : bool) : list Z * Z :=
  if log_debug c then
    if match log_only c with Some d => negb (same_text dom d) | None => false end then ([], 0)
    else ((if (rank l <? log_level c) || test then dom ++ tag l ++ text ++ crlf else []), 20)
  else ([], 0).

(** the loop [while (text[i] != 0)], Logger.cpp:130-133: [mem] is the memory from [text] on *)
Fixpoint puts (mem : list Z) : res (list Z) :=
  match mem with
  | [] => Ub OobRead
  | c :: r => if c =? 0 then Ok [] else do o <- puts r; Ok (c :: o)
  end.
(** Logger::log(LOGLEVEL, const char*, bool), Logger.cpp:114-173 *)
Definition log_chars (c : logcfg) (dom : list Z) (l : lvl) (mem : list Z) (test : bool) : res (list Z * Z) :=
  if log_debug c then
    if match log_only c with Some d => negb (same_text dom d) | None => false end then Ok ([], 0)
    else if (rank l <? log_level c) || test
    then do o <- puts mem; Ok (dom ++ tag l ++ o ++ crlf, 20)
    else Ok ([], 20)
  else Ok ([], 0).

(** the static members, Logger.cpp:16-17 (unsigned long, 32 bits): one pair for all loggers *)
Record logst := mkLogst { usTime : Z; usCall : Z }.

(** a call of a public function of a logger with a given domain.  CMessage is error, warning or info with
    a String; CChars is info with a const char*; the readings of micros() are part of the call, in the
    order in which the code takes them. *)
Inductive lcall :=
| CMessage (l : lvl) (dom text : list Z) (test : bool)
| CChars (dom mem : list Z) (test : bool)
| CResetTime (r1 r2 : Z)
| CTime (name : list Z) (t0 t1 t2 t3 : Z).

(** Logger::error/warning/info, Logger.cpp:49-71: the preprocessor removes the body below the level *)
Definition wrapper_enabled (c : logcfg) (l : lvl) : bool := rank l <? log_level c.

(** Logger.cpp:21-71.  The result: the static members, the bytes written, the milliseconds delayed.
    The time the serial port takes is in the readings of micros(). *)
Definition log_call (c : logcfg) (s : logst) (x : lcall) : res (logst * list Z * Z) :=
  match x with
  | CMessage l dom text test =>
      if wrapper_enabled c l then let (o, ms) := log_string c dom l text test in Ok (s, o, ms) else Ok (s, [], 0)
  | CChars dom mem test =>
      if wrapper_enabled c LInfo then do (o, ms) <- log_chars c dom LInfo mem test; Ok (s, o, ms) else Ok (s, [], 0)
  | CResetTime r1 r2 => if log_debug c then Ok (mkLogst r1 r2, [], 0) else Ok (s, [], 0)
  | CTime name t0 t1 t2 t3 =>
      if log_debug c then
        let timeDiffStart := u32 (t0 - usTime s) in
        let timeDiffCall := u32 (t0 - usCall s) in
        let out := name ++ [32; 99; 121; 99; 108; 101; 32] ++ int_chars timeDiffStart ++
                   [32; 100; 105; 102; 102; 32] ++ int_chars timeDiffCall ++ crlf in
        (* usTimeSinceLastCall = t1; usTime += t2 - tmpTime; usTimeSinceLastCall = t3 *)
        Ok (mkLogst (u32 (usTime s + u32 (t2 - t0))) t3, out, 0)
      else Ok (s, [], 0)
  end.

Fixpoint log_run (c : logcfg) (s : logst) (h : list lcall) : res (logst * list Z * Z) :=
  match h with
  | [] => Ok (s, [], 0)
  | x :: r => do (s1, o, ms) <- log_call c s x;
              do (s2, o', ms') <- log_run c s1 r;
              Ok (s2, o ++ o', ms + ms')
  end.
