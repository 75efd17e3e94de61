(** * McpModel: src/MRCPParser.cpp (frame assembly, command dispatch, queue/EEPROM
    consumption).  Logger output is not modelled.  Calls to the MRIL parser and
    messages to the host are emitted as actions, executed by the system model. *)
From Verif Require Import Base RingModel EepromModel.
Open Scope Z_scope.

(** ** Frame assembly: parseChar, MRCPParser.cpp:103-159 *)

(** MRCPParser.h:15 *)
Definition INPUT_BUFFER_SIZE : Z := 80.

(** the static variables of parseChar (lines 104-107, 119).  [fbuf] is the used part
    inputByteBuffer[0 .. inputByteBufferPointer-1]. *)
Record fstate := mkF { fstarted : bool; fbuf : list Z; ffull : bool; fcomment : bool }.
Definition f_init : fstate := mkF false [] false false.

(** MRCPParser.cpp:201-213 *)
Definition toUpper (c : Z) : Z := if (97 <=? c) && (c <=? 122) then 65 + c - 97 else c.

(** MRCPParser.cpp:139-141 *)
Definition f_accepts (c : Z) : bool :=
  ((48 <=? c) && (c <=? 57)) || ((65 <=? c) && (c <=? 90)) || ((43 <=? c) && (c <=? 46)).

(** MRCPParser.cpp:103-159 with AUTO_OPEN_FRAME = 1 (MRCPParser.h:13).  Result: the new
    statics and [Some text] when parseCommand(text, length text) is called. *)
Definition f_parseChar (s : fstate) (c0 : Z) : res (fstate * option (list Z)) :=
  let c := toUpper c0 in
  let s := if negb (fstarted s) || (c =? 58)
           then mkF true [] (ffull s) (fcomment s) else s in
  if c =? 13 then
    (* line 124: inputByteBuffer[inputByteBufferPointer + 1] = 0 *)
    if zlen (fbuf s) + 1 <? INPUT_BUFFER_SIZE then
      Ok (mkF false (fbuf s) false false, if ffull s then None else Some (fbuf s))
    else Ub OobWrite
  else if (c =? 35) || (c =? 40) || fcomment s then
    Ok (mkF (fstarted s) (fbuf s) (ffull s) true, None)
  else if c =? 58 then Ok (s, None)
  else if f_accepts c then
    if zlen (fbuf s) <? INPUT_BUFFER_SIZE then
      let b := fbuf s ++ [c] in
      Ok (mkF (fstarted s) b (if INPUT_BUFFER_SIZE <=? zlen b then true else ffull s) (fcomment s), None)
    else Ub OobWrite
  else Ok (s, None).

(** feeding a stream of bytes: the dispatched commands, in order *)
Fixpoint f_feed (s : fstate) (cs : list Z) : res (list (list Z) * fstate) :=
  match cs with
  | [] => Ok ([], s)
  | c :: r => do (s1, d) <- f_parseChar s c;
              do (ds, s2) <- f_feed s1 r;
              Ok (match d with Some t => t :: ds | None => ds end, s2)
  end.

(** ** Dispatch and consumption *)

(** MRCPParser.h:32 *)
Inductive mode := HALT | QUEUE | EEPROM | EXECUTE.

Record mstate := mkM { mmode : mode; mring : ring; mstore : store }.

(** what the parser asks other components to do *)
Inductive mact :=
| MSendFree (n : Z)        (* sendMessage("B" + n), MRCPParser.cpp:197-199 *)
| MParse (text : list Z).  (* MRILParser::parse(text, length) *)

(** main.cpp:40 *)
Definition RINGBUFFER_SIZE : Z := 300.

(** MRCPParser.cpp:12-23 *)
Definition m_boot (r : ring) (s : store) : res mstate :=
  do n <- ee_getNumberOfMessages (emem s);
  Ok (mkM (if 0 <? n then EEPROM else EXECUTE) r s).

(** MRCPParser.cpp:197-199 *)
Definition m_free (s : mstate) : Z := ring_getCapacity (mring s) - ring_getSize (mring s).

(** MRCPParser.cpp:25-101.  The array passed to appendMessage is the rest of the input
    buffer; the byte behind the text (index [length], inside the 80 bytes) is the one
    appendMessage overwrites with 0: represented by one spare byte. *)
Definition m_parseCommand (sgn : bool) (s : mstate) (text : list Z) : res (mstate * list mact) :=
  match text with
  | [] => Ok (s, [])
  | c :: rest =>
      if c =? 66 (* B *) then Ok (s, [MSendFree (m_free s)])
      else if c =? 69 (* E *) then Ok (s, [MParse rest])
      else if c =? 81 (* Q *) then
        match rest with
        | [] => Ok (mkM QUEUE (ring_clear (mring s)) (mstore s), [])
        | _ => do (_, r) <- ring_putBytes (mring s) rest; Ok (mkM QUEUE r (mstore s), [])
        end
      else if c =? 87 (* W *) then
        match rest with
        | [] => do st <- ee_clear (mstore s); Ok (mkM (mmode s) (mring s) st, [])
        | _ => do (st, _) <- ee_appendMessage sgn (mstore s) (rest ++ [0]) (zlen rest);
               Ok (mkM EEPROM (mring s) st, [])
        end
      else
        do (_, r) <- ring_putBytes (mring s) text; Ok (mkM QUEUE r (mstore s), [])
  end.

(** MRCPParser.cpp:161-191; [done] is MRILParser::isDone().  A length that reaches parse
    is at most 80 here (getMessage and getNextMessage would have overrun the 80-byte
    array otherwise), so the [char length] variables do not change it. *)
Definition m_process (sgn : bool) (done : bool) (s : mstate) : res (mstate * list mact) :=
  match mmode s with
  | HALT => Ok (s, [])
  | QUEUE =>
      if done && (0 <? ring_getSize (mring s)) then
        do (m, r) <- ring_getMessage (mring s) INPUT_BUFFER_SIZE;
        Ok (mkM QUEUE r (mstore s), [MSendFree (m_free s); MParse m])
      else Ok (s, [])
  | EEPROM =>
      if done then
        do (l, m, st) <- ee_getNextMessage sgn (mstore s) INPUT_BUFFER_SIZE;
        Ok (mkM EEPROM (mring s) st, if l =? 0 then [] else [MParse m])
      else Ok (s, [])
  | EXECUTE => Ok (s, [])
  end.

(** ** The MRCP component: incoming bytes and polls in any order *)
Inductive cev :=
| CChar (c : Z)        (* parseChar(c) *)
| CPoll (done : bool). (* process() when MRILParser::isDone() = done *)

Record cstate := mkC { cframe : fstate; cm : mstate }.

Definition c_step (sgn : bool) (s : cstate) (e : cev) : res (cstate * list mact) :=
  match e with
  | CChar c =>
      do (f, d) <- f_parseChar (cframe s) c;
      match d with
      | None => Ok (mkC f (cm s), [])
      | Some t => do (m, acts) <- m_parseCommand sgn (cm s) t; Ok (mkC f m, acts)
      end
  | CPoll done =>
      do (m, acts) <- m_process sgn done (cm s); Ok (mkC (cframe s) m, acts)
  end.

Fixpoint c_run (sgn : bool) (s : cstate) (es : list cev) : res (list (list mact) * cstate) :=
  match es with
  | [] => Ok ([], s)
  | e :: r => do (s1, a) <- c_step sgn s e;
              do (as_, s2) <- c_run sgn s1 r; Ok (a :: as_, s2)
  end.

(** start-up: Ringbuffer(300) (main.cpp:61) over arbitrary memory, EEPROM as found *)
Definition c_boot (junk mem : list Z) : res cstate :=
  do m <- m_boot (ring_new junk) (ee_boot mem); Ok (mkC f_init m).

(** the value parseChar hands on, call by call (None: no command dispatched) *)
Fixpoint f_calls (s : fstate) (cs : list Z) : res (list (option (list Z)) * fstate) :=
  match cs with
  | [] => Ok ([], s)
  | c :: r => do (s1, d) <- f_parseChar s c;
              do (ds, s2) <- f_calls s1 r; Ok (d :: ds, s2)
  end.

(** several power cycles: RAM is lost, the EEPROM contents stay.  [junk] is the
    indeterminate RAM contents at each start-up. *)
Fixpoint c_sessions (sgn : bool) (mem : list Z) (ss : list (list Z * list cev))
  : res (list (list (list mact)) * list Z) :=
  match ss with
  | [] => Ok ([], mem)
  | (junk, es) :: r =>
      do s <- c_boot junk mem;
      do (a, s') <- c_run sgn s es;
      do (as_, mem') <- c_sessions sgn (emem (mstore (cm s'))) r;
      Ok (a :: as_, mem')
  end.
