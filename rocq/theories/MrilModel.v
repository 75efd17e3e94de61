(** * MrilModel: src/MRILParser.cpp.

    [mril_parse] turns an instruction text into the list of calls the code makes on the
    other components, in order ([act]); those calls are executed by the device model.
    Logger output is not modelled ([lastCommandType] only chooses a log message). *)
From Verif Require Import Base.
Open Scope Z_scope.

(** ** Numbers as the C library reads them *)

(** what atof() reads, before rounding to a double:
    NDec s m e = (-1)^s m 10^e, NHex s m e = (-1)^s m 2^e *)
Inductive numv :=
| NDec (neg : bool) (m e : Z)
| NHex (neg : bool) (m e : Z)
| NInf (neg : bool)
| NNan.

Definition isdigit (c : Z) : bool := (48 <=? c) && (c <=? 57).
Definition isupper (c : Z) : bool := (65 <=? c) && (c <=? 90).

(** leading decimal digits and the rest *)
Fixpoint span_digits (t : list Z) : list Z * list Z :=
  match t with
  | c :: r => if isdigit c then let (a, b) := span_digits r in (c :: a, b) else ([], t)
  | [] => ([], [])
  end.
Definition digits_val (ds : list Z) : Z := fold_left (fun v c => v * 10 + (c - 48)) ds 0.

(** upper-case hexadecimal digits (commands contain no lower-case letters) *)
Definition ishex (c : Z) : bool := isdigit c || ((65 <=? c) && (c <=? 70)).
Definition hexval (c : Z) : Z := if isdigit c then c - 48 else c - 55.
Fixpoint span_hex (t : list Z) : list Z * list Z :=
  match t with
  | c :: r => if ishex c then let (a, b) := span_hex r in (c :: a, b) else ([], t)
  | [] => ([], [])
  end.
Definition hex_val (ds : list Z) : Z := fold_left (fun v c => v * 16 + hexval c) ds 0.

(** optional exponent introduced by [mark] ('E' or 'P'): only if digits follow *)
Definition read_exp (mark : Z) (t : list Z) : Z :=
  match t with
  | c :: r =>
      if c =? mark then
        match r with
        | 45 :: r' => match span_digits r' with ([], _) => 0 | (ds, _) => - digits_val ds end
        | _ => match span_digits r with ([], _) => 0 | (ds, _) => digits_val ds end
        end
      else 0
  | [] => 0
  end.

Fixpoint prefix (p t : list Z) : bool :=
  match p, t with
  | [], _ => true
  | x :: p', y :: t' => (x =? y) && prefix p' t'
  | _, [] => false
  end.

(** number after the sign, C standard 7.22.1.3; no number at all is 0 *)
Definition read_unsigned (neg : bool) (t : list Z) : numv :=
  if prefix [73; 78; 70] t then NInf neg          (* INF, INFINITY *)
  else if prefix [78; 65; 78] t then NNan         (* NAN *)
  else
    let hexpart :=
      if prefix [48; 88] t then                   (* 0X *)
        let (a, r) := span_hex (skipn 2 t) in
        match r with
        | 46 :: r' => let (f, r'') := span_hex r' in
                      match a, f with
                      | [], [] => None
                      | _, _ => Some (NHex neg (hex_val (a ++ f)) (read_exp 80 r'' - 4 * zlen f))
                      end
        | _ => match a with [] => None | _ => Some (NHex neg (hex_val a) (read_exp 80 r)) end
        end
      else None in
    match hexpart with
    | Some v => v
    | None =>
        let (a, r) := span_digits t in
        match r with
        | 46 :: r' =>
            let (f, r'') := span_digits r' in
            match a, f with
            | [], [] => NDec false 0 0
            | _, _ => NDec neg (digits_val (a ++ f)) (read_exp 69 r'' - zlen f)
            end
        | _ => match a with
               | [] => NDec false 0 0
               | _ => NDec neg (digits_val a) (read_exp 69 r)
               end
        end
    end.

(** atof (texts contain no white space and no '+') *)
Definition c_atof (t : list Z) : numv :=
  match t with
  | 45 :: r => read_unsigned true r
  | _ => read_unsigned false t
  end.

(** atoi/atol with 32-bit int and long; a value that does not fit is undefined
    behaviour (C standard 7.22.1) *)
Definition c_atoi (t : list Z) : res Z :=
  let v := match t with
           | 45 :: r => - digits_val (fst (span_digits r))
           | _ => digits_val (fst (span_digits t))
           end in
  if (-2147483648 <=? v) && (v <=? 2147483647) then Ok v else Ub SignedOverflow.

(** ** Calls made by parse *)

(** the argument of a setter: value, value * DEG_TO_RAD, value / 180.0 * PI *)
Inductive arg := Plain (v : numv) | DegToRad (v : numv) | Over180Pi (v : numv).

(** values read for the reply *)
Inductive ritem :=
| RMethod                (* M<getMovementMethod()> *)
| RVelocity              (* V<getMaxVelocity()> *)
| RPose (sym i : Z)      (* <sym><getCurrentPose(i)>, times RAD_TO_DEG for A, B, C *)
| RAngle (i : Z)         (* R<i><getCurrentLogicalAngle(i) * RAD_TO_DEG> *)
| RAxis (opt i : Z).     (* R<opt><AdditionalAxis.getCurrentAngle(i) * RAD_TO_DEG> *)

Inductive act :=
| AStart | AEnd                      (* startTransaction / endTransaction *)
| AMethod (m : Z)                    (* setMovementMethod: 0 P2P, 1 LINEAR *)
| AVelocity (v : numv)               (* RobotController.setMaxVelocity *)
| AAxisVelocity (v : numv)           (* AdditionalAxisController.setVelocity *)
| APose (i : Z) (a : arg)            (* setTargetPose(i, a) *)
| AAngle (i : Z) (a : arg)           (* setTargetLogicalAngle(i, a) *)
| AAxis (i : Z) (a : arg)            (* AdditionalAxisController.setAxisToAngle(i, a) *)
| ACondition (pin state : Z)         (* IOLogic.addCondition *)
| AOutput (pin state : Z)            (* IOLogic.setOutput *)
| AWait (ms : Z)                     (* WaitController.waitMs *)
| AAck0 (n : Z)                      (* sendMessage("N0" + n) *)
| ARead (r : ritem)                  (* responseBuffer += ... *)
| AReply (n : option Z)              (* sendMessage(["N1" n ' '] + responseBuffer) *)
| ABreakPrint.                       (* Serial.println("comment-breaking") *)

Inductive ctype := READ | WRITE | NONE.

(** command[k], MRILParser.cpp:32: the text, the terminating 0, then indeterminate
    bytes (simplification: bytes left from an earlier command count as indeterminate;
    the only code that reads them, lines 262-263 and 271-272 for a bare I or O, has
    already computed a pin number outside the table) *)
Definition cmd_at (cmd : list Z) (k : Z) : res Z :=
  if k <? zlen cmd then Ok (nth (Z.to_nat k) cmd 0)
  else if k =? zlen cmd then Ok 0 else Ub Uninit.

(** (unsigned int)((int)c - 48) *)
Definition digit_opt (c : Z) : Z := u32 (c - 48).

(** MRIL_COMMAND_SIZE, MRILParser.h:12 *)
Definition MRIL_COMMAND_SIZE : Z := 20.

(** MRILParser.cpp:135-168: pose index of a letter *)
Definition pose_index (sym : Z) : option Z :=
  if sym =? 88 then Some 0 else if sym =? 89 then Some 1 else if sym =? 90 then Some 2
  else if sym =? 65 then Some 3 else if sym =? 66 then Some 4 else if sym =? 67 then Some 5
  else None.

(** MRILParser.cpp:74-304, one finished command [cmd] (its characters, at least one).
    Result: the calls, the command type, the new tmpCommandNumber. *)
Definition mril_command (cmd : list Z) (num : Z) : res (list act * ctype * Z) :=
  match cmd with
  | [] => Ub Uninit
  | sym :: body =>
      if MRIL_COMMAND_SIZE <=? zlen cmd then Ub OobWrite   (* line 92 *)
      else
      let ty := if sym =? 78 then NONE else match body with [] => READ | _ => WRITE end in
      if sym =? 77 then (* M, 95-120 *)
        match ty with
        | READ => Ok ([ARead RMethod], ty, num)
        | _ => do n <- c_atoi body;
               Ok ((if n =? 0 then [AMethod 0] else if n =? 1 then [AMethod 1] else []), ty, num)
        end
      else if sym =? 86 then (* V, 122-133 *)
        match ty with
        | READ => Ok ([ARead RVelocity], ty, num)
        | _ => Ok ([AVelocity (c_atof body); AAxisVelocity (c_atof body)], ty, num)
        end
      else match pose_index sym with
      | Some i => (* X Y Z A B C, 135-213 *)
          match ty with
          | READ => Ok ([ARead (RPose sym i)], ty, num)
          | _ => Ok ([APose i (if i <? 3 then Plain (c_atof body) else DegToRad (c_atof body))], ty, num)
          end
      | None =>
      if sym =? 82 then (* R, 215-244 *)
        do c1 <- cmd_at cmd 1;
        let o := digit_opt c1 in
        if zlen cmd <=? 2 then
          Ok ((if 6 <=? o then [ARead (RAxis o (o - 6))] else [ARead (RAngle o)]), READ, num)
        else
          let v := c_atof (skipn 2 cmd) in
          Ok ((if 6 <=? o then [AAxis (o - 6) (Over180Pi v)] else [AAngle o (DegToRad v)]), ty, num)
      else if sym =? 73 then (* I, 260-267 *)
        do c1 <- cmd_at cmd 1; do c2 <- cmd_at cmd 2;
        Ok ([ACondition (digit_opt c1) (digit_opt c2)], ty, num)
      else if sym =? 79 then (* O, 269-276 *)
        do c1 <- cmd_at cmd 1; do c2 <- cmd_at cmd 2;
        Ok ([AOutput (digit_opt c1) (digit_opt c2)], ty, num)
      else if sym =? 68 then (* D, 278-283 *)
        do n <- c_atoi body; Ok ([AWait (u32 n)], ty, num)
      else if sym =? 78 then (* N, 285-292 *)
        do n <- c_atoi body; Ok ([AAck0 n], ty, n)
      else (* U (246-258), F, H and unknown symbols only log *)
        Ok ([], ty, num)
      end
  end.

(** MRILParser.cpp:48-50 *)
Definition cmd_finished (rest : list Z) : bool :=
  match rest with [] => true | d :: _ => isupper d || (d =? 35) || (d =? 40) end.

(** MRILParser.cpp:59 *)
Definition mril_accepts (c : Z) : bool := isdigit c || (c =? 46) || (c =? 45) || isupper c.

(** MRILParser.cpp:44-308, the loop: [cmd] is command[0..commandPointer-1], [ty] the
    variable commandType, [num] tmpCommandNumber *)
Fixpoint mril_scan (cmd : list Z) (ty : ctype) (num : Z) (cs : list Z)
  : res (list act * ctype * Z) :=
  match cs with
  | [] => Ok ([], ty, num)
  | c :: rest =>
      if (c =? 35) || (c =? 40) then Ok ([ABreakPrint], ty, num)
      else if mril_accepts c then
        if zlen cmd <? MRIL_COMMAND_SIZE then
          if cmd_finished rest then
            do (acts, ty1, num1) <- mril_command (cmd ++ [c]) num;
            do (acts2, ty2, num2) <- mril_scan [] ty1 num1 rest;
            Ok (acts ++ acts2, ty2, num2)
          else mril_scan (cmd ++ [c]) ty num rest
        else Ub OobWrite
      else mril_scan cmd ty num rest
  end.

(** MRILParser.cpp:24-325.  Result: the calls, and the new value of the member
    commandNumber if it is assigned. *)
Definition mril_parse (text : list Z) : res (list act * option Z) :=
  match text with
  | [] => Ok ([], None)
  | _ =>
      do (acts, ty, num) <- mril_scan [] NONE (-1) text;
      Ok (AStart :: acts ++ AEnd ::
            match ty with READ => [AReply (if 0 <? num then Some num else None)] | _ => [] end,
          match ty with WRITE => Some num | _ => None end)
  end.

(** ** process and isDone, MRILParser.cpp:327-343 *)
Record mril := mkMril { pending : Z; mdone : bool }.   (* commandNumber, done *)
Definition mril_init : mril := mkMril 0 false.

(** [alldone] is IOLogic.isDone() && !RobotController.isMoving() && WaitController.isDone();
    the second result is the number n of the message "N1<n>" sent *)
Definition mril_poll (s : mril) (alldone : bool) : mril * option Z :=
  if alldone then
    (mkMril (if 0 <? pending s then -1 else pending s) true,
     if 0 <? pending s then Some (pending s) else None)
  else (mkMril (pending s) false, None).

Definition mril_assign (s : mril) (o : option Z) : mril :=
  match o with Some n => mkMril n (mdone s) | None => s end.
