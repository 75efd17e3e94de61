(** * DeviceSpec: what a user of MRIL instructions expects of the whole machine *)
From Verif Require Import Base Arith RobotModel ServoModel IoModel IoSpec WaitModel MrilModel MrilSpec DeviceModel.

(** ** Memory safety *)
(** a command text: a capital letter and digits, points and minus signs *)
Definition command_text (c : list Z) : Prop :=
  match c with
  | letter :: rest => 65 <= letter <= 90 /\ Forall (fun x => 48 <= x <= 57 \/ x = 46 \/ x = 45) rest
  | [] => False
  end.
(** at most 19 characters; R is followed by the number of one of the eight axes 0..7, I and O
    by the number of one of the ten pins; the numbers of M, D and N fit into 32 bits *)
Definition safe_command (c : list Z) : Prop :=
  zlen c <= 19 /\
  match c with
  | [] => True
  | letter :: rest =>
      (letter = 82 -> exists p r, rest = p :: r /\ 48 <= p <= 55) /\
      (letter = 73 \/ letter = 79 -> exists p r, rest = p :: r /\ 48 <= p <= 57) /\
      (letter = 77 \/ letter = 68 \/ letter = 78 -> exists v, c_atoi rest = Ok v)
  end.
(** how an arbitrary text is cut: characters that are neither digit, point, minus sign nor capital
    letter are dropped; # and ( end the text; a piece ends before a capital letter, # or ( that
    follows directly, and at the end of the text.  Result: the pieces, and what is left over (if
    dropped characters stand before the end). *)
Definition mril_char (c : Z) : bool := ((48 <=? c) && (c <=? 57)) || (c =? 46) || (c =? 45) || ((65 <=? c) && (c <=? 90)).
Definition ends_piece (rest : list Z) : bool :=
  match rest with [] => true | x :: _ => ((65 <=? x) && (x <=? 90)) || (x =? 35) || (x =? 40) end.
Fixpoint cut (cur : list Z) (text : list Z) : list (list Z) * list Z :=
  match text with
  | [] => ([], cur)
  | c :: rest =>
      if (c =? 35) || (c =? 40) then ([], cur)
      else if mril_char c then
        if ends_piece rest then let (ps, l) := cut [] rest in ((cur ++ [c]) :: ps, l)
        else cut (cur ++ [c]) rest
      else cut cur rest
  end.
(** number of input conditions *)
Definition is_input (c : list Z) : Z := match c with x :: _ => if x =? 73 then 1 else 0 | [] => 0 end.
Fixpoint inputs (cs : list (list Z)) : Z := match cs with [] => 0 | c :: r => is_input c + inputs r end.

(** ** Replies *)
Section Replies.
Context (A : arith) (fwd : V6 (F A) -> V6 (F A)) (p2l : V6 (F A) -> V6 (F A)) (print : D A -> list Z).
(** an angle is shown in degrees *)
Definition in_degrees (x : F A) : D A := dmul A (f2d A x) (RAD_TO_DEG A).
Definition pose_part (p : V6 (F A)) (a : axis) : F A :=
  match a with AxX => v0 p | AxY => v1 p | AxZ => v2 p | AxA => v3 p | AxB => v4 p | AxC => v5 p end.
(** the text answering one read command *)
Definition answer (d : device A) (c : command) : list Z :=
  match c with
  | GetMethod => 77 :: int_chars (match r_method (d_robot d) with P2P => 0 | LINEAR => 1 | CIRCULAR => 2 end)
  | GetVelocity => 86 :: print (f2d A (r_maxvel (d_robot d)))
  | GetPose a =>
      let x := pose_part (current_pose A fwd p2l (d_robot d)) a in
      axis_letter a :: print (if is_angle a then in_degrees x else f2d A x)
  | GetJoint j =>
      82 :: int_chars j ++
      print (in_degrees (if j <? 6 then nth (Z.to_nat j) (list6 (current_logical A p2l (d_robot d))) (fofz A 0)
                         else s_cur (nth (Z.to_nat (j - 6)) (d_axes d) (v0 (r_servos (d_robot d))))))
  | _ => []
  end.
End Replies.
(** reads of existing axes *)
Definition read_ok (c : command) : Prop :=
  match c with
  | GetMethod | GetVelocity | GetPose _ => True
  | GetJoint j => 0 <= j <= 7
  | _ => False
  end.

(** ** Completion *)
(** everything the machine was told to do is finished: the pending input conditions are met,
    the robot does not move, the wait is over *)
Definition all_finished {A} (d : device A) (now : Z) (lv : nat -> Z -> bool) : Prop :=
  all_met lv (d_io d) /\ is_moving (d_robot d) = false /\ d_wait d < now.

(** the machine between two instructions: motion controller steps, timer ticks, polls *)
Inductive between := BRobot | BTick | BPoll (now : Z) (lv : nat -> Z -> bool).
Section Between.
Context (A : arith) (fwd : V6 (F A) -> V6 (F A)) (inv : V6 (F A) -> option (V6 (F A))).
Context (l2p p2l : V6 (F A) -> V6 (F A)) (limits : V6 (F A * F A)) (print : D A -> list Z).
Definition between_step (d : device A) (b : between) : res (device A * list (dev_ev A)) :=
  match b with
  | BRobot => dev_robot A fwd inv l2p p2l limits print d
  | BTick => do d' <- dev_tick A d; Ok (d', [])
  | BPoll now lv => Ok (dev_poll A now lv d)
  end.
Fixpoint between_run (d : device A) (l : list between) : res (device A * list (dev_ev A)) :=
  match l with
  | [] => Ok (d, [])
  | b :: r => do (d1, e1) <- between_step d b; do (d2, e2) <- between_run d1 r; Ok (d2, e1 ++ e2)
  end.
(** no poll of the sequence finds everything finished *)
Fixpoint never_finished (d : device A) (l : list between) : Prop :=
  match l with
  | [] => True
  | b :: r =>
      match b with BPoll now lv => ~ all_finished d now lv | _ => True end /\
      match between_step d b with Ok (d1, _) => never_finished d1 r | Ub _ => True end
  end.
End Between.
(** the numbers given by the N commands of an instruction *)
Definition numbers (cs : list command) : list Z :=
  flat_map (fun c => match c with Number s ds => [int_val s ds] | _ => [] end) cs.
(** messages sent to the host *)
Definition sent {A} (l : list (dev_ev A)) : list (list Z) :=
  flat_map (fun e => match e with DSend t => [t] | _ => [] end) l.
(** "N0<n>" and "N1<n>" *)
Definition started_msg (n : Z) : list Z := 78 :: 48 :: int_chars n.
Definition finished_msg (n : Z) : list Z := 78 :: 49 :: int_chars n.
