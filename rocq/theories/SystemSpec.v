(** * SystemSpec: what host and user observe of the running controller *)
From Verif Require Import Base Arith EepromSpec MrilModel MrilSpec McpModel McpSpec DeviceModel DeviceSpec SystemModel.

(** ** Input *)
(** the bytes that arrived *)
Definition arrivals (l : list stim) : list Z := flat_map (fun x => match x with SArrive c => [c] | _ => [] end) l.
(** the bytes handed to the protocol parser *)
Definition handed {A} (tr : list (sys_ev A)) : list Z :=
  flat_map (fun x => match x with YMcp (CChar c) _ => [c] | _ => [] end) tr.
(** calls of the protocol parser, in order, and their effects *)
Definition mcp_events {A} (tr : list (sys_ev A)) : list cev := flat_map (fun x => match x with YMcp e _ => [e] | _ => [] end) tr.
Definition mcp_acts {A} (tr : list (sys_ev A)) : list (list mact) := flat_map (fun x => match x with YMcp _ a => [a] | _ => [] end) tr.
(** instructions started by polls, i.e. taken from the queue or the stored program *)
Definition started {A} (tr : list (sys_ev A)) : list (list Z) :=
  flat_map (fun x => match x with YMcp (CPoll _) a => parsed a | _ => [] end) tr.
(** instructions executed, from queue, stored program or E frames *)
Definition executed {A} (tr : list (sys_ev A)) : list (list Z) := flat_map (fun x => match x with YExec t => [t] | _ => [] end) tr.

(** ** Conforming hosts *)
(** an instruction text whose commands are safe, with at most [n] input conditions *)
Definition safe_text (n : Z) (text : list Z) : Prop :=
  let (ps, left) := cut [] text in Forall safe_command ps /\ zlen left <= 20 /\ inputs ps <= n.
(** the command of a frame: instructions executed at once (E) have no input conditions, the others
    at most ten *)
Definition safe_frame (p : list Z) : Prop :=
  match p with
  | [] => True
  | c :: rest =>
      if c =? 66 then True
      else if c =? 69 then safe_text 0 rest
      else if (c =? 81) || (c =? 87) then safe_text 10 rest
      else safe_text 10 p
  end.
(** a byte stream of a conforming host when the EEPROM holds the program [l]: frames of at most 78
    payload characters, no program line that fills the EEPROM to the last byte (both [host_ok]), and
    safe instructions *)
Definition conforming (l : log) (bytes : list Z) : Prop :=
  host_ok (spec_boot l) (map CChar bytes) /\ Forall safe_frame (commands [] (map CChar bytes)).

(** ** Output *)
Definition output {A} (tr : list (sys_ev A)) : list Z := flat_map out_bytes tr.
(** messages to the host *)
Definition messages {A} (tr : list (sys_ev A)) : list (list Z) :=
  flat_map (fun x => match x with YDev (DSend t) => [t] | _ => [] end) tr.
(** acknowledgements: messages starting with N *)
Definition acks {A} (tr : list (sys_ev A)) : list (list Z) :=
  filter (fun t => match t with c :: _ => c =? 78 | [] => false end) (messages tr).
(** a frame *)
Definition frame_of (t : list Z) : list Z := 58 :: t ++ [13; 10].
(** the host cuts what it receives into lines (after a line feed) and keeps those that start with ':',
    without the ':' and the CR LF *)
Fixpoint lines (cur s : list Z) : list (list Z) :=
  match s with
  | [] => []
  | c :: r => if c =? 10 then cur :: lines [] r else lines (cur ++ [c]) r
  end.
Definition host_reads (s : list Z) : list (list Z) :=
  flat_map (fun l => match l with c :: r => if c =? 58 then [removelast r] else [] | [] => [] end) (lines [] s).

(** ** Numbered instructions *)
(** a numbered write instruction: commands of the language with exactly one number n > 0, the last
    one a write command *)
Definition numbered (text : list Z) (n : Z) : Prop :=
  exists cs, text = text_of cs /\ cs <> [] /\ Forall command_ok cs /\ numbers cs = [n] /\ 0 < n /\ last_kind cs = WRITE.
(** the acknowledgements of instructions n1, n2, ...: N0n1 N1n1 N0n2 N1n2 ... *)
Definition ack_sequence (ns : list Z) : list (list Z) := flat_map (fun n => [started_msg n; finished_msg n]) ns.

(** ** Queue *)
(** no queued instruction finds the queue full *)
Fixpoint room (t : sstate) (es : list cev) : Prop :=
  match es with
  | [] => True
  | e :: r =>
      match e with
      | CChar c => if c =? 13 then
                     match queueable (payload (scur t)) with
                     | Some m => space (squeue t) + zlen m + 1 <= 300
                     | None => True
                     end
                   else True
      | CPoll _ => True
      end /\ room (fst (spec_step t e)) r
  end.
(** frames: requests for the queue state, and numbered write instructions for the queue *)
Definition ack_frame (p : list Z) : Prop :=
  p = [] \/ (exists r, p = 66 :: r) \/ exists m n, queueable p = Some m /\ numbered m n.

(** ** Where instructions come from *)
(** the instruction carried by the command of a frame *)
Definition frame_text (p : list Z) : list (list Z) :=
  match p with
  | [] => []
  | c :: rest =>
      if c =? 66 then []
      else if c =? 69 then [rest]
      else if (c =? 81) || (c =? 87) then match rest with [] => [] | _ => [rest] end
      else [p]
  end.

(** ** Output mixed with log lines *)
(** what is on the wire when the logger writes lines between the other output: lines that do not
    start with ':' *)
Inductive wire {A} : list (sys_ev A) -> list Z -> Prop :=
| WNil : wire [] []
| WEvent e tr b : wire tr b -> wire (e :: tr) (out_bytes e ++ b)
| WLog t tr b : hd 0 t <> 58 -> Forall (fun c => c <> 10) t -> wire tr b -> wire tr (t ++ [13; 10] ++ b).
(** numbers are printed without ':' and line feed *)
Definition plain_print {A} (print : D A -> list Z) : Prop := forall x, Forall (fun c => c <> 10 /\ c <> 58) (print x).

(** ** Motion *)
(** servo commands of the motion controller: servo, speed, angle *)
Definition commanded {A} (tr : list (sys_ev A)) : list (Z * F A * F A) :=
  flat_map (fun x => match x with YDev (DServo i v a) => [(i, v, a)] | _ => [] end) tr.

(** ** The main loop *)
(** steps of the main loop in a schedule *)
Definition loop_steps (l : list stim) : Z := zlen (filter (fun x => match x with SRun _ _ => true | _ => false end) l).
