(** * McpSpec: the MRCP protocol as a user knows it: frames, a queue of instructions, a
    stored program.  Shares only the names of events and actions with the model. *)
From Verif Require Import Base EepromSpec McpModel.
Open Scope Z_scope.

(** ** Frames *)
Definition is_comment (c : Z) : bool := (c =? 35) || (c =? 40).   (* '#' '(' *)
Definition is_colon (c : Z) : bool := c =? 58.

Definition upper (c : Z) : Z := if (97 <=? c) && (c <=? 122) then c - 32 else c.

(** A-Z 0-9 + , - . *)
Definition payload_char (c : Z) : bool :=
  ((65 <=? c) && (c <=? 90)) || ((48 <=? c) && (c <=? 57)) ||
  (c =? 43) || (c =? 44) || (c =? 45) || (c =? 46).

(** the part of a frame before / from its first comment character *)
Fixpoint code_part (f : list Z) : list Z :=
  match f with [] => [] | c :: r => if is_comment c then [] else c :: code_part r end.
Fixpoint comment_part (f : list Z) : list Z :=
  match f with [] => [] | c :: r => if is_comment c then c :: r else comment_part r end.

(** what follows the last ':' (everything if there is none) *)
Fixpoint after_colon (f : list Z) : list Z :=
  match f with
  | [] => []
  | c :: r => if existsb is_colon r then after_colon r else if is_colon c then r else c :: r
  end.

(** the command carried by a frame (the bytes before a carriage return) whose comment
    contains no ':' *)
Definition clean (f : list Z) : list Z :=
  filter payload_char (map upper (after_colon (code_part f))).

(** the command the code dispatches for any frame: a ':' inside the comment makes it
    forget the command *)
Definition payload (f : list Z) : list Z :=
  if existsb is_colon (comment_part f) then [] else clean f.

(** split a stream at carriage returns: complete frames and the unfinished rest *)
Fixpoint frames (s : list Z) : list (list Z) :=
  match s with
  | [] => []
  | c :: r => if c =? 13 then [] :: frames r
              else match frames r with
                   | [] => []
                   | f :: fs => (c :: f) :: fs
                   end
  end.

(** at no moment more than 78 payload characters since the last ':' or CR *)
Definition short_frames (s : list Z) : Prop :=
  forall pre post, s = pre ++ post ->
  forall done cur, pre = done ++ cur -> (done = [] \/ exists d, done = d ++ [13]) ->
  ~ In 13 cur -> zlen (payload cur) <= 78.

(** ** Commands *)

(** instructions waiting in the queue, the stored program, next program line, mode, and
    the unfinished frame *)
Record sstate := mkS { squeue : list (list Z); slog : log; snext : Z; smode : mode; scur : list Z }.

Fixpoint space (q : list (list Z)) : Z :=
  match q with [] => 0 | m :: r => zlen m + 1 + space r end.

Definition enqueue (q : list (list Z)) (m : list Z) : list (list Z) :=
  if space q + zlen m + 1 <=? 300 then q ++ [m] else q.

Definition spec_command (s : sstate) (t : list Z) : sstate * list mact :=
  match t with
  | [] => (s, [])
  | c :: rest =>
      if c =? 66 then (s, [MSendFree (300 - space (squeue s))])
      else if c =? 69 then (s, [MParse rest])
      else if c =? 81 then
        match rest with
        | [] => (mkS [] (slog s) (snext s) QUEUE (scur s), [])
        | _ => (mkS (enqueue (squeue s) rest) (slog s) (snext s) QUEUE (scur s), [])
        end
      else if c =? 87 then
        match rest with
        | [] => (mkS (squeue s) [] 1 (smode s) (scur s), [])
        | _ => (mkS (squeue s) (log_append (slog s) rest) (snext s) EEPROM (scur s), [])
        end
      else (mkS (enqueue (squeue s) t) (slog s) (snext s) QUEUE (scur s), [])
  end.

Definition spec_poll (s : sstate) (done : bool) : sstate * list mact :=
  if done then
    match smode s, squeue s with
    | QUEUE, m :: q => (mkS q (slog s) (snext s) QUEUE (scur s),
                        [MSendFree (300 - space (m :: q)); MParse m])
    | EEPROM, _ =>
        let i := if zlen (slog s) <=? snext s then 1 else snext s in
        (mkS (squeue s) (slog s) (i + 1) EEPROM (scur s),
         match nth_error (slog s) (Z.to_nat i) with Some m => [MParse m] | None => [] end)
    | _, _ => (s, [])
    end
  else (s, []).

Definition spec_step (s : sstate) (e : cev) : sstate * list mact :=
  match e with
  | CChar c =>
      if c =? 13 then
        let (s', a) := spec_command s (payload (scur s)) in
        (mkS (squeue s') (slog s') (snext s') (smode s') [], a)
      else (mkS (squeue s) (slog s) (snext s) (smode s) (scur s ++ [c]), [])
  | CPoll done => spec_poll s done
  end.

Fixpoint spec_run (s : sstate) (es : list cev) : list (list mact) * sstate :=
  match es with
  | [] => ([], s)
  | e :: r => let (s1, a) := spec_step s e in
              let (as_, s2) := spec_run s1 r in (a :: as_, s2)
  end.

(** the caller's obligations: frames of at most 78 payload characters and no program
    line that fills the EEPROM to the last byte.  [s] runs along. *)
Fixpoint host_ok (s : sstate) (es : list cev) : Prop :=
  match es with
  | [] => True
  | e :: r =>
      match e with
      | CChar c =>
          if c =? 13 then
            match payload (scur s) with
            | 87 :: (x :: m) => ~ exact_fill (slog s) (x :: m)
            | _ => True
            end
          else zlen (payload (scur s ++ [c])) <= 78
      | CPoll _ => True
      end /\ host_ok (fst (spec_step s e)) r
  end.

(** start: empty queue, the program [l] found in the EEPROM *)
Definition spec_boot (l : log) : sstate :=
  mkS [] l 1 (match l with [] => EXECUTE | _ => EEPROM end) [].

(** what each call of parseChar dispatches; [cur]: bytes since the last CR *)
Fixpoint expected (cur s : list Z) : list (option (list Z)) :=
  match s with
  | [] => []
  | c :: r => if c =? 13 then Some (payload cur) :: expected [] r
              else None :: expected (cur ++ [c]) r
  end.

(** exactly the streams that do not overrun the 80-byte buffer *)
Definition fits (s : list Z) : Prop :=
  forall pre cur post, s = pre ++ cur ++ post -> (pre = [] \/ exists d, pre = d ++ [13]) ->
  ~ In 13 cur ->
  zlen (payload cur) <= 80 /\ ((exists r, post = 13 :: r) -> zlen (payload cur) <= 78).

(** every prefix of the frame carries at most 78 payload characters *)
Definition short_frame (f : list Z) : Prop :=
  ~ In 13 f /\ forall p q, f = p ++ q -> zlen (payload p) <= 78.

Definition stream (fs : list (list Z)) (cur : list Z) : list Z :=
  flat_map (fun f => f ++ [13]) fs ++ cur.

(** same stream up to the case of letters *)
Definition same_letters (a b : list Z) : Prop := map upper a = map upper b.
Definition same_event (a b : cev) : Prop :=
  match a, b with
  | CChar x, CChar y => upper x = upper y
  | CPoll x, CPoll y => x = y
  | _, _ => False
  end.

(** ** Queue accounting *)

(** texts handed to the MRIL parser by polls / by frames *)
Definition parsed (acts : list mact) : list (list Z) :=
  flat_map (fun a => match a with MParse t => [t] | _ => [] end) acts.
Fixpoint taken (es : list cev) (acts : list (list mact)) : list (list Z) :=
  match es, acts with
  | CPoll _ :: es', a :: as_ => parsed a ++ taken es' as_
  | CChar _ :: es', _ :: as_ => taken es' as_
  | _, _ => []
  end.

(** the instruction a frame adds to the queue *)
Definition queueable (t : list Z) : option (list Z) :=
  match t with
  | [] => None
  | c :: rest =>
      if (c =? 66) || (c =? 69) || (c =? 87) then None
      else if c =? 81 then match rest with [] => None | _ => Some rest end
      else Some t
  end.

(** the commands carried by the frames completed in [es], [cur] being the bytes already
    received of the first one *)
Fixpoint commands (cur : list Z) (es : list cev) : list (list Z) :=
  match es with
  | [] => []
  | CChar c :: r => if c =? 13 then payload cur :: commands [] r else commands (cur ++ [c]) r
  | CPoll _ :: r => commands cur r
  end.

(** neither the queue is erased ("Q") nor a program line is written ("W...") *)
Definition plain_command (t : list Z) : Prop := t <> [81] /\ forall m, t <> 87 :: m.

(** the instructions for the queue among the commands *)
Definition wanted (ts : list (list Z)) : list (list Z) :=
  flat_map (fun t => match queueable t with Some m => [m] | None => [] end) ts.
