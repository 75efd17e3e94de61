(** * MrilSpec: MRIL commands as the README describes them *)
From Verif Require Import Base MrilModel.
Open Scope Z_scope.

(** decimal numerals: digits as numbers 0..9 *)
Record numeral := mkNum { nneg : bool; nint : list Z; nfrac : option (list Z) }.

Definition digit_ok (d : Z) : Prop := 0 <= d <= 9.
Definition numeral_ok (n : numeral) : Prop :=
  Forall digit_ok (nint n) /\
  match nfrac n with
  | None => nint n <> []
  | Some f => Forall digit_ok f /\ (nint n <> [] \/ f <> [])
  end.

Definition show_digits (ds : list Z) : list Z := map (fun d => d + 48) ds.
Definition show_num (n : numeral) : list Z :=
  (if nneg n then [45] else []) ++ show_digits (nint n) ++
  match nfrac n with None => [] | Some f => 46 :: show_digits f end.

(** positional value of a digit string *)
Fixpoint val10 (ds : list Z) : Z :=
  match ds with [] => 0 | d :: r => d * 10 ^ zlen r + val10 r end.

(** the number: sign, digits without the point, number of fraction digits *)
Definition num_val (n : numeral) : numv :=
  match nfrac n with
  | None => NDec (nneg n) (val10 (nint n)) 0
  | Some f => NDec (nneg n) (val10 (nint n ++ f)) (- zlen f)
  end.

(** integers *)
Definition int_ok (neg : bool) (ds : list Z) : Prop :=
  ds <> [] /\ Forall digit_ok ds /\ val10 ds <= (if neg then 2147483648 else 2147483647).
Definition show_int (neg : bool) (ds : list Z) : list Z := (if neg then [45] else []) ++ show_digits ds.
Definition int_val (neg : bool) (ds : list Z) : Z := if neg then - val10 ds else val10 ds.

Inductive axis := AxX | AxY | AxZ | AxA | AxB | AxC.
Definition axis_letter (a : axis) : Z :=
  match a with AxX => 88 | AxY => 89 | AxZ => 90 | AxA => 65 | AxB => 66 | AxC => 67 end.
Definition axis_index (a : axis) : Z :=
  match a with AxX => 0 | AxY => 1 | AxZ => 2 | AxA => 3 | AxB => 4 | AxC => 5 end.
Definition is_angle (a : axis) : bool := match a with AxA | AxB | AxC => true | _ => false end.

Inductive command :=
| GetMethod | GetVelocity | GetPose (a : axis) | GetJoint (j : Z)
| SetMethod (neg : bool) (ds : list Z)
| SetVelocity (n : numeral)
| SetPose (a : axis) (n : numeral)
| SetJoint (j : Z) (n : numeral)
| WaitInput (pin level : Z)
| SetOut (pin level : Z)
| Delay (neg : bool) (ds : list Z)
| Number (neg : bool) (ds : list Z)
| Nop (letter : Z) (n : option numeral).   (* F, H, U and letters without meaning *)

Definition nop_letter (c : Z) : Prop :=
  65 <= c <= 90 /\ ~ In c [77; 86; 88; 89; 90; 65; 66; 67; 82; 73; 79; 68; 78].

Definition show (c : command) : list Z :=
  match c with
  | GetMethod => [77]
  | GetVelocity => [86]
  | GetPose a => [axis_letter a]
  | GetJoint j => [82; 48 + j]
  | SetMethod s d => 77 :: show_int s d
  | SetVelocity n => 86 :: show_num n
  | SetPose a n => axis_letter a :: show_num n
  | SetJoint j n => 82 :: 48 + j :: show_num n
  | WaitInput p l => [73; 48 + p; 48 + l]
  | SetOut p l => [79; 48 + p; 48 + l]
  | Delay s d => 68 :: show_int s d
  | Number s d => 78 :: show_int s d
  | Nop l n => l :: match n with None => [] | Some n => show_num n end
  end.

Definition command_ok (c : command) : Prop :=
  zlen (show c) <= 19 /\
  match c with
  | GetJoint j => digit_ok j
  | SetMethod s d | Delay s d | Number s d => int_ok s d
  | SetVelocity n | SetPose _ n => numeral_ok n
  | SetJoint j n => digit_ok j /\ numeral_ok n
  | WaitInput p l | SetOut p l => digit_ok p /\ digit_ok l
  | Nop l n => nop_letter l /\ match n with None => True | Some n => numeral_ok n end
  | _ => True
  end.

(** what a command does *)
Definition meaning (c : command) : list act :=
  match c with
  | GetMethod => [ARead RMethod]
  | GetVelocity => [ARead RVelocity]
  | GetPose a => [ARead (RPose (axis_letter a) (axis_index a))]
  | GetJoint j => [ARead (if j <? 6 then RAngle j else RAxis j (j - 6))]
  | SetMethod s d => if int_val s d =? 0 then [AMethod 0]
                     else if int_val s d =? 1 then [AMethod 1] else []
  | SetVelocity n => [AVelocity (num_val n); AAxisVelocity (num_val n)]
  | SetPose a n => [APose (axis_index a) (if is_angle a then DegToRad (num_val n) else Plain (num_val n))]
  | SetJoint j n => [if j <? 6 then AAngle j (DegToRad (num_val n)) else AAxis (j - 6) (Over180Pi (num_val n))]
  | WaitInput p l => [ACondition p l]
  | SetOut p l => [AOutput p l]
  | Delay s d => [AWait (int_val s d mod 4294967296)]
  | Number s d => [AAck0 (int_val s d)]
  | Nop _ _ => []
  end.

Definition kind (c : command) : ctype :=
  match c with
  | GetMethod | GetVelocity | GetPose _ | GetJoint _ | Nop _ None => READ
  | Number _ _ => NONE
  | _ => WRITE
  end.

(** number given by the last N command of an instruction *)
Definition number_of (cs : list command) : Z :=
  fold_left (fun n c => match c with Number s d => int_val s d | _ => n end) cs (-1).

Definition text_of (cs : list command) : list Z := flat_map show cs.

(** kind of the last command *)
Definition last_kind (cs : list command) : ctype := fold_left (fun _ c => kind c) cs NONE.

(** what an instruction does *)
Definition instruction_acts (cs : list command) : list act :=
  AStart :: flat_map meaning cs ++ [AEnd] ++
  match last_kind cs with
  | READ => [AReply (if 0 <? number_of cs then Some (number_of cs) else None)]
  | _ => []
  end.
Definition instruction_number (cs : list command) : option Z :=
  match last_kind cs with WRITE => Some (number_of cs) | _ => None end.
