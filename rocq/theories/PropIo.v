(** * C12-C14: IOLogic *)
From Verif Require Import Base IoModel IoSpec IoProofs.
Open Scope Z_scope.

(** C12.  [s]: the pending conditions (physical pin, state); [lv k p]: the level read
    from pin [p] while examining condition [k] in this very call. *)
Theorem C12_done_iff_all_met : forall lv s,
  (fst (io_isDone lv s) = true <-> all_met lv s) /\
  (fst (io_isDone lv s) = true -> snd (io_isDone lv s) = []) /\
  (fst (io_isDone lv s) = false -> snd (io_isDone lv s) = s).
Proof. exact io_isDone_spec. Qed.
Print Assumptions C12_done_iff_all_met.

(** adding: the condition for the mapped pin goes to the end of the pending list, only
    that pin is reconfigured (pull-down for "high", pull-up otherwise) *)
Theorem C12_add_condition : forall pinMap s pin st,
  zlen pinMap = 10 -> 0 <= pin < 10 -> zlen s < 10 ->
  exists p acts, zget pinMap pin = Ok p /\
    io_addCondition pinMap s pin st = Ok (acts, s ++ [(p, st)]) /\
    (forall P q, q <> p -> pin_effects P acts q = P q) /\
    (forall P, pin_effects P acts p = (if st =? 1 then DirInPulldown else DirInPullup, snd (P p))).
Proof. exact addCondition_spec. Qed.
Print Assumptions C12_add_condition.

Definition kitPins : list Z := [8; 11; 12; 7; 0; 1; 0; 0; 0; 0]. (* config/mp-robot-kit.h:80 *)
Example C12_demo : exists a s, io_addCondition kitPins [(8, 0)] 1 1 = Ok (a, s) /\ s = [(8, 0); (11, 1)] /\
  io_isDone (fun _ p => p =? 11) s = (true, []) /\ io_isDone (fun _ _ => true) s = (false, s).
Proof. do 2 eexists. repeat split. Qed.

(** C13.  The call has no access to the pending conditions (they are not an argument). *)
Theorem C13_setOutput_drives_only_its_pin : forall pinMap pin st,
  zlen pinMap = 10 -> 0 <= pin < 10 ->
  exists p acts, zget pinMap pin = Ok p /\ io_setOutput pinMap pin st = Ok acts /\
    (forall P q, q <> p -> pin_effects P acts q = P q) /\
    (forall P, fst (pin_effects P acts p) = DirOut) /\
    (forall P, st = 1 -> snd (pin_effects P acts p) = true) /\
    (forall P, st = 0 -> snd (pin_effects P acts p) = false) /\
    (forall P, st <> 0 -> st <> 1 -> snd (pin_effects P acts p) = snd (P p)).
Proof. exact setOutput_spec. Qed.
Print Assumptions C13_setOutput_drives_only_its_pin.

Example C13_demo : zlen kitPins = 10 /\ io_setOutput kitPins 2 1 = Ok [POutput 12; PHigh 12].
Proof. split; reflexivity. Qed.

(** C14.  Any history that keeps the discipline is memory safe. *)
Theorem C14_disciplined_use_is_safe_partial : forall pinMap os,
  zlen pinMap = 10 -> disciplined pinMap [] os ->
  exists s', io_run pinMap io_init os = Ok s'.
Proof. intros pinMap os H HD. exact (io_run_safe pinMap os H io_init HD). Qed.
Print Assumptions C14_disciplined_use_is_safe_partial.

Example C14_demo : disciplined kitPins []
  [IAdd 0 1; IAdd 3 0; IDone (fun _ p => p =? 8); IOut 5 1; IAdd 9 1; ITarget 9].
Proof. cbn [disciplined app]. repeat split; try lia; try (vm_compute; reflexivity). Qed.

(** Without it the code is not safe: the 11th pending condition, and any pin >= 10. *)
Theorem C14_no_bounds_checks_refuted :
  (forall pinMap s pin st, zlen pinMap = 10 -> 0 <= pin < 10 -> 10 <= zlen s ->
     io_addCondition pinMap s pin st = Ub OobWrite) /\
  (forall pinMap s pin st, zlen pinMap = 10 -> 10 <= pin ->
     io_addCondition pinMap s pin st = Ub OobRead /\ io_setOutput pinMap pin st = Ub OobRead /\
     io_getTargetState pinMap s pin = Ub OobRead).
Proof.
  split.
  - intros pinMap s pin st HM HP HS. unfold io_addCondition.
    rewrite (zget_ok _ _ 0) by lia. cbn [bind]. unfold MAX_CONDITIONS.
    destruct (Z.ltb_spec (zlen s) 10); [lia|reflexivity].
  - intros pinMap s pin st HM HP.
    unfold io_addCondition, io_setOutput, io_getTargetState.
    rewrite zget_oob by lia. repeat split.
Qed.
Print Assumptions C14_no_bounds_checks_refuted.

Example C14_eleven : io_run kitPins io_init (repeat (IAdd 0 1) 11) = Ub OobWrite.
Proof. reflexivity. Qed.
