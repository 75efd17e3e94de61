(** * C05-C09: EEPromStorage *)
From Verif Require Import Base EepromModel EepromSpec EepromProofs.
Open Scope Z_scope.

(** C05.  Clear any 2048-byte EEPROM, append any messages: what is read back is the
    list of the messages that fitted ([log_append]), with their lengths. *)
Theorem C05_store_is_append_log : forall sgn s0 ms,
  zlen (emem s0) = 2048 -> Forall (fun m => zlen m <= maxlen sgn) ms -> no_exact_fill [] ms ->
  exists s1 s,
    ee_clear s0 = Ok s1 /\ ee_appendAll sgn s1 ms = Ok s /\
    let l := fold_left log_append ms [] in
    ee_getNumberOfMessages (emem s) = Ok (zlen l) /\
    (forall i m B, 0 <= i -> nth_error l (Z.to_nat i) = Some m -> zlen m <= B ->
                   ee_getMessage sgn (emem s) i B = Ok (zlen m, m)) /\
    (forall i B, zlen l <= i -> ee_getMessage sgn (emem s) i B = Ok (0, [])).
Proof. exact store_is_append_log. Qed.
Print Assumptions C05_store_is_append_log.

(** the readable special case: as long as everything fits, the log is exactly the
    list of appended messages *)
Theorem C05_nothing_dropped_while_it_fits : forall ms,
  used ms + 1 <= 2048 -> Forall (fun m => m <> []) ms ->
  fold_left log_append ms [] = ms /\ no_exact_fill [] ms.
Proof. intros ms H HF. exact (fold_log_all ms [] H HF). Qed.
Print Assumptions C05_nothing_dropped_while_it_fits.

Definition blank : list Z := repeat 255 (Z.to_nat 2048).

Example C05_demo :
  match ee_clear (ee_boot blank) with
  | Ok s1 => match ee_appendAll false s1 [[88; 49]; [89]; [90; 50; 51]] with
             | Ok s => ee_getNumberOfMessages (emem s) = Ok 3 /\
                       ee_getMessage false (emem s) 2 80 = Ok (3, [90; 50; 51])
             | Ub _ => False end
  | Ub _ => False end.
Proof. vm_compute. repeat split. Qed.

(** C06.  On an EEPROM holding a log: a message that does not fit changes nothing; one
    that fits changes only the bytes behind the log, so no earlier message; no address
    outside 0..2047 is written - except in the exact-fill case. *)
Theorem C06_append_frame_partial : forall sgn s l m x post,
  holds sgn (emem s) l -> zlen m <= maxlen sgn -> ~ exact_fill l m ->
  exists s' arr, ee_appendMessage sgn s (m ++ x :: post) (zlen m) = Ok (s', arr) /\
    holds sgn (emem s') (log_append l m) /\
    (2048 < used l + zlen m + 1 -> s' = s) /\
    (forall a, a < used l \/ used l + zlen m + 1 < a ->
               ee_read (emem s') a = ee_read (emem s) a) /\
    zlen (emem s') = 2048.
Proof.
  intros sgn s l m x post H Hm HE.
  destruct (append_holds sgn s l m x post H Hm HE) as (s' & arr & E & HS & _).
  destruct (append_frame sgn s l m (x :: post) s' arr H Hm E) as (F1 & F2 & F3).
  exists s', arr. destruct H as [H _]. splits; auto. now rewrite F3.
Qed.
Print Assumptions C06_append_frame_partial.

(** ... and in the exact-fill case the end mark is always written at address 2048. *)
Theorem C06_write_in_range_refuted : forall sgn s l m post,
  holds sgn (emem s) l -> zlen m <= maxlen sgn -> exact_fill l m ->
  ee_appendMessage sgn s (m ++ post) (zlen m) = Ub OobWrite.
Proof. exact append_exact_fill. Qed.
Print Assumptions C06_write_in_range_refuted.

Definition msg127 : list Z := repeat 88 (Z.to_nat 127).
Definition log1920 : log := repeat msg127 (Z.to_nat 15).
Example C06_exact_fill_reachable : forall sgn,
  exists s1 s, ee_clear (ee_boot blank) = Ok s1 /\ ee_appendAll sgn s1 log1920 = Ok s /\
     exact_fill log1920 msg127 /\
     ee_appendMessage sgn s (msg127 ++ [0]) 127 = Ub OobWrite.
Proof.
  intros [|]; do 2 eexists;
    (split; [vm_compute; reflexivity|]; split; [vm_compute; reflexivity|];
     split; vm_compute; reflexivity).
Qed.

(** C07.  Power loss after any number [k] of the byte writes: every message that was
    in the log is still returned under its number. *)
Theorem C07_power_loss_keeps_old_messages : forall sgn mem l m post k,
  holds sgn mem l -> zlen m <= maxlen sgn -> ~ exact_fill l m ->
  exists mem', ee_appendCrash sgn mem (m ++ post) (zlen m) k = Ok mem' /\
    forall i old B, 0 <= i -> nth_error l (Z.to_nat i) = Some old -> zlen old <= B ->
    ee_getMessage sgn mem' i B = Ok (zlen old, old).
Proof.
  intros sgn mem l m post k H Hm HE.
  destruct (crash_total sgn mem l m post k H Hm HE) as (mem' & E).
  exists mem'. split; auto. exact (crash_keeps sgn mem l m post k mem' H Hm E).
Qed.
Print Assumptions C07_power_loss_keeps_old_messages.

Definition zeros : list Z := repeat 0 (Z.to_nat 2048).
Definition one_msg : list Z := [3; 88; 49; 50] ++ repeat 0 (Z.to_nat 2044).
Example C07_demo : holds false one_msg [[88; 49; 50]] /\ ~ exact_fill [[88; 49; 50]] [89; 55] /\
  match ee_appendCrash false one_msg ([89; 55] ++ [0]) 2 2 with
  | Ok mem' => ee_getMessage false mem' 0 80 = Ok (3, [88; 49; 50])
  | Ub _ => False end.
Proof.
  split; [|split; [vm_compute; discriminate | vm_compute; reflexivity]].
  split; [vm_compute; reflexivity|]. split.
  - repeat constructor; vm_compute; discriminate.
  - exists (repeat 0 (Z.to_nat 2043)). vm_compute. reflexivity.
Qed.

(** All-or-nothing visibility of the new message is not given: after a crash following
    the first byte write, a message that was never appended is in the log ... *)
Theorem C07_atomic_visibility_refuted : exists mem m k mem',
  holds false mem [] /\ ee_appendCrash false mem (m ++ [0]) (zlen m) k = Ok mem' /\
  ee_getNumberOfMessages mem' = Ok 1 /\
  ee_getMessage false mem' 0 80 = Ok (2, [0; 0]) /\ m <> [0; 0].
Proof.
  exists zeros, [88; 49], 1%nat. eexists. split.
  - split; [vm_compute; reflexivity|]. split; [constructor|].
    exists (repeat 0 (Z.to_nat 2047)). vm_compute. reflexivity.
  - split; [vm_compute; reflexivity|]. split; [vm_compute; reflexivity|].
    split; [vm_compute; reflexivity|]. discriminate.
Qed.
Print Assumptions C07_atomic_visibility_refuted.

(** ... and the count can even run out of the EEPROM at every later start. *)
Theorem C07_scan_after_crash_refuted : exists mem m k mem',
  holds false mem [] /\ ee_appendCrash false mem (m ++ [0]) (zlen m) k = Ok mem' /\
  ee_getNumberOfMessages mem' = Ub OobRead.
Proof.
  exists (0 :: repeat 255 (Z.to_nat 2047)), [88; 49], 1%nat. eexists. split.
  - split; [vm_compute; reflexivity|]. split; [constructor|].
    exists (repeat 255 (Z.to_nat 2047)). reflexivity.
  - split; [vm_compute; reflexivity|]. vm_compute; reflexivity.
Qed.
Print Assumptions C07_scan_after_crash_refuted.

(** C08 is false of the code: message 0 is never replayed (for any store) ... *)
Theorem C08_replay_all_refuted :
  (forall sgn s l B, holds sgn (emem s) l -> 1 <= eptr s -> zlen l <= 1 ->
     exists s', ee_getNextMessage sgn s B = Ok (0, [], s') /\ emem s' = emem s /\ 1 <= eptr s') /\
  exists mem, holds false mem [[88; 49; 50]] /\
     ~ exists s', ee_getNextMessage false (ee_boot mem) 80 = Ok (3, [88; 49; 50], s').
Proof.
  split; [exact replay_short|].
  exists one_msg. split; [exact (proj1 C07_demo)|].
  intros (s' & E). destruct (replay_short false (ee_boot one_msg) _ 80 (proj1 C07_demo)) as (s2 & E2 & _);
    [cbn; lia | vm_compute; discriminate |]. rewrite E2 in E. discriminate.
Qed.
Print Assumptions C08_replay_all_refuted.

(** ... what is true: with n >= 2 messages, starting after boot or clear, the k-th
    call returns message 1 + k mod (n-1).  Missing for C08: message 0. *)
Theorem C08_replay_cycle_partial : forall sgn mem l B n,
  holds sgn mem l -> Forall (fun m => zlen m <= B) l -> 2 <= zlen l ->
  exists s', ee_replay sgn n (ee_boot mem) B =
    Ok (map (fun j => let m := nth (Z.to_nat (1 + Z.of_nat j mod (zlen l - 1))) l [] in (zlen m, m))
            (seq 0 n), s').
Proof.
  intros sgn mem l B n H HB H2.
  exact (replay_cycle sgn l B n (ee_boot mem) 0 H HB H2 (Z.le_refl 0) (or_introl eq_refl)).
Qed.
Print Assumptions C08_replay_cycle_partial.

Example C08_demo : exists s1 s2 s', ee_clear (ee_boot blank) = Ok s1 /\
  ee_appendAll false s1 [[65]; [66]; [67; 68]] = Ok s2 /\
  ee_replay false 5 s2 80 = Ok ([(1, [66]); (2, [67; 68]); (1, [66]); (2, [67; 68]); (1, [66])], s').
Proof.
  do 3 eexists. split; [vm_compute; reflexivity|]. split; [vm_compute; reflexivity|].
  vm_compute; reflexivity.
Qed.

(** C09.  On an EEPROM holding a log every scan ends and stays inside. *)
Theorem C09_scans_stay_inside_partial : forall sgn mem l,
  holds sgn mem l ->
  ee_getNumberOfMessages mem = Ok (zlen l) /\
  (forall i B, 0 <= i -> Forall (fun m => zlen m <= B) l ->
     exists r, ee_getMessage sgn mem i B = Ok r) /\
  (forall m post, zlen m <= maxlen sgn -> exists w, ee_appendWrites sgn mem (m ++ post) (zlen m) = Ok w).
Proof.
  intros sgn mem l H. splits.
  - exact (holds_count sgn mem l H).
  - intros i B Hi HB. destruct (nth_error l (Z.to_nat i)) as [m|] eqn:E.
    + exists (zlen m, m). apply (holds_get sgn mem l i m B H E Hi).
      rewrite Forall_forall in HB. apply HB. exact (nth_error_In _ _ E).
    + exists (0, []). apply (holds_get_beyond sgn mem l i B H).
      apply nth_error_None in E. unfold zlen. lia.
  - intros m post Hm. eexists. exact (appendWrites_ok sgn mem l m post H Hm).
Qed.
Print Assumptions C09_scans_stay_inside_partial.

(** On a factory-fresh (all 0xFF) EEPROM the very first scan leaves it. *)
Theorem C09_arbitrary_contents_refuted :
  ee_getNumberOfMessages blank = Ub OobRead /\
  (forall sgn m, ee_appendWrites sgn blank m (zlen m) = Ub OobRead).
Proof.
  split; [vm_compute; reflexivity|]. intros sgn m. unfold ee_appendWrites.
  replace (ee_scan scan_fuel blank 0) with (@Ub Z OobRead) by (vm_compute; reflexivity). reflexivity.
Qed.
Print Assumptions C09_arbitrary_contents_refuted.
