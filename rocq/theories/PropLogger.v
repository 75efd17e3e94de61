(** * Properties C83-C85 of the logger *)
From Verif Require Import Base Arith McpSpec DeviceModel SystemModel SystemSpec SystemOutput PropSystem LoggerModel.
Open Scope Z_scope.

(** ** Specification *)
(** a message is shown if the level includes it (1: errors, 2: warnings, too, 3: everything), logging is
    compiled in, and no other domain has been singled out *)
Definition shown (c : logcfg) (m : lvl * list Z * list Z) : bool :=
  let '(l, dom, _) := m in
  log_debug c
  && match l with LError => 1 <=? log_level c | LWarning => 2 <=? log_level c | LInfo => 3 <=? log_level c end
  && match log_only c with None => true | Some d => same_text dom d end.
(** its line: domain, level, text, CR LF *)
Definition log_line (m : lvl * list Z * list Z) : list Z :=
  let '(l, dom, text) := m in dom ++ tag l ++ text ++ [13; 10].
(** a call with a message; a text handed over as char pointer ends at the first NUL in memory *)
Inductive is_message : lcall -> lvl * list Z * list Z -> Prop :=
| IsString l dom text test : is_message (CMessage l dom text test) (l, dom, text)
| IsChars dom t rest test : Forall (fun c => c <> 0) t -> is_message (CChars dom (t ++ 0 :: rest) test) (LInfo, dom, t).

(** ** C83 *)
Lemma same_text_refl a : same_text a a = true.
Proof. unfold same_text. destruct (list_eq_dec Z.eq_dec a a); congruence. Qed.
Lemma same_text_eq a b : same_text a b = true <-> a = b.
Proof. unfold same_text. destruct (list_eq_dec Z.eq_dec a b); split; congruence. Qed.

Lemma puts_text t rest : Forall (fun c => c <> 0) t -> puts (t ++ 0 :: rest) = Ok t.
Proof.
  induction 1 as [|c t N F IH]; cbn [app puts]; [reflexivity|].
  destruct (c =? 0) eqn:E; [apply Z.eqb_eq in E; contradiction|]. now rewrite IH.
Qed.
Lemma rank_shown c l : (rank l <? log_level c) = match l with LError => 1 <=? log_level c | LWarning => 2 <=? log_level c | LInfo => 3 <=? log_level c end.
Proof. destruct l; cbn [rank]; destruct (_ <=? _) eqn:E; [apply Z.leb_le in E|apply Z.leb_gt in E|apply Z.leb_le in E|apply Z.leb_gt in E|apply Z.leb_le in E|apply Z.leb_gt in E]; try (apply Z.ltb_lt; lia); apply Z.ltb_ge; lia. Qed.

Lemma shown_rank c l dom text : shown c (l, dom, text) =
  log_debug c && (rank l <? log_level c) && match log_only c with None => true | Some d => same_text dom d end.
Proof. unfold shown. now rewrite rank_shown. Qed.

Lemma message_call c s x m : is_message x m ->
  log_call c s x = Ok (s, (if shown c m then log_line m else []), if shown c m then 20 else 0).
Proof.
  destruct 1 as [l dom text test|dom t rest test NZ]; rewrite shown_rank; cbn [log_call]; unfold wrapper_enabled.
  - unfold log_string. destruct (rank l <? log_level c); [|now rewrite Bool.andb_false_r].
    destruct (log_debug c); [|reflexivity].
    destruct (log_only c) as [d|]; [destruct (same_text dom d)|]; reflexivity.
  - unfold log_chars. destruct (rank LInfo <? log_level c); [|now rewrite Bool.andb_false_r].
    destruct (log_debug c); [|reflexivity]. cbn [orb].
    rewrite (puts_text t rest NZ). destruct (log_only c) as [d|]; [destruct (same_text dom d)|]; reflexivity.
Qed.

(** Whatever messages the program logs, through whichever logger and overload: the serial port gets the
    lines of those that are shown, in order, nothing else; each costs 20 ms of waiting, the others none. *)
Theorem C83_log : forall c s h ms, Forall2 is_message h ms ->
  log_run c s h = Ok (s, flat_map log_line (filter (shown c) ms), 20 * zlen (filter (shown c) ms)).
Proof.
  intros c s h ms F. induction F as [|x m h ms IM F IH]; [reflexivity|].
  cbn [log_run]. rewrite (message_call c s x m IM). cbn [bind]. rewrite IH. cbn [bind filter].
  destruct (shown c m); cbn [flat_map app]; [|reflexivity].
  f_equal. f_equal. unfold zlen. cbn [length]. lia.
Qed.
Print Assumptions C83_log.

(** As shipped: the errors. *)
Theorem C83_shipped : forall s h ms, Forall2 is_message h ms ->
  let errors := filter (fun m => match m with (LError, _, _) => true | _ => false end) ms in
  log_run shipped_log s h = Ok (s, flat_map log_line errors, 20 * zlen errors).
Proof.
  intros s h ms F. cbv zeta. rewrite (C83_log shipped_log s h ms F).
  rewrite (filter_ext _ (fun m => match m with (LError, _, _) => true | _ => false end)); [reflexivity|].
  intros [[l dom] text]. now destruct l.
Qed.
Print Assumptions C83_shipped.

(** A text without its NUL is read beyond the memory, exactly if it is shown. *)
Theorem C83_unterminated : forall c s dom mem test, Forall (fun x => x <> 0) mem ->
  (log_call c s (CChars dom mem test) = Ub OobRead <-> shown c (LInfo, dom, mem) = true) /\
  (shown c (LInfo, dom, mem) = false -> log_call c s (CChars dom mem test) = Ok (s, [], 0)).
Proof.
  intros c s dom mem test NZ.
  assert (PU : puts mem = Ub OobRead).
  { induction NZ as [|x r N F IH]; cbn [puts]; [reflexivity|]. destruct (x =? 0) eqn:E; [apply Z.eqb_eq in E; contradiction|]. now rewrite IH. }
  rewrite shown_rank. cbn [log_call]. unfold wrapper_enabled, log_chars.
  destruct (rank LInfo <? log_level c); [|rewrite Bool.andb_false_r; cbn; split; [split; discriminate|reflexivity]].
  destruct (log_debug c); [|cbn; split; [split; discriminate|reflexivity]]. cbn [orb]. rewrite PU.
  destruct (log_only c) as [d|]; [destruct (same_text dom d)|]; cbn; (split; [split; congruence|]; congruence).
Qed.
Print Assumptions C83_unterminated.

(** The host is not disturbed: what the controller sends with the log's lines written in between, at any
    place, still reads as exactly its messages, if no domain starts with ':' (or is empty) and neither
    domains nor texts contain a line feed.  (C46 for the logger as it is.) *)
Definition tame (m : lvl * list Z * list Z) : Prop :=
  let '(_, dom, text) := m in
  dom <> [] /\ hd 0 dom <> 58 /\ Forall (fun c => c <> 10) dom /\ Forall (fun c => c <> 10) text.
(** the serial port when the controller's events and the logger's calls are interleaved *)
Inductive mixed {A} (c : logcfg) : list (sys_ev A) -> list lcall -> list Z -> Prop :=
| MNil : mixed c [] [] []
| MEvent e tr h b : mixed c tr h b -> mixed c (e :: tr) h (out_bytes e ++ b)
| MCall x tr h b s s' o ms : log_call c s x = Ok (s', o, ms) -> mixed c tr h b -> mixed c tr (x :: h) (o ++ b).

Theorem C83_host : forall (A : arith) fwd inv l2p p2l limits pinMap print sgn c s0 stims s tr h ms bytes,
  plain_print print ->
  sys_run A fwd inv l2p p2l limits pinMap print sgn s0 stims = Ok (s, tr) ->
  Forall2 is_message h ms -> Forall tame ms ->
  mixed c tr h bytes -> host_reads bytes = messages tr.
Proof.
  intros A fwd inv l2p p2l limits pinMap print sgn c s0 stims s tr h ms bytes PP R IM TM MX.
  apply (wire_reads A tr bytes); [|exact (run_neat A fwd inv l2p p2l limits pinMap print sgn PP stims _ _ _ R)].
  clear R. revert ms IM TM. induction MX as [|e tr h b MX IH|x tr h b u u' o t LC MX IH]; intros ms IM TM.
  - constructor.
  - constructor. eapply IH; eauto.
  - inversion IM as [|? m ? ms' I1 I2]; subst. inversion TM as [|? ? T1 T2]; subst.
    rewrite (message_call c u x m I1) in LC. inversion LC; subst. specialize (IH ms' I2 T2).
    destruct (shown c m); [|exact IH].
    destruct m as [[l dom] text]. destruct T1 as (NE & H0 & FD & FT). unfold log_line.
    replace ((dom ++ tag l ++ text ++ [13; 10]) ++ b) with ((dom ++ tag l ++ text) ++ [13; 10] ++ b) by (now rewrite <- !app_assoc).
    constructor; [destruct dom; [congruence|exact H0]| |exact IH].
    apply Forall_app; split; [exact FD|]. apply Forall_app; split; [|exact FT].
    destruct l; repeat constructor; lia.
Qed.
Print Assumptions C83_host.

(** A case: an error, a warning and an info (as char pointer); with level 2 the first two are printed. *)
Example C83_case :
  let h := [CMessage LError [77] [33] false; CMessage LWarning [77] [63] true; CChars [75] [65; 0; 66] false] in
  exists ms, Forall2 is_message h ms /\ Forall tame ms /\
  log_run (mkLog 2 true None) (mkLogst 0 0) h =
    Ok (mkLogst 0 0, [77; 32; 69; 82; 82; 79; 82; 58; 32; 33; 13; 10; 77; 32; 87; 65; 82; 73; 78; 71; 58; 32; 63; 13; 10], 40) /\
  log_run (mkLog 3 true (Some [75])) (mkLogst 0 0) h = Ok (mkLogst 0 0, [75; 32; 73; 78; 70; 79; 58; 32; 65; 13; 10], 20).
Proof.
  exists [(LError, [77], [33]); (LWarning, [77], [63]); (LInfo, [75], [65])].
  split; [repeat constructor; apply (IsChars [75] [65] [66] false); repeat constructor; lia|].
  split; [repeat constructor; cbn; congruence || lia|]. split; reflexivity.
Qed.

(** An error line before the controller's output in a run with two numbered instructions (PropSystem.v:
    demo_run): the host reads the four acknowledgements. *)
Lemma mixed_events {A} c (tr : list (sys_ev A)) : mixed c tr [] (output tr).
Proof. induction tr as [|e tr IH]; cbn [output flat_map]; constructor. exact IH. Qed.
Example C83_host_case : forall (A : arith) fwd inv l2p p2l limits pinMap sgn servos axs,
  exists s0 s tr bytes,
    sys_run A fwd inv l2p p2l limits pinMap (fun _ => []) sgn s0 demo_stims = Ok (s, tr) /\
    sys_boot A fwd p2l servos axs (repeat 0 300) (repeat 0 2048) = Ok s0 /\
    plain_print (A := A) (fun _ => []) /\
    is_message (CMessage LError [77] [33] false) (LError, [77], [33]) /\ tame (LError, [77], [33]) /\
    mixed shipped_log tr [CMessage LError [77] [33] false] bytes /\
    bytes = [77; 32; 69; 82; 82; 79; 82; 58; 32; 33; 13; 10] ++ output tr /\
    host_reads bytes = messages tr /\
    acks tr = [[78; 48; 49]; [78; 49; 49]; [78; 48; 50]; [78; 49; 50]].
Proof.
  intros A fwd inv l2p p2l limits pinMap sgn servos axs.
  destruct (demo_run A fwd inv l2p p2l limits pinMap (fun _ => []) sgn servos axs) as (s0 & s & tr & B & R & AC & _).
  assert (PP : plain_print (A := A) (fun _ => [])) by (intros x; constructor).
  assert (T : tame (LError, [77], [33])) by (cbn; repeat split; repeat constructor; congruence || lia).
  assert (MX : mixed shipped_log tr [CMessage LError [77] [33] false] ([77; 32; 69; 82; 82; 79; 82; 58; 32; 33; 13; 10] ++ output tr)).
  { eapply (MCall shipped_log _ tr [] _ (mkLogst 0 0)); [reflexivity|apply mixed_events]. }
  exists s0, s, tr, ([77; 32; 69; 82; 82; 79; 82; 58; 32; 33; 13; 10] ++ output tr).
  repeat (split; [first [exact R|exact B|exact PP|exact T|exact MX|constructor|reflexivity]|]).
  split; [|exact AC].
  apply (C83_host A fwd inv l2p p2l limits pinMap (fun _ => []) sgn shipped_log s0 demo_stims s tr [CMessage LError [77] [33] false] [(LError, [77], [33])] _ PP R); [repeat constructor|constructor; [exact T|constructor]|exact MX].
Qed.

(** ** C84 *)
(** "ONLY TEST" (Logger.cpp:3): a message marked as test is to be logged at every level.  False of the
    code, for every configuration: the mark changes nothing, and at level 0 nothing is ever printed. *)
Theorem C84_test_mark_refuted : forall c s l dom text mem,
  log_call c s (CMessage l dom text true) = log_call c s (CMessage l dom text false) /\
  log_call c s (CChars dom mem true) = log_call c s (CChars dom mem false) /\
  (log_level c <= 0 -> log_call c s (CMessage l dom text true) = Ok (s, [], 0)).
Proof.
  intros c s l dom text mem. cbn [log_call]. unfold wrapper_enabled. repeat split.
  - destruct (rank l <? log_level c) eqn:E; [|reflexivity]. unfold log_string. now rewrite E.
  - destruct (rank LInfo <? log_level c) eqn:E; [|reflexivity]. unfold log_chars. now rewrite E.
  - intros L. assert (E : (rank l <? log_level c) = false) by (apply Z.ltb_ge; destruct l; cbn; lia). now rewrite E.
Qed.
Print Assumptions C84_test_mark_refuted.

(** ** C85 *)
(** The stopwatch, in microseconds of uptime (not wrapped).  A call of time(name): when it starts, and
    the later readings of the clock while and after it prints. *)
Definition is_time (x : lcall) (name : list Z) (T0 T1 T2 T3 : Z) : Prop :=
  x = CTime name (u32 T0) (u32 T1) (u32 T2) (u32 T3).
(** the calls after a reset: times, with the uptimes, and messages *)
Inductive since_reset : list lcall -> Z -> Z -> Z -> Prop :=
  (** history, microseconds spent printing times so far, uptime of the last reading *)
| SReset R1 R2 : since_reset [CResetTime (u32 R1) (u32 R2)] R1 0 R2
| STime h R1 p t x name T0 T1 T2 T3 : since_reset h R1 p t -> is_time x name T0 T1 T2 T3 ->
    since_reset (h ++ [x]) R1 (p + (T2 - T0)) T3
| SMessage h R1 p t x m : since_reset h R1 p t -> is_message x m -> since_reset (h ++ [x]) R1 p t.

Lemma log_run_app c h1 : forall s h2, log_run c s (h1 ++ h2) =
  (do (s1, o, ms) <- log_run c s h1; do (s2, o', ms') <- log_run c s1 h2; Ok (s2, o ++ o', ms + ms')).
Proof.
  induction h1 as [|x h1 IH]; intros s h2; cbn [app log_run].
  - cbn [bind]. destruct (log_run c s h2) as [[[s2 o'] ms']|f]; reflexivity.
  - destruct (log_call c s x) as [[[s1 o] ms]|f]; [|reflexivity]. cbn [bind]. rewrite IH.
    destruct (log_run c s1 h1) as [[[s2 o'] ms']|f]; [|reflexivity]. cbn [bind].
    destruct (log_run c s2 h2) as [[[s3 o''] ms'']|f]; [|reflexivity]. cbn [bind]. now rewrite app_assoc, Z.add_assoc.
Qed.

Lemma stopwatch_state c h R1 p t : log_debug c = true -> since_reset h R1 p t ->
  forall s, exists o ms, log_run c s h = Ok (mkLogst (u32 (R1 + p)) (u32 t), o, ms).
Proof.
  intros D H. induction H as [R1 R2|h R1 p t x name T0 T1 T2 T3 H IH IT|h R1 p t x m H IH IM]; intros s.
  - cbn [log_run log_call]. rewrite D. cbn [bind]. replace (R1 + 0) with R1 by lia. do 2 eexists. reflexivity.
  - destruct (IH s) as (o & ms & E). rewrite log_run_app, E. cbn [bind log_run]. rewrite IT. cbn [log_call]. rewrite D.
    cbn [bind usTime usCall].
    assert (X : u32 (u32 (R1 + p) + u32 (u32 T2 - u32 T0)) = u32 (R1 + (p + (T2 - T0)))).
    { unfold u32. rewrite <- Zminus_mod, <- Zplus_mod. f_equal. lia. }
    rewrite X. do 2 eexists. reflexivity.
  - destruct (IH s) as (o & ms & E). rewrite log_run_app, E. cbn [bind log_run].
    rewrite (message_call c _ x m IM). cbn [bind]. do 2 eexists. reflexivity.
Qed.

(** After any history since the last reset, time(name) prints the time since the reset without the time
    spent in earlier calls of time (p), and the time since the last of them (or the reset) ended; both
    exactly, as long as they are less than 2^32 us, whatever the uptime (71.6 minutes wraps included). *)
Theorem C85_stopwatch : forall c h0 s s0 o0 ms0 h R1 p t x name T0 T1 T2 T3, log_debug c = true ->
  log_run c s h0 = Ok (s0, o0, ms0) ->
  since_reset h R1 p t -> is_time x name T0 T1 T2 T3 ->
  0 <= T0 - R1 - p < 4294967296 -> 0 <= T0 - t < 4294967296 ->
  exists s1 o1 ms1 s2, log_run c s (h0 ++ h) = Ok (s1, o1, ms1) /\
    log_run c s (h0 ++ h ++ [x]) =
      Ok (s2, o1 ++ name ++ [32; 99; 121; 99; 108; 101; 32] ++ int_chars (T0 - R1 - p) ++
                [32; 100; 105; 102; 102; 32] ++ int_chars (T0 - t) ++ [13; 10], ms1).
Proof.
  intros c h0 s s0 o0 ms0 h R1 p t x name T0 T1 T2 T3 D E0 H IT B1 B2.
  destruct (stopwatch_state c h R1 p t D H s0) as (o & ms & E).
  rewrite !log_run_app, E0. cbn [bind]. rewrite log_run_app, E. cbn [bind].
  eexists _, _, _, _. split; [reflexivity|]. cbn [log_run]. rewrite IT. cbn [log_call]. rewrite D. cbn [bind usTime usCall].
  rewrite app_nil_r, Z.add_0_r.
  assert (X : forall a b, 0 <= a - b < 4294967296 -> u32 (u32 a - u32 b) = a - b).
  { intros a b Hab. unfold u32. rewrite <- Zminus_mod. now apply Z.mod_small. }
  rewrite (X T0 (R1 + p)) by lia. rewrite (X T0 t) by lia.
  replace (T0 - (R1 + p)) with (T0 - R1 - p) by lia. rewrite <- !app_assoc. unfold crlf. reflexivity.
Qed.
Print Assumptions C85_stopwatch.

(** A case, across the wrap of micros(): reset at 2^32 - 100, time at +50 (prints for 200 us), time at
    +300: the second prints 100 = 300 - 200 and 48. *)
Example C85_case :
  let W := 4294967296 in
  let first := CTime [97] (u32 (W - 50)) (u32 (W + 149)) (u32 (W + 150)) (u32 (W + 152)) in
  let h := [CResetTime (u32 (W - 100)) (u32 (W - 100))] ++ [first] in
  since_reset h (W - 100) 200 (W + 152) /\
  exists s o, log_run shipped_log (mkLogst 7 7) (h ++ [CTime [98] (u32 (W + 200)) 0 0 0]) =
    Ok (s, o ++ [98; 32; 99; 121; 99; 108; 101; 32; 49; 48; 48; 32; 100; 105; 102; 102; 32; 52; 56; 13; 10], 0).
Proof.
  cbv zeta. split.
  - change 200 with (0 + (4294967296 + 150 - (4294967296 - 50))).
    eapply STime; [apply SReset|unfold is_time; reflexivity].
  - eexists _, [97; 32; 99; 121; 99; 108; 101; 32; 53; 48; 32; 100; 105; 102; 102; 32; 53; 48; 13; 10]. vm_compute. reflexivity.
Qed.
