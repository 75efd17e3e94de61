(** * PropUart: no byte is lost in the serial port's receive buffer (C82). *)
From Verif Require Import Base Arith ServoModel RobotModel DeviceModel McpModel SystemModel SystemSpec SystemProofs PropSystem UartModel.
Open Scope Z_scope.

(** ** Specification *)
(** iterations of the main loop that began *)
Definition loops {A} (tr : list (sys_ev A)) : Z := zlen (filter (fun e => match e with YLoop => true | _ => false end) tr).

Section Paced.
Context (A : arith).
Context (fwd : V6 (F A) -> V6 (F A)) (inv : V6 (F A) -> option (V6 (F A))).
Context (l2p p2l : V6 (F A) -> V6 (F A)) (limits : V6 (F A * F A)).
Context (pinMap : list Z) (print : D A -> list Z) (sgn : bool).
Notation run := (sys_run A fwd inv l2p p2l limits pinMap print sgn).
Notation step := (sys_step A fwd inv l2p p2l limits pinMap print sgn).
Notation urun := (uart_run A fwd inv l2p p2l limits pinMap print sgn).
Notation ustep := (uart_step A fwd inv l2p p2l limits pinMap print sgn).

(** in no stretch of the history do more bytes arrive than 30 for each loop iteration begun in
    it, and [burst] *)
Definition paced (cap burst : Z) (s0 : sys A) (stims : list stim) : Prop :=
  forall a b c s tr s' tr', stims = a ++ b ++ c -> urun cap s0 a = Ok (s, tr) -> urun cap s b = Ok (s', tr') ->
    zlen (arrivals b) <= burst + 30 * loops tr'.

(** ** Proofs *)
Definition within (level : Z) (s : sys A) : Prop :=
  match y_phase s with
  | PRobot1 | PMril | PMcp => zlen (y_rx s) <= level
  | PRobot2 => zlen (y_rx s) <= level + 30
  | PSerial k => 0 <= k <= 30 /\ zlen (y_rx s) <= level + 30 - k
  end.
Lemma loops_app (t1 t2 : list (sys_ev A)) : loops (t1 ++ t2) = loops t1 + loops t2.
Proof. unfold loops. now rewrite filter_app, zlen_app. Qed.
Lemma loops_dev (e : list (dev_ev A)) : loops (map YDev e) = 0.
Proof. unfold loops. induction e; cbn [map filter]; auto. Qed.
Lemma act_loops now (d d' : device A) a e : sys_act A fwd p2l pinMap print now d a = Ok (d', e) -> loops e = 0.
Proof.
  destruct a; cbn [sys_act]; intros H; [injection H as <- <-; reflexivity|].
  destruct (dev_parse A fwd p2l pinMap print now d _) as [[d1 e1]|]; cbn [bind] in H; [|discriminate]. injection H as <- <-.
  exact (loops_dev e1).
Qed.
Lemma acts_loops now l : forall (d d' : device A) e, sys_acts A fwd p2l pinMap print now d l = Ok (d', e) -> loops e = 0.
Proof.
  induction l as [|a l IH]; intros d d' e H; cbn [sys_acts] in H; [injection H as <- <-; reflexivity|].
  destruct (sys_act A fwd p2l pinMap print now d a) as [[d1 e1]|] eqn:E1; cbn [bind] in H; [|discriminate].
  destruct (sys_acts A fwd p2l pinMap print now d1 l) as [[d2 e2]|] eqn:E2; cbn [bind] in H; [|discriminate]. injection H as <- <-.
  rewrite loops_app, (act_loops _ _ _ _ _ E1), (IH _ _ _ E2). reflexivity.
Qed.
Lemma mcp_loops now (s s' : sys A) c rx p e : sys_mcp A fwd p2l pinMap print sgn now s c rx p = Ok (s', e) ->
  loops e = 0 /\ y_rx s' = rx /\ y_phase s' = p.
Proof.
  unfold sys_mcp. destruct (c_step sgn (y_mcp s) c) as [[m acts]|]; cbn [bind]; [|discriminate].
  destruct (sys_acts A fwd p2l pinMap print now (y_dev s) acts) as [[d evs]|] eqn:E; cbn [bind]; [|discriminate].
  intros H; injection H as <- <-. split; [|split; reflexivity]. pose proof (acts_loops _ _ _ _ _ E) as L. exact L.
Qed.

(** one step that is not an arrival *)
Lemma step_level level (s s' : sys A) x e : 0 <= level -> within level s -> (forall c, x <> SArrive c) -> step s x = Ok (s', e) ->
  (loops e = 0 /\ within level s') \/ (loops e = 1 /\ within (Z.max 0 (level - 30)) s').
Proof.
  intros L W NA H. destruct x as [c| |now lv]; [now destruct (NA c)| |].
  - cbn [sys_step] in H. destruct (dev_tick A (y_dev s)) as [d|]; cbn [bind] in H; [|discriminate]. injection H as <- <-. left. auto.
  - cbn [sys_step] in H. unfold sys_main in H. unfold within in W. destruct (y_phase s) as [| |k| |] eqn:P.
    + destruct (dev_robot A fwd inv l2p p2l limits print (y_dev s)) as [[d e1]|]; cbn [bind] in H; [|discriminate]. injection H as <- <-.
      right. split; [change (1 + loops (map YDev e1) = 1) || (unfold loops; cbn [filter]; rewrite zlen_cons; fold (loops (map YDev e1)))|].
      * rewrite loops_dev. reflexivity.
      * unfold within. cbn [y_phase y_rx]. lia.
    + destruct (dev_robot A fwd inv l2p p2l limits print (y_dev s)) as [[d e1]|]; cbn [bind] in H; [|discriminate]. injection H as <- <-.
      left. split; [apply loops_dev|]. unfold within. cbn [y_phase y_rx]. lia.
    + destruct (y_rx s) as [|c rx] eqn:RX.
      * injection H as <- <-. left. split; [reflexivity|]. unfold within. cbn [y_phase y_rx]. exact L.
      * destruct (k <? READ_BYTES) eqn:K; unfold READ_BYTES in K.
        -- apply Z.ltb_lt in K. apply mcp_loops in H as (LE & X & Q). left. split; [exact LE|]. unfold within. rewrite X, Q.
           repeat rewrite zlen_cons in W. lia.
        -- apply Z.ltb_ge in K. injection H as <- <-. left. split; [reflexivity|]. unfold within. cbn [y_phase y_rx]. lia.
    + destruct (dev_poll A now lv (y_dev s)) as [d e1]. injection H as <- <-. left. split; [exact (loops_dev e1)|].
      unfold within. cbn [y_phase y_rx]. exact W.
    + apply mcp_loops in H as (LE & X & Q). left. split; [exact LE|]. unfold within. rewrite X, Q. exact W.
Qed.
Lemma within_rx level (s : sys A) : within level s -> zlen (y_rx s) <= level + 30.
Proof. unfold within. destruct (y_phase s); lia. Qed.

Lemma paced_run cap burst l : burst + 30 <= cap -> forall level s, 0 <= level -> within level s ->
  (forall b c s' tr', l = b ++ c -> urun cap s b = Ok (s', tr') -> level + zlen (arrivals b) <= burst + 30 * loops tr') ->
  paced cap burst s l -> urun cap s l = run s l.
Proof.
  intros C. induction l as [|x l IH]; intros level s L W H P; [reflexivity|].
  assert (ST : ustep cap s x = step s x).
  { destruct x as [c| |now lv]; try reflexivity. cbn [uart_step]. destruct (zlen (y_rx s) <? cap) eqn:Q; [reflexivity|]. exfalso.
    apply Z.ltb_ge in Q. apply within_rx in W.
    assert (K : exists s', urun cap s [SArrive c] = Ok (s', [])).
    { cbn [uart_run uart_step]. destruct (zlen (y_rx s) <? cap); cbn [sys_step bind app]; eauto. }
    destruct K as [s' K]. specialize (H [SArrive c] l s' [] eq_refl K). cbn [arrivals flat_map app] in H. change (zlen [c]) with 1 in H. change (loops []) with 0 in H. lia. }
  cbn [uart_run sys_run]. rewrite ST. destruct (step s x) as [[s1 e1]|] eqn:E; cbn [bind]; [|reflexivity].
  assert (P1 : paced cap burst s1 l).
  { intros a b c s2 t2 s3 t3 -> R2 R3. apply (P (x :: a) b c s2 (e1 ++ t2) s3 t3); [reflexivity| |exact R3].
    cbn [uart_run]. rewrite ST. cbn [bind]. rewrite R2. reflexivity. }
  assert (HD : forall b c s' tr', l = b ++ c -> urun cap s1 b = Ok (s', tr') ->
     level + zlen (arrivals (x :: b)) <= burst + 30 * (loops e1 + loops tr')).
  { intros b c s' tr' -> R. rewrite <- loops_app. apply (H (x :: b) c s'); [reflexivity|].
    cbn [uart_run]. rewrite ST. cbn [bind]. rewrite R. reflexivity. }
  assert (GO : urun cap s1 l = run s1 l); [|rewrite GO; reflexivity].
  destruct x as [c| |now lv].
  - cbn [sys_step] in E. injection E as <- <-. apply (IH (level + 1)); [lia| | |exact P1].
    + unfold within in *. cbn [y_phase y_rx]. destruct (y_phase s); rewrite zlen_app; change (zlen [c]) with 1; lia.
    + intros b c0 s' tr' Q R. specialize (HD b c0 s' tr' Q R). cbn [arrivals flat_map app] in HD. rewrite zlen_cons in HD. change (loops []) with 0 in HD. fold (arrivals b) in HD. lia.
  - destruct (step_level level s s1 STick e1 L W ltac:(discriminate) E) as [[LE W1]|[LE W1]].
    + apply (IH level); auto. intros b c0 s' tr' Q R. specialize (HD b c0 s' tr' Q R). rewrite LE in HD. cbn [arrivals flat_map app] in HD. exact HD.
    + apply (IH (Z.max 0 (level - 30))); [lia|exact W1| |exact P1]. intros b c0 s' tr' Q R.
      pose proof (HD b c0 s' tr' Q R) as H1. rewrite LE in H1. cbn [arrivals flat_map app] in H1. fold (arrivals b) in H1.
      pose proof (P1 [] b c0 s1 [] s' tr' Q eq_refl R) as H2. lia.
  - destruct (step_level level s s1 (SRun now lv) e1 L W ltac:(discriminate) E) as [[LE W1]|[LE W1]].
    + apply (IH level); auto. intros b c0 s' tr' Q R. specialize (HD b c0 s' tr' Q R). rewrite LE in HD. cbn [arrivals flat_map app] in HD. exact HD.
    + apply (IH (Z.max 0 (level - 30))); [lia|exact W1| |exact P1]. intros b c0 s' tr' Q R.
      pose proof (HD b c0 s' tr' Q R) as H1. rewrite LE in H1. cbn [arrivals flat_map app] in H1. fold (arrivals b) in H1.
      pose proof (P1 [] b c0 s1 [] s' tr' Q eq_refl R) as H2. lia.
Qed.
End Paced.

(** ** C82

    A serial port with room for [cap] bytes.  If in no stretch of the history more bytes arrive
    than 30 for each loop iteration begun in it, plus [burst], and [cap] is at least burst + 30,
    then the controller does exactly what it does with an unbounded buffer, fault or not. *)
Theorem C82_as_if_unbounded : forall (A : arith) fwd inv l2p p2l limits pinMap print sgn servos axs junk mem s0 cap burst stims,
  sys_boot A fwd p2l servos axs junk mem = Ok s0 -> burst + 30 <= cap ->
  paced A fwd inv l2p p2l limits pinMap print sgn cap burst s0 stims ->
  uart_run A fwd inv l2p p2l limits pinMap print sgn cap s0 stims = sys_run A fwd inv l2p p2l limits pinMap print sgn s0 stims.
Proof.
  intros A fwd inv l2p p2l limits pinMap print sgn servos axs junk mem s0 cap burst stims B C P.
  assert (P0 : y_phase s0 = PRobot1 /\ y_rx s0 = []).
  { unfold sys_boot in B. destruct (c_boot junk mem); cbn [bind] in B; [|discriminate]. injection B as <-. auto. }
  destruct P0 as [P0 RX].
  apply (paced_run A fwd inv l2p p2l limits pinMap print sgn cap burst stims C 0 s0 ltac:(lia)); [|intros b c s' tr' Q R|exact P].
  - unfold within. rewrite P0, RX. apply Z.le_refl.
  - pose proof (P [] b c s0 [] s' tr' Q eq_refl R) as K. rewrite Z.add_0_l. exact K.
Qed.
Print Assumptions C82_as_if_unbounded.

(** and so every byte that arrives is handed to the protocol parser or waits, in order *)
Theorem C82_nothing_lost : forall (A : arith) fwd inv l2p p2l limits pinMap print sgn servos axs junk mem s0 cap burst stims s tr,
  sys_boot A fwd p2l servos axs junk mem = Ok s0 -> burst + 30 <= cap ->
  paced A fwd inv l2p p2l limits pinMap print sgn cap burst s0 stims ->
  uart_run A fwd inv l2p p2l limits pinMap print sgn cap s0 stims = Ok (s, tr) ->
  handed tr ++ y_rx s = arrivals stims.
Proof.
  intros A fwd inv l2p p2l limits pinMap print sgn servos axs junk mem s0 cap burst stims s tr B C P R.
  rewrite (C82_as_if_unbounded A fwd inv l2p p2l limits pinMap print sgn servos axs junk mem s0 cap burst stims B C P) in R.
  exact (proj1 (C47_serial_input A fwd inv l2p p2l limits pinMap print sgn servos axs junk mem s0 stims s tr B R)).
Qed.

(** without that condition bytes are lost: of any bytes that arrive while the main loop does not
    go on - drawing the display, say - only the first that find room are kept *)
Theorem C82_overrun : forall (A : arith) fwd inv l2p p2l limits pinMap print sgn cap (bytes : list Z) (s : sys A),
  uart_run A fwd inv l2p p2l limits pinMap print sgn cap s (map SArrive bytes) =
  Ok (mkSys (y_dev s) (y_mcp s) (y_rx s ++ firstn (Z.to_nat (cap - zlen (y_rx s))) bytes) (y_phase s), []).
Proof.
  intros A fwd inv l2p p2l limits pinMap print sgn cap bytes. induction bytes as [|c r IH]; intros s.
  - cbn [map uart_run]. rewrite firstn_nil, app_nil_r. destruct s; reflexivity.
  - cbn [map uart_run uart_step]. destruct (zlen (y_rx s) <? cap) eqn:Q.
    + apply Z.ltb_lt in Q. cbn [sys_step bind]. rewrite IH. cbn [bind app y_dev y_mcp y_rx y_phase].
      replace (Z.to_nat (cap - zlen (y_rx s))) with (S (Z.to_nat (cap - zlen (y_rx s ++ [c])))).
      * cbn [firstn]. rewrite <- app_assoc. reflexivity.
      * rewrite zlen_app. change (zlen [c]) with 1. lia.
    + apply Z.ltb_ge in Q. cbn [bind]. rewrite IH. cbn [bind app].
      replace (Z.to_nat (cap - zlen (y_rx s))) with 0%nat by lia. reflexivity.
Qed.
Print Assumptions C82_nothing_lost.

(** In particular: room for 60 bytes is enough if at most 30 bytes arrive in any stretch of the
    history in which no loop iteration begins. *)
Lemma thirty (A : arith) fwd inv l2p p2l limits pinMap print sgn cap (l : list stim) : forall (s : sys A) m,
  let urun := uart_run A fwd inv l2p p2l limits pinMap print sgn cap in
  0 <= m <= 30 ->
  (forall b c s' tr', l = b ++ c -> urun s b = Ok (s', tr') -> ~ In YLoop tr' -> zlen (arrivals b) <= m) ->
  (forall a b c s1 t1 s' tr', l = a ++ b ++ c -> urun s a = Ok (s1, t1) -> urun s1 b = Ok (s', tr') -> ~ In YLoop tr' -> zlen (arrivals b) <= 30) ->
  forall s' tr', urun s l = Ok (s', tr') -> zlen (arrivals l) <= m + 30 * loops tr'.
Proof.
  cbv zeta. induction l as [|x l IH]; intros s m M H1 H2 s' tr' R.
  - cbn [uart_run] in R. injection R as <- <-. cbn [arrivals flat_map]. change (zlen []) with 0. change (loops []) with 0. lia.
  - cbn [uart_run] in R. destruct (uart_step A fwd inv l2p p2l limits pinMap print sgn cap s x) as [[s1 e1]|] eqn:E; cbn [bind] in R; [|discriminate].
    destruct (uart_run A fwd inv l2p p2l limits pinMap print sgn cap s1 l) as [[s2 e2]|] eqn:R1; cbn [bind] in R; [|discriminate]. injection R as <- <-.
    rewrite loops_app.
    assert (H2' : forall a b c s3 t1 s' tr', l = a ++ b ++ c -> uart_run A fwd inv l2p p2l limits pinMap print sgn cap s1 a = Ok (s3, t1) ->
       uart_run A fwd inv l2p p2l limits pinMap print sgn cap s3 b = Ok (s', tr') -> ~ In YLoop tr' -> zlen (arrivals b) <= 30).
    { intros a b c s3 t1 s' tr' -> Q1 Q2. apply (H2 (x :: a) b c s3 (e1 ++ t1) s' tr' eq_refl); [|exact Q2]. cbn [uart_run]. rewrite E. cbn [bind]. rewrite Q1. reflexivity. }
    assert (CA : zlen (arrivals (x :: l)) = zlen (arrivals [x]) + zlen (arrivals l)) by (change (x :: l) with ([x] ++ l); unfold arrivals; rewrite flat_map_app; apply zlen_app).
    assert (LP : 0 <= loops e1) by apply zlen_nonneg.
    assert (AX : zlen (arrivals [x]) = 0 \/ (zlen (arrivals [x]) = 1 /\ e1 = [])).
    { destruct x as [c| |now lv]; [right|left; reflexivity|left; reflexivity]. split; [reflexivity|].
      cbn [uart_step] in E. destruct (zlen (y_rx s) <? cap); [cbn [sys_step] in E|]; injection E as _ <-; reflexivity. }
    assert (X1 : uart_run A fwd inv l2p p2l limits pinMap print sgn cap s [x] = Ok (s1, e1 ++ [])) by (cbn [uart_run]; rewrite E; reflexivity).
    destruct (Z.eq_dec (loops e1) 0) as [L0|L1].
    + assert (NI : ~ In YLoop e1).
      { intros I. apply in_split in I as (u & v & ->). rewrite loops_app in L0. unfold loops at 2 in L0. cbn [filter] in L0. rewrite zlen_cons in L0.
        pose proof (zlen_nonneg (filter (fun e : sys_ev A => match e with YLoop => true | _ => false end) v)). pose proof (zlen_nonneg (filter (fun e : sys_ev A => match e with YLoop => true | _ => false end) u)) as ZU. unfold loops in L0. lia. }
      pose proof (H1 [x] l s1 (e1 ++ []) eq_refl X1 ltac:(rewrite app_nil_r; exact NI)) as HX.
      assert (K : zlen (arrivals l) <= (m - zlen (arrivals [x])) + 30 * loops e2); [|lia].
      apply (IH s1 (m - zlen (arrivals [x])) ltac:(lia)) with (s' := s2); [|exact H2'|exact R1].
      intros b c s' tr' -> Q1 Q2. assert (X2 : zlen (arrivals (x :: b)) <= m).
      { apply (H1 (x :: b) c s' (e1 ++ tr') eq_refl); [cbn [uart_run]; rewrite E; cbn [bind]; rewrite Q1; reflexivity|]. rewrite in_app_iff. tauto. }
      change (x :: b) with ([x] ++ b) in X2. unfold arrivals in X2 |- *. rewrite flat_map_app, zlen_app in X2. lia.
    + assert (K : zlen (arrivals l) <= 30 + 30 * loops e2); [|destruct AX as [AX|[AX ->]]; [lia|now destruct L1]].
      apply (IH s1 30 ltac:(lia)) with (s' := s2); [|exact H2'|exact R1].
      intros b c s' tr' Q Q1 Q2. exact (H2' [] b c s1 [] s' tr' Q eq_refl Q1 Q2).
Qed.
Theorem C82_thirty_per_iteration : forall (A : arith) fwd inv l2p p2l limits pinMap print sgn servos axs junk mem s0 cap stims s tr,
  let urun := uart_run A fwd inv l2p p2l limits pinMap print sgn cap in
  sys_boot A fwd p2l servos axs junk mem = Ok s0 -> 60 <= cap ->
  (forall a b c s1 t1 s2 t2, stims = a ++ b ++ c -> urun s0 a = Ok (s1, t1) -> urun s1 b = Ok (s2, t2) -> ~ In YLoop t2 -> zlen (arrivals b) <= 30) ->
  urun s0 stims = Ok (s, tr) -> handed tr ++ y_rx s = arrivals stims.
Proof.
  cbv zeta. intros A fwd inv l2p p2l limits pinMap print sgn servos axs junk mem s0 cap stims s tr B C H R.
  apply (C82_nothing_lost A fwd inv l2p p2l limits pinMap print sgn servos axs junk mem s0 cap 30 stims s tr B ltac:(lia)); [|exact R].
  intros a b c s1 t1 s2 t2 Q Q1 Q2.
  apply (thirty A fwd inv l2p p2l limits pinMap print sgn cap b s1 30 ltac:(lia)) with (s' := s2); [| |exact Q2].
  - intros b1 c1 s' tr' -> X1 X2. apply (H a b1 (c1 ++ c) s1 t1 s' tr'); [rewrite Q, <- app_assoc; reflexivity|exact Q1|exact X1|exact X2].
  - intros a1 b1 c1 s3 t3 s' tr' -> X1 X2 X3. apply (H (a ++ a1) b1 (c1 ++ c) s3 (t1 ++ t3) s' tr'); [rewrite Q, <- !app_assoc; reflexivity| |exact X2|exact X3].
    clear - Q1 X1. revert s0 s1 t1 Q1 X1. induction a as [|x a IH]; intros s0 s1 t1 Q1 X1; cbn [uart_run app] in *.
    + injection Q1 as <- <-. exact X1.
    + destruct (uart_step A fwd inv l2p p2l limits pinMap print sgn cap s0 x) as [[u e]|]; cbn [bind] in *; [|discriminate].
      destruct (uart_run A fwd inv l2p p2l limits pinMap print sgn cap u a) as [[u2 e2]|] eqn:Y; cbn [bind] in Q1; [|discriminate]. injection Q1 as <- <-.
      rewrite (IH _ _ _ Y X1). cbn [bind]. rewrite app_assoc. reflexivity.
Qed.
Print Assumptions C82_thirty_per_iteration.

(** ** Cases *)
(** a host that sends at most [burst] bytes altogether is paced, whatever the schedule *)
Example C82_case : forall (A : arith) fwd inv l2p p2l limits pinMap print sgn cap burst s0 stims,
  zlen (arrivals stims) <= burst -> paced A fwd inv l2p p2l limits pinMap print sgn cap burst s0 stims.
Proof.
  intros A fwd inv l2p p2l limits pinMap print sgn cap burst s0 stims H a b c s tr s' tr' -> _ _.
  unfold arrivals in H |- *. rewrite !flat_map_app, !zlen_app in H.
  pose proof (zlen_nonneg (flat_map (fun x => match x with SArrive c => [c] | _ => [] end) a)). pose proof (zlen_nonneg (flat_map (fun x => match x with SArrive c => [c] | _ => [] end) c)).
  assert (0 <= loops tr') by apply zlen_nonneg. lia.
Qed.
(** 100 bytes while the display is drawn: with room for 60, 40 are lost *)
Example C82_lost : forall (A : arith) fwd inv l2p p2l limits pinMap print sgn (s : sys A) s' tr', y_rx s = [] ->
  uart_run A fwd inv l2p p2l limits pinMap print sgn 60 s (map SArrive (repeat 65 100)) = Ok (s', tr') -> y_rx s' = repeat 65 60.
Proof. intros A fwd inv l2p p2l limits pinMap print sgn s s' tr' E H. rewrite C82_overrun, E in H. injection H as <- _. reflexivity. Qed.
