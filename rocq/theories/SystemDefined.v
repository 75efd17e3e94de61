(** * SystemDefined: a system whose parts keep an invariant under which they do not fail runs on (any arithmetic) *)
From Verif Require Import Base Arith ServoModel RobotModel RobotSpec RobotProofs IoModel WaitModel EepromModel MrilModel MrilSpec McpModel McpSpec McpProofs DeviceModel DeviceSpec DeviceProofs.
From Verif Require Import RingModel EepromSpec IoSpec MrilProofs SystemModel SystemSpec SystemProofs SystemSafe SystemQueue SystemOrigin SystemMore.
Open Scope Z_scope.

Section Defined.
Context (A : arith).
Context (fwd : V6 (F A) -> V6 (F A)) (inv : V6 (F A) -> option (V6 (F A))) (l2p p2l : V6 (F A) -> V6 (F A)) (limits : V6 (F A * F A)).
Context (pinMap : list Z) (print : D A -> list Z) (sgn : bool) (PM : zlen pinMap = 10).
Notation step := (sys_step A fwd inv l2p p2l limits pinMap print sgn).
Notation run := (sys_run A fwd inv l2p p2l limits pinMap print sgn).
Notation acts_run := (sys_acts A fwd p2l pinMap print).
(** admissible instructions, and the invariant of robot and axes *)
Context (good : list Z -> Prop) (Bd : device A -> Prop).
Context (H_tick : forall d, Bd d -> exists d', dev_tick A d = Ok d' /\ Bd d').
Context (H_robot : forall d, Bd d -> exists d' e, dev_robot A fwd inv l2p p2l limits print d = Ok (d', e) /\ Bd d').
Context (H_parse : forall now d t d' e, good t -> dev_parse A fwd p2l pinMap print now d t = Ok (d', e) -> Bd d -> Bd d').
Context (H_frame : forall d d', d_robot d' = d_robot d -> d_axes d' = d_axes d -> Bd d -> Bd d').

Lemma acts_Bd now l : forall d d' e, acts_run now d l = Ok (d', e) -> Forall good (executed e) -> Bd d -> Bd d'.
Proof.
  induction l as [|a l IH]; intros d d' e E G H; cbn [sys_acts] in E; [injection E as <- <-; exact H|].
  destruct (sys_act A fwd p2l pinMap print now d a) as [[d1 e1]|] eqn:S; cbn [bind] in E; [|discriminate].
  destruct (acts_run now d1 l) as [[d2 e2]|] eqn:R; cbn [bind] in E; [|discriminate]. injection E as <- <-.
  unfold executed in G. rewrite flat_map_app in G. apply Forall_app in G as [G1 G2]. apply (IH _ _ _ R G2). clear IH R.
  destruct a as [n|t]; cbn [sys_act] in S; [injection S as <- <-; exact H|].
  destruct (dev_parse A fwd p2l pinMap print now d t) as [[d3 e3]|] eqn:DP; cbn [bind] in S; [|discriminate]. injection S as <- <-.
  cbn [flat_map app] in G1. inversion G1 as [|? ? GT _]; subst. exact (H_parse _ _ _ _ _ GT DP H).
Qed.
Lemma step_Bd s x s' e : step s x = Ok (s', e) -> Bd (y_dev s) -> Forall good (executed e) -> Bd (y_dev s').
Proof.
  intros E B G. destruct x as [c| |now lv]; cbn [sys_step] in E.
  - injection E as <- <-. exact B.
  - destruct (H_tick _ B) as (d' & T & K). rewrite T in E. cbn [bind] in E. injection E as <- <-. exact K.
  - assert (M : forall ev rx p, sys_mcp A fwd p2l pinMap print sgn now s ev rx p = Ok (s', e) -> Bd (y_dev s')).
    { intros ev rx p X. unfold sys_mcp in X. destruct (c_step sgn (y_mcp s) ev) as [[m acts]|]; cbn [bind] in X; [|discriminate].
      destruct (acts_run now (y_dev s) acts) as [[d evs]|] eqn:AR; cbn [bind] in X; [|discriminate]. injection X as <- <-.
      exact (acts_Bd _ _ _ _ _ AR G B). }
    unfold sys_main in E. destruct (y_phase s) as [| |k| |].
    + destruct (H_robot _ B) as (d' & e1 & R & K). rewrite R in E. cbn [bind] in E. injection E as <- <-. exact K.
    + destruct (H_robot _ B) as (d' & e1 & R & K). rewrite R in E. cbn [bind] in E. injection E as <- <-. exact K.
    + destruct (y_rx s) as [|c rx]; [injection E as <- <-; exact B|].
      destruct (k <? READ_BYTES); [eapply M; eauto|injection E as <- <-; exact B].
    + destruct (dev_poll_cases A (y_dev s) now lv) as [[_ EP]|[_ (io & _ & EP)]]; rewrite EP in E; injection E as <- <-; (eapply H_frame; [| |exact B]; reflexivity).
    + eapply M; eauto.
Qed.
Lemma run_BD l : forall s s' tr, run s l = Ok (s', tr) -> Bd (y_dev s) -> Forall good (executed tr) -> Bd (y_dev s').
Proof.
  induction l as [|x l IH]; intros s s' tr E H G; cbn [sys_run] in E; [injection E as <- <-; exact H|].
  destruct (step s x) as [[s1 e1]|] eqn:S; cbn [bind] in E; [|discriminate].
  destruct (run s1 l) as [[s2 e2]|] eqn:R; cbn [bind] in E; [|discriminate]. injection E as <- <-.
  unfold executed in G. rewrite flat_map_app in G. apply Forall_app in G as [G1 G2]. eapply IH; eauto. eapply step_Bd; eauto.
Qed.
(** a step of such a system does not fail *)
Lemma step_defined s t x rest : SInv A sgn s t (y_rx s ++ arrivals [x] ++ rest) -> Bd (y_dev s) -> exists p, step s x = Ok p.
Proof.
  intros (CI & HO & SF & ST & D & P) B. destruct x as [c| |now lv]; cbn [sys_step].
  - eauto.
  - destruct (H_tick _ B) as (d' & T & _). rewrite T. cbn [bind]. eauto.
  - cbn [arrivals flat_map app] in *. unfold sys_main. destruct (y_phase s) as [| |k| |] eqn:PH.
    + destruct (H_robot _ B) as (d' & e1 & R & _). rewrite R. cbn [bind]. eauto.
    + destruct (H_robot _ B) as (d' & e1 & R & _). rewrite R. cbn [bind]. eauto.
    + destruct (y_rx s) as [|c rx]; [eauto|]. destruct (k <? READ_BYTES); [|eauto].
      unfold sys_mcp. cbn [app map host_ok] in HO. destruct HO as [H1 H2].
      destruct (c_step_refines sgn (y_mcp s) t (CChar c) CI H1) as (m & CS & CI'). rewrite CS. cbn [bind].
      cbn [app map commands] in SF.
      assert (Y3 : snd (spec_step t (CChar c)) = [] \/ (exists n, snd (spec_step t (CChar c)) = [MSendFree n]) \/
         exists r, snd (spec_step t (CChar c)) = [MParse r] /\ safe_text 0 r).
      { cbn [spec_step] in *. destruct (c =? 13); [|auto].
        inversion SF as [|? ? F1 F2]; subst. destruct (command_safe t _ ST F1) as [C1 C2].
        destruct (spec_command t (payload (scur t))) as [t1 a]. exact C2. }
      destruct Y3 as [->|[[n ->]|(r & -> & SR)]]; cbn [sys_acts sys_act bind]; [eauto|eauto|].
      destruct (parse_fine A fwd p2l pinMap print PM now (y_dev s) r 0 D SR) as (d' & e & E & D'); [destruct D as (_ & IO & _); lia|]. rewrite E. cbn. eauto.
    + destruct (dev_poll_cases A (y_dev s) now lv) as [[AF E]|[NAF (io & IO & E)]]; rewrite E; cbn; eauto.
    + unfold sys_mcp. set (b := mdone (d_mril (y_dev s))) in *.
      destruct (c_step_refines sgn (y_mcp s) t (CPoll b) CI I) as (m & CS & CI'). rewrite CS. cbn [bind spec_step] in *.
      destruct (poll_safe t b ST) as [Y1 Y2]. destruct Y2 as [->|(BB & pre & r & -> & SR & PRE)]; [cbn; eauto|].
      destruct (parse_fine A fwd p2l pinMap print PM now (y_dev s) r 10 D SR) as (d' & e & E & D').
      { rewrite (P eq_refl BB). unfold zlen; cbn; lia. }
      destruct PRE as [->|[n ->]]; cbn [app sys_acts sys_act bind]; rewrite E; cbn; eauto.
Qed.
Lemma run_SInv l : forall s t rest s' tr, SInv A sgn s t (y_rx s ++ arrivals l ++ rest) -> run s l = Ok (s', tr) ->
  exists t', SInv A sgn s' t' (y_rx s' ++ rest).
Proof.
  induction l as [|x l IH]; intros s t rest s' tr H E; cbn [sys_run] in E; [injection E as <- <-; exists t; exact H|].
  destruct (step s x) as [[s1 e1]|] eqn:S; cbn [bind] in E; [|discriminate].
  destruct (run s1 l) as [[s2 e2]|] eqn:R; cbn [bind] in E; [|discriminate]. injection E as <- <-.
  change (x :: l) with ([x] ++ l) in H. rewrite arrivals_app, <- app_assoc in H.
  pose proof (step_fine A fwd inv l2p p2l limits pinMap print sgn PM s t x (arrivals l ++ rest) H) as F. rewrite S in F.
  destruct F as [t' H']. exact (IH s1 t' rest s2 e2 H' R).
Qed.
Lemma prefix_defined s0 t0 stims : CInv sgn (y_mcp s0) t0 -> scur t0 = [] -> y_rx s0 = [] -> PT good t0 -> Bd (y_dev s0) ->
  SInv A sgn s0 t0 (arrivals stims) ->
  Forall (fun p => Forall good (frame_text p)) (commands [] (map CChar (arrivals stims))) ->
  forall pre post, stims = pre ++ post -> exists p, run s0 pre = Ok p.
Proof.
  intros CI SC RX HP B0 SI FP pre. induction pre as [|x pre IH] using Coq.Lists.List.rev_ind; intros post E; [eexists; reflexivity|].
  rewrite <- app_assoc in E. destruct (IH _ E) as [[s tr] R]. clear IH.
  assert (AE : arrivals stims = arrivals pre ++ arrivals [x] ++ arrivals post) by (rewrite E, !arrivals_app; reflexivity).
  assert (HO : host_ok t0 (map CChar (arrivals pre))).
  { destruct SI as (_ & HO & _). rewrite AE in HO. apply host_ok_polls with (rest := arrivals [x] ++ arrivals post).
    replace (chars (map CChar (arrivals pre))) with (arrivals pre); [exact HO|]. clear. induction (arrivals pre); cbn; congruence. }
  assert (FP' : Forall (fun p => Forall good (frame_text p)) (commands [] (map CChar (arrivals pre)))).
  { rewrite AE, map_app in FP. eapply Forall_commands. exact FP. }
  pose proof (executed_origin A fwd inv l2p p2l limits pinMap print sgn good s0 t0 pre s tr CI SC RX HP R HO FP') as G.
  pose proof (run_BD _ _ _ _ R B0 G) as BS.
  assert (SI' : SInv A sgn s0 t0 (y_rx s0 ++ arrivals pre ++ arrivals [x] ++ arrivals post)) by (rewrite RX; cbn [app]; rewrite <- AE; exact SI).
  destruct (run_SInv _ _ _ _ _ _ SI' R) as [t' S'].
  destruct (step_defined s t' x (arrivals post) S' BS) as [[s1 e1] ST].
  rewrite sys_run_app, R. cbn [bind sys_run]. rewrite ST. cbn [bind]. eexists; reflexivity.
Qed.
End Defined.
