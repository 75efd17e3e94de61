(** Proofs about DeviceModel. *)
From Verif Require Import Base Arith ServoModel RobotModel IoModel IoSpec IoProofs RobotProofs WaitModel MrilModel MrilSpec MrilProofs DeviceModel DeviceSpec.
Open Scope Z_scope.

Section Dev.
Context (A : arith) (fwd : V6 (F A) -> V6 (F A)) (inv : V6 (F A) -> option (V6 (F A))).
Context (l2p p2l : V6 (F A) -> V6 (F A)) (limits : V6 (F A * F A)) (pinMap : list Z) (print : D A -> list Z).
Context (PM : zlen pinMap = 10).
Notation device := (device A).
Notation exec_act := (exec_act A fwd p2l pinMap print).
Notation exec_acts := (exec_acts A fwd p2l pinMap print).
Notation parse := (dev_parse A fwd p2l pinMap print).

Lemma exec_acts_app now a : forall b d buf,
  exec_acts now d buf (a ++ b) =
  do (d1, buf1, e1) <- exec_acts now d buf a;
  do (d2, buf2, e2) <- exec_acts now d1 buf1 b; Ok (d2, buf2, e1 ++ e2).
Proof.
  induction a as [|x a IH]; intros b d buf; cbn [app DeviceModel.exec_acts].
  - cbn [bind]. destruct (exec_acts now d buf b) as [[[d2 b2] e2]|]; reflexivity.
  - destruct (exec_act now d buf x) as [[[d1 b1] e1]|]; cbn [bind]; [|reflexivity].
    rewrite IH. destruct (exec_acts now d1 b1 a) as [[[d2 b2] e2]|]; cbn [bind]; [|reflexivity].
    destruct (exec_acts now d2 b2 b) as [[[d3 b3] e3]|]; cbn [bind]; [|reflexivity]. now rewrite app_assoc.
Qed.

(** ** one command *)
Definition Wd (d : device) : Prop := zlen (d_axes d) = 2.

Lemma cmd_at_lt cmd k : 0 <= k < zlen cmd -> cmd_at cmd k = Ok (nth (Z.to_nat k) cmd 0).
Proof. intros H. unfold cmd_at. destruct (Z.ltb_spec k (zlen cmd)); [reflexivity|lia]. Qed.

Lemma digit_opt_ok p : 48 <= p <= 57 -> digit_opt p = p - 48.
Proof. intros H. unfold digit_opt. apply u32_small. lia. Qed.
Lemma digit_opt_bad p : p < 48 -> -4000000000 <= p -> 294967200 <= digit_opt p.
Proof.
  intros H L. unfold digit_opt, u32.
  replace (p - 48) with ((p - 48 + 4294967296) + (-1) * 4294967296) by ring.
  rewrite Z_mod_plus_full, Z.mod_small by lia. lia.
Qed.
Lemma read_axis d o i : Wd d -> 0 <= i < 2 -> exists t, read_item A fwd p2l print d (RAxis o i) = Ok t.
Proof.
  intros W H. cbn [read_item]. assert (Z := v0 (r_servos (d_robot d))). rewrite (zget_ok _ i Z) by (unfold Wd in W; lia).
  cbn [bind]. eauto.
Qed.
Lemma read_axis_oob d o i : Wd d -> 2 <= i -> read_item A fwd p2l print d (RAxis o i) = Ub OobRead.
Proof. intros W H. cbn [read_item]. rewrite zget_oob by (unfold Wd in W; lia). reflexivity. Qed.

Lemma accepts_range c : mril_accepts c = true -> 45 <= c <= 90.
Proof.
  unfold mril_accepts, isdigit, isupper. rewrite !orb_true_iff, !andb_true_iff, !Z.leb_le, !Z.eqb_eq. lia.
Qed.
(** outcome of a command of at most 19 characters *)
Definition good (now : Z) (d : device) (c : list Z) (num : Z) : Prop :=
  exists acts ty n, mril_command c num = Ok (acts, ty, n) /\
    forall buf, exists d' buf' e, exec_acts now d buf acts = Ok (d', buf', e) /\ Wd d' /\
      zlen (d_io d') = zlen (d_io d) + is_input c.
Definition bad (now : Z) (d : device) (c : list Z) (num : Z) : Prop :=
  (exists f, mril_command c num = Ub f) \/
  (exists acts ty n, mril_command c num = Ok (acts, ty, n) /\ forall buf, exists f, exec_acts now d buf acts = Ub f).

Lemma one_command now d c num : Wd d -> zlen (d_io d) <= 10 -> Forall (fun x => mril_accepts x = true) c -> c <> [] ->
  (safe_command c /\ zlen (d_io d) + is_input c <= 10 -> good now d c num) /\
  (~ (safe_command c /\ zlen (d_io d) + is_input c <= 10) -> bad now d c num).
Proof.
  intros W IO CT NE. destruct c as [|sym body]; [congruence|]. inversion CT as [|? ? US BC]; subst.
  destruct (Z_le_gt_dec (zlen (sym :: body)) 19) as [LE|GT].
  2:{ split; [intros [[H _] _]; lia|]. intros _. left. exists OobWrite. cbn [mril_command]. unfold MRIL_COMMAND_SIZE.
      destruct (Z.leb_spec 20 (zlen (sym :: body))); [reflexivity|lia]. }
  assert (LEN : (MRIL_COMMAND_SIZE <=? zlen (sym :: body)) = false) by (apply Z.leb_gt; unfold MRIL_COMMAND_SIZE; lia).
  unfold good, bad. cbn [mril_command]. rewrite LEN.
  set (ty := if sym =? 78 then NONE else match body with [] => READ | _ => WRITE end).
  assert (NI : sym <> 73 -> is_input (sym :: body) = 0).
  { intros N. cbn [is_input]. destruct (Z.eqb_spec sym 73); [contradiction|reflexivity]. }
  (* M *)
  destruct (Z.eqb_spec sym 77) as [->|N77].
  { assert (C : (exists v, c_atoi body = Ok v) \/ (exists f, c_atoi body = Ub f)) by (destruct (c_atoi body); eauto).
    split.
    - intros [(_ & _ & _ & S) _]. destruct S as [v V]; [auto|].
      rewrite V. cbn [bind].
      assert (E : forall l, (l = [ARead RMethod] \/ l = [AMethod 0] \/ l = [AMethod 1] \/ l = []) ->
                  forall buf, exists d' buf' e, exec_acts now d buf l = Ok (d', buf', e) /\ Wd d' /\ zlen (d_io d') = zlen (d_io d) + 0).
      { intros l [->|[->|[->| ->]]] buf; cbn; do 3 eexists; (split; [reflexivity|]); (split; [exact W|]); cbn; lia. }
      rewrite NI by lia. unfold ty. cbn [Z.eqb Pos.eqb].
      destruct body; do 3 eexists; (split; [reflexivity|]); apply E; auto.
      destruct (v =? 0); [auto|]. destruct (v =? 1); auto.
    - intros N. rewrite NI in N by lia. destruct C as [[v V]|[f V]].
      + exfalso. apply N. split; [|lia]. split; [lia|]. splits; intros; try lia. eauto.
      + left. unfold ty. cbn [Z.eqb Pos.eqb]. destruct body; [discriminate|]. exists f. rewrite V. reflexivity. }
  (* V *)
  destruct (Z.eqb_spec sym 86) as [->|N86].
  { split.
    - intros _. rewrite NI by lia. unfold ty. cbn [Z.eqb Pos.eqb].
      destruct body; do 3 eexists; (split; [reflexivity|]); intros buf; cbn; do 3 eexists; (split; [reflexivity|]);
        (split; [|cbn; lia]); unfold Wd in *; cbn; unfold zlen in *; rewrite ?map_length; auto.
    - intros N. exfalso. apply N. rewrite NI by lia. split; [|lia]. split; [lia|]. splits; intros; lia. }
  destruct (pose_index sym) as [i|] eqn:PI.
  { assert (NS : sym <> 82 /\ sym <> 73 /\ sym <> 79 /\ sym <> 77 /\ sym <> 68 /\ sym <> 78).
    { unfold pose_index in PI. splits; intros ->; discriminate. }
    split.
    - intros _. rewrite NI by lia. unfold ty.
      destruct (Z.eqb_spec sym 78); [lia|].
      destruct body; do 3 eexists; (split; [reflexivity|]); intros buf; cbn; do 3 eexists; (split; [reflexivity|]); (split; [exact W|cbn; lia]).
    - intros N. exfalso. apply N. rewrite NI by lia. split; [|lia]. split; [lia|]. splits; intros; lia. }
  (* R *)
  destruct (Z.eqb_spec sym 82) as [->|N82].
  { rewrite NI by lia. destruct body as [|p r].
    - split; [intros [(_ & S & _) _]; destruct (S eq_refl) as (p & r & E & _); discriminate|]. intros _.
      unfold cmd_at. change (zlen [82]) with 1. cbn [Z.ltb Z.eqb Z.compare Pos.compare Pos.compare_cont Pos.eqb bind Z.leb].
      right. pose proof (digit_opt_bad 0 ltac:(lia) ltac:(lia)) as B.
      destruct (Z.leb_spec 6 (digit_opt 0)); [|lia]. do 3 eexists. split; [reflexivity|]. intros buf. exists OobRead.
      cbn [DeviceModel.exec_acts DeviceModel.exec_act]. rewrite read_axis_oob; [reflexivity|exact W|lia].
    - rewrite cmd_at_lt by (rewrite zlen_cons, zlen_cons; pose proof (zlen_nonneg r); lia). change (nth (Z.to_nat 1) (82 :: p :: r) 0) with p. cbn [bind].
      inversion BC as [|? ? PB BC']; subst. apply accepts_range in PB.
      set (v := c_atof (skipn 2 (82 :: p :: r))).
      split.
      + intros [(_ & S & _) _]. destruct (S eq_refl) as (p' & r' & E & PR). injection E as <- <-.
        rewrite digit_opt_ok by lia.
        destruct (Z.leb_spec (zlen (82 :: p :: r)) 2).
        * destruct (Z.leb_spec 6 (p - 48)); do 3 eexists; (split; [reflexivity|]); intros buf; cbn [DeviceModel.exec_acts DeviceModel.exec_act].
          -- destruct (read_axis d (p - 48) (p - 48 - 6) W) as [t T]; [lia|]. rewrite T. cbn [bind].
             do 3 eexists. split; [reflexivity|]. split; [exact W|lia].
          -- cbn [read_item bind]. do 3 eexists. split; [reflexivity|]. split; [exact W|lia].
        * destruct (Z.leb_spec 6 (p - 48)); do 3 eexists; (split; [reflexivity|]); intros buf; cbn [DeviceModel.exec_acts DeviceModel.exec_act].
          -- assert (ZZ := v0 (r_servos (d_robot d))). rewrite (zget_ok _ (p - 48 - 6) ZZ) by (unfold Wd in W; lia). cbn [bind].
             rewrite zset_ok by (unfold Wd in W; lia). cbn [bind]. do 3 eexists. split; [reflexivity|].
             split; [unfold Wd; cbn; rewrite zlen_upd; exact W|cbn; lia].
          -- unfold set_angle. replace ((0 <=? p - 48) && (p - 48 <? 6)) with true
               by (symmetry; apply andb_true_iff; split; [apply Z.leb_le|apply Z.ltb_lt]; lia).
             cbn [bind]. do 3 eexists. split; [reflexivity|]. split; [exact W|cbn; lia].
      + intros N.
        assert (PR : ~ (48 <= p <= 55)).
        { intros PR. apply N. split; [|lia]. split; [exact LE|]. splits; intros; try lia. eauto. }
        assert (O : 8 <= digit_opt p).
        { destruct (Z_lt_ge_dec p 48) as [L|G]; [pose proof (digit_opt_bad p L ltac:(lia)); lia|].
          unfold digit_opt. rewrite u32_small by lia. lia. }
        right. destruct (Z.leb_spec 6 (digit_opt p)); [|lia].
        destruct (Z.leb_spec (zlen (82 :: p :: r)) 2); do 3 eexists; (split; [reflexivity|]); intros buf; exists OobRead;
          cbn [DeviceModel.exec_acts DeviceModel.exec_act].
        * rewrite read_axis_oob; [reflexivity|exact W|lia].
        * rewrite zget_oob by (unfold Wd in W; lia). reflexivity. }
  (* I *)
  destruct (Z.eqb_spec sym 73) as [->|N73].
  { change (is_input (73 :: body)) with 1. destruct body as [|p r].
    - split; [intros [(_ & _ & S & _) _]; destruct (S (or_introl eq_refl)) as (p & r & E & _); discriminate|]. intros _. left. eexists. reflexivity.
    - rewrite cmd_at_lt by (rewrite zlen_cons, zlen_cons; pose proof (zlen_nonneg r); lia). change (nth (Z.to_nat 1) (73 :: p :: r) 0) with p. cbn [bind].
      inversion BC as [|? ? PB BC']; subst. apply accepts_range in PB.
      assert (C2 : exists x, cmd_at (73 :: p :: r) 2 = Ok x).
      { destruct r as [|q r]; [exists 0; reflexivity|]. eexists. apply cmd_at_lt. rewrite !zlen_cons. pose proof (zlen_nonneg r). lia. }
      destruct C2 as [x X]. rewrite X. cbn [bind].
      split.
      + intros [(_ & _ & S & _) RM]. destruct (S (or_introl eq_refl)) as (p' & r' & E & PR). injection E as <- <-.
        do 3 eexists. split; [reflexivity|]. intros buf. cbn [DeviceModel.exec_acts DeviceModel.exec_act]. unfold io_addCondition.
        rewrite digit_opt_ok by lia. rewrite (zget_ok pinMap (p - 48) 0) by lia. cbn [bind]. unfold MAX_CONDITIONS.
        destruct (Z.ltb_spec (zlen (d_io d)) 10); [|lia]. cbn [bind]. do 3 eexists. split; [reflexivity|].
        split; [exact W|]. cbn [d_io with_io]. rewrite zlen_app. reflexivity.
      + intros N. right. do 3 eexists. split; [reflexivity|]. intros buf. cbn [DeviceModel.exec_acts DeviceModel.exec_act]. unfold io_addCondition.
        destruct (Z_lt_ge_dec p 48) as [L|G];
          [pose proof (digit_opt_bad p L ltac:(lia)); rewrite zget_oob by lia; cbn [bind]; eauto|].
        destruct (Z_le_gt_dec p 57) as [G'|G'].
        2:{ unfold digit_opt. rewrite u32_small by lia. rewrite zget_oob by lia. cbn [bind]. eauto. }
        * assert (48 <= p <= 57) by lia. rewrite digit_opt_ok by lia. rewrite (zget_ok pinMap (p - 48) 0) by lia. cbn [bind].
          unfold MAX_CONDITIONS. destruct (Z.ltb_spec (zlen (d_io d)) 10); [|cbn [bind]; eauto].
          exfalso. apply N. split; [|lia]. split; [exact LE|]. splits; intros; try lia. eauto. }
  rewrite NI by lia.
  (* O *)
  destruct (Z.eqb_spec sym 79) as [->|N79].
  { destruct body as [|p r].
    - split; [intros [(_ & _ & S & _) _]; destruct (S (or_intror eq_refl)) as (p & r & E & _); discriminate|]. intros _. left. eexists. reflexivity.
    - rewrite cmd_at_lt by (rewrite zlen_cons, zlen_cons; pose proof (zlen_nonneg r); lia). change (nth (Z.to_nat 1) (79 :: p :: r) 0) with p. cbn [bind].
      inversion BC as [|? ? PB BC']; subst. apply accepts_range in PB.
      assert (C2 : exists x, cmd_at (79 :: p :: r) 2 = Ok x).
      { destruct r as [|q r]; [exists 0; reflexivity|]. eexists. apply cmd_at_lt. rewrite !zlen_cons. pose proof (zlen_nonneg r). lia. }
      destruct C2 as [x X]. rewrite X. cbn [bind].
      split.
      + intros [(_ & _ & S & _) RM]. destruct (S (or_intror eq_refl)) as (p' & r' & E & PR). injection E as <- <-.
        do 3 eexists. split; [reflexivity|]. intros buf. cbn [DeviceModel.exec_acts DeviceModel.exec_act]. unfold io_setOutput.
        rewrite digit_opt_ok by lia. rewrite (zget_ok pinMap (p - 48) 0) by lia. cbn [bind].
        do 3 eexists. split; [reflexivity|]. split; [exact W|lia].
      + intros N. right. do 3 eexists. split; [reflexivity|]. intros buf. cbn [DeviceModel.exec_acts DeviceModel.exec_act]. unfold io_setOutput.
        destruct (Z_lt_ge_dec p 48) as [L|G];
          [pose proof (digit_opt_bad p L ltac:(lia)); rewrite zget_oob by lia; cbn [bind]; eauto|].
        destruct (Z_le_gt_dec p 57) as [G'|G'].
        2:{ unfold digit_opt. rewrite u32_small by lia. rewrite zget_oob by lia. cbn [bind]. eauto. }
        * exfalso. apply N. split; [|lia]. split; [exact LE|]. splits; intros; try lia. exists p, r. split; [reflexivity|]. lia. }
  (* D, N *)
  destruct (Z.eqb_spec sym 68) as [->|N68]; [|destruct (Z.eqb_spec sym 78) as [->|N78]].
  1,2: split;
    [ intros [(_ & _ & _ & S) _]; destruct S as [v V]; [auto|]; rewrite V; cbn [bind]; do 3 eexists; (split; [reflexivity|]);
      intros buf; cbn [DeviceModel.exec_acts DeviceModel.exec_act bind]; do 3 eexists; (split; [reflexivity|]); (split; [exact W|cbn; lia])
    | intros N; destruct (c_atoi body) as [v|f] eqn:V; [|left; exists f; reflexivity];
      exfalso; apply N; split; [|lia]; split; [exact LE|]; splits; intros; try lia; eauto ].
  split.
  - intros _. do 3 eexists. split; [reflexivity|]. intros buf. cbn. do 3 eexists. split; [reflexivity|]. split; [exact W|lia].
  - intros N. exfalso. apply N. split; [|lia]. split; [exact LE|]. splits; intros; lia.
Qed.

(** ** a whole text *)
Lemma cut_too_long text : forall cur, 21 <= zlen cur ->
  ~ (Forall safe_command (fst (cut cur text)) /\ zlen (snd (cut cur text)) <= 20).
Proof.
  induction text as [|c rest IH]; intros cur H; cbn [cut fst snd]; [intros [_ L]; lia|].
  destruct ((c =? 35) || (c =? 40)); [cbn; intros [_ L]; lia|].
  destruct (mril_char c); [|apply IH; exact H].
  destruct (ends_piece rest).
  - destruct (cut [] rest) as [ps l]. cbn [fst snd]. intros [S _]. inversion S as [|? ? [L _] _]; subst.
    rewrite zlen_app in L. change (zlen [c]) with 1 in L. lia.
  - apply IH. rewrite zlen_app. change (zlen [c]) with 1. lia.
Qed.

Definition text_ok (d : device) (cur text : list Z) : Prop :=
  Forall safe_command (fst (cut cur text)) /\ zlen (snd (cut cur text)) <= 20 /\
  zlen (d_io d) + inputs (fst (cut cur text)) <= 10.

Lemma safe_dec c : safe_command c \/ ~ safe_command c.
Proof.
  assert (DI : forall (P : Prop), P \/ ~ P -> forall (Q : Prop), Q \/ ~ Q -> (P /\ Q) \/ ~ (P /\ Q)) by tauto.
  assert (HD : forall a b (l : list Z), (exists p r, l = p :: r /\ a <= p <= b) \/ ~ (exists p r, l = p :: r /\ a <= p <= b)).
  { intros a b [|p r]; [right; intros (p & r & E & _); discriminate|].
    destruct (Z_le_gt_dec a p); destruct (Z_le_gt_dec p b); try (left; exists p, r; split; [reflexivity|lia]);
      right; intros (p' & r' & E & K); injection E as <- <-; lia. }
  unfold safe_command. apply DI; [lia|].
  destruct c as [|letter rest]; [left; exact I|].
  apply DI; [destruct (Z.eq_dec letter 82); [destruct (HD 48 55 rest); tauto|left; lia]|].
  apply DI.
  - destruct (Z.eq_dec letter 73); [destruct (HD 48 57 rest); tauto|].
    destruct (Z.eq_dec letter 79); [destruct (HD 48 57 rest); tauto|left; lia].
  - assert (K : (exists v, c_atoi rest = Ok v) \/ ~ (exists v, c_atoi rest = Ok v)).
    { destruct (c_atoi rest); [left; eauto|right; intros [v V]; discriminate]. }
    destruct (Z.eq_dec letter 77); [tauto|]. destruct (Z.eq_dec letter 68); [tauto|].
    destruct (Z.eq_dec letter 78); [tauto|left; lia].
Qed.

Lemma is_input_range c : 0 <= is_input c <= 1.
Proof. unfold is_input. destruct c as [|x r]; [lia|]. destruct (x =? 73); lia. Qed.
Lemma inputs_nonneg cs : 0 <= inputs cs.
Proof. induction cs as [|c cs IH]; cbn [inputs]; [lia|]. pose proof (is_input_range c). lia. Qed.

Lemma scan_outcome now text : forall cur ty num d, Wd d -> zlen (d_io d) <= 10 ->
  Forall (fun x => mril_accepts x = true) cur -> zlen cur <= 20 ->
  (text_ok d cur text ->
     exists acts ty' n, mril_scan cur ty num text = Ok (acts, ty', n) /\
       forall buf, exists d' buf' e, exec_acts now d buf acts = Ok (d', buf', e)) /\
  (~ text_ok d cur text ->
     (exists f, mril_scan cur ty num text = Ub f) \/
     (exists acts ty' n, mril_scan cur ty num text = Ok (acts, ty', n) /\
        forall buf, exists f, exec_acts now d buf acts = Ub f)).
Proof.
  induction text as [|c rest IH]; intros cur ty num d W IO AC L.
  { unfold text_ok. cbn. split; [|intros N; exfalso; apply N; splits; auto; lia].
    intros _. do 3 eexists. split; [reflexivity|]. intros buf. cbn. eauto. }
  assert (T : text_ok d cur (c :: rest) <->
     if (c =? 35) || (c =? 40) then True
     else if mril_char c then
        if ends_piece rest then safe_command (cur ++ [c]) /\ zlen (d_io d) + is_input (cur ++ [c]) <= 10 /\
             Forall safe_command (fst (cut [] rest)) /\ zlen (snd (cut [] rest)) <= 20 /\
             zlen (d_io d) + is_input (cur ++ [c]) + inputs (fst (cut [] rest)) <= 10
        else text_ok d (cur ++ [c]) rest
     else text_ok d cur rest).
  { unfold text_ok at 1. cbn [cut]. destruct ((c =? 35) || (c =? 40)); [cbn [fst snd inputs]; split; intros _; [exact I|splits; [constructor|lia|lia]]|].
    destruct (mril_char c); [|reflexivity]. destruct (ends_piece rest); [|reflexivity].
    destruct (cut [] rest) as [ps l]. cbn [fst snd inputs]. rewrite Forall_cons_iff. pose proof (inputs_nonneg ps). intuition lia. }
  cbn [mril_scan]. change (mril_char c) with (mril_accepts c) in T. change (ends_piece rest) with (cmd_finished rest) in T.
  destruct ((c =? 35) || (c =? 40)).
  { split; [|intros N; exfalso; tauto]. intros _. do 3 eexists. split; [reflexivity|]. intros buf. cbn. eauto. }
  destruct (mril_accepts c) eqn:AC'.
  2:{ destruct (IH cur ty num d W IO AC L) as [G B]. split; intros K; [apply G|apply B]; tauto. }
  assert (LC : zlen (cur ++ [c]) = zlen cur + 1) by (rewrite zlen_app; reflexivity).
  assert (ACC : Forall (fun x => mril_accepts x = true) (cur ++ [c])).
  { apply Forall_app; split; [exact AC|]. constructor; [exact AC'|constructor]. }
  destruct (Z.ltb_spec (zlen cur) MRIL_COMMAND_SIZE) as [LT|GE].
  2:{ unfold MRIL_COMMAND_SIZE in GE. split; [|intros _; left; eauto].
      intros OK. exfalso. apply T in OK. destruct (cmd_finished rest).
      - destruct OK as ((K & _) & _). lia.
      - apply (cut_too_long rest (cur ++ [c])); [lia|]. unfold text_ok in OK. tauto. }
  destruct (cmd_finished rest).
  2:{ destruct (IH (cur ++ [c]) ty num d W IO ACC) as [G B]; [unfold MRIL_COMMAND_SIZE in LT; lia|].
      split; intros K; [apply G|apply B]; tauto. }
  destruct (one_command now d (cur ++ [c]) num W IO ACC ltac:(destruct cur; discriminate)) as [G B].
  assert (SD : (safe_command (cur ++ [c]) /\ zlen (d_io d) + is_input (cur ++ [c]) <= 10) \/
               ~ (safe_command (cur ++ [c]) /\ zlen (d_io d) + is_input (cur ++ [c]) <= 10)).
  { destruct (safe_dec (cur ++ [c])); [|tauto]. destruct (Z_le_gt_dec (zlen (d_io d) + is_input (cur ++ [c])) 10); [tauto|]. right. lia. }
  destruct SD as [S|S].
  - destruct (G S) as (a1 & t1 & n1 & E1 & X1). rewrite E1. cbn [bind].
    destruct (X1 []) as (dx & bx & ex & Ex & Wx & Ix).
    split.
    + intros OK. apply T in OK. destruct OK as (_ & _ & O1 & O2 & O3).
      destruct (IH [] t1 n1 dx Wx ltac:(lia) ltac:(constructor) ltac:(change (zlen (@nil Z)) with 0; lia)) as [Gx _].
      destruct (Gx ltac:(unfold text_ok; rewrite Ix; tauto)) as (a2 & t2 & n2 & E2 & _).
      rewrite E2. cbn [bind]. do 3 eexists. split; [reflexivity|]. intros buf. rewrite exec_acts_app.
      destruct (X1 buf) as (dy & by' & ey & Ey & Wy & Iy). rewrite Ey. cbn [bind].
      destruct (IH [] t1 n1 dy Wy ltac:(lia) ltac:(constructor) ltac:(change (zlen (@nil Z)) with 0; lia)) as [Gy _].
      destruct (Gy ltac:(unfold text_ok; rewrite Iy; tauto)) as (a2' & t2' & n2' & E2' & Y).
      rewrite E2 in E2'. injection E2' as <- <- <-. destruct (Y by') as (dz & bz & ez & Ez). rewrite Ez. cbn [bind]. eauto.
    + intros NOK.
      assert (NR : forall d', zlen (d_io d') = zlen (d_io d) + is_input (cur ++ [c]) -> ~ text_ok d' [] rest).
      { intros d' I' K. apply NOK. apply T. unfold text_ok in K. rewrite I' in K. tauto. }
      destruct (IH [] t1 n1 dx Wx ltac:(lia) ltac:(constructor) ltac:(change (zlen (@nil Z)) with 0; lia)) as [_ Bx].
      destruct (Bx (NR dx Ix)) as [[f E2]|(a2 & t2 & n2 & E2 & _)]; rewrite E2; cbn [bind]; [left; eauto|].
      right. do 3 eexists. split; [reflexivity|]. intros buf. rewrite exec_acts_app.
      destruct (X1 buf) as (dy & by' & ey & Ey & Wy & Iy). rewrite Ey. cbn [bind].
      destruct (IH [] t1 n1 dy Wy ltac:(lia) ltac:(constructor) ltac:(change (zlen (@nil Z)) with 0; lia)) as [_ By].
      destruct (By (NR dy Iy)) as [[f E2']|(a2' & t2' & n2' & E2' & Y)]; [congruence|].
      rewrite E2 in E2'. injection E2' as <- <- <-. destruct (Y by') as [f F']. rewrite F'. cbn [bind]. eauto.
  - split; [intros OK; exfalso; apply T in OK; tauto|]. intros _.
    destruct (B S) as [[f E1]|(a1 & t1 & n1 & E1 & X1)]; rewrite E1; cbn [bind]; [left; eauto|].
    destruct (mril_scan [] t1 n1 rest) as [[[a2 t2] n2]|f]; cbn [bind]; [|left; eauto].
    right. do 3 eexists. split; [reflexivity|]. intros buf. rewrite exec_acts_app. destruct (X1 buf) as [f F']. rewrite F'. cbn [bind]. eauto.
Qed.

Lemma parse_outcome now d text : Wd d -> zlen (d_io d) <= 10 ->
  (exists d' e, parse now d text = Ok (d', e)) <-> text_ok d [] text.
Proof.
  intros W IO. unfold dev_parse, mril_parse. destruct text as [|c rest].
  { unfold text_ok. cbn [cut fst snd inputs]. change (zlen (@nil Z)) with 0. split; [intros _; repeat split; [apply Forall_nil|lia|lia]|cbn; eauto]. }
  set (d1 := with_robot A d (with_trans A (d_robot d) true)).
  destruct (scan_outcome now (c :: rest) [] NONE (-1) d1 W IO ltac:(constructor) ltac:(change (zlen (@nil Z)) with 0; lia)) as [G B].
  change (text_ok d1 [] (c :: rest)) with (text_ok d [] (c :: rest)) in G, B.
  assert (DEC : text_ok d [] (c :: rest) \/ ~ text_ok d [] (c :: rest)).
  { unfold text_ok. remember (fst (cut [] (c :: rest))) as ps.
    assert (K : Forall safe_command ps \/ ~ Forall safe_command ps).
    { clear. induction ps as [|p ps IH]; [left; constructor|]. rewrite Forall_cons_iff. destruct (safe_dec p); tauto. }
    destruct K; [|tauto]. destruct (Z_le_gt_dec (zlen (snd (cut [] (c :: rest)))) 20); [|right; lia].
    destruct (Z_le_gt_dec (zlen (d_io d) + inputs ps) 10); [left; auto|right; lia]. }
  split.
  - intros (d' & e & E). destruct DEC as [OK|N]; [exact OK|]. exfalso.
    destruct (B N) as [[f E1]|(acts & ty & n & E1 & X)]; rewrite E1 in E; cbn [bind] in E; [discriminate|].
    cbn [DeviceModel.exec_acts DeviceModel.exec_act bind] in E. rewrite exec_acts_app in E.
    destruct (X []) as [f F']. fold d1 in E. rewrite F' in E. discriminate.
  - intros OK. destruct (G OK) as (acts & ty & n & E1 & X). rewrite E1. cbn [bind].
    cbn [DeviceModel.exec_acts DeviceModel.exec_act bind]. rewrite exec_acts_app. fold d1.
    destruct (X []) as (d' & buf' & e & E). rewrite E. cbn [bind DeviceModel.exec_acts DeviceModel.exec_act].
    destruct ty; cbn [DeviceModel.exec_acts DeviceModel.exec_act bind]; eauto. destruct (0 <? n); cbn [DeviceModel.exec_act bind]; eauto.
Qed.

(** ** the cut of a sequence of commands *)
Lemma cut_body body : forall cur c rest, mril_char c = true -> c <> 35 -> c <> 40 ->
  Forall bodyc body -> ends_piece rest = true ->
  cut cur (c :: body ++ rest) = ((cur ++ c :: body) :: fst (cut [] rest), snd (cut [] rest)).
Proof.
  induction body as [|b body IH]; intros cur c rest HC N1 N2 HB HE.
  - cbn [app cut]. apply Z.eqb_neq in N1, N2. rewrite N1, N2, HC, HE. cbn [orb]. now destruct (cut [] rest).
  - inversion HB as [|? ? Hb HB']; subst. cbn [app]. cbn [cut]. destruct (body_accepts b Hb) as (A1 & A2 & A3 & A4).
    apply Z.eqb_neq in N1, N2. rewrite N1, N2, HC. cbn [orb].
    assert (E : ends_piece (b :: body ++ rest) = false).
    { change (isupper b || (b =? 35) || (b =? 40) = false). rewrite A2. apply Z.eqb_neq in A3, A4. now rewrite A3, A4. }
    rewrite E. change (cut (cur ++ [c]) (b :: body ++ rest) = ((cur ++ c :: b :: body) :: fst (cut [] rest), snd (cut [] rest))).
    rewrite IH; auto. rewrite <- app_assoc. reflexivity.
Qed.
Lemma cut_commands cs : Forall command_text cs -> cut [] (concat cs) = (cs, []).
Proof.
  induction 1 as [|c cs HC H IH]; [reflexivity|]. destruct c as [|s b]; [destruct HC|]. destruct HC as [US BC].
  cbn [concat]. cbn [app]. rewrite cut_body.
  - rewrite IH. reflexivity.
  - unfold mril_char. replace ((65 <=? s) && (s <=? 90)) with true; [now rewrite !orb_true_r|].
    symmetry. apply andb_true_iff. rewrite !Z.leb_le. lia.
  - lia.
  - lia.
  - exact BC.
  - destruct cs as [|c' cs']; [reflexivity|]. inversion H as [|? ? HC' _]; subst.
    destruct c' as [|s' b']; [destruct HC'|]. destruct HC' as [US' _]. cbn [concat app ends_piece].
    replace ((65 <=? s') && (s' <=? 90)) with true; [reflexivity|]. symmetry. apply andb_true_iff. rewrite !Z.leb_le. lia.
Qed.

(** ** reads *)
Lemma read_command_ok c : read_ok c -> command_ok c.
Proof.
  destruct c as [| |a|j|s ds|n|a n|j n|p l|p l|s ds|s ds|l n]; cbn [read_ok]; intros H; try contradiction;
    (split; [cbn [show]; unfold zlen; cbn; lia|]); auto. unfold digit_ok; lia.
Qed.
Lemma read_meaning now d b c buf : Wd d -> read_ok c ->
  exec_acts now (with_robot A d (with_trans A (d_robot d) b)) buf (meaning c) =
  Ok (with_robot A d (with_trans A (d_robot d) b), buf ++ answer A fwd p2l print d c, []).
Proof.
  intros W H. destruct c as [| |a|j|s ds|n|a n|j n|p l|p l|s ds|s ds|l n]; try contradiction;
    cbn [meaning DeviceModel.exec_acts DeviceModel.exec_act].
  - reflexivity.
  - reflexivity.
  - destruct a; reflexivity.
  - cbn [read_ok] in H. cbn [answer]. destruct (Z.ltb_spec j 6).
    + cbn [read_item bind]. unfold in_degrees. rewrite app_nil_r || idtac.
      assert (J : j = 0 \/ j = 1 \/ j = 2 \/ j = 3 \/ j = 4 \/ j = 5) by lia.
      destruct J as [->|[->|[->|[->|[->| ->]]]]]; reflexivity.
    + cbn [read_item d_axes with_robot]. rewrite (zget_ok (d_axes d) (j - 6) (v0 (r_servos (d_robot d)))) by (unfold Wd in W; lia).
      reflexivity.
Qed.
Lemma reads_meaning now d b cs : Wd d -> Forall read_ok cs -> forall buf,
  exec_acts now (with_robot A d (with_trans A (d_robot d) b)) buf (flat_map meaning cs) =
  Ok (with_robot A d (with_trans A (d_robot d) b), buf ++ flat_map (answer A fwd p2l print d) cs, []).
Proof.
  intros W. induction 1 as [|c cs H HF IH]; intros buf; cbn [flat_map].
  - cbn [DeviceModel.exec_acts]. now rewrite app_nil_r.
  - rewrite exec_acts_app, read_meaning by auto. cbn [bind]. rewrite IH. cbn [bind app]. now rewrite app_assoc.
Qed.
Lemma untouched d : r_trans (d_robot d) = false ->
  with_mril A (with_robot A (with_robot A d (with_trans A (d_robot d) true))
     (with_trans A (with_trans A (d_robot d) true) false)) (d_mril d) = d.
Proof. destruct d as [r ax io w m]. destruct r. cbn. intros ->. reflexivity. Qed.

Lemma reads_kind cs : Forall read_ok cs -> cs <> [] -> forall t, fold_left (fun _ c => kind c) cs t = READ.
Proof.
  induction 1 as [|c cs H HF IH]; intros NE t; [congruence|]. cbn [fold_left].
  destruct cs as [|c' cs]; [|apply IH; discriminate]. cbn. destruct c; try contradiction; reflexivity.
Qed.
Lemma reads_number cs : Forall read_ok cs -> forall n,
  fold_left (fun n c => match c with Number s d => int_val s d | _ => n end) cs n = n.
Proof. induction 1 as [|c cs H HF IH]; intros n; [reflexivity|]. cbn [fold_left]. destruct c; try contradiction; apply IH. Qed.

Lemma reads_parse now d cs : Wd d -> r_trans (d_robot d) = false -> cs <> [] -> Forall read_ok cs ->
  parse now d (text_of cs) = Ok (d, [DSend (flat_map (answer A fwd p2l print d) cs)]).
Proof.
  intros W T NE H. unfold dev_parse.
  rewrite parse_commands; [|exact NE|eapply Forall_impl; [|exact H]; exact read_command_ok].
  unfold instruction_acts, instruction_number, last_kind, number_of. rewrite reads_kind, reads_number by auto.
  cbn [bind DeviceModel.exec_acts DeviceModel.exec_act Z.ltb Z.compare].
  rewrite exec_acts_app, reads_meaning by auto. cbn [bind app DeviceModel.exec_acts DeviceModel.exec_act mril_assign].
  cbn [d_robot with_robot]. f_equal. f_equal. exact (untouched d T).
Qed.
Lemma numbered_reads_parse now d s ds cs : Wd d -> r_trans (d_robot d) = false -> cs <> [] -> Forall read_ok cs ->
  int_ok s ds -> zlen (show_int s ds) <= 18 -> 0 < int_val s ds ->
  parse now d (text_of (Number s ds :: cs)) =
  Ok (d, [DSend (started_msg (int_val s ds));
          DSend (finished_msg (int_val s ds) ++ 32 :: flat_map (answer A fwd p2l print d) cs)]).
Proof.
  intros W T NE H I L P. unfold dev_parse.
  rewrite parse_commands; [|discriminate|constructor; [|eapply Forall_impl; [|exact H]; exact read_command_ok]].
  2:{ split; [cbn [show]; rewrite zlen_cons; lia|exact I]. }
  unfold instruction_acts, instruction_number, last_kind, number_of. cbn [fold_left]. rewrite reads_kind, reads_number by auto.
  apply Z.ltb_lt in P. rewrite P.
  cbn [bind DeviceModel.exec_acts DeviceModel.exec_act flat_map meaning app].
  rewrite exec_acts_app, reads_meaning by auto. cbn [bind app DeviceModel.exec_acts DeviceModel.exec_act mril_assign].
  cbn [d_robot with_robot]. f_equal. f_equal. exact (untouched d T).
Qed.

Lemma process_trans r r' evs : r_process A fwd inv l2p p2l limits r = Ok (r', evs) -> r_trans r' = r_trans r.
Proof.
  unfold r_process. destruct (r_state r) eqn:S; intros H.
  - inversion H; auto.
  - destruct (all_at_target A r); [|inversion H; auto].
    destruct (r_cur r =? r_total r); [inversion H; reflexivity|].
    apply start_move_frame in H. cbn in H. tauto.
  - apply start_move_frame in H. tauto.
  - destruct (r_trans r) eqn:T.
    { unfold r_prepare in H. rewrite T in H. injection H as <- <-. exact T. }
    destruct (r_achg r) eqn:B1; destruct (r_pchg r) eqn:B2.
    1:{ unfold r_prepare in H. rewrite T, B1, B2 in H. cbn [andb] in H. inversion H. cbn. exact T. }
    all: apply prepare_cases in H as [(T' & _)|[(_ & B1' & B2' & _)|(_ & B & [(Q & -> & ->)|(Q & n & Hn & H)])]]; try congruence.
    all: try (change (r_trans (prepared A fwd inv p2l r) = false); rewrite prepared_trans; exact T).
    all: apply start_move_frame in H; destruct H as (_ & _ & _ & _ & _ & H & _); rewrite H; change (r_trans (prepared A fwd inv p2l r) = false); rewrite prepared_trans; exact T.
Qed.

(** ** acknowledgements *)
Lemma sent_app (a b : list (dev_ev A)) : sent (a ++ b) = sent a ++ sent b.
Proof. apply flat_map_app. Qed.
Lemma sent_pins ps : sent (map (@DPin A) ps) = [].
Proof. induction ps as [|p ps IH]; [reflexivity|exact IH]. Qed.

Lemma meaning_sent now c d buf d' buf' e : command_ok c ->
  exec_acts now d buf (meaning c) = Ok (d', buf', e) -> sent e = map started_msg (numbers [c]) /\ d_mril d' = d_mril d.
Proof.
  intros _. destruct c as [| |a|j|s ds|n|a n|j n|p l|p l|s ds|s ds|l n]; cbn [meaning numbers flat_map app map];
    repeat match goal with |- context [if ?b then _ else _] => destruct b end;
    cbn [DeviceModel.exec_acts DeviceModel.exec_act read_item];
    repeat match goal with
    | |- context [bind (Ok ?x)] => cbn [bind]
    | |- context [set_angle ?a ?b ?c ?d] => destruct (set_angle a b c d)
    | |- context [zget ?a ?b] => destruct (zget a b)
    | |- context [zset ?a ?b ?c] => destruct (zset a b c)
    | |- context [io_addCondition ?a ?b ?c ?d] => destruct (io_addCondition a b c d) as [[? ?]|]
    | |- context [io_setOutput ?a ?b ?c] => destruct (io_setOutput a b c)
    end; cbn [bind]; intros E; try discriminate; injection E as <- <- <-; rewrite ?app_nil_r, ?sent_pins; split; reflexivity.
Qed.
Lemma meanings_sent now cs : Forall command_ok cs -> forall d buf d' buf' e,
  exec_acts now d buf (flat_map meaning cs) = Ok (d', buf', e) -> sent e = map started_msg (numbers cs) /\ d_mril d' = d_mril d.
Proof.
  induction 1 as [|c cs H HF IH]; intros d buf d' buf' e E; cbn [flat_map] in E.
  - cbn in E. injection E as <- <- <-. split; reflexivity.
  - rewrite exec_acts_app in E.
    destruct (exec_acts now d buf (meaning c)) as [[[d1 b1] e1]|] eqn:E1; cbn [bind] in E; [|discriminate].
    destruct (exec_acts now d1 b1 (flat_map meaning cs)) as [[[d2 b2] e2]|] eqn:E2; cbn [bind] in E; [|discriminate].
    injection E as <- <- <-. apply meaning_sent in E1 as [S1 M1]; [|exact H]. apply IH in E2 as [S2 M2].
    rewrite sent_app, S1, S2, <- map_app, M2. split; [|exact M1]. f_equal. unfold numbers. cbn [flat_map]. now rewrite app_nil_r.
Qed.
Lemma write_parse now d cs d1 e1 : cs <> [] -> Forall command_ok cs -> last_kind cs = WRITE ->
  parse now d (text_of cs) = Ok (d1, e1) ->
  sent e1 = map started_msg (numbers cs) /\ d_mril d1 = mkMril (number_of cs) (mdone (d_mril d)).
Proof.
  intros NE H K. unfold dev_parse. rewrite parse_commands by auto. unfold instruction_acts, instruction_number. rewrite K.
  cbn [bind DeviceModel.exec_acts DeviceModel.exec_act]. rewrite exec_acts_app.
  set (d0 := with_robot A d (with_trans A (d_robot d) true)).
  destruct (exec_acts now d0 [] (flat_map meaning cs)) as [[[d2 b2] e2]|] eqn:E; cbn [bind]; [|discriminate].
  cbn [app DeviceModel.exec_acts DeviceModel.exec_act bind mril_assign d_mril with_robot with_mril]. intros X. injection X as <- <-.
  apply meanings_sent in E as [S M]; [|exact H]. rewrite app_nil_r. split; [exact S|].
  cbn [d_mril with_mril with_robot]. rewrite M. reflexivity.
Qed.

Lemma robot_silent (l : list (rev A)) : sent (flat_map (robot_ev A print) l) = [].
Proof.
  induction l as [|x l IH]; [reflexivity|]. cbn [flat_map]. rewrite sent_app, IH, app_nil_r. destruct x; reflexivity.
Qed.
Lemma dev_robot_silent d d' e : dev_robot A fwd inv l2p p2l limits print d = Ok (d', e) -> sent e = [] /\ d_mril d' = d_mril d.
Proof.
  unfold dev_robot. destruct (r_process A fwd inv l2p p2l limits (d_robot d)) as [[r evs]|]; cbn [bind]; [|discriminate].
  intros E. injection E as <- <-. split; [apply robot_silent|reflexivity].
Qed.
Lemma dev_tick_mril d d' : dev_tick A d = Ok d' -> d_mril d' = d_mril d.
Proof.
  unfold dev_tick. destruct (r_tick A (d_robot d) 20); cbn [bind]; [|discriminate].
  destruct (tick_axes A (d_axes d) 20); cbn [bind]; [|discriminate]. intros E. injection E as <-. reflexivity.
Qed.
Lemma dev_poll_cases d now lv :
  (all_finished d now lv /\
     dev_poll A now lv d = (with_mril A (with_io A d []) (mkMril (if 0 <? pending (d_mril d) then -1 else pending (d_mril d)) true),
                            if 0 <? pending (d_mril d) then [DSend (finished_msg (pending (d_mril d)))] else [])) \/
  (~ all_finished d now lv /\
     exists io, (io = d_io d \/ io = []) /\ dev_poll A now lv d = (with_mril A (with_io A d io) (mkMril (pending (d_mril d)) false), [])).
Proof.
  unfold dev_poll, all_finished. destruct (io_isDone_spec lv (d_io d)) as (S1 & S2 & S3).
  destruct (io_isDone lv (d_io d)) as [b io] eqn:EI. cbn [fst snd] in *. unfold mril_poll, wait_isDone.
  destruct b; cbn [andb].
  - specialize (S2 eq_refl). subst io. assert (AM : all_met lv (d_io d)) by exact (proj1 S1 eq_refl).
    destruct (is_moving (d_robot d)); cbn [negb andb].
    + right. split; [intros (_ & X & _); discriminate|]. exists []. split; [now right|reflexivity].
    + destruct (Z.ltb_spec (d_wait d) now).
      * left. split; [auto|]. destruct (0 <? pending (d_mril d)); reflexivity.
      * right. split; [intros (_ & _ & X); lia|]. exists []. split; [now right|reflexivity].
  - specialize (S3 eq_refl). subst io. right. split; [intros (X & _); pose proof (proj2 S1 X); discriminate|].
    exists (d_io d). split; [now left|reflexivity].
Qed.

Notation run := (between_run A fwd inv l2p p2l limits print).
Notation step := (between_step A fwd inv l2p p2l limits print).
Lemma between_run_app a : forall b d,
  run d (a ++ b) = do (d1, e1) <- run d a; do (d2, e2) <- run d1 b; Ok (d2, e1 ++ e2).
Proof.
  induction a as [|x a IH]; intros b d; cbn [app between_run bind].
  - destruct (run d b) as [[? ?]|]; reflexivity.
  - destruct (step d x) as [[d1 e1]|]; cbn [bind]; [|reflexivity]. rewrite IH.
    destruct (run d1 a) as [[d2 e2]|]; cbn [bind]; [|reflexivity].
    destruct (run d2 b) as [[d3 e3]|]; cbn [bind]; [|reflexivity]. now rewrite app_assoc.
Qed.
Lemma run_silent bs : forall d d2 e2, run d bs = Ok (d2, e2) ->
  (never_finished A fwd inv l2p p2l limits print d bs -> sent e2 = [] /\ pending (d_mril d2) = pending (d_mril d)) /\
  (pending (d_mril d) <= 0 -> sent e2 = [] /\ pending (d_mril d2) <= 0).
Proof.
  induction bs as [|b bs IH]; intros d d2 e2 E; cbn [between_run] in E.
  { injection E as <- <-. split; intros; split; auto. }
  destruct (step d b) as [[d1 e1]|] eqn:S; cbn [bind] in E; [|discriminate].
  destruct (run d1 bs) as [[d3 e3]|] eqn:R; cbn [bind] in E; [|discriminate]. injection E as <- <-.
  destruct (IH _ _ _ R) as [I1 I2]. cbn [never_finished]. rewrite S, sent_app.
  assert (C : (match b with BPoll now lv => ~ all_finished d now lv | _ => True end -> sent e1 = [] /\ pending (d_mril d1) = pending (d_mril d)) /\
              (pending (d_mril d) <= 0 -> sent e1 = [] /\ pending (d_mril d1) <= 0)).
  { destruct b as [| |now lv]; cbn [between_step] in S.
    - apply dev_robot_silent in S as [S1 S2]. rewrite S2. auto.
    - destruct (dev_tick A d) as [d'|] eqn:T; cbn [bind] in S; [|discriminate]. injection S as <- <-.
      apply dev_tick_mril in T. rewrite T. auto.
    - injection S as S. destruct (dev_poll_cases d now lv) as [[AF E]|[NAF (io & _ & E)]]; rewrite S in E; injection E as -> ->.
      + split; [contradiction|]. intros P. destruct (Z.ltb_spec 0 (pending (d_mril d))); [lia|]. split; [reflexivity|exact P].
      + split; intros; split; auto. }
  destruct C as [C1 C2]. split.
  - intros [N1 N2]. destruct (C1 N1) as [-> P]. destruct (I1 N2) as [-> Q]. split; [reflexivity|congruence].
  - intros P. destruct (C2 P) as [-> Q]. destruct (I2 Q) as [-> Q']. auto.
Qed.
End Dev.
