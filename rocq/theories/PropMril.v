(** * C20, C21, C23, C24 (parser), C25 (parser), C50: MRILParser *)
From Verif Require Import Base MrilModel MrilSpec MrilProofs.
Open Scope Z_scope.

(** ** C20 *)

(** A non-empty sequence of commands, written one after the other, is executed command
    by command, in order, inside one transaction; a trailing read command sends the
    reply, a trailing write command makes its number pending. *)
Theorem C20_commands_in_order : forall cs, cs <> [] -> Forall command_ok cs ->
  mril_parse (text_of cs) = Ok (instruction_acts cs, instruction_number cs).
Proof. exact parse_commands. Qed.
Print Assumptions C20_commands_in_order.

(** the same for arbitrary texts cut into capital letter + digits, points, minus signs:
    executing the whole is executing the pieces in order (each with the number left by
    the piece before), also when a piece is not a command of the language *)
Theorem C20_split_at_letters : forall cs, cs <> [] -> Forall chunk cs ->
  mril_parse (concat cs) =
  do (acts, ty, num) <- run_chunks NONE (-1) cs;
  Ok (AStart :: acts ++ AEnd ::
        match ty with READ => [AReply (if 0 <? num then Some num else None)] | _ => [] end,
      match ty with WRITE => Some num | _ => None end).
Proof.
  intros cs Hne H. unfold mril_parse.
  destruct (concat cs) as [|x t] eqn:E.
  - exfalso. destruct cs as [|[|s b] cs]; [congruence| |discriminate]. inversion H as [|? ? K _]; destruct K.
  - rewrite <- E, scan_chunks by auto. reflexivity.
Qed.
Print Assumptions C20_split_at_letters.

(** "N7M1X-12.5R215I31" *)
Definition demo : list command :=
  [Number false [7]; SetMethod false [1]; SetPose AxX (mkNum true [1; 2] (Some [5]));
   SetJoint 2 (mkNum false [1; 5] None); WaitInput 3 1].
Lemma demo_ok : Forall command_ok demo.
Proof.
  repeat constructor; try (vm_compute; discriminate); cbn; unfold digit_ok; try lia; try discriminate.
Qed.
Example C20_demo :
  text_of demo = [78; 55; 77; 49; 88; 45; 49; 50; 46; 53; 82; 50; 49; 53; 73; 51; 49] /\
  mril_parse (text_of demo) =
    Ok ([AStart; AAck0 7; AMethod 1; APose 0 (Plain (NDec true 125 (-1)));
         AAngle 2 (DegToRad (NDec false 15 0)); ACondition 3 1; AEnd], Some 7).
Proof. split; vm_compute; reflexivity. Qed.

(** ** C21 *)

(** every numeral reaches its setter with exactly its digits, sign and decimal point *)
Theorem C21_numbers_unchanged : forall n, numeral_ok n ->
  (forall a, zlen (show_num n) <= 18 ->
     mril_parse (axis_letter a :: show_num n) =
     Ok ([AStart; APose (axis_index a) (if is_angle a then DegToRad (num_val n) else Plain (num_val n)); AEnd], Some (-1))) /\
  (zlen (show_num n) <= 18 ->
     mril_parse (86 :: show_num n) =
     Ok ([AStart; AVelocity (num_val n); AAxisVelocity (num_val n); AEnd], Some (-1))) /\
  (forall j, 0 <= j < 6 -> zlen (show_num n) <= 17 ->
     mril_parse (82 :: 48 + j :: show_num n) =
     Ok ([AStart; AAngle j (DegToRad (num_val n)); AEnd], Some (-1))) /\
  (forall j, 6 <= j <= 9 -> zlen (show_num n) <= 17 ->
     mril_parse (82 :: 48 + j :: show_num n) =
     Ok ([AStart; AAxis (j - 6) (Over180Pi (num_val n)); AEnd], Some (-1))).
Proof.
  intros n H. splits.
  - intros a HL. pose proof (parse_commands [SetPose a n]) as P. cbn [text_of flat_map show] in P.
    rewrite app_nil_r in P. rewrite P; [reflexivity|discriminate|]. constructor; [|constructor].
    split; [cbn [show]; rewrite zlen_cons; lia|exact H].
  - intros HL. pose proof (parse_commands [SetVelocity n]) as P. cbn [text_of flat_map show] in P.
    rewrite app_nil_r in P. rewrite P; [reflexivity|discriminate|]. constructor; [|constructor].
    split; [cbn [show]; rewrite zlen_cons; lia|exact H].
  - intros j Hj HL. pose proof (parse_commands [SetJoint j n]) as P. cbn [text_of flat_map show] in P.
    rewrite app_nil_r in P. rewrite P; [|discriminate|].
    + unfold instruction_acts. cbn [flat_map meaning]. destruct (Z.ltb_spec j 6); [reflexivity|lia].
    + constructor; [|constructor]. split; [cbn [show]; rewrite !zlen_cons; lia|]. split; auto. unfold digit_ok; lia.
  - intros j Hj HL. pose proof (parse_commands [SetJoint j n]) as P. cbn [text_of flat_map show] in P.
    rewrite app_nil_r in P. rewrite P; [|discriminate|].
    + unfold instruction_acts. cbn [flat_map meaning]. destruct (Z.ltb_spec j 6); [lia|reflexivity].
    + constructor; [|constructor]. split; [cbn [show]; rewrite !zlen_cons; lia|]. split; auto. unfold digit_ok; lia.
Qed.
Print Assumptions C21_numbers_unchanged.

Theorem C21_integers_unchanged : forall s ds, int_ok s ds -> zlen (show_int s ds) <= 18 ->
  mril_parse (68 :: show_int s ds) = Ok ([AStart; AWait (int_val s ds mod 4294967296); AEnd], Some (-1)) /\
  mril_parse (78 :: show_int s ds) = Ok ([AStart; AAck0 (int_val s ds); AEnd], None) /\
  (int_val s ds = 0 -> mril_parse (77 :: show_int s ds) = Ok ([AStart; AMethod 0; AEnd], Some (-1))) /\
  (int_val s ds = 1 -> mril_parse (77 :: show_int s ds) = Ok ([AStart; AMethod 1; AEnd], Some (-1))).
Proof.
  intros s ds H HL.
  assert (K : 1 + zlen (show_int s ds) <= 19) by lia.
  splits.
  - pose proof (parse_commands [Delay s ds]) as P. cbn [text_of flat_map show] in P.
    rewrite app_nil_r in P. rewrite P; [reflexivity|discriminate|]. constructor; [|constructor].
    split; [cbn [show]; rewrite zlen_cons; lia|exact H].
  - pose proof (parse_commands [Number s ds]) as P. cbn [text_of flat_map show] in P.
    rewrite app_nil_r in P. rewrite P; [reflexivity|discriminate|]. constructor; [|constructor].
    split; [cbn [show]; rewrite zlen_cons; lia|exact H].
  - intros E. pose proof (parse_commands [SetMethod s ds]) as P. cbn [text_of flat_map show] in P.
    rewrite app_nil_r in P. rewrite P; [|discriminate|].
    + unfold instruction_acts. cbn [flat_map meaning]. rewrite E. reflexivity.
    + constructor; [|constructor].
      split; [cbn [show]; rewrite zlen_cons; lia|exact H].
  - intros E. pose proof (parse_commands [SetMethod s ds]) as P. cbn [text_of flat_map show] in P.
    rewrite app_nil_r in P. rewrite P; [|discriminate|].
    + unfold instruction_acts. cbn [flat_map meaning]. rewrite E. reflexivity.
    + constructor; [|constructor].
      split; [cbn [show]; rewrite zlen_cons; lia|exact H].
Qed.
Print Assumptions C21_integers_unchanged.

(** -12.50 *)
Example C21_demo :
  numeral_ok (mkNum true [1; 2] (Some [5; 0])) /\ show_num (mkNum true [1; 2] (Some [5; 0])) = [45; 49; 50; 46; 53; 48] /\
  num_val (mkNum true [1; 2] (Some [5; 0])) = NDec true 1250 (-2) /\ int_ok true [1; 0].
Proof.
  split; [|split; [reflexivity|split; [reflexivity|]]].
  - split; [repeat constructor; unfold digit_ok; lia|]. split; [repeat constructor; unfold digit_ok; lia|left; discriminate].
  - split; [discriminate|]. split; [repeat constructor; unfold digit_ok; lia|vm_compute; discriminate].
Qed.

(** ** C23 *)

(** neither a command character nor a comment start *)
Definition unknown (c : Z) : Prop := mril_accepts c = false /\ c <> 35 /\ c <> 40.

Lemma unknown_not_upper u : unknown u -> isupper u = false.
Proof. intros [H _]. unfold mril_accepts in H. now apply orb_false_iff in H as [_ H]. Qed.

Lemma scan_unknown u : unknown u -> forall cmd ty num r,
  mril_scan cmd ty num (u :: r) = mril_scan cmd ty num r.
Proof.
  intros (U0 & U1 & U2) cmd ty num r. apply Z.eqb_neq in U1, U2.
  change (mril_scan cmd ty num (u :: r)) with
      (if (u =? 35) || (u =? 40) then Ok ([ABreakPrint], ty, num)
       else if mril_accepts u then
        if zlen cmd <? MRIL_COMMAND_SIZE then
          if cmd_finished r then
            do (acts, ty1, num1) <- mril_command (cmd ++ [u]) num;
            do (acts2, ty2, num2) <- mril_scan [] ty1 num1 r;
            Ok (acts ++ acts2, ty2, num2)
          else mril_scan (cmd ++ [u]) ty num r
        else Ub OobWrite
      else mril_scan cmd ty num r).
  now rewrite U0, U1, U2.
Qed.

Lemma scan_insert u d b : unknown u -> isupper d = false -> d <> 35 -> d <> 40 ->
  forall a cmd ty num, mril_scan cmd ty num (a ++ u :: d :: b) = mril_scan cmd ty num (a ++ d :: b).
Proof.
  intros HU HD D1 D2. pose proof (unknown_not_upper u HU) as HU2. destruct HU as (U0 & U1 & U2).
  assert (CF : forall r, cmd_finished (u :: r) = false).
  { intros r. cbn. rewrite HU2. apply Z.eqb_neq in U1, U2. now rewrite U1, U2. }
  assert (CD : forall r, cmd_finished (d :: r) = false).
  { intros r. cbn. rewrite HD. apply Z.eqb_neq in D1, D2. now rewrite D1, D2. }
  assert (SU : forall cmd ty num, mril_scan cmd ty num (u :: d :: b) = mril_scan cmd ty num (d :: b)).
  { intros cmd ty num. cbn [mril_scan]. apply Z.eqb_neq in U1, U2. rewrite U1, U2, U0. reflexivity. }
  induction a as [|x a IH]; intros cmd ty num; cbn [app].
  - apply SU.
  - assert (E : cmd_finished (a ++ u :: d :: b) = cmd_finished (a ++ d :: b)).
    { destruct a as [|y a]; cbn [app]; [now rewrite CF, CD|reflexivity]. }
    cbn [mril_scan]. rewrite E.
    destruct ((x =? 35) || (x =? 40)); auto. destruct (mril_accepts x); [|apply IH].
    destruct (zlen cmd <? MRIL_COMMAND_SIZE); auto.
    destruct (cmd_finished (a ++ d :: b)); [|apply IH].
    destruct (mril_command (cmd ++ [x]) num) as [[[ac t1] n1]|]; cbn [bind]; auto. now rewrite IH.
Qed.

(** the part that holds: an unknown character that is followed by a character which does
    not end the command can be removed, anywhere in any text *)
Theorem C23_unknown_inside_number_partial : forall a u d b,
  unknown u -> isupper d = false -> d <> 35 -> d <> 40 ->
  mril_parse (a ++ u :: d :: b) = mril_parse (a ++ d :: b).
Proof.
  intros a u d b HU HD D1 D2. unfold mril_parse.
  destruct a as [|x a]; cbn [app].
  - pose proof (scan_insert u d b HU HD D1 D2 []) as E. cbn [app] in E. now rewrite E.
  - pose proof (scan_insert u d b HU HD D1 D2 (x :: a)) as E. cbn [app] in E. now rewrite E.
Qed.
Print Assumptions C23_unknown_inside_number_partial.

Lemma scan_pending body : forall cmd c ty num r, mril_accepts c = true -> c <> 35 -> c <> 40 ->
  Forall bodyc body -> zlen cmd + 1 + zlen body <= 20 -> cmd_finished r = false ->
  mril_scan cmd ty num (c :: body ++ r) = mril_scan (cmd ++ c :: body) ty num r.
Proof.
  induction body as [|b body IH]; intros cmd c ty num r HA H35 H40 HB HL HF; cbn [app].
  - cbn [mril_scan]. apply Z.eqb_neq in H35, H40. rewrite H35, H40, HA. cbn [orb].
    unfold MRIL_COMMAND_SIZE. destruct (Z.ltb_spec (zlen cmd) 20); [|change (zlen (@nil Z)) with 0 in HL; lia].
    now rewrite HF.
  - inversion HB as [|? ? Hb HB']; subst. destruct (body_accepts b Hb) as (B1 & B2 & B3 & B4).
    rewrite zlen_cons in HL. pose proof (zlen_nonneg body).
    change (mril_scan cmd ty num (c :: b :: body ++ r)) with
      (if (c =? 35) || (c =? 40) then Ok ([ABreakPrint], ty, num)
       else if mril_accepts c then
        if zlen cmd <? MRIL_COMMAND_SIZE then
          if cmd_finished (b :: body ++ r) then
            do (acts, ty1, num1) <- mril_command (cmd ++ [c]) num;
            do (acts2, ty2, num2) <- mril_scan [] ty1 num1 (b :: body ++ r);
            Ok (acts ++ acts2, ty2, num2)
          else mril_scan (cmd ++ [c]) ty num (b :: body ++ r)
        else Ub OobWrite
      else mril_scan cmd ty num (b :: body ++ r)).
    apply Z.eqb_neq in H35, H40. rewrite H35, H40, HA. cbn [orb].
    unfold MRIL_COMMAND_SIZE. destruct (Z.ltb_spec (zlen cmd) 20); [|lia].
    assert (CF : cmd_finished (b :: body ++ r) = false).
    { cbn. rewrite B2. apply Z.eqb_neq in B3, B4. now rewrite B3, B4. }
    rewrite CF, IH; auto.
    + rewrite <- app_assoc. reflexivity.
    + rewrite zlen_app. change (zlen [c]) with 1. lia.
Qed.

(** the part that does not: an unknown character at the end of the text loses the last
    command, whatever it is *)
Theorem C23_trailing_unknown_refuted : forall c u, chunk c -> unknown u ->
  mril_parse (c ++ [u]) = Ok ([AStart; AEnd], None).
Proof.
  intros c u HC HU. pose proof (unknown_not_upper u HU) as HU2. destruct HU as (U0 & U1 & U2).
  destruct c as [|sym body]; [destruct HC|]. destruct HC as (H1 & H2 & H3).
  destruct (upper_accepts sym H1) as (A1 & A2 & A3).
  unfold mril_parse. cbn [app]. rewrite zlen_cons in H3.
  rewrite scan_pending; auto.
  - cbn [mril_scan]. apply Z.eqb_neq in U1, U2. rewrite U1, U2, U0. reflexivity.
  - change (zlen (@nil Z)) with 0. lia.
  - cbn. rewrite HU2. apply Z.eqb_neq in U1, U2. now rewrite U1, U2.
Qed.
Print Assumptions C23_trailing_unknown_refuted.

(** and between two commands it glues them: only the first symbol is interpreted, with
    the rest of both as its value text *)
Theorem C23_glue_refuted : forall c1 u c2, chunk c1 -> chunk c2 -> unknown u ->
  zlen c1 + zlen c2 <= 19 ->
  mril_parse (c1 ++ u :: c2) =
  do (acts, ty, num) <- mril_command (c1 ++ c2) (-1);
  Ok (AStart :: acts ++ AEnd ::
        match ty with READ => [AReply (if 0 <? num then Some num else None)] | _ => [] end,
      match ty with WRITE => Some num | _ => None end).
Proof.
  intros c1 u c2 HC HC2 HU HL. pose proof (unknown_not_upper u HU) as HU2. destruct HU as (U0 & U1 & U2).
  destruct c1 as [|sym body]; [destruct HC|]. destruct HC as (H1 & H2 & H3).
  destruct (upper_accepts sym H1) as (A1 & A2 & A3).
  destruct c2 as [|sym2 body2]; [destruct HC2|]. destruct HC2 as (G1 & G2 & G3).
  destruct (upper_accepts sym2 G1) as (B1 & B2 & B3).
  unfold mril_parse. cbn [app]. rewrite !zlen_cons in *.
  rewrite scan_pending; auto.
  - rewrite scan_unknown by (split; auto). cbn [app].
    pose proof (scan_body body2 (sym :: body) sym2 NONE (-1) [] B1 B2 B3 G2) as E.
    rewrite !app_nil_r in E. rewrite E; [|rewrite zlen_cons; lia|reflexivity].
    cbn [app mril_scan]. destruct (mril_command (sym :: body ++ sym2 :: body2) (-1)) as [[[a t] n]|]; cbn [bind]; auto.
    now rewrite app_nil_r.
  - change (zlen (@nil Z)) with 0. pose proof (zlen_nonneg body2). lia.
  - cbn. rewrite HU2. apply Z.eqb_neq in U1, U2. now rewrite U1, U2.
Qed.
Print Assumptions C23_glue_refuted.

(** Glued letters can even become a decimal exponent: "X5+E-2" moves X to 0.05. *)
Lemma atof_exp ds t : Forall digit_ok ds -> ds <> [] ->
  c_atof (show_digits ds ++ 69 :: t) = NDec false (val10 ds) (read_exp 69 (69 :: t)).
Proof.
  intros Hd Nd. destruct ds as [|x r]; [congruence|].
  assert (Hx : digit_ok x) by now inversion Hd. unfold digit_ok in Hx.
  assert (E0 : c_atof (show_digits (x :: r) ++ 69 :: t) = read_unsigned false (show_digits (x :: r) ++ 69 :: t)).
  { cbn [show_digits map app]. unfold c_atof. assert (x + 48 <> 45) by lia. set (c := x + 48) in *.
    destruct c as [|p|p]; try reflexivity.
    repeat (destruct p as [p|p|]; try reflexivity). congruence. }
  rewrite E0. unfold read_unsigned.
  assert (E1 : prefix [73; 78; 70] (show_digits (x :: r) ++ 69 :: t) = false).
  { cbn [show_digits map app prefix]. destruct (Z.eqb_spec 73 (x + 48)); auto; lia. }
  assert (E2 : prefix [78; 65; 78] (show_digits (x :: r) ++ 69 :: t) = false).
  { cbn [show_digits map app prefix]. destruct (Z.eqb_spec 78 (x + 48)); auto; lia. }
  assert (E3 : prefix [48; 88] (show_digits (x :: r) ++ 69 :: t) = false).
  { destruct r as [|y r]; cbn [show_digits map app prefix].
    - change (88 =? 69) with false. cbn. apply andb_false_r.
    - inversion Hd as [|? ? _ H2]; subst. inversion H2 as [|? ? Hy _]; subst. unfold digit_ok in Hy.
      destruct (Z.eqb_spec 88 (y + 48)); [lia|]. cbn. apply andb_false_r. }
  rewrite E1, E2, E3. rewrite span_show by (auto; reflexivity). rewrite digits_val_show.
  cbn [show_digits map]. reflexivity.
Qed.

Theorem C23_exponent_refuted : forall a u ds es, unknown u ->
  Forall digit_ok ds -> ds <> [] -> Forall digit_ok es -> es <> [] ->
  zlen ds + zlen es <= 15 ->
  mril_parse ((axis_letter a :: show_digits ds) ++ u :: 69 :: 45 :: show_digits es) =
    Ok ([AStart; APose (axis_index a) ((if is_angle a then DegToRad else Plain) (NDec false (val10 ds) (- val10 es))); AEnd],
        Some (-1)) /\
  mril_parse ((axis_letter a :: show_digits ds) ++ u :: 69 :: show_digits es) =
    Ok ([AStart; APose (axis_index a) ((if is_angle a then DegToRad else Plain) (NDec false (val10 ds) (val10 es))); AEnd],
        Some (-1)).
Proof.
  intros a u ds es HU Hd Nd He Ne HL.
  assert (HA : isupper (axis_letter a) = true) by now destruct a.
  pose proof (zlen_nonneg es). pose proof (zlen_nonneg ds).
  assert (C1 : chunk (axis_letter a :: show_digits ds)).
  { split; [exact HA|]. split; [now apply body_digits|]. rewrite zlen_cons, zlen_show. lia. }
  pose proof (span_show es [] He I) as SE. rewrite app_nil_r in SE.
  assert (CMD : forall t v, read_exp 69 (69 :: t) = v -> zlen ds + zlen t <= 16 ->
    mril_command ((axis_letter a :: show_digits ds) ++ 69 :: t) (-1) =
    Ok ([APose (axis_index a) ((if is_angle a then DegToRad else Plain) (NDec false (val10 ds) v))], WRITE, -1)).
  { intros t v Hv Hl. cbn [app]. unfold mril_command.
    replace (MRIL_COMMAND_SIZE <=? zlen (axis_letter a :: show_digits ds ++ 69 :: t)) with false.
    2:{ symmetry. apply Z.leb_gt. rewrite zlen_cons, zlen_app, zlen_show, zlen_cons. unfold MRIL_COMMAND_SIZE. lia. }
    rewrite atof_exp by auto. rewrite Hv.
    destruct ds as [|x r]; [congruence|]. cbn [show_digits map app].
    destruct a; reflexivity. }
  split.
  - rewrite C23_glue_refuted; auto.
    + rewrite (CMD (45 :: show_digits es) (- val10 es)).
      * reflexivity.
      * cbn [read_exp]. change (69 =? 69) with true. cbv iota. rewrite SE.
        destruct es as [|y r]; [congruence|]. cbn [show_digits map].
        change (y + 48 :: map (fun d => d + 48) r) with (show_digits (y :: r)).
        now rewrite digits_val_show.
      * rewrite zlen_cons, zlen_show. lia.
    + split; [reflexivity|]. split; [constructor; [right; auto|now apply body_digits]|].
      rewrite !zlen_cons, zlen_show. lia.
    + rewrite !zlen_cons, !zlen_show. lia.
  - rewrite C23_glue_refuted; auto.
    + rewrite (CMD (show_digits es) (val10 es)).
      * reflexivity.
      * destruct es as [|y r]; [congruence|].
        assert (Hy : digit_ok y) by now inversion He. unfold digit_ok in Hy.
        cbn [read_exp]. change (69 =? 69) with true. cbv iota.
        assert (N : y + 48 <> 45) by lia.
        cbn [show_digits map] in SE |- *. set (c := y + 48) in *.
        assert (M : match c :: map (fun d => d + 48) r with
                    | 45 :: r' => match span_digits r' with ([], _) => 0 | (d0, _) => - digits_val d0 end
                    | _ => match span_digits (c :: map (fun d => d + 48) r) with ([], _) => 0 | (d0, _) => digits_val d0 end
                    end = match span_digits (c :: map (fun d => d + 48) r) with ([], _) => 0 | (d0, _) => digits_val d0 end).
        { destruct c as [|p|p]; try reflexivity. repeat (destruct p as [p|p|]; try reflexivity). congruence. }
        etransitivity; [exact M|]. rewrite SE. unfold c.
        change (y + 48 :: map (fun d => d + 48) r) with (show_digits (y :: r)).
        now rewrite digits_val_show.
      * rewrite zlen_show. lia.
    + split; [reflexivity|]. split; [now apply body_digits|].
      rewrite !zlen_cons, zlen_show. lia.
    + rewrite !zlen_cons, !zlen_show. lia.
Qed.
Print Assumptions C23_exponent_refuted.

(** X1+2 is X12; "X1,Y2" sets only X; "X15," does nothing *)
Example C23_demo :
  unknown 44 /\ unknown 43 /\ chunk [88; 49] /\
  mril_parse [88; 49; 43; 50] = mril_parse [88; 49; 50] /\
  mril_parse [88; 49; 44; 89; 50] = Ok ([AStart; APose 0 (Plain (NDec false 1 0)); AEnd], Some (-1)) /\
  mril_parse [88; 49; 53; 44] = Ok ([AStart; AEnd], None).
Proof.
  split; [repeat split; discriminate|]. split; [repeat split; discriminate|].
  split; [split; [reflexivity|split; [constructor; [left; lia|constructor]|vm_compute; discriminate]]|].
  split; [vm_compute; reflexivity|]. split; vm_compute; reflexivity.
Qed.

(** ** C24, parser part *)
Definition is_read (c : command) : Prop := kind c = READ.

(** calls that change nothing but the transaction flag and the reply *)
Definition harmless (a : act) : Prop :=
  match a with AStart | AEnd | ARead _ | AReply _ => True | _ => False end.

(** An instruction of read commands only makes harmless calls, one reply at the very
    end, with the values in textual order, and assigns no command number. *)
Theorem C24_reads_only_read : forall cs, cs <> [] -> Forall command_ok cs -> Forall is_read cs ->
  exists rs, mril_parse (text_of cs) = Ok (AStart :: map ARead rs ++ [AEnd; AReply None], None) /\
             map ARead rs = flat_map meaning cs.
Proof.
  intros cs Hne HO HR.
  assert (LK : last_kind cs = READ).
  { destruct (exists_last Hne) as (pre & c & ->). unfold last_kind. rewrite fold_left_app. cbn.
    rewrite Forall_forall in HR. apply HR. apply in_or_app; right; cbn; auto. }
  assert (NO : number_of cs = -1).
  { unfold number_of. clear - HR. induction HR as [|c cs H HR IH]; auto. cbn.
    destruct c; try discriminate; auto. }
  assert (RD : exists rs, map ARead rs = flat_map meaning cs).
  { clear - HR. induction HR as [|c cs H HR [rs IH]]; [exists []; reflexivity|].
    cbn [flat_map]. rewrite <- IH.
    destruct c; try discriminate; cbn [meaning].
    - exists (RMethod :: rs); reflexivity.
    - exists (RVelocity :: rs); reflexivity.
    - eexists (_ :: rs); reflexivity.
    - eexists (_ :: rs); reflexivity.
    - exists rs; reflexivity. }
  destruct RD as [rs RD]. exists rs. split; auto.
  rewrite parse_commands by auto. unfold instruction_acts, instruction_number. rewrite LK, NO, RD. reflexivity.
Qed.
Print Assumptions C24_reads_only_read.

Example C24_demo : let cs := [GetPose AxX; GetJoint 3; GetVelocity] in
  Forall command_ok cs /\ Forall is_read cs /\
  mril_parse (text_of cs) = Ok ([AStart; ARead (RPose 88 0); ARead (RAngle 3); ARead RVelocity; AEnd; AReply None], None).
Proof.
  cbv zeta. split; [|split; [repeat constructor|vm_compute; reflexivity]].
  repeat constructor; try (vm_compute; discriminate).
Qed.

(** ** C25, parser part *)

(** a sequence of polls; [b] says whether inputs, motion and wait are all done.  Result:
    the acknowledgement sent by each poll. *)
Fixpoint run_polls (s : mril) (bs : list bool) : list (option Z) * mril :=
  match bs with
  | [] => ([], s)
  | b :: r => let (s1, m) := mril_poll s b in
              let (ms, s2) := run_polls s1 r in (m :: ms, s2)
  end.

Lemma polls_silent bs : forall s, pending s <= 0 -> fst (run_polls s bs) = map (fun _ => None) bs /\
  pending (snd (run_polls s bs)) = pending s.
Proof.
  induction bs as [|b bs IH]; intros s H; cbn [run_polls map]; auto.
  assert (E : mril_poll s b = (mkMril (pending s) b, None)).
  { unfold mril_poll. destruct (Z.ltb_spec 0 (pending s)); [lia|]. destruct b; reflexivity. }
  rewrite E. destruct (IH (mkMril (pending s) b) H) as [I1 I2].
  destruct (run_polls (mkMril (pending s) b) bs) as [ms s2]. cbn [fst snd pending] in *. now rewrite I1.
Qed.

Theorem C25_acknowledged_exactly_once : forall cs n s,
  cs <> [] -> Forall command_ok cs -> number_of cs = n -> 0 < n -> last_kind cs = WRITE ->
  exists acts o, mril_parse (text_of cs) = Ok (acts, o) /\
    (* the start of execution is reported by the very call that executes it *)
    In (AAck0 n) acts /\
    (* no N1<n> while anything is unfinished *)
    (forall k, fst (run_polls (mril_assign s o) (repeat false k)) = repeat None k) /\
    (* exactly one N1<n>, at the first poll that finds everything done *)
    (forall k later, fst (run_polls (mril_assign s o) (repeat false k ++ true :: later)) =
                     repeat None k ++ Some n :: map (fun _ => None) later).
Proof.
  intros cs n s Hne HO HN Hn HK.
  rewrite parse_commands by auto. unfold instruction_acts, instruction_number. rewrite HK, HN.
  do 2 eexists. split; [reflexivity|].
  assert (WAIT : forall k s l, pending s = n -> exists s', pending s' = n /\
            run_polls s (repeat false k ++ l) = let (m, s2) := run_polls s' l in (repeat None k ++ m, s2)).
  { induction k as [|k IH]; intros s0 l Hs; cbn [repeat app run_polls].
    - exists s0. split; auto. destruct (run_polls s0 l); reflexivity.
    - cbn [mril_poll]. destruct (IH (mkMril (pending s0) false) l Hs) as (s' & P & E).
      exists s'. split; auto. rewrite E. destruct (run_polls s' l); reflexivity. }
  assert (P0 : pending (mril_assign s (Some n)) = n) by reflexivity.
  splits.
  - assert (HI : In (AAck0 n) (flat_map meaning cs)).
    { clear - HN Hn. subst n. unfold number_of in *.
      assert (G : forall v, 0 < fold_left (fun n c => match c with Number s d => int_val s d | _ => n end) cs v ->
        (v <= 0) -> In (AAck0 (fold_left (fun n c => match c with Number s d => int_val s d | _ => n end) cs v)) (flat_map meaning cs)).
      { assert (G2 : forall cs v, fold_left (fun n c => match c with Number s d => int_val s d | _ => n end) cs v = v \/
           In (AAck0 (fold_left (fun n c => match c with Number s d => int_val s d | _ => n end) cs v)) (flat_map meaning cs)).
        { clear. induction cs as [|c cs IH]; intros v; cbn [fold_left flat_map]; auto.
          destruct (IH (match c with Number s d => int_val s d | _ => v end)) as [E|E].
          - destruct c; auto. right. rewrite E. cbn. auto.
          - right. apply in_or_app. auto. }
        intros v H1 H2. destruct (G2 cs v) as [E|E]; auto. rewrite E in H1. lia. }
      apply G; auto. lia. }
    cbn. right. apply in_or_app. left. exact HI.
  - intros k. destruct (WAIT k _ [] P0) as (s' & P & E). rewrite app_nil_r in E. rewrite E. cbn. now rewrite app_nil_r.
  - intros k later. destruct (WAIT k _ (true :: later) P0) as (s' & P & E). rewrite E.
    cbn [run_polls]. unfold mril_poll. rewrite P. destruct (Z.ltb_spec 0 n); [|lia].
    destruct (polls_silent later (mkMril (-1) true)) as [S1 _]; [cbn; lia|].
    destruct (run_polls (mkMril (-1) true) later) as [ms s2]. cbn [fst] in *. now rewrite S1.
Qed.
Print Assumptions C25_acknowledged_exactly_once.

Example C25_demo : Forall command_ok demo /\ number_of demo = 7 /\ last_kind demo = WRITE /\
  fst (run_polls (mril_assign mril_init (Some 7)) [false; false; true; true; false]) =
  [None; None; Some 7; None; None].
Proof. split; [exact demo_ok|]. repeat split. Qed.

(** ** C50 *)
Definition is_number (v : numv) : Prop := exists s m e, v = NDec s m e.
Definition arg_val (a : arg) : numv := match a with Plain v | DegToRad v | Over180Pi v => v end.
Definition act_value (a : act) : option numv :=
  match a with
  | AVelocity v | AAxisVelocity v => Some v
  | APose _ a | AAngle _ a | AAxis _ a => Some (arg_val a)
  | _ => None
  end.
Definition finite_act (a : act) : Prop :=
  match act_value a with Some v => is_number v | None => True end.

Lemma read_unsigned_finite neg t : Forall bodyc t -> is_number (read_unsigned neg t).
Proof.
  intros H. unfold read_unsigned.
  assert (E1 : prefix [73; 78; 70] t = false).
  { destruct t as [|c t]; auto. inversion H; subst. cbn [prefix].
    destruct (Z.eqb_spec 73 c); auto. subst. unfold bodyc in *. lia. }
  assert (E2 : prefix [78; 65; 78] t = false).
  { destruct t as [|c t]; auto. inversion H; subst. cbn [prefix].
    destruct (Z.eqb_spec 78 c); auto. subst. unfold bodyc in *. lia. }
  assert (E3 : prefix [48; 88] t = false).
  { destruct t as [|c [|d t]]; cbn [prefix]; auto; rewrite ?andb_false_r; auto.
    inversion H as [|? ? _ H2]; subst. inversion H2; subst.
    destruct (Z.eqb_spec 88 d); [subst; unfold bodyc in *; lia|]. cbn. now rewrite andb_false_r. }
  rewrite E1, E2, E3. unfold is_number.
  destruct (span_digits t) as [a r].
  assert (G : forall a r, exists s m e, match a with [] => NDec false 0 0 | _ => NDec neg (digits_val a) (read_exp 69 r) end = NDec s m e).
  { intros [|x a'] r'; eauto. }
  destruct r as [|c r']; [apply G|].
  destruct (Z.eq_dec c 46) as [->|Hc].
  - destruct (span_digits r') as [f r'']. destruct a, f; eauto.
  - specialize (G a (c :: r')). destruct c as [|p|p]; auto.
    repeat (destruct p as [p|p|]; auto). congruence.
Qed.

Lemma atof_finite t : Forall bodyc t -> is_number (c_atof t).
Proof.
  intros H. assert (G := read_unsigned_finite false t H).
  unfold c_atof. destruct t as [|c t]; auto. inversion H; subst.
  destruct (Z.eq_dec c 45) as [->|Hc]; [now apply read_unsigned_finite|].
  destruct c as [|p|p]; auto. repeat (destruct p as [p|p|]; auto). congruence.
Qed.

Lemma command_finite cmd num acts ty n : Forall bodyc (tl cmd) ->
  mril_command cmd num = Ok (acts, ty, n) -> Forall finite_act acts.
Proof.
  intros H E. destruct cmd as [|sym body]; [discriminate|]. cbn [tl] in H. unfold mril_command in E.
  pose proof (atof_finite body H) as HF.
  destruct (MRIL_COMMAND_SIZE <=? zlen (sym :: body)); [discriminate|].
  assert (F2 : is_number (c_atof (skipn 2 (sym :: body)))).
  { apply atof_finite. cbn [skipn]. destruct body; [constructor|]. now inversion H. }
  assert (T0 : forall m, finite_act (AMethod m)) by (intros; exact I).
  set (ty0 := if sym =? 78 then NONE else match body with [] => READ | _ => WRITE end) in *. clearbody ty0.
  Ltac fin := match goal with H : Ok _ = Ok _ |- _ => injection H as <- <- <- end;
              repeat constructor; unfold finite_act, act_value, arg_val; auto.
  destruct (sym =? 77).
  { destruct ty0; try (fin; fail); destruct (c_atoi body) as [z|]; cbn [bind] in E; try discriminate;
    injection E as <- <- <-; destruct (z =? 0); [repeat constructor| |repeat constructor|]; destruct (z =? 1); repeat constructor. }
  destruct (sym =? 86). { destruct ty0; fin. }
  destruct (pose_index sym) as [i|].
  { destruct ty0; try (fin; fail); destruct (i <? 3); fin. }
  destruct (sym =? 82).
  { destruct (cmd_at (sym :: body) 1) as [c1|]; cbn [bind] in E; [|discriminate].
    destruct (zlen (sym :: body) <=? 2); destruct (6 <=? digit_opt c1); fin. }
  destruct (sym =? 73).
  { destruct (cmd_at (sym :: body) 1); cbn [bind] in E; [|discriminate].
    destruct (cmd_at (sym :: body) 2); cbn [bind] in E; [|discriminate]. fin. }
  destruct (sym =? 79).
  { destruct (cmd_at (sym :: body) 1); cbn [bind] in E; [|discriminate].
    destruct (cmd_at (sym :: body) 2); cbn [bind] in E; [|discriminate]. fin. }
  destruct (sym =? 68). { destruct (c_atoi body); cbn [bind] in E; [|discriminate]. fin. }
  destruct (sym =? 78). { destruct (c_atoi body); cbn [bind] in E; [|discriminate]. fin. }
  fin.
Qed.

(** a text without unknown characters *)
Definition known (c : Z) : Prop := mril_accepts c = true \/ c = 35 \/ c = 40.

Lemma scan_finite cs : forall cmd ty num acts t n, Forall known cs -> Forall bodyc (tl cmd) ->
  (cmd = [] \/ cmd_finished cs = false) ->
  mril_scan cmd ty num cs = Ok (acts, t, n) -> Forall finite_act acts.
Proof.
  induction cs as [|c cs IH]; intros cmd ty num acts t n HK HB HC E; cbn [mril_scan] in E.
  - injection E as <- <- <-. constructor.
  - inversion HK as [|? ? Kc HK']; subst.
    destruct (Z.eqb_spec c 35); [cbn in E; injection E as <- <- <-; repeat constructor|].
    destruct (Z.eqb_spec c 40); [cbn in E; injection E as <- <- <-; repeat constructor|]. cbn [orb] in E.
    destruct Kc as [Kc|[?|?]]; try congruence. rewrite Kc in E.
    destruct (zlen cmd <? MRIL_COMMAND_SIZE); [|discriminate].
    assert (HB2 : Forall bodyc (tl (cmd ++ [c]))).
    { destruct HC as [->|HC]; [constructor|].
      destruct cmd as [|x cmd]; [constructor|]. cbn [app tl] in *. apply Forall_app; split; auto.
      constructor; [|constructor]. cbn in HC. unfold mril_accepts, isdigit, isupper, bodyc in *.
      apply orb_false_iff in HC as [HC _]. apply orb_false_iff in HC as [HC _]. rewrite HC, orb_false_r in Kc.
      apply orb_true_iff in Kc as [Kc|Kc]; [apply orb_true_iff in Kc as [Kc|Kc]|].
      - apply andb_true_iff in Kc as [Ka Kb]. apply Z.leb_le in Ka, Kb. lia.
      - apply Z.eqb_eq in Kc. lia.
      - apply Z.eqb_eq in Kc. lia. }
    destruct (cmd_finished cs) eqn:CF.
    + destruct (mril_command (cmd ++ [c]) num) as [[[a1 t1] k1]|] eqn:EC; cbn [bind] in E; [|discriminate].
      destruct (mril_scan [] t1 k1 cs) as [[[a2 t2] k2]|] eqn:ES; cbn [bind] in E; [|discriminate].
      injection E as <- <- <-. apply Forall_app; split.
      * eapply command_finite; eauto.
      * eapply (IH [] t1 k1 a2 t2 k2); auto. constructor.
    + eapply IH; eauto.
Qed.

(** every value parse passes on is a finite decimal number, provided the text contains no
    character unknown to MRIL ('+' and ',' of the framing layer) *)
Theorem C50_values_are_numbers_partial : forall text acts o,
  Forall known text -> mril_parse text = Ok (acts, o) -> Forall finite_act acts.
Proof.
  intros text acts o HK E. unfold mril_parse in E. destruct text as [|c text].
  - injection E as <- <-. constructor.
  - destruct (mril_scan [] NONE (-1) (c :: text)) as [[[a t] n]|] eqn:ES; cbn [bind] in E; [|discriminate].
    injection E as <- <-. constructor; [exact I|]. apply Forall_app; split.
    + eapply scan_finite; [| | |exact ES]; auto. constructor.
    + constructor; [exact I|]. destruct t; repeat constructor.
Qed.
Print Assumptions C50_values_are_numbers_partial.

(** ... and not otherwise: a coordinate letter followed by +N+A+N or +I+N+F *)
Theorem C50_non_number_refuted : forall a u, unknown u ->
  mril_parse [axis_letter a; u; 78; u; 65; u; 78] =
    Ok ([AStart; APose (axis_index a) (if is_angle a then DegToRad NNan else Plain NNan); AEnd], Some (-1)) /\
  mril_parse [axis_letter a; u; 73; u; 78; u; 70] =
    Ok ([AStart; APose (axis_index a) (if is_angle a then DegToRad (NInf false) else Plain (NInf false)); AEnd], Some (-1)).
Proof.
  intros a u HU. pose proof (unknown_not_upper u HU) as U3. pose proof (scan_unknown u HU) as SU. destruct HU as (U0 & U1 & U2).
  apply Z.eqb_neq in U1, U2.
  assert (SC : forall cmd ty num c r, isupper c = true -> zlen cmd < 20 ->
     mril_scan cmd ty num (c :: u :: r) = mril_scan (cmd ++ [c]) ty num r).
  { intros cmd ty num c r Hc HL. destruct (upper_accepts c Hc) as (A & B & C). apply Z.eqb_neq in B, C.
    rewrite <- (SU (cmd ++ [c])).
    change (mril_scan cmd ty num (c :: u :: r)) with
      (if (c =? 35) || (c =? 40) then Ok ([ABreakPrint], ty, num)
       else if mril_accepts c then
        if zlen cmd <? MRIL_COMMAND_SIZE then
          if cmd_finished (u :: r) then
            do (acts, ty1, num1) <- mril_command (cmd ++ [c]) num;
            do (acts2, ty2, num2) <- mril_scan [] ty1 num1 (u :: r);
            Ok (acts ++ acts2, ty2, num2)
          else mril_scan (cmd ++ [c]) ty num (u :: r)
        else Ub OobWrite
      else mril_scan cmd ty num (u :: r)).
    rewrite A, B, C. cbn [orb]. unfold MRIL_COMMAND_SIZE. destruct (Z.ltb_spec (zlen cmd) 20); [|lia].
    cbn [cmd_finished]. rewrite U3, U1, U2. reflexivity. }
  assert (HA : isupper (axis_letter a) = true) by now destruct a.
  unfold mril_parse. split;
    rewrite !SC by (auto; vm_compute; reflexivity); cbn [app]; destruct a; vm_compute; reflexivity.
Qed.
Print Assumptions C50_non_number_refuted.

Example C50_demo : Forall known [88; 45; 49; 46; 53; 89; 50] /\
  mril_parse [88; 45; 49; 46; 53; 89; 50] = Ok ([AStart; APose 0 (Plain (NDec true 15 (-1))); APose 1 (Plain (NDec false 2 0)); AEnd], Some (-1)).
Proof. split; [repeat constructor|vm_compute; reflexivity]. Qed.
