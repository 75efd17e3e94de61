From Verif Require Import Base MrilModel MrilSpec.
Open Scope Z_scope.

(** ** numerals *)
Lemma isdigit_show d : digit_ok d -> isdigit (d + 48) = true.
Proof. unfold digit_ok, isdigit. intros H. apply andb_true_iff; split; apply Z.leb_le; lia. Qed.

Definition nondigit_head (r : list Z) : Prop := match r with [] => True | c :: _ => isdigit c = false end.

Lemma span_show ds r : Forall digit_ok ds -> nondigit_head r ->
  span_digits (show_digits ds ++ r) = (show_digits ds, r).
Proof.
  intros H Hr. induction H as [|d ds Hd H IH]; cbn [show_digits map app].
  - destruct r as [|c r]; cbn; auto. cbn in Hr. now rewrite Hr.
  - cbn [span_digits]. rewrite isdigit_show by auto. unfold show_digits in IH. now rewrite IH.
Qed.

Lemma digits_val_acc ds : forall v,
  fold_left (fun v c => v * 10 + (c - 48)) (show_digits ds) v = v * 10 ^ zlen ds + val10 ds.
Proof.
  induction ds as [|d ds IH]; intros v; cbn [show_digits map fold_left val10].
  - unfold zlen; cbn. lia.
  - unfold show_digits in IH. rewrite IH, zlen_cons. pose proof (zlen_nonneg ds).
    rewrite Z.pow_add_r by lia. change (10 ^ 1) with 10. ring.
Qed.
Lemma digits_val_show ds : digits_val (show_digits ds) = val10 ds.
Proof. unfold digits_val. rewrite digits_val_acc. lia. Qed.

Lemma show_app a b : show_digits (a ++ b) = show_digits a ++ show_digits b.
Proof. apply map_app. Qed.
Lemma zlen_show ds : zlen (show_digits ds) = zlen ds.
Proof. unfold zlen, show_digits. now rewrite map_length. Qed.

Lemma show_char ds c : Forall digit_ok ds -> In c (show_digits ds) -> 48 <= c <= 57.
Proof.
  intros H HI. apply in_map_iff in HI as (d & <- & HI). rewrite Forall_forall in H.
  specialize (H d HI). unfold digit_ok in H. lia.
Qed.

(** characters of the unsigned part *)
Definition numc (c : Z) : Prop := 48 <= c <= 57 \/ c = 46.

Lemma read_unsigned_dec neg t : Forall numc t ->
  read_unsigned neg t =
    let (a, r) := span_digits t in
    match r with
    | 46 :: r' =>
        let (f, r'') := span_digits r' in
        match a, f with
        | [], [] => NDec false 0 0
        | _, _ => NDec neg (digits_val (a ++ f)) (read_exp 69 r'' - zlen f)
        end
    | _ => match a with
           | [] => NDec false 0 0
           | _ => NDec neg (digits_val a) (read_exp 69 r)
           end
    end.
Proof.
  intros H. unfold read_unsigned.
  assert (E1 : prefix [73; 78; 70] t = false).
  { destruct t as [|c t]; auto. inversion H; subst. cbn [prefix].
    destruct (Z.eqb_spec 73 c); auto. subst. unfold numc in *. lia. }
  assert (E2 : prefix [78; 65; 78] t = false).
  { destruct t as [|c t]; auto. inversion H; subst. cbn [prefix].
    destruct (Z.eqb_spec 78 c); auto. subst. unfold numc in *. lia. }
  assert (E3 : prefix [48; 88] t = false).
  { destruct t as [|c [|d t]]; cbn [prefix]; auto; rewrite ?andb_false_r; auto.
    inversion H as [|? ? _ H2]; subst. inversion H2; subst.
    destruct (Z.eqb_spec 88 d); [subst; unfold numc in *; lia|]. cbn. now rewrite andb_false_r. }
  rewrite E1, E2, E3. reflexivity.
Qed.

Lemma numc_show ds : Forall digit_ok ds -> Forall numc (show_digits ds).
Proof. intros H. apply Forall_forall. intros c Hc. left. eapply show_char; eauto. Qed.

Definition unsigned_text (n : numeral) : list Z :=
  show_digits (nint n) ++ match nfrac n with None => [] | Some f => 46 :: show_digits f end.

Lemma unsigned_numc n : numeral_ok n -> Forall numc (unsigned_text n).
Proof.
  intros [H1 H2]. apply Forall_app; split; [now apply numc_show|].
  destruct (nfrac n) as [f|]; constructor; [right; auto|]. apply numc_show. tauto.
Qed.

Lemma read_show neg n : numeral_ok n ->
  read_unsigned neg (unsigned_text n) =
  num_val (mkNum neg (nint n) (nfrac n)).
Proof.
  intros H. rewrite read_unsigned_dec by (now apply unsigned_numc).
  destruct n as [s a [f|]]; destruct H as [H1 H2]; unfold unsigned_text, num_val; cbn [nint nfrac nneg] in *.
  - rewrite span_show by (auto; reflexivity). cbn [fst snd].
    destruct H2 as [H2 H3].
    pose proof (span_show f [] H2 I) as E. rewrite app_nil_r in E. rewrite E.
    rewrite zlen_show. change (read_exp 69 []) with 0. rewrite <- show_app, digits_val_show.
    replace (0 - zlen f) with (- zlen f) by lia.
    destruct a as [|x a], f as [|y f]; cbn [show_digits map]; try reflexivity.
    exfalso; destruct H3; congruence.
  - rewrite span_show by (auto; exact I). change (read_exp 69 []) with 0. rewrite digits_val_show.
    destruct a; [congruence|reflexivity].
Qed.

Lemma atof_show n : numeral_ok n -> c_atof (show_num n) = num_val n.
Proof.
  intros H. unfold show_num. fold (unsigned_text n).
  pose proof (unsigned_numc n H) as HN.
  assert (E : forall s, read_unsigned s (unsigned_text n) = num_val (mkNum s (nint n) (nfrac n)))
    by (intros; now apply read_show).
  destruct n as [s a f]; cbn [nneg nint nfrac] in *. destruct s; cbn [app].
  - cbn [c_atof]. apply E.
  - unfold c_atof. destruct (unsigned_text (mkNum false a f)) as [|c t] eqn:ET; [apply E|].
    inversion HN as [|? ? Hc HN']; subst.
    assert (c <> 45) by (unfold numc in Hc; lia).
    rewrite E. destruct c as [|p|p]; try reflexivity.
    repeat (destruct p as [p|p|]; try reflexivity). congruence.
Qed.

Lemma val10_nonneg ds : Forall digit_ok ds -> 0 <= val10 ds.
Proof.
  induction 1 as [|d ds Hd H IH]; cbn [val10]; [lia|]. unfold digit_ok in Hd.
  pose proof (Z.pow_nonneg 10 (zlen ds)). nia.
Qed.

Lemma atoi_show s ds : int_ok s ds -> c_atoi (show_int s ds) = Ok (int_val s ds).
Proof.
  intros (H0 & H & HR). unfold show_int, int_val.
  pose proof (span_show ds [] H I) as E. rewrite app_nil_r in E.
  pose proof (val10_nonneg ds H).
  unfold c_atoi. destruct s; cbn [app].
  - rewrite E. cbn [fst]. rewrite digits_val_show.
    destruct (Z.leb_spec (-2147483648) (- val10 ds)), (Z.leb_spec (- val10 ds) 2147483647); try lia. reflexivity.
  - assert (ES : fst (span_digits (show_digits ds)) = show_digits ds) by now rewrite E.
    replace (match show_digits ds with 45 :: r => - digits_val (fst (span_digits r))
             | _ => digits_val (fst (span_digits (show_digits ds))) end) with (val10 ds).
    { destruct (Z.leb_spec (-2147483648) (val10 ds)), (Z.leb_spec (val10 ds) 2147483647); try lia. reflexivity. }
    rewrite ES, digits_val_show.
    destruct ds as [|d ds]; [congruence|]. cbn [show_digits map].
    inversion H as [|? ? Hd _]; subst.
    assert (d + 48 <> 45) by (unfold digit_ok in Hd; lia).
    destruct (d + 48) as [|p|p]; try reflexivity.
    repeat (destruct p as [p|p|]; try reflexivity). congruence.
Qed.

(** ** scanning *)

(** digits, '.' and '-' *)
Definition bodyc (c : Z) : Prop := 48 <= c <= 57 \/ c = 46 \/ c = 45.

Lemma body_accepts c : bodyc c -> mril_accepts c = true /\ isupper c = false /\ c <> 35 /\ c <> 40.
Proof.
  unfold bodyc, mril_accepts, isdigit, isupper. intros H. splits; try lia;
  destruct (Z.leb_spec 48 c), (Z.leb_spec c 57), (Z.eqb_spec c 46), (Z.eqb_spec c 45),
    (Z.leb_spec 65 c), (Z.leb_spec c 90); cbn; auto; lia.
Qed.
Lemma upper_accepts c : isupper c = true -> mril_accepts c = true /\ c <> 35 /\ c <> 40.
Proof.
  intros H. unfold mril_accepts. rewrite H, !orb_true_r.
  unfold isupper in H. apply andb_true_iff in H as [H1 H2]. apply Z.leb_le in H1, H2. splits; auto; lia.
Qed.

Lemma scan_body body : forall cmd c ty num rest,
  mril_accepts c = true -> c <> 35 -> c <> 40 -> Forall bodyc body ->
  zlen cmd + 1 + zlen body <= 20 -> cmd_finished rest = true ->
  mril_scan cmd ty num (c :: body ++ rest) =
  do (acts, ty1, num1) <- mril_command (cmd ++ c :: body) num;
  do (acts2, ty2, num2) <- mril_scan [] ty1 num1 rest;
  Ok (acts ++ acts2, ty2, num2).
Proof.
  induction body as [|b body IH]; intros cmd c ty num rest HA H35 H40 HB HL HF.
  - unfold zlen at 2 in HL. cbn [length] in HL. cbn [app mril_scan].
    destruct (Z.eqb_spec c 35); [congruence|]. destruct (Z.eqb_spec c 40); [congruence|]. cbn [orb].
    rewrite HA. unfold MRIL_COMMAND_SIZE. destruct (Z.ltb_spec (zlen cmd) 20); [|cbn in HL; lia].
    rewrite HF. reflexivity.
  - inversion HB as [|? ? Hb HB']; subst. rewrite zlen_cons in HL. pose proof (zlen_nonneg body).
    destruct (body_accepts b Hb) as (B1 & B2 & B3 & B4).
    change (mril_scan cmd ty num (c :: (b :: body) ++ rest)) with
      (if (c =? 35) || (c =? 40) then Ok ([ABreakPrint], ty, num)
       else if mril_accepts c then
        if zlen cmd <? MRIL_COMMAND_SIZE then
          if cmd_finished (b :: body ++ rest) then
            do (acts, ty1, num1) <- mril_command (cmd ++ [c]) num;
            do (acts2, ty2, num2) <- mril_scan [] ty1 num1 (b :: body ++ rest);
            Ok (acts ++ acts2, ty2, num2)
          else mril_scan (cmd ++ [c]) ty num (b :: body ++ rest)
        else Ub OobWrite
      else mril_scan cmd ty num (b :: body ++ rest)).
    destruct (Z.eqb_spec c 35); [congruence|]. destruct (Z.eqb_spec c 40); [congruence|]. cbn [orb].
    rewrite HA. unfold MRIL_COMMAND_SIZE. destruct (Z.ltb_spec (zlen cmd) 20); [|lia].
    assert (CF : cmd_finished (b :: body ++ rest) = false).
    { cbn. rewrite B2. apply Z.eqb_neq in B3, B4. now rewrite B3, B4. }
    rewrite CF, IH; auto.
    + rewrite <- app_assoc. reflexivity.
    + rewrite zlen_app. change (zlen [c]) with 1. lia.
Qed.

(** a command: capital letter followed by digits, points and minus signs *)
Definition chunk (c : list Z) : Prop :=
  match c with
  | sym :: body => isupper sym = true /\ Forall bodyc body /\ zlen c <= 19
  | [] => False
  end.

Lemma chunk_head_finishes cs : Forall chunk cs -> cmd_finished (concat cs) = true.
Proof.
  intros H. destruct H as [|c cs Hc H]; [reflexivity|].
  destruct c as [|sym body]; [destruct Hc|]. cbn. destruct Hc as (-> & _). reflexivity.
Qed.

(** run the commands one after the other *)
Fixpoint run_chunks (ty : ctype) (num : Z) (cs : list (list Z)) : res (list act * ctype * Z) :=
  match cs with
  | [] => Ok ([], ty, num)
  | c :: r => do (a, t1, n1) <- mril_command c num;
              do (b, t2, n2) <- run_chunks t1 n1 r; Ok (a ++ b, t2, n2)
  end.

Lemma scan_chunks cs : forall ty num, Forall chunk cs ->
  mril_scan [] ty num (concat cs) = run_chunks ty num cs.
Proof.
  induction cs as [|c cs IH]; intros ty num H; [reflexivity|].
  inversion H as [|? ? Hc H']; subst. cbn [concat run_chunks].
  destruct c as [|sym body]; [destruct Hc|]. destruct Hc as (H1 & H2 & H3).
  destruct (upper_accepts sym H1) as (A1 & A2 & A3). cbn [app].
  rewrite zlen_cons in H3.
  rewrite scan_body; auto.
  - cbn [app]. destruct (mril_command (sym :: body) num) as [[[a t1] n1]|]; cbn [bind]; auto.
    now rewrite IH.
  - change (zlen (@nil Z)) with 0. lia.
  - now apply chunk_head_finishes.
Qed.

(** ** the commands of the specification *)
Lemma body_digits ds : Forall digit_ok ds -> Forall bodyc (show_digits ds).
Proof. intros H. apply Forall_forall. intros c Hc. left. eapply show_char; eauto. Qed.
Lemma body_num n : numeral_ok n -> Forall bodyc (show_num n).
Proof.
  intros [H1 H2]. unfold show_num. apply Forall_app; split.
  - destruct (nneg n); constructor; [right; auto|constructor].
  - apply Forall_app; split; [now apply body_digits|].
    destruct (nfrac n) as [f|]; constructor; [right; auto|]. apply body_digits. tauto.
Qed.
Lemma body_int s ds : int_ok s ds -> Forall bodyc (show_int s ds).
Proof.
  intros (_ & H & _). unfold show_int. apply Forall_app; split; [|now apply body_digits].
  destruct s; constructor; [right; auto|constructor].
Qed.
Lemma body_digit d : digit_ok d -> bodyc (48 + d).
Proof. unfold digit_ok, bodyc. lia. Qed.

Lemma show_chunk c : command_ok c -> chunk (show c).
Proof.
  intros [HL H]. unfold chunk.
  assert (K : match show c with sym :: body => isupper sym = true /\ Forall bodyc body | [] => False end).
  2:{ destruct (show c); auto. tauto. }
  destruct c as [| |a|j|s ds|n|a n|j n|p l|p l|s ds|s ds|l n]; cbn [show].
  - split; [reflexivity|constructor].
  - split; [reflexivity|constructor].
  - split; [now destruct a|constructor].
  - split; [reflexivity|]. constructor; [now apply body_digit|constructor].
  - split; [reflexivity|]. now apply body_int.
  - split; [reflexivity|]. now apply body_num.
  - split; [now destruct a|]. now apply body_num.
  - split; [reflexivity|]. destruct H. constructor; [now apply body_digit|now apply body_num].
  - destruct H. split; [reflexivity|]. constructor; [now apply body_digit|]; constructor; [now apply body_digit|constructor].
  - destruct H. split; [reflexivity|]. constructor; [now apply body_digit|]; constructor; [now apply body_digit|constructor].
  - split; [reflexivity|]. now apply body_int.
  - split; [reflexivity|]. now apply body_int.
  - destruct H as [[H1 H2] H3]. split.
    + unfold isupper. apply andb_true_iff; split; apply Z.leb_le; lia.
    + destruct n as [n|]; [now apply body_num|constructor].
Qed.

Lemma show_num_ne n : numeral_ok n -> show_num n <> [].
Proof.
  intros [H1 H2]. unfold show_num. destruct (nneg n); [discriminate|]. cbn [app].
  destruct (nfrac n) as [f|].
  - destruct (show_digits (nint n)); discriminate.
  - destruct (nint n); [congruence|discriminate].
Qed.
Lemma show_int_ne s ds : int_ok s ds -> show_int s ds <> [].
Proof. intros (H & _). unfold show_int. destruct s; [discriminate|]. destruct ds; [congruence|discriminate]. Qed.

Definition new_number (c : command) (num : Z) : Z :=
  match c with Number s d => int_val s d | _ => num end.

Lemma digit_opt_show d : digit_ok d -> digit_opt (48 + d) = d.
Proof. unfold digit_ok, digit_opt. intros H. rewrite u32_small; lia. Qed.

Lemma command_meaning c num : command_ok c ->
  mril_command (show c) num = Ok (meaning c, kind c, new_number c num).
Proof.
  intros [HL H].
  assert (HS : (MRIL_COMMAND_SIZE <=? zlen (show c)) = false).
  { apply Z.leb_gt. unfold MRIL_COMMAND_SIZE. lia. }
  destruct c as [| |a|j|s ds|n|a n|j n|p l|p l|s ds|s ds|l n]; cbn [show] in *;
    unfold mril_command; rewrite HS; clear HS HL.
  - reflexivity.
  - reflexivity.
  - destruct a; reflexivity.
  - cbn [Z.eqb Pos.eqb pose_index]. unfold cmd_at.
    change (1 <? zlen [82; 48 + j]) with true. cbv iota. change (Z.to_nat 1) with 1%nat. cbn [nth bind].
    rewrite digit_opt_show by auto. change (zlen [82; 48 + j] <=? 2) with true. cbv iota.
    cbn [meaning kind new_number]. destruct (Z.leb_spec 6 j), (Z.ltb_spec j 6); try lia; reflexivity.
  - pose proof (show_int_ne s ds H). destruct (show_int s ds) as [|x t] eqn:E; [congruence|].
    cbn [Z.eqb Pos.eqb]. rewrite <- E, atoi_show by auto. cbn [bind]. reflexivity.
  - pose proof (show_num_ne n H). destruct (show_num n) as [|x t] eqn:E; [congruence|].
    cbn [Z.eqb Pos.eqb]. rewrite <- E, atof_show by auto. reflexivity.
  - pose proof (show_num_ne n H). destruct (show_num n) as [|x t] eqn:E; [congruence|].
    rewrite <- E. rewrite atof_show by auto.
    destruct a; cbn [axis_letter Z.eqb Pos.eqb pose_index]; reflexivity.
  - destruct H as [Hj Hn]. cbn [Z.eqb Pos.eqb pose_index]. unfold cmd_at.
    pose proof (show_num_ne n Hn) as Hne.
    assert (Z3 : 3 <= zlen (82 :: 48 + j :: show_num n)).
    { rewrite !zlen_cons. destruct (show_num n) as [|x t]; [congruence|]. rewrite zlen_cons.
      pose proof (zlen_nonneg t). lia. }
    destruct (Z.ltb_spec 1 (zlen (82 :: 48 + j :: show_num n))); [|lia].
    change (Z.to_nat 1) with 1%nat. cbn [nth bind]. rewrite digit_opt_show by auto.
    destruct (Z.leb_spec (zlen (82 :: 48 + j :: show_num n)) 2); [lia|].
    cbn [skipn]. rewrite atof_show by auto. cbn [meaning kind new_number].
    destruct (Z.leb_spec 6 j), (Z.ltb_spec j 6); try lia; reflexivity.
  - destruct H. cbn [Z.eqb Pos.eqb pose_index]. unfold cmd_at.
    change (1 <? zlen [73; 48 + p; 48 + l]) with true.
    change (2 <? zlen [73; 48 + p; 48 + l]) with true. cbv iota.
    change (Z.to_nat 1) with 1%nat. change (Z.to_nat 2) with 2%nat. cbn [nth bind].
    rewrite !digit_opt_show by auto. reflexivity.
  - destruct H. cbn [Z.eqb Pos.eqb pose_index]. unfold cmd_at.
    change (1 <? zlen [79; 48 + p; 48 + l]) with true.
    change (2 <? zlen [79; 48 + p; 48 + l]) with true. cbv iota.
    change (Z.to_nat 1) with 1%nat. change (Z.to_nat 2) with 2%nat. cbn [nth bind].
    rewrite !digit_opt_show by auto. reflexivity.
  - pose proof (show_int_ne s ds H). destruct (show_int s ds) as [|x t] eqn:E; [congruence|].
    cbn [Z.eqb Pos.eqb pose_index]. rewrite <- E, atoi_show by auto. cbn [bind]. reflexivity.
  - pose proof (show_int_ne s ds H). destruct (show_int s ds) as [|x t] eqn:E; [congruence|].
    cbn [Z.eqb Pos.eqb pose_index]. rewrite <- E, atoi_show by auto. cbn [bind]. reflexivity.
  - destruct H as [[H1 H2] H3]. cbn [In] in H2.
    repeat match goal with |- context [l =? ?k] => 
      replace (l =? k) with false by (symmetry; apply Z.eqb_neq; intros ->; tauto) end.
    unfold pose_index.
    repeat match goal with |- context [l =? ?k] => 
      replace (l =? k) with false by (symmetry; apply Z.eqb_neq; intros ->; tauto) end.
    cbn [meaning kind new_number]. destruct n as [n|]; [|reflexivity].
    pose proof (show_num_ne n H3). destruct (show_num n); [congruence|reflexivity].
Qed.

Lemma run_commands cs : forall ty num, Forall command_ok cs ->
  run_chunks ty num (map show cs) =
  Ok (flat_map meaning cs, fold_left (fun _ c => kind c) cs ty,
      fold_left (fun n c => match c with Number s d => int_val s d | _ => n end) cs num).
Proof.
  induction cs as [|c cs IH]; intros ty num H; [reflexivity|].
  inversion H; subst. cbn [map run_chunks flat_map fold_left].
  rewrite command_meaning by auto. cbn [bind]. rewrite IH by auto. cbn [bind].
  destruct c; reflexivity.
Qed.

Lemma parse_commands cs : cs <> [] -> Forall command_ok cs ->
  mril_parse (text_of cs) = Ok (instruction_acts cs, instruction_number cs).
Proof.
  intros Hne H.
  assert (HC : Forall chunk (map show cs)).
  { apply Forall_map. eapply Forall_impl; [|exact H]. apply show_chunk. }
  assert (E : text_of cs = concat (map show cs)) by apply flat_map_concat_map.
  unfold mril_parse. rewrite E.
  destruct (concat (map show cs)) as [|x t] eqn:EC.
  { exfalso. destruct cs as [|c cs]; [congruence|]. cbn in EC. inversion HC as [|? ? K _]; subst.
    destruct (show c); [destruct K|discriminate]. }
  rewrite <- EC, scan_chunks, run_commands by auto. cbn [bind].
  unfold instruction_acts, instruction_number, last_kind, number_of. reflexivity.
Qed.
